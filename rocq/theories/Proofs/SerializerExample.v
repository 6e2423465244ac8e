(** A serializer of expressions, to show that there are faithful ones. *)
From Coq Require Import ZArith Bool String Ascii List Lia.
From Verif Require Import Model.Base Model.Filters Model.Table Spec.TableSpec.
Import ListNotations.
Open Scope Z_scope.
Open Scope list_scope.

Fixpoint put_string (s : string) : list Z :=
  match s with
  | EmptyString => [0]
  | String a s => 1 :: Z.of_N (N_of_ascii a) :: put_string s
  end.
Definition put_value (v : value) : list Z :=
  match v with
  | Time t => [0; t]
  | Boolean b => [1; if b then 1 else 0]
  | Null => [2]
  | Value v => [3; v]
  | Text s => 4 :: put_string s
  end.
Definition put_operator (op : operator) : Z :=
  match op with
  | Eq => 0 | NotEq => 1 | Lt => 2 | LtEq => 3 | Gt => 4 | GtEq => 5 | And => 6 | Or => 7
  | Operator id => 8 + Z.of_nat id
  end.
Fixpoint put (e : expr) : list Z :=
  match e with
  | Column name => 0 :: put_string name
  | Literal v => 1 :: put_value v
  | Binary l op r => 2 :: put_operator op :: put l ++ put r
  | Apply id arguments =>
      3 :: Z.of_nat id :: Z.of_nat (length arguments) :: flat_map put arguments
  end.

Fixpoint get_string (bytes : list Z) : option (string * list Z) :=
  match bytes with
  | 0 :: rest => Some (EmptyString, rest)
  | _ :: a :: rest =>
      match get_string rest with
      | Some (s, rest) => Some (String (ascii_of_N (Z.to_N a)) s, rest)
      | None => None
      end
  | _ => None
  end.
Definition get_value (bytes : list Z) : option (value * list Z) :=
  match bytes with
  | 0 :: t :: rest => Some (Time t, rest)
  | 1 :: b :: rest => Some (Boolean (b =? 1), rest)
  | 2 :: rest => Some (Null, rest)
  | 3 :: v :: rest => Some (Value v, rest)
  | _ :: rest => match get_string rest with Some (s, rest) => Some (Text s, rest) | None => None end
  | [] => None
  end.
Definition get_operator (z : Z) : operator :=
  match z with
  | 0 => Eq | 1 => NotEq | 2 => Lt | 3 => LtEq | 4 => Gt | 5 => GtEq | 6 => And | 7 => Or
  | _ => Operator (Z.to_nat (z - 8))
  end.
Fixpoint get (fuel : nat) (bytes : list Z) : option (expr * list Z) :=
  match fuel with
  | O => None
  | S fuel =>
      match bytes with
      | 0 :: rest =>
          match get_string rest with Some (s, rest) => Some (Column s, rest) | None => None end
      | 1 :: rest =>
          match get_value rest with Some (v, rest) => Some (Literal v, rest) | None => None end
      | 2 :: op :: rest =>
          match get fuel rest with
          | Some (l, rest) =>
              match get fuel rest with
              | Some (r, rest) => Some (Binary l (get_operator op) r, rest)
              | None => None
              end
          | None => None
          end
      | 3 :: id :: n :: rest =>
          match (fix get_all (n : nat) (bytes : list Z) : option (list expr * list Z) :=
                   match n with
                   | O => Some ([], bytes)
                   | S n => match get fuel bytes with
                            | Some (e, rest) =>
                                match get_all n rest with
                                | Some (es, rest) => Some (e :: es, rest)
                                | None => None
                                end
                            | None => None
                            end
                   end) (Z.to_nat n) rest with
          | Some (es, rest) => Some (Apply (Z.to_nat id) es, rest)
          | None => None
          end
      | _ => None
      end
  end.

Lemma get_put_string : forall s rest, get_string (put_string s ++ rest) = Some (s, rest).
Proof.
  induction s as [|a s IH]; intros rest; cbn [put_string app get_string]; [reflexivity|].
  rewrite IH, N2Z.id, ascii_N_embedding. reflexivity.
Qed.
Lemma get_put_value : forall v rest, get_value (put_value v ++ rest) = Some (v, rest).
Proof.
  intros [t|b| |v|s] rest; cbn [put_value app get_value]; try reflexivity.
  - now destruct b.
  - now rewrite get_put_string.
Qed.
Lemma get_put_operator : forall op, get_operator (put_operator op) = op.
Proof.
  intros [| | | | | | | |id]; try reflexivity. cbn [put_operator]. unfold get_operator.
  replace (8 + Z.of_nat id) with (Z.pos (Pos.of_nat (8 + id))) by lia.
  remember (Pos.of_nat (8 + id)) as p eqn:E.
  assert (H : Z.to_nat (Z.pos p - 8) = id) by lia. assert (G : (8 <= p)%positive) by lia.
  rewrite H. clear - G.
  destruct p as [[[|[]|]|[|[]|]|]|[[|[]|]|[|[]|]|]|]; try reflexivity; lia.
Qed.

(** The depth of an expression. *)
Fixpoint depth (e : expr) : nat :=
  match e with
  | Column _ | Literal _ => 1
  | Binary l _ r => S (depth l + depth r)
  | Apply _ arguments => S (list_sum (map depth arguments))
  end.

Lemma get_put : forall fuel e rest, (depth e <= fuel)%nat ->
  get fuel (put e ++ rest) = Some (e, rest).
Proof.
  induction fuel as [|fuel get_put]; intros [name|v|l op r|id arguments] rest H;
    cbn [depth] in H; try lia.
  - cbn [put app get]. now rewrite get_put_string.
  - cbn [put app get]. now rewrite get_put_value.
  - cbn [put app get]. rewrite <- app_assoc, (get_put l), (get_put r), get_put_operator by lia.
    reflexivity.
  - cbn [put app get]. rewrite !Nat2Z.id.
    assert (X : forall args, (list_sum (map depth args) <= fuel)%nat ->
      (fix get_all (n : nat) (bytes : list Z) : option (list expr * list Z) :=
         match n with
         | O => Some ([], bytes)
         | S n => match get fuel bytes with
                  | Some (e, rest) =>
                      match get_all n rest with
                      | Some (es, rest) => Some (e :: es, rest)
                      | None => None
                      end
                  | None => None
                  end
         end) (length args) (flat_map put args ++ rest) = Some (args, rest)).
    { clear H id. induction args as [|e args IH]; intros H; [reflexivity|].
      cbn [map list_sum fold_right] in H. change (fold_right Nat.add 0%nat (map depth args))
        with (list_sum (map depth args)) in H.
      cbn [length flat_map]. rewrite <- app_assoc.
      assert (E : get fuel (put e ++ flat_map put args ++ rest)
                  = Some (e, flat_map put args ++ rest)) by (apply get_put; lia).
      rewrite E, IH by lia. reflexivity. }
    rewrite X by lia. reflexivity.
Qed.

(** The bytes of an expression with its depth in front. *)
Definition example_serializer : serializer :=
  {| to_bytes e := Z.of_nat (depth e) :: put e;
     from_bytes bytes :=
       match bytes with
       | fuel :: rest =>
           match get (Z.to_nat fuel) rest with Some (e, _) => Ok e | None => Err end
       | [] => Err
       end |}.

Lemma example_faithful : faithful example_serializer.
Proof.
  intros e. split; [|discriminate]. unfold example_serializer. cbn [from_bytes to_bytes].
  rewrite Nat2Z.id. pose proof (get_put (depth e) e [] (Nat.le_refl _)) as E.
  rewrite app_nil_r in E. now rewrite E.
Qed.
