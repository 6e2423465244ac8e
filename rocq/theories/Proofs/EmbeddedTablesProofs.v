(** Proofs about dropping, truncating and vacuuming a table through the embedded library. *)
From Coq Require Import ZArith Bool Ascii String List Lia.
From Verif Require Import Model.Base Model.Sql Model.Statements Model.EmbeddedTables
  Spec.StatementSpec Spec.EmbeddedTablesSpec Proofs.SqlProofs Proofs.StatementProofs.
Import ListNotations.
Open Scope string_scope.
Open Scope list_scope.

(** Numbers are written such that they are read again. *)
Lemma digit_of_digit : forall z, (0 <= z < 10)%Z ->
  digit (digit_of z) = true /\ digit_value (digit_of z) = z.
Proof.
  intros z H. assert (z = 0 \/ z = 1 \/ z = 2 \/ z = 3 \/ z = 4 \/ z = 5 \/ z = 6 \/ z = 7 \/ z = 8 \/ z = 9)%Z
    as C by lia.
  repeat (destruct C as [->|C]; [split; reflexivity|]). subst z. split; reflexivity.
Qed.
Lemma decimal_digits : forall fuel z rest, (0 <= z)%Z ->
  Forall (fun c => digit c = true) rest -> Forall (fun c => digit c = true) (decimal fuel z rest).
Proof.
  induction fuel as [|fuel IH]; intros z rest Hz F; [exact F|]. cbn [decimal].
  assert (F' : Forall (fun c => digit c = true) (digit_of (z mod 10) :: rest)).
  { constructor; [|exact F]. apply digit_of_digit. apply Z.mod_pos_bound. lia. }
  destruct (z <? 10)%Z; [exact F'|]. apply IH; [|exact F']. apply Z.div_pos; lia.
Qed.
Lemma decimal_number : forall fuel z rest a, (0 <= z < 10 ^ Z.of_nat fuel)%Z ->
  exists k, (1 <= 10 ^ k)%Z /\ (0 <= k)%Z
    /\ number (decimal fuel z rest) a = number rest (a * 10 ^ k + z).
Proof.
  induction fuel as [|fuel IH]; intros z rest a Hz.
  - exists 0%Z. cbn [decimal]. change (10 ^ 0)%Z with 1%Z. split; [lia|]. split; [lia|].
    change (10 ^ Z.of_nat 0)%Z with 1%Z in Hz. f_equal. lia.
  - cbn [decimal].
    assert (D : (0 <= z mod 10 < 10)%Z) by (apply Z.mod_pos_bound; lia).
    destruct (digit_of_digit (z mod 10) D) as (D1 & D2).
    destruct (Z.ltb_spec z 10) as [L|L].
    + exists 1%Z. split; [lia|]. split; [lia|]. cbn [number]. rewrite D1, D2. f_equal.
      rewrite Z.mod_small by lia. lia.
    + destruct (IH (z / 10)%Z (digit_of (z mod 10) :: rest) a) as (k & K1 & K2 & K3).
      { split; [apply Z.div_pos; lia|]. apply Z.div_lt_upper_bound; [lia|].
        rewrite Nat2Z.inj_succ, Z.pow_succ_r in Hz by lia. lia. }
      exists (k + 1)%Z. rewrite Z.pow_add_r by lia. change (10 ^ 1)%Z with 10%Z.
      split; [lia|]. split; [lia|]. rewrite K3. cbn [number]. rewrite D1, D2. f_equal.
      pose proof (Z.div_mod z 10 ltac:(lia)). lia.
Qed.
Lemma decimal_not_empty : forall fuel z rest, (fuel <> 0)%nat -> decimal fuel z rest <> [].
Proof.
  assert (G : forall fuel z c rest, decimal fuel z (c :: rest) <> []).
  { induction fuel as [|fuel IH]; intros z c rest; [discriminate|]. cbn [decimal].
    destruct (z <? 10)%Z; [discriminate|apply IH]. }
  intros [|fuel] z rest N; [contradiction|]. cbn [decimal].
  destruct (z <? 10)%Z; [discriminate|apply G].
Qed.

Lemma decimal_parsed : forall z, (0 <= z < 2 ^ 64)%Z -> parse_u64 (decimal 20 z []) = Ok z.
Proof.
  intros z Hz. unfold parse_u64. destruct (decimal_number 20 z [] 0) as (k & _ & _ & ->).
  - change (10 ^ Z.of_nat 20)%Z with 100000000000000000000%Z. lia.
  - cbn [number]. rewrite Z.mul_0_l, Z.add_0_l. destruct (Z.ltb_spec z (2 ^ 64)); [reflexivity|lia].
Qed.

Lemma digit_not_start : forall c, digit c = true ->
  whitespace c = false /\ identifier_start c = false.
Proof. intros [[] [] [] [] [] [] [] []]; vm_compute; auto; discriminate. Qed.
Lemma read_digits : forall l w, Forall (fun c => digit c = true) l ->
  tokenize (string_of_list_ascii l) (In_number w) = Ok [Number (rev w ++ l)].
Proof.
  induction l as [|c l IH]; intros w F.
  - cbn. now rewrite app_nil_r.
  - inversion F as [|? ? F1 F2]; subst. cbn [string_of_list_ascii tokenize]. rewrite F1.
    cbn [orb]. rewrite IH by exact F2. cbn [rev]. now rewrite <- app_assoc.
Qed.
Lemma read_number : forall l, l <> [] -> Forall (fun c => digit c = true) l ->
  tokenize (string_of_list_ascii l) Nothing = Ok [Number l].
Proof.
  intros [|c l] N F; [contradiction|]. inversion F as [|? ? F1 F2]; subst.
  cbn [string_of_list_ascii tokenize]. unfold begin. destruct (digit_not_start c F1) as (-> & ->).
  rewrite F1, read_digits by exact F2. reflexivity.
Qed.

(** What is sent. *)
Lemma plain_keyword : plain "VACUUM" /\ plain "RETAIN".
Proof. split; now apply plain_bool. Qed.

Lemma vacuum_tokens : forall x z, plain x -> (0 <= z)%Z ->
  tokenize ("VACUUM " ++ x ++ " RETAIN " ++ show z)%string Nothing
  = Ok [Word "VACUUM" false; Word x false; Word "RETAIN" false; Number (decimal 20 z [])].
Proof.
  intros x z P Hz.
  change ("VACUUM " ++ x ++ " RETAIN " ++ show z)%string
    with ("VACUUM" ++ String " " (x ++ String " " ("RETAIN" ++ String " " (show z))))%string.
  apply read_keyword; [apply plain_keyword|]. apply read_keyword; [exact P|].
  apply read_keyword; [apply plain_keyword|]. apply read_number.
  - now apply decimal_not_empty.
  - apply decimal_digits; [exact Hz|constructor].
Qed.

Lemma vacuum_parsed : forall x z, plain x -> map_string to_upper x <> "CLUSTER" ->
  map_string to_upper x <> "RETAIN" -> (0 <= z < 2 ^ 64)%Z ->
  parse_sql ("VACUUM " ++ x ++ " RETAIN " ++ show z)%string
  = if (z >? max_retention)%Z then Err else Ok (Vacuum [x] (Some z) false).
Proof.
  intros x z P N1 N2 Hz. unfold parse_sql. rewrite vacuum_tokens by (exact P || lia). cbn [bind].
  unfold parse_tokens. change (is_keyword "VACUUM" (Word "VACUUM" false)) with true. cbn iota.
  unfold parse_vacuum, parse_cluster, parse_optional_names.
  assert (K1 : is_keyword "CLUSTER" (Word x false) = false).
  { cbn [is_keyword]. now apply String.eqb_neq. }
  assert (K2 : is_keyword "RETAIN" (Word x false) = false).
  { cbn [is_keyword]. now apply String.eqb_neq. }
  rewrite K1, K2. cbn [parse_table_names bind]. unfold parse_retention.
  change (is_keyword "RETAIN" (Word "RETAIN" false)) with true. cbn iota.
  rewrite (decimal_parsed z Hz). cbn [bind]. destruct (z >? max_retention)%Z; [reflexivity|].
  cbn [bind forallb]. do 2 f_equal. apply split_terminator_join.
  - constructor; [|constructor]. now apply plain_char.
  - intros _. cbn [last]. destruct P as (c & s & -> & _). discriminate.
Qed.

Lemma each_one : forall f x db, each f [x] db = unchanged (f x) db.
Proof. intros f x db. cbn [each]. unfold unchanged. now destruct (f x db). Qed.

Lemma u64_period : forall z, (0 <= z < 2 ^ 64 - max_retention - 1)%Z -> (z > max_retention)%Z ->
  time_delta (as_i64 z) = None.
Proof.
  intros z H G. assert (M : (0 < max_retention < 2 ^ 62)%Z) by (split; now vm_compute). unfold time_delta, as_i64.
  destruct (Z.lt_ge_cases z (2 ^ 63)) as [L|L].
  - rewrite Z.mod_small by lia.
    replace (z + 2 ^ 63 - 2 ^ 63 >? max_retention)%Z with true; [now rewrite orb_true_r|].
    symmetry. rewrite Z.gtb_lt. lia.
  - replace ((z + 2 ^ 63) mod 2 ^ 64)%Z with (z - 2 ^ 63)%Z.
    + replace (z - 2 ^ 63 - 2 ^ 63 <? - max_retention - 1)%Z with true; [reflexivity|].
      symmetry. rewrite Z.ltb_lt. lia.
    + replace (z + 2 ^ 63)%Z with (z - 2 ^ 63 + 1 * 2 ^ 64)%Z by lia.
      rewrite Z.mod_add, Z.mod_small; lia.
Qed.

Lemma same_operations : forall o x db, plain x -> not_in_statement o x -> not_negative o ->
  client o x db = folder o x db.
Proof.
  intros o x db P N R. unfold client, folder.
  assert (F : Forall plain [x]) by (constructor; [exact P|constructor]).
  destruct o as [| |[z|]]; cbn [sent not_in_statement not_negative] in *.
  - change x with (join ", " [x]) at 1. rewrite drop_text by (discriminate || exact F).
    cbn [run execute]. apply each_one.
  - change x with (join ", " [x]) at 1. rewrite truncate_text.
    + cbn [run execute]. apply each_one.
    + discriminate.
    + exact F.
    + intros n l E. assert (x = n) as -> by congruence. exact N.
  - destruct N as (N1 & N2). change ((2 ^ 63 - 1) / 1000)%Z with max_retention in R.
    assert (M : (0 < max_retention < 2 ^ 62)%Z) by (split; now vm_compute).
    rewrite vacuum_parsed by (assumption || lia).
    destruct (Z.gtb_spec z max_retention) as [G|G].
    + cbn [run]. unfold unchanged, vacuum_table. rewrite u64_period by lia.
      now destruct (exists_table x db).
    + cbn [run execute]. apply each_one.
  - change x with (join ", " [x]) at 1. rewrite vacuum_text.
    + cbn [run execute]. apply each_one.
    + discriminate.
    + exact F.
    + intros n l E. assert (x = n) as -> by congruence. exact N.
Qed.

(** What is done to the tables of a data folder. *)
Lemma one_done : forall f x e db,
  match f db with
  | Ok db' => lookup x db <> None /\ affects_one x e db db' /\ True
  | Err => lookup x db = None
  | Panic => False
  end -> one_table x e db (unchanged f db).
Proof.
  intros f x e db H. unfold one_table, unchanged. destruct (f db) as [db'| |].
  - destruct H as (E & A & _). destruct (lookup x db) as [t|] eqn:L; [|congruence].
    cbn [fst snd]. split; [reflexivity|]. split.
    + rewrite (A x), L. now rewrite String.eqb_refl.
    + intros y Ny. rewrite (A y). destruct (lookup y db) as [u|]; [|reflexivity].
      now destruct (String.eqb_spec y x).
  - now rewrite H.
  - contradiction.
Qed.

Lemma folder_done : forall o x db, allowed o -> (o = Drop_it -> own_folders [x] db) ->
  one_table x (effect o) db (folder o x db).
Proof.
  intros o x db A O. unfold folder. destruct o as [| |retention]; apply one_done; cbn [effect].
  - pose proof (drop_one x [x] db (or_introl eq_refl) (O eq_refl)) as D.
    destruct (drop_table x db); [|exact D|exact D]. destruct D as (D1 & D2 & _). auto.
  - apply truncate_one.
  - apply (vacuum_one retention x db). destruct retention as [z|]; cbn [period_of allowed] in *.
    + exact A.
    + split; [lia|]. now vm_compute.
Qed.

Lemma client_done : forall o x db, plain x -> not_in_statement o x -> allowed o ->
  (o = Drop_it -> own_folders [x] db) -> one_table x (effect o) db (client o x db).
Proof.
  intros o x db P N A O. rewrite same_operations; [now apply folder_done|exact P|exact N|].
  destruct o as [| |[z|]]; cbn [allowed not_negative] in *; try exact I.
  assert (M : ((2 ^ 63 - 1) / 1000 < 2 ^ 62)%Z) by now vm_compute. lia.
Qed.

(** Retention periods that are negative as numbers of type i64. *)
Lemma negative_period : forall z x db t, (2 ^ 64 - max_retention - 1 <= z < 2 ^ 64)%Z ->
  plain x -> not_in_statement (Vacuum_it (Some z)) x -> lookup x db = Some t ->
  Forall (fun f => (0 <= snd f)%Z) (stale t) ->
  client (Vacuum_it (Some z)) x db = (db, Err)
  /\ snd (folder (Vacuum_it (Some z)) x db) = Ok tt
  /\ lookup x (fst (folder (Vacuum_it (Some z)) x db)) = Some (Table (definition t) (used t) []).
Proof.
  intros z x db t H P N L F. assert (M : (0 < max_retention < 2 ^ 62)%Z) by (split; now vm_compute).
  split.
  - unfold client. cbn [sent]. destruct N as (N1 & N2). rewrite vacuum_parsed by (assumption || lia).
    destruct (Z.gtb_spec z max_retention); [reflexivity|lia].
  - unfold folder, unchanged, vacuum_table.
    assert (E : exists_table x db = true) by (apply exists_iff; congruence). rewrite E.
    assert (A : as_i64 z = (z - 2 ^ 64)%Z).
    { unfold as_i64. replace (z + 2 ^ 63)%Z with (z - 2 ^ 63 + 1 * 2 ^ 64)%Z by lia.
      rewrite Z.mod_add by lia. rewrite Z.mod_small by lia. lia. }
    rewrite A. unfold time_delta.
    destruct (Z.ltb_spec (z - 2 ^ 64) (- max_retention - 1)); [lia|]. rewrite Z.gtb_ltb.
    destruct (Z.ltb_spec max_retention (z - 2 ^ 64)); [lia|]. cbn [orb fst snd].
    split; [reflexivity|]. rewrite lookup_change, L. cbn [option_map]. rewrite String.eqb_refl.
    unfold vacuumed. do 2 f_equal. clear - F H. induction F as [|f l Hf F IH]; [reflexivity|].
    cbn [filter]. destruct (Z.leb_spec (snd f) (z - 2 ^ 64)); [lia|exact IH].
Qed.

(** Names that are not plain. *)
Definition stock : database :=
  [("wind", Table 1 [11; 12] [(10, 700000); (9, 5)])%Z; ("solar", Table 2 [21] [(20, 700001)])%Z].

Lemma other_names : exists x db, lookup x db = None
  /\ snd (folder Drop_it x db) = Err /\ client Drop_it x db = ([], Ok tt) /\ db <> []
  /\ snd (folder Truncate_it x db) = Err
  /\ (exists db', client Truncate_it x db = (db', Ok tt) /\ Forall (fun p => used (snd p) = []) db').
Proof.
  exists "wind, solar", stock. split; [reflexivity|]. split; [reflexivity|].
  split; [vm_compute; reflexivity|]. split; [discriminate|]. split; [reflexivity|].
  eexists. split; [vm_compute; reflexivity|]. repeat constructor.
Qed.

Lemma empty_name : forall db, client (Vacuum_it None) "" db = run (parse_sql "VACUUM") db.
Proof. intros db. unfold client. f_equal. Qed.
Lemma empty_name_all : exists db, lookup "" db = None
  /\ (exists db', client (Vacuum_it None) "" db = (db', Ok tt)
        /\ lookup "wind" db' <> lookup "wind" db /\ lookup "solar" db' <> lookup "solar" db)
  /\ folder (Vacuum_it None) "" db = (db, Err).
Proof.
  exists stock. split; [reflexivity|]. split; [|reflexivity]. eexists.
  split; [vm_compute; reflexivity|]. split; discriminate.
Qed.

Lemma stock_example :
  plain "wind" /\ not_in_statement (Vacuum_it (Some 4%Z)) "wind" /\ allowed (Vacuum_it (Some 4%Z))
  /\ own_folders ["wind"] stock
  /\ sent (Vacuum_it (Some 86400%Z)) "wind" = "VACUUM wind RETAIN 86400"
  /\ client (Vacuum_it (Some 4%Z)) "wind" stock
     = ([("wind", Table 1 [11; 12] []); ("solar", Table 2 [21] [(20, 700001)])]%Z, Ok tt)
  /\ client Drop_it "wind" stock = ([("solar", Table 2 [21] [(20, 700001)])]%Z, Ok tt)
  /\ client (Vacuum_it (Some 18446744073709551615%Z)) "wind" stock = (stock, Err)
  /\ folder (Vacuum_it (Some 18446744073709551615%Z)) "wind" stock
     = ([("wind", Table 1 [11; 12] []); ("solar", Table 2 [21] [(20, 700001)])]%Z, Ok tt).
Proof.
  split; [now apply plain_bool|]. split; [split; discriminate|]. split; [split; now vm_compute|].
  split.
  - intros x y [<-|[]] L S. destruct (String.eqb_spec y "wind") as [E|E]; [exact E|]. exfalso.
    unfold stock in L. rewrite !lookup_cons in L. destruct (String.eqb_spec "wind" y); [congruence|].
    destruct (String.eqb_spec "solar" y) as [Q|]; [rewrite <- Q in S; vm_compute in S; discriminate|].
    now apply L.
  - repeat split; vm_compute; reflexivity.
Qed.
