(** Proofs about creating and dropping tables with crashes. *)
From Coq Require Import ZArith Bool String List Lia Permutation.
From Verif Require Import Model.Base Model.ErrorBound Model.Filters Model.Table Model.Catalog
  Spec.TableSpec Spec.CatalogSpec Proofs.TableProofs Proofs.DefinitionProofs
  Proofs.StoredDefinitionProofs Proofs.InterruptedProofs.
Import ListNotations.
Open Scope nat_scope.
Open Scope list_scope.

(** What concerns the table with a name. *)
Record view := View {
  v_files : list file;
  v_normal : list string;
  v_table : list table_row;
  v_fields : list field_row;
  v_registered : bool;
  v_open : bool;
  v_folder : bool
}.
Definition view_of (s : server) (x : string) : view :=
  let d := on_disk s in
  View (files_of_table x d) (filter (String.eqb x) (normal_rows d))
    (filter (fun r => String.eqb (fst r) x) (table_rows (series_rows d)))
    (rows_for x (series_rows d))
    (contains x (registered s)) (contains x (open_logs s)) (contains x (log_folders d)).

Definition name_of (a : action) : string :=
  match a with
  | Create_delta_table name _ | Add_normal_row name | Register name | Create_log name
  | Deregister name | Remove_log name | Delete_normal_rows name | Delete_table_rows name
  | Delete_field_rows name | Delete_file name _ => name
  | Add_table_row row => fst row
  | Add_field_row row => row_table row
  end.

Definition local_act (a : action) (v : view) : outcome view :=
  let '(View fs ns ts rs r o f) := v in
  match a with
  | Create_delta_table _ p => if existsb is_log fs then Err
                              else Ok (View (fs ++ [Log p 0]) ns ts rs r o f)
  | Add_normal_row name => Ok (View fs (ns ++ [name]) ts rs r o f)
  | Add_table_row row => Ok (View fs ns (ts ++ [row]) rs r o f)
  | Add_field_row row => Ok (View fs ns ts (rs ++ [row]) r o f)
  | Register name => if existsb is_log fs && negb (dotted name) then Ok (View fs ns ts rs true o f) else Err
  | Create_log _ => if o then Err else Ok (View fs ns ts rs r true true)
  | Deregister _ => Ok (View fs ns ts rs false o f)
  | Remove_log _ => if o then Ok (View fs ns ts rs r false false) else Err
  | Delete_normal_rows _ => Ok (View fs [] ts rs r o f)
  | Delete_table_rows _ => Ok (View fs ns [] rs r o f)
  | Delete_field_rows _ => Ok (View fs ns ts [] r o f)
  | Delete_file _ g => Ok (View (filter (fun h => negb (file_eqb h g)) fs) ns ts rs r o f)
  end.

(** Lists of names. *)
Lemma contains_app : forall x l k, contains x (l ++ k) = contains x l || contains x k.
Proof. intros. apply existsb_app. Qed.
Lemma contains_In : forall x l, contains x l = true <-> In x l.
Proof.
  intros x l. unfold contains. rewrite existsb_exists. split.
  - intros (y & H & E). apply String.eqb_eq in E. now subst.
  - intros H. exists x. split; [exact H|apply String.eqb_refl].
Qed.
Lemma contains_remove : forall x y l,
  contains x (remove_name y l) = negb (String.eqb y x) && contains x l.
Proof.
  intros x y l. unfold contains, remove_name. induction l as [|z l IH]; cbn [filter existsb].
  - now rewrite andb_false_r.
  - destruct (String.eqb_spec z y) as [->|N]; cbn [negb existsb].
    + rewrite IH. destruct (String.eqb_spec y x) as [->|N2]; cbn [negb andb]; [reflexivity|].
      rewrite (proj2 (String.eqb_neq x y)) by congruence. reflexivity.
    + rewrite IH. destruct (String.eqb_spec y x) as [->|N2]; cbn [negb andb].
      * rewrite (proj2 (String.eqb_neq x z)) by congruence. reflexivity.
      * reflexivity.
Qed.

Lemma filter_filter : forall {A} (f g : A -> bool) l,
  filter f (filter g l) = filter (fun a => g a && f a) l.
Proof.
  intros A f g l. induction l as [|a l IH]; [reflexivity|]. cbn [filter].
  destruct (g a); cbn [filter andb]; [|exact IH]. destruct (f a); now rewrite IH.
Qed.
Lemma filter_none : forall {A} (f : A -> bool) l, (forall a, In a l -> f a = false) ->
  filter f l = [].
Proof.
  intros A f l H. induction l as [|a l IH]; [reflexivity|]. cbn [filter].
  rewrite (H a (or_introl eq_refl)). apply IH. intros b Hb. apply H. now right.
Qed.
Lemma filter_all : forall {A} (f : A -> bool) l, (forall a, In a l -> f a = true) ->
  filter f l = l.
Proof.
  intros A f l H. induction l as [|a l IH]; [reflexivity|]. cbn [filter].
  rewrite (H a (or_introl eq_refl)). f_equal. apply IH. intros b Hb. apply H. now right.
Qed.

(** Deleting by name. *)
Lemma delete_by : forall {A} (key : A -> string) x y l,
  filter (fun a => String.eqb (key a) x) (filter (fun a => negb (String.eqb (key a) y)) l)
  = if String.eqb y x then [] else filter (fun a => String.eqb (key a) x) l.
Proof.
  intros A key x y l. rewrite filter_filter. destruct (String.eqb_spec y x) as [->|N].
  - apply filter_none. intros a _. destruct (String.eqb (key a) x); reflexivity.
  - apply filter_ext. intros a. destruct (String.eqb_spec (key a) y) as [->|N2]; cbn [negb andb].
    + symmetry. now apply String.eqb_neq.
    + reflexivity.
Qed.
Lemma delete_names : forall x y l,
  filter (String.eqb x) (remove_name y l) = if String.eqb y x then [] else filter (String.eqb x) l.
Proof.
  intros x y l. unfold remove_name.
  rewrite (filter_ext (String.eqb x) (fun a => String.eqb a x)) by (intros; apply String.eqb_sym).
  rewrite (delete_by (fun a : string => a)). destruct (String.eqb y x); [reflexivity|].
  apply filter_ext. intros. apply String.eqb_sym.
Qed.

Lemma files_app : forall x d fs, files_of_table x (with_files d fs)
  = map snd (filter (fun f => String.eqb (fst f) x) fs).
Proof. reflexivity. Qed.

Lemma act_view : forall a s,
  match act a s with
  | Ok s' => forall x, Ok (view_of s' x) = if String.eqb (name_of a) x then local_act a (view_of s x)
                                           else Ok (view_of s x)
  | Err => local_act a (view_of s (name_of a)) = Err
  | Panic => False
  end.
Proof.
  intros a s. destruct a as [y p|y|row|row|y|y|y|y|y|y|y|y g];
    cbn [act name_of]; unfold delta_table_exists.
  - destruct (existsb is_log (files_of_table y (on_disk s))) eqn:E.
    + cbn. now rewrite E.
    + intros x. unfold view_of, with_disk, with_files, files_of_table.
      cbn [on_disk files normal_rows series_rows registered open_logs log_folders local_act].
      rewrite filter_app, map_app. cbn [filter fst]. destruct (String.eqb_spec y x) as [->|N].
      * unfold files_of_table in E. rewrite E. reflexivity.
      * now rewrite app_nil_r.
  - intros x. unfold view_of, with_disk, with_normal_rows.
    cbn [on_disk files normal_rows series_rows registered open_logs log_folders local_act].
    rewrite filter_app. cbn [filter]. rewrite (String.eqb_sym x y).
    destruct (String.eqb y x); [reflexivity|now rewrite app_nil_r].
  - intros x. unfold view_of, with_disk, with_series_rows, rows_for.
    cbn [on_disk files normal_rows series_rows registered open_logs log_folders local_act
         table_rows rows_of_fields].
    rewrite filter_app. cbn [filter]. destruct (String.eqb (fst row) x); [reflexivity|].
    now rewrite app_nil_r.
  - intros x. unfold view_of, with_disk, with_series_rows, rows_for.
    cbn [on_disk files normal_rows series_rows registered open_logs log_folders local_act
         table_rows rows_of_fields].
    rewrite filter_app. cbn [filter]. destruct (String.eqb (row_table row) x); [reflexivity|].
    now rewrite app_nil_r.
  - destruct (existsb is_log (files_of_table y (on_disk s)) && negb (dotted y)) eqn:E.
    + intros x. unfold view_of. cbn [on_disk registered open_logs local_act].
      rewrite contains_app. unfold contains at 2. cbn [existsb]. rewrite (String.eqb_sym x y).
      destruct (String.eqb_spec y x) as [->|N].
      * rewrite E. now rewrite orb_true_r.
      * now rewrite !orb_false_r.
    + cbn. now rewrite E.
  - destruct (contains y (open_logs s)) eqn:E.
    + cbn. now rewrite E.
    + intros x. unfold view_of, with_log_folders.
      cbn [on_disk files normal_rows series_rows registered open_logs log_folders local_act].
      rewrite !contains_app. unfold contains at 3 5. cbn [existsb]. rewrite (String.eqb_sym x y).
      destruct (String.eqb_spec y x) as [->|N].
      * rewrite E. now rewrite !orb_true_r.
      * now rewrite !orb_false_r.
  - intros x. unfold view_of. cbn [on_disk registered open_logs local_act].
    rewrite contains_remove. destruct (String.eqb y x); reflexivity.
  - destruct (contains y (open_logs s)) eqn:E.
    + intros x. unfold view_of, with_log_folders.
      cbn [on_disk files normal_rows series_rows registered open_logs log_folders local_act].
      rewrite !contains_remove. destruct (String.eqb_spec y x) as [->|N]; cbn [negb andb].
      * now rewrite E.
      * reflexivity.
    + cbn. now rewrite E.
  - intros x. unfold view_of, with_disk, with_normal_rows.
    cbn [on_disk files normal_rows series_rows registered open_logs log_folders local_act].
    rewrite delete_names. destruct (String.eqb y x); reflexivity.
  - intros x. unfold view_of, with_disk, with_series_rows, rows_for.
    cbn [on_disk files normal_rows series_rows registered open_logs log_folders local_act
         table_rows rows_of_fields].
    rewrite (delete_by fst). destruct (String.eqb y x); reflexivity.
  - intros x. unfold view_of, with_disk, with_series_rows, rows_for.
    cbn [on_disk files normal_rows series_rows registered open_logs log_folders local_act
         table_rows rows_of_fields].
    rewrite (delete_by row_table). destruct (String.eqb y x); reflexivity.
  - intros x. unfold view_of, with_disk, with_files, files_of_table.
    cbn [on_disk files normal_rows series_rows registered open_logs log_folders local_act].
    assert (E : map snd (filter (fun f => String.eqb (fst f) x)
                  (filter (fun h => negb (String.eqb (fst h) y && file_eqb (snd h) g)) (files (on_disk s))))
                = if String.eqb y x
                  then filter (fun h => negb (file_eqb h g))
                         (map snd (filter (fun f => String.eqb (fst f) x) (files (on_disk s))))
                  else map snd (filter (fun f => String.eqb (fst f) x) (files (on_disk s)))).
    { destruct (String.eqb_spec y x) as [->|N].
      - induction (files (on_disk s)) as [|(z, h) l IH]; [reflexivity|].
        cbn [filter fst snd]. destruct (String.eqb_spec z x) as [->|N2]; cbn [andb negb].
        + destruct (file_eqb h g) eqn:Eh; cbn [negb filter map fst snd];
            [rewrite Eh; exact IH|].
          rewrite String.eqb_refl. cbn [map filter snd]. rewrite Eh. cbn [negb]. now rewrite IH.
        + cbn [filter fst]. rewrite (proj2 (String.eqb_neq z x) N2). exact IH.
      - rewrite filter_filter. f_equal. apply filter_ext. intros (z, h). cbn [fst snd].
        destruct (String.eqb_spec z y) as [->|N2]; cbn [andb negb]; [|reflexivity].
        rewrite (proj2 (String.eqb_neq y x) N). now rewrite andb_false_r. }
    rewrite E. destruct (String.eqb y x); reflexivity.
Qed.

Fixpoint local_perform (actions : list action) (v : view) : view * outcome unit :=
  match actions with
  | [] => (v, Ok tt)
  | a :: actions =>
      match local_act a v with
      | Ok v => local_perform actions v
      | Err => (v, Err)
      | Panic => (v, Panic)
      end
  end.

Lemma perform_view : forall y actions s, Forall (fun a => name_of a = y) actions ->
  (forall x, x <> y -> view_of (fst (perform actions s)) x = view_of s x)
  /\ view_of (fst (perform actions s)) y = fst (local_perform actions (view_of s y))
  /\ snd (perform actions s) = snd (local_perform actions (view_of s y)).
Proof.
  intros y actions. induction actions as [|a actions IH]; intros s H; cbn [perform local_perform].
  - auto.
  - inversion H as [|? ? Ha Hr]; subst. pose proof (act_view a s) as V.
    destruct (act a s) as [s'| |].
    + destruct (IH s' Hr) as (I1 & I2 & I3).
      pose proof (V (name_of a)) as Vy. rewrite String.eqb_refl in Vy. rewrite <- Vy.
      split; [|split; [exact I2|exact I3]].
      intros x N. rewrite (I1 x N). specialize (V x).
      rewrite (proj2 (String.eqb_neq _ _)) in V by congruence. congruence.
    + rewrite V. cbn [fst snd]. auto.
    + contradiction.
Qed.

(** The states of a table. *)
Inductive status :=
| Absent
| Leftover
| Normal
| Series (i : nat) (m : metadata).

Section Proofs.
Variable ser : serializer.
Variable ord : list string -> list string.
Variable del : list file -> list file.
Hypothesis Hser : faithful ser.
Hypothesis Hord : enumerates ord.
Hypothesis Hdel : forall l, Permutation (del l) l.

Definition partitioned (fs : list file) : bool :=
  existsb (fun f => match f with Log p _ => p | Data _ => false end) fs.

Definition on_disk_as (v : view) (x : string) (st : status) : Prop :=
  match st with
  | Absent => existsb is_log (v_files v) = false /\ v_normal v = [] /\ v_table v = []
              /\ v_fields v = []
  | Leftover => existsb is_log (v_files v) = true /\ v_normal v = [] /\ v_table v = []
              /\ dotted x = false
  | Normal => existsb is_log (v_files v) = true /\ partitioned (v_files v) = false
              /\ v_normal v = [x] /\ v_table v = [] /\ v_fields v = []
              /\ dotted x = false
  | Series i m => existsb is_log (v_files v) = true /\ partitioned (v_files v) = true
              /\ v_normal v = [] /\ v_table v = [(x, query_schema m)] /\ table_name m = x
              /\ valid_table m /\ i <= length (query_schema m)
              /\ field_rows ser m 0 (firstn i (query_schema m)) = Ok (v_fields v)
              /\ dotted x = false
  end.

Definition has {A} (l : list A) : bool := match l with [] => false | _ => true end.

Definition local_start (v : view) : view :=
  let '(View fs ns ts rs r o f) := v in
  View fs ns ts rs (has ns || has ts) (has ts) (f || has ts).

Definition disk_ok (v : view) (x : string) (st : status) : Prop :=
  on_disk_as v x st /\ (v_folder v = true -> has (v_table v) = true).
Definition holds (v : view) (x : string) (st : status) : Prop :=
  disk_ok v x st /\ local_start v = v.

(** Starting a server. *)
Lemma load_rows_ok : forall s rows,
  Forall (fun r => exists n, load_row ser ord s r = Ok n) rows ->
  exists ms, load_rows ser ord s rows = Ok ms /\ map table_name ms = map fst rows.
Proof.
  intros s rows H. induction H as [|(x, columns) rows (n & E) H IH]; cbn [load_rows map].
  - now exists [].
  - destruct IH as (ms & E2 & E3). rewrite E, E2. cbn [bind]. exists (n :: ms).
    split; [reflexivity|]. cbn [map fst]. f_equal; [|exact E3].
    unfold load_row in E. destruct (load_error_bounds _ _) as [bs| |]; cbn [bind] in E; try discriminate.
    destruct (to_dfschema columns) as [cs| |]; cbn [bind] in E; try discriminate.
    destruct (load_generated _ _ _ _ _) as [gs| |]; cbn [bind] in E; try discriminate.
    now apply try_new_ok in E.
Qed.

Lemma open_all_ok : forall names folders opened, NoDup (opened ++ names) ->
  exists folders', open_all names folders opened = Ok (folders', opened ++ names)
    /\ forall x, contains x folders' = contains x folders || contains x names.
Proof.
  induction names as [|name names IH]; intros folders opened ND; cbn [open_all].
  - exists folders. rewrite app_nil_r. split; [reflexivity|]. intros x.
    unfold contains at 3. cbn. now rewrite orb_false_r.
  - destruct (contains name opened) eqn:E.
    + apply contains_In in E. apply NoDup_remove_2 in ND. destruct ND. apply in_or_app. now left.
    + destruct (IH (if contains name folders then folders else folders ++ [name]) (opened ++ [name]))
        as (fs & E1 & E2); [now rewrite <- app_assoc|].
      exists fs. rewrite E1, <- app_assoc. split; [reflexivity|]. intros x. rewrite E2.
      assert (C : contains x (name :: names) = String.eqb x name || contains x names) by reflexivity.
      rewrite C. destruct (contains name folders) eqn:F.
      * clear C. destruct (String.eqb_spec x name) as [Ex|N]; [|reflexivity].
        rewrite Ex, F. reflexivity.
      * rewrite contains_app. unfold contains at 2. cbn [existsb]. rewrite orb_false_r.
        now rewrite orb_assoc.
Qed.

Lemma register_all_ok : forall d names,
  Forall (fun x => delta_table_exists x d && negb (dotted x) = true) names -> register_all names d = Ok names.
Proof.
  intros d names H. induction H as [|x names E H IH]; cbn [register_all]; [reflexivity|].
  rewrite E, IH. reflexivity.
Qed.

Lemma unique_filter : forall l, (forall x, length (filter (String.eqb x) l) <= 1) -> NoDup l.
Proof.
  induction l as [|y l IH]; intros H; constructor.
  - intros Hin. specialize (H y). cbn [filter] in H. rewrite String.eqb_refl in H. cbn [length] in H.
    assert (In y (filter (String.eqb y) l)) by (apply filter_In; split; [exact Hin|apply String.eqb_refl]).
    destruct (filter (String.eqb y) l); [contradiction|]. cbn [length] in H. lia.
  - apply IH. intros x. specialize (H x). cbn [filter] in H.
    destruct (String.eqb x y); cbn [length] in H; lia.
Qed.

Lemma filter_map_fst : forall x (l : list table_row),
  filter (String.eqb x) (map fst l) = map fst (filter (fun r => String.eqb (fst r) x) l).
Proof.
  intros x l. induction l as [|r l IH]; [reflexivity|]. cbn [map filter].
  rewrite (String.eqb_sym x (fst r)). destruct (String.eqb (fst r) x); cbn [map]; now rewrite IH.
Qed.

Lemma contains_filter : forall x l, contains x l = has (filter (String.eqb x) l).
Proof.
  intros x l. unfold contains. induction l as [|y l IH]; [reflexivity|]. cbn [existsb filter].
  destruct (String.eqb x y); [reflexivity|exact IH].
Qed.
Lemma has_map : forall {A B} (f : A -> B) l, has (map f l) = has l.
Proof. now intros A B f [|a l]. Qed.

Lemma status_loads : forall v x st s r, on_disk_as v x st -> v_fields v = rows_for x s ->
  In r (v_table v) -> exists n, load_row ser ord s r = Ok n.
Proof.
  intros v x [| | |i m] s r H F Hin; cbn [on_disk_as] in H.
  - destruct H as (_ & _ & H & _). rewrite H in Hin. contradiction.
  - destruct H as (_ & _ & H & _). rewrite H in Hin. contradiction.
  - destruct H as (_ & _ & _ & H & _). rewrite H in Hin. contradiction.
  - destruct H as (_ & _ & _ & H & N & V & L & R & _). rewrite H in Hin. destruct Hin as [<-|[]].
    subst x. rewrite F in R.
    destruct (interrupted_loads ser ord m i _ s Hser Hord V L R eq_refl) as (n & E & _). now exists n.
Qed.

Lemma status_exists : forall v x st, on_disk_as v x st ->
  has (v_normal v) || has (v_table v) = true ->
  existsb is_log (v_files v) && negb (dotted x) = true.
Proof.
  intros v x [| | |i m] H; cbn [on_disk_as] in H.
  - destruct H as (_ & -> & -> & _). discriminate.
  - destruct H as (-> & _ & _ & ->). reflexivity.
  - destruct H as (-> & _ & _ & _ & _ & ->). reflexivity.
  - destruct H as (-> & _ & _ & _ & _ & _ & _ & _ & ->). reflexivity.
Qed.

Lemma start_ok : forall s, (forall x, exists st, disk_ok (view_of s x) x st) ->
  exists s', start ser ord (on_disk s) = Ok s' /\ forall x, view_of s' x = local_start (view_of s x).
Proof.
  intros s H. unfold start, load_all. set (d := on_disk s) in *.
  destruct (load_rows_ok (series_rows d) (table_rows (series_rows d))) as (ms & E1 & N1).
  { apply Forall_forall. intros r Hr. destruct (H (fst r)) as (st & (H1 & _)).
    apply (status_loads _ _ _ (series_rows d) r H1); [reflexivity|].
    apply filter_In. split; [exact Hr|apply String.eqb_refl]. }
  rewrite E1. cbn [bind]. rewrite N1.
  assert (Nd : NoDup (map fst (table_rows (series_rows d)))).
  { apply unique_filter. intros x. rewrite filter_map_fst, map_length.
    destruct (H x) as (st & (H1 & _)).
    change (filter (fun r => String.eqb (fst r) x) (table_rows (series_rows d)))
      with (v_table (view_of s x)).
    destruct st as [| | |i m]; cbn [on_disk_as] in H1.
    - destruct H1 as (_ & _ & -> & _). cbn. lia.
    - destruct H1 as (_ & _ & -> & _). cbn. lia.
    - destruct H1 as (_ & _ & _ & -> & _). cbn. lia.
    - destruct H1 as (_ & _ & _ & -> & _). cbn. lia. }
  destruct (open_all_ok (map fst (table_rows (series_rows d))) (log_folders d) []) as (fs & E2 & F2).
  { exact Nd. }
  rewrite E2. cbn [bind app].
  assert (R1 : register_all (normal_rows (with_log_folders d fs)) (with_log_folders d fs)
               = Ok (normal_rows d)).
  { apply register_all_ok, Forall_forall. intros x Hx. destruct (H x) as (st & (H1 & _)).
    apply (status_exists _ _ _ H1). apply orb_true_iff. left.
    assert (Hx' : In x (v_normal (view_of s x)))
      by (apply filter_In; split; [exact Hx|apply String.eqb_refl]).
    destruct (v_normal (view_of s x)); [contradiction|reflexivity]. }
  rewrite R1. cbn [bind].
  assert (R2 : register_all (map fst (table_rows (series_rows d))) (with_log_folders d fs)
               = Ok (map fst (table_rows (series_rows d)))).
  { apply register_all_ok, Forall_forall. intros x Hx. destruct (H x) as (st & (H1 & _)).
    apply (status_exists _ _ _ H1). apply orb_true_iff. right.
    apply in_map_iff in Hx. destruct Hx as (r & <- & Hr).
    assert (Hx' : In r (v_table (view_of s (fst r))))
      by (apply filter_In; split; [exact Hr|apply String.eqb_refl]).
    destruct (v_table (view_of s (fst r))); [contradiction|reflexivity]. }
  rewrite R2. cbn [bind]. eexists. split; [reflexivity|]. intros x.
  unfold view_of, local_start, with_log_folders, files_of_table.
  cbn [on_disk files normal_rows series_rows registered open_logs log_folders].
  fold d. f_equal.
  - rewrite contains_app, contains_filter, (contains_filter x (map fst _)), filter_map_fst.
    now rewrite has_map.
  - rewrite contains_filter, filter_map_fst. now rewrite has_map.
  - rewrite F2, (contains_filter x (map fst _)), filter_map_fst. now rewrite has_map.
Qed.

Lemma start_holds : forall s s', (forall x, view_of s' x = local_start (view_of s x)) ->
  forall x st, disk_ok (view_of s x) x st -> holds (view_of s' x) x st.
Proof.
  intros s s' H x st (H1 & H2). rewrite H.
  destruct (view_of s x) as [fs ns ts rs r o f]. cbn [local_start v_folder v_table] in *.
  split; [split|].
  - destruct st; exact H1.
  - cbn. intros E. apply orb_true_iff in E. destruct E; auto.
  - cbn. f_equal. now rewrite <- orb_assoc, orb_diag.
Qed.

(** Programs on the view of their table. *)
Lemma local_perform_app : forall a b v,
  local_perform (a ++ b) v
  = match local_perform a v with
    | (v, Ok _) => local_perform b v
    | (v, Err) => (v, Err)
    | (v, Panic) => (v, Panic)
    end.
Proof.
  induction a as [|x a IH]; intros b v; cbn [app local_perform]; [now destruct (local_perform b v)|].
  destruct (local_act x v) as [v'| |]; [apply IH|reflexivity|reflexivity].
Qed.

Lemma perform_rows : forall rows fs ns ts rs r o f,
  local_perform (map Add_field_row rows) (View fs ns ts rs r o f)
  = (View fs ns ts (rs ++ rows) r o f, Ok tt).
Proof.
  induction rows as [|row rows IH]; intros; cbn [map local_perform local_act].
  - now rewrite app_nil_r.
  - rewrite IH, <- app_assoc. reflexivity.
Qed.

Lemma perform_deletes : forall x l fs ns ts rs r o f,
  local_perform (map (Delete_file x) l) (View fs ns ts rs r o f)
  = (View (filter (fun h => negb (existsb (file_eqb h) l)) fs) ns ts rs r o f, Ok tt).
Proof.
  intros x. induction l as [|g l IH]; intros; cbn [map local_perform local_act existsb].
  - rewrite (filter_all _ fs) by reflexivity. reflexivity.
  - rewrite IH, filter_filter. f_equal. f_equal. apply filter_ext. intros h.
    now rewrite negb_orb.
Qed.

Lemma file_eqb_refl : forall f, file_eqb f f = true.
Proof. intros [p v|n]; cbn; [rewrite eqb_reflx|]; apply Nat.eqb_refl. Qed.

Lemma deleted_all : forall fs, filter (fun h => negb (existsb (file_eqb h) (del fs))) fs = [].
Proof.
  intros fs. apply filter_none. intros f Hf. apply negb_false_iff, existsb_exists.
  exists f. split; [|apply file_eqb_refl]. apply (Permutation_in _ (Permutation_sym (Hdel fs)) Hf).
Qed.

Lemma firstn_deletes : forall x j l,
  firstn j (map (Delete_file x) l) = map (Delete_file x) (firstn j l).
Proof. intros. now rewrite firstn_map. Qed.

Lemma program_names : forall o s actions, program ser del o s = Ok actions ->
  Forall (fun a => name_of a = about o) actions.
Proof.
  intros [m|x|x] s actions; cbn [program about]; unfold create_series, create_normal, drop.
  - destruct (contains (table_name m) (registered s)); [discriminate|].
    destruct (field_rows ser m 0 (query_schema m)) as [rows| |] eqn:E; cbn [bind]; try discriminate.
    intros H. injection H as <-. constructor; [reflexivity|]. constructor; [reflexivity|].
    apply Forall_app. split; [|repeat constructor].
    pose proof (field_rows_table ser m _ _ _ E) as F. clear E. induction F; constructor; auto.
  - destruct (contains x (registered s)); [discriminate|]. intros H. injection H as <-.
    repeat constructor.
  - destruct (contains x (registered s)); cbn [negb]; [|discriminate].
    assert (F : Forall (fun a => name_of a = x) (map (Delete_file x) (del (files_of_table x (on_disk s)))))
      by (apply Forall_forall; intros a Ha; apply in_map_iff in Ha; destruct Ha as (f & <- & _);
          reflexivity).
    destruct (is_time_series_table x (on_disk s)); intros H; injection H as <-;
      repeat (constructor; [reflexivity|]); exact F.
Qed.

(** The states after an operation or a crash in it. *)
Definition finished (o : operation) (st st' : status) : Prop :=
  match o, st with
  | Create_series m, Absent => st' = Series (length (query_schema m)) m
  | Create_normal _, Absent => st' = Normal
  | Drop _, Series _ _ | Drop _, Normal => st' = Absent
  | _, _ => st' = st
  end.
Definition answer (o : operation) (st : status) : outcome unit :=
  match o, st with
  | Create_series _, Absent | Create_normal _, Absent => Ok tt
  | Drop _, Series _ _ | Drop _, Normal => Ok tt
  | _, _ => Err
  end.
Definition crashed (o : operation) (k : nat) (v : view) (st st' : status) : Prop :=
  match o, st with
  | Create_series m, Absent =>
      match k with
      | 0 => st' = Absent
      | 1 => st' = Leftover
      | S (S j) => exists i, i <= length (query_schema m)
          /\ fields (firstn i (query_schema m)) = Nat.min j (fields (query_schema m))
          /\ st' = Series i m
      end
  | Create_normal _, Absent =>
      match k with 0 => st' = Absent | 1 => st' = Leftover | _ => st' = Normal end
  | Drop _, Series _ _ =>
      if k <=? 2 then st' = st
      else st' = Leftover /\ k < 4 + length (v_files v) \/ st' = Absent
  | Drop _, Normal =>
      if k <=? 1 then st' = st
      else st' = Leftover /\ k < 2 + length (v_files v) \/ st' = Absent
  | _, _ => st' = st
  end.

Lemma fields_all : forall columns : list column, fields (firstn (length columns) columns) = fields columns.
Proof. intros. now rewrite firstn_all. Qed.

Lemma absent_view : forall v x, holds v x Absent ->
  exists fs, v = View fs [] [] [] false false false /\ existsb is_log fs = false.
Proof.
  intros [fs ns ts rs r o f] x ((H & F) & L). cbn [on_disk_as v_files v_normal v_table v_fields] in H.
  destruct H as (H1 & -> & -> & ->). cbn in L, F. injection L as L1 L2 L3. subst r o.
  destruct f; [specialize (F eq_refl); discriminate|]. now exists fs.
Qed.
Lemma leftover_view : forall v x, holds v x Leftover ->
  exists fs rs, v = View fs [] [] rs false false false /\ existsb is_log fs = true
    /\ dotted x = false.
Proof.
  intros [fs ns ts rs r o f] x ((H & F) & L). cbn [on_disk_as v_files v_normal v_table v_fields] in H.
  destruct H as (H1 & -> & -> & D). cbn in L, F. injection L as L1 L2 L3. subst r o.
  destruct f; [specialize (F eq_refl); discriminate|]. now exists fs, rs.
Qed.
Lemma normal_view : forall v x, holds v x Normal ->
  exists fs, v = View fs [x] [] [] true false false /\ existsb is_log fs = true
    /\ partitioned fs = false /\ dotted x = false.
Proof.
  intros [fs ns ts rs r o f] x ((H & F) & L). cbn [on_disk_as v_files v_normal v_table v_fields] in H.
  destruct H as (H1 & H2 & -> & -> & -> & D). cbn in L, F. injection L as L1 L2 L3. subst r o.
  destruct f; [specialize (F eq_refl); discriminate|]. now exists fs.
Qed.
Lemma series_view : forall v x i m, holds v x (Series i m) ->
  exists fs rs, v = View fs [] [(x, query_schema m)] rs true true true /\ existsb is_log fs = true
    /\ partitioned fs = true /\ table_name m = x /\ valid_table m /\ i <= length (query_schema m)
    /\ field_rows ser m 0 (firstn i (query_schema m)) = Ok rs /\ dotted x = false.
Proof.
  intros [fs ns ts rs r o f] x i m ((H & F) & L).
  cbn [on_disk_as v_files v_normal v_table v_fields] in H.
  destruct H as (H1 & H2 & -> & -> & H3 & H4 & H5 & H6 & H7). cbn in L, F. injection L as L1 L2 L3.
  rewrite orb_true_r in L3. subst r o f. exists fs, rs. auto 10.
Qed.

Lemma partitioned_app : forall a b, partitioned (a ++ b) = partitioned a || partitioned b.
Proof. intros. apply existsb_app. Qed.
Lemma no_log_partitioned : forall fs, existsb is_log fs = false -> partitioned fs = false.
Proof.
  induction fs as [|f fs IH]; [reflexivity|]. cbn. destruct f; cbn; [discriminate|exact IH].
Qed.
Lemma logs_app : forall a b, existsb is_log (a ++ b) = existsb is_log a || existsb is_log b.
Proof. intros. apply existsb_app. Qed.

(** Any number of changes of the creation of a table. *)
Lemma create_series_prefix : forall x m fs rows k, table_name m = x -> valid_table m -> dotted x = false ->
  existsb is_log fs = false -> field_rows ser m 0 (query_schema m) = Ok rows ->
  let v := fst (local_perform (firstn k (Create_delta_table x true :: Add_table_row (x, query_schema m)
                  :: map Add_field_row rows ++ [Register x; Create_log x]))
                (View fs [] [] [] false false false)) in
  exists st, crashed (Create_series m) k (View fs [] [] [] false false false) Absent st
    /\ disk_ok v x st
    /\ (4 + length rows <= k -> v = local_start v /\ st = Series (length (query_schema m)) m
          /\ snd (local_perform (firstn k (Create_delta_table x true
                 :: Add_table_row (x, query_schema m)
                 :: map Add_field_row rows ++ [Register x; Create_log x]))
                (View fs [] [] [] false false false)) = Ok tt).
Proof.
  intros x m fs rows k N V D F R. cbn zeta.
  assert (P : partitioned (fs ++ [Log true 0]) = true)
    by (rewrite partitioned_app; now rewrite orb_true_r).
  assert (Q : existsb is_log (fs ++ [Log true 0]) = true)
    by (rewrite logs_app; now rewrite orb_true_r).
  destruct k as [|[|k]]; cbn [firstn local_perform local_act fst crashed].
  - exists Absent. split; [reflexivity|]. split; [|intros; lia]. split; [cbn; auto 10|discriminate].
  - rewrite F. cbn [fst]. exists Leftover. split; [reflexivity|]. split; [|intros; lia].
    split; [cbn; auto 10|discriminate].
  - rewrite F. cbn [local_act app].
    assert (Lr : length rows = fields (query_schema m)) by apply (field_rows_length _ _ _ _ _ R).
    assert (Pre : forall j, j <= fields (query_schema m) -> exists i, i <= length (query_schema m)
              /\ fields (firstn i (query_schema m)) = j
              /\ field_rows ser m 0 (firstn i (query_schema m)) = Ok (firstn j rows)).
    { intros j Hj. destruct (fields_position _ _ Hj) as (i & I1 & I2). exists i.
      split; [exact I1|]. split; [exact I2|]. rewrite (field_rows_prefix _ _ _ _ i R). now rewrite I2. }
    rewrite firstn_app, map_length, firstn_map, local_perform_app, perform_rows. cbn [app].
    destruct (Nat.le_gt_cases k (length rows)) as [L|L].
    + replace (k - length rows) with 0 by lia. cbn [firstn local_perform fst].
      destruct (Pre k) as (i & I1 & I2 & I3); [lia|]. exists (Series i m).
      split; [exists i; split; [exact I1|]; split; [lia|reflexivity]|]. split; [|intros; lia].
      split; [|discriminate]. cbn. auto 10.
    + rewrite (firstn_all2 rows) by lia.
      exists (Series (length (query_schema m)) m).
      split; [exists (length (query_schema m)); rewrite fields_all; split; [lia|]; split; [lia|reflexivity]|].
      assert (R' : field_rows ser m 0 (firstn (length (query_schema m)) (query_schema m)) = Ok rows)
        by now rewrite firstn_all.
      destruct (k - length rows) as [|[|j]] eqn:Ej; [lia| |]; cbn [firstn local_perform local_act];
        rewrite Q, D; cbn [fst snd andb negb].
      * split; [|intros; lia]. split; [|discriminate]. cbn. auto 10.
      * replace (firstn j (@nil action)) with (@nil action) by now destruct j. cbn [local_perform fst snd].
        split; [|intros _; auto]. split; [|reflexivity]. cbn. auto 10.
Qed.

Lemma create_normal_prefix : forall x fs k, dotted x = false -> existsb is_log fs = false ->
  let v := fst (local_perform (firstn k [Create_delta_table x false; Add_normal_row x; Register x])
                (View fs [] [] [] false false false)) in
  exists st, crashed (Create_normal x) k (View fs [] [] [] false false false) Absent st
    /\ disk_ok v x st
    /\ (3 <= k -> v = local_start v /\ st = Normal
          /\ snd (local_perform (firstn k [Create_delta_table x false; Add_normal_row x; Register x])
                (View fs [] [] [] false false false)) = Ok tt).
Proof.
  intros x fs k D F. cbn zeta.
  assert (P : partitioned (fs ++ [Log false 0]) = false)
    by (rewrite partitioned_app, (no_log_partitioned fs F); reflexivity).
  assert (Q : existsb is_log (fs ++ [Log false 0]) = true)
    by (rewrite logs_app; now rewrite orb_true_r).
  destruct k as [|[|[|k]]]; cbn [firstn local_perform local_act fst snd crashed].
  - exists Absent. split; [reflexivity|]. split; [|intros; lia]. split; [cbn; auto 10|discriminate].
  - rewrite F. exists Leftover. split; [reflexivity|]. split; [|intros; lia].
    split; [cbn; auto 10|discriminate].
  - rewrite F. exists Normal. split; [reflexivity|]. split; [|intros; lia].
    split; [cbn; auto 10|discriminate].
  - rewrite F. cbn [local_act app]. rewrite Q, D. cbn [andb negb]. exists Normal. split; [reflexivity|].
    replace (firstn k (@nil action)) with (@nil action) by now destruct k.
    cbn [local_perform fst snd]. split; [split; [cbn; auto 10|discriminate]|]. intros _. auto.
Qed.

(** The files that have not been deleted. *)
Lemma some_left : forall x fs j, dotted x = false -> exists st,
  (st = Leftover /\ j < length fs \/ st = Absent)
  /\ forall v, v_files v = filter (fun h => negb (existsb (file_eqb h) (firstn j (del fs)))) fs ->
       v_normal v = [] -> v_table v = [] -> v_fields v = [] -> v_folder v = false ->
       disk_ok v x st.
Proof.
  intros x fs j D.
  destruct (existsb is_log (filter (fun h => negb (existsb (file_eqb h) (firstn j (del fs)))) fs)) eqn:E.
  - exists Leftover. split.
    + left. split; [reflexivity|]. destruct (Nat.lt_ge_cases j (length fs)) as [L|L]; [exact L|].
      rewrite firstn_all2 in E by (rewrite (Permutation_length (Hdel fs)); exact L).
      rewrite deleted_all in E. discriminate.
    + intros v V1 V2 V3 V4 V5. split; [|now rewrite V5]. cbn. rewrite V1. auto.
  - exists Absent. split; [now right|]. intros v V1 V2 V3 V4 V5. split; [|now rewrite V5].
    cbn. rewrite V1. auto.
Qed.

Lemma drop_series_prefix : forall x i m fs rs k,
  let v0 := View fs [] [(x, query_schema m)] rs true true true in
  holds v0 x (Series i m) ->
  let v := fst (local_perform (firstn k (Deregister x :: Remove_log x :: Delete_table_rows x
                  :: Delete_field_rows x :: map (Delete_file x) (del fs))) v0) in
  exists st, crashed (Drop x) k v0 (Series i m) st /\ disk_ok v x st
    /\ (4 + length fs <= k -> v = local_start v /\ st = Absent
          /\ snd (local_perform (firstn k (Deregister x :: Remove_log x :: Delete_table_rows x
                  :: Delete_field_rows x :: map (Delete_file x) (del fs))) v0) = Ok tt).
Proof.
  intros x i m fs rs k v0 ((H & _) & _). cbn zeta. unfold v0 in *.
  cbn [on_disk_as v_files v_normal v_table v_fields] in H.
  destruct k as [|[|[|[|k]]]]; cbn [firstn local_perform local_act fst crashed Nat.leb].
  - exists (Series i m). split; [reflexivity|]. split; [|intros; lia]. split; [exact H|reflexivity].
  - exists (Series i m). split; [reflexivity|]. split; [|intros; lia]. split; [exact H|reflexivity].
  - exists (Series i m). split; [reflexivity|]. split; [|intros; lia]. split; [exact H|reflexivity].
  - exists Leftover. split; [left; split; [reflexivity|cbn; lia]|]. split; [|intros; lia].
    split; [cbn|discriminate]. split; [apply H|]. split; [reflexivity|]. split; [reflexivity|apply H].
  - rewrite firstn_deletes, perform_deletes. cbn [fst snd v_files].
    destruct (some_left x fs k) as (st & S1 & S2); [apply H|]. exists st. split.
    + destruct S1 as [(-> & L)| ->]; [left; split; [reflexivity|lia]|now right].
    + split; [apply S2; reflexivity|]. intros L. split; [reflexivity|]. split; [|reflexivity].
      destruct S1 as [(_ & L2)|S1]; [lia|exact S1].
Qed.

Lemma drop_normal_prefix : forall x fs k,
  let v0 := View fs [x] [] [] true false false in
  holds v0 x Normal ->
  let v := fst (local_perform (firstn k (Deregister x :: Delete_normal_rows x
                  :: map (Delete_file x) (del fs))) v0) in
  exists st, crashed (Drop x) k v0 Normal st /\ disk_ok v x st
    /\ (2 + length fs <= k -> v = local_start v /\ st = Absent
          /\ snd (local_perform (firstn k (Deregister x :: Delete_normal_rows x
                  :: map (Delete_file x) (del fs))) v0) = Ok tt).
Proof.
  intros x fs k v0 ((H & _) & _). cbn zeta. unfold v0 in *.
  cbn [on_disk_as v_files v_normal v_table v_fields] in H.
  destruct k as [|[|k]]; cbn [firstn local_perform local_act fst crashed Nat.leb].
  - exists Normal. split; [reflexivity|]. split; [|intros; lia]. split; [exact H|discriminate].
  - exists Normal. split; [reflexivity|]. split; [|intros; lia]. split; [exact H|discriminate].
  - rewrite firstn_deletes, perform_deletes. cbn [fst snd v_files].
    destruct (some_left x fs k) as (st & S1 & S2); [apply H|]. exists st. split.
    + destruct S1 as [(-> & L)| ->]; [left; split; [reflexivity|lia]|now right].
    + split; [apply S2; reflexivity|]. intros L. split; [reflexivity|]. split; [|reflexivity].
      destruct S1 as [(_ & L2)|S1]; [lia|exact S1].
Qed.

(** An operation changes only its own table. *)
Definition all_hold (s : server) : Prop := forall x, exists st, holds (view_of s x) x st.

(** After any number of changes of an operation. *)
Lemma operation_prefix : forall o s st k, valid_operation o -> holds (view_of s (about o)) (about o) st ->
  exists st', crashed o k (view_of s (about o)) st st'
    /\ match program ser del o s with
       | Ok actions =>
           disk_ok (view_of (fst (perform (firstn k actions) s)) (about o)) (about o) st'
       | _ => st' = st
       end.
Proof.
  intros o s st k Hv H. destruct (program ser del o s) as [actions| |] eqn:E.
  - assert (Names : Forall (fun a => name_of a = about o) (firstn k actions)).
    { pose proof (program_names _ _ _ E) as F. rewrite <- (firstn_skipn k actions) in F.
      apply Forall_app in F. apply F. }
    destruct (perform_view (about o) (firstn k actions) s Names) as (_ & -> & _). clear Names.
    destruct o as [m|x|x]; cbn [program about valid_operation] in *;
      unfold create_series, create_normal, drop in E.
    + destruct (contains (table_name m) (registered s)) eqn:C; [discriminate|].
      destruct (field_rows ser m 0 (query_schema m)) as [rows| |] eqn:R; cbn [bind] in E; try discriminate.
      injection E as <-. destruct st as [| | |i m'].
      * destruct (absent_view _ _ H) as (fs & V & L). rewrite V.
        destruct (create_series_prefix (table_name m) m fs rows k eq_refl (proj1 Hv) (proj2 Hv) L R) as (st' & S1 & S2 & _).
        now exists st'.
      * destruct (leftover_view _ _ H) as (fs & rs & V & L & _). exists Leftover. split; [reflexivity|].
        destruct H as (H & _). destruct k as [|k]; cbn [firstn local_perform]; [exact H|].
        rewrite V in *. cbn [local_act]. rewrite L. exact H.
      * destruct (normal_view _ _ H) as (fs & V & _). apply (f_equal v_registered) in V. cbn in V. congruence.
      * destruct (series_view _ _ _ _ H) as (fs & rs & V & _). apply (f_equal v_registered) in V.
        cbn in V. congruence.
    + destruct (contains x (registered s)) eqn:C; [discriminate|].
      injection E as <-. destruct st as [| | |i m'].
      * destruct (absent_view _ _ H) as (fs & V & L). rewrite V.
        destruct (create_normal_prefix x fs k Hv L) as (st' & S1 & S2 & _). now exists st'.
      * destruct (leftover_view _ _ H) as (fs & rs & V & L & _). exists Leftover. split; [reflexivity|].
        destruct H as (H & _). destruct k as [|k]; cbn [firstn local_perform]; [exact H|].
        rewrite V in *. cbn [local_act]. rewrite L. exact H.
      * destruct (normal_view _ _ H) as (fs & V & _). apply (f_equal v_registered) in V. cbn in V. congruence.
      * destruct (series_view _ _ _ _ H) as (fs & rs & V & _). apply (f_equal v_registered) in V.
        cbn in V. congruence.
    + destruct (contains x (registered s)) eqn:C; cbn [negb] in E; [|discriminate].
      change (is_time_series_table x (on_disk s)) with (partitioned (v_files (view_of s x))) in E.
      change (files_of_table x (on_disk s)) with (v_files (view_of s x)) in E.
      destruct st as [| | |i m'].
      * destruct (absent_view _ _ H) as (fs & V & _). apply (f_equal v_registered) in V. cbn in V. congruence.
      * destruct (leftover_view _ _ H) as (fs & rs & V & _). apply (f_equal v_registered) in V.
        cbn in V. congruence.
      * destruct (normal_view _ _ H) as (fs & V & _ & P & _). rewrite V in *. cbn [v_files] in E.
        rewrite P in E. injection E as <-.
        destruct (drop_normal_prefix x fs k H) as (st' & S1 & S2 & _). now exists st'.
      * destruct (series_view _ _ _ _ H) as (fs & rs & V & _ & P & _). rewrite V in *. cbn [v_files] in E.
        rewrite P in E. injection E as <-.
        destruct (drop_series_prefix x i m' fs rs k H) as (st' & S1 & S2 & _). now exists st'.
  - exists st. split; [|reflexivity].
    destruct o as [m|x|x]; cbn [program about valid_operation] in *;
      unfold create_series, create_normal, drop in E.
    + destruct st as [| | |]; try reflexivity. exfalso.
      destruct (absent_view _ _ H) as (fs & V & L). apply (f_equal v_registered) in V. cbn in V.
      rewrite V in E. destruct Hv as ([(bounds & Hacc) _ _ _ _] & _).
      destruct (accepted_facts _ _ _ _ _ Hacc) as (_ & _ & _ & _ & L3 & _).
      destruct (field_rows_exist ser m (query_schema m) 0 L3) as (rows & R). rewrite R in E. discriminate.
    + destruct st as [| | |]; try reflexivity. exfalso.
      destruct (absent_view _ _ H) as (fs & V & L). apply (f_equal v_registered) in V. cbn in V.
      rewrite V in E. discriminate.
    + destruct (contains x (registered s)) eqn:C; cbn [negb] in E.
      * destruct (is_time_series_table x (on_disk s)); discriminate.
      * destruct st as [| | |i m']; try reflexivity; exfalso.
        -- destruct (normal_view _ _ H) as (fs & V & _). apply (f_equal v_registered) in V. cbn in V. congruence.
        -- destruct (series_view _ _ _ _ H) as (fs & rs & V & _). apply (f_equal v_registered) in V.
           cbn in V. congruence.
  - exfalso. destruct o as [m|x|x]; cbn [program valid_operation] in *;
      unfold create_series, create_normal, drop in E.
    + destruct (contains (table_name m) (registered s)); [discriminate|].
      destruct Hv as ([(bounds & Hacc) _ _ _ _] & _).
      destruct (accepted_facts _ _ _ _ _ Hacc) as (_ & _ & _ & _ & L3 & _).
      destruct (field_rows_exist ser m (query_schema m) 0 L3) as (rows & R). rewrite R in E. discriminate.
    + destruct (contains x (registered s)); discriminate.
    + destruct (contains x (registered s)); cbn [negb] in E; [|discriminate].
      destruct (is_time_series_table x (on_disk s)); discriminate.
Qed.

(** A whole operation. *)
Lemma operation_ok : forall o s st, valid_operation o -> holds (view_of s (about o)) (about o) st ->
  let '(s', r) := execute ser del o s in
  r = answer o st /\ (exists st', finished o st st' /\ holds (view_of s' (about o)) (about o) st')
  /\ forall x, x <> about o -> view_of s' x = view_of s x.
Proof.
  intros o s st Hv H. unfold execute. destruct (program ser del o s) as [actions| |] eqn:E.
  - destruct (perform_view (about o) actions s (program_names _ _ _ E)) as (F1 & F2 & F3).
    destruct (perform actions s) as (s', r). cbn [fst snd] in *. rewrite F2, F3.
    assert (Goal1 : snd (local_perform actions (view_of s (about o))) = answer o st
      /\ exists st', finished o st st'
           /\ holds (fst (local_perform actions (view_of s (about o)))) (about o) st').
    { clear F1 F2 F3 s' r.
      destruct o as [m|x|x]; cbn [program about valid_operation] in *;
        unfold create_series, create_normal, drop in E.
      - destruct (contains (table_name m) (registered s)) eqn:C; [discriminate|].
        destruct (field_rows ser m 0 (query_schema m)) as [rows| |] eqn:R; cbn [bind] in E; try discriminate.
        injection E as <-. destruct st as [| | |i m'].
        + destruct (absent_view _ _ H) as (fs & V & L). rewrite V.
          destruct (create_series_prefix (table_name m) m fs rows (4 + length rows) eq_refl (proj1 Hv) (proj2 Hv) L R)
            as (st' & S1 & S2 & S3).
          destruct (S3 (le_n _)) as (T1 & T2 & T3).
          rewrite firstn_all2 in S2, T1, T3
            by (cbn [length]; rewrite app_length, map_length; cbn [length]; lia).
          split; [exact T3|]. exists st'. split; [exact T2|]. split; [exact S2|now symmetry].
        + destruct (leftover_view _ _ H) as (fs & rs & V & L & _). rewrite V in *.
          cbn [local_perform local_act]. rewrite L. cbn [fst snd answer].
          split; [reflexivity|]. exists Leftover. split; [reflexivity|exact H].
        + destruct (normal_view _ _ H) as (fs & V & _). apply (f_equal v_registered) in V. cbn in V. congruence.
        + destruct (series_view _ _ _ _ H) as (fs & rs & V & _). apply (f_equal v_registered) in V.
          cbn in V. congruence.
      - destruct (contains x (registered s)) eqn:C; [discriminate|].
        injection E as <-. destruct st as [| | |i m'].
        + destruct (absent_view _ _ H) as (fs & V & L). rewrite V.
          destruct (create_normal_prefix x fs 3 Hv L) as (st' & S1 & S2 & S3).
          destruct (S3 (le_n _)) as (T1 & T2 & T3). rewrite firstn_all2 in S2, T1, T3 by (cbn; lia).
          split; [exact T3|]. exists st'. split; [exact T2|]. split; [exact S2|now symmetry].
        + destruct (leftover_view _ _ H) as (fs & rs & V & L & _). rewrite V in *.
          cbn [local_perform local_act]. rewrite L. cbn [fst snd answer].
          split; [reflexivity|]. exists Leftover. split; [reflexivity|exact H].
        + destruct (normal_view _ _ H) as (fs & V & _). apply (f_equal v_registered) in V. cbn in V. congruence.
        + destruct (series_view _ _ _ _ H) as (fs & rs & V & _). apply (f_equal v_registered) in V.
          cbn in V. congruence.
      - destruct (contains x (registered s)) eqn:C; cbn [negb] in E; [|discriminate].
        change (is_time_series_table x (on_disk s)) with (partitioned (v_files (view_of s x))) in E.
        change (files_of_table x (on_disk s)) with (v_files (view_of s x)) in E.
        destruct st as [| | |i m'].
        + destruct (absent_view _ _ H) as (fs & V & _). apply (f_equal v_registered) in V. cbn in V. congruence.
        + destruct (leftover_view _ _ H) as (fs & rs & V & _). apply (f_equal v_registered) in V.
          cbn in V. congruence.
        + destruct (normal_view _ _ H) as (fs & V & _ & P & _). rewrite V in *. cbn [v_files] in E.
          rewrite P in E. injection E as <-.
          destruct (drop_normal_prefix x fs (2 + length fs) H) as (st' & S1 & S2 & S3).
          destruct (S3 (le_n _)) as (T1 & T2 & T3).
          rewrite firstn_all2 in S2, T1, T3
            by (cbn [length]; rewrite map_length, (Permutation_length (Hdel fs)); lia).
          split; [exact T3|]. exists st'. split; [exact T2|]. split; [exact S2|now symmetry].
        + destruct (series_view _ _ _ _ H) as (fs & rs & V & _ & P & _). rewrite V in *. cbn [v_files] in E.
          rewrite P in E. injection E as <-.
          destruct (drop_series_prefix x i m' fs rs (4 + length fs) H) as (st' & S1 & S2 & S3).
          destruct (S3 (le_n _)) as (T1 & T2 & T3).
          rewrite firstn_all2 in S2, T1, T3
            by (cbn [length]; rewrite map_length, (Permutation_length (Hdel fs)); lia).
          split; [exact T3|]. exists st'. split; [exact T2|]. split; [exact S2|now symmetry]. }
    destruct Goal1 as (G1 & G2). split; [exact G1|]. split; [exact G2|exact F1].
  - destruct (operation_prefix o s st 0 Hv H) as (st' & S1 & S2). rewrite E in S2. subst st'.
    destruct o as [m|x|x], st as [| | |i m']; cbn [crashed answer finished] in *;
      try (split; [reflexivity|split; [eexists; split; [reflexivity|exact H]|reflexivity]]).
    + exfalso. cbn [program] in E. unfold create_series in E. cbn [about] in H.
      destruct (absent_view _ _ H) as (fs & V & _). apply (f_equal v_registered) in V. cbn in V.
      rewrite V in E. destruct Hv as ([(bounds & Hacc) _ _ _ _] & _).
      destruct (accepted_facts _ _ _ _ _ Hacc) as (_ & _ & _ & _ & L3 & _).
      destruct (field_rows_exist ser m (query_schema m) 0 L3) as (rows & R). rewrite R in E. discriminate.
    + exfalso. cbn [program] in E. unfold create_normal in E. cbn [about] in H.
      destruct (absent_view _ _ H) as (fs & V & _). apply (f_equal v_registered) in V. cbn in V.
      rewrite V in E. discriminate.
    + exfalso. cbn [program] in E. unfold drop in E. cbn [about] in H.
      destruct (normal_view _ _ H) as (fs & V & _). apply (f_equal v_registered) in V. cbn in V.
      rewrite V in E. cbn [negb] in E. destruct (is_time_series_table x (on_disk s)); discriminate.
    + exfalso. cbn [program] in E. unfold drop in E. cbn [about] in H.
      destruct (series_view _ _ _ _ H) as (fs & rs & V & _). apply (f_equal v_registered) in V. cbn in V.
      rewrite V in E. cbn [negb] in E. destruct (is_time_series_table x (on_disk s)); discriminate.
  - destruct (operation_prefix o s st 0 Hv H) as (st' & S1 & S2). rewrite E in S2. exfalso.
    destruct o as [m|x|x]; cbn [program valid_operation] in *;
      unfold create_series, create_normal, drop in E.
    + destruct (contains (table_name m) (registered s)); [discriminate|].
      destruct Hv as ([(bounds & Hacc) _ _ _ _] & _).
      destruct (accepted_facts _ _ _ _ _ Hacc) as (_ & _ & _ & _ & L3 & _).
      destruct (field_rows_exist ser m (query_schema m) 0 L3) as (rows & R). rewrite R in E. discriminate.
    + destruct (contains x (registered s)); discriminate.
    + destruct (contains x (registered s)); cbn [negb] in E; [|discriminate].
      destruct (is_time_series_table x (on_disk s)); discriminate.
Qed.

(** A crash and the start of the server after it. *)
Lemma crash_ok : forall o k s, valid_operation o -> all_hold s ->
  exists s', start ser ord (crash ser del o k s) = Ok s'
    /\ (forall x, x <> about o -> view_of s' x = view_of s x)
    /\ (forall st, holds (view_of s (about o)) (about o) st ->
          exists st', crashed o k (view_of s (about o)) st st'
            /\ holds (view_of s' (about o)) (about o) st').
Proof.
  intros o k s Hv Hall. unfold crash.
  set (t := match program ser del o s with
            | Ok actions => fst (perform (firstn k actions) s)
            | _ => s
            end).
  assert (Et : match program ser del o s with
               | Ok actions => on_disk (fst (perform (firstn k actions) s))
               | _ => on_disk s
               end = on_disk t) by (unfold t; destruct (program ser del o s); reflexivity).
  rewrite Et.
  assert (Fr : forall x, x <> about o -> view_of t x = view_of s x).
  { intros x N. unfold t. destruct (program ser del o s) as [actions| |] eqn:E; try reflexivity.
    assert (Names : Forall (fun a => name_of a = about o) (firstn k actions)).
    { pose proof (program_names _ _ _ E) as F. rewrite <- (firstn_skipn k actions) in F.
      apply Forall_app in F. apply F. }
    now apply (perform_view (about o) (firstn k actions) s Names). }
  assert (Own : forall st, holds (view_of s (about o)) (about o) st ->
            exists st', crashed o k (view_of s (about o)) st st'
              /\ disk_ok (view_of t (about o)) (about o) st').
  { intros st H. destruct (operation_prefix o s st k Hv H) as (st' & S1 & S2). exists st'.
    split; [exact S1|]. unfold t. destruct (program ser del o s); [exact S2| |]; subst st'; apply H. }
  destruct (start_ok t) as (s' & E1 & E2).
  { intros x. destruct (string_dec x (about o)) as [->|N].
    - destruct (Hall (about o)) as (st & H). destruct (Own st H) as (st' & _ & S). now exists st'.
    - rewrite (Fr x N). destruct (Hall x) as (st & H). exists st. apply H. }
  exists s'. split; [exact E1|]. split.
  - intros x N. rewrite E2, (Fr x N). destruct (Hall x) as (st & (_ & H)). exact H.
  - intros st H. destruct (Own st H) as (st' & S1 & S2). exists st'. split; [exact S1|].
    now apply (start_holds t s' E2).
Qed.

(** Saving data. *)
Lemma write_ok : forall y n s x st, holds (view_of s x) x st -> holds (view_of (write y n s) x) x st.
Proof.
  intros y n s x st H. unfold write. destruct (contains y (registered s)) eqn:C; [|exact H].
  assert (V : view_of (with_disk s (with_files (on_disk s) (files (on_disk s)
                ++ [(y, Data n); (y, Log (is_time_series_table y (on_disk s))
                                       (length (files_of_table y (on_disk s))))]))) x
              = if String.eqb y x
                then let '(View fs ns ts rs r o f) := view_of s x in
                     View (fs ++ [Data n; Log (partitioned fs) (length fs)]) ns ts rs r o f
                else view_of s x).
  { unfold view_of, with_disk, with_files, files_of_table.
    cbn [on_disk files normal_rows series_rows registered open_logs log_folders].
    rewrite filter_app, map_app. cbn [filter fst]. destruct (String.eqb_spec y x) as [->|N].
    - reflexivity.
    - now rewrite app_nil_r. }
  rewrite V. clear V. destruct (String.eqb_spec y x) as [->|N]; [|exact H].
  destruct st as [| | |i m].
  - destruct (absent_view _ _ H) as (fs & V & _). apply (f_equal v_registered) in V. cbn in V. congruence.
  - destruct (leftover_view _ _ H) as (fs & rs & V & _). apply (f_equal v_registered) in V. cbn in V. congruence.
  - destruct (normal_view _ _ H) as (fs & V & L & P & D). rewrite V in *. rewrite P.
    split; [|reflexivity]. split; [|discriminate]. cbn. rewrite logs_app, partitioned_app, L, P. auto 10.
  - destruct (series_view _ _ _ _ H) as (fs & rs & V & L & P & R). rewrite V in *. rewrite P.
    split; [|reflexivity]. split; [|reflexivity]. cbn. rewrite logs_app, partitioned_app, L, P. auto 10.
Qed.

(** What can happen to a table. *)
Definition next (e : event) (x : string) (v : view) (st st' : status) : Prop :=
  match e with
  | Execute o => if String.eqb (about o) x then finished o st st' else st' = st
  | Crash o k => if String.eqb (about o) x then crashed o k v st st' else st' = st
  | Write _ _ => st' = st
  end.

Lemma step_ok : forall s e, valid_event e -> all_hold s ->
  exists s', step ser ord del s e = Ok s' /\ all_hold s'
    /\ forall x st, holds (view_of s x) x st ->
         exists st', next e x (view_of s x) st st' /\ holds (view_of s' x) x st'.
Proof.
  intros s e Hv Hall.
  assert (X : exists s', step ser ord del s e = Ok s'
    /\ forall x st, holds (view_of s x) x st ->
         exists st', next e x (view_of s x) st st' /\ holds (view_of s' x) x st').
  { destruct e as [o|o k|y n]; cbn [step next valid_event] in *.
    - eexists. split; [reflexivity|]. intros x st H.
      destruct (String.eqb_spec (about o) x) as [<-|N].
      + pose proof (operation_ok o s st Hv H) as P.
        destruct (execute ser del o s) as (s', r). apply P.
      + destruct (Hall (about o)) as (st0 & H0). pose proof (operation_ok o s st0 Hv H0) as P.
        destruct (execute ser del o s) as (s', r). destruct P as (_ & _ & P). exists st.
        split; [reflexivity|]. cbn [fst]. rewrite (P x) by congruence. exact H.
    - destruct (crash_ok o k s Hv Hall) as (s' & E & F & G). exists s'. split; [exact E|].
      intros x st H. destruct (String.eqb_spec (about o) x) as [<-|N].
      + now apply G.
      + exists st. split; [reflexivity|]. rewrite (F x) by congruence. exact H.
    - eexists. split; [reflexivity|]. intros x st H. exists st. split; [reflexivity|].
      now apply write_ok. }
  destruct X as (s' & E & H). exists s'. split; [exact E|]. split; [|exact H].
  intros x. destruct (Hall x) as (st & Hst). destruct (H x st Hst) as (st' & _ & R). now exists st'.
Qed.

Lemma history_holds : forall events s, Forall valid_event events -> all_hold s ->
  exists s', history ser ord del s events = Ok s' /\ all_hold s'.
Proof.
  induction events as [|e events IH]; intros s Hv Hall; cbn [history].
  - now exists s.
  - inversion Hv as [|? ? He Hr]; subst.
    destruct (step_ok s e He Hall) as (s1 & E & H1 & _). rewrite E. cbn [bind]. now apply IH.
Qed.

Lemma new_holds : all_hold new_server.
Proof. intros x. exists Absent. split; [|reflexivity]. split; [cbn; auto|discriminate]. Qed.

Lemma reachable : forall events s, Forall valid_event events ->
  history ser ord del new_server events = Ok s -> all_hold s.
Proof.
  intros events s Hv E. destruct (history_holds events new_server Hv new_holds) as (s' & E' & H).
  rewrite E in E'. now injection E' as ->.
Qed.

Lemma starts : forall events, Forall valid_event events ->
  exists s, history ser ord del new_server events = Ok s.
Proof.
  intros events Hv. destruct (history_holds events new_server Hv new_holds) as (s' & E' & _).
  now exists s'.
Qed.
End Proofs.
