(** Statements that name tables: witnesses and examples. *)
From Coq Require Import ZArith Bool Ascii String List.
From Verif Require Import Model.Base Model.Sql Model.Statements Spec.StatementSpec Proofs.SqlProofs
  Proofs.StatementProofs.
Import ListNotations.
Open Scope string_scope.
Open Scope list_scope.

Lemma multipart_dropped : exists sql a b db,
  sql = ("DROP TABLE " ++ a ++ "." ++ b)%string /\ (a ++ b)%string <> a /\ (a ++ b)%string <> b
  /\ lookup (a ++ b) db <> None
  /\ snd (run (parse_sql sql) db) = Ok tt /\ lookup (a ++ b) (fst (run (parse_sql sql) db)) = None.
Proof.
  exists "DROP TABLE wind.mill", "wind", "mill", [("windmill", Table 1 [] [])].
  split; [reflexivity|]. split; [discriminate|]. split; [discriminate|].
  split; [vm_compute; discriminate|]. split; vm_compute; reflexivity.
Qed.

Lemma nested_deleted : forall reserved, (forall x, reserved x = false) ->
  exists requests x y t, let db := history reserved requests in
  x <> y /\ lookup y db = Some t /\ used t <> []
  /\ snd (execute (Drop_table [x]) db) = Ok tt
  /\ lookup y (fst (execute (Drop_table [x]) db)) = Some (Table (definition t) [] []).
Proof.
  intros reserved H.
  exists [Create "a" (Table 1 [] []); Create "a/b" (Table 2 [21%Z] [])], "a", "a/b", (Table 2 [21%Z] []).
  assert (E : history reserved [Create "a" (Table 1 [] []); Create "a/b" (Table 2 [21%Z] [])]
              = [("a", Table 1 [] []); ("a/b", Table 2 [21%Z] [])]).
  { unfold history. cbn [fold_left step]. unfold create, create_name. rewrite !H. vm_compute. reflexivity. }
  rewrite E. split; [discriminate|]. split; [reflexivity|]. split; [discriminate|].
  split; vm_compute; reflexivity.
Qed.

Lemma empty_name_deletes : forall db y t, lookup EmptyString db <> None ->
  y <> EmptyString -> lookup y db = Some t ->
  lookup y (fst (run (parse_sql "DROP TABLE """"") db)) = Some (Table (definition t) [] []).
Proof.
  intros db y t E N L. assert (P : parse_sql "DROP TABLE """"" = Ok (Drop_table [EmptyString]))
    by (vm_compute; reflexivity).
  rewrite P. cbn [run execute each]. unfold drop_table. apply exists_iff in E. rewrite E. cbn [fst].
  rewrite lookup_delete, lookup_without, L. destruct (String.eqb_spec y EmptyString); [contradiction|].
  reflexivity.
Qed.

Lemma semicolon_vacuums : exists db, lookup "a;b" db = None
  /\ let '(db', r) := run (parse_sql "VACUUM ""a;b""") db in
     r = Ok tt /\ affects ["a"; "b"] (cleaned 604800) db db' /\ lookup "a" db <> lookup "a" db'
     /\ lookup "b" db <> lookup "b" db'.
Proof.
  exists [("a", Table 1 [] [(1, 700000)%Z]); ("b", Table 2 [] [(2, 700000)%Z])].
  split; [reflexivity|].
  assert (P : parse_sql "VACUUM ""a;b""" = Ok (Vacuum ["a"; "b"] None false)) by (vm_compute; reflexivity).
  rewrite P. cbn [run].
  assert (E : execute (Vacuum ["a"; "b"] None false)
                [("a", Table 1 [] [(1, 700000)%Z]); ("b", Table 2 [] [(2, 700000)%Z])]
              = ([("a", Table 1 [] []); ("b", Table 2 [] [])], Ok tt)) by (vm_compute; reflexivity).
  rewrite E. split; [reflexivity|]. split; [|split; discriminate].
  intros x. rewrite !lookup_cons. destruct (String.eqb_spec "a" x) as [<-|Na]; [reflexivity|].
  destruct (String.eqb_spec "b" x) as [<-|Nb]; [reflexivity|]. reflexivity.
Qed.

Lemma empty_vacuums : forall db, run (parse_sql "VACUUM """"") db = run (parse_sql "VACUUM") db.
Proof.
  intros db. assert (A : parse_sql "VACUUM """"" = Ok (Vacuum [] None false)) by (vm_compute; reflexivity).
  assert (B : parse_sql "VACUUM" = Ok (Vacuum [] None false)) by (vm_compute; reflexivity).
  now rewrite A, B.
Qed.

(** Tables with files that are used and files that are not. *)
Definition farm : database :=
  [("wind", Table 1 [11; 12] [(10, 700000); (9, 5)])%Z; ("solar", Table 2 [21] [(20, 3)])%Z;
   ("hydro", Table 3 [31] [])%Z].

Lemma farm_example :
  drop_statement [[("wind", false)]; [("hydro", true)]]
    [Word "drop" false; Word "TABLE" false; Word "wind" false; Comma; Word "hydro" true; Semicolon]
  /\ own_folders ["wind"; "hydro"] farm
  /\ parse_sql "drop TABLE wind, ""hydro"";" = Ok (Drop_table ["wind"; "hydro"])
  /\ run (parse_sql "drop TABLE wind, ""hydro"";") farm
     = ([("solar", Table 2 [21] [(20, 3)])%Z], Ok tt)
  /\ run (parse_sql "DROP TABLE solar, sun, wind") farm
     = ([("wind", Table 1 [11; 12] [(10, 700000); (9, 5)])%Z; ("hydro", Table 3 [31] [])%Z], Err)
  /\ run (parse_sql "TRUNCATE solar") farm
     = ([("wind", Table 1 [11; 12] [(10, 700000); (9, 5)])%Z; ("solar", Table 2 [] [(21, 0); (20, 3)])%Z;
         ("hydro", Table 3 [31] [])%Z], Ok tt)
  /\ run (parse_sql "VACUUM wind") farm
     = ([("wind", Table 1 [11; 12] [(9, 5)])%Z; ("solar", Table 2 [21] [(20, 3)])%Z;
         ("hydro", Table 3 [31] [])%Z], Ok tt)
  /\ run (parse_sql "VACUUM RETAIN 4") farm
     = ([("wind", Table 1 [11; 12] [])%Z; ("solar", Table 2 [21] [(20, 3)])%Z;
         ("hydro", Table 3 [31] [])%Z], Ok tt)
  /\ run (parse_sql "TRUNCATE CLUSTER wind") farm = (farm, Err).
Proof.
  split.
  { exists (Word "drop" false), (Word "TABLE" false), [Semicolon]. split; [now exists "drop"|].
    split; [now exists "TABLE"|]. split; [discriminate|].
    split; [repeat constructor; discriminate|]. split; [now constructor|reflexivity]. }
  split.
  { intros x y I L. unfold farm in L. rewrite !lookup_cons in L.
    destruct (String.eqb_spec "wind" y) as [<-|]; [|destruct (String.eqb_spec "solar" y) as [<-|];
      [|destruct (String.eqb_spec "hydro" y) as [<-|]; [|now elim L]]];
    destruct I as [<-|[<-|[]]]; vm_compute; congruence. }
  repeat split; vm_compute; reflexivity.
Qed.

Lemma case_example :
  plain "Wind" /\ upper_case "W" = true /\ has_char "W" "Wind"
  /\ create (fun _ => false) "Wind" (Table 1 [] []) (history (fun _ => false) [])
     = Ok [("wind", Table 1 [] [])].
Proof.
  split; [now apply plain_bool|]. split; [reflexivity|]. split; [now left|]. vm_compute. reflexivity.
Qed.

Lemma empty_name_example :
  let db := history (fun _ => false) [Create "" (Table 1 [] []); Create "solar" (Table 2 [21%Z] [])] in
  lookup EmptyString db <> None /\ lookup "solar" db = Some (Table 2 [21%Z] [])
  /\ run (parse_sql "DROP TABLE """"") db = ([("solar", Table 2 [] [])], Ok tt).
Proof. vm_compute. split; [discriminate|]. split; reflexivity. Qed.
