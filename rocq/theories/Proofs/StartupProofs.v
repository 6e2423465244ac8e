(** Starting a server. *)
From Coq Require Import ZArith Bool Ascii String List Lia.
From Verif Require Import Model.Base Model.Sql Model.EmbeddedTables Model.QueryNodes Model.Startup
  Spec.StatementSpec Spec.StartupSpec Proofs.SqlProofs Proofs.EmbeddedTablesProofs.
Import ListNotations.
Open Scope string_scope.
Open Scope list_scope.

Lemma strip_some : forall p s r, strip p s = Some r <-> s = (p ++ r)%string.
Proof.
  induction p as [|a p IH]; intros s r; cbn [strip append].
  - split; [congruence|intros ->; reflexivity].
  - destruct s as [|b s]; [split; discriminate|].
    destruct (Ascii.eqb_spec a b) as [->|N].
    + rewrite IH. split; [intros ->; reflexivity|congruence].
    + split; [discriminate|]. congruence.
Qed.
Lemma split_some : forall p s a b, split_once p s = Some (a, b) -> s = (a ++ p ++ b)%string.
Proof.
  induction s as [|c s IH]; intros a b; cbn [split_once].
  - destruct (strip p "") as [r|] eqn:E; [|discriminate]. intros X. injection X as <- <-.
    apply strip_some in E. exact E.
  - destruct (strip p (String c s)) as [r|] eqn:E.
    + intros X. injection X as <- <-. apply strip_some in E. exact E.
    + destruct (split_once p s) as [(f, r)|]; [|discriminate]. intros X. injection X as <- <-.
      rewrite (IH f r eq_refl). reflexivity.
Qed.
Lemma split_none : forall p s, split_once p s = None -> forall a b, s <> (a ++ p ++ b)%string.
Proof.
  induction s as [|c s IH]; cbn [split_once]; intros H a b.
  - destruct (strip p "") as [r|] eqn:E; [discriminate|]. intros X.
    destruct a; cbn in X; [|discriminate].
    assert (Y : strip p "" = Some b) by now apply strip_some. congruence.
  - destruct (strip p (String c s)) as [r|] eqn:E; [discriminate|].
    destruct (split_once p s) as [(f, r)|]; [discriminate|]. intros X. destruct a as [|d a].
    + assert (Y : strip p (String c s) = Some b) by now apply strip_some. congruence.
    + cbn [append] in X. injection X as _ X. now apply (IH eq_refl a b).
Qed.
Lemma no_scheme_none : forall s, no_scheme s <-> split_once "://" s = None.
Proof.
  intros s. split.
  - intros N. destruct (split_once "://" s) as [(a, b)|] eqn:E; [|reflexivity].
    apply split_some in E. now destruct (N a b).
  - intros E. exact (split_none "://" s E).
Qed.

Lemma open_some : forall w f g, open w f = Ok g <-> g = f /\ opens w f = true.
Proof.
  intros w f g. unfold open. destruct (opens w f).
  - split; [intros X; injection X as <-; auto|]. intros (-> & _). reflexivity.
  - split; [discriminate|]. intros (_ & X). discriminate.
Qed.
Lemma local_iff : forall w u f,
  open_local_url w u = Ok f <-> names_local u f /\ opens w f = true.
Proof.
  intros w u f. split.
  - unfold open_local_url. destruct (split_once "://" u) as [(s, r)|] eqn:E.
    + apply split_some in E. destruct (String.eqb_spec s "file") as [->|N].
      * intros X. apply open_some in X. destruct X as (-> & X). subst u. split; [constructor|exact X].
      * destruct (String.eqb_spec s "memory") as [->|N']; [|discriminate].
        intros X. apply open_some in X. destruct X as (-> & X). subst u. split; [constructor|exact X].
    + intros X. apply open_some in X. destruct X as (-> & X). split; [|exact X].
      constructor. now apply no_scheme_none.
  - intros (N & X). destruct N as [p N|p|x]; unfold open_local_url.
    + apply no_scheme_none in N. rewrite N. now apply open_some.
    + change (split_once "://" ("file://" ++ p)) with (Some ("file", p)). cbn iota.
      now apply open_some.
    + change (split_once "://" ("memory://" ++ x)) with (Some ("memory", x)). cbn iota.
      now apply open_some.
Qed.
Lemma remote_iff : forall w c u f,
  open_remote_url w u c = Ok f <-> names_remote c u f /\ opens w f = true.
Proof.
  intros w c u f. split.
  - unfold open_remote_url. destruct (split_once "://" u) as [(s, r)|] eqn:E; [|discriminate].
    apply split_some in E. destruct (String.eqb_spec s "s3") as [->|N].
    + destruct (aws_endpoint c) as [e|] eqn:E1; cbn [required bind]; [|discriminate].
      destruct (aws_access_key_id c) as [i|] eqn:E2; cbn [required bind]; [|discriminate].
      destruct (aws_secret_access_key c) as [k|] eqn:E3; cbn [required bind]; [|discriminate].
      intros X. apply open_some in X. destruct X as (-> & X). subst u.
      split; [|exact X]. now constructor.
    + destruct (String.eqb_spec s "azureblobstorage") as [->|N']; [|discriminate].
      destruct (azure_storage_account_name c) as [e|] eqn:E1; cbn [required bind]; [|discriminate].
      destruct (azure_storage_access_key c) as [i|] eqn:E2; cbn [required bind]; [|discriminate].
      intros X. apply open_some in X. destruct X as (-> & X). subst u.
      split; [|exact X]. now constructor.
  - intros (N & X). unfold open_remote_url. destruct N as [b e i k E1 E2 E3|b a k E1 E2].
    + change (split_once "://" ("s3://" ++ b)) with (Some ("s3", b)). cbn iota.
      change (String.eqb "s3" "s3") with true. cbn iota.
      rewrite E1, E2, E3. cbn [required bind]. now apply open_some.
    + change (split_once "://" ("azureblobstorage://" ++ b)) with (Some ("azureblobstorage", b)).
      cbn iota. change (String.eqb "azureblobstorage" "s3") with false.
      change (String.eqb "azureblobstorage" "azureblobstorage") with true. cbn iota.
      rewrite E1, E2. cbn [required bind]. now apply open_some.
Qed.

(** An argument names at most one data folder. *)
Lemma local_unique : forall u f g, names_local u f -> names_local u g -> f = g.
Proof.
  intros u f g Hf Hg. set (w := World (fun _ => true) (fun _ => Joined) true true true true).
  assert (F : open_local_url w u = Ok f) by now apply local_iff.
  assert (G : open_local_url w u = Ok g) by now apply local_iff. congruence.
Qed.
Lemma remote_unique : forall c u f g, names_remote c u f -> names_remote c u g -> f = g.
Proof.
  intros c u f g Hf Hg. set (w := World (fun _ => true) (fun _ => Joined) true true true true).
  assert (F : open_remote_url w u c = Ok f) by now apply remote_iff.
  assert (G : open_remote_url w u c = Ok g) by now apply remote_iff. congruence.
Qed.
Lemma asks_for_unique : forall a f g r s, asks_for a f r -> asks_for a g s -> f = g /\ r = s.
Proof.
  intros a f g r s Hf Hg.
  inversion Hf as [l1 c1 f1 S1 L1|l1 r1 c1 f1 g1 S1 L1 R1|l1 r1 c1 f1 g1 S1 L1 R1];
  inversion Hg as [l2 c2 f2 S2 L2|l2 r2 c2 f2 g2 S2 L2 R2|l2 r2 c2 f2 g2 S2 L2 R2]; subst;
  rewrite S1 in S2; try discriminate; injection S2; intros; subst;
  rewrite (local_unique _ _ _ L1 L2); try rewrite (remote_unique _ _ _ _ R1 R2); auto.
Qed.

Lemma log_some : forall w f, open_log w f = Ok tt <-> on_disk f /\ log_opens w = true.
Proof.
  intros w f. unfold open_log. split.
  - destruct (split_once "://" (location f)) as [p|] eqn:E; [discriminate|].
    destruct (log_opens w); [|discriminate]. intros _. split; [|reflexivity].
    destruct f as [p| |b e i k|b n k]; try discriminate E. exists p. split; [reflexivity|].
    now apply no_scheme_none.
  - intros ((p & -> & N) & L). cbn [location]. apply no_scheme_none in N. now rewrite N, L.
Qed.
Lemma finished : forall w a r, 
  (forall f rows, try_from_args w a = (rows, Ok f) <-> 
     asks_for a f rows /\ opens w (local_folder f) = true
     /\ (forall r, remote_folder f = Some r -> opens w r = true /\ joins w r = Joined)) ->
  forall v, start w a = (r, Ok v) <->
    asks_for a (uses v) r /\ works w (uses v)
    /\ (wal_enabled w = true -> on_disk (local_folder (uses v)))
    /\ listens_on v = ("0.0.0.0:" ++ show (port_of a))%string.
Proof.
  intros w a r H v. unfold start. destruct (try_from_args w a) as (rows, o) eqn:T. split.
  - intros X. injection X as <- X. destruct o as [f| |]; cbn [bind] in X; try discriminate.
    destruct (proj1 (H f rows) eq_refl) as (A & O & R).
    destruct (configured w) eqn:C; [|discriminate].
    destruct (wal_enabled w) eqn:W.
    + destruct (open_log w (local_folder f)) as [[]| |] eqn:L; cbn [bind] in X; try discriminate.
      destruct (ready w) eqn:Y; [|discriminate]. injection X as <-. cbn [uses listens_on].
      apply log_some in L. destruct L as (D & L). repeat split; auto; now apply R.
    + cbn [bind] in X. destruct (ready w) eqn:Y; [|discriminate]. injection X as <-.
      cbn [uses listens_on]. repeat split; auto; try now apply R. all: intros; congruence.
  - intros (A & (O & R & C & Y & L) & D & N).
    assert (Z : (rows, o) = (r, Ok (uses v))) by (apply H; auto).
    injection Z as -> ->. cbn [bind]. rewrite C, Y. f_equal.
    destruct (wal_enabled w) eqn:W.
    + replace (open_log w (local_folder (uses v))) with (Ok tt).
      * cbn [bind]. destruct v as [f l]. cbn [uses listens_on] in *. subst l. reflexivity.
      * symmetry. apply log_some. split; [now apply D|now apply L].
    + cbn [bind]. destruct v as [f l]. cbn [uses listens_on] in *. subst l. reflexivity.
Qed.

Lemma in_cluster_some : forall w a l r c m rows f, 
  in_cluster w a l r c m = (rows, Ok f) <->
  exists lf rf, names_local l lf /\ names_remote c r rf /\ opens w lf = true /\ opens w rf = true
    /\ joins w rf = Joined /\ rows = [(rf, (address a, m))]
    /\ f = Folders (Some (address a, m)) lf (Some rf) (match m with Edge => lf | Cloud => rf end).
Proof.
  intros w a l r c m rows f. unfold in_cluster. split.
  - destruct (open_remote_url w r c) as [rf| |] eqn:R; cbn [bind]; try discriminate.
    destruct (open_local_url w l) as [lf| |] eqn:L; cbn [bind]; try discriminate.
    apply remote_iff in R. apply local_iff in L. destruct R, L. unfold join.
    destruct (joins w rf) eqn:J; cbn [bind]; try discriminate. intros X. injection X as <- <-.
    exists lf, rf. repeat split; auto.
  - intros (lf & rf & L & R & O1 & O2 & J & -> & ->).
    assert (E1 : open_remote_url w r c = Ok rf) by now apply remote_iff.
    assert (E2 : open_local_url w l = Ok lf) by now apply local_iff.
    rewrite E1. cbn [bind]. rewrite E2. cbn [bind]. unfold join. rewrite J. reflexivity.
Qed.
Lemma args_some : forall w a f rows, try_from_args w a = (rows, Ok f) <-> 
  asks_for a f rows /\ opens w (local_folder f) = true
  /\ (forall r, remote_folder f = Some r -> opens w r = true /\ joins w r = Joined).
Proof.
  intros w a f rows. unfold try_from_args. split.
  - destruct (started_as a) as [l [r|] c|l r c] eqn:S.
    + intros X. apply in_cluster_some in X. destruct X as (lf & rf & L & R & O1 & O2 & J & -> & ->).
      split; [now apply (On_edge a l r c)|]. split; [exact O1|]. cbn. intros q Q. injection Q as <-. auto.
    + destruct (open_local_url w l) as [lf| |] eqn:L; cbn [bind]; try discriminate.
      intros X. injection X as <- <-. apply local_iff in L. destruct L as (L & O).
      split; [now apply (Alone a l c)|]. split; [exact O|]. discriminate.
    + intros X. apply in_cluster_some in X. destruct X as (lf & rf & L & R & O1 & O2 & J & -> & ->).
      split; [now apply (In_cloud a l r c)|]. split; [exact O1|]. cbn. intros q Q. injection Q as <-. auto.
  - intros (A & O & R).
    destruct A as [l c lf S L|l r c lf rf S L N|l r c lf rf S L N]; rewrite S; cbn in O, R.
    + assert (E : open_local_url w l = Ok lf) by now apply local_iff. rewrite E. reflexivity.
    + apply in_cluster_some. destruct (R rf eq_refl). exists lf, rf. repeat split; auto.
    + apply in_cluster_some. destruct (R rf eq_refl). exists lf, rf. repeat split; auto.
Qed.

Lemma started_iff : forall w a rows v, start w a = (rows, Ok v) <->
  asks_for a (uses v) rows /\ works w (uses v)
  /\ (wal_enabled w = true -> on_disk (local_folder (uses v)))
  /\ listens_on v = ("0.0.0.0:" ++ show (port_of a))%string.
Proof. intros w a rows v. apply finished. apply args_some. Qed.

(** Whatever fails. *)
Lemma saved_only : forall w a rows o, start w a = (rows, o) -> rows <> [] ->
  exists f, asks_for a f rows /\ opens w (local_folder f) = true
    /\ forall r, remote_folder f = Some r -> opens w r = true.
Proof.
  intros w a rows o H N. unfold start in H.
  destruct (try_from_args w a) as (rows', o') eqn:T. injection H as <- _.
  assert (G : forall l r c m, in_cluster w a l r c m = (rows', o') ->
    exists lf rf, names_local l lf /\ names_remote c r rf /\ opens w lf = true /\ opens w rf = true
      /\ rows' = [(rf, (address a, m))]).
  { intros l r c m. unfold in_cluster.
    destruct (open_remote_url w r c) as [rf| |] eqn:R; cbn [bind]; try (intros X; injection X as <- _; congruence).
    destruct (open_local_url w l) as [lf| |] eqn:L; cbn [bind]; try (intros X; injection X as <- _; congruence).
    apply remote_iff in R. apply local_iff in L. destruct R, L. unfold join.
    destruct (joins w rf) eqn:J; intros X; injection X as <- _; try congruence;
      exists lf, rf; repeat split; auto. }
  unfold try_from_args in T. destruct (started_as a) as [l [r|] c|l r c] eqn:S.
  - destruct (G _ _ _ _ T) as (lf & rf & L & R & O1 & O2 & ->). exists (Folders (Some (address a, Edge)) lf (Some rf) lf).
    split; [now apply (On_edge a l r c)|]. split; [exact O1|]. cbn. intros q Q. now injection Q as <-.
  - injection T as <- _. congruence.
  - destruct (G _ _ _ _ T) as (lf & rf & L & R & O1 & O2 & ->). exists (Folders (Some (address a, Cloud)) lf (Some rf) rf).
    split; [now apply (In_cloud a l r c)|]. split; [exact O1|]. cbn. intros q Q. now injection Q as <-.
Qed.

(** Urls. *)
Lemma show_digits : forall z, (0 <= z)%Z -> Forall (fun c => digit c = true) (list_ascii_of_string (show z)).
Proof.
  intros z Hz. unfold show. rewrite list_ascii_of_string_of_list_ascii. apply decimal_digits; [exact Hz|constructor].
Qed.
Lemma show_injective : forall y z, (0 <= y < 2 ^ 64)%Z -> (0 <= z < 2 ^ 64)%Z -> show y = show z -> y = z.
Proof.
  intros y z Hy Hz E. apply (f_equal list_ascii_of_string) in E. unfold show in E.
  rewrite !list_ascii_of_string_of_list_ascii in E.
  pose proof (decimal_parsed y Hy) as A. pose proof (decimal_parsed z Hz) as B. congruence.
Qed.
Lemma port_written : forall z, (0 <= z < 2 ^ 16)%Z ->
  show z <> EmptyString /\ number_written (list_ascii_of_string (show z)) z.
Proof.
  intros z Hz. unfold show. split.
  - intros E. apply (f_equal list_ascii_of_string) in E.
    rewrite list_ascii_of_string_of_list_ascii in E. now apply (decimal_not_empty 20 z []) in E.
  - rewrite list_ascii_of_string_of_list_ascii. apply parse_u64_iff.
    + unfold max_retention. transitivity (2 ^ 16)%Z; [lia|]. now vm_compute.
    + apply decimal_parsed. lia.
Qed.
Lemma last_colon : forall a b x y, Forall (fun c => digit c = true) (list_ascii_of_string x) ->
  Forall (fun c => digit c = true) (list_ascii_of_string y) ->
  (a ++ ":" ++ x)%string = (b ++ ":" ++ y)%string -> a = b /\ x = y.
Proof.
  assert (N : forall a x, Forall (fun c => digit c = true) (list_ascii_of_string (a ++ ":" ++ x)) -> False).
  { induction a as [|c a IH]; intros x F; cbn [append list_ascii_of_string] in F;
      inversion F as [|? ? D F']; subst; [discriminate D|]. exact (IH x F'). }
  induction a as [|c a IH]; intros b x y Fx Fy E; destruct b as [|d b]; cbn [append] in E.
  - injection E as ->. auto.
  - injection E as _ E. rewrite E in Fx. destruct (N b y Fx).
  - injection E as _ E. rewrite <- E in Fy. destruct (N a x Fy).
  - injection E as -> E. destruct (IH b x y Fx Fy E) as (-> & ->). auto.
Qed.
Lemma distinct_addresses : forall a b,
  (0 <= port_of a < 2 ^ 16)%Z -> (0 <= port_of b < 2 ^ 16)%Z -> address a = address b ->
  host_of a = host_of b /\ port_of a = port_of b.
Proof.
  intros a b Ha Hb E. unfold address in E.
  change ("grpc://" ++ host_of a ++ ":" ++ show (port_of a))%string
    with ("grpc://" ++ (host_of a ++ ":" ++ show (port_of a)))%string in E.
  cbn [append] in E. injection E as E.
  change (String ":" (show (port_of a))) with (":" ++ show (port_of a))%string in E.
  change (String ":" (show (port_of b))) with (":" ++ show (port_of b))%string in E.
  apply last_colon in E; [|apply show_digits; lia|apply show_digits; lia].
  destruct E as (E & X). split; [exact E|]. apply show_injective in X; lia.
Qed.

(** What does not hold. *)
Lemma left_behind : forall w a x remote c r, started_as a = Edge_argument ("memory://" ++ x) (Some remote) c ->
  names_remote c remote r -> opens w r = true -> opens w Memory = true -> joins w r = Joined ->
  wal_enabled w = true -> start w a = ([(r, (address a, Edge))], Err).
Proof.
  intros w a x remote c r S N O1 O2 J W. unfold start, try_from_args. rewrite S.
  assert (E : in_cluster w a ("memory://" ++ x) remote c Edge
    = ([(r, (address a, Edge))], Ok (Folders (Some (address a, Edge)) Memory (Some r) Memory))).
  { apply in_cluster_some. exists Memory, r. repeat split; auto. constructor. }
  rewrite E. cbn [bind]. destruct (configured w); [|reflexivity]. rewrite W. reflexivity.
Qed.
Lemma member_address : forall a f rows u m, asks_for a f rows -> member f = Some (u, m) -> u = address a.
Proof. intros a f rows u m A M. destruct A; cbn [member] in M; try discriminate; injection M as <- _; reflexivity. Qed.
Lemma same_address : forall w1 w2 m1 m2 r1 r2 v1 v2 n1 n2,
  start w1 (Arguments None None m1) = (r1, Ok v1) -> start w2 (Arguments None None m2) = (r2, Ok v2) ->
  member (uses v1) = Some n1 -> member (uses v2) = Some n2 -> fst n1 = fst n2.
Proof.
  intros w1 w2 m1 m2 r1 r2 v1 v2 (u1, k1) (u2, k2) H1 H2 M1 M2. apply started_iff in H1, H2.
  cbn [fst]. rewrite (member_address _ _ _ _ _ (proj1 H1) M1), (member_address _ _ _ _ _ (proj1 H2) M2).
  reflexivity.
Qed.
Lemma all_interfaces : forall w h p m rows v, start w (Arguments (Some h) (Some p) m) = (rows, Ok v) ->
  listens_on v = ("0.0.0.0:" ++ show p)%string.
Proof. intros w h p m rows v H. apply started_iff in H. apply H. Qed.

(** Examples. *)
Definition working (wal : bool) : world := World (fun _ => true) (fun _ => Joined) true wal true true.
Definition keys : credentials :=
  Credentials (Some "http://store:9000") (Some "id") (Some "secret") None None.
Definition bucket : folder := S3 "wind" "http://store:9000" "id" "secret".
Definition on_edge : arguments := Arguments (Some "edge") (Some 9981%Z) (Edge_argument "data/edge" (Some "s3://wind") keys).
Definition in_cloud : arguments := Arguments (Some "cloud") None (Cloud_argument "file:///data" "s3://wind" keys).
Lemma started_cases :
  start (working true) on_edge
    = ([(bucket, ("grpc://edge:9981", Edge))],
       Ok (Server (Folders (Some ("grpc://edge:9981", Edge)) (Path "data/edge") (Some bucket) (Path "data/edge"))
             "0.0.0.0:9981"))
  /\ start (working true) in_cloud
    = ([(bucket, ("grpc://cloud:9999", Cloud))],
       Ok (Server (Folders (Some ("grpc://cloud:9999", Cloud)) (Path "/data") (Some bucket) bucket)
             "0.0.0.0:9999"))
  /\ start (working false) (Arguments None None (Edge_argument "memory://" None keys))
    = ([], Ok (Server (Folders None Memory None Memory) "0.0.0.0:9999"))
  /\ start (working true) (Arguments None None (Cloud_argument "http://x" "s3://wind" keys)) = ([], Err)
  /\ start (working true) (Arguments None None (Cloud_argument "data" "azureblobstorage://wind" keys)) = ([], Err).
Proof.
  repeat match goal with |- _ /\ _ => apply conj end; vm_compute; reflexivity.
Qed.
Lemma left_behind_case :
  names_remote keys "s3://wind" bucket
  /\ start (working true) (Arguments None None (Edge_argument "memory://" (Some "s3://wind") keys))
     = ([(bucket, ("grpc://127.0.0.1:9999", Edge))], Err).
Proof. split; [now apply (Named_s3 keys "wind")|vm_compute; reflexivity]. Qed.
Lemma same_address_case :
  fst (start (working true) (Arguments None None (Edge_argument "data" (Some "s3://wind") keys)))
    = [(bucket, ("grpc://127.0.0.1:9999", Edge))]
  /\ fst (start (working true) (Arguments None None (Cloud_argument "data" "s3://wind" keys)))
    = [(bucket, ("grpc://127.0.0.1:9999", Cloud))]
  /\ is_ok (snd (start (working true) (Arguments None None (Edge_argument "data" (Some "s3://wind") keys)))) = true
  /\ is_ok (snd (start (working true) (Arguments None None (Cloud_argument "data" "s3://wind" keys)))) = true.
Proof.
  repeat match goal with |- _ /\ _ => apply conj end; vm_compute; reflexivity.
Qed.
