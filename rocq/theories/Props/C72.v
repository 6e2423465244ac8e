(** C72 - A server is started in the mode and with the data folders that it is given. *)
From Coq Require Import ZArith Bool String List.
From Verif Require Import Model.Base Model.EmbeddedTables Model.QueryNodes Model.Startup
  Spec.StatementSpec Spec.StartupSpec
  Proofs.StartupProofs.
Import ListNotations.
Open Scope string_scope.
Open Scope list_scope.

(** Exactly the data folders that are named can be opened, with the credentials that are given. *)
Theorem c72_local_iff : forall w u f,
  open_local_url w u = Ok f <-> names_local u f /\ opens w f = true.
Proof. exact local_iff. Qed.
Print Assumptions c72_local_iff.
Theorem c72_remote_iff : forall w c u f,
  open_remote_url w u c = Ok f <-> names_remote c u f /\ opens w f = true.
Proof. exact remote_iff. Qed.
Print Assumptions c72_remote_iff.

(** The arguments determine what is used. *)
Theorem c72_unique : forall a f g r s, asks_for a f r -> asks_for a g s -> f = g /\ r = s.
Proof. exact asks_for_unique. Qed.
Print Assumptions c72_unique.

(** A server is started exactly if nothing fails and the write-ahead log, if enabled, is in the file
    system. It then uses the data folders and has the mode that are asked for, and has been added to
    the nodes of its cluster once. It listens on all addresses of its machine. *)
Theorem c72_started_iff : forall w a rows v, start w a = (rows, Ok v) <->
  asks_for a (uses v) rows /\ works w (uses v)
  /\ (wal_enabled w = true -> on_disk (local_folder (uses v)))
  /\ listens_on v = ("0.0.0.0:" ++ show (port_of a))%string.
Proof. exact started_iff. Qed.
Print Assumptions c72_started_iff.

Example c72_started_case :
  start (working true) on_edge
    = ([(bucket, ("grpc://edge:9981", Edge))],
       Ok (Server (Folders (Some ("grpc://edge:9981", Edge)) (Path "data/edge") (Some bucket) (Path "data/edge"))
             "0.0.0.0:9981"))
  /\ start (working true) in_cloud
    = ([(bucket, ("grpc://cloud:9999", Cloud))],
       Ok (Server (Folders (Some ("grpc://cloud:9999", Cloud)) (Path "/data") (Some bucket) bucket)
             "0.0.0.0:9999"))
  /\ start (working false) (Arguments None None (Edge_argument "memory://" None keys))
    = ([], Ok (Server (Folders None Memory None Memory) "0.0.0.0:9999"))
  /\ start (working true) (Arguments None None (Cloud_argument "http://x" "s3://wind" keys)) = ([], Err)
  /\ start (working true) (Arguments None None (Cloud_argument "data" "azureblobstorage://wind" keys)) = ([], Err).
Proof. exact started_cases. Qed.

(** A node is added to a cluster only if both data folders are named and can be opened, whatever fails
    afterwards. Missing: nodes that fail afterwards, see below. *)
Theorem c72_saved_partial : forall w a rows o, start w a = (rows, o) -> rows <> [] ->
  exists f, asks_for a f rows /\ opens w (local_folder f) = true
    /\ forall r, remote_folder f = Some r -> opens w r = true.
Proof. exact saved_only. Qed.
Print Assumptions c72_saved_partial.

(** Nodes with different hosts or ports are added with different urls. *)
Theorem c72_address : forall a b,
  (0 <= port_of a < 2 ^ 16)%Z -> (0 <= port_of b < 2 ^ 16)%Z -> address a = address b ->
  host_of a = host_of b /\ port_of a = port_of b.
Proof. exact distinct_addresses. Qed.
Print Assumptions c72_address.

(** The port in a url is the decimal number. *)
Theorem c72_port : forall z, (0 <= z < 2 ^ 16)%Z ->
  show z <> EmptyString /\ number_written (list_ascii_of_string (show z)) z.
Proof. exact port_written. Qed.
Print Assumptions c72_port.

(** An edge node of a cluster with its data in memory never starts if the write-ahead log is enabled,
    which it is by default, but is a node of the cluster afterwards. *)
Theorem c72_left_behind_refuted : forall w a x remote c r,
  started_as a = Edge_argument ("memory://" ++ x) (Some remote) c ->
  names_remote c remote r -> opens w r = true -> opens w Memory = true -> joins w r = Joined ->
  wal_enabled w = true -> start w a = ([(r, (address a, Edge))], Err).
Proof. exact left_behind. Qed.
Print Assumptions c72_left_behind_refuted.

Example c72_left_behind_case :
  names_remote keys "s3://wind" bucket
  /\ start (working true) (Arguments None None (Edge_argument "memory://" (Some "s3://wind") keys))
     = ([(bucket, ("grpc://127.0.0.1:9999", Edge))], Err).
Proof. exact left_behind_case. Qed.

(** Nodes on different machines that are started without a host and a port have the same url. *)
Theorem c72_same_address_refuted : forall w1 w2 m1 m2 r1 r2 v1 v2 n1 n2,
  start w1 (Arguments None None m1) = (r1, Ok v1) -> start w2 (Arguments None None m2) = (r2, Ok v2) ->
  member (uses v1) = Some n1 -> member (uses v2) = Some n2 -> fst n1 = fst n2.
Proof. exact same_address. Qed.
Print Assumptions c72_same_address_refuted.

Example c72_same_address_case :
  fst (start (working true) (Arguments None None (Edge_argument "data" (Some "s3://wind") keys)))
    = [(bucket, ("grpc://127.0.0.1:9999", Edge))]
  /\ fst (start (working true) (Arguments None None (Cloud_argument "data" "s3://wind" keys)))
    = [(bucket, ("grpc://127.0.0.1:9999", Cloud))]
  /\ is_ok (snd (start (working true) (Arguments None None (Edge_argument "data" (Some "s3://wind") keys)))) = true
  /\ is_ok (snd (start (working true) (Arguments None None (Cloud_argument "data" "s3://wind" keys)))) = true.
Proof. exact same_address_case. Qed.

(** The host that a server is to listen on is not used: it accepts requests on all addresses. *)
Theorem c72_host_refuted : forall w h p m rows v, start w (Arguments (Some h) (Some p) m) = (rows, Ok v) ->
  listens_on v = ("0.0.0.0:" ++ show p)%string.
Proof. exact all_interfaces. Qed.
Print Assumptions c72_host_refuted.
