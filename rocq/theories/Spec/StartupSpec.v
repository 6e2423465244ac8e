(** What a server is started with. *)
From Coq Require Import ZArith Bool Ascii String List.
From Verif Require Import Model.Base Model.EmbeddedTables Model.QueryNodes Model.Startup.
Import ListNotations.
Open Scope string_scope.
Open Scope list_scope.

(** A text without a scheme. *)
Definition no_scheme (s : string) : Prop := forall a b, s <> (a ++ "://" ++ b)%string.

(** The data folder that an argument names. *)
Inductive names_local : string -> folder -> Prop :=
| Named_path p : no_scheme p -> names_local p (Path p)
| Named_file p : names_local ("file://" ++ p) (Path p)
| Named_memory x : names_local ("memory://" ++ x) Memory.
Inductive names_remote (c : credentials) : string -> folder -> Prop :=
| Named_s3 bucket endpoint id key :
    aws_endpoint c = Some endpoint -> aws_access_key_id c = Some id ->
    aws_secret_access_key c = Some key ->
    names_remote c ("s3://" ++ bucket) (S3 bucket endpoint id key)
| Named_azure container account key :
    azure_storage_account_name c = Some account -> azure_storage_access_key c = Some key ->
    names_remote c ("azureblobstorage://" ++ container) (Azure container account key).

(** What a server that is started with the arguments uses, and what it adds to the nodes of the
    cluster: an edge node executes queries on its local data folder and a cloud node on the remote
    data folder. *)
Definition address (a : arguments) : string :=
  ("grpc://" ++ host_of a ++ ":" ++ show (port_of a))%string.
Inductive asks_for (a : arguments) : folders -> saved -> Prop :=
| Alone local c l :
    started_as a = Edge_argument local None c -> names_local local l ->
    asks_for a (Folders None l None l) []
| On_edge local remote c l r :
    started_as a = Edge_argument local (Some remote) c ->
    names_local local l -> names_remote c remote r ->
    asks_for a (Folders (Some (address a, Edge)) l (Some r) l) [(r, (address a, Edge))]
| In_cloud local remote c l r :
    started_as a = Cloud_argument local remote c ->
    names_local local l -> names_remote c remote r ->
    asks_for a (Folders (Some (address a, Cloud)) l (Some r) r) [(r, (address a, Cloud))].

(** Nothing fails that these data folders are needed for. *)
Definition works (w : world) (f : folders) : Prop :=
  opens w (local_folder f) = true
  /\ (forall r, remote_folder f = Some r -> opens w r = true /\ joins w r = Joined)
  /\ configured w = true /\ ready w = true
  /\ (wal_enabled w = true -> log_opens w = true).

(** The write-ahead log is in a folder of the file system. *)
Definition on_disk (f : folder) : Prop := exists path, f = Path path /\ no_scheme path.
