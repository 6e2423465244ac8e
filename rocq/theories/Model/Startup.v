(** Starting a server with the data folders on its command line:
    crates/modelardb_server/src/data_folders.rs l.50-122, main.rs l.50-166, and
    crates/modelardb_storage/src/data_folder/mod.rs l.83-266. Simplified: the command line has been
    divided into arguments, paths are UTF-8 and the user does not end the server while it is started. *)
From Coq Require Import ZArith Bool Ascii String List.
From Verif Require Import Model.Base Model.EmbeddedTables Model.QueryNodes.
Import ListNotations.
Open Scope string_scope.
Open Scope list_scope.

(** [str::split_once]. *)
Fixpoint strip (p s : string) : option string :=
  match p, s with
  | EmptyString, _ => Some s
  | String a p, String b s => if Ascii.eqb a b then strip p s else None
  | String _ _, EmptyString => None
  end.
Fixpoint split_once (separator s : string) : option (string * string) :=
  match strip separator s with
  | Some rest => Some (EmptyString, rest)
  | None =>
      match s with
      | EmptyString => None
      | String c s =>
          match split_once separator s with
          | Some (first, rest) => Some (String c first, rest)
          | None => None
          end
      end
  end.

(** [CloudCredentials], crates/modelardb_types/src/types.rs l.411-431. *)
Record credentials := Credentials {
  aws_endpoint : option string;
  aws_access_key_id : option string;
  aws_secret_access_key : option string;
  azure_storage_account_name : option string;
  azure_storage_access_key : option string
}.

(** A [DataFolder]: where its tables are and what they are accessed with. *)
Inductive folder :=
| Path (path : string)
| Memory
| S3 (bucket endpoint access_key_id secret_access_key : string)
| Azure (container account_name access_key : string).

(** [DataFolder::location], data_folder/mod.rs l.104, 123-126, 193 and 232. *)
Definition location (f : folder) : string :=
  match f with
  | Path path => path
  | Memory => "memory:///modelardb"
  | S3 bucket _ _ _ => ("s3://" ++ bucket)%string
  | Azure container _ _ => ("az://" ++ container)%string
  end.

(** What the file system, the object stores and the rest of the server do. [Saved_only]: the node is
    saved, but the key of the cluster cannot be read or saved. *)
Inductive join_result := Joined | Saved_only | Not_saved.
Record world := World {
  opens : folder -> bool;         (** can be created or accessed, with its metadata tables *)
  joins : folder -> join_result;  (** [Cluster::try_new], cluster.rs l.59-76 *)
  configured : bool;              (** [ConfigurationManager::try_new] up to the write-ahead log *)
  wal_enabled : bool;             (** in the configuration, see Model/Configuration.v *)
  log_opens : bool;               (** [WriteAheadLog::try_new] after the check of the location *)
  ready : bool                    (** the storage engine, the tables, the replay and the port *)
}.

Section Starting.
Variable w : world.

Definition open (f : folder) : outcome folder := if opens w f then Ok f else Err.

(** [DataFolder::open_local_url], data_folder/mod.rs l.89-98. *)
Definition open_local_url (url : string) : outcome folder :=
  match split_once "://" url with
  | None => open (Path url)
  | Some (scheme, rest) =>
      if String.eqb scheme "file" then open (Path rest)
      else if String.eqb scheme "memory" then open Memory
      else Err
  end.

(** [Option::ok_or_else]. *)
Definition required (o : option string) : outcome string :=
  match o with Some s => Ok s | None => Err end.

(** [DataFolder::open_remote_url], l.136-182. *)
Definition open_remote_url (url : string) (c : credentials) : outcome folder :=
  match split_once "://" url with
  | None => Err
  | Some (scheme, rest) =>
      if String.eqb scheme "s3" then
        let? endpoint := required (aws_endpoint c) in
        let? access_key_id := required (aws_access_key_id c) in
        let? secret_access_key := required (aws_secret_access_key c) in
        open (S3 rest endpoint access_key_id secret_access_key)
      else if String.eqb scheme "azureblobstorage" then
        let? account_name := required (azure_storage_account_name c) in
        let? access_key := required (azure_storage_access_key c) in
        open (Azure rest account_name access_key)
      else Err
  end.

(** [ServerArgs] and [ServerMode], main.rs l.55-122. *)
Inductive mode_argument :=
| Edge_argument (local : string) (remote : option string) (c : credentials)
| Cloud_argument (local remote : string) (c : credentials).
Record arguments := Arguments {
  host : option string;
  port : option Z;
  started_as : mode_argument
}.
Definition host_of (a : arguments) : string :=
  match host a with Some h => h | None => "127.0.0.1" end.
Definition port_of (a : arguments) : Z :=
  match port a with Some p => p | None => 9999%Z end.

(** [ClusterMode] and [DataFolders], data_folders.rs l.24-35. *)
Record folders := Folders {
  member : option (string * mode);
  local_folder : folder;
  remote_folder : option folder;
  query_folder : folder
}.

(** The rows that are added to the table with nodes in a remote data folder. *)
Definition saved : Type := list (folder * (string * mode)).

(** [Cluster::try_new], cluster.rs l.59-76. *)
Definition join (f : folder) (n : string * mode) : saved * outcome unit :=
  match joins w f with
  | Joined => ([(f, n)], Ok tt)
  | Saved_only => ([(f, n)], Err)
  | Not_saved => ([], Err)
  end.

(** [DataFolders::try_from_args], data_folders.rs l.55-121. *)
Definition url_with_port (a : arguments) : string :=
  ("grpc://" ++ host_of a ++ ":" ++ show (port_of a))%string.
Definition in_cluster (a : arguments) (local remote : string) (c : credentials) (m : mode)
  : saved * outcome folders :=
  match (let? r := open_remote_url remote c in let? l := open_local_url local in Ok (l, r)) with
  | Ok (l, r) =>
      let n := (url_with_port a, m) in
      let '(rows, joined) := join r n in
      (rows, let? _ := joined in
             Ok (Folders (Some n) l (Some r) (match m with Edge => l | Cloud => r end)))
  | Err => ([], Err)
  | Panic => ([], Panic)
  end.
Definition try_from_args (a : arguments) : saved * outcome folders :=
  match started_as a with
  | Edge_argument local None _ =>
      ([], let? l := open_local_url local in Ok (Folders None l None l))
  | Edge_argument local (Some remote) c => in_cluster a local remote c Edge
  | Cloud_argument local remote c => in_cluster a local remote c Cloud
  end.

(** [WriteAheadLog::try_new], crates/modelardb_storage/src/write_ahead_log.rs l.59-75. *)
Definition open_log (f : folder) : outcome unit :=
  match split_once "://" (location f) with
  | Some _ => Err
  | None => if log_opens w then Ok tt else Err
  end.

(** A server that accepts requests, with the address it listens on. *)
Record server := Server { uses : folders; listens_on : string }.

(** [main], main.rs l.142-166, [ConfigurationManager::try_new], configuration.rs l.187-238, and
    [start_apache_arrow_flight_server], remote.rs l.66-73. *)
Definition start (a : arguments) : saved * outcome server :=
  let '(rows, started) := try_from_args a in
  (rows,
   let? f := started in
   if configured w then
     let? _ := if wal_enabled w then open_log (local_folder f) else Ok tt in
     if ready w then Ok (Server f ("0.0.0.0:" ++ show (port_of a))) else Err
   else Err).
End Starting.
