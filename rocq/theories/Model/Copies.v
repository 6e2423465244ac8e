(** Copying and moving data between tables of data folders:
    /repo/crates/modelardb_embedded/src/operations/data_folder.rs l.335-570.

    Simplified: a handle of a data folder is the location of the folder, so two handles can be of
    the same folder; all tables of a folder are registered with its session, as in
    modelardb_embedded/src/capi.rs l.94-196. Reading, committing and truncating are one step each;
    the deltalake crate makes each of them atomic. *)
From Coq Require Import ZArith String List Bool.
From Verif Require Import Model.Base Model.Float Model.ErrorBound Model.Segments Model.Multivariate.
Import ListNotations.
Open Scope Z_scope.

(** Types of columns: [Utf8View], [Timestamp], [Float32] and other types. *)
Inductive data_type : Type := Tag_type | Time_type | Field_type | Other_type (n : Z).
Record column : Type := Column { c_name : string; c_type : data_type; c_nullable : bool }.

(** A row of a time series table is a segment with its tags and the index of its field. *)
Inductive record : Type :=
| Segment_row (tags : list text) (field : nat) (s : segment)
| Plain_row (r : Z).

(** A normal table, or a time series table with an error bound for each column. *)
Inductive kind : Type := Normal_table | Series_table (bounds : list error_bound).
Record table_state : Type := Table_state {
  t_kind : kind; t_schema : list column; t_rows : list record }.

(** The location of a folder and the name of a table in it. *)
Definition place : Type := (Z * string)%type.
Definition place_eqb (p q : place) : bool := (fst p =? fst q) && String.eqb (snd p) (snd q).
Definition world : Type := place -> option table_state.

Definition set_rows (p : place) (f : list record -> list record) (w : world) : world :=
  fun q => if place_eqb q p
           then match w q with
                | Some t => Some (Table_state (t_kind t) (t_schema t) (f (t_rows t)))
                | None => None
                end
           else w q.

Definition type_eqb (a b : data_type) : bool :=
  match a, b with
  | Tag_type, Tag_type | Time_type, Time_type | Field_type, Field_type => true
  | Other_type n, Other_type m => n =? m
  | _, _ => false
  end.

(** [schemas_are_compatible], l.547-570. *)
Fixpoint schemas_are_compatible (source target : list column) : bool :=
  match source, target with
  | [], [] => true
  | s :: source, t :: target =>
      type_eqb (c_type s) (c_type t) && negb (c_nullable s && negb (c_nullable t))
      && schemas_are_compatible source target
  | _, _ => false
  end.

(** The checks of [move], l.427-486: both tables are of the same kind and have compatible
    schemas. *)
Definition can_move (w : world) (source target : place) : bool :=
  match w source, w target with
  | Some s, Some t =>
      match t_kind s, t_kind t with
      | Series_table _, Series_table _ | Normal_table, Normal_table =>
          schemas_are_compatible (t_schema s) (t_schema t)
      | _, _ => false
      end
  | _, _ => false
  end.

Definition rows_at (w : world) (p : place) : list record :=
  match w p with Some t => t_rows t | None => [] end.

(** How a step ends: it succeeds, it fails, or an error is returned although it took effect, e.g.,
    because the response of the object store is lost. *)
Inductive ending : Type := Succeeds | Fails | Fails_late.

(** How far [move] is: nothing done, rows read, rows written, returned [Ok] or an error. *)
Inductive progress : Type :=
| Not_started
| Rows_read (rows : list record)
| Rows_written
| Returned (ok : bool).

(** [move], l.421-491, in three steps: reading the source, l.454-456 and l.473-475, writing to the
    target, l.458-460 and l.477-479, and truncating the source, l.488. *)
Definition move_step (source target : place) (e : ending) (st : progress * world) : progress * world :=
  let (p, w) := st in
  match p with
  | Not_started =>
      if can_move w source target
      then match e with Succeeds => (Rows_read (rows_at w source), w) | _ => (Returned false, w) end
      else (Returned false, w)
  | Rows_read rows =>
      match e with
      | Succeeds => (Rows_written, set_rows target (fun old => old ++ rows) w)
      | Fails => (Returned false, w)
      | Fails_late => (Returned false, set_rows target (fun old => old ++ rows) w)
      end
  | Rows_written =>
      match e with
      | Succeeds => (Returned true, set_rows source (fun _ => []) w)
      | Fails => (Returned false, w)
      | Fails_late => (Returned false, set_rows source (fun _ => []) w)
      end
  | Returned ok => (Returned ok, w)
  end.

(** The process performs the next step of [move], or another client writes rows to a table. The
    process is killed if it performs no more steps. *)
Inductive event : Type :=
| Move_step (e : ending)
| Other_write (p : place) (rows : list record).

Definition step (source target : place) (st : progress * world) (e : event) : progress * world :=
  match e with
  | Move_step e => move_step source target e st
  | Other_write p rows => (fst st, set_rows p (fun old => old ++ rows) (snd st))
  end.

Definition run (source target : place) (w : world) (events : list event) : progress * world :=
  fold_left (step source target) events (Not_started, w).

(** [copy_time_series_table], l.335-415. [tags] is not used. Simplified: the strings with the start
    time and the end time are timestamps. *)
Definition in_interval (maybe_start maybe_end : option Z) (r : record) : bool :=
  match r with
  | Segment_row _ _ s =>
      match maybe_start with Some t => t <=? sg_start_time s | None => true end
      && match maybe_end with Some t => sg_end_time s <=? t | None => true end
  | Plain_row _ => true
  end.

Definition copy_time_series_table (source target : place) (maybe_start maybe_end : option Z)
  (tags : list (string * text)) (e : ending) (w : world) : bool * world :=
  match w source, w target with
  | Some s, Some t =>
      match t_kind s, t_kind t with
      | Series_table _, Series_table _ =>
          if schemas_are_compatible (t_schema s) (t_schema t)
          then let rows := filter (in_interval maybe_start maybe_end) (t_rows s) in
               match e with
               | Succeeds => (true, set_rows target (fun old => old ++ rows) w)
               | Fails => (false, w)
               | Fails_late => (false, set_rows target (fun old => old ++ rows) w)
               end
          else (false, w)
      | _, _ => (false, w)
      end
  | _, _ => (false, w)
  end.
