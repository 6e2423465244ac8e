(** Model of the reading of compressed segments with a limit:
    crates/modelardb_storage/src/query/time_series_table.rs. *)
From Coq Require Import ZArith List.
From Verif Require Import Model.Base.
Import ListNotations.
Open Scope nat_scope.
Open Scope list_scope.

(** The compressed segments of a field are in the files of its partition. *)
Record file (S : Type) := File { modification_time : Z; segments_in : list S }.
Arguments File {S} modification_time segments_in.
Arguments modification_time {S} f.
Arguments segments_in {S} f.

(** [slice::sort_by_key], l.423, which is stable. *)
Fixpoint insert_file {S} (f : file S) (files : list (file S)) : list (file S) :=
  match files with
  | [] => [f]
  | g :: files =>
      if (modification_time f <=? modification_time g)%Z then f :: g :: files
      else g :: insert_file f files
  end.
Fixpoint sort_files {S} (files : list (file S)) : list (file S) :=
  match files with
  | [] => []
  | f :: files => insert_file f (sort_files files)
  end.

(** [new_data_source_exec], l.412-450, and the operator that Apache DataFusion adds below
    [GridExec], whose input must be sorted by tags and start time (grid_exec.rs l.191-195). Apache
    DataFusion's [DataSourceExec] reads the files of a group one after another and stops when it has
    read [limit] rows. It is known to be sorted if there is one file; the output for several files,
    which are without statistics (l.476), is sorted by [sort]. Simplified: the filters that are evaluated when
    reading the files are left out, as [scan] is not given a limit if there are any (all filters are
    inexact, l.675-683). *)
Definition read_segments {S} (sort : list S -> list S) (limit : option nat)
    (files : list (file S)) : list S :=
  let segments := flat_map segments_in (sort_files files) in
  let read := match limit with Some limit => firstn limit segments | None => segments end in
  match files with
  | [] | [_] => read
  | _ => sort read
  end.
