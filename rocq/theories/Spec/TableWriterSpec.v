(** What readers of a Delta table see. *)
From Coq Require Import ZArith List Bool.
From Verif.Model Require Import Base TableWriter.
Import ListNotations.
Open Scope Z_scope.

(** The rows of a file, if it exists. *)
Fixpoint file_rows (name : Z) (files : list (Z * list Z)) : option (list Z) :=
  match files with
  | [] => None
  | (k, rows) :: files => if k =? name then Some rows else file_rows name files
  end.

(** The rows of a list of files; none if one of them is missing. *)
Fixpoint rows_of (names : list Z) (files : list (Z * list Z)) : option (list Z) :=
  match names with
  | [] => Some []
  | name :: names =>
      match file_rows name files, rows_of names files with
      | Some rows, Some more => Some (rows ++ more)
      | _, _ => None
      end
  end.

(** What a reader sees: the rows of the files of all versions, and the batch ids of all versions;
    nothing can be read if a file is missing. *)
Definition visible (w : world) : option (list Z) := rows_of (concat (map fst (w_log w))) (w_files w).
Definition visible_ids (w : world) : list (list Z) := map snd (w_log w).

(** New files get names that are not in use. *)
Definition fresh_names (w : world) : Prop := forall f, In f (w_files w) -> fst f < w_next w.
