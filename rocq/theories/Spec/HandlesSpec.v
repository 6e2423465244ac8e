(** What is expected of calling ModelarDB from C and Python. *)
From Coq Require Import NArith Bool Ascii String List Arith.
From Verif Require Import Model.Handles.
Import ListNotations.
Open Scope nat_scope.
Open Scope list_scope.

Definition history := list (event * reply).

(** [c] is a call that opens a data folder or connects to a node. *)
Definition opens (c : call) (k : kind) : Prop :=
  match c with
  | OpenMemory _ | OpenLocal _ _ | OpenS3 _ _ _ _ _ | OpenAzure _ _ _ _ => k = Folder
  | Connect _ _ => k = Client
  | _ => False
  end.

(** The handle [p] to a [k] has been returned by a call in [h] and has not been closed since. *)
Definition open_in (h : history) (p : nat) (k : kind) : Prop :=
  p <> 0 /\
  exists before t c after,
    h = before ++ ((t, c), Pointer p) :: after /\ opens c k /\
    forall u f r, ~ In ((u, Close p f), r) after.

(** The bytes [s] points to contain a zero byte. *)
Definition terminated (s : cstring) : Prop :=
  forall bytes, s = Some bytes -> exists a b, bytes = (a ++ String zero b)%string.

(** The handles of a call with the kinds they are used as. *)
Fixpoint handles (args : list argument) : list (nat * kind) :=
  match args with
  | [] => []
  | Handle p f :: args => (p, kind_of f) :: handles args
  | _ :: args => handles args
  end.
Definition handles_of (c : call) : list (nat * kind) :=
  match c with Close p f => [(p, kind_of f)] | _ => handles (arguments c) end.

(** What a program in C has to obey, after [h]: only handles that are open are used, and as what
    they were opened as, no handle is used twice in a call, and strings are terminated. Null
    pointers may be passed. *)
Definition obeys (h : history) (c : call) : Prop :=
  (forall p k, In (p, k) (handles_of c) -> p = 0 \/ open_in h p k) /\
  (forall p k l k' r, handles_of c = (p, k) :: l ++ (p, k') :: r -> p = 0) /\
  (forall s, In (Required s) (arguments c) \/ In (Optional s) (arguments c) -> terminated s).

(** The error of a call: that of the first argument that cannot be used, otherwise that of the
    operation. *)
Definition text_problem (s : cstring) : option string :=
  match s with
  | None => Some "Invalid Argument Error: Pointer to string is null."%string
  | Some bytes =>
      match from_ptr bytes with
      | Some bytes => if is_utf8 bytes then None
                      else Some "Invalid Argument Error: invalid utf-8 sequence"%string
      | None => None
      end
  end.
Definition problem_of (a : argument) : option string :=
  match a with
  | Handle p true =>
      if usable p then None
      else Some "Invalid Argument Error: Pointer to DataFolder is null or unaligned."%string
  | Handle p false =>
      if usable p then None
      else Some "Invalid Argument Error: Pointer to Client is null or unaligned."%string
  | Required s => text_problem s
  | Optional None => None
  | Optional s => text_problem s
  | Array _ problem | Borrowed _ problem => problem
  end.
Fixpoint first_problem (problems : list (option string)) : option string :=
  match problems with
  | [] => None
  | Some problem :: _ => Some problem
  | None :: problems => first_problem problems
  end.
(** The result of the operation. *)
Definition operation_problem (c : call) : option string :=
  match c with
  | OpenMemory r | OpenLocal _ r | OpenS3 _ _ _ _ r | OpenAzure _ _ _ r | Connect _ r =>
      match r with Allocated _ => None | Refused error => Some error end
  | Close _ _ | LastError => None
  | ModelarDbType _ _ r | Create _ _ _ _ _ _ r | Tables _ _ r | TableSchema _ _ _ r
  | Write _ _ _ _ r | Read _ _ _ r | Copy _ _ _ _ _ r | ReadTimeSeriesTable _ _ _ _ _ _ _ _ r
  | CopyTimeSeriesTable _ _ _ _ _ _ _ _ r | Move _ _ _ _ _ r | Truncate _ _ _ r | Drop _ _ _ r
  | Vacuum _ _ _ _ r => r
  end.
Definition error_of (c : call) : option string :=
  first_problem (map problem_of (arguments c) ++ [operation_problem c]).

(** Memory is allocated at addresses that are not null, aligned, and not in use. *)
Definition allocates (h : history) : Prop :=
  forall before t c p after,
    h = before ++ ((t, c), Pointer p) :: after -> error_of c = None ->
    p <> 0 /\ p mod 8 = 0 /\ forall k, ~ open_in before p k.

(** The return code of a failure, or the null pointer. *)
Definition failure (r : reply) : Prop := r = Code 1 \/ r = Pointer 0.
Definition is_close (c : call) : Prop := exists p f, c = Close p f.

(** The arrays that are passed to a call to be moved into Rust, and the schemas that are not. *)
Fixpoint arrays (args : list argument) : list nat :=
  match args with
  | [] => []
  | Array a _ :: args => a :: arrays args
  | _ :: args => arrays args
  end.
Definition passed (events : list event) : list nat :=
  flat_map (fun e => arrays (arguments (snd e))) events.

(** A program in Python keeps its data folders and nodes apart: both [Operations] of a call are
    referred to by the program, are of the same type, and are different. *)
Definition keeps_apart (o : objects) (a : action) : Prop :=
  match a with
  | CallWith x y held _ =>
      held = true /\ x <> y /\
      forall p f q g, find_object x o = Some (p, f) -> find_object y o = Some (q, g) -> f = g
  | _ => True
  end.
(** Strings that C functions open with are terminated. [bytes] in Python are. *)
Definition opened_with (a : action) : Prop :=
  match a with
  | New _ c => forall s, In (Required s) (arguments c) -> exists t, s = new_char t
  | _ => True
  end.

(** The UTF-8 encoding of a Unicode scalar value, RFC 3629, and of a sequence of them. *)
Definition scalar (c : N) : Prop := (c < 0xD800 \/ 0xE000 <= c < 0x110000)%N.
Definition encode (c : N) : string :=
  (let byte := ascii_of_N in
   if c <? 0x80 then String (byte c) ""
   else if c <? 0x800 then
     String (byte (0xC0 + c / 64)) (String (byte (0x80 + c mod 64)) "")
   else if c <? 0x10000 then
     String (byte (0xE0 + c / 4096))
       (String (byte (0x80 + c / 64 mod 64)) (String (byte (0x80 + c mod 64)) ""))
   else
     String (byte (0xF0 + c / 262144))
       (String (byte (0x80 + c / 4096 mod 64))
         (String (byte (0x80 + c / 64 mod 64)) (String (byte (0x80 + c mod 64)) ""))))%N%string.
Definition encode_all (l : list N) : string :=
  fold_right (fun c s => (encode c ++ s)%string) EmptyString l.

(** The parameters of a function that are handles, in order, and those that are strings, with
    whether they may be null. *)
Definition operands (c : call) : list nat :=
  match c with
  | OpenMemory _ | OpenLocal _ _ | OpenS3 _ _ _ _ _ | OpenAzure _ _ _ _ | Connect _ _
  | LastError => []
  | Close p _ | ModelarDbType p _ _ | Create p _ _ _ _ _ _ | Tables p _ _ | TableSchema p _ _ _
  | Write p _ _ _ _ | Read p _ _ _ | ReadTimeSeriesTable p _ _ _ _ _ _ _ _ | Truncate p _ _ _
  | Drop p _ _ _ | Vacuum p _ _ _ _ => [p]
  | Copy p _ _ target _ _ | CopyTimeSeriesTable p _ _ target _ _ _ _ _ | Move p _ _ target _ _ =>
      [p; target]
  end.
Definition texts (c : call) : list (cstring * bool) :=
  match c with
  | OpenMemory _ | Close _ _ | ModelarDbType _ _ _ | Tables _ _ _ | LastError => []
  | OpenLocal a _ | Connect a _ | Create _ _ a _ _ _ _ | TableSchema _ _ a _ | Write _ _ a _ _
  | Read _ _ a _ | Truncate _ _ a _ | Drop _ _ a _ => [(a, false)]
  | OpenS3 a b c d _ => [(a, false); (b, false); (c, false); (d, false)]
  | OpenAzure a b c _ => [(a, false); (b, false); (c, false)]
  | Copy _ _ a _ b _ | Move _ _ a _ b _ => [(a, false); (b, false)]
  | ReadTimeSeriesTable _ _ name _ _ start_time end_time _ _ =>
      [(name, false); (start_time, true); (end_time, true)]
  | CopyTimeSeriesTable _ _ name _ target_name start_time end_time _ _ =>
      [(name, false); (target_name, false); (start_time, true); (end_time, true)]
  | Vacuum _ _ name retention _ => [(name, false); (retention, true)]
  end.

(** The text of a string: nothing for null, otherwise the bytes before the first zero byte. *)
Definition text_of (s : cstring) : option string := option_map before_zero s.

(** A text that a function accepts: null if that is allowed, or the encoding of characters. *)
Definition accepts (t : cstring * bool) : Prop :=
  match text_of (fst t) with
  | None => snd t = true
  | Some text => exists l, Forall scalar l /\ text = encode_all l
  end.

(** The arrays and schemas of a call can be converted. *)
Definition fine (a : nat * option string) : Prop := snd a = None.
Definition arrays_fine (c : call) : Prop :=
  match c with
  | Create _ _ _ a b c _ | ReadTimeSeriesTable _ _ _ a b _ _ c _ => fine a /\ fine b /\ fine c
  | Write _ _ _ a _ | CopyTimeSeriesTable _ _ _ _ _ _ _ a _ => fine a
  | _ => True
  end.

(** The strings that a method of [Operations] in Python is given, as it should pass them on: the
    empty string is the same as no start or end time. *)
Definition unless_empty (s : option string) : option string :=
  match s with Some EmptyString => None | s => s end.
Definition given (m : method) : list (option string) :=
  match m with
  | PyType _ | PyTables _ => []
  | PyCreate a _ _ _ _ | PySchema a _ | PyWrite a _ _ | PyRead a _ | PyTruncate a _
  | PyDrop a _ => [Some a]
  | PyReadTimeSeriesTable name _ _ start_time end_time _ _ =>
      [Some name; unless_empty start_time; unless_empty end_time]
  | PyVacuum name retention _ => [Some name; retention]
  end.
Definition given_both (m : transfer) : list (option string) :=
  match m with
  | PyCopy sql name _ => [Some sql; Some name]
  | PyCopyTimeSeriesTable name target_name start_time end_time _ _ =>
      [Some name; Some target_name; unless_empty start_time; unless_empty end_time]
  | PyMove name target_name _ => [Some name; Some target_name]
  end.
(** Strings in Python are encoded characters, here without a zero byte. *)
Definition python_text (s : string) : Prop :=
  (exists l, Forall scalar l /\ s = encode_all l) /\ forall a b, s <> (a ++ String zero b)%string.

(** The operation of a method and the conversions of its arrays have no errors. *)
Definition works (m : method) : Prop :=
  match m with
  | PyType r | PyTables r | PySchema _ r | PyRead _ r | PyTruncate _ r | PyDrop _ r
  | PyVacuum _ _ r => r = None
  | PyCreate _ a b c r | PyReadTimeSeriesTable _ a b _ _ c r =>
      fine a /\ fine b /\ fine c /\ r = None
  | PyWrite _ a r => fine a /\ r = None
  end.
Definition works_both (m : transfer) : Prop :=
  match m with
  | PyCopy _ _ r | PyMove _ _ r => r = None
  | PyCopyTimeSeriesTable _ _ _ _ a r => fine a /\ r = None
  end.

(** The function a method is for. *)
Definition is_for (m : method) (c : call) : Prop :=
  match m, c with
  | PyType _, ModelarDbType _ _ _ | PyTables _, Tables _ _ _ | PySchema _ _, TableSchema _ _ _ _
  | PyRead _ _, Read _ _ _ _ | PyTruncate _ _, Truncate _ _ _ _ | PyDrop _ _, Drop _ _ _ _
  | PyVacuum _ _ _, Vacuum _ _ _ _ _ => True
  | PyCreate _ a b d _, Create _ _ _ a' b' d' _ => a' = a /\ b' = b /\ d' = d
  | PyReadTimeSeriesTable _ a b _ _ d _, ReadTimeSeriesTable _ _ _ a' b' _ _ d' _ =>
      a' = a /\ b' = b /\ d' = d
  | PyWrite _ a _, Write _ _ _ a' _ => a' = a
  | _, _ => False
  end.
Definition is_for_both (m : transfer) (c : call) : Prop :=
  match m, c with
  | PyCopy _ _ _, Copy _ _ _ _ _ _ | PyMove _ _ _, Move _ _ _ _ _ _ => True
  | PyCopyTimeSeriesTable _ _ _ _ a _, CopyTimeSeriesTable _ _ _ _ _ _ _ a' _ => a' = a
  | _, _ => False
  end.
