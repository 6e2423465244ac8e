(** Calling ModelarDB from C and Python: crates/modelardb_embedded/src/capi.rs and
    crates/modelardb_embedded/bindings/python/modelardb/operations.py. What is modelled is which
    memory is used and released and which errors are reported, the operations themselves are
    oracles: each call carries the result of its operation. Simplified: the calls of different
    threads are executed one at a time. *)
From Coq Require Import ZArith Bool Ascii String List Arith.
Import ListNotations.
Open Scope nat_scope.
Open Scope list_scope.

(** A handle is a pointer to a [DataFolder] or a [Client]. *)
Inductive kind := Folder | Client.

(** [is_data_folder], which each function has as its second parameter. *)
Definition kind_of (is_data_folder : bool) : kind := if is_data_folder then Folder else Client.
Definition kind_eqb (a b : kind) : bool :=
  match a, b with Folder, Folder | Client, Client => true | _, _ => false end.

(** [is_null] and [is_aligned] of a pointer to a [DataFolder] or a [Client]. Both contain pointers
    and nothing with a larger alignment, so they are aligned to eight bytes on a 64-bit system. *)
Definition usable (p : nat) : bool := negb (p =? 0) && (p mod 8 =? 0).

(** A [*const c_char]: [None] is the null pointer, otherwise the bytes that can be read from it. *)
Definition cstring := option string.

(** [CStr::from_ptr]: the bytes before the first zero byte. Reading on when there is none is
    undefined behaviour. *)
Fixpoint from_ptr (bytes : string) : option string :=
  match bytes with
  | EmptyString => None
  | String c rest => if Ascii.eqb c zero then Some EmptyString
                     else option_map (String c) (from_ptr rest)
  end.

(** [str::from_utf8], which [CStr::to_str] uses: Table 3-7 of The Unicode Standard. *)
Definition between (low high : nat) (c : ascii) : bool :=
  (low <=? nat_of_ascii c) && (nat_of_ascii c <=? high).
Definition continues (c : ascii) : bool := between 128 191 c.
Fixpoint is_utf8 (bytes : string) : bool :=
  match bytes with
  | EmptyString => true
  | String a rest =>
      if between 0 127 a then is_utf8 rest
      else if between 194 223 a then
        match rest with
        | String b rest => continues b && is_utf8 rest
        | _ => false
        end
      else if between 224 239 a then
        match rest with
        | String b (String c rest) =>
            (if between 224 224 a then between 160 191 b
             else if between 237 237 a then between 128 159 b
             else continues b) && continues c && is_utf8 rest
        | _ => false
        end
      else if between 240 244 a then
        match rest with
        | String b (String c (String d rest)) =>
            (if between 240 240 a then between 144 191 b
             else if between 244 244 a then between 128 143 b
             else continues b) && continues c && continues d && is_utf8 rest
        | _ => false
        end
      else false
  end.

(** The arguments of a function in the order in which they are converted. [Array] is a pair of
    pointers to an array and its schema that is moved into Rust with [read], and so is released when
    it is dropped. [Borrowed] is a pointer to a schema that is only borrowed. Both have the error
    that converting them gives, if any. *)
Inductive argument :=
  | Handle (p : nat) (is_data_folder : bool)
  | Required (s : cstring)
  | Optional (s : cstring)
  | Array (a : nat) (problem : option string)
  | Borrowed (a : nat) (problem : option string).

(** The functions of the C-API with their parameters and the results of the operations they execute.
    For the functions that open a data folder or connect to a node that is the address at which
    [Box::new] places it, or an error. For the others it is [None] if they succeed and an error if
    not. Simplified: where results are written is not a parameter, and a retention period that
    cannot be parsed is one of the errors of the operation. *)
Inductive opened := Allocated (p : nat) | Refused (error : string).
Inductive call :=
  | OpenMemory (r : opened)
  | OpenLocal (path : cstring) (r : opened)
  | OpenS3 (endpoint bucket key_id secret : cstring) (r : opened)
  | OpenAzure (account key container : cstring) (r : opened)
  | Connect (url : cstring) (r : opened)
  | Close (p : nat) (is_data_folder : bool)
  | ModelarDbType (p : nat) (is_data_folder : bool) (r : option string)
  | Create (p : nat) (is_data_folder : bool) (name : cstring)
      (schema bounds generated : nat * option string) (r : option string)
  | Tables (p : nat) (is_data_folder : bool) (r : option string)
  | TableSchema (p : nat) (is_data_folder : bool) (name : cstring) (r : option string)
  | Write (p : nat) (is_data_folder : bool) (name : cstring) (batch : nat * option string)
      (r : option string)
  | Read (p : nat) (is_data_folder : bool) (sql : cstring) (r : option string)
  | Copy (p : nat) (is_data_folder : bool) (sql : cstring) (target : nat) (name : cstring)
      (r : option string)
  | ReadTimeSeriesTable (p : nat) (is_data_folder : bool) (name : cstring)
      (columns group_by : nat * option string) (start_time end_time : cstring)
      (tags : nat * option string) (r : option string)
  | CopyTimeSeriesTable (p : nat) (is_data_folder : bool) (name : cstring) (target : nat)
      (target_name start_time end_time : cstring) (tags : nat * option string) (r : option string)
  | Move (p : nat) (is_data_folder : bool) (name : cstring) (target : nat) (target_name : cstring)
      (r : option string)
  | Truncate (p : nat) (is_data_folder : bool) (name : cstring) (r : option string)
  | Drop (p : nat) (is_data_folder : bool) (name : cstring) (r : option string)
  | Vacuum (p : nat) (is_data_folder : bool) (name retention : cstring) (r : option string)
  | LastError.

(** What the functions convert, in order. capi.rs: [open_memory] l.91-96, [open_local] l.110-118,
    [open_s3] l.144-164, [open_azure] l.181-198, [connect] l.210-214, [modelardb_type] l.276-289,
    [create] l.332-372, [tables] l.428-445, [schema] l.470-485, [write] l.516-534, [read] l.564-586,
    [copy] l.615-629, [read_time_series_table] l.682-737, [copy_time_series_table] l.809-841,
    [move] l.898-912, [truncate] l.928-937, [drop] l.953-962, [vacuum] l.990-1014. *)
Definition arguments (c : call) : list argument :=
  match c with
  | OpenMemory _ | Close _ _ | LastError => []
  | OpenLocal path _ => [Required path]
  | OpenS3 endpoint bucket key_id secret _ =>
      [Required endpoint; Required bucket; Required key_id; Required secret]
  | OpenAzure account key container _ => [Required account; Required key; Required container]
  | Connect url _ => [Required url]
  | ModelarDbType p f _ | Tables p f _ => [Handle p f]
  | Create p f name (schema, e1) (bounds, e2) (generated, e3) _ =>
      [Handle p f; Required name; Borrowed schema e1; Array bounds e2; Array generated e3]
  | TableSchema p f name _ => [Handle p f; Required name]
  | Write p f name (batch, e) _ => [Handle p f; Required name; Array batch e]
  | Read p f sql _ => [Handle p f; Required sql]
  | Copy p f sql target name _ => [Handle p f; Required sql; Handle target f; Required name]
  | ReadTimeSeriesTable p f name (columns, e1) (group_by, e2) start_time end_time (tags, e3) _ =>
      [Handle p f; Required name; Optional start_time; Optional end_time; Array columns e1;
       Array group_by e2; Array tags e3]
  | CopyTimeSeriesTable p f name target target_name start_time end_time (tags, e) _ =>
      [Handle p f; Required name; Handle target f; Required target_name; Optional start_time;
       Optional end_time; Array tags e]
  | Move p f name target target_name _ =>
      [Handle p f; Required name; Handle target f; Required target_name]
  | Truncate p f name _ | Drop p f name _ => [Handle p f; Required name]
  | Vacuum p f name retention _ => [Handle p f; Required name; Optional retention]
  end.

(** The undefined behaviour that is modelled: using a handle that has not been returned or has been
    closed, using a [DataFolder] as a [Client] or the reverse, two mutable references to the same
    [DataFolder] or [Client] in one call, and reading past the end of a string. *)
Inductive fault := Dangling | WrongType | Aliased | NotTerminated.

Definition null_handle (is_data_folder : bool) : string :=
  if is_data_folder then "Invalid Argument Error: Pointer to DataFolder is null or unaligned."
  else "Invalid Argument Error: Pointer to Client is null or unaligned.".
Definition null_string : string := "Invalid Argument Error: Pointer to string is null.".
Definition not_utf8 : string := "Invalid Argument Error: invalid utf-8 sequence".

(** The [DataFolder]s and [Client]s that are allocated. *)
Fixpoint find_box (p : nat) (boxes : list (nat * kind)) : option kind :=
  match boxes with
  | [] => None
  | (q, k) :: boxes => if q =? p then Some k else find_box p boxes
  end.

(** [c_void_to_operations], capi.rs l.1048-1071. [held] are the handles that the call already has
    mutable references to. *)
Inductive converted {A} := Fine (a : A) | Failed (error : string) | Faulty (f : fault).
Arguments converted : clear implicits.
Definition c_void_to_operations (boxes : list (nat * kind)) (held : list nat) (p : nat)
  (is_data_folder : bool) : converted nat :=
  if usable p then
    match find_box p boxes with
    | None => Faulty Dangling
    | Some k => if negb (kind_eqb k (kind_of is_data_folder)) then Faulty WrongType
                else if existsb (Nat.eqb p) held then Faulty Aliased
                else Fine p
    end
  else Failed (null_handle is_data_folder).

(** [c_char_ptr_to_str], capi.rs l.1076-1092. All addresses are aligned for [c_char]. Simplified: the
    position of the first error is not in the message. *)
Definition c_char_ptr_to_str (s : cstring) : converted string :=
  match s with
  | None => Failed null_string
  | Some bytes => match from_ptr bytes with
                  | None => Faulty NotTerminated
                  | Some bytes => if is_utf8 bytes then Fine bytes else Failed not_utf8
                  end
  end.

(** [c_char_ptr_to_maybe_str], capi.rs l.846-852. *)
Definition c_char_ptr_to_maybe_str (s : cstring) : converted (option string) :=
  match s with
  | None => Fine None
  | Some _ => match c_char_ptr_to_str s with
              | Fine s => Fine (Some s)
              | Failed error => Failed error
              | Faulty f => Faulty f
              end
  end.

(** The conversions of a call, each of them followed by [?]. Returns the handles and strings that are
    passed on to the operation and the arrays that are released, also when a conversion fails. *)
Record progress := { held : list nat; strings : list (option string); released : list nat }.
Definition nothing : progress := {| held := []; strings := []; released := [] |}.
Fixpoint convert (boxes : list (nat * kind)) (args : list argument) (w : progress)
  : converted unit * progress :=
  match args with
  | [] => (Fine tt, w)
  | Handle p f :: args =>
      match c_void_to_operations boxes (held w) p f with
      | Fine p => convert boxes args {| held := held w ++ [p]; strings := strings w;
                                        released := released w |}
      | Failed error => (Failed error, w)
      | Faulty f => (Faulty f, w)
      end
  | Required s :: args =>
      match c_char_ptr_to_str s with
      | Fine s => convert boxes args {| held := held w; strings := strings w ++ [Some s];
                                        released := released w |}
      | Failed error => (Failed error, w)
      | Faulty f => (Faulty f, w)
      end
  | Optional s :: args =>
      match c_char_ptr_to_maybe_str s with
      | Fine s => convert boxes args {| held := held w; strings := strings w ++ [s];
                                        released := released w |}
      | Failed error => (Failed error, w)
      | Faulty f => (Faulty f, w)
      end
  | Array a problem :: args =>
      let w := {| held := held w; strings := strings w; released := released w ++ [a] |} in
      match problem with
      | None => convert boxes args w
      | Some error => (Failed error, w)
      end
  | Borrowed a problem :: args =>
      match problem with
      | None => convert boxes args w
      | Some error => (Failed error, w)
      end
  end.

(** The thread-locals [THREAD_LAST_ERROR] and [THREAD_LAST_ERROR_CSTRING], capi.rs l.66-81, for each
    thread, the boxes, the arrays that have been released, and the operations that were executed
    successfully with the handles and strings they were given. Each [CString] has a unique number. *)
Record state := {
  boxes : list (nat * kind);
  last_error : nat -> option string;
  error_cstring : nat -> option (nat * string);
  next_cstring : nat;
  all_released : list nat;
  executed : list (call * list nat * list (option string)) }.
Definition init : state :=
  {| boxes := []; last_error := fun _ => None; error_cstring := fun _ => None; next_cstring := 0;
     all_released := []; executed := [] |}.

Definition set {A} (f : nat -> A) (t : nat) (a : A) : nat -> A :=
  fun u => if u =? t then a else f u.

(** What a call returns: a return code, a handle, or a pointer to an error, which is given as the
    thread and the number of the [CString]. *)
Inductive reply := Code (code : nat) | Pointer (p : nat) | Message (m : option (nat * nat)).
Definition RETURN_SUCCESS : nat := 0.
Definition RETURN_FAILURE : nat := 1.

Inductive result {A} := Returned (a : A) | Undefined (f : fault).
Arguments result : clear implicits.

Definition with_error (s : state) (t : nat) (error : string) (w : progress) : state :=
  {| boxes := boxes s; last_error := set (last_error s) t (Some error);
     error_cstring := error_cstring s; next_cstring := next_cstring s;
     all_released := all_released s ++ released w; executed := executed s |}.
Definition with_success (s : state) (c : call) (w : progress) : state :=
  {| boxes := boxes s; last_error := last_error s; error_cstring := error_cstring s;
     next_cstring := next_cstring s; all_released := all_released s ++ released w;
     executed := executed s ++ [(c, held w, strings w)] |}.

(** [set_error_and_return_value_ptr], capi.rs l.218-229, after the conversions of the strings. *)
Definition open_step (s : state) (t : nat) (c : call) (k : kind) (r : opened)
  : result (state * reply) :=
  match convert (boxes s) (arguments c) nothing with
  | (Faulty f, _) => Undefined f
  | (Failed error, w) => Returned (with_error s t error w, Pointer 0)
  | (Fine tt, w) =>
      match r with
      | Refused error => Returned (with_error s t error w, Pointer 0)
      | Allocated p =>
          let s := with_success s c w in
          Returned ({| boxes := (p, k) :: boxes s; last_error := last_error s;
                       error_cstring := error_cstring s; next_cstring := next_cstring s;
                       all_released := all_released s; executed := executed s |}, Pointer p)
      end
  end.

(** [set_error_and_return_code], capi.rs l.1150-1158, after the conversions and the operation. *)
Definition use_step (s : state) (t : nat) (c : call) (r : option string)
  : result (state * reply) :=
  match convert (boxes s) (arguments c) nothing with
  | (Faulty f, _) => Undefined f
  | (Failed error, w) => Returned (with_error s t error w, Code RETURN_FAILURE)
  | (Fine tt, w) =>
      match r with
      | Some error => Returned (with_error s t error w, Code RETURN_FAILURE)
      | None => Returned (with_success s c w, Code RETURN_SUCCESS)
      end
  end.

(** [modelardb_embedded_close], capi.rs l.235-258. No error is set. *)
Fixpoint remove_box (p : nat) (boxes : list (nat * kind)) : list (nat * kind) :=
  match boxes with
  | [] => []
  | (q, k) :: boxes => if q =? p then boxes else (q, k) :: remove_box p boxes
  end.
Definition close_step (s : state) (p : nat) (is_data_folder : bool) : result (state * reply) :=
  if usable p then
    match find_box p (boxes s) with
    | None => Undefined Dangling
    | Some k =>
        if kind_eqb k (kind_of is_data_folder) then
          Returned ({| boxes := remove_box p (boxes s); last_error := last_error s;
                       error_cstring := error_cstring s; next_cstring := next_cstring s;
                       all_released := all_released s; executed := executed s |},
                    Code RETURN_SUCCESS)
        else Undefined WrongType
    end
  else Returned (s, Code RETURN_FAILURE).

(** [modelardb_embedded_error], capi.rs l.1021-1042. The former [CString] of the thread is dropped. *)
Definition error_step (s : state) (t : nat) : result (state * reply) :=
  match last_error s t with
  | None => Returned (s, Message None)
  | Some error =>
      Returned ({| boxes := boxes s; last_error := last_error s;
                   error_cstring := set (error_cstring s) t (Some (next_cstring s, error));
                   next_cstring := S (next_cstring s); all_released := all_released s;
                   executed := executed s |}, Message (Some (t, next_cstring s)))
  end.

(** A call of a function by the thread [t]. *)
Definition step (s : state) (t : nat) (c : call) : result (state * reply) :=
  match c with
  | OpenMemory r | OpenLocal _ r | OpenS3 _ _ _ _ r | OpenAzure _ _ _ r => open_step s t c Folder r
  | Connect _ r => open_step s t c Client r
  | Close p f => close_step s p f
  | ModelarDbType _ _ r | Create _ _ _ _ _ _ r | Tables _ _ r | TableSchema _ _ _ r
  | Write _ _ _ _ r | Read _ _ _ r | Copy _ _ _ _ _ r | ReadTimeSeriesTable _ _ _ _ _ _ _ _ r
  | CopyTimeSeriesTable _ _ _ _ _ _ _ _ r | Move _ _ _ _ _ r | Truncate _ _ _ r | Drop _ _ _ r
  | Vacuum _ _ _ _ r => use_step s t c r
  | LastError => error_step s t
  end.

(** What is read through a pointer that [modelardb_embedded_error] has returned: the bytes of the
    [CString] before its first zero byte, [None] if the [CString] has been dropped.
    [CString::from_vec_unchecked] adds a zero byte at the end. *)
Fixpoint before_zero (bytes : string) : string :=
  match bytes with
  | EmptyString => EmptyString
  | String c rest => if Ascii.eqb c zero then EmptyString else String c (before_zero rest)
  end.
Definition read_message (s : state) (m : nat * nat) : option string :=
  let (t, n) := m in
  match error_cstring s t with
  | Some (n', error) => if n' =? n then Some (before_zero error) else None
  | None => None
  end.

(** The calls of a process, and what they return. *)
Definition event := (nat * call)%type.
Fixpoint run (s : state) (events : list event) : result (state * list (event * reply)) :=
  match events with
  | [] => Returned (s, [])
  | (t, c) :: events =>
      match step s t c with
      | Undefined f => Undefined f
      | Returned (s, r) =>
          match run s events with
          | Undefined f => Undefined f
          | Returned (s, h) => Returned (s, ((t, c), r) :: h)
          end
      end
  end.

(** The methods of [Operations] in Python with one [Operations], operations.py l.249-683. *)
Inductive method :=
  | PyType (r : option string)
  | PyCreate (name : string) (schema bounds generated : nat * option string) (r : option string)
  | PyTables (r : option string)
  | PySchema (name : string) (r : option string)
  | PyWrite (name : string) (batch : nat * option string) (r : option string)
  | PyRead (sql : string) (r : option string)
  | PyReadTimeSeriesTable (name : string) (columns group_by : nat * option string)
      (start_time end_time : option string) (tags : nat * option string) (r : option string)
  | PyTruncate (name : string) (r : option string)
  | PyDrop (name : string) (r : option string)
  | PyVacuum (name : string) (retention : option string) (r : option string).
(** The methods with two. *)
Inductive transfer :=
  | PyCopy (sql name : string) (r : option string)
  | PyCopyTimeSeriesTable (name target_name : string) (start_time end_time : option string)
      (tags : nat * option string) (r : option string)
  | PyMove (name target_name : string) (r : option string).

(** [ffi.new("char[]", bytes(s, "UTF-8"))]: a zero byte is added. Strings are given as the bytes of
    their UTF-8 encoding. *)
Definition new_char (s : string) : cstring := Some (s ++ String zero EmptyString)%string.
(** [__str_to_c_char_ptr], operations.py l.589-595. The empty string becomes a null pointer. *)
Definition str_to_c_char_ptr (s : option string) : cstring :=
  match s with
  | None | Some EmptyString => None
  | Some s => new_char s
  end.

(** The function that a method calls. *)
Definition method_call (m : method) (p : nat) (f : bool) : call :=
  match m with
  | PyType r => ModelarDbType p f r
  | PyCreate name schema bounds generated r => Create p f (new_char name) schema bounds generated r
  | PyTables r => Tables p f r
  | PySchema name r => TableSchema p f (new_char name) r
  | PyWrite name batch r => Write p f (new_char name) batch r
  | PyRead sql r => Read p f (new_char sql) r
  | PyReadTimeSeriesTable name columns group_by start_time end_time tags r =>
      ReadTimeSeriesTable p f (new_char name) columns group_by (str_to_c_char_ptr start_time)
        (str_to_c_char_ptr end_time) tags r
  | PyTruncate name r => Truncate p f (new_char name) r
  | PyDrop name r => Drop p f (new_char name) r
  | PyVacuum name retention r =>
      Vacuum p f (new_char name) (match retention with
                                  | None => None
                                  | Some retention => new_char retention
                                  end) r
  end.
(** [self.__is_data_folder] is passed for both handles: operations.py l.431-437, l.569-579, and
    l.620-626. *)
Definition transfer_call (m : transfer) (p : nat) (f : bool) (target : nat) : call :=
  match m with
  | PyCopy sql name r => Copy p f (new_char sql) target (new_char name) r
  | PyCopyTimeSeriesTable name target_name start_time end_time tags r =>
      CopyTimeSeriesTable p f (new_char name) target (new_char target_name)
        (str_to_c_char_ptr start_time) (str_to_c_char_ptr end_time) tags r
  | PyMove name target_name r => Move p f (new_char name) target (new_char target_name) r
  end.

(** The [Operations] that are alive by name, with [__operations_ptr] and [__is_data_folder]. *)
Definition objects := list (nat * (nat * bool)).
Fixpoint find_object (x : nat) (o : objects) : option (nat * bool) :=
  match o with
  | [] => None
  | (y, v) :: o => if y =? x then Some v else find_object x o
  end.
Fixpoint remove_object (x : nat) (o : objects) : objects :=
  match o with
  | [] => []
  | (y, v) :: o => if y =? x then o else (y, v) :: remove_object x o
  end.

(** What a program in Python does. [held] is false if the only reference to the target is that of the
    method that is called, which is so for a target that is created in the list of arguments: the
    parameters belong to the frame of the method in CPython 3.11 and later, which [typing.Self]
    requires. *)
Inductive action :=
  | New (x : nat) (c : call)
  | Call (x : nat) (m : method)
  | CallWith (x y : nat) (held : bool) (m : transfer)
  | Delete (x : nat).

(** What the interpreter allows: only [Operations] that are alive are used, and [Box::new] places a
    [DataFolder] or [Client] where there is none. *)
Inductive py_result := Running (o : objects) (s : state) | PyUndefined (f : fault) | Impossible.

(** [__check_return_code_and_raise_error], operations.py l.685-702. *)
Definition checked (o : objects) (r : result (state * reply)) : py_result :=
  match r with
  | Undefined f => PyUndefined f
  | Returned (s, Code 0) => Running o s
  | Returned (s, _) => match step s 0 LastError with
                       | Returned (s, _) => Running o s
                       | Undefined f => PyUndefined f
                       end
  end.

(** [__del__], operations.py l.242-247. *)
Definition del (o : objects) (s : state) (x p : nat) (f : bool) : py_result :=
  checked (remove_object x o) (step s 0 (Close p f)).

Definition fresh (p : nat) (o : objects) : bool :=
  usable p && negb (existsb (fun v => fst (snd v) =? p) o).
Definition python_step (o : objects) (s : state) (a : action) : py_result :=
  match a with
  | New x c =>
      let opening f r :=
        match find_object x o with
        | Some _ => Impossible
        | None =>
            if match r with Allocated p => fresh p o | Refused _ => true end then
              match step s 0 c with
              | Undefined f => PyUndefined f
              | Returned (s, Pointer p) =>
                  (* A ValueError is raised and the [Operations] is deleted for a null pointer. *)
                  if p =? 0 then del o s x p f else Running ((x, (p, f)) :: o) s
              | Returned (s, _) => Impossible
              end
            else Impossible
        end in
      match c with
      | OpenMemory r | OpenLocal _ r | OpenS3 _ _ _ _ r | OpenAzure _ _ _ r => opening true r
      | Connect _ r => opening false r
      | _ => Impossible
      end
  | Call x m =>
      match find_object x o with
      | None => Impossible
      | Some (p, f) => checked o (step s 0 (method_call m p f))
      end
  | CallWith x y held m =>
      match find_object x o, find_object y o with
      | Some (p, f), Some (q, g) =>
          (* [target = target.__operations_ptr] gives up the reference to the target, l.428, l.556,
             and l.617. *)
          if held then checked o (step s 0 (transfer_call m p f q))
          else if x =? y then Impossible
          else match del o s y q g with
               | Running o s => checked o (step s 0 (transfer_call m p f q))
               | r => r
               end
      | _, _ => Impossible
      end
  | Delete x =>
      match find_object x o with
      | None => Impossible
      | Some (p, f) => del o s x p f
      end
  end.
Fixpoint python_run (o : objects) (s : state) (program : list action) : py_result :=
  match program with
  | [] => Running o s
  | a :: program => match python_step o s a with
                    | Running o s => python_run o s program
                    | r => r
                    end
  end.
