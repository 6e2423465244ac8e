(** C65: Programs in C and Python use data folders and nodes safely and are told why calls fail. *)
From Coq Require Import NArith Bool Ascii String List Arith.
From Verif Require Import Model.Handles Spec.HandlesSpec.
From Verif Require Import Proofs.HandlesProofs Proofs.HandlesWitnesses Proofs.HandlesMore.
Import ListNotations.
Open Scope nat_scope.
Open Scope list_scope.

(** Whatever is called, the data folders and clients that are allocated are exactly those whose
    handles have been returned and not closed since, so none is leaked or released twice. *)
Theorem c65_open_iff : forall es s h,
  run init es = Returned (s, h) -> allocates h ->
  NoDup (map fst (boxes s)) /\ forall p k, In (p, k) (boxes s) <-> open_in h p k.
Proof. exact open_iff. Qed.
Print Assumptions c65_open_iff.

(** Missing: handles that are used as another type or after they have been closed, handles that are
    used twice in a call, and strings without a zero byte. *)
Theorem c65_defined_partial : forall es,
  (forall es1 t c es2 s h, es = es1 ++ (t, c) :: es2 -> run init es1 = Returned (s, h) ->
     obeys h c /\ allocates h) ->
  exists s h, run init es = Returned (s, h).
Proof. exact defined. Qed.
Print Assumptions c65_defined_partial.

Example c65_defined_example :
  exists s h, run init (two ++ [(1, Tables 16 false None); (1, Drop 8 true (new_char "t") None);
                                (0, Close 8 true); (0, Tables 0 true None); (0, LastError)]) =
              Returned (s, h) /\
    map snd h = [Pointer 8; Pointer 16; Code 0; Code 0; Code 0; Code 1; Message (Some (0, 0))] /\
    apart [] h = true /\ boxes s = [(16, Client)].
Proof. eexists _, _. split; [vm_compute; reflexivity|]. repeat split. Qed.

(** A handle that is used as the other type, or that is not open, is always undefined behaviour. *)
Theorem c65_wrong_kind : forall es s h t c p k k' rest,
  run init es = Returned (s, h) -> allocates h -> open_in h p k ->
  handles_of c = (p, k') :: rest -> k' <> k ->
  step s t c = Undefined WrongType.
Proof. exact wrong_kind. Qed.
Print Assumptions c65_wrong_kind.

Theorem c65_not_open : forall es s h t c p k rest,
  run init es = Returned (s, h) -> allocates h -> (forall k, ~ open_in h p k) ->
  handles_of c = (p, k) :: rest -> p <> 0 -> p mod 8 = 0 ->
  step s t c = Undefined Dangling.
Proof. exact not_open. Qed.
Print Assumptions c65_not_open.

(** All handles of a call that does not fail are open, as what they are used as, and different. *)
Theorem c65_succeeds : forall es s h1 t c r h2,
  run init es = Returned (s, h1 ++ ((t, c), r) :: h2) -> allocates (h1 ++ ((t, c), r) :: h2) ->
  ~ failure r ->
  (forall p k, In (p, k) (handles_of c) -> open_in h1 p k) /\ NoDup (map fst (handles_of c)).
Proof. exact succeeds. Qed.
Print Assumptions c65_succeeds.

(** Calls other than closing fail if and only if an argument or the operation has an error. *)
Theorem c65_fails_iff : forall es s h1 t c r h2,
  run init es = Returned (s, h1 ++ ((t, c), r) :: h2) -> allocates (h1 ++ ((t, c), r) :: h2) ->
  ~ is_close c -> (failure r <-> error_of c <> None).
Proof. exact fails_iff. Qed.
Print Assumptions c65_fails_iff.

(** A thread is told the error of the last of its calls that has failed, up to the first zero byte,
    whatever other threads do in the meantime. Missing: closing. *)
Theorem c65_error_partial : forall es s h1 t c r h2 q,
  run init es = Returned (s, h1 ++ ((t, c), r) :: h2 ++ [((t, LastError), q)]) ->
  allocates (h1 ++ ((t, c), r) :: h2 ++ [((t, LastError), q)]) ->
  failure r -> ~ is_close c ->
  (forall c' r', In ((t, c'), r') h2 -> failure r' -> is_close c') ->
  exists m error, q = Message (Some m) /\ error_of c = Some error /\
    read_message s m = Some (before_zero error).
Proof. exact error_reported. Qed.
Print Assumptions c65_error_partial.

Example c65_error_example :
  exists s h, run init (two ++ [(0, Drop 8 true (new_char "t") (Some missing));
                                (1, Drop 16 false None None); (0, Tables 8 true None);
                                (0, LastError); (1, LastError)]) = Returned (s, h) /\
    apart [] h = true /\
    read_message s (0, 0) = Some missing /\
    read_message s (1, 1) = Some "Invalid Argument Error: Pointer to string is null."%string.
Proof. eexists _, _. split; [vm_compute; reflexivity|]. repeat split. Qed.

(** The error can be read until the thread asks for an error again. *)
Theorem c65_message_valid : forall s1 t s2 m es s3 h,
  step s1 t LastError = Returned (s2, Message (Some m)) ->
  run s2 es = Returned (s3, h) -> ~ In (t, LastError) es ->
  exists text, last_error s1 t = Some text /\ read_message s3 m = Some (before_zero text).
Proof. exact message_valid. Qed.
Print Assumptions c65_message_valid.

(** Closing fails without an error: there is none to read, or it is that of another call. *)
Theorem c65_close_error_refuted :
  (exists s h, run init close_first = Returned (s, h) /\ allocates h /\
     h = [((0, Close 0 true), Code 1); ((0, LastError), Message None)]) /\
  (exists s h m, run init close_later = Returned (s, h) /\ allocates h /\
     map snd h = [Pointer 8; Pointer 16; Code 1; Code 1; Message (Some m)] /\
     read_message s m = Some missing).
Proof. exact close_error_refuted_shown. Qed.
Print Assumptions c65_close_error_refuted.

(** Copying from a data folder to a node is an error in Rust. The error is never reached from C, as
    the type of the source is also used for the target. *)
Theorem c65_copy_refuted :
  exists s h, run init two = Returned (s, h) /\ allocates h /\
    open_in h 8 Folder /\ open_in h 16 Client /\
    operation_problem copy_to_client =
      Some "Invalid Argument Error: target is not a data folder."%string /\
    forall t, step s t copy_to_client = Undefined WrongType.
Proof. exact copy_refuted_shown. Qed.
Print Assumptions c65_copy_refuted.

(** Each array is released at most as often as it is passed, and exactly that often if no call fails.
    Missing: the arrays that are passed to calls that fail. *)
Theorem c65_released_partial : forall es s h,
  run init es = Returned (s, h) ->
  (forall x, count_occ Nat.eq_dec (all_released s) x <= count_occ Nat.eq_dec (passed es) x) /\
  ((forall t c, In (t, c) es -> error_of c = None) -> all_released s = passed es).
Proof. exact released_once. Qed.
Print Assumptions c65_released_partial.

(** An array is leaked if an argument before it cannot be used. *)
Theorem c65_leak_refuted :
  exists s h, run init leaking = Returned (s, h) /\ allocates h /\
    passed leaking = [1] /\ all_released s = [].
Proof. exact leak_refuted_shown. Qed.
Print Assumptions c65_leak_refuted.

(** The schema of a table that is created is never released, also if nothing fails. *)
Theorem c65_schema_leak_refuted :
  exists s h, run init creating = Returned (s, h) /\ allocates h /\
    In (Borrowed 1 None) (flat_map (fun e => arguments (snd e)) creating) /\
    (forall t c, In (t, c) creating -> error_of c = None) /\ ~ In 1 (all_released s).
Proof. exact schema_leak_refuted_shown. Qed.
Print Assumptions c65_schema_leak_refuted.

(** Programs in Python that keep their data folders and nodes apart are defined. Missing: calls with
    two [Operations] that are of different types or the same, or of which the second is only
    referred to by the call. *)
Theorem c65_python_partial : forall program,
  (forall a, In a program -> opened_with a) ->
  (forall p1 a p2 o s, program = p1 ++ a :: p2 -> python_run [] init p1 = Running o s ->
     keeps_apart o a) ->
  forall f, python_run [] init program <> PyUndefined f.
Proof. exact python_partial_shown. Qed.
Print Assumptions c65_python_partial.

Example c65_python_example :
  exists o s, python_run [] init apart_program = Running o s /\
    map snd o = [(16, true); (24, false)] /\ boxes s = [(16, Folder); (24, Client)].
Proof. eexists _, _. split; [vm_compute; reflexivity|]. split; reflexivity. Qed.

(** Copying from a data folder to a node in Python. *)
Theorem c65_python_types_refuted :
  (forall a, In a mixed -> opened_with a) /\
  python_run [] init mixed = PyUndefined WrongType.
Proof. exact python_types_refuted_shown. Qed.
Print Assumptions c65_python_types_refuted.

(** Copying to a data folder that is opened in the list of arguments in Python. *)
Theorem c65_python_temporary_refuted :
  (forall a, In a temporary -> opened_with a) /\
  python_run [] init temporary = PyUndefined Dangling.
Proof. exact python_temporary_refuted_shown. Qed.
Print Assumptions c65_python_temporary_refuted.

(** Copying within a data folder in Python: there are two mutable references to it. *)
Theorem c65_python_within_refuted :
  (forall a, In a within -> opened_with a) /\
  python_run [] init within = PyUndefined Aliased.
Proof. exact python_within_refuted_shown. Qed.
Print Assumptions c65_python_within_refuted.

(** The strings that are accepted are exactly the encodings of sequences of characters. *)
Theorem c65_utf8 : forall bytes,
  is_utf8 bytes = true <-> exists l, Forall scalar l /\ bytes = encode_all l.
Proof. exact utf8_iff. Qed.
Print Assumptions c65_utf8.

Example c65_utf8_example :
  encode_all [0x61; 0xE6; 0x20AC; 0x1F600]%N =
    String "a" (string_of_list_ascii (map ascii_of_nat [195; 166; 226; 130; 172; 240; 159; 152; 128]))
  /\ is_utf8 (encode_all [0x61; 0xE6; 0x20AC; 0x1F600]%N) = true
  /\ is_utf8 (string_of_list_ascii (map ascii_of_nat [237; 160; 128])) = false
  /\ is_utf8 (string_of_list_ascii (map ascii_of_nat [192; 128])) = false.
Proof. repeat split; vm_compute; reflexivity. Qed.

(** A call that does not fail executes its operation with the handles and the texts it is given, in
    their order, and a call that returns the code of a failure executes nothing. *)
Theorem c65_executes : forall s t c s' r,
  step s t c = Returned (s', r) -> ~ is_close c -> c <> LastError ->
  (~ failure r ->
     executed s' = executed s ++ [(c, operands c, map (fun t => text_of (fst t)) (texts c))]) /\
  (r = Code 1 -> executed s' = executed s).
Proof. exact executes_shown. Qed.
Print Assumptions c65_executes.

Example c65_executes_example :
  exists s h, run init [(0, OpenMemory (Allocated 8));
                        (0, Vacuum 8 true (new_char "t") None None);
                        (0, Vacuum 8 true None None None)] = Returned (s, h) /\
    map snd h = [Pointer 8; Code 0; Code 1] /\
    map (fun e => (snd (fst e), snd e)) (executed s) = [([], []); ([8], [Some "t"%string; None])].
Proof. eexists _, _. split; [vm_compute; reflexivity|]. split; reflexivity. Qed.

(** A call whose handles can be used, whose arrays can be converted, and whose operation has no error
    fails if and only if one of its texts is not accepted: it is null where that is not allowed or not
    the encoding of characters. *)
Theorem c65_accepts : forall es s h1 t c r h2,
  run init es = Returned (s, h1 ++ ((t, c), r) :: h2) -> allocates (h1 ++ ((t, c), r) :: h2) ->
  ~ is_close c -> (forall p, In p (operands c) -> p <> 0 /\ p mod 8 = 0) ->
  (forall x, In x (texts c) -> terminated (fst x)) -> arrays_fine c ->
  operation_problem c = None ->
  (failure r <-> ~ Forall accepts (texts c)).
Proof. exact accepts_shown. Qed.
Print Assumptions c65_accepts.

(** A method in Python calls the function it is for with the [Operations] and what it is given. *)
Theorem c65_python_method : forall program o s x p f m,
  (forall a, In a program -> opened_with a) ->
  (forall p1 a p2 o s, program = p1 ++ a :: p2 -> python_run [] init p1 = Running o s ->
     keeps_apart o a) ->
  python_run [] init program = Running o s -> find_object x o = Some (p, f) ->
  (forall t, In (Some t) (given m) -> python_text t) -> works m ->
  exists s' c, python_step o s (Call x m) = Running o s' /\ is_for m c /\
    executed s' = executed s ++ [(c, [p], given m)].
Proof. exact method_passes. Qed.
Print Assumptions c65_python_method.

(** So does a method with two [Operations], with the source before the target. Missing: as for
    [c65_python_partial]. *)
Theorem c65_python_transfer_partial : forall program o s x y p f q g m,
  (forall a, In a program -> opened_with a) ->
  (forall p1 a p2 o s, program = p1 ++ a :: p2 -> python_run [] init p1 = Running o s ->
     keeps_apart o a) ->
  python_run [] init program = Running o s -> find_object x o = Some (p, f) ->
  find_object y o = Some (q, g) -> keeps_apart o (CallWith x y true m) ->
  (forall t, In (Some t) (given_both m) -> python_text t) -> works_both m ->
  exists s' c, python_step o s (CallWith x y true m) = Running o s' /\ is_for_both m c /\
    executed s' = executed s ++ [(c, [p; q], given_both m)].
Proof. exact transfer_passes. Qed.
Print Assumptions c65_python_transfer_partial.

Example c65_python_transfer_example :
  exists o s s', python_run [] init apart_program = Running o s /\
    (exists x y, map fst o = [x; y] /\
      python_step o s (Call y (PyVacuum "t" None None)) = Running o s' /\
      map (fun e => (snd (fst e), snd e)) (skipn (List.length (executed s)) (executed s')) =
        [([24], [Some "t"%string; None])]).
Proof. eexists _, _, _. split; [vm_compute; reflexivity|].
  eexists _, _. split; [reflexivity|]. split; vm_compute; reflexivity.
Qed.
