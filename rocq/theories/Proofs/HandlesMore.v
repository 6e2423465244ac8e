(** Proofs about the strings that are passed from C and Python. *)
From Coq Require Import NArith ZArith Bool Ascii String List Arith Lia.
From Verif Require Import Model.Handles Spec.HandlesSpec.
From Verif Require Import Proofs.HandlesProofs.
Import ListNotations.
Open Scope nat_scope.
Open Scope list_scope.

(** * UTF-8 *)

Lemma between_iff low high c :
  between low high c = true <-> (N.of_nat low <= N_of_ascii c <= N.of_nat high)%N.
Proof.
  unfold between, nat_of_ascii. rewrite andb_true_iff, !Nat.leb_le. lia.
Qed.
Lemma divided c k : k <> 0%N -> (c = k * (c / k) + c mod k /\ c mod k < k)%N.
Proof. intros H. split; [apply N.div_mod; exact H|apply N.mod_lt; exact H]. Qed.

Ltac read H := apply between_iff in H; cbv [N.of_nat Pos.of_succ_nat Pos.succ] in H.
Lemma inside low high n : (n < 256)%N -> (N.of_nat low <= n)%N -> (n <= N.of_nat high)%N ->
  between low high (ascii_of_N n) = true.
Proof. intros. apply between_iff. rewrite N_ascii_embedding by assumption. split; assumption. Qed.
Lemma below low high n : (n < 256)%N -> (n < N.of_nat low)%N -> between low high (ascii_of_N n) = false.
Proof.
  intros H L. apply not_true_iff_false. intros E. apply between_iff in E.
  rewrite N_ascii_embedding in E by assumption. apply (N.lt_irrefl n).
  eapply N.lt_le_trans; [exact L|apply E].
Qed.
Lemma above low high n : (n < 256)%N -> (N.of_nat high < n)%N -> between low high (ascii_of_N n) = false.
Proof.
  intros H L. apply not_true_iff_false. intros E. apply between_iff in E.
  rewrite N_ascii_embedding in E by assumption. apply (N.lt_irrefl n).
  eapply N.le_lt_trans; [apply E|exact L].
Qed.
Ltac number := cbv [N.of_nat Pos.of_succ_nat Pos.succ]; lia.

Lemma divided2 c a b : a <> 0%N -> b <> 0%N -> (c / (a * b) = c / a / b)%N.
Proof. intros Ha Hb. symmetry. apply N.div_div; assumption. Qed.

Lemma utf8_two q x rest : (2 <= q < 32)%N -> (x < 64)%N ->
  is_utf8 (String (ascii_of_N (0xC0 + q)) (String (ascii_of_N (0x80 + x)) rest)) = is_utf8 rest.
Proof.
  intros Hq Hx. cbn [is_utf8]. unfold continues. rewrite (above 0 127), (inside 194 223), inside by number.
  reflexivity.
Qed.
Lemma utf8_three r y x rest : (r < 16)%N -> (y < 64)%N -> (x < 64)%N ->
  (r = 0 -> 32 <= y)%N -> (r = 13 -> y < 32)%N ->
  is_utf8 (String (ascii_of_N (0xE0 + r)) (String (ascii_of_N (0x80 + y))
    (String (ascii_of_N (0x80 + x)) rest))) = is_utf8 rest.
Proof.
  intros Hr Hy Hx H0 H1. cbn [is_utf8]. unfold continues.
  rewrite (above 0 127), (above 194 223), (inside 224 239), (inside 128 191 (0x80 + x)) by number.
  destruct (N.eq_dec r 0) as [E|E].
  { rewrite (inside 224 224), (inside 160 191) by number. reflexivity. }
  rewrite (above 224 224) by number. destruct (N.eq_dec r 13) as [E'|E'].
  { rewrite (inside 237 237), (inside 128 159) by number. reflexivity. }
  rewrite (inside 128 191 (0x80 + y)) by number.
  destruct (N.lt_ge_cases r 13); [rewrite (below 237 237) by number|rewrite (above 237 237) by number]; reflexivity.
Qed.
Lemma utf8_four t z y x rest : (t < 5)%N -> (z < 64)%N -> (y < 64)%N -> (x < 64)%N ->
  (t = 0 -> 16 <= z)%N -> (t = 4 -> z < 16)%N ->
  is_utf8 (String (ascii_of_N (0xF0 + t)) (String (ascii_of_N (0x80 + z))
    (String (ascii_of_N (0x80 + y)) (String (ascii_of_N (0x80 + x)) rest)))) = is_utf8 rest.
Proof.
  intros Ht Hz Hy Hx H0 H1. cbn [is_utf8]. unfold continues.
  rewrite (above 0 127), (above 194 223), (above 224 239), (inside 240 244), (inside 128 191 (0x80 + x)),
    (inside 128 191 (0x80 + y)) by number.
  destruct (N.eq_dec t 0) as [E|E].
  { rewrite (inside 240 240), (inside 144 191) by number. reflexivity. }
  rewrite (above 240 240) by number. destruct (N.eq_dec t 4) as [E'|E'].
  { rewrite (inside 244 244), (inside 128 143) by number. reflexivity. }
  rewrite (below 244 244), (inside 128 191 (0x80 + z)) by number. reflexivity.
Qed.

Lemma encode_utf8 c rest : scalar c -> is_utf8 (encode c ++ rest) = is_utf8 rest.
Proof.
  unfold scalar, encode. intros Hc.
  destruct (divided c 64 ltac:(lia)) as [E1 L1].
  destruct (divided (c / 64) 64 ltac:(lia)) as [E2 L2].
  destruct (divided (c / 64 / 64) 64 ltac:(lia)) as [E3 L3].
  change 4096%N with (64 * 64)%N. change 262144%N with (64 * 64 * 64)%N.
  rewrite !(divided2 c (64 * 64) 64), !(divided2 c 64 64) by lia.
  set (x := (c mod 64)%N) in *. set (q := (c / 64)%N) in *.
  set (y := (q mod 64)%N) in *. set (r := (q / 64)%N) in *.
  set (z := (r mod 64)%N) in *. set (t := (r / 64)%N) in *.
  clearbody t. clearbody z. clearbody r. clearbody y. clearbody q. clearbody x.
  destruct (N.ltb_spec c 0x80); [|destruct (N.ltb_spec c 0x800); [|destruct (N.ltb_spec c 0x10000)]];
    cbn [String.append].
  - cbn [is_utf8]. rewrite inside by number. reflexivity.
  - apply utf8_two; lia.
  - apply utf8_three; lia.
  - apply utf8_four; lia.
Qed.

Lemma digits c k a b : c = (k * a + b)%N -> (b < k)%N -> (c / k = a /\ c mod k = b)%N.
Proof.
  intros H L. split; symmetry; [apply (N.div_unique c k a b)|apply (N.mod_unique c k a b)]; assumption.
Qed.

Lemma N_of_ascii_small a : (N_of_ascii a < 256)%N.
Proof. apply N_ascii_bounded. Qed.

Lemma byte_is a n : n = N_of_ascii a -> ascii_of_N n = a.
Proof. intros ->. apply ascii_N_embedding. Qed.

Lemma utf8_encodes : forall n bytes, String.length bytes <= n -> is_utf8 bytes = true ->
  exists l, Forall scalar l /\ bytes = encode_all l.
Proof.
  induction n as [|n IH]; intros bytes Hn H.
  { destruct bytes; [exists []; split; [constructor|reflexivity]|cbn in Hn; lia]. }
  destruct bytes as [|a rest]; [exists []; split; [constructor|reflexivity]|].
  assert (more : forall c s, scalar c -> (encode c ++ s)%string = String a rest ->
            String.length s <= n -> is_utf8 s = true ->
            exists l, Forall scalar l /\ String a rest = encode_all l).
  { intros c s Hc He Hs Hu. destruct (IH s Hs Hu) as [l [Hl ->]]. exists (c :: l).
    split; [constructor; assumption|]. rewrite <- He. reflexivity. }
  cbn [String.length] in Hn. cbn [is_utf8] in H. pose proof (N_of_ascii_small a) as Ba.
  destruct (between 0 127 a) eqn:E0.
  { read E0.
    apply (more (N_of_ascii a) rest); [left; lia| |lia|exact H].
    unfold encode. destruct (N.ltb_spec (N_of_ascii a) 0x80); [|lia].
    cbn [String.append]. f_equal. apply ascii_N_embedding. }
  assert (N0 : (128 <= N_of_ascii a)%N).
  { destruct (N.le_gt_cases 128 (N_of_ascii a)); [assumption|].
    exfalso. assert (between 0 127 a = true); [apply between_iff; cbv [N.of_nat Pos.of_succ_nat Pos.succ]; lia|congruence]. }
  destruct (between 194 223 a) eqn:E1.
  { read E1.
    destruct rest as [|b rest]; [discriminate H|]. apply andb_true_iff in H. destruct H as [Hb H].
    read Hb.
    cbn [String.length] in Hn.
    remember ((N_of_ascii a - 192) * 64 + (N_of_ascii b - 128))%N as c eqn:Ec.
    assert (Q : (c / 64 = N_of_ascii a - 192 /\ c mod 64 = N_of_ascii b - 128)%N) by (apply digits; lia).
    destruct Q as [Q1 Q2].
    apply (more c rest); [left; lia| |lia|exact H].
    unfold encode. destruct (N.ltb_spec c 0x80); [lia|]. destruct (N.ltb_spec c 0x800); [|lia].
    cbn [String.append]. f_equal; [apply byte_is; lia|]. f_equal. apply byte_is. lia. }
  destruct (between 224 239 a) eqn:E2.
  { read E2.
    destruct rest as [|b [|d rest]]; [discriminate H|discriminate H|].
    rewrite !andb_true_iff in H. destruct H as [[Hb Hd] H].
    read Hd.
    cbn [String.length] in Hn.
    assert (Rb : (128 <= N_of_ascii b <= 191)%N
      /\ (N_of_ascii a = 224 -> 160 <= N_of_ascii b)%N /\ (N_of_ascii a = 237 -> N_of_ascii b <= 159)%N).
    { destruct (between 224 224 a) eqn:F1.
      - read F1; read Hb. lia.
      - assert (N_of_ascii a <> 224)%N.
        { intros E. assert (between 224 224 a = true); [apply between_iff; cbv [N.of_nat Pos.of_succ_nat Pos.succ]; lia|congruence]. }
        destruct (between 237 237 a) eqn:F2.
        + read F2; read Hb. lia.
        + assert (N_of_ascii a <> 237)%N.
          { intros E. assert (between 237 237 a = true); [apply between_iff; cbv [N.of_nat Pos.of_succ_nat Pos.succ]; lia|congruence]. }
          read Hb. lia. }
    remember ((N_of_ascii a - 224) * 4096 + (N_of_ascii b - 128) * 64 + (N_of_ascii d - 128))%N as c eqn:Ec.
    assert (Q : (c / 64 = (N_of_ascii a - 224) * 64 + (N_of_ascii b - 128)
                 /\ c mod 64 = N_of_ascii d - 128)%N) by (apply digits; lia).
    destruct Q as [Q1 Q2].
    assert (Q : (c / 64 / 64 = N_of_ascii a - 224 /\ c / 64 mod 64 = N_of_ascii b - 128)%N) by (apply digits; lia).
    destruct Q as [Q3 Q4].
    apply (more c rest); [unfold scalar; lia| |lia|exact H].
    unfold encode. destruct (N.ltb_spec c 0x80); [lia|]. destruct (N.ltb_spec c 0x800); [lia|].
    destruct (N.ltb_spec c 0x10000); [|lia].
    change 4096%N with (64 * 64)%N. rewrite divided2 by lia.
    cbn [String.append]. f_equal; [apply byte_is; lia|]. f_equal; [apply byte_is; lia|].
    f_equal. apply byte_is. lia. }
  destruct (between 240 244 a) eqn:E3; [|discriminate H].
  read E3.
  destruct rest as [|b [|d [|e rest]]]; try discriminate H.
  rewrite !andb_true_iff in H. destruct H as [[[Hb Hd] He] H].
  read Hd; read He.

  cbn [String.length] in Hn.
  assert (Rb : (128 <= N_of_ascii b <= 191)%N
    /\ (N_of_ascii a = 240 -> 144 <= N_of_ascii b)%N /\ (N_of_ascii a = 244 -> N_of_ascii b <= 143)%N).
  { destruct (between 240 240 a) eqn:F1.
    - read F1; read Hb. lia.
    - assert (N_of_ascii a <> 240)%N.
      { intros E. assert (between 240 240 a = true); [apply between_iff; cbv [N.of_nat Pos.of_succ_nat Pos.succ]; lia|congruence]. }
      destruct (between 244 244 a) eqn:F2.
      + read F2; read Hb. lia.
      + assert (N_of_ascii a <> 244)%N.
        { intros E. assert (between 244 244 a = true); [apply between_iff; cbv [N.of_nat Pos.of_succ_nat Pos.succ]; lia|congruence]. }
        read Hb. lia. }
  remember ((N_of_ascii a - 240) * 262144 + (N_of_ascii b - 128) * 4096
             + (N_of_ascii d - 128) * 64 + (N_of_ascii e - 128))%N as c eqn:Ec.
  assert (Q : (c / 64 = (N_of_ascii a - 240) * 4096 + (N_of_ascii b - 128) * 64 + (N_of_ascii d - 128)
               /\ c mod 64 = N_of_ascii e - 128)%N) by (apply digits; lia).
  destruct Q as [Q1 Q2].
  assert (Q : (c / 64 / 64 = (N_of_ascii a - 240) * 64 + (N_of_ascii b - 128)
               /\ c / 64 mod 64 = N_of_ascii d - 128)%N) by (apply digits; lia).
  destruct Q as [Q3 Q4].
  assert (Q : (c / 64 / 64 / 64 = N_of_ascii a - 240
               /\ c / 64 / 64 mod 64 = N_of_ascii b - 128)%N) by (apply digits; lia).
  destruct Q as [Q5 Q6].
  apply (more c rest); [unfold scalar; lia| |lia|exact H].
  unfold encode. destruct (N.ltb_spec c 0x80); [lia|]. destruct (N.ltb_spec c 0x800); [lia|].
  destruct (N.ltb_spec c 0x10000); [lia|].
  change 4096%N with (64 * 64)%N. change 262144%N with (64 * 64 * 64)%N.
  rewrite !(divided2 c (64 * 64) 64), !(divided2 c 64 64) by lia.
  cbn [String.append]. f_equal; [apply byte_is; lia|]. f_equal; [apply byte_is; lia|].
  f_equal; [apply byte_is; lia|]. f_equal. apply byte_is. lia.
Qed.

Lemma utf8_iff bytes : is_utf8 bytes = true <-> exists l, Forall scalar l /\ bytes = encode_all l.
Proof.
  split; [apply (utf8_encodes (String.length bytes)); lia|].
  intros [l [Hl ->]]. induction Hl as [|c l Hc _ IH]; [reflexivity|].
  cbn [encode_all fold_right]. rewrite encode_utf8 by exact Hc. exact IH.
Qed.

(** What is passed on to the operations. *)
Definition argument_texts (args : list argument) : list (cstring * bool) :=
  flat_map (fun a => match a with
                     | Required s => [(s, false)]
                     | Optional s => [(s, true)]
                     | _ => []
                     end) args.
Definition argument_handles (args : list argument) : list nat :=
  flat_map (fun a => match a with Handle p _ => [p] | _ => [] end) args.

Lemma arguments_texts : forall c, argument_texts (arguments c) = texts c.
Proof.
  destruct c; cbn [arguments];
    repeat match goal with |- context [let (_, _) := ?p in _] => destruct p end;
    try reflexivity;
    repeat match goal with p : (nat * option string)%type |- _ => destruct p end; reflexivity.
Qed.
Lemma arguments_handles : forall c,
  ~ is_close c -> argument_handles (arguments c) = operands c.
Proof.
  intros c N.
  destruct c;
    repeat match goal with p : (nat * option string)%type |- _ => destruct p end; try reflexivity.
  exfalso. apply N. eexists _, _. reflexivity.
Qed.

Lemma from_ptr_text : forall bytes x, from_ptr bytes = Some x -> x = before_zero bytes.
Proof.
  induction bytes as [|c bytes IH]; intros x; cbn; [discriminate|].
  destruct (Ascii.eqb c zero); [congruence|].
  destruct (from_ptr bytes) as [y|]; cbn; [|discriminate]. intros H. injection H as <-.
  f_equal. apply IH. reflexivity.
Qed.
Lemma text_is : forall s x, c_char_ptr_to_str s = Fine x -> Some x = text_of s.
Proof.
  intros [bytes|] x; cbn; [|discriminate].
  destruct (from_ptr bytes) as [y|] eqn:E; [|discriminate].
  destruct (is_utf8 y); [|discriminate]. intros H. injection H as <-.
  f_equal. apply from_ptr_text. assumption.
Qed.
Lemma maybe_text_is : forall s x, c_char_ptr_to_maybe_str s = Fine x -> x = text_of s.
Proof.
  intros [bytes|] x; cbn [c_char_ptr_to_maybe_str]; [|cbn; congruence].
  destruct (c_char_ptr_to_str (Some bytes)) as [y| |] eqn:E; try discriminate.
  intros H. injection H as <-. apply text_is. assumption.
Qed.

Lemma convert_passes : forall b args w w',
  convert b args w = (Fine tt, w') ->
  held w' = held w ++ argument_handles args /\
  strings w' = strings w ++ map (fun t => text_of (fst t)) (argument_texts args).
Proof.
  induction args as [|a args IH]; intros w w' H.
  - cbn in H. injection H as <-. cbn. rewrite !app_nil_r. auto.
  - destruct a as [p f|s|s|a problem|a problem]; cbn [convert] in H.
    + destruct (c_void_to_operations b (held w) p f) as [q| |] eqn:E; try discriminate.
      apply handle_fine in E. destruct E as (-> & _).
      apply IH in H. cbn in H |- *. destruct H as [-> ->]. rewrite <- app_assoc. auto.
    + destruct (c_char_ptr_to_str s) as [q| |] eqn:E; try discriminate. apply text_is in E.
      apply IH in H. cbn in H |- *. destruct H as [-> ->]. rewrite <- E, <- app_assoc. auto.
    + destruct (c_char_ptr_to_maybe_str s) as [q| |] eqn:E; try discriminate.
      apply maybe_text_is in E.
      apply IH in H. cbn in H |- *. destruct H as [-> ->]. rewrite <- E, <- app_assoc. auto.
    + destruct problem; [discriminate|]. apply IH in H. exact H.
    + destruct problem; [discriminate|]. apply IH in H. exact H.
Qed.

Theorem executes_shown : forall s t c s' r,
  step s t c = Returned (s', r) -> ~ is_close c -> c <> LastError ->
  (~ failure r ->
     executed s' = executed s ++ [(c, operands c, map (fun t => text_of (fst t)) (texts c))]) /\
  (r = Code 1 -> executed s' = executed s).
Proof.
  intros s t c s' r H NC NL.
  rewrite <- (arguments_texts c), <- (arguments_handles c NC).
  destruct (step_cases c) as [(k & o & _ & S & _)|[(p & g & ->)|[->|(S & _)]]].
  - rewrite S in H. unfold open_step in H.
    destruct (convert (boxes s) (arguments c) nothing) as [[[]|m|f] w] eqn:E; try discriminate.
    + pose proof (convert_passes _ _ _ _ E) as [W1 W2].
      destruct o as [p|m]; injection H as <- <-; split; try discriminate.
      * intros _. cbn [executed with_success]. rewrite W1, W2. reflexivity.
      * intros F. exfalso. apply F. right. reflexivity.
    + injection H as <- <-. split; [|discriminate]. intros F. exfalso. apply F. right. reflexivity.
  - exfalso. apply NC. eexists _, _. reflexivity.
  - congruence.
  - rewrite S in H. unfold use_step in H.
    destruct (convert (boxes s) (arguments c) nothing) as [[[]|m|f] w] eqn:E; try discriminate.
    + pose proof (convert_passes _ _ _ _ E) as [W1 W2].
      destruct (operation_problem c) as [m|]; injection H as <- <-; split; try discriminate.
      * intros F. exfalso. apply F. left. reflexivity.
      * reflexivity.
      * intros _. cbn [executed with_success]. rewrite W1, W2. reflexivity.
    + injection H as <- <-. split; [|reflexivity]. intros F. exfalso. apply F. left. reflexivity.
Qed.

(** Which texts are accepted. *)
Lemma first_problem_none : forall l, first_problem l = None <-> Forall (fun p => p = None) l.
Proof.
  induction l as [|[m|] l IH]; cbn.
  - split; [constructor|reflexivity].
  - split; [discriminate|]. intros F. inversion F. discriminate.
  - rewrite IH. split; [constructor; auto|]. intros F. inversion F. assumption.
Qed.
Lemma text_accepted : forall s n, s <> None -> terminated s ->
  text_problem s = None <-> accepts (s, n).
Proof.
  intros [bytes|] n N T; [|congruence]. destruct (T _ eq_refl) as (a & b & ->).
  destruct (from_ptr_app a b) as [x E]. cbn [text_problem accepts text_of option_map fst].
  unfold accepts. cbn [text_of option_map fst]. rewrite E, <- (from_ptr_text _ _ E), <- utf8_iff.
  destruct (is_utf8 x); split; congruence.
Qed.
Lemma required_accepted : forall s, terminated s ->
  problem_of (Required s) = None <-> accepts (s, false).
Proof.
  intros [bytes|] T; [apply text_accepted; [discriminate|assumption]|].
  cbn. unfold accepts. cbn. split; discriminate.
Qed.
Lemma optional_accepted : forall s, terminated s ->
  problem_of (Optional s) = None <-> accepts (s, true).
Proof.
  intros [bytes|] T; [apply text_accepted; [discriminate|assumption]|].
  cbn. unfold accepts. cbn. split; reflexivity.
Qed.

Definition argument_arrays (args : list argument) : Prop :=
  forall a e, In (Array a e) args \/ In (Borrowed a e) args -> e = None.
Lemma arguments_accepted : forall args,
  (forall p, In p (argument_handles args) -> usable p = true) ->
  (forall x, In x (argument_texts args) -> terminated (fst x)) -> argument_arrays args ->
  Forall (fun p => p = None) (map problem_of args) <-> Forall accepts (argument_texts args).
Proof.
  induction args as [|a args IH]; intros U T A; [cbn; split; constructor|].
  assert (Forall (fun p => p = None) (map problem_of args) <-> Forall accepts (argument_texts args))
    as IH'.
  { apply IH.
    - intros p I. apply U. cbn. apply in_or_app. auto.
    - intros x I. apply T. cbn. apply in_or_app. auto.
    - intros x e [I|I]; apply (A x e); cbn; auto. }
  clear IH. destruct a as [p f|s|s|a e|a e]; cbn [map]; rewrite Forall_cons_iff;
    cbn [argument_texts flat_map app].
  - rewrite problem_handle_fine by (apply U; cbn; auto). fold (argument_texts args). tauto.
  - rewrite Forall_cons_iff, required_accepted by (apply (T (s, false)); cbn; auto).
    fold (argument_texts args). tauto.
  - rewrite Forall_cons_iff, optional_accepted by (apply (T (s, true)); cbn; auto).
    fold (argument_texts args). tauto.
  - rewrite (A a e) by (cbn; auto). fold (argument_texts args). cbn. tauto.
  - rewrite (A a e) by (cbn; auto). fold (argument_texts args). cbn. tauto.
Qed.
Lemma arguments_arrays : forall c, arrays_fine c -> argument_arrays (arguments c).
Proof.
  intros c F.
  destruct c;
    repeat match goal with p : (nat * option string)%type |- _ => destruct p end;
    cbn in F; unfold fine in F; cbn in F; intros x e I; cbn in I;
    repeat match goal with
    | I : _ \/ _ |- _ => destruct I as [I|I]
    | I : False |- _ => destruct I
    | I : Array _ _ = Array _ _ |- _ => injection I as <- <-
    | I : Borrowed _ _ = Borrowed _ _ |- _ => injection I as <- <-
    | I : _ = _ |- _ => discriminate I
    end; tauto.
Qed.

Theorem error_accepts : forall c, ~ is_close c ->
  (forall p, In p (operands c) -> p <> 0 /\ p mod 8 = 0) ->
  (forall x, In x (texts c) -> terminated (fst x)) -> arrays_fine c ->
  operation_problem c = None ->
  (error_of c = None <-> Forall accepts (texts c)).
Proof.
  intros c NC U T A O. unfold error_of. rewrite O, first_problem_none, Forall_app.
  rewrite <- (arguments_texts c) in *. rewrite <- (arguments_handles c NC) in U.
  rewrite arguments_accepted; auto using arguments_arrays.
  - split; [tauto|]. intros F. split; [assumption|]. constructor; [reflexivity|constructor].
  - intros p I. apply usable_iff. apply U. assumption.
Qed.

Theorem accepts_shown : forall es s h1 t c r h2,
  run init es = Returned (s, h1 ++ ((t, c), r) :: h2) -> allocates (h1 ++ ((t, c), r) :: h2) ->
  ~ is_close c -> (forall p, In p (operands c) -> p <> 0 /\ p mod 8 = 0) ->
  (forall x, In x (texts c) -> terminated (fst x)) -> arrays_fine c ->
  operation_problem c = None ->
  (failure r <-> ~ Forall accepts (texts c)).
Proof.
  intros es s h1 t c r h2 R A NC U T F O.
  rewrite (fails_iff _ _ _ _ _ _ _ R A NC), (error_accepts c NC U T F O). reflexivity.
Qed.

(** Python. *)
Lemma before_zero_all : forall s, (forall a b, s <> (a ++ String zero b)%string) ->
  before_zero (s ++ String zero "") = s.
Proof.
  induction s as [|c s IH]; intros N; cbn; [reflexivity|].
  destruct (Ascii.eqb_spec c zero) as [->|D].
  - exfalso. apply (N ""%string s). reflexivity.
  - f_equal. apply IH. intros a b ->. apply (N (String c a) b). reflexivity.
Qed.
Lemma new_char_text : forall s, python_text s -> text_of (new_char s) = Some s.
Proof.
  intros s [_ N]. unfold text_of, new_char. cbn [option_map]. rewrite before_zero_all; auto.
Qed.
Lemma maybe_char_text : forall s,
  (forall t, unless_empty s = Some t -> python_text t) ->
  text_of (str_to_c_char_ptr s) = unless_empty s.
Proof.
  intros [[|c s]|] P; try reflexivity. cbn [str_to_c_char_ptr unless_empty].
  apply new_char_text. apply P. reflexivity.
Qed.
Lemma python_accepted : forall s n, (forall t, text_of s = Some t -> python_text t) ->
  (text_of s = None -> n = true) -> accepts (s, n).
Proof.
  intros s n P N. unfold accepts. cbn [fst snd]. destruct (text_of s) as [t|]; [|auto].
  apply (P t eq_refl).
Qed.

Lemma method_texts : forall m p f, (forall t, In (Some t) (given m) -> python_text t) ->
  map (fun t => text_of (fst t)) (texts (method_call m p f)) = given m.
Proof.
  intros m p f G. destruct m; cbn [texts method_call map fst given In] in G |- *; repeat apply (f_equal2 cons); try reflexivity;
    try (apply new_char_text; apply G; auto);
    try (apply maybe_char_text; intros t E; apply G; rewrite E; auto).
  destruct retention as [t|]; [|reflexivity]. apply new_char_text. apply G. auto.
Qed.
Lemma transfer_texts : forall m p f q, (forall t, In (Some t) (given_both m) -> python_text t) ->
  map (fun t => text_of (fst t)) (texts (transfer_call m p f q)) = given_both m.
Proof.
  intros m p f q G. destruct m; cbn [texts transfer_call map fst given_both In] in G |- *; repeat apply (f_equal2 cons); try reflexivity;
    try (apply new_char_text; apply G; auto);
    try (apply maybe_char_text; intros t E; apply G; rewrite E; auto).
Qed.

Ltac each I :=
  repeat match type of I with
  | _ \/ _ => destruct I as [I|I]
  | False => destruct I
  end.
Lemma method_terminated : forall m p f x,
  In x (texts (method_call m p f)) -> terminated (fst x).
Proof.
  intros m p f x I. destruct m; cbn in I; each I; subst x; cbn [fst];
    try apply new_char_terminated; try apply maybe_terminated.
  destruct retention; [apply new_char_terminated|apply none_terminated].
Qed.
Lemma transfer_terminated : forall m p f q x,
  In x (texts (transfer_call m p f q)) -> terminated (fst x).
Proof.
  intros m p f q x I. destruct m; cbn in I; each I; subst x; cbn [fst];
    try apply new_char_terminated; try apply maybe_terminated.
Qed.

Lemma texts_accepted : forall c l,
  map (fun t => text_of (fst t)) (texts c) = l -> (forall t, In (Some t) l -> python_text t) ->
  (forall s, In (s, false) (texts c) -> s <> None) ->
  Forall accepts (texts c).
Proof.
  intros c l E G N. apply Forall_forall. intros [s n] I. apply python_accepted.
  - intros t Q. apply G. rewrite <- E, <- Q. apply (in_map (fun t => text_of (fst t))) in I. exact I.
  - intros Q. destruct n; [reflexivity|]. exfalso. apply (N s I). destruct s; [discriminate|reflexivity].
Qed.

(** A call of Python with handles that match succeeds and passes on what it is given. *)
Lemma python_executes : forall o s c l,
  (forall s t, step s t c = use_step s t c (operation_problem c)) ->
  matches o s -> ~ is_close c -> c <> LastError ->
  (match checked o (step s 0 c) with Running o' s' => matches o' s' /\ o' = o | _ => False end) ->
  (forall p, In p (operands c) -> usable p = true) ->
  (forall x, In x (texts c) -> terminated (fst x)) -> arrays_fine c -> operation_problem c = None ->
  map (fun t => text_of (fst t)) (texts c) = l -> (forall t, In (Some t) l -> python_text t) ->
  (forall s, In (s, false) (texts c) -> s <> None) ->
  exists s', checked o (step s 0 c) = Running o s' /\
    executed s' = executed s ++ [(c, operands c, l)].
Proof.
  intros o s c l S M NC NL K U T A O E G N.
  assert (error_of c = None) as P.
  { apply error_accepts; auto; [|eapply texts_accepted; eassumption].
    intros p I. apply usable_iff. auto. }
  destruct (step s 0 c) as [[s1 r]|f] eqn:Q; [|destruct K].
  assert (r = Code 0) as ->.
  { pose proof Q as Q2. rewrite S in Q2. unfold use_step in Q2.
    destruct (convert (boxes s) (arguments c) nothing) as [[[]|m|f] w] eqn:V; try discriminate.
    - rewrite O in Q2. injection Q2 as _ <-. reflexivity.
    - exfalso. apply convert_failed in V. unfold error_of in P. rewrite first_problem_app, V in P.
      discriminate. }
  exists s1. split; [reflexivity|].
  destruct (executes_shown _ _ _ _ _ Q NC NL) as [X _]. rewrite X; [rewrite E; reflexivity|].
  intros [F|F]; discriminate.
Qed.

Lemma run_matches : forall program o s o' s',
  matches o s -> (forall a, In a program -> opened_with a) ->
  (forall p1 a p2 o' s', program = p1 ++ a :: p2 -> python_run o s p1 = Running o' s' ->
     keeps_apart o' a) ->
  python_run o s program = Running o' s' -> matches o' s'.
Proof.
  induction program as [|a program IH]; intros o s o' s' M W K H; cbn [python_run] in H.
  - injection H as <- <-. assumption.
  - pose proof (python_step_matches o s a M (K [] a program o s eq_refl eq_refl)
      (W a (or_introl eq_refl))) as P.
    destruct (python_step o s a) as [o1 s1|f|] eqn:E; try discriminate.
    apply (IH o1 s1 o' s' P); auto.
    + intros b I. apply W. right. assumption.
    + intros p1 b p2 o2 s2 -> R. apply (K (a :: p1) b p2 o2 s2); [reflexivity|].
      cbn [python_run]. rewrite E. assumption.
Qed.

Lemma object_usable : forall o s x p f,
  matches o s -> find_object x o = Some (p, f) -> usable p = true.
Proof.
  intros o s x p f (_ & _ & _ & U) F. apply find_object_in in F. eauto.
Qed.

Theorem method_passes : forall program o s x p f m,
  (forall a, In a program -> opened_with a) ->
  (forall p1 a p2 o s, program = p1 ++ a :: p2 -> python_run [] init p1 = Running o s ->
     keeps_apart o a) ->
  python_run [] init program = Running o s -> find_object x o = Some (p, f) ->
  (forall t, In (Some t) (given m) -> python_text t) -> works m ->
  exists s' c, python_step o s (Call x m) = Running o s' /\ is_for m c /\
    executed s' = executed s ++ [(c, [p], given m)].
Proof.
  intros program o s x p f m W K R F G Y.
  assert (matches o s) as M by exact (run_matches program [] init o s matches_init W K R).
  pose proof (python_step_matches o s (Call x m) M I I) as P.
  cbn [python_step] in P |- *. rewrite F in P |- *.
  assert (operands (method_call m p f) = [p]) as H by (destruct m; reflexivity).
  destruct (python_executes o s (method_call m p f) (given m)) as (s' & E & X); auto.
  - destruct m; reflexivity.
  - intros (a & b & Q). destruct m; discriminate.
  - destruct m; discriminate.
  - pose proof (checked_boxes o (step s 0 (method_call m p f))) as C.
    destruct (checked o (step s 0 (method_call m p f))) as [o' s'|g|]; [|destruct P|destruct C].
    destruct C as (_ & _ & _ & -> & _). auto.
  - rewrite H. intros q [<-|[]]. eapply object_usable; eassumption.
  - apply method_terminated.
  - destruct m; cbn in Y |- *; tauto.
  - destruct m; cbn in Y |- *; tauto.
  - apply method_texts. assumption.
  - intros c J. destruct m; cbn in J; each J; try (injection J as <-); discriminate.
  - exists s', (method_call m p f). rewrite H in X. split; [assumption|]. split; [|assumption].
    destruct m; cbn; auto.
Qed.

Theorem transfer_passes : forall program o s x y p f q g m,
  (forall a, In a program -> opened_with a) ->
  (forall p1 a p2 o s, program = p1 ++ a :: p2 -> python_run [] init p1 = Running o s ->
     keeps_apart o a) ->
  python_run [] init program = Running o s -> find_object x o = Some (p, f) ->
  find_object y o = Some (q, g) -> keeps_apart o (CallWith x y true m) ->
  (forall t, In (Some t) (given_both m) -> python_text t) -> works_both m ->
  exists s' c, python_step o s (CallWith x y true m) = Running o s' /\ is_for_both m c /\
    executed s' = executed s ++ [(c, [p; q], given_both m)].
Proof.
  intros program o s x y p f q g m W K R F F2 KA G Y.
  assert (matches o s) as M by exact (run_matches program [] init o s matches_init W K R).
  pose proof (python_step_matches o s (CallWith x y true m) M KA I) as P.
  cbn [python_step] in P |- *. rewrite F, F2 in P |- *.
  assert (operands (transfer_call m p f q) = [p; q]) as H by (destruct m; reflexivity).
  destruct (python_executes o s (transfer_call m p f q) (given_both m)) as (s' & E & X); auto.
  - destruct m; reflexivity.
  - intros (a & b & Q). destruct m; discriminate.
  - destruct m; discriminate.
  - pose proof (checked_boxes o (step s 0 (transfer_call m p f q))) as C.
    destruct (checked o (step s 0 (transfer_call m p f q))) as [o' s'|e|]; [|destruct P|destruct C].
    destruct C as (_ & _ & _ & -> & _). auto.
  - rewrite H. intros z [<-|[<-|[]]]; eapply object_usable; eassumption.
  - apply transfer_terminated.
  - destruct m; cbn in Y |- *; tauto.
  - destruct m; cbn in Y |- *; tauto.
  - apply transfer_texts. assumption.
  - intros c J. destruct m; cbn in J; each J; try (injection J as <-); discriminate.
  - exists s', (transfer_call m p f q). rewrite H in X. split; [assumption|]. split; [|assumption].
    destruct m; cbn; auto.
Qed.
