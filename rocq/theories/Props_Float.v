(** Properties C12, C38, C42: float literals, float settings, float arithmetic.
    Specification: [Spec_Number], [Spec_Float]; model: [Num], [Instance], [Context]. *)
From Coq Require Import ZArith Reals Psatz QArith Qpower Qabs Qreals.
From Flocq Require Import Core.
From Verif Require Import Bytes StrUtils Grammar Outcome Parser Num Containers Instance Context Platform.
From Verif Require Import Lemmas StringLit Proof_Grammar Proof_Parser Proof_Exec WP Proof_Inv Proof_Literal Proof_Receive Proof_Context Proof_Names Api Proof_Text.
From Verif Require Import Proof_Number Proof_Float Proof_Arith Props_Text Props_State Props_Number.
From Verif Require Import Spec_Grammar Spec_State Spec_Names Spec_Text Spec_Number Spec_Float.
Open Scope Z_scope.
Open Scope list_scope.

(** ** C12: reading float literals *)
Lemma float_literals a neg x : denotes_real a neg x ->
  exists d f, double neg x d /\ narrows d f /\ literal_of (B "Float") a (OFloat f).
Proof.
  intros H. destruct (atof_rounds _ _ _ H) as [V D]. destruct (to_float_narrows (atof a)) as [V' N]. exists (atof a), (to_float (atof a)).
  split; [exact D|]. split; [exact N|]. eapply lit_float; eauto.
Qed.
(** Correct rounding is rounding to nearest: no number of the format is closer. *)
Theorem C12_rounded_is_nearest : forall prec emax neg x f, 0 < prec -> rounds_to prec emax neg x f -> finite f ->
  forall m e, Z.abs m < 2 ^ prec -> 3 - emax - prec <= e ->
  (Rabs (value f - x) <= Rabs (IZR m * powerRZ 2 e - x))%R.
Proof.
  intros prec emax neg x f Hp [H1 H2] Hf m e Hm He.
  assert (E : value f = rounded prec emax x).
  { destruct (Rlt_or_le (Rabs (rounded prec emax x)) (powerRZ 2 emax)) as [L|L]; [now apply H1|].
    rewrite (H2 L) in Hf. destruct Hf. }
  rewrite E. assert (VE : Valid_exp (FLT_exp (3 - emax - prec) prec)) by (apply FLT_exp_valid; exact Hp).
  assert (N := round_N_pt radix2 (FLT_exp (3 - emax - prec) prec) (fun t => negb (Z.even t)) x).
  destruct N as [_ N]. apply N. apply generic_format_FLT. exists (Float radix2 m e); auto. unfold F2R. cbn [Fnum Fexp].
  now rewrite bpow_powerRZ.
Qed.
Lemma float_set_receive E f a : receive E (IObj (OFloat f)) (B "set:") [a] = on (fun f => IObj (OFloat f)) (float_set [a] f).
Proof. reflexivity. Qed.
Theorem C12_set : forall srt pw c s line n f0 a neg x, sort_contract srt -> reachable srt pw c ->
  statement line n (B "set:") [a] -> lookup c n = Some (IObj (OFloat f0)) -> denotes_real a neg x ->
  exists d f, double neg x d /\ narrows d f /\ becomes srt pw c s line n (B "null") (IObj (OFloat f)).
Proof.
  intros srt pw c s line n f0 a neg x H1 H2 Hs Hl H. destruct (atof_rounds _ _ _ H) as [V D]. exists (atof a), (to_float (atof a)).
  split; [exact D|]. split; [apply to_float_narrows; auto|].
  apply (var_becomes srt pw c s line n _ _ _ H1 H2 Hs Hl (IObj (OFloat (to_float (atof a)))) (Ok null)); auto.
  rewrite float_set_receive. unfold float_set. mon. rewrite (float_literal _ _ _ H). reflexivity.
Qed.
Theorem C12_set_refuses_other_texts : forall srt pw c s line n f0 a, sort_contract srt -> reachable srt pw c ->
  statement line n (B "set:") [a] -> lookup c n = Some (IObj (OFloat f0)) -> ~ float_value a -> only_answers srt pw c s line ERR_ARGUMENT.
Proof.
  intros srt pw c s line n f0 a H1 H2 Hs Hl H. apply (var_answers srt pw c s line n _ _ _ H1 H2 Hs Hl (Throw InvalidArgument)); auto.
  rewrite float_set_receive. unfold float_set. mon. rewrite (not_float_literal _ H). reflexivity.
Qed.
Theorem C12_create : forall srt pw c s line m n a neg x, sort_contract srt -> reachable srt pw c ->
  statement line (B "Float") m [n; a] -> with_value m -> variable n -> ~ live c n -> denotes_real a neg x ->
  exists d f, double neg x d /\ narrows d f /\ becomes srt pw c s line n (B "null") (IObj (OFloat f)).
Proof.
  intros srt pw c s line m n a neg x H1 H2 Hs Hm Hn Hl H. destruct (float_literals _ _ _ H) as (d & f & D & N & R).
  exists d, f. split; [exact D|]. split; [exact N|].
  eapply create_free; eauto using reachable_keys.
  2:{ unfold live in Hl. destruct (lookup c n); [exfalso; apply Hl; discriminate|reflexivity]. }
  apply creates_object; auto. right; right; right; now left.
Qed.
Lemma real_ex : exists x, denotes_real (B "-1.5e3") true x.
Proof.
  assert (D : forall c, In c [ "1"; "5"; "3" ]%char -> digit c).
  { intros c H. split; apply Nat.leb_le; repeat destruct H as [<-|H]; try reflexivity; destruct H. }
  assert (M := man_point (B "1") (B "5") (Forall_cons _ (D "1"%char ltac:(cbn; auto)) (Forall_nil _))
     (Forall_cons _ (D "5"%char ltac:(cbn; auto)) (Forall_nil _)) (or_introl (not_eq_sym (@nil_cons _ _ _)))).
  assert (X := exp_some (B "3") _ (int_plain (B "3") (Forall_cons _ (D "3"%char ltac:(cbn; auto)) (Forall_nil _)) (not_eq_sym (@nil_cons _ _ _)))).
  eexists. exists (B "-"). eexists _, _, _, _, _. split; [|split; [constructor|split; [exact M|split; [exact X|reflexivity]]]]. reflexivity.
Qed.
Example C12_ex : exists x, denotes_real (B "-1.5e3") true x /\ literal_of (B "Float") (B "-1.5e3") (OFloat (S754_finite true 12288000 (-13))).
Proof. destruct real_ex as [x H]. exists x. split; [exact H|]. ex_lit. Qed.

(** ** C42: arithmetic on Floats *)
Lemma float_arith_receive E o f args : receive E (IObj (OFloat f)) (message_of o) args = on (fun f => IObj (OFloat f)) (float_arith (d_op o) args f).
Proof. destruct o; reflexivity. Qed.
Lemma finite_dec f : {finite f} + {~ finite f}.
Proof. destruct f; cbn; auto. Qed.
Lemma ieee_widen o f y r : V32 f -> ieee o (to_double f) y r -> ieee o f y r.
Proof.
  intros Hf H. destruct (to_double_exact f Hf) as (_ & Hv & Hn & Hfin & Hnf). destruct (finite_dec f) as [F|F]; [|now rewrite (Hnf F) in H].
  assert (Hz := zero_double f Hf). assert (F' := proj2 Hfin F).
  assert (NN : ~ nan (to_double f)) by (intros E; rewrite E in F'; exact F').
  assert (NI : ~ infinite (to_double f)) by (intros [t E]; rewrite E in F'; exact F').
  assert (RS : result_sign o (to_double f) y = result_sign o f y) by (destruct o; unfold result_sign; rewrite ?Hv, ?Hn; reflexivity).
  rewrite <- ?Hn. inversion H; subst; try (exfalso; apply NI; eexists; eassumption).
  - apply ieee_finite; auto. rewrite <- RS, <- Hv. auto.
  - apply ieee_nan. right. tauto.
  - apply ieee_sum_right with s; auto.
  - eapply ieee_difference_right; eauto.
  - apply ieee_product_zero; auto. right. rewrite <- Hz. tauto.
  - rewrite Hn. apply ieee_product; auto. right. rewrite <- Hz. tauto.
  - apply ieee_quotient_undefined; auto. right. rewrite <- Hz. tauto.
  - rewrite Hn. apply ieee_quotient_infinite; auto. right. rewrite <- Hz. tauto.
  - rewrite Hn. apply ieee_quotient_zero; auto.
Qed.
(** add:, subtract:, multiplyBy:, divideBy: store the IEEE double-precision result converted to single precision. *)
Theorem C42_float_arithmetic : forall srt pw c s line n f o a neg x, sort_contract srt -> reachable srt pw c ->
  statement line n (message_of o) [a] -> lookup c n = Some (IObj (OFloat f)) -> denotes_real a neg x ->
  exists y r g, double neg x y /\ ieee o f y r /\ narrows r g /\ becomes srt pw c s line n (B "null") (IObj (OFloat g)).
Proof.
  intros srt pw c s line n f o a neg x H1 H2 Hs Hl H. destruct (atof_rounds _ _ _ H) as [V D].
  assert (Vf := stored_float _ _ _ _ _ H1 H2 Hl).
  exists (atof a), (d_op o (to_double f) (atof a)), (to_float (d_op o (to_double f) (atof a))).
  split; [exact D|]. split; [apply ieee_widen; auto; apply arith_ieee; auto; now apply to_double_exact|].
  split; [apply to_float_narrows|].
  apply (var_becomes srt pw c s line n _ _ _ H1 H2 Hs Hl (IObj (OFloat (to_float (d_op o (to_double f) (atof a))))) (Ok null)); auto.
  rewrite float_arith_receive. unfold float_arith. mon. rewrite (float_literal _ _ _ H). reflexivity.
Qed.
Theorem C42_other_arguments_are_refused : forall srt pw c s line n f o a, sort_contract srt -> reachable srt pw c ->
  statement line n (message_of o) [a] -> lookup c n = Some (IObj (OFloat f)) -> ~ float_value a ->
  only_answers srt pw c s line ERR_ARGUMENT.
Proof.
  intros srt pw c s line n f o a H1 H2 Hs Hl H. apply (var_answers srt pw c s line n _ _ _ H1 H2 Hs Hl (Throw InvalidArgument)); auto.
  rewrite float_arith_receive. unfold float_arith. mon. rewrite (not_float_literal _ H). reflexivity.
Qed.
(** It never fails, whatever the numbers: division by zero and overflow give infinities or NaN. *)
Theorem C42_never_undefined : forall srt pw c s line n f o a u, sort_contract srt -> reachable srt pw c ->
  statement line n (message_of o) [a] -> lookup c n = Some (IObj (OFloat f)) -> ~ undefined_behaviour srt pw c s line u.
Proof.
  intros srt pw c s line n f o a u H1 H2 Hs Hl Hu.
  destruct (is_float_value a) eqn:E.
  - apply is_float_value_iff, float_value_denotes in E as (neg & x & H).
    destruct (C42_float_arithmetic srt pw c s line n f o a neg x H1 H2 Hs Hl H) as (y & r & g & _ & _ & _ & c' & R & _).
    eapply runs_ub; eauto.
  - assert (N : ~ float_value a) by (intros X; apply is_float_value_iff in X; congruence).
    destruct (C42_other_arguments_are_refused srt pw c s line n f o a H1 H2 Hs Hl N) as (c' & R & _). eapply runs_ub; eauto.
Qed.
(** The IEEE result is unique up to the value and sign it stands for. *)
Theorem C42_ieee_result_is_unique : forall o x y r r', ieee o x y r -> ieee o x y r' ->
  value r = value r' /\ negative r = negative r' /\ (finite r <-> finite r') /\ (nan r <-> nan r') /\ (infinite r <-> infinite r').
Proof.
  assert (U : forall prec emax neg x f g, rounds_to prec emax neg x f -> rounds_to prec emax neg x g ->
    value f = value g /\ negative f = negative g /\ (finite f <-> finite g) /\ (nan f <-> nan g) /\ (infinite f <-> infinite g)).
  { intros prec emax neg x f g [A1 A2] [B1 B2].
    destruct (Rlt_or_le (Rabs (rounded prec emax x)) (powerRZ 2 emax)) as [L|L].
    - destruct (A1 L) as (F1 & E1 & S1), (B1 L) as (F2 & E2 & S2). rewrite E1, E2, S1, S2.
      unfold nan, infinite. destruct f, g; cbn in *; try contradiction; repeat split; auto; try discriminate; intros [t E]; discriminate.
    - rewrite (A2 L), (B2 L). tauto. }
  assert (T : forall f : spec_float, value f = value f /\ negative f = negative f /\ (finite f <-> finite f) /\ (nan f <-> nan f) /\ (infinite f <-> infinite f)) by tauto.
  assert (X : forall f s, f = S754_infinity s -> finite f -> False) by (intros f s -> []).
  assert (X' : forall f s, f = S754_infinity s -> nan f -> False) by (intros f s -> E; discriminate).
  assert (Y : forall f, nan f -> finite f -> False) by (intros f -> []).
  assert (W : forall f, nan f -> infinite f -> False) by (intros f -> [t E]; discriminate).
  assert (W' : forall f, zero f -> nan f -> False) by (intros f Z ->; exact Z).
  assert (Q : forall f, infinite f -> finite f -> False) by (intros f [t ->] []).
  assert (R' : forall f, zero f -> infinite f -> False) by (intros f Hz [t ->]; exact Hz).
  assert (R2 : forall f t, zero f -> f = S754_infinity t -> False) by (intros f t Hz ->; exact Hz).
  intros o x y r r' H H'.
  inversion H; subst; inversion H'; subst; try discriminate; auto;
    try (eapply U; eassumption);
    repeat match goal with
    | h : _ = Divide -> ~ _ |- _ => specialize (h eq_refl)
    | h : S754_infinity ?s = S754_infinity ?t |- _ => inversion h; clear h
    | h : ?a = S754_infinity ?s, k : ?a = S754_infinity ?t |- _ => rewrite h in k; inversion k; subst; clear k
    | h : _ \/ _ |- _ => destruct h | h : _ /\ _ |- _ => destruct h
    end; subst; try discriminate; auto; exfalso; eauto using X, X', Y, W, W', Q, R', R2.
Qed.
Definition one_float : context := set_instances empty_server [(B "x", IObj (OFloat (to_float (atof (B "0.1")))))].
Example C42_ex : reachable insertion_sort [] one_float /\ statement (B "x divideBy: 0;") (B "x") (message_of Divide) [B "0"] /\
  exists c', runs insertion_sort [] one_float None (B "x divideBy: 0;") c' None (B "null") /\ lookup c' (B "x") = Some (IObj (OFloat (S754_infinity false))).
Proof.
  split; [apply (after_reachable _ _ [B "Float create: x withValue: 0.1;"] empty_server); [constructor; vm_compute; reflexivity|vm_compute; reflexivity]|].
  split; [stmt|]. eexists. split; [unfold runs; vm_compute; reflexivity|reflexivity].
Qed.

(** ** C38: settings *)
Theorem C38_setFloatPrecision : forall srt pw c s line a z,
  statement line (B "Context") (B "setFloatPrecision:") [a] -> index_of a z -> 0 < z ->
  exists c', runs srt pw c s line c' s (B "null") /\ float_precision c' = z /\ tolerance c' = tolerance c /\ forall n, lookup c' n = lookup c n.
Proof.
  intros srt pw c s line a z Hs Ha Hz. eexists. split; [eapply (context_changes srt pw c (set_precision c z)); eauto|]; apply index_get in Ha.
  - change (op_setFloatPrecision [a] c = (set_precision c z, Ok null)). unfold op_setFloatPrecision. mon. rewrite Ha.
    replace (z <=? 0) with false by (symmetry; apply Z.leb_gt; lia). reflexivity.
  - split; [now rewrite write_log_precision|]. split; [now rewrite write_log_tolerance|]. intros n. now rewrite write_log_lookup.
Qed.
Theorem C38_setFloatPrecision_refuses : forall srt pw c s line a,
  statement line (B "Context") (B "setFloatPrecision:") [a] ->
  (exists z, index_of a z /\ z <= 0) \/ ~ float_value a -> only_answers srt pw c s line ERR_ARGUMENT.
Proof.
  intros srt pw c s line a Hs H. eapply (context_throws srt pw c s line _ _ InvalidArgument); eauto.
  change (op_setFloatPrecision [a] c = (c, Throw InvalidArgument)). unfold op_setFloatPrecision. mon.
  destruct H as [(z & Ha & Hz)|H].
  - apply index_get in Ha. rewrite Ha. replace (z <=? 0) with true by (symmetry; apply Z.leb_le; lia). reflexivity.
  - unfold integer_of. rewrite (not_float_literal _ H), not_int_literal by (intros X; now apply H, int_is_float). reflexivity.
Qed.
Theorem C38_getFloatPrecision : forall srt pw c s line args,
  statement line (B "Context") (B "getFloatPrecision") args ->
  exists t, only_answers srt pw c s line t /\ prints_int (float_precision c) t.
Proof.
  intros srt pw c s line args Hs. exists (to_string (float_precision c)). split; [|apply to_string_prints].
  eapply context_answers; eauto.
Qed.
Lemma not_below f : f_lt f (S754_zero false) = true <-> below_zero f.
Proof.
  unfold below_zero, f_lt, SFltb. destruct f as [[]|[]| |[] m e]; cbn [SFcompare finite value].
  all: assert (P : forall e', (0 < powerRZ 2 e')%R) by (intros; apply powerRZ_lt; lra).
  all: split; auto; try discriminate; try (intros [[_ X]|X]; (discriminate || lra)).
  - intros _. left. split; auto. assert (IZR (Z.neg m) < 0)%R by (apply IZR_lt; lia). specialize (P e). nra.
  - intros [[_ X]|X]; [|discriminate]. assert (0 < IZR (Z.pos m))%R by (apply IZR_lt; lia). specialize (P e). nra.
Qed.
Theorem C38_setFloatComparisonTolerance : forall srt pw c s line a f,
  statement line (B "Context") (B "setFloatComparisonTolerance:") [a] -> literal_of (B "Float") a (OFloat f) -> ~ below_zero f ->
  exists c', runs srt pw c s line c' s (B "null") /\ tolerance c' = f /\ float_precision c' = float_precision c /\ forall n, lookup c' n = lookup c n.
Proof.
  intros srt pw c s line a f Hs Ha Hf. apply literal_float in Ha as [Ha ->].
  eexists. split; [eapply (context_changes srt pw c (set_tolerance c (to_float (atof a)))); eauto|].
  - change (op_setFloatComparisonTolerance [a] c = (set_tolerance c (to_float (atof a)), Ok null)).
    unfold op_setFloatComparisonTolerance. mon. unfold float_of. apply is_float_value_iff in Ha. rewrite Ha. cbn [negb].
    destruct (f_lt _ _) eqn:X; [apply not_below in X; contradiction|reflexivity].
  - split; [now rewrite write_log_tolerance|]. split; [now rewrite write_log_precision|]. intros n. now rewrite write_log_lookup.
Qed.
Theorem C38_setFloatComparisonTolerance_refuses : forall srt pw c s line a,
  statement line (B "Context") (B "setFloatComparisonTolerance:") [a] ->
  (exists f, literal_of (B "Float") a (OFloat f) /\ below_zero f) \/ ~ float_value a -> only_answers srt pw c s line ERR_ARGUMENT.
Proof.
  intros srt pw c s line a Hs H. eapply (context_throws srt pw c s line _ _ InvalidArgument); eauto.
  change (op_setFloatComparisonTolerance [a] c = (c, Throw InvalidArgument)). unfold op_setFloatComparisonTolerance. mon. unfold float_of.
  destruct H as [(f & Ha & Hz)|H].
  - apply literal_float in Ha as [Ha ->]. apply is_float_value_iff in Ha. rewrite Ha. cbn [negb].
    apply not_below in Hz. rewrite Hz. reflexivity.
  - now rewrite (not_float_literal _ H).
Qed.
Theorem C38_getFloatComparisonTolerance : forall srt pw c s line args,
  statement line (B "Context") (B "getFloatComparisonTolerance") args ->
  exists t, only_answers srt pw c s line t /\ prints_float (places (float_precision c)) (tolerance c) t.
Proof.
  intros srt pw c s line args Hs. exists (fixed_repr (float_precision c) (tolerance c)). split; [|apply fixed_repr_prints].
  eapply context_answers; eauto.
Qed.
(** Nothing else changes the settings. *)
Lemma context_settings srt pw c s line m args c' s' ans :
  statement line (B "Context") m args -> runs srt pw c s line c' s' ans ->
  (m <> B "setFloatPrecision:" -> float_precision c' = float_precision c) /\
  (m <> B "setFloatComparisonTolerance:" -> tolerance c' = tolerance c).
Proof.
  intros Hs Hr. destruct (runs_statement _ _ _ _ _ _ _ _ Hr) as (w1 & r & E & Hu & -> & -> & ->).
  rewrite (run_context srt pw line m args _ Hs) in E. unfold in_ctx in E. cbn [w_ctx w_session] in E.
  rewrite write_log_precision, write_log_tolerance.
  set (P := fun (mo : M context str) => forall c1, c1 = fst (mo c) ->
    (m <> B "setFloatPrecision:" -> float_precision c1 = float_precision c) /\
    (m <> B "setFloatComparisonTolerance:" -> tolerance c1 = tolerance c)).
  assert (Pc : forall mo, const mo -> P mo) by (intros mo Hmo c1 Hc1; specialize (Hmo c); rewrite Hmo in Hc1; subst c1; auto).
  assert (Pw : P (execute_in_context {| p_actor := B "Context"; p_message := m; p_args := args |})).
  { unfold execute_in_context. cbn [p_message p_args]. apply dispatch_cases; [apply Pc, const_throw|].
    repeat apply Forall_cons; try apply Forall_nil; cbn [fst snd]; intros Hm; try solve [apply Pc; const_op]; intros c1 ->.
    - unfold op_deleteVariable. mon. destruct args as [|a [|]]; cbn [length Nat.eqb negb nth_error fst snd]; auto.
      destruct (is_variable a); cbn [negb fst]; auto. destruct (erase_name (instances c) a); cbn [fst]; auto.
    - unfold op_deleteVariablesOfNamespace. mon. destruct args as [|a [|]]; cbn [length Nat.eqb negb nth_error fst snd]; auto.
      destruct (is_namespace a); cbn [negb fst]; auto.
    - unfold op_setFloatPrecision. mon. destruct args as [|a [|]]; cbn [length Nat.eqb negb nth_error fst snd]; auto.
      destruct (integer_of a) as [z|e|u]; cbn [fst]; auto. destruct (z <=? 0); cbn [fst]; auto. split; [intros X; now contradiction X|auto].
    - unfold op_setFloatComparisonTolerance. mon. destruct args as [|a [|]]; cbn [length Nat.eqb negb nth_error fst snd]; auto.
      destruct (float_of a) as [z|e|u]; cbn [fst]; auto. destruct (f_lt z _); cbn [fst]; auto. split; [auto|intros X; now contradiction X]. }
  specialize (Pw _ eq_refl). destruct (execute_in_context _ c) as [c1 r1]. cbn [fst snd] in *. inversion E; subst. exact Pw.
Qed.
Lemma step_settings srt pw c s line c' s' ans : sort_contract srt -> reachable srt pw c -> runs srt pw c s line c' s' ans ->
  ((forall args, ~ statement line (B "Context") (B "setFloatPrecision:") args) -> float_precision c' = float_precision c) /\
  ((forall args, ~ statement line (B "Context") (B "setFloatComparisonTolerance:") args) -> tolerance c' = tolerance c).
Proof.
  intros H1 H2 Hr. destruct (statement_dec line) as [(a & m & args & Hs)|Hn].
  - destruct (statement_actor _ _ _ _ Hs) as [->|[->|[Ht|Hv]]].
    + destruct (connection_statement _ _ _ _ _ _ _ _ _ _ Hs Hr) as [_ [E1 E2]]. auto.
    + destruct (context_settings _ _ _ _ _ _ _ _ _ _ Hs Hr) as [E1 E2]. split; intros X; [apply E1|apply E2]; intros ->; eapply X; eauto.
    + destruct (type_statement _ _ _ _ _ _ _ _ _ _ _ H1 H2 Hs Ht Hr) as (_ & [E1 E2] & _). auto.
    + destruct (variable_statement _ _ _ _ _ _ _ _ _ _ _ H1 H2 Hs Hv Hr) as (_ & [E1 E2] & _). auto.
  - destruct (C26_not_a_statement _ _ _ _ _ _ _ _ Hn Hr) as [[_ [E1 E2]] _]. auto.
Qed.
Lemma undisturbed_reachable srt pw m c c' : reachable srt pw c -> undisturbed srt pw m c c' -> reachable srt pw c'.
Proof. intros Hc. induction 1; auto. eapply reach_step; eauto. Qed.
Theorem C38_precision_survives : forall srt pw c c', sort_contract srt -> reachable srt pw c ->
  undisturbed srt pw (B "setFloatPrecision:") c c' -> float_precision c' = float_precision c.
Proof.
  intros srt pw c c' H1 H2. induction 1 as [|c1 s line c2 s' ans U IH R N]; auto. rewrite <- IH.
  eapply step_settings; eauto. eapply undisturbed_reachable; eauto.
Qed.
Theorem C38_tolerance_survives : forall srt pw c c', sort_contract srt -> reachable srt pw c ->
  undisturbed srt pw (B "setFloatComparisonTolerance:") c c' -> tolerance c' = tolerance c.
Proof.
  intros srt pw c c' H1 H2. induction 1 as [|c1 s line c2 s' ans U IH R N]; auto. rewrite <- IH.
  eapply step_settings; eauto. eapply undisturbed_reachable; eauto.
Qed.
(** getFloatPrecision answers the last accepted precision, whatever else was executed in between. *)
Theorem C38_set_then_get : forall srt pw c s line a z, sort_contract srt -> reachable srt pw c ->
  statement line (B "Context") (B "setFloatPrecision:") [a] -> index_of a z -> 0 < z ->
  exists c', runs srt pw c s line c' s (B "null") /\
    forall c'' s2 line2 args2, undisturbed srt pw (B "setFloatPrecision:") c' c'' ->
      statement line2 (B "Context") (B "getFloatPrecision") args2 ->
      exists t, only_answers srt pw c'' s2 line2 t /\ prints_int z t.
Proof.
  intros srt pw c s line a z H1 H2 Hs Ha Hz. destruct (C38_setFloatPrecision srt pw c s line a z Hs Ha Hz) as (c' & R & E & _).
  exists c'. split; [exact R|]. intros c'' s2 line2 args2 U Hs2.
  assert (P := C38_precision_survives srt pw c' c'' H1 ltac:(eapply reach_step; eauto) U).
  destruct (C38_getFloatPrecision srt pw c'' s2 line2 args2 Hs2) as (t & A & T). exists t. split; auto. now rewrite P, E in T.
Qed.
Example C38_ex : statement (B "Context setFloatPrecision: 7;") (B "Context") (B "setFloatPrecision:") [B "7"] /\ index_of (B "7") 7 /\
  statement (B "Context setFloatComparisonTolerance: -0.5;") (B "Context") (B "setFloatComparisonTolerance:") [B "-0.5"] /\
  exists f, literal_of (B "Float") (B "-0.5") (OFloat f) /\ below_zero f.
Proof.
  split; [stmt|]. split; [ex_lit|]. split; [stmt|]. eexists. split; [ex_lit|]. apply not_below. reflexivity.
Qed.

Print Assumptions C12_rounded_is_nearest.
Print Assumptions C12_set.
Print Assumptions C12_create.
Print Assumptions C42_float_arithmetic.
Print Assumptions C42_ieee_result_is_unique.
Print Assumptions C38_setFloatPrecision.
Print Assumptions C38_setFloatComparisonTolerance.
Print Assumptions C38_set_then_get.
Print Assumptions C38_tolerance_survives.
