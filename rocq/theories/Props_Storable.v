(** C57: exactly which values variables can hold. *)
From Coq Require Import ZArith Reals Psatz.
From Verif Require Import Bytes StrUtils Grammar Outcome Parser Num Containers Instance Context Platform.
From Verif Require Import Lemmas StringLit Proof_Grammar Proof_Parser Proof_Exec WP Proof_Inv Proof_Literal Proof_Receive Proof_Context Proof_Names Api Proof_Text.
From Verif Require Import Proof_Number Proof_Float Proof_Order Proof_Literal Proof_Storable.
From Verif Require Import Props_Language Props_Text Props_State Props_Number Props_Float Props_Order Props_Set Props_Object.
From Verif Require Import Spec_Grammar Spec_State Spec_Names Spec_Text Spec_Number Spec_Float Spec_Order Spec_Vector Spec_String Spec_Set Spec_Object Spec_Local Spec_Storable.
Import ListNotations.
Open Scope Z_scope.
Open Scope list_scope.

(** Exactly which values have a literal on one line. *)
Theorem C57_literals : forall t x, (exists a, one_line a /\ literal_of t a x) <-> has_type t x /\ writable x.
Proof. exact writable_iff. Qed.
Print Assumptions C57_literals.

(** Every storable value can be given to a free name, without disturbing anything else. *)
Theorem C57_every_storable_value : forall srt pw c s n i, sort_contract srt -> reachable srt pw c -> variable n -> ~ live c n -> storable i ->
  (ordered_by_tolerance i -> zero_tolerance c) -> attainable srt pw c s n i.
Proof. intros srt pw c s n i H1 R Hn F H Z. now apply attain_storable. Qed.
Print Assumptions C57_every_storable_value.

(** No other value is ever held. *)
Theorem C57_only_storable_values : forall srt pw c n i, sort_contract srt -> reachable_by_lines srt pw c -> lookup c n = Some i -> storable i.
Proof.
  intros srt pw c n i H1 H2 L. assert (R := lines_reachable _ _ _ H2).
  destruct (ctx_good_lookup true c n i (lines_good srt pw c H1 H2) L) as [_ G].
  destruct i as [x|t v|t v|kt vt d]; cbn [inst_good storable] in *.
  - now apply good_holdable.
  - destruct G as [T G]. split; auto. eapply Forall_impl; [|exact G]. apply good_writable.
  - destruct G as [T G]. split; auto. split; [eapply Forall_impl; [|exact G]; apply good_writable|].
    eapply C23_never_the_same_element_twice; eauto.
  - destruct G as (T & T' & G). split; auto. split; auto. split; [|eapply C23_never_the_same_key_twice; eauto].
    eapply Forall_impl; [|exact G]. intros p [A B]. split; now apply good_writable.
Qed.
Print Assumptions C57_only_storable_values.

(** Setting the tolerance and the precision. *)
Lemma set_tolerance srt pw c s f : single_precision f -> ~ nan f -> ~ below_zero f ->
  exists line c', one_line line /\ runs srt pw c s line c' s (B "null") /\ tolerance c' = f /\ float_precision c' = float_precision c /\ forall n, lookup c' n = lookup c n.
Proof.
  intros V N P. destruct (float_literal_exists f V N) as (a & Ha & La). assert (Aa := literal_argument _ _ _ La).
  destruct (C38_setFloatComparisonTolerance srt pw c s (line1 (B "Context") (B "setFloatComparisonTolerance:") a) a f) as (c' & K); auto.
  - apply line1_statement; auto; [right; now left|apply tokens; reflexivity].
  - exists (line1 (B "Context") (B "setFloatComparisonTolerance:") a), c'. split; [|tauto].
    apply line1_clean; auto; apply clean_line, clean_lit; reflexivity.
Qed.
Lemma set_precision srt pw c s z : 0 < z -> fits z ->
  exists line c', one_line line /\ runs srt pw c s line c' s (B "null") /\ float_precision c' = z /\ tolerance c' = tolerance c /\ forall n, lookup c' n = lookup c n.
Proof.
  intros P F. destruct (proj2 (C57_literals (B "Integer") (OInt z)) (conj eq_refl F)) as (a & Ha & La). assert (Aa := literal_argument _ _ _ La).
  destruct (C38_setFloatPrecision srt pw c s (line1 (B "Context") (B "setFloatPrecision:") a) a z) as (c' & K); auto.
  - apply line1_statement; auto; [right; now left|apply tokens; reflexivity].
  - exists (line1 (B "Context") (B "setFloatPrecision:") a), c'. split; [|tauto].
    apply line1_clean; auto; apply clean_line, clean_lit; reflexivity.
Qed.
Lemma fill srt pw s table : forall c, sort_contract srt -> reachable srt pw c -> zero_tolerance c -> (forall n, lookup c n = None) ->
  NoDup (map fst table) -> Forall (fun e => variable (fst e) /\ storable (snd e)) table ->
  exists lines answers c', Forall one_line lines /\ executes srt pw c s lines c' s answers /\ Forall (fun a => a = B "null") answers /\
    zero_tolerance c' /\ (forall n, lookup c' n = assoc table n).
Proof.
  induction table as [|[n i] table IH]; intros c H1 R Z E ND Hs.
  - exists [], [], c. repeat split; auto; try apply Z. constructor.
  - inversion ND as [|? ? Nn ND']; subst. inversion Hs as [|? ? [Vn Si] Hs']; subst. cbn [fst snd] in *.
    destruct (IH c H1 R Z E ND' Hs') as (lines & answers & c1 & Hl & He & Ha & Z1 & L1).
    assert (R1 := executes_reachable _ _ _ _ _ _ _ _ R He).
    assert (An : assoc table n = None).
    { clear -Nn. induction table as [|[k v] t IHt]; cbn [assoc]; auto. cbn [map fst In] in Nn. destruct (bytes_dec k n); [tauto|]. apply IHt. tauto. }
    destruct (C57_every_storable_value srt pw c1 s n i H1 R1 Vn) as (lines2 & answers2 & c2 & Hl2 & He2 & Ha2 & L2 & O2 & S2); auto.
    { unfold live. rewrite L1, An. congruence. }
    exists (lines ++ lines2), (answers ++ answers2), c2. repeat split.
    + now apply Forall_app.
    + eapply executes_app; eauto.
    + now apply Forall_app.
    + destruct S2 as [_ ->]. apply Z1.
    + destruct S2 as [_ ->]. apply Z1.
    + intros m. cbn [assoc]. destruct (bytes_dec n m) as [<-|Hm]; auto. rewrite O2; auto.
Qed.
(** Every finite table of variables with storable values, with every setting of precision and tolerance, can be made on a server without
    variables. *)
Theorem C57_every_state : forall srt pw c s table p tol, sort_contract srt -> reachable srt pw c -> (forall n, ~ live c n) ->
  NoDup (map fst table) -> Forall (fun e => variable (fst e) /\ storable (snd e)) table ->
  0 < p -> fits p -> single_precision tol -> ~ nan tol -> ~ below_zero tol ->
  exists lines answers c', Forall one_line lines /\ executes srt pw c s lines c' s answers /\ Forall (fun a => a = B "null") answers /\
    (forall n, lookup c' n = assoc table n) /\ float_precision c' = p /\ tolerance c' = tol.
Proof.
  intros srt pw c s table p tol H1 R E ND Ht Hp Fp Vt Nt Pt.
  destruct (set_tolerance srt pw c s (S754_zero false)) as (l1 & c1 & O1 & R1 & T1 & _ & L1); [reflexivity|discriminate| |].
  { intros [[_ X]|X]; [cbn in X; lra|discriminate]. }
  assert (Re1 : reachable srt pw c1) by (eapply reach_step; [exact R|exact R1]).
  destruct (fill srt pw s table c1 H1 Re1) as (lines & answers & c2 & Hl & He & Ha & _ & L2); auto.
  { unfold zero_tolerance. rewrite T1. split; [exact I|reflexivity]. }
  { intros n. rewrite L1. assert (K := E n). unfold live in K. destruct (lookup c n); auto. exfalso. apply K. discriminate. }
  destruct (set_tolerance srt pw c2 s tol Vt Nt Pt) as (l3 & c3 & O3 & R3 & T3 & _ & L3).
  destruct (set_precision srt pw c3 s p Hp Fp) as (l4 & c4 & O4 & R4 & P4 & T4 & L4).
  exists ([l1] ++ lines ++ [l3; l4]), ([B "null"] ++ answers ++ [B "null"; B "null"]), c4. repeat split.
  - repeat (apply Forall_app; split; auto).
  - eapply executes_app; [econstructor; [exact R1|constructor]|]. eapply executes_app; [exact He|].
    econstructor; [exact R3|]. econstructor; [exact R4|constructor].
  - repeat (apply Forall_app; split; auto).
  - intros n. now rewrite L4, L3, L2.
  - exact P4.
  - now rewrite T4, T3.
Qed.
Print Assumptions C57_every_state.
Lemma executes_lines srt pw c s lines c' s' answers : reachable_by_lines srt pw c -> Forall one_line lines -> executes srt pw c s lines c' s' answers ->
  reachable_by_lines srt pw c'.
Proof.
  intros R H K. induction K as [|c s line c1 s1 ans lines c2 s2 answers K1 K2 IH]; auto. inversion H as [|? ? O1 O2]; subst. apply IH; auto.
  eapply line_step; [exact O1|exact R|exact K1].
Qed.
(** Together: what some variable can hold in some history of the server. *)
Theorem C57_exactly : forall srt pw n i, sort_contract srt ->
  ((exists c, reachable_by_lines srt pw c /\ lookup c n = Some i) <-> variable n /\ storable i).
Proof.
  intros srt pw n i H1. split.
  - intros (c & R & L). split; [|eapply C57_only_storable_values; eauto]. eapply ctx_good_lookup; [|exact L]. eapply lines_good; eauto.
  - intros [V S]. set (c0 := new_context false 3 (to_float (S754_zero false)) false).
    assert (R0 : reachable_by_lines srt pw c0) by (constructor; reflexivity).
    destruct (C57_every_state srt pw c0 None [(n, i)] 3 (S754_zero false) H1) as (lines & answers & c' & Hl & He & _ & L & _).
    + constructor; reflexivity.
    + intros m. unfold live. cbn. congruence.
    + cbn. constructor; [intros []|constructor].
    + constructor; auto.
    + reflexivity.
    + unfold fits. lia.
    + reflexivity.
    + discriminate.
    + intros [[_ X]|X]; [cbn in X; lra|discriminate].
    + exists c'. split; [eapply executes_lines; eauto|]. rewrite L. cbn [assoc]. destruct (bytes_dec n n); congruence.
Qed.
Print Assumptions C57_exactly.
(** A variable can hold a single backslash or a NaN, a vector cannot; a set cannot hold both zeros. *)
Example C57_ex : storable (IObj (OStr (B "\"))) /\ storable (IObj (OFloat S754_nan)) /\
  storable (ISet (B "Float") [OFloat (S754_infinity true); OFloat (S754_zero true); OFloat (S754_finite false 8388608 (-23))]) /\
  storable (IDict (B "Boolean") (B "String") [(OBool false, OStr (B "a""b")); (OBool true, OStr [])]) /\
  ~ storable (IVector (B "String") [OStr (B "\")]) /\ ~ storable (IVector (B "Float") [OFloat S754_nan]) /\
  ~ storable (ISet (B "Float") [OFloat (S754_zero true); OFloat (S754_zero false)]) /\ ~ storable (IVector (B "Integer") [OBool true]).
Proof.
  assert (Q : forall v, is_string_value (printed_string v) = true -> even_backslashes v) by (intros v H; apply printed_is_literal; now apply is_string_value_iff).
  split; [cbn; intuition discriminate|]. split; [reflexivity|]. split; [|split; [|split; [|split; [|split]]]].
  - split; [do 3 right; now left|]. split.
    + repeat constructor; discriminate.
    + repeat constructor; apply less_opt_before; try reflexivity; discriminate.
  - split; [now left|]. split; [do 4 right; reflexivity|]. split.
    + apply Forall_cons; [|apply Forall_cons; [|constructor]]; (split; [split; [reflexivity|exact I]|]; split; [reflexivity|]; split;
        [cbn; intuition discriminate|apply Q; reflexivity]).
    + repeat constructor; cbn; auto.
  - intros [_ H]. destruct (Forall_inv H) as [_ K]. cbn [writable] in K. destruct K as [_ K]. apply printed_is_literal in K. apply is_string_value_iff in K. discriminate.
  - intros [_ H]. destruct (Forall_inv H) as [_ K]. cbn [writable] in K. destruct K as [_ K]. now apply K.
  - intros (_ & _ & H). inversion H as [|? ? _ K]; subst. inversion K as [|? ? L _]; subst. cbn [before extended_of below value] in L.
    replace (0 - 0)%R with 0%R in L by ring. change (rounded 24 128 0) with (rnd32 0) in L. rewrite rnd32_0 in L. lra.
  - intros [_ H]. destruct (Forall_inv H) as [K _]. discriminate.
Qed.
