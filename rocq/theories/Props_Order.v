(** Properties C13-C17: comparisons and sorting.  Specification: [Spec_Order]; model: [Num], [Containers], [Instance]. *)
From Coq Require Import ZArith Reals Psatz QArith Qpower Qabs Qreals Sorting.Sorted Sorting.Permutation.
From Flocq Require Import Core Plus_error.
From Verif Require Import Bytes StrUtils Grammar Outcome Parser Num Containers Instance Context Platform.
From Verif Require Import Lemmas StringLit Proof_Grammar Proof_Parser Proof_Exec WP Proof_Inv Proof_Literal Proof_Receive Proof_Context Proof_Names Api Proof_Text.
From Verif Require Import Proof_Number Proof_Float Proof_Arith Proof_Order Props_Text Props_State Props_Number Props_Float.
From Verif Require Import Spec_Grammar Spec_State Spec_Names Spec_Text Spec_Number Spec_Float Spec_Order.
Open Scope Z_scope.
Open Scope list_scope.

(** ** The tolerance is always a single-precision number *)
Lemma reachable_tolerance srt pw c : sort_contract srt -> reachable srt pw c -> V32 (tolerance c).
Proof.
  intros Hsrt. induction 1 as [o p d q|c s line c' s' ans Hc IH R]; [assumption|].
  destruct (statement_dec line) as [(a & m & args & Hs)|Hn].
  2:{ destruct (C26_not_a_statement _ _ _ _ _ _ _ _ Hn R) as [[_ [_ E]] _]. now rewrite E. }
  destruct (bytes_dec a (B "Context")) as [->|Ha].
  2:{ rewrite (proj2 (step_settings _ _ _ _ _ _ _ _ Hsrt Hc R)); auto. intros args' Hs'. apply Ha. now destruct (statement_unique _ _ _ _ _ _ _ Hs Hs'). }
  destruct (bytes_dec m (B "setFloatComparisonTolerance:")) as [->|Hm].
  2:{ rewrite (proj2 (step_settings _ _ _ _ _ _ _ _ Hsrt Hc R)); auto. intros args' Hs'. apply Hm. now destruct (statement_unique _ _ _ _ _ _ _ Hs Hs'). }
  assert (L : length args = 1%nat) by (eapply args_len; eauto). apply len1 in L as [l ->].
  destruct (is_float_value l) eqn:F.
  - apply is_float_value_iff in F. assert (Rd : literal_of (B "Float") l (OFloat (to_float (atof l)))) by (apply literal_float; auto).
    destruct (f_lt (to_float (atof l)) (S754_zero false)) eqn:Z.
    + apply not_below in Z. destruct (C38_setFloatComparisonTolerance_refuses srt pw c s line l Hs) as (c2 & R2 & _ & _ & E); [left; eauto|].
      destruct (runs_unique _ _ _ _ _ _ _ _ _ _ _ R R2) as [<- _]. now rewrite E.
    + assert (N : ~ below_zero (to_float (atof l))) by (intros X; apply not_below in X; congruence).
      destruct (C38_setFloatComparisonTolerance srt pw c s line l _ Hs Rd N) as (c2 & R2 & E & _).
      destruct (runs_unique _ _ _ _ _ _ _ _ _ _ _ R R2) as [<- _]. rewrite E. apply to_float_narrows.
  - destruct (C38_setFloatComparisonTolerance_refuses srt pw c s line l Hs) as (c2 & R2 & _ & _ & E).
    { right. intros X. apply is_float_value_iff in X. congruence. }
    destruct (runs_unique _ _ _ _ _ _ _ _ _ _ _ R R2) as [<- _]. now rewrite E.
Qed.

(** ** C13: comparisons *)
Lemma reads_sound t a x : object_type t -> literal_of t a x -> has_type t x /\ sound x /\ from_literal x.
Proof.
  intros Ht H. assert (X := get_shared_instance_cases false t a Ht (clean_false _)). apply literal_get in H. rewrite H in X.
  destruct X as (X1 & X2 & X3). eauto using obj_clean_sound.
Qed.
Lemma ordered_object t : ordered_type t -> object_type t.
Proof. intros [->|[->|[->| ->]]]; apply is_object_type_iff; reflexivity. Qed.
Lemma stored_sound srt pw c n a : sort_contract srt -> reachable srt pw c -> lookup c n = Some (IObj a) -> sound a.
Proof.
  intros H1 H2 Hl. assert (G := reachable_good srt pw c H1 H2). destruct (ctx_good_lookup _ _ _ _ G Hl) as [_ Hi].
  exact (obj_clean_sound false a Hi).
Qed.
Lemma operand_sound t l x : ordered_type t -> operand t l x -> sound x.
Proof.
  intros Ht [[_ H]|[(_ & _ & H)|(_ & _ & H)]].
  - now apply (reads_sound t l) in H; [|now apply ordered_object].
  - apply reads_sound in H; [tauto|apply is_object_type_iff; reflexivity].
  - apply reads_sound in H; [tauto|apply is_object_type_iff; reflexivity].
Qed.
Lemma operand_comparable t l a x : ordered_type t -> has_type t a -> operand t l x -> comparable a x.
Proof.
  intros Ht Ha H. assert (Ho := ordered_object t Ht). destruct H as [[_ H]|[(-> & _ & H)|(-> & _ & H)]].
  - apply reads_sound in H as (H & _); auto. eapply same_type_comparable; eauto.
  - apply reads_sound in H as (H & _); auto. eapply same_type_comparable; eauto.
  - apply reads_sound in H as (H & _); [|apply is_object_type_iff; reflexivity].
    destruct a; cbn in Ha; try discriminate. destruct x; cbn in H; try discriminate. exact I.
Qed.
(** What a comparison message does. *)
Lemma compare_receive E t q a l x : ordered_type t -> has_type t a -> operand t l x ->
  receive E (IObj a) (asks t q) [l] = (IObj a, match cmp_of q (e_tolerance E) a x with Ok b => Ok (btext b) | Throw e => Throw e | UB u => UB u end).
Proof.
  intros Ht Ha H.
  assert (R : forall t' y, literal_of t' l y -> get_shared_instance t' l = Ok y) by (intros t' y; apply literal_get).
  destruct Ht as [->|[->|[->| ->]]]; destruct a as [a|a|a|a|a]; cbn [has_type] in Ha; try discriminate; clear Ha.
  - destruct H as [[_ H]|[(X & _)|(X & _)]]; try discriminate X. apply R in H.
    change (get_shared_instance (B "Character") l) with (let! z := character_of l in Ok (OChar z)) in H.
    assert (G : receive E (IObj (OChar a)) (asks (B "Character") q) [l] = on (fun c => IObj (OChar c)) (character_compare (cmp_of q (e_tolerance E)) [l] a)) by (destruct q; reflexivity).
    rewrite G. unfold character_compare. mon. unfold character_of in *. destruct (is_character_value l); cbn [negb rbind] in *; [|discriminate].
    destruct (str_at l 1) as [z|e|u]; try discriminate. inversion H; subst x. unfold on. cbn [fst snd]. now destruct (cmp_of q _ _ _).
  - destruct H as [[X _]|[(_ & Hi & H)|(_ & Hi & H)]]; [now contradiction X| |]; apply R in H.
    + change (get_shared_instance (B "Integer") l) with (let! z := integer_of l in Ok (OInt z)) in H. apply is_integer_value_iff in Hi.
      assert (G : receive E (IObj (OInt a)) (asks (B "Integer") q) [l] = on (fun c => IObj (OInt c)) (integer_compare (cmp_of q (e_tolerance E)) [l] a)) by (destruct q; reflexivity).
      rewrite G. unfold integer_compare. mon. rewrite Hi. cbn [negb andb].
      destruct (integer_of l) as [z|e|u]; try discriminate. inversion H; subst x. unfold on. cbn [fst snd]. now destruct (cmp_of q _ _ _).
    + change (get_shared_instance (B "Float") l) with (let! z := float_of l in Ok (OFloat z)) in H. apply not_int_literal in Hi.
      assert (G : receive E (IObj (OInt a)) (asks (B "Integer") q) [l] = on (fun c => IObj (OInt c)) (integer_compare (cmp_of q (e_tolerance E)) [l] a)) by (destruct q; reflexivity).
      rewrite G. unfold integer_compare. mon. unfold float_of in *. rewrite Hi. destruct (is_float_value l); cbn [negb andb rbind] in *; [|discriminate].
      inversion H; subst x. unfold on. cbn [fst snd]. now destruct (cmp_of q _ _ _).
  - destruct H as [[_ H]|[(X & _)|(X & _)]]; try discriminate X. apply R in H.
    change (get_shared_instance (B "Float") l) with (let! z := float_of l in Ok (OFloat z)) in H.
    assert (G : receive E (IObj (OFloat a)) (asks (B "Float") q) [l] = on (fun c => IObj (OFloat c)) (float_compare (cmp_of q (e_tolerance E)) [l] a)) by (destruct q; reflexivity).
    rewrite G. unfold float_compare. mon. unfold float_of in *. destruct (is_float_value l); cbn [negb rbind] in *; [|discriminate].
    inversion H; subst x. unfold on. cbn [fst snd]. now destruct (cmp_of q _ _ _).
  - destruct H as [[_ H]|[(X & _)|(X & _)]]; try discriminate X. apply R in H.
    change (get_shared_instance (B "String") l) with (let! z := string_of l in Ok (OStr z)) in H.
    assert (G : receive E (IObj (OStr a)) (asks (B "String") q) [l] = on (fun c => IObj (OStr c)) (string_compare (cmp_of q (e_tolerance E)) [l] a)) by (destruct q; reflexivity).
    rewrite G. unfold string_compare. mon. unfold string_of in *. destruct (is_string_value l); cbn [negb rbind] in *; [|discriminate].
    destruct (unquote l) as [z|e|u]; try discriminate. inversion H; subst x. unfold on. cbn [fst snd]. now destruct (cmp_of q _ _ _).
Qed.
(** Non-Float values compare in the same way whatever the tolerance. *)
Lemma cmp_plain q tol tol' a b : plain a -> plain b -> cmp_of q tol a b = cmp_of q tol' a b.
Proof.
  intros Ha Hb.
  assert (L : is_less_than tol a b = is_less_than tol' a b) by (destruct a, b; cbn in Ha, Hb; easy).
  assert (G : is_greater_than tol a b = is_greater_than tol' a b) by (destruct a, b; cbn in Ha, Hb; easy).
  destruct q; cbn [cmp_of]; auto; unfold is_less_than_or_equal_to, is_greater_than_or_equal_to, is_equal_to; now rewrite ?L, ?G.
Qed.
Lemma before_plain tol tol' a b : plain a -> plain b -> before tol a b -> before tol' a b.
Proof. destruct a, b; cbn; easy. Qed.
Lemma relates_plain tol tol' a b r : plain a -> plain b -> relates tol a b r -> relates tol' a b r.
Proof.
  intros Ha Hb. destruct r; cbn; try (apply before_plain; auto). intros [H1 H2].
  split; intros X; [apply H1|apply H2]; revert X; now apply before_plain.
Qed.
Notation zero32 := (S754_zero false).
Lemma nonneg_zero : nonneg zero32.
Proof. intros [[_ H]|H]; [cbn in H; lra|discriminate]. Qed.
Lemma cmp_right' q tol a b r : V32 tol -> nonneg tol \/ (plain a /\ plain b) -> sound a -> sound b -> comparable a b ->
  relates tol a b r -> cmp_of q tol a b = Ok (right_answer q r).
Proof.
  intros V [N|[Pa Pb]] Ha Hb Hc Hr; [now apply cmp_right|].
  rewrite (cmp_plain q tol zero32) by auto. apply cmp_right; auto using nonneg_zero. now apply (relates_plain tol).
Qed.
Lemma relates_exists' tol a b : V32 tol -> nonneg tol \/ (plain a /\ plain b) -> sound a -> sound b -> exists r, relates tol a b r.
Proof.
  intros V [N|[Pa Pb]] Ha Hb; [now apply relates_exists|].
  destruct (relates_exists zero32 eq_refl a b Ha Hb) as [r Hr]. exists r. now apply (relates_plain zero32).
Qed.
Lemma relates_unique' tol a b r r' : nonneg tol \/ (plain a /\ plain b) -> relates tol a b r -> relates tol a b r' -> r = r'.
Proof.
  intros [N|[Pa Pb]] H H'; [eapply relates_unique; eauto|].
  apply (relates_unique zero32 nonneg_zero a b); apply (relates_plain tol); auto.
Qed.
(** The value [a] of a variable and the value [b] of the argument relate in exactly one way, and each of the five messages
    gives the answer that is right for it. *)
Theorem C13_comparisons : forall srt pw c n t a l b, sort_contract srt -> reachable srt pw c -> ordered_type t -> has_type t a ->
  lookup c n = Some (IObj a) -> operand t l b -> ~ below_zero (tolerance c) \/ (plain a /\ plain b) ->
  exists r, relates (tolerance c) a b r /\ (forall r', relates (tolerance c) a b r' -> r' = r) /\
    forall q s line, statement line n (asks t q) [l] -> only_answers srt pw c s line (truth (right_answer q r)).
Proof.
  intros srt pw c n t a l b H1 H2 Ht Ha Hl Ho Hn. assert (V := reachable_tolerance srt pw c H1 H2).
  assert (Sa := stored_sound _ _ _ _ _ H1 H2 Hl). assert (Sb := operand_sound _ _ _ Ht Ho). assert (Hc := operand_comparable _ _ _ _ Ht Ha Ho).
  destruct (relates_exists' _ a b V Hn Sa Sb) as [r Hr]. exists r. split; [exact Hr|]. split; [intros r' Hr'; eapply relates_unique'; eauto|].
  intros q s line Hs. apply (var_answers srt pw c s line n _ _ _ H1 H2 Hs Hl (Ok (btext (right_answer q r)))); auto.
  rewrite (compare_receive _ t q a l b Ht Ha Ho). cbn [e_tolerance env_of]. now rewrite (cmp_right' q _ a b r).
Qed.
(** For any tolerance, negative ones included. *)
Lemma cmp_holds q tol a b : V32 tol -> sound a -> sound b -> comparable a b -> exists r, cmp_of q tol a b = Ok r /\ (r = true <-> holds tol q a b).
Proof.
  intros V Ha Hb Hc. assert (Hc' := comparable_sym _ _ Hc).
  assert (L := less_before tol a b V Ha Hb). assert (G := less_before tol b a V Hb Ha).
  destruct (is_less_than_total tol a b Hc) as [l El]. destruct (is_less_than_total tol b a Hc') as [g Eg]. rewrite El in L. rewrite Eg in G.
  assert (Lb : l = true <-> before tol a b) by (rewrite <- L; split; congruence). assert (Gb : g = true <-> before tol b a) by (rewrite <- G; split; congruence).
  clear L G. destruct q; cbn [cmp_of holds relates]; unfold is_less_than_or_equal_to, is_greater_than_or_equal_to, is_equal_to; rewrite ?greater_less, ?El, ?Eg; cbn [rbind];
    destruct l, g; cbn [negb rbind]; eexists; (split; [reflexivity|]); intuition (discriminate || auto).
Qed.
Theorem C13_any_tolerance : forall srt pw c s line n t a l b q, sort_contract srt -> reachable srt pw c -> ordered_type t -> has_type t a ->
  lookup c n = Some (IObj a) -> operand t l b -> statement line n (asks t q) [l] ->
  exists r, only_answers srt pw c s line (truth r) /\ (r = true <-> holds (tolerance c) q a b).
Proof.
  intros srt pw c s line n t a l b q H1 H2 Ht Ha Hl Ho Hs. assert (V := reachable_tolerance srt pw c H1 H2).
  assert (Sa := stored_sound _ _ _ _ _ H1 H2 Hl). assert (Sb := operand_sound _ _ _ Ht Ho). assert (Hc := operand_comparable _ _ _ _ Ht Ha Ho).
  destruct (cmp_holds q _ a b V Sa Sb Hc) as (r & E & I). exists r. split; [|exact I].
  apply (var_answers srt pw c s line n _ _ _ H1 H2 Hs Hl (Ok (btext r))); auto.
  rewrite (compare_receive _ t q a l b Ht Ha Ho). cbn [e_tolerance env_of]. now rewrite E.
Qed.
(** Spelled out: exactly one of less, equal, greater; the other two messages are negations. *)
Theorem C13_trichotomy : forall srt pw c n t a l b, sort_contract srt -> reachable srt pw c -> ordered_type t -> has_type t a ->
  lookup c n = Some (IObj a) -> operand t l b -> ~ below_zero (tolerance c) \/ (plain a /\ plain b) ->
  exists less equal greater : bool,
    (forall q s line, statement line n (asks t q) [l] -> only_answers srt pw c s line (truth
       match q with
       | IsLess => less | IsEqual => equal | IsGreater => greater
       | IsLessOrEqual => negb greater | IsGreaterOrEqual => negb less
       end)) /\
    ((less = true /\ equal = false /\ greater = false) \/ (less = false /\ equal = true /\ greater = false) \/
     (less = false /\ equal = false /\ greater = true)).
Proof.
  intros. destruct (C13_comparisons srt pw c n t a l b) as (r & _ & _ & H'); auto.
  exists (right_answer IsLess r), (right_answer IsEqual r), (right_answer IsGreater r). split; [|destruct r; auto].
  intros q s line Hs. specialize (H' q s line Hs). now destruct q, r.
Qed.
(** Swapping the operands swaps less and greater. *)
Lemma right_swapped q r : right_answer (swapped q) (CompOpp r) = right_answer q r.
Proof. now destruct q, r. Qed.
Theorem C13_swap : forall srt pw c n m t a b la lb, sort_contract srt -> reachable srt pw c -> ordered_type t ->
  has_type t a -> has_type t b -> lookup c n = Some (IObj a) -> lookup c m = Some (IObj b) -> operand t la a -> operand t lb b ->
  ~ below_zero (tolerance c) \/ (plain a /\ plain b) ->
  forall q, exists answer, (forall s line, statement line n (asks t q) [lb] -> only_answers srt pw c s line answer) /\
    (forall s line, statement line m (asks t (swapped q)) [la] -> only_answers srt pw c s line answer).
Proof.
  intros srt pw c n m t a b la lb H1 H2 Ht Ha Hb La Lb Oa Ob Hn q.
  destruct (C13_comparisons srt pw c n t a lb b) as (r & R & _ & A); auto.
  destruct (C13_comparisons srt pw c m t b la a) as (r' & R' & _ & A'); auto; [tauto|].
  apply (relates_swap (tolerance c)) in R. assert (E : r' = CompOpp r) by (eapply relates_unique' with (a := b); eauto; tauto). subst r'.
  exists (truth (right_answer q r)). split; intros s line Hs; [now apply A|]. rewrite <- right_swapped. now apply A'.
Qed.
(** The same between an Integer and a Float. *)
Lemma int_float_extended l z : denotes_int l z -> fits z -> extended_of (to_float (atof l)) = Real (rounded 24 128 (IZR z)).
Proof.
  intros H Hf. apply in_int_fits in Hf. apply int_denotes_real in H as (neg & H & _).
  destruct (atof_rounds _ _ _ H) as [V D]. assert (A := in_int_abs _ Hf).
  apply (rounds_exact 53 1024) in D; [|apply IZR_format; lia|apply IZR_bound; lia]. destruct D as (F & Ev & _).
  destruct (to_float_narrows (atof l)) as [_ N]. destruct (atof l) as [s|s| |s m e]; try contradiction.
  - cbn [to_float extended_of]. cbn [value] in Ev. rewrite <- Ev, rnd32_0. reflexivity.
  - cbn [narrows] in N. rewrite Ev in N. destruct N as [N _]. destruct (N (rnd32_int z Hf)) as (F' & E' & _).
    now rewrite (finite_extended _ F'), E'.
Qed.
Theorem C13_swap_mixed : forall srt pw c n m z f li lf, sort_contract srt -> reachable srt pw c ->
  lookup c n = Some (IObj (OInt z)) -> lookup c m = Some (IObj (OFloat f)) ->
  denotes_int li z -> ~ integer_value lf -> literal_of (B "Float") lf (OFloat f) -> ~ below_zero (tolerance c) ->
  forall q, exists answer, (forall s line, statement line n (asks (B "Integer") q) [lf] -> only_answers srt pw c s line answer) /\
    (forall s line, statement line m (asks (B "Float") (swapped q)) [li] -> only_answers srt pw c s line answer).
Proof.
  intros srt pw c n m z f li lf H1 H2 Ln Lm Hi Hni Hf Hn q.
  assert (Iz := stored_int _ _ _ _ _ H1 H2 Ln).
  assert (Oi : operand (B "Float") li (OFloat (to_float (atof li)))).
  { left. split; [discriminate|]. apply literal_float. split; auto. apply int_is_float. apply integer_value_denotes. eauto. }
  destruct (C13_comparisons srt pw c n (B "Integer") (OInt z) lf (OFloat f)) as (r & R & _ & A); auto;
    [right; now left|reflexivity|right; right; auto|].
  destruct (C13_comparisons srt pw c m (B "Float") (OFloat f) li (OFloat (to_float (atof li)))) as (r' & R' & _ & A'); auto;
    [right; right; now left|reflexivity|].
  apply (relates_swap (tolerance c)) in R.
  assert (X : relates (tolerance c) (OFloat f) (OFloat (to_float (atof li))) (CompOpp r)).
  { assert (Y : forall r0, relates (tolerance c) (OFloat f) (OInt z) r0 -> relates (tolerance c) (OFloat f) (OFloat (to_float (atof li))) r0).
    { intros r0. destruct r0; cbn [relates before]; rewrite (int_float_extended li z) by (auto; now apply in_int_fits); auto. }
    now apply Y. }
  assert (E : r' = CompOpp r) by (eapply relates_unique' with (a := OFloat f); eauto). subst r'.
  exists (truth (right_answer q r)). split; intros s line Hs; [now apply A|]. rewrite <- right_swapped. now apply A'.
Qed.
(** Anything else is refused. *)
Theorem C13_other_arguments_are_refused : forall srt pw c n t a l q s line, sort_contract srt -> reachable srt pw c -> ordered_type t ->
  has_type t a -> lookup c n = Some (IObj a) -> statement line n (asks t q) [l] -> ~ comparison_literal t l ->
  only_answers srt pw c s line ERR_ARGUMENT.
Proof.
  intros srt pw c n t a l q s line H1 H2 Ht Ha Hl Hs Hn.
  apply (var_answers srt pw c s line n _ _ _ H1 H2 Hs Hl (Throw InvalidArgument)); auto.
  unfold comparison_literal in Hn.
  destruct Ht as [->|[->|[->| ->]]]; destruct a as [a|a|a|a|a]; cbn [has_type] in Ha; try discriminate; clear Ha.
  - assert (X : is_character_value l = false) by (destruct (is_character_value l) eqn:E; auto; apply is_character_value_iff in E; tauto).
    replace (receive (env_of srt c) (IObj (OChar a)) (asks (B "Character") q) [l]) with (on (fun c => IObj (OChar c)) (character_compare (cmp_of q (tolerance c)) [l] a)) by (destruct q; reflexivity).
    unfold character_compare. mon. rewrite X. reflexivity.
  - assert (F : is_float_value l = false) by (apply not_float_literal; tauto).
    assert (X : is_integer_value l = false) by (apply not_int_literal; intros Y; apply int_is_float in Y; tauto).
    replace (receive (env_of srt c) (IObj (OInt a)) (asks (B "Integer") q) [l]) with (on (fun c => IObj (OInt c)) (integer_compare (cmp_of q (tolerance c)) [l] a)) by (destruct q; reflexivity).
    unfold integer_compare. mon. rewrite X, F. reflexivity.
  - assert (F : is_float_value l = false) by (apply not_float_literal; tauto).
    replace (receive (env_of srt c) (IObj (OFloat a)) (asks (B "Float") q) [l]) with (on (fun c => IObj (OFloat c)) (float_compare (cmp_of q (tolerance c)) [l] a)) by (destruct q; reflexivity).
    unfold float_compare. mon. rewrite F. reflexivity.
  - assert (X : is_string_value l = false) by (destruct (is_string_value l) eqn:E; auto; apply is_string_value_iff in E; tauto).
    replace (receive (env_of srt c) (IObj (OStr a)) (asks (B "String") q) [l]) with (on (fun c => IObj (OStr c)) (string_compare (cmp_of q (tolerance c)) [l] a)) by (destruct q; reflexivity).
    unfold string_compare. mon. rewrite X. reflexivity.
Qed.
(** A negative tolerance can only come from the command line; then a number is both less and greater than itself. *)
Definition negative_server : context := set_instances (new_context false 3 (to_float (atof (B "-1"))) true) [(B "x", IObj (OFloat zero32))].
Theorem C13_negative_tolerance_refuted : exists c, reachable insertion_sort [] c /\
  only_answers insertion_sort [] c None (B "x isLessThan? 0;") (truth true) /\ only_answers insertion_sort [] c None (B "x isGreaterThan? 0;") (truth true).
Proof.
  exists negative_server. split.
  - apply (after_reachable _ _ [B "Float create: x withValue: 0;"] (new_context false 3 (to_float (atof (B "-1"))) true)); [constructor; vm_compute; reflexivity|vm_compute; reflexivity].
  - split; (eexists; split; [unfold runs; vm_compute; reflexivity|split; [reflexivity|split; reflexivity]]).
Qed.
Definition five_float : context := set_instances empty_server [(B "i", IObj (OInt 5)); (B "x", IObj (OFloat (to_float (atof (B "0.1")))))].
Lemma five_float_reachable : reachable insertion_sort [] five_float.
Proof.
  apply (after_reachable _ _ [B "Float create: x withValue: 0.1;"; B "Integer create: i withValue: 5;"] empty_server); [constructor; vm_compute; reflexivity|vm_compute; reflexivity].
Qed.
Example C13_ex : reachable insertion_sort [] five_float /\ lookup five_float (B "i") = Some (IObj (OInt 5)) /\
  statement (B "i isLessThanOrEqualTo? 4.5;") (B "i") (asks (B "Integer") IsLessOrEqual) [B "4.5"] /\
  operand (B "Integer") (B "4.5") (OFloat (S754_finite false 9437184 (-21))) /\ ~ below_zero (tolerance five_float).
Proof.
  split; [apply five_float_reachable|]. split; [reflexivity|]. split; [stmt|]. split.
  - right. right. split; [reflexivity|]. split; [intros X; apply is_integer_value_iff in X; discriminate|]. ex_lit.
  - apply nonneg_zero.
Qed.

(** ** C14: total orders *)
Theorem C14_strict_total_order : forall tol t, t <> B "Float" ->
  (forall a, has_type t a -> ~ before tol a a) /\
  (forall a b c, has_type t a -> has_type t b -> has_type t c -> before tol a b -> before tol b c -> before tol a c) /\
  (forall a b, has_type t a -> has_type t b -> before tol a b \/ a = b \/ before tol b a) /\
  (forall a b, has_type t a -> has_type t b -> (relates tol a b Eq <-> a = b)).
Proof.
  intros tol t Ht.
  assert (P : forall a, has_type t a -> plain a) by (intros [x|x|x|x|x]; cbn; auto).
  assert (NF : forall a, has_type t a -> forall f, a <> OFloat f) by (intros a Ha f ->; now apply P in Ha).
  assert (S : forall a, has_type t a -> ~ before tol a a).
  { intros a Ha X. apply (before_plain tol zero32) in X; auto. revert X. apply before_irrefl, nonneg_zero. }
  split; [exact S|]. split; [|split].
  - intros a b c Ha Hb Hc. apply before_trans; auto.
  - intros a b Ha Hb. destruct a as [x|x|x|x|x], b as [y|y|y|y|y]; cbn [has_type before] in *; subst; try discriminate; try congruence.
    + destruct x, y; auto.
    + destruct (Z.lt_trichotomy (signed x) (signed y)) as [H|[H|H]]; auto. right. left. f_equal. now apply signed_inj.
    + destruct (Z.lt_trichotomy x y) as [H|[H|H]]; auto. right. left. now f_equal.
    + rewrite <- !str_ltb_iff. destruct (str_ltb x y) eqn:E1, (str_ltb y x) eqn:E2; auto. right. left. f_equal. now apply str_ltb_total.
  - intros a b Ha Hb. split; [|intros ->; split; auto]. intros [X Y]. eapply before_total; eauto.
Qed.
(** So, for example, isEqualTo? is identity. *)
Theorem C14_equality_is_identity : forall srt pw c n t a l b, sort_contract srt -> reachable srt pw c -> ordered_type t -> t <> B "Float" ->
  has_type t a -> has_type t b -> lookup c n = Some (IObj a) -> operand t l b ->
  forall s line ans, statement line n (asks t IsEqual) [l] -> only_answers srt pw c s line ans -> (ans = truth true <-> b = a).
Proof.
  intros srt pw c n t a l b H1 H2 Ht Hf Ha Hb Hl Ho s line ans Hs Hr.
  assert (P : forall a, has_type t a -> plain a) by (intros [x|x|x|x|x]; cbn; auto).
  destruct (C13_comparisons srt pw c n t a l b) as (r & R & U & A); auto.
  destruct (A IsEqual s line Hs) as (c1 & R1 & _). destruct Hr as (c2 & R2 & _). destruct (runs_unique _ _ _ _ _ _ _ _ _ _ _ R1 R2) as (_ & _ & <-).
  destruct (C14_strict_total_order (tolerance c) t Hf) as (_ & _ & _ & Q). specialize (Q a b Ha Hb).
  split.
  - intros X. destruct r; cbn in X; try discriminate. symmetry. now apply Q.
  - intros ->. rewrite <- (U Eq); [reflexivity|]. now apply Q.
Qed.
Example C14_ex : before zero32 (OChar (ascii_of_nat 200)) (OChar "A") /\ before zero32 (OStr (B "A")) (OStr [ascii_of_nat 200]) /\
  before zero32 (OStr (B "ab")) (OStr (B "abc")).
Proof.
  split; [reflexivity|]. split; [apply (pre_differ [] "A"%char [] (ascii_of_nat 200) []); apply Nat.ltb_lt; reflexivity|].
  apply (pre_prefix (B "ab") "c"%char []).
Qed.

(** ** C15: equality of Floats with a tolerance *)
Theorem C15_reflexive : forall tol f, ~ below_zero tol -> relates tol (OFloat f) (OFloat f) Eq.
Proof. intros tol f H. split; now apply before_irrefl. Qed.
Theorem C15_symmetric : forall tol f g, relates tol (OFloat f) (OFloat g) Eq -> relates tol (OFloat g) (OFloat f) Eq.
Proof. intros tol f g [H1 H2]. now split. Qed.
(** Three variables of a server with the default tolerance. *)
Definition close_values : context :=
  set_instances (new_context false 3 (to_float (atof (B "0.0000001"))) true)
    [(B "x", IObj (OFloat zero32)); (B "y", IObj (OFloat (to_float (atof (B "0.6e-7"))))); (B "z", IObj (OFloat (to_float (atof (B "1.2e-7")))))].
Lemma close_values_reachable : reachable insertion_sort [] close_values.
Proof.
  apply (after_reachable _ _ [B "Float create: x withValue: 0;"; B "Float create: y withValue: 0.6e-7;"; B "Float create: z withValue: 1.2e-7;"]
    (new_context false 3 (to_float (atof (B "0.0000001"))) true)); [constructor; vm_compute; reflexivity|vm_compute; reflexivity].
Qed.
Theorem C15_transitive_refuted : exists c f g h, reachable insertion_sort [] c /\
  lookup c (B "x") = Some (IObj (OFloat f)) /\ lookup c (B "y") = Some (IObj (OFloat g)) /\ lookup c (B "z") = Some (IObj (OFloat h)) /\
  literal_of (B "Float") (B "0.6e-7") (OFloat g) /\ literal_of (B "Float") (B "1.2e-7") (OFloat h) /\
  only_answers insertion_sort [] c None (B "x isEqualTo? 0.6e-7;") (truth true) /\
  only_answers insertion_sort [] c None (B "y isEqualTo? 1.2e-7;") (truth true) /\
  only_answers insertion_sort [] c None (B "x isEqualTo? 1.2e-7;") (truth false).
Proof.
  exists close_values. eexists _, _, _. split; [apply close_values_reachable|]. split; [reflexivity|]. split; [reflexivity|]. split; [reflexivity|].
  split; [ex_lit|]. split; [ex_lit|].
  repeat split; (eexists; split; [unfold runs; vm_compute; reflexivity|split; [reflexivity|split; reflexivity]]).
Qed.
(** It fails with every positive tolerance. *)
Lemma format32 f : V32 f -> generic_format radix2 (FLT_exp (3 - 128 - 24) 24) (value f).
Proof.
  intros H. destruct (finite_dec f) as [F|F]; [exact (value_format 24 128 f H F)|].
  replace (value f) with 0%R by (destruct f; cbn in *; tauto). apply generic_format_0.
Qed.
Lemma rnd32_id x : generic_format radix2 (FLT_exp (3 - 128 - 24) 24) x -> rnd32 x = x.
Proof. intros H. apply round_generic; [apply valid_rnd_N|exact H]. Qed.
Theorem C15_transitive_fails_for_positive_tolerances : forall tol, V32 tol -> finite tol -> (0 < value tol)%R ->
  exists f g h, V32 f /\ V32 g /\ V32 h /\ relates tol (OFloat f) (OFloat g) Eq /\ relates tol (OFloat g) (OFloat h) Eq /\
    relates tol (OFloat f) (OFloat h) Lt.
Proof.
  intros tol V F P. exists (SFopp tol), zero32, tol. split; [now apply opp_valid|]. split; [reflexivity|]. split; [exact V|].
  assert (G := format32 tol V). assert (G' := generic_format_opp _ _ _ G).
  cbn [relates before]. rewrite (finite_extended _ F), (finite_extended _ (opp_finite _ F)), opp_value. cbn [extended_of below value].
  rewrite !Rminus_0_r, !Rminus_0_l, Ropp_involutive. rewrite (rnd32_id _ G), (rnd32_id _ G').
  split; [lra|]. split; [lra|].
  replace (- value tol - value tol)%R with (- (2 * value tol))%R by ring. rewrite rnd32_opp, rnd32_id; [lra|].
  assert (X : (2 * value tol = value tol * bpow radix2 1)%R) by (cbn; lra). rewrite X.
  apply generic_format_FLT. apply FLT_format_generic in G; [|reflexivity]. destruct G as [[m e] E1 E2 E3].
  exists (Float radix2 m (e + 1)); cbn [Fnum Fexp] in *; [|exact E2|lia]. rewrite E1. unfold F2R. cbn [Fnum Fexp]. rewrite bpow_plus. ring.
Qed.
(** With an infinite tolerance everything is equal. *)
Theorem C15_infinite_tolerance : forall f g, relates (S754_infinity false) (OFloat f) (OFloat g) Eq.
Proof. intros f g. split; cbn; auto. Qed.
(** With tolerance zero, on numbers, it is equality of the numbers. *)
Lemma below_zero_tolerance x y : generic_format radix2 (FLT_exp (3 - 128 - 24) 24) x -> generic_format radix2 (FLT_exp (3 - 128 - 24) 24) y ->
  (rnd32 (x - y) < 0 <-> x < y)%R.
Proof.
  intros Hx Hy. split; intros H.
  - destruct (Rlt_or_le x y) as [|L]; auto. assert (X : (0 <= x - y)%R) by lra. apply rnd32_le in X. rewrite rnd32_0 in X. lra.
  - assert (X : (x - y <= 0)%R) by lra. apply rnd32_le in X. rewrite rnd32_0 in X. destruct X as [|X]; auto. exfalso.
    assert (Valid_exp (FLT_exp (3 - 128 - 24) 24)) by (apply FLT_exp_valid; reflexivity).
    assert (N := round_plus_neq_0 radix2 (FLT_exp (3 - 128 - 24) 24) ZnearestE x (- y) Hx (generic_format_opp _ _ _ Hy)).
    apply N; [lra|exact X].
Qed.
Definition exceeds (x y : extended) : Prop :=
  match x, y with
  | Real x, Real y => (x < y)%R
  | Minus_infinity, Real _ | Minus_infinity, Plus_infinity | Real _, Plus_infinity => True
  | _, _ => False
  end.
Lemma before_exact tol f g : finite tol -> value tol = 0%R -> V32 f -> V32 g ->
  (before tol (OFloat f) (OFloat g) <-> exceeds (extended_of f) (extended_of g)).
Proof.
  intros F Z Vf Vg. cbn [before]. rewrite (finite_extended _ F), Z.
  assert (K : forall f, (finite f /\ extended_of f = Real (value f)) \/ extended_of f = Plus_infinity \/ extended_of f = Minus_infinity \/ extended_of f = Not_a_number)
    by (intros [|[]| |]; cbn; auto).
  destruct (K f) as [[Ff ->]|[->|[->| ->]]], (K g) as [[Fg ->]|[->|[->| ->]]]; cbn [below exceeds]; try tauto.
  rewrite Ropp_0. now apply below_zero_tolerance; apply format32.
Qed.
Theorem C15_transitive_at_zero : forall tol f g h, finite tol -> value tol = 0%R -> V32 f -> V32 g -> V32 h -> ~ nan g ->
  relates tol (OFloat f) (OFloat g) Eq -> relates tol (OFloat g) (OFloat h) Eq -> relates tol (OFloat f) (OFloat h) Eq.
Proof.
  intros tol f g h F Z Vf Vg Vh N. cbn [relates]. rewrite !before_exact by auto.
  assert (N' : extended_of g <> Not_a_number) by (destruct g as [|[]| |]; cbn; try discriminate; intros _; now apply N).
  destruct (extended_of f), (extended_of g), (extended_of h); cbn [exceeds]; try tauto; intros [] []; split; lra.
Qed.
Example C15_ex : V32 zero32 /\ finite zero32 /\ value zero32 = 0%R /\ V32 (to_float (atof (B "1.2e-7"))) /\ (0 < value (to_float (atof (B "1.2e-7"))))%R.
Proof.
  repeat split; try reflexivity. assert (E : to_float (atof (B "1.2e-7")) = S754_finite false 8444249 (-46)) by (vm_compute; reflexivity).
  rewrite E. cbn [value]. apply Rmult_lt_0_compat; [apply IZR_lt; lia|apply powerRZ_lt; lra].
Qed.

(** ** C16, C17: sort *)
Lemma sort_receive E t v args : receive E (IVector t v) (B "sort") args = on (IVector t) (vector_sort E args v).
Proof. reflexivity. Qed.
Lemma vector_good srt pw c n t v : sort_contract srt -> reachable srt pw c -> lookup c n = Some (IVector t v) ->
  object_type t /\ Forall (has_type t) v /\ Forall sound v /\ Forall from_literal v.
Proof.
  intros H1 H2 Hl. assert (G := reachable_good srt pw c H1 H2). destruct (ctx_good_lookup _ _ _ _ G Hl) as [_ [Ho Hv]].
  split; auto. repeat split; (eapply Forall_impl; [|exact Hv]; intros x (X1 & X2 & X3); eauto using obj_clean_sound).
Qed.
Lemma typed_comparable t v : Forall (has_type t) v -> forall a b, In a v -> In b v -> comparable a b.
Proof. intros H a b Ha Hb. rewrite Forall_forall in H. eapply same_type_comparable; eauto. Qed.
Lemma type_plain t a : t <> B "Float" -> has_type t a -> plain a.
Proof. intros Ht. destruct a; cbn; auto. Qed.
Lemma less_opt_plain tol tol' a b : plain a -> plain b -> less_opt tol a b = less_opt tol' a b.
Proof. intros Ha Hb. unfold less_opt. now rewrite <- (cmp_plain IsLess tol tol' a b Ha Hb : is_less_than tol a b = is_less_than tol' a b). Qed.
(** The comparator used by sort, sets and dictionaries is [before]. *)
Lemma less_opt_iff tol t a b : V32 tol -> has_type t a -> has_type t b -> sound a -> sound b ->
  (less_opt tol a b = Some true <-> before tol a b).
Proof.
  intros V Ta Tb Sa Sb. now apply less_opt_before.
Qed.
Lemma swo_weak' tol t l : V32 tol -> Forall (has_type t) l -> Forall sound l ->
  (strict_weak_order (less_opt tol) l <-> weak_order tol l).
Proof.
  intros V Ht Hs. assert (Hc := typed_comparable t l Ht). rewrite Forall_forall in Ht, Hs.
  assert (K : forall a b, In a l -> In b l -> (less_opt tol a b = Some true <-> before tol a b)) by (intros; apply (less_opt_iff tol t); auto).
  split.
  - intros (_ & H1 & H2 & H3). split; [|split].
    + intros a Ha. rewrite <- K; auto.
    + intros a b c Ha Hb Hcc. rewrite <- !K; eauto.
    + intros a b c Ha Hb Hcc [A1 A2] [B1 B2]. rewrite <- K in A1, A2, B1, B2 by auto. cbn. rewrite <- !K by auto. eauto.
  - intros (H1 & H2 & H3). split; [|split; [|split]].
    + intros a b Ha Hb. apply less_opt_some. auto.
    + intros a Ha. rewrite K; auto.
    + intros a b c Ha Hb Hcc. rewrite !K by auto. eauto.
    + intros a b c Ha Hb Hcc A1 A2 B1 B2. rewrite K in A1, A2, B1, B2 by auto. rewrite !K by auto. apply (H3 a b c); cbn; auto.
Qed.
Lemma weak_order_plain tol t l : t <> B "Float" -> Forall (has_type t) l -> weak_order tol l.
Proof.
  intros Hf Ht. rewrite Forall_forall in Ht. destruct (C14_strict_total_order tol t Hf) as (A & B & C & D).
  split; [auto|]. split; [intros a b c Ha Hb Hc; apply B; auto|].
  intros a b c Ha Hb Hc X Y. apply D in X, Y; auto. subst. apply D; auto.
Qed.
(** In general: when the values are weakly ordered, the result is an ordered permutation. *)
Theorem C16_sort_of_weakly_ordered_values : forall srt pw c s line n t v args, sort_contract srt -> reachable srt pw c ->
  statement line n (B "sort") args -> lookup c n = Some (IVector t v) ->
  weak_order (tolerance c) v ->
  exists v', becomes srt pw c s line n (B "null") (IVector t v') /\ Permutation v v' /\ in_order (tolerance c) v'.
Proof.
  intros srt pw c s line n t v args H1 H2 Hs Hl Hw. assert (V := reachable_tolerance srt pw c H1 H2).
  destruct (vector_good _ _ _ _ _ _ H1 H2 Hl) as (Ho & Ht & Hso & _).
  assert (W := proj2 (swo_weak' _ t v V Ht Hso) Hw). destruct (H1 _ _ W) as [P S].
  exists (srt (less_opt (tolerance c)) v). split; [|split; [exact P|]].
  - apply (var_becomes srt pw c s line n _ _ _ H1 H2 Hs Hl (IVector t (srt (less_opt (tolerance c)) v)) (Ok null)); auto.
    rewrite sort_receive. assert (L : length args = 0%nat) by (eapply args_len; eauto). apply len0 in L as ->. unfold vector_sort. mon.
    cbn [e_tolerance env_of e_sort]. apply swo_iff in W. now rewrite W.
  - assert (Ht' := Permutation_Forall P Ht). assert (Hso' := Permutation_Forall P Hso). unfold in_order. clear - V S Ht' Hso'.
    induction S as [|a l S IH Ha]; [constructor|]. inversion Ht'; subst. inversion Hso'; subst. constructor; auto.
    rewrite Forall_forall in *. intros b Hb. rewrite <- (less_opt_iff _ t) by auto. auto.
Qed.
(** Boolean, Character, Integer and String vectors: always, and there is only one possible result. *)
Theorem C16_sort : forall srt pw c s line n t v args, sort_contract srt -> reachable srt pw c ->
  statement line n (B "sort") args -> lookup c n = Some (IVector t v) -> t <> B "Float" ->
  exists v', becomes srt pw c s line n (B "null") (IVector t v') /\ Permutation v v' /\ in_order (tolerance c) v' /\
    forall w, Permutation v w -> in_order (tolerance c) w -> w = v'.
Proof.
  intros srt pw c s line n t v args H1 H2 Hs Hl Hf. destruct (vector_good _ _ _ _ _ _ H1 H2 Hl) as (Ho & Ht & _ & _).
  destruct (C16_sort_of_weakly_ordered_values srt pw c s line n t v args) as (v' & R & P & S); auto; [now apply weak_order_plain with t|].
  exists v'. split; [exact R|]. split; [exact P|]. split; [exact S|]. intros w Pw Sw.
  apply (in_order_unique (tolerance c) t); auto; [now apply (Permutation_Forall Pw)|].
  etransitivity; [symmetry; exact Pw|exact P].
Qed.
Theorem C16_sort_is_defined : forall srt pw c s line n t v args u, sort_contract srt -> reachable srt pw c ->
  statement line n (B "sort") args -> lookup c n = Some (IVector t v) -> t <> B "Float" -> ~ undefined_behaviour srt pw c s line u.
Proof.
  intros srt pw c s line n t v args u H1 H2 Hs Hl Hf Hu.
  destruct (C16_sort srt pw c s line n t v args H1 H2 Hs Hl Hf) as (v' & (c' & R & _) & _). eapply runs_ub; eauto.
Qed.
(** std::sort can be implemented. *)
Theorem C16_a_sort_exists : sort_contract insertion_sort.
Proof. exact insertion_sort_contract. Qed.
Definition some_vector : context := set_instances empty_server [(B "v", IVector (B "Integer") [OInt 3; OInt (-1); OInt 3; OInt 2])].
Example C16_ex : reachable insertion_sort [] some_vector /\ statement (B "v sort;") (B "v") (B "sort") [] /\
  exists c', runs insertion_sort [] some_vector None (B "v sort;") c' None (B "null") /\
    lookup c' (B "v") = Some (IVector (B "Integer") [OInt (-1); OInt 2; OInt 3; OInt 3]).
Proof.
  split.
  { apply (after_reachable _ _ [B "Vector<Integer> create: v;"; B "v pushBack: 3;"; B "v pushBack: -1;"; B "v pushBack: 3;"; B "v pushBack: 2;"] empty_server); [constructor; vm_compute; reflexivity|vm_compute; reflexivity]. }
  split; [stmt|]. eexists. split; [unfold runs; vm_compute; reflexivity|reflexivity].
Qed.

(** ** C17: sort on Float vectors *)
Theorem C17_undefined_iff : forall srt pw c s line n t v args, sort_contract srt -> reachable srt pw c ->
  statement line n (B "sort") args -> lookup c n = Some (IVector t v) ->
  ((exists u, undefined_behaviour srt pw c s line u) <-> ~ weak_order (tolerance c) v).
Proof.
  intros srt pw c s line n t v args H1 H2 Hs Hl. split.
  - intros [u Hu] W. destruct (C16_sort_of_weakly_ordered_values srt pw c s line n t v args) as (v' & (c' & R & _) & _); auto. eapply runs_ub; eauto.
  - intros W. exists BadOrder. assert (V := reachable_tolerance srt pw c H1 H2). destruct (vector_good _ _ _ _ _ _ H1 H2 Hl) as (Ho & Ht & Hso & _).
    apply (var_undefined srt pw c s line n _ _ _ H1 H2 Hs Hl (IVector t v)).
    rewrite sort_receive. assert (L : length args = 0%nat) by (eapply args_len; eauto). apply len0 in L as ->. unfold vector_sort. mon.
    cbn [e_tolerance env_of e_sort]. destruct (strict_weak_order_on _ _) eqn:E; [|reflexivity].
    exfalso. apply W, (swo_weak' _ t v V Ht Hso), swo_iff, E.
Qed.
Definition close_vector : context :=
  set_instances (new_context false 3 (to_float (atof (B "0.0000001"))) true)
    [(B "v", IVector (B "Float") [OFloat zero32; OFloat (to_float (atof (B "0.6e-7"))); OFloat (to_float (atof (B "1.2e-7")))])].
Theorem C17_sort_is_defined_refuted : exists c, reachable insertion_sort [] c /\ statement (B "v sort;") (B "v") (B "sort") [] /\
  (exists v, lookup c (B "v") = Some (IVector (B "Float") v) /\ length v = 3%nat) /\
  undefined_behaviour insertion_sort [] c None (B "v sort;") BadOrder.
Proof.
  exists close_vector. split.
  { apply (after_reachable _ _ [B "Vector<Float> create: v;"; B "v pushBack: 0;"; B "v pushBack: 0.6e-7;"; B "v pushBack: 1.2e-7;"]
     (new_context false 3 (to_float (atof (B "0.0000001"))) true)); [constructor; vm_compute; reflexivity|vm_compute; reflexivity]. }
  split; [stmt|]. split; [eexists; split; reflexivity|]. unfold undefined_behaviour. vm_compute. reflexivity.
Qed.
(** With tolerance zero sort is always defined: the elements of a vector come from literals, so none is NaN. *)
Lemma atof_number a : ~ nan (to_float (atof a)).
Proof.
  assert (Q : forall neg m k, ~ nan (decimal_to_double neg m k)).
  { intros neg [|p|p] k; try discriminate. destruct (decimal_spec neg p k) as [_ [H1 H2]].
    destruct (Rlt_or_le (Rabs (rounded 53 1024 ((if neg then -1 else 1) * IZR (Z.pos p) * powerRZ 10 k))) (powerRZ 2 1024)) as [L|L].
    - destruct (H1 L) as (F & _). intros E. rewrite E in F. exact F.
    - rewrite (H2 L). discriminate. }
  assert (N : ~ nan (atof a)).
  { unfold atof. destruct (read_sign a) as [neg r]. destruct (read_digits r 0 0) as [[ip k] r1].
    destruct (match r1 with c :: r' => if ceq c c_dot then read_digits r' ip 0 else (ip, 0, r1) | [] => (ip, 0, r1) end) as [[m nf] r2]. apply Q. }
  destruct (to_float_narrows (atof a)) as [_ X]. destruct (atof a) as [s|s| |s m e]; cbn [narrows] in X; try (rewrite X; discriminate).
  - now contradiction N.
  - destruct X as [X1 X2]. destruct (Rlt_or_le (Rabs (rounded 24 128 (value (S754_finite s m e)))) (powerRZ 2 128)) as [L|L].
    + destruct (X1 L) as (F & _). intros E. rewrite E in F. exact F.
    + rewrite (X2 L). discriminate.
Qed.
Lemma weak_order_zero tol t v : finite tol -> value tol = 0%R -> Forall (has_type t) v -> Forall sound v -> Forall from_literal v -> weak_order tol v.
Proof.
  intros F Z Ht Hs Hf. destruct (bytes_dec t (B "Float")) as [->|N]; [|now apply weak_order_plain with t].
  rewrite Forall_forall in Ht, Hs, Hf.
  assert (K : forall a, In a v -> exists f, a = OFloat f /\ V32 f /\ ~ nan f).
  { intros a Ha. specialize (Ht a Ha). specialize (Hs a Ha). specialize (Hf a Ha). destruct a; cbn in Ht; try discriminate.
    exists f. split; auto. split; [exact Hs|]. destruct Hf as [x ->]. apply atof_number. }
  assert (NN : nonneg tol) by (intros [[_ X]|X]; [lra|rewrite X in F; exact F]).
  split; [intros a _; now apply before_irrefl|]. split.
  - intros a b c Ha Hb Hc. destruct (K a Ha) as (f & -> & Vf & Nf), (K b Hb) as (g & -> & Vg & Ng), (K c Hc) as (h & -> & Vh & Nh).
    rewrite !before_exact by auto. destruct (extended_of f), (extended_of g), (extended_of h); cbn [exceeds]; try tauto. lra.
  - intros a b c Ha Hb Hc. destruct (K a Ha) as (f & -> & Vf & Nf), (K b Hb) as (g & -> & Vg & Ng), (K c Hc) as (h & -> & Vh & Nh).
    now apply C15_transitive_at_zero.
Qed.
Theorem C17_defined_at_zero : forall srt pw c s line n v args, sort_contract srt -> reachable srt pw c ->
  statement line n (B "sort") args -> lookup c n = Some (IVector (B "Float") v) -> finite (tolerance c) -> value (tolerance c) = 0%R ->
  exists v', becomes srt pw c s line n (B "null") (IVector (B "Float") v') /\ Permutation v v' /\ in_order (tolerance c) v'.
Proof.
  intros srt pw c s line n v args H1 H2 Hs Hl F Z. destruct (vector_good _ _ _ _ _ _ H1 H2 Hl) as (Ho & Ht & Hso & Hf).
  apply C16_sort_of_weakly_ordered_values with args; auto. now apply weak_order_zero with (B "Float").
Qed.
Example C17_ex : exists c v, reachable insertion_sort [] c /\ lookup c (B "v") = Some (IVector (B "Float") v) /\ length v = 2%nat /\ tolerance c = zero32.
Proof.
  exists (set_instances empty_server [(B "v", IVector (B "Float") [OFloat (to_float (atof (B "2.5"))); OFloat (to_float (atof (B "1e99")))])]).
  eexists. split; [|split; [reflexivity|split; reflexivity]].
  apply (after_reachable _ _ [B "Vector<Float> create: v;"; B "v pushBack: 2.5;"; B "v pushBack: 1e99;"] empty_server); [constructor; vm_compute; reflexivity|vm_compute; reflexivity].
Qed.

Print Assumptions C13_comparisons.
Print Assumptions C13_trichotomy.
Print Assumptions C13_swap.
Print Assumptions C13_swap_mixed.
Print Assumptions C13_other_arguments_are_refused.
Print Assumptions C13_any_tolerance.
Print Assumptions C13_negative_tolerance_refuted.
Print Assumptions C14_strict_total_order.
Print Assumptions C14_equality_is_identity.
Print Assumptions C15_transitive_refuted.
Print Assumptions C15_transitive_fails_for_positive_tolerances.
Print Assumptions C15_transitive_at_zero.
Print Assumptions C16_sort.
Print Assumptions C16_sort_of_weakly_ordered_values.
Print Assumptions C17_undefined_iff.
Print Assumptions C17_sort_is_defined_refuted.
Print Assumptions C17_defined_at_zero.
