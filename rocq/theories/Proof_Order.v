(** Comparators: they decide [before]. *)
From Coq Require Import ZArith Reals Psatz Sorting.Sorted Sorting.Permutation.
From Flocq Require Import Core Plus_error.
From Verif Require Import Bytes StrUtils Grammar Outcome Parser Num Containers Instance Context Platform.
From Verif Require Import Lemmas Proof_Grammar Proof_Parser Proof_Exec WP Proof_Inv Proof_Literal Proof_Receive Proof_Context Proof_Names Api.
From Verif Require Import Proof_Number Proof_Float Proof_Arith.
From Verif Require Import Spec_Grammar Spec_State Spec_Names Spec_Text Spec_Number Spec_Float Spec_Order.
Open Scope Z_scope.
Open Scope list_scope.

(** ** swapping operands *)
Lemma round_aux_opp p em s m e l : SpecFloat.binary_round_aux p em (negb s) m e l = SFopp (SpecFloat.binary_round_aux p em s m e l).
Proof.
  unfold SpecFloat.binary_round_aux. destruct (shr_fexp p em m e l) as [r e']. destruct (shr_fexp p em _ e' loc_Exact) as [r' e''].
  destruct (shr_m r'); try reflexivity. destruct (e'' <=? em - p); reflexivity.
Qed.
Lemma round_opp p em s m e : SpecFloat.binary_round p em (negb s) m e = SFopp (SpecFloat.binary_round p em s m e).
Proof. unfold SpecFloat.binary_round. destruct (shl_align m e _). apply round_aux_opp. Qed.
Lemma sub_swap a b : f_sub b a = SFopp (f_sub a b) \/ (zero (f_sub a b) /\ zero (f_sub b a)).
Proof.
  unfold f_sub. destruct a as [s|s| |s m e], b as [t|t| |t k f]; cbn [SFsub SFopp]; auto;
    try solve [destruct s, t; cbn; auto]; try solve [destruct s; cbn; auto]; try solve [destruct t; cbn; auto].
  - rewrite (Z.min_comm f e). set (x := cond_Zopp s _). set (y := cond_Zopp t _).
    replace (y - x) with (- (x - y)) by lia. destruct (x - y) as [|p|p]; cbn [Z.opp SpecFloat.binary_normalize]; [right; split; exact I| |]; left.
    + exact (round_opp _ _ false _ _).
    + exact (round_opp _ _ true _ _).
Qed.
Lemma lt_opp x y : SFltb (SFopp x) (SFopp y) = SFltb y x.
Proof.
  unfold SFltb. destruct x as [s|s| |s m e], y as [t|t| |t k f]; cbn [SFcompare SFopp]; try (destruct s, t; reflexivity);
    try (destruct s; reflexivity); try (destruct t; reflexivity); try reflexivity.
  destruct s, t; cbn [negb]; try reflexivity.
  - rewrite (Z.compare_antisym e f). destruct (e ?= f); cbn [CompOpp]; try reflexivity.
    change (Pos.compare_cont Eq m k) with (Pos.compare m k). change (Pos.compare_cont Eq k m) with (Pos.compare k m).
    rewrite (Pos.compare_antisym m k). now destruct (Pos.compare m k).
  - rewrite (Z.compare_antisym e f). destruct (e ?= f); cbn [CompOpp]; try reflexivity.
    change (Pos.compare_cont Eq m k) with (Pos.compare m k). change (Pos.compare_cont Eq k m) with (Pos.compare k m).
    rewrite (Pos.compare_antisym m k). now destruct (Pos.compare m k).
Qed.
Lemma float_greater_less eps a b : float_greater eps a b = float_less eps b a.
Proof.
  unfold float_greater, float_less, f_lt, f_opp. destruct (sub_swap a b) as [->|[H1 H2]]; [now rewrite lt_opp|].
  destruct (f_sub a b); try contradiction. destruct (f_sub b a); try contradiction. destruct eps as [|[]| |[]]; reflexivity.
Qed.
Lemma greater_less eps a b : is_greater_than eps a b = is_less_than eps b a.
Proof. destruct a, b; cbn [is_greater_than is_less_than]; rewrite ?float_greater_less; reflexivity. Qed.

(** ** [below] *)
Lemma opp_value f : value (SFopp f) = (- value f)%R.
Proof. destruct f as [s|s| |s m e]; cbn; try ring. destruct s; cbn [negb]; rewrite <- ?Pos2Z.opp_pos, ?opp_IZR; ring. Qed.
Lemma opp_valid f : V32 f -> V32 (SFopp f).
Proof. now destruct f. Qed.
Lemma opp_finite f : finite f -> finite (SFopp f).
Proof. now destruct f. Qed.
Lemma sub_value_sign a b : finite a -> finite b -> (value a - value b < 0)%R -> result_sign Subtract a b = true.
Proof. intros _ _ H. unfold result_sign. destruct (Rlt_dec _ _); [reflexivity|contradiction]. Qed.
Lemma sub_value_sign' a b : finite a -> finite b -> (0 < value a - value b)%R -> result_sign Subtract a b = false.
Proof. intros _ _ H. unfold result_sign. destruct (Rlt_dec (value a - value b) 0); [lra|]. destruct (Rlt_dec _ _); [reflexivity|contradiction]. Qed.
Notation rnd32 := (rounded 24 128).
Lemma rnd32_le x y : (x <= y)%R -> (rnd32 x <= rnd32 y)%R.
Proof. apply round_le; [apply FLT_exp_valid; reflexivity|apply valid_rnd_N]. Qed.
Lemma rnd32_0 : rnd32 0 = 0%R.
Proof. apply round_0. apply valid_rnd_N. Qed.
Lemma rnd32_opp x : rnd32 (- x) = (- rnd32 x)%R.
Proof. apply round_NE_opp. Qed.
Lemma finite_extended f : finite f -> extended_of f = Real (value f).
Proof. destruct f as [|[]| |]; cbn; tauto. Qed.
Lemma pow128 : powerRZ 2 128 = bpow radix2 128.
Proof. now rewrite bpow_powerRZ. Qed.
Lemma float_less_minus a b : V32 a -> V32 b ->
  float_less (S754_infinity true) a b = true <-> below Minus_infinity (extended_of a) (extended_of b).
Proof.
  intros Va Vb. unfold float_less, f_lt, f_opp. cbn [SFopp negb].
  assert (T : forall d, SFltb d (S754_infinity false) = match d with S754_nan | S754_infinity false => false | _ => true end)
    by (intros [[]|[]| |[]]; reflexivity). rewrite T.
  assert (P := powerRZ_lt 2 128 ltac:(lra)).
  destruct (match a with S754_finite _ _ _ | S754_zero _ => true | _ => false end) eqn:Ba;
  destruct (match b with S754_finite _ _ _ | S754_zero _ => true | _ => false end) eqn:Bb.
  - assert (Fa : finite a) by (destruct a; easy). assert (Fb : finite b) by (destruct b; easy).
    rewrite (finite_extended a Fa), (finite_extended b Fb). cbn [below].
    assert (R := sub_rounds 24 128 _ _ a b Va Vb Fa Fb). change (SFsub 24 128 a b) with (f_sub a b) in R.
    destruct R as [R1 R2]. destruct (Rlt_or_le (Rabs (rnd32 (value a - value b))) (powerRZ 2 128)) as [L|L].
    + destruct (R1 L) as (Fd & Ed & _). apply Rabs_def2 in L. split; [intros _; apply L|intros _]. destruct (f_sub a b); easy.
    + specialize (R2 L). rewrite R2. unfold Rabs in L. destruct (Rcase_abs (rnd32 (value a - value b))) as [N|N].
      * assert (D : (value a - value b < 0)%R).
        { destruct (Rlt_or_le (value a - value b) 0) as [X|X]; auto. apply rnd32_le in X. rewrite rnd32_0 in X. lra. }
        rewrite (sub_value_sign _ _ Fa Fb D). split; [intros _; change (rounded 24 128 (value a - value b)) with (rnd32 (value a - value b)); lra|reflexivity].
      * assert (D : (0 < value a - value b)%R).
        { destruct (Rlt_or_le 0 (value a - value b)) as [X|X]; auto. apply rnd32_le in X. rewrite rnd32_0 in X. lra. }
        rewrite (sub_value_sign' _ _ Fa Fb D). split; [discriminate|]. change (rounded 24 128 (value a - value b)) with (rnd32 (value a - value b)). lra.
  - assert (Fa : finite a) by (destruct a; easy). rewrite (finite_extended a Fa).
    destruct b as [|[]| |]; try discriminate; cbn [extended_of below]; unfold f_sub; destruct a; try contradiction; cbn; easy.
  - assert (Fb : finite b) by (destruct b; easy). rewrite (finite_extended b Fb).
    destruct a as [|[]| |]; try discriminate; cbn [extended_of below]; unfold f_sub; destruct b; try contradiction; cbn; easy.
  - destruct a as [|[]| |], b as [|[]| |]; try discriminate; cbn; easy.
Qed.
Lemma float_less_below eps a b : V32 eps -> V32 a -> V32 b ->
  float_less eps a b = true <-> below (extended_of eps) (extended_of a) (extended_of b).
Proof.
  intros Ve Va Vb. destruct (match eps with S754_infinity true => true | _ => false end) eqn:Mi.
  { destruct eps as [|[]| |]; try discriminate Mi. now apply float_less_minus. }
  assert (Hn : eps <> S754_infinity true) by (intros ->; discriminate Mi). clear Mi. unfold float_less, f_lt, f_opp.
  destruct (match eps with S754_finite _ _ _ | S754_zero _ => true | _ => false end) eqn:Fe.
  2:{ destruct eps as [s|[]| |s m e]; try discriminate; [easy| |]; cbn [extended_of below SFopp negb].
      - split; [|contradiction]. unfold SFltb. destruct (f_sub a b) as [|[]| |]; cbn; discriminate.
      - split; [|contradiction]. unfold SFltb. destruct (f_sub a b) as [|[]| |]; cbn; discriminate. }
  assert (F : finite eps) by (destruct eps; easy). clear Fe. rewrite (finite_extended eps F).
  assert (Lo : forall x, finite x -> SFltb (S754_infinity true) x = true /\ SFltb (S754_infinity false) x = false)
    by (intros [| | |]; cbn; auto; contradiction).
  assert (Fo := opp_finite eps F). assert (Vo := opp_valid eps Ve).
  destruct (match a with S754_finite _ _ _ | S754_zero _ => true | _ => false end) eqn:Ba;
  destruct (match b with S754_finite _ _ _ | S754_zero _ => true | _ => false end) eqn:Bb.
  - assert (Fa : finite a) by (destruct a; easy). assert (Fb : finite b) by (destruct b; easy).
    rewrite (finite_extended a Fa), (finite_extended b Fb). cbn [below].
    assert (R := sub_rounds 24 128 _ _ a b Va Vb Fa Fb). change (SFsub 24 128 a b) with (f_sub a b) in R.
    assert (Be := value_bound 24 128 _ _ eps Ve). rewrite <- pow128 in Be. apply Rabs_def2 in Be.
    destruct R as [R1 R2]. destruct (Rlt_or_le (Rabs (rnd32 (value a - value b))) (powerRZ 2 128)) as [L|L].
    + destruct (R1 L) as (Fd & Ed & _). rewrite (lt_value 24 128); auto; [|now apply (sub_valid 24 128)].
      now rewrite Ed, opp_value.
    + specialize (R2 L). rewrite R2. unfold Rabs in L. destruct (Rcase_abs (rnd32 (value a - value b))) as [N|N].
      * assert (D : (value a - value b < 0)%R).
        { destruct (Rlt_or_le (value a - value b) 0) as [X|X]; auto. apply rnd32_le in X. rewrite rnd32_0 in X. lra. }
        rewrite (sub_value_sign _ _ Fa Fb D). split; [intros _; lra|intros _; now apply Lo].
      * assert (P := powerRZ_lt 2 128 ltac:(lra)).
        assert (D : (0 < value a - value b)%R).
        { destruct (Rlt_or_le 0 (value a - value b)) as [X|X]; auto. apply rnd32_le in X. rewrite rnd32_0 in X. lra. }
        rewrite (sub_value_sign' _ _ Fa Fb D). split; [intros X; rewrite (proj2 (Lo _ Fo)) in X; discriminate|intros; lra].
  - assert (Fa : finite a) by (destruct a; easy). rewrite (finite_extended a Fa).
    destruct b as [|[]| |]; try discriminate; cbn [extended_of below].
    + split; [|contradiction]. unfold f_sub. destruct a; try contradiction; cbn [SFsub]; change (negb true) with false; rewrite (proj2 (Lo _ Fo)); discriminate.
    + split; [auto|]. intros _. unfold f_sub. destruct a; try contradiction; cbn [SFsub]; apply Lo; auto.
    + split; [|contradiction]. unfold f_sub. destruct a; try contradiction; cbn; discriminate.
  - assert (Fb : finite b) by (destruct b; easy). rewrite (finite_extended b Fb).
    destruct a as [|[]| |]; try discriminate; cbn [extended_of below].
    + split; [auto|]. intros _. unfold f_sub. destruct b; try contradiction; cbn [SFsub]; apply Lo; auto.
    + split; [|contradiction]. unfold f_sub. destruct b; try contradiction; cbn [SFsub]; rewrite (proj2 (Lo _ Fo)); discriminate.
    + split; [|contradiction]. unfold f_sub. destruct b; try contradiction; cbn; discriminate.
  - destruct a as [|[]| |], b as [|[]| |]; try discriminate; cbn [extended_of below f_sub SFsub negb Bool.eqb];
      try (split; [cbn; discriminate|contradiction]).
    + split; [auto|]. intros _. unfold f_sub. cbn. now apply Lo.
    + split; [|contradiction]. unfold f_sub. cbn [SFsub Bool.eqb negb]. rewrite (proj2 (Lo _ Fo)). discriminate.
Qed.

(** ** [before] *)
Definition sound (o : obj) : Prop := match o with OInt z => in_int z = true | OFloat f => V32 f | _ => True end.
Lemma obj_clean_sound nl o : obj_clean nl o -> sound o.
Proof. destruct o; cbn; auto. intros [x ->]. apply to_float_narrows. Qed.
Lemma bpow_format32 e : -149 <= e -> generic_format radix2 (FLT_exp (3 - 128 - 24) 24) (bpow radix2 e).
Proof. intros H. apply generic_format_bpow. unfold FLT_exp. lia. Qed.
Lemma rnd32_int z : in_int z = true -> (Rabs (rnd32 (IZR z)) < powerRZ 2 128)%R.
Proof.
  intros H. apply in_int_abs in H. rewrite pow128. apply Rle_lt_trans with (bpow radix2 31); [|apply bpow_lt; reflexivity].
  assert (X : (Rabs (IZR z) <= bpow radix2 31)%R).
  { rewrite <- abs_IZR. change (bpow radix2 31) with (IZR (2 ^ 31)). now apply IZR_le. }
  assert (E : rnd32 (bpow radix2 31) = bpow radix2 31) by (apply round_generic; [apply valid_rnd_N|now apply bpow_format32]).
  apply Rabs_le_inv in X as [X1 X2]. apply rnd32_le in X1, X2. rewrite rnd32_opp, E in X1. rewrite E in X2. apply Rabs_le. lra.
Qed.
Lemma int_to_float_value z : in_int z = true -> V32 (int_to_float z) /\ finite (int_to_float z) /\ value (int_to_float z) = rnd32 (IZR z).
Proof.
  intros H. assert (B := rnd32_int z H). destruct z as [|p|p].
  - split; [reflexivity|]. split; [exact I|]. cbn [value int_to_float SpecFloat.binary_normalize]. now rewrite rnd32_0.
  - destruct (round_spec 24 128 _ _ false p 0) as [H1 [H2 _]]. rewrite int_value in H2. destruct (H2 B) as (F & E & _). auto.
  - destruct (round_spec 24 128 _ _ true p 0) as [H1 [H2 _]]. rewrite int_value in H2. destruct (H2 B) as (F & E & _). auto.
Qed.
Lemma schar_signed c : schar c = signed c.
Proof.
  assert (X := by_all_ascii (fun c => schar c =? signed c) eq_refl). specialize (X c). now apply Z.eqb_eq in X.
Qed.
Lemma less_before tol a b : V32 tol -> sound a -> sound b ->
  (is_less_than tol a b = Ok true <-> before tol a b).
Proof.
  intros Vt Ha Hb.
  assert (K : forall x : bool, Ok x = Ok true <-> x = true) by (intros []; split; congruence).
  destruct a as [x|x|x|x|x], b as [y|y|y|y|y]; cbn [is_less_than before]; try (split; [discriminate|contradiction]); rewrite K.
  - destruct x, y; cbn; intuition discriminate.
  - rewrite !schar_signed. apply Z.ltb_lt.
  - apply Z.ltb_lt.
  - destruct (int_to_float_value x Ha) as (V & F & E). rewrite float_less_below, (finite_extended _ F), E by auto. reflexivity.
  - destruct (int_to_float_value y Hb) as (V & F & E). rewrite float_less_below, (finite_extended _ F), E by auto. reflexivity.
  - now apply float_less_below.
  - apply str_ltb_iff.
Qed.
Lemma less_opt_before tol a b : V32 tol -> sound a -> sound b ->
  (less_opt tol a b = Some true <-> before tol a b).
Proof.
  intros. rewrite <- less_before by auto. unfold less_opt. destruct (is_less_than tol a b) as [[]|e|u]; split; congruence.
Qed.
Lemma less_opt_some tol a b : comparable a b -> less_opt tol a b <> None.
Proof. intros H. unfold less_opt. destruct (is_less_than_total tol a b H) as [r ->]. discriminate. Qed.
Lemma less_false tol a b : V32 tol -> sound a -> sound b -> comparable a b ->
  ~ before tol a b -> is_less_than tol a b = Ok false.
Proof.
  intros Vt Ha Hb Hc N. destruct (is_less_than_total tol a b Hc) as [[] E]; auto. exfalso. apply N. now apply less_before.
Qed.
Lemma before_dec tol a b : V32 tol -> sound a -> sound b -> {before tol a b} + {~ before tol a b}.
Proof.
  intros Vt Ha Hb. assert (H := less_before tol a b Vt Ha Hb). destruct (is_less_than tol a b) as [[]|e|u]; [left; now apply H|right..];
  intros X; apply H in X; discriminate.
Qed.
Lemma comparable_sym a b : comparable a b -> comparable b a.
Proof. now destruct a, b. Qed.

Definition nonneg (tol : f32) : Prop := ~ below_zero tol.
Lemma nonneg_not_minus tol : nonneg tol -> tol <> S754_infinity true.
Proof. intros H ->. apply H. now right. Qed.
Lemma nonneg_value tol : nonneg tol -> (0 <= value tol)%R.
Proof.
  intros H. destruct (Rle_or_lt 0 (value tol)) as [|L]; auto. exfalso. apply H. left. split; auto.
  destruct tol; cbn in *; auto; lra.
Qed.
Lemma extended_nonneg tol t : nonneg tol -> extended_of tol = Real t -> (0 <= t)%R.
Proof.
  intros H E. apply nonneg_value in H. destruct tol as [|[]| |]; cbn [extended_of] in E; inversion E; subst; auto.
Qed.
Lemma below_asym tol x y : (forall t, tol = Real t -> (0 <= t)%R) -> tol <> Minus_infinity -> below tol x y -> ~ below tol y x.
Proof.
  intros Ht Nm. destruct tol as [|t| |]; cbn [below]; auto. specialize (Ht t eq_refl). destruct x as [|x| |], y as [|y| |]; auto.
  replace (y - x)%R with (- (x - y))%R by ring. rewrite rnd32_opp. lra.
Qed.
Lemma precedes_asym a b : precedes a b -> ~ precedes b a.
Proof. rewrite <- !str_ltb_iff. intros H X. apply str_ltb_asym in H. congruence. Qed.
Lemma before_asym tol a b : nonneg tol -> before tol a b -> ~ before tol b a.
Proof.
  intros Ht. assert (X := extended_nonneg tol). assert (Y : forall t, extended_of tol = Real t -> (0 <= t)%R) by (intros; eapply X; eauto).
  assert (Z : extended_of tol <> Minus_infinity) by (intros E; apply (nonneg_not_minus tol Ht); destruct tol as [|[]| |]; cbn in E; congruence).
  destruct a as [x|x|x|x|x], b as [y|y|y|y|y]; cbn [before]; auto; try (apply below_asym; [exact Y|exact Z]).
  - intuition congruence. - lia. - lia. - apply precedes_asym.
Qed.
Lemma before_irrefl tol a : nonneg tol -> ~ before tol a a.
Proof. intros Ht H. exact (before_asym tol a a Ht H H). Qed.
(** strict total orders *)
Lemma before_trans tol a b c : (forall f, b <> OFloat f) -> (forall f, a <> OFloat f) -> (forall f, c <> OFloat f) ->
  before tol a b -> before tol b c -> before tol a c.
Proof.
  intros Hb Ha Hc. destruct a, b, c; cbn [before]; try contradiction; try (exfalso; (now eapply Ha) || (now eapply Hb) || (now eapply Hc)).
  - intuition congruence. - lia. - lia. - rewrite <- !str_ltb_iff. apply str_ltb_trans.
Qed.
Lemma signed_inj x y : signed x = signed y -> x = y.
Proof.
  unfold signed, code. intros H. assert (Hx := nat_ascii_bounded x). assert (Hy := nat_ascii_bounded y).
  rewrite <- (ascii_nat_embedding x), <- (ascii_nat_embedding y). f_equal.
  destruct (Nat.ltb_spec (nat_of_ascii x) 128), (Nat.ltb_spec (nat_of_ascii y) 128); lia.
Qed.
Lemma before_total tol t a b : has_type t a -> has_type t b -> t <> B "Float" -> ~ before tol a b -> ~ before tol b a -> a = b.
Proof.
  intros Ta Tb Hf. destruct a as [x|x|x|x|x], b as [y|y|y|y|y]; cbn [has_type before] in *; subst; try discriminate; try congruence; intros H1 H2.
  - destruct x, y; auto; exfalso; (now apply H1) || (now apply H2).
  - f_equal. apply signed_inj. lia.
  - f_equal. lia.
  - f_equal. rewrite <- str_ltb_iff in *. apply str_ltb_total; [now destruct (str_ltb x y)|now destruct (str_ltb y x)].
Qed.
Definition cmp_of (q : question) (tol : f32) : obj -> obj -> res bool :=
  match q with
  | IsLess => is_less_than tol | IsLessOrEqual => is_less_than_or_equal_to tol | IsEqual => is_equal_to tol
  | IsGreaterOrEqual => is_greater_than_or_equal_to tol | IsGreater => is_greater_than tol
  end.
Section Good_tolerance.
Context (tol : f32) (Vt : V32 tol) (Nt : nonneg tol).
Lemma relates_exists a b : sound a -> sound b -> exists r, relates tol a b r.
Proof using Vt.
  intros Ha Hb. destruct (before_dec tol a b Vt Ha Hb) as [H|H]; [now exists Lt|].
  destruct (before_dec tol b a Vt Hb Ha) as [H'|H']; [now exists Gt|now exists Eq].
Qed.
Lemma relates_unique a b r r' : relates tol a b r -> relates tol a b r' -> r = r'.
Proof using Nt.
  assert (X := before_asym tol a b Nt). assert (Y := before_asym tol b a Nt). destruct r, r'; cbn; tauto.
Qed.
Lemma relates_swap a b r : relates tol a b r <-> relates tol b a (CompOpp r).
Proof. destruct r; cbn; tauto. Qed.
Lemma cmp_right q a b r : sound a -> sound b -> comparable a b -> relates tol a b r -> cmp_of q tol a b = Ok (right_answer q r).
Proof using Vt Nt.
  intros Ha Hb Hc Hr. assert (Hc' := comparable_sym _ _ Hc).
  assert (L : is_less_than tol a b = Ok (match r with Lt => true | _ => false end)).
  { destruct r; cbn in Hr; [apply less_false; tauto|now apply less_before|].
    apply less_false; auto. now apply (before_asym tol b a). }
  assert (G : is_greater_than tol a b = Ok (match r with Gt => true | _ => false end)).
  { rewrite greater_less. destruct r; cbn in Hr; [apply less_false; tauto| |now apply less_before].
    apply less_false; auto. now apply (before_asym tol a b). }
  destruct q; cbn [cmp_of]; unfold is_less_than_or_equal_to, is_greater_than_or_equal_to, is_equal_to; rewrite ?L, ?G; destruct r; cbn [rbind negb]; rewrite ?G; reflexivity.
Qed.

(** ** sorting *)
Lemma swo_weak l : Forall sound l -> (forall a b, In a l -> In b l -> comparable a b) ->
  (strict_weak_order (less_opt tol) l <-> weak_order tol l).
Proof using Vt.
  intros Hs Hc. rewrite Forall_forall in Hs.
  assert (K : forall a b, In a l -> In b l -> (less_opt tol a b = Some true <-> before tol a b)) by (intros; apply less_opt_before; auto).
  split.
  - intros (_ & H1 & H2 & H3). split; [|split].
    + intros a Ha. rewrite <- K; auto.
    + intros a b c Ha Hb Hcc. rewrite <- !K; eauto.
    + intros a b c Ha Hb Hcc [A1 A2] [B1 B2]. rewrite <- K in A1, A2, B1, B2 by auto. cbn. rewrite <- !K by auto. eauto.
  - intros (H1 & H2 & H3). split; [|split; [|split]].
    + intros a b Ha Hb. apply less_opt_some. auto.
    + intros a Ha. rewrite K; auto.
    + intros a b c Ha Hb Hcc. rewrite !K by auto. eauto.
    + intros a b c Ha Hb Hcc A1 A2 B1 B2. rewrite K in A1, A2, B1, B2 by auto. rewrite !K by auto. apply (H3 a b c); cbn; auto.
Qed.
End Good_tolerance.
Lemma weak_order_typed tol t l : nonneg tol -> Forall (has_type t) l -> t <> B "Float" -> weak_order tol l.
Proof.
  intros Ht Hl Hf. rewrite Forall_forall in Hl.
  assert (NF : forall a, In a l -> forall f, a <> OFloat f) by (intros a Ha f ->; apply Hf; exact (Hl _ Ha)).
  split; [|split].
  - intros a _. now apply before_irrefl.
  - intros a b c Ha Hb Hc. apply before_trans; auto.
  - intros a b c Ha Hb Hc [A1 A2] [B1 B2]. assert (a = b) by (eapply before_total; eauto). assert (b = c) by (eapply before_total; eauto).
    subst. split; now apply before_irrefl.
Qed.
(** An in-order permutation is unique when incomparable elements are equal. *)
Lemma in_order_unique tol t l l' : Forall (has_type t) l -> t <> B "Float" -> Permutation l l' -> in_order tol l -> in_order tol l' -> l = l'.
Proof.
  intros Hl Hf. revert l'. induction l as [|a l IH]; intros l' Hp S1 S2; [apply Permutation_nil in Hp; now subst|].
  destruct l' as [|b l']; [symmetry in Hp; now apply Permutation_nil_cons in Hp|].
  inversion Hl as [|? ? Ta Tl]; subst. assert (Tl' : Forall (has_type t) (b :: l')) by (eapply Permutation_Forall; eauto).
  inversion S1 as [|? ? S1' A1]; subst. inversion S2 as [|? ? S2' A2]; subst. rewrite Forall_forall in A1, A2.
  inversion Tl' as [|? ? Tb Tl'']; subst.
  assert (E : a = b).
  { assert (Hb : In b (a :: l)) by (eapply Permutation_in; [symmetry; exact Hp|now left]).
    assert (Ha : In a (b :: l')) by (eapply Permutation_in; [exact Hp|now left]).
    destruct Hb as [Hb|Hb]; auto. destruct Ha as [Ha|Ha]; auto. eapply before_total; eauto. }
  subst b. f_equal. apply IH; auto. eapply Permutation_cons_inv; eauto.
Qed.
(** The insertion sort of [Platform] meets the contract. *)
Lemma insert_by_perm lt x l : Permutation (x :: l) (insert_by lt x l).
Proof.
  induction l as [|y l IH]; cbn; [reflexivity|]. destruct (lt x y); [reflexivity|]. etransitivity; [apply perm_swap|]. now constructor.
Qed.
Lemma insertion_sort_contract : sort_contract insertion_sort.
Proof.
  intros lt l (Hd & Hi & Ht & He). unfold insertion_sort.
  assert (K : forall r acc, (forall x, In x (acc ++ r) -> In x l) -> StronglySorted (fun a b => lt b a <> Some true) acc ->
    Permutation (acc ++ r) (fold_left (fun acc x => insert_by (ltb lt) x acc) r acc) /\
    StronglySorted (fun a b => lt b a <> Some true) (fold_left (fun acc x => insert_by (ltb lt) x acc) r acc)).
  { induction r as [|x r IH]; intros acc Hin Hs; cbn [fold_left]; [rewrite app_nil_r; auto|].
    assert (P := insert_by_perm (ltb lt) x acc).
    destruct (IH (insert_by (ltb lt) x acc)) as [H1 H2].
    - intros y Hy. apply Hin. apply in_app_iff in Hy as [Hy|Hy]; [|apply in_or_app; right; now right].
      apply (Permutation_in y (Permutation_sym P)) in Hy. apply in_or_app. destruct Hy as [->|Hy]; [right; now left|now left].
    - assert (Hx : In x l) by (apply Hin, in_or_app; right; now left).
      assert (Hacc : forall y, In y acc -> In y l) by (intros; apply Hin, in_or_app; now left).
      clear IH P Hin. induction acc as [|y acc IH]; cbn [insert_by]; [repeat constructor|].
      inversion Hs as [|? ? Hs' Hy]; subst. assert (Iy : In y l) by (apply Hacc; now left).
      assert (Iacc : forall z, In z acc -> In z l) by (intros; apply Hacc; now right).
      destruct (ltb lt x y) eqn:E.
      + apply ltb_true in E. constructor; [now constructor|]. constructor.
        * intros X. apply (Hi x Hx). eauto.
        * apply Forall_forall. intros z Hz X. rewrite Forall_forall in Hy. assert (Iz := Iacc z Hz). specialize (Hy z Hz).
          apply Hy. eapply (Ht z x y); eauto.
      + apply ltb_false in E. constructor; [now apply IH|]. apply (Permutation_Forall (insert_by_perm (ltb lt) x acc)). now constructor.
    - split; [|exact H2]. etransitivity; [|exact H1]. etransitivity; [symmetry; apply Permutation_middle|].
      change (x :: acc ++ r) with ((x :: acc) ++ r). now apply Permutation_app_tail. }
  destruct (K l [] ltac:(auto) ltac:(constructor)) as [H1 H2]. split; auto.
Qed.
