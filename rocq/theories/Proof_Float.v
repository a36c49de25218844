(** SpecFloat operations against the reals, via Flocq. *)
From Coq Require Import ZArith Reals Psatz.
From Coq Require Import Floats.SpecFloat.
From Flocq Require Import Core Bracket BinarySingleNaN Relative Plus_error.
From Verif Require Import Bytes Outcome Num.
From Verif Require Import Spec_Float.
Open Scope Z_scope.

Lemma value_SF2R f : value f = SF2R radix2 f.
Proof. destruct f as [s|s| |s m e]; try reflexivity. unfold value, SF2R, F2R. cbn [Fnum Fexp]. rewrite bpow_powerRZ. now destruct s. Qed.
Lemma finite_SF f : is_finite_SF f = true <-> finite f.
Proof. destruct f; cbn; intuition congruence. Qed.
Lemma negative_SF f : sign_SF f = negative f.
Proof. destruct f; reflexivity. Qed.

Section Format.
Context (prec emax : Z) (Hp : Prec_gt_0 prec) (He : Prec_lt_emax prec emax).

Lemma round_nearest_even_equiv s m l : round_nearest_even m l = choice_mode mode_NE s m l.
Proof. case l as [|c]; [|case c]; cbn; try reflexivity. now case Z.even. Qed.
Lemma binary_round_aux_equiv sx mx ex lx :
  SpecFloat.binary_round_aux prec emax sx mx ex lx = BinarySingleNaN.binary_round_aux prec emax mode_NE sx mx ex lx.
Proof.
  unfold SpecFloat.binary_round_aux, BinarySingleNaN.binary_round_aux.
  set (mrse' := shr_fexp _ _ _ _ _). case mrse'; intros mrs' e'. now rewrite (round_nearest_even_equiv sx).
Qed.
Lemma binary_round_equiv s m e : SpecFloat.binary_round prec emax s m e = BinarySingleNaN.binary_round prec emax mode_NE s m e.
Proof.
  unfold SpecFloat.binary_round, BinarySingleNaN.binary_round, BinarySingleNaN.shl_align_fexp. set (mez := shl_align _ _ _). case mez as [mz ez].
  apply binary_round_aux_equiv.
Qed.
Definition NE : R -> R := rounded prec emax.
Lemma NE_round x : NE x = round radix2 (fexp prec emax) (round_mode mode_NE) x.
Proof. reflexivity. Qed.
Lemma to_rounds neg x z :
  (if Rlt_bool (Rabs (round radix2 (fexp prec emax) (round_mode mode_NE) x)) (bpow radix2 emax) then
     SF2R radix2 z = round radix2 (fexp prec emax) (round_mode mode_NE) x /\ is_finite_SF z = true /\ sign_SF z = neg
   else z = binary_overflow prec emax mode_NE neg) -> rounds_to prec emax neg x z.
Proof.
  intros H. unfold rounds_to. change (rounded prec emax x) with (round radix2 (fexp prec emax) (round_mode mode_NE) x).
  change 2%R with (IZR radix2). rewrite <- bpow_powerRZ.
  destruct (Rlt_bool_spec (Rabs (round radix2 (fexp prec emax) (round_mode mode_NE) x)) (bpow radix2 emax)) as [L|L].
  - split; [|lra]. intros _. destruct H as (H1 & H2 & H3). rewrite value_SF2R, <- negative_SF. now apply finite_SF in H2.
  - split; [lra|]. intros _. exact H.
Qed.
Definition sgn (s : bool) (x : R) : R := if s then (- x)%R else x.
Lemma round_spec s m e : valid_binary prec emax (SpecFloat.binary_round prec emax s m e) = true /\
  rounds_to prec emax s (value (S754_finite s m e)) (SpecFloat.binary_round prec emax s m e).
Proof using Hp He.
  rewrite binary_round_equiv. destruct (binary_round_correct prec emax Hp He mode_NE s m e) as [H1 H2].
  split; [exact H1|]. apply to_rounds. rewrite value_SF2R. exact H2.
Qed.

Notation bf := (binary_float prec emax).
Notation V f := (valid_binary prec emax f = true).
Lemma lift_valid f : V f -> exists b : bf, f = B2SF b.
Proof. intros H. exists (SF2B f H). symmetry. apply B2SF_SF2B. Qed.
Lemma binary_normalize_equiv m e szero :
  SpecFloat.binary_normalize prec emax m e szero = B2SF (BinarySingleNaN.binary_normalize prec emax Hp He mode_NE m e szero).
Proof. case m as [|p|p]; cbn; [reflexivity| |]; rewrite B2SF_SF2B; apply binary_round_equiv. Qed.
Lemma add_equiv (x y : bf) : SFadd prec emax (B2SF x) (B2SF y) = B2SF (Bplus mode_NE x y).
Proof.
  case x as [sx|sx| |sx mx ex Bx]; case y as [sy|sy| |sy my ey By]; [now (trivial || cbn; case Bool.eqb)..|].
  apply binary_normalize_equiv.
Qed.
Lemma sub_equiv (x y : bf) : SFsub prec emax (B2SF x) (B2SF y) = B2SF (Bminus mode_NE x y).
Proof.
  case x as [sx|sx| |sx mx ex Bx]; case y as [sy|sy| |sy my ey By]; [now (trivial || cbn; case Bool.eqb)..|].
  cbn -[SpecFloat.binary_normalize Fplus_naive]. unfold Zminus. rewrite <- cond_Zopp_negb. apply binary_normalize_equiv.
Qed.
Lemma mul_equiv (x y : bf) : SFmul prec emax (B2SF x) (B2SF y) = B2SF (Bmult mode_NE x y).
Proof.
  case x as [sx|sx| |sx mx ex Bx]; case y as [sy|sy| |sy my ey By]; [now trivial..|].
  cbn -[SpecFloat.binary_round_aux]. rewrite B2SF_SF2B. apply binary_round_aux_equiv.
Qed.
Lemma div_equiv (x y : bf) : SFdiv prec emax (B2SF x) (B2SF y) = B2SF (Bdiv mode_NE x y).
Proof.
  case x as [sx|sx| |sx mx ex Bx]; case y as [sy|sy| |sy my ey By]; [now trivial..|].
  cbn -[SpecFloat.binary_round_aux SFdiv_core_binary]. rewrite B2SF_SF2B. set (melz := SFdiv_core_binary _ _ _ _ _ _).
  case melz as [[mz ez] lz]. apply binary_round_aux_equiv.
Qed.

Lemma sub_valid x y : V x -> V y -> V (SFsub prec emax x y).
Proof. intros Hx Hy. destruct (lift_valid x Hx) as [a ->], (lift_valid y Hy) as [b ->]. rewrite sub_equiv. apply valid_binary_B2SF. Qed.
Lemma add_valid x y : V x -> V y -> V (SFadd prec emax x y).
Proof. intros Hx Hy. destruct (lift_valid x Hx) as [a ->], (lift_valid y Hy) as [b ->]. rewrite add_equiv. apply valid_binary_B2SF. Qed.
Lemma mul_valid x y : V x -> V y -> V (SFmul prec emax x y).
Proof. intros Hx Hy. destruct (lift_valid x Hx) as [a ->], (lift_valid y Hy) as [b ->]. rewrite mul_equiv. apply valid_binary_B2SF. Qed.
Lemma div_valid x y : V x -> V y -> V (SFdiv prec emax x y).
Proof. intros Hx Hy. destruct (lift_valid x Hx) as [a ->], (lift_valid y Hy) as [b ->]. rewrite div_equiv. apply valid_binary_B2SF. Qed.

Lemma finite_B (a : bf) : finite (B2SF a) -> is_finite a = true.
Proof. now destruct a. Qed.
Lemma value_B (a : bf) : value (B2SF a) = B2R a.
Proof. rewrite value_SF2R. apply SF2R_B2SF. Qed.
Lemma negative_B (a : bf) : negative (B2SF a) = Bsign a.
Proof. now destruct a. Qed.
Lemma isfin_B (a : bf) : is_finite_SF (B2SF a) = is_finite a.
Proof. now destruct a. Qed.
Lemma value_sign f : if negative f then (value f <= 0)%R else (0 <= value f)%R.
Proof.
  destruct f as [s|s| |s m e]; cbn; try (destruct s; lra); [lra|].
  assert (0 < powerRZ 2 e)%R by (apply powerRZ_lt; lra). destruct s.
  - assert (IZR (Z.neg m) < 0)%R by (apply IZR_lt; lia). nra.
  - assert (0 < IZR (Z.pos m))%R by (apply IZR_lt; lia). nra.
Qed.
Lemma value_zero f : value f = 0%R -> finite f -> zero f.
Proof.
  destruct f as [s|s| |s m e]; cbn; auto; try easy. intros H _.
  assert (0 < powerRZ 2 e)%R by (apply powerRZ_lt; lra). destruct s.
  - assert (IZR (Z.neg m) < 0)%R by (apply IZR_lt; lia). nra.
  - assert (0 < IZR (Z.pos m))%R by (apply IZR_lt; lia). nra.
Qed.

Lemma sum_sign x y a b s :
  s = match Rcompare (x + y) 0 with Eq => andb a b | Lt => true | Gt => false end ->
  s = (if Rlt_dec (x + y) 0 then true else if Rlt_dec 0 (x + y) then false else andb a b).
Proof. intros ->. destruct (Rcompare_spec (x + y) 0); destruct (Rlt_dec (x + y) 0); destruct (Rlt_dec 0 (x + y)); try lra; auto. Qed.
Lemma over_nonzero x : (bpow radix2 emax <= Rabs (round radix2 (fexp prec emax) (round_mode mode_NE) x))%R -> x <> 0%R.
Proof using. intros H ->. rewrite round_0, Rabs_R0 in H; [|apply valid_rnd_round_mode]. assert (X := bpow_gt_0 radix2 emax). lra. Qed.
Lemma add_rounds x y : V x -> V y -> finite x -> finite y ->
  rounds_to prec emax (result_sign Add x y) (value x + value y) (SFadd prec emax x y).
Proof using Hp He.
  intros Hx Hy Fx Fy. destruct (lift_valid x Hx) as [a ->], (lift_valid y Hy) as [b ->]. rewrite add_equiv.
  assert (Sa := value_sign (B2SF a)). assert (Sb := value_sign (B2SF b)).
  unfold result_sign. rewrite !value_B, !negative_B in *. apply to_rounds.
  assert (C := Bplus_correct prec emax Hp He mode_NE a b (finite_B a Fx) (finite_B b Fy)).
  rewrite SF2R_B2SF, isfin_B, negative_SF, negative_B.
  destruct (Rlt_bool_spec (Rabs (round radix2 (fexp prec emax) (round_mode mode_NE) (B2R a + B2R b))) (bpow radix2 emax)) as [L|L].
  - destruct C as (C1 & C2 & C3). repeat split; auto. apply sum_sign. exact C3.
  - destruct C as (C1 & C2). rewrite C1. f_equal. apply over_nonzero in L. rewrite <- C2 in *. destruct (Bsign a).
    + destruct (Rlt_dec (B2R a + B2R b) 0); auto. lra.
    + destruct (Rlt_dec (B2R a + B2R b) 0); [lra|]. destruct (Rlt_dec 0 (B2R a + B2R b)); auto.
Qed.
Lemma sub_rounds x y : V x -> V y -> finite x -> finite y ->
  rounds_to prec emax (result_sign Subtract x y) (value x - value y) (SFsub prec emax x y).
Proof using Hp He.
  intros Hx Hy Fx Fy. destruct (lift_valid x Hx) as [a ->], (lift_valid y Hy) as [b ->]. rewrite sub_equiv.
  assert (Sa := value_sign (B2SF a)). assert (Sb := value_sign (B2SF b)).
  unfold result_sign. rewrite !value_B, !negative_B in *. apply to_rounds.
  assert (C := Bminus_correct prec emax Hp He mode_NE a b (finite_B a Fx) (finite_B b Fy)).
  rewrite SF2R_B2SF, isfin_B, negative_SF, negative_B.
  destruct (Rlt_bool_spec (Rabs (round radix2 (fexp prec emax) (round_mode mode_NE) (B2R a - B2R b))) (bpow radix2 emax)) as [L|L].
  - destruct C as (C1 & C2 & C3). repeat split; auto. apply sum_sign. exact C3.
  - destruct C as (C1 & C2). rewrite C1. f_equal. apply over_nonzero in L. rewrite C2 in *. destruct (Bsign b); cbn [negb] in *.
    + destruct (Rlt_dec (B2R a - B2R b) 0); [lra|]. destruct (Rlt_dec 0 (B2R a - B2R b)); auto.
    + destruct (Rlt_dec (B2R a - B2R b) 0); auto. lra.
Qed.
Lemma mul_rounds x y : V x -> V y -> finite x -> finite y ->
  rounds_to prec emax (result_sign Multiply x y) (value x * value y) (SFmul prec emax x y).
Proof using Hp He.
  intros Hx Hy Fx Fy. destruct (lift_valid x Hx) as [a ->], (lift_valid y Hy) as [b ->]. rewrite mul_equiv.
  unfold result_sign. rewrite !value_B, !negative_B in *. apply to_rounds.
  assert (C := Bmult_correct prec emax Hp He mode_NE a b). apply finite_B in Fx, Fy.
  rewrite SF2R_B2SF, isfin_B, negative_SF, negative_B.
  destruct (Rlt_bool_spec (Rabs (round radix2 (fexp prec emax) (round_mode mode_NE) (B2R a * B2R b))) (bpow radix2 emax)) as [L|L].
  - destruct C as (C1 & C2 & C3). rewrite Fx, Fy in C2. repeat split; auto. apply C3. now destruct (Bmult mode_NE a b).
  - exact C.
Qed.
Lemma div_rounds x y : V x -> V y -> finite x -> finite y -> ~ zero y ->
  rounds_to prec emax (result_sign Divide x y) (value x / value y) (SFdiv prec emax x y).
Proof using Hp He.
  intros Hx Hy Fx Fy Hz. assert (Hn : value y <> 0%R) by (intros E; apply Hz, value_zero; auto).
  destruct (lift_valid x Hx) as [a ->], (lift_valid y Hy) as [b ->]. rewrite div_equiv.
  unfold result_sign. rewrite !value_B, !negative_B in *. apply to_rounds.
  assert (C := Bdiv_correct prec emax Hp He mode_NE a b Hn). apply finite_B in Fx, Fy.
  rewrite SF2R_B2SF, isfin_B, negative_SF, negative_B.
  destruct (Rlt_bool_spec (Rabs (round radix2 (fexp prec emax) (round_mode mode_NE) (B2R a / B2R b))) (bpow radix2 emax)) as [L|L].
  - destruct C as (C1 & C2 & C3). rewrite Fx in C2. repeat split; auto. apply C3. now destruct (Bdiv mode_NE a b).
  - exact C.
Qed.
Lemma div_core_rounds s mx ex my ey :
  let z := let '(mz, ez, lz) := SFdiv_core_binary prec emax (Zpos mx) ex (Zpos my) ey in SpecFloat.binary_round_aux prec emax s mz ez lz in
  V z /\ rounds_to prec emax s (value (S754_finite s mx ex) / value (S754_finite false my ey)) z.
Proof using Hp He.
  assert (C := Bdiv_correct_aux prec emax Hp He mode_NE s mx ex false my ey).
  replace (xorb s false) with s in C by now destruct s.
  cbv zeta. destruct (SFdiv_core_binary prec emax (Zpos mx) ex (Zpos my) ey) as [[mz ez] lz].
  rewrite binary_round_aux_equiv. destruct C as [C1 C2]. split; [exact C1|]. apply to_rounds. rewrite !value_SF2R. exact C2.
Qed.
Lemma lt_value x y : V x -> V y -> finite x -> finite y -> (SFltb x y = true <-> (value x < value y)%R).
Proof.
  intros Hx Hy Fx Fy. destruct (lift_valid x Hx) as [a ->], (lift_valid y Hy) as [b ->].
  change (SFltb (B2SF a) (B2SF b)) with (Bltb a b). rewrite Bltb_correct by auto using finite_B. rewrite !value_B.
  destruct (Rlt_bool_spec (B2R a) (B2R b)); split; intros; auto; try lra; discriminate.
Qed.
Lemma value_format x : V x -> finite x -> generic_format radix2 (fexp prec emax) (value x).
Proof. intros Hx Fx. destruct (lift_valid x Hx) as [a ->]. rewrite value_B. apply generic_format_B2R. Qed.
Lemma value_bound x : V x -> (Rabs (value x) < bpow radix2 emax)%R.
Proof using Hp He. intros Hx. destruct (lift_valid x Hx) as [a ->]. rewrite value_B. apply abs_B2R_lt_emax. Qed.
(** Rounding a number of the format gives that number. *)
Lemma rounds_exact neg x f : generic_format radix2 (fexp prec emax) x -> (Rabs x < bpow radix2 emax)%R ->
  rounds_to prec emax neg x f -> finite f /\ value f = x /\ negative f = neg.
Proof using.
  intros Hx Hb [H _]. change (rounded prec emax x) with (round radix2 (fexp prec emax) ZnearestE x) in H.
  rewrite round_generic in H; [|apply valid_rnd_N|exact Hx]. apply H. change 2%R with (IZR radix2). rewrite <- bpow_powerRZ. exact Hb.
Qed.
Lemma value_inj x y : V x -> V y -> finite x -> finite y -> value x = value y -> negative x = negative y -> x = y.
Proof.
  intros Hx Hy Fx Fy H1 H2. destruct (lift_valid x Hx) as [a ->], (lift_valid y Hy) as [b ->]. rewrite !value_B in H1. rewrite !negative_B in H2.
  f_equal. apply B2R_Bsign_inj; auto using finite_B.
Qed.
(** Integers up to [2^prec] are in the format. *)
Lemma int_format z : Z.abs z <= 2 ^ prec -> prec < emax -> 3 - emax - prec <= 0 -> generic_format radix2 (fexp prec emax) (IZR z).
Proof using Hp.
  intros Hz H1 H2. destruct (Z.eq_dec (Z.abs z) (2 ^ prec)) as [E|N].
  - assert (Hb : generic_format radix2 (fexp prec emax) (bpow radix2 prec)).
    { apply generic_format_bpow. unfold fexp, emin. unfold Prec_gt_0 in Hp. lia. }
    assert (X : IZR (Z.abs z) = bpow radix2 prec) by (rewrite E; change (2 ^ prec)%Z with (radix_val radix2 ^ prec)%Z; apply IZR_Zpower; unfold Prec_gt_0 in Hp; lia).
    destruct (Z.abs_spec z) as [[_ Y]|[_ Y]]; rewrite Y in X; [now rewrite X|].
    rewrite opp_IZR in X. replace (IZR z) with (- bpow radix2 prec)%R by lra. now apply generic_format_opp.
  - apply generic_format_FLT. exists (Float radix2 z 0); cbn [Fnum Fexp]; [unfold F2R; cbn; ring|change (radix2 ^ prec)%Z with (2 ^ prec)%Z; lia|unfold emin; lia].
Qed.
End Format.

(** ** The two formats of the program *)
Global Instance prec32_gt : Prec_gt_0 24. Proof. reflexivity. Qed.
Global Instance prec64_gt : Prec_gt_0 53. Proof. reflexivity. Qed.
Global Instance prec32_lt : Prec_lt_emax 24 128. Proof. reflexivity. Qed.
Global Instance prec64_lt : Prec_lt_emax 53 1024. Proof. reflexivity. Qed.
Notation V32 f := (valid_binary prec32 emax32 f = true).
Notation V64 f := (valid_binary prec64 emax64 f = true).

Lemma to_float_narrows d : V32 (to_float d) /\ narrows d (to_float d).
Proof. destruct d as [s|s| |s m e]; try (split; reflexivity). apply (round_spec 24 128 _ _). Qed.
Lemma format_32_64 x : generic_format radix2 (fexp 24 128) x -> generic_format radix2 (fexp 53 1024) x.
Proof. intros H. eapply generic_inclusion_mag; [|exact H]. intros _. unfold fexp, emin. lia. Qed.
Lemma bpow_128 : (bpow radix2 128 <= bpow radix2 1024)%R.
Proof. apply bpow_le. lia. Qed.
Lemma to_double_exact f : V32 f -> V64 (to_double f) /\ value (to_double f) = value f /\ negative (to_double f) = negative f /\
  (finite (to_double f) <-> finite f) /\ (~ finite f -> to_double f = f).
Proof.
  intros Hf. destruct f as [s|s| |s m e]; try (repeat split; easy).
  destruct (round_spec 53 1024 _ _ s m e) as [H1 H2].
  apply (rounds_exact 53 1024) in H2.
  - destruct H2 as (A & B & C). split; [exact H1|]. split; [exact B|]. split; [exact C|]. split; [|intros X; now contradiction X].
    split; intros _; [exact I|exact A].
  - apply format_32_64. now apply (value_format 24 128).
  - eapply Rlt_le_trans; [now apply (value_bound 24 128 _ _)|apply bpow_128].
Qed.
Lemma zero_double f : V32 f -> (zero (to_double f) <-> zero f).
Proof.
  intros Hf. destruct (to_double_exact f Hf) as (_ & Hv & _ & Hfin & Hn). destruct f as [s|s| |s m e]; try reflexivity.
  split; [|easy]. intros H. assert (value (to_double (S754_finite s m e)) = 0%R) by (destruct (to_double _); easy).
  rewrite Hv in H0. now apply value_zero in H0.
Qed.

Lemma IZR_format z : Z.abs z <= 2 ^ 53 -> generic_format radix2 (fexp 53 1024) (IZR z).
Proof. intros H. apply (int_format 53 1024 _ z H); reflexivity || discriminate. Qed.
Lemma IZR_bound z : Z.abs z <= 2 ^ 53 -> (Rabs (IZR z) < bpow radix2 1024)%R.
Proof.
  intros H. rewrite <- abs_IZR. apply Rle_lt_trans with (IZR (2 ^ 53)); [now apply IZR_le|].
  change (2 ^ 53)%Z with (Zpower radix2 53). rewrite IZR_Zpower by lia. apply bpow_lt. lia.
Qed.
Lemma int_value s p : value (S754_finite s p 0) = IZR (if s then Z.neg p else Z.pos p).
Proof. cbn. ring. Qed.
Lemma int_to_double_value z : Z.abs z <= 2 ^ 53 -> V64 (int_to_double z) /\ finite (int_to_double z) /\ value (int_to_double z) = IZR z /\
  negative (int_to_double z) = (z <? 0)%Z.
Proof.
  intros H. destruct z as [|p|p]; [repeat split| |];
  [destruct (round_spec 53 1024 _ _ false p 0) as [H1 H2]|destruct (round_spec 53 1024 _ _ true p 0) as [H1 H2]];
  rewrite int_value in H2; apply (rounds_exact 53 1024) in H2; auto using IZR_format, IZR_bound.
Qed.

Lemma trunc_mag_value m e : trunc_mag m e = Ztrunc (value (S754_finite false m e)).
Proof.
  unfold trunc_mag, value. rewrite Ztrunc_floor by (apply Rmult_le_pos; [apply IZR_le; lia|apply powerRZ_le; lra]).
  destruct (Z.leb_spec 0 e).
  - change 2%R with (IZR radix2). rewrite <- bpow_powerRZ, <- IZR_Zpower, <- mult_IZR, Zfloor_IZR by auto. reflexivity.
  - rewrite <- Zfloor_div by (apply Z.pow_nonzero; lia). f_equal. unfold Rdiv. f_equal. 
    change 2%R with (IZR radix2). rewrite <- bpow_powerRZ. change (2 ^ - e)%Z with (Zpower radix2 (- e)). rewrite IZR_Zpower by lia.
    rewrite <- bpow_opp. f_equal. lia.
Qed.
Lemma trunc_value s m e : cond_Zopp s (trunc_mag m e) = Ztrunc (value (S754_finite s m e)).
Proof.
  rewrite trunc_mag_value. destruct s; [|reflexivity]. cbn [cond_Zopp]. rewrite <- Ztrunc_opp. f_equal.
  unfold value. change (Z.neg m) with (- Z.pos m). rewrite opp_IZR. ring.
Qed.
Lemma double_to_int_spec f : double_to_int f =
  match f with S754_infinity _ | S754_nan => UB IntConversion
  | _ => if in_int (Ztrunc (value f)) then Ok (Ztrunc (value f)) else UB IntConversion end.
Proof.
  destruct f as [s|s| |s m e]; try reflexivity.
  - cbn [value]. rewrite Ztrunc_IZR. reflexivity.
  - cbn [double_to_int]. now rewrite trunc_value.
Qed.
Lemma double_to_int_value f : finite f -> double_to_int f = if in_int (Ztrunc (value f)) then Ok (Ztrunc (value f)) else UB IntConversion.
Proof. intros H. rewrite double_to_int_spec. now destruct f. Qed.
Lemma in_int_abs z : in_int z = true -> Z.abs z <= 2 ^ 31.
Proof. unfold in_int, INT_MIN, INT_MAX. rewrite Bool.andb_true_iff, !Z.leb_le. lia. Qed.
Lemma double_to_int_to_double z : in_int z = true -> double_to_int (int_to_double z) = Ok z.
Proof.
  intros H. assert (A := in_int_abs _ H). destruct (int_to_double_value z) as (_ & F & E & _); [lia|].
  rewrite double_to_int_value, E, Ztrunc_IZR, H by exact F. reflexivity.
Qed.
