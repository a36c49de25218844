(** Integer arithmetic through doubles; reading float literals. *)
From Coq Require Import ZArith Reals Psatz QArith.
From Flocq Require Import Core Relative.
From Verif Require Import Bytes StrUtils Grammar Outcome Num Containers Instance.
From Verif Require Import Lemmas Proof_Grammar Proof_Inv Proof_TextLit Proof_Number Proof_Float.
From Verif Require Import Spec_Grammar Spec_State Spec_Number Spec_Float.
Open Scope Z_scope.
Open Scope list_scope.

Notation rnd x := (rounded 53 1024 x).
Lemma rnd_le x y : (x <= y)%R -> (rnd x <= rnd y)%R.
Proof. intros H. unfold rounded. apply round_le; auto. - apply FLT_exp_valid. reflexivity. - apply valid_rnd_N. Qed.
Lemma rnd_int z : Z.abs z <= 2 ^ 53 -> rnd (IZR z) = IZR z.
Proof. intros H. apply round_generic; [apply valid_rnd_N|]. exact (IZR_format z H). Qed.
Lemma rnd_opp x : (rnd (- x) = - rnd x)%R.
Proof. apply round_NE_opp. Qed.

Lemma out_high neg x f : (IZR (2 ^ 31) <= x)%R -> double neg x f -> double_to_int f = UB IntConversion.
Proof.
  intros Hx [H1 H2]. assert (R : (IZR (2 ^ 31) <= rnd x)%R) by (rewrite <- rnd_int by (vm_compute; discriminate); now apply rnd_le).
  destruct (Rlt_or_le (Rabs (rnd x)) (powerRZ 2 1024)) as [L|L].
  - destruct (H1 L) as (F & E & _). rewrite double_to_int_value, E by exact F.
    assert (T : 2 ^ 31 <= Ztrunc (rnd x)) by (rewrite <- (Ztrunc_IZR (2 ^ 31)); now apply Ztrunc_le).
    unfold in_int, INT_MAX. replace (Ztrunc (rnd x) <=? 2 ^ 31 - 1) with false by (symmetry; apply Z.leb_gt; lia). now rewrite andb_false_r.
  - rewrite (H2 L). reflexivity.
Qed.
Lemma out_low neg x f : (x <= IZR (- 2 ^ 31 - 1))%R -> double neg x f -> double_to_int f = UB IntConversion.
Proof.
  intros Hx [H1 H2]. assert (R : (rnd x <= IZR (- 2 ^ 31 - 1))%R) by (rewrite <- rnd_int by (vm_compute; discriminate); now apply rnd_le).
  destruct (Rlt_or_le (Rabs (rnd x)) (powerRZ 2 1024)) as [L|L].
  - destruct (H1 L) as (F & E & _). rewrite double_to_int_value, E by exact F.
    assert (T : Ztrunc (rnd x) <= - 2 ^ 31 - 1) by (rewrite <- (Ztrunc_IZR (- 2 ^ 31 - 1)); now apply Ztrunc_le).
    unfold in_int, INT_MIN. replace (- 2 ^ 31 <=? Ztrunc (rnd x)) with false by (symmetry; apply Z.leb_gt; lia). reflexivity.
  - rewrite (H2 L). reflexivity.
Qed.
Lemma in_int_false z : in_int z = false <-> (2 ^ 31 <= z \/ z <= - 2 ^ 31 - 1).
Proof.
  destruct (in_int z) eqn:E; unfold in_int, INT_MIN, INT_MAX in E; [apply andb_true_iff in E|apply andb_false_iff in E]; rewrite !Z.leb_le in E || rewrite !Z.leb_gt in E; split; try easy; try lia.
Qed.
Lemma exact_int neg k f : double neg (IZR k) f -> double_to_int f = if in_int k then Ok k else UB IntConversion.
Proof.
  intros H. destruct (in_int k) eqn:E.
  - assert (A := in_int_abs _ E). apply (rounds_exact 53 1024) in H; [|apply IZR_format; lia|apply IZR_bound; lia].
    destruct H as (F & V & _). rewrite double_to_int_value, V, Ztrunc_IZR, E by exact F. reflexivity.
  - apply in_int_false in E as [E|E]; apply IZR_le in E; [eapply out_high|eapply out_low]; eauto.
Qed.
(** Quotients of 32-bit numbers: rounding never crosses an integer. *)
Lemma rnd_quotient a b : 0 <= a <= 2 ^ 31 -> 0 < b <= 2 ^ 31 ->
  (IZR (a / b) <= rnd (IZR a / IZR b) < IZR (a / b + 1))%R.
Proof.
  intros Ha Hb. set (q := a / b). assert (Q0 : 0 <= q) by (apply Z.div_pos; lia).
  assert (Q1 : b * q <= a) by (apply Z.mul_div_le; lia). assert (Q2 : a < b * (q + 1)) by (apply Z.mul_succ_div_gt; lia).
  assert (Q3 : q <= 2 ^ 31) by nia.
  assert (B0 : (0 < IZR b)%R) by (apply IZR_lt; lia).
  assert (X1 : (IZR q <= IZR a / IZR b)%R).
  { apply Rmult_le_reg_r with (IZR b); [exact B0|]. replace (IZR a / IZR b * IZR b)%R with (IZR a) by (field; lra).
    rewrite <- mult_IZR. apply IZR_le. lia. }
  split; [rewrite <- (rnd_int q) by lia; now apply rnd_le|].
  destruct (Z.eq_dec a 0) as [->|Na].
  { unfold Rdiv. rewrite Rmult_0_l. rewrite (rnd_int 0) by (vm_compute; discriminate). apply IZR_lt. lia. }
  set (x := (IZR a / IZR b)%R) in *.
  assert (X2 : (x <= IZR (q + 1) - / IZR b)%R).
  { apply Rmult_le_reg_r with (IZR b); [exact B0|]. unfold x. replace (IZR a / IZR b * IZR b)%R with (IZR a) by (field; lra).
    replace ((IZR (q + 1) - / IZR b) * IZR b)%R with (IZR (q + 1) * IZR b - 1)%R by (field; lra).
    rewrite <- mult_IZR, <- minus_IZR. apply IZR_le. lia. }
  assert (X3 : (x <= IZR (2 ^ 31) * / IZR b)%R).
  { unfold x, Rdiv. apply Rmult_le_compat_r; [left; now apply Rinv_0_lt_compat|]. apply IZR_le. lia. }
  assert (X4 : (bpow radix2 (-31) <= x)%R).
  { unfold x. change (bpow radix2 (-31)) with (/ IZR (2 ^ 31))%R. apply Rle_trans with (/ IZR b)%R.
    - apply Rinv_le; [exact B0|]. apply IZR_le. lia.
    - unfold Rdiv. rewrite <- (Rmult_1_l (/ IZR b)) at 1. apply Rmult_le_compat_r; [left; now apply Rinv_0_lt_compat|]. apply IZR_le. lia. }
  assert (Xp : (0 < x)%R) by (eapply Rlt_le_trans; [apply bpow_gt_0|exact X4]).
  assert (R := relative_error_N_FLT radix2 (3 - 1024 - 53) 53 prec64_gt (fun x => negb (Z.even x)) x).
  rewrite (Rabs_pos_eq x) in R by lra.
  assert (R' : (Rabs (rnd x - x) <= / 2 * bpow radix2 (-53 + 1) * x)%R).
  { apply R. eapply Rle_trans; [|exact X4]. apply bpow_le. lia. }
  apply Rabs_le_inv in R'. destruct R' as [_ R'].
  change (bpow radix2 (-53 + 1)) with (/ IZR (2 ^ 52))%R in R'.
  assert (I : (0 < / IZR b)%R) by now apply Rinv_0_lt_compat.
  assert (S : (/ 2 * / IZR (2 ^ 52) * x < / IZR b)%R).
  { apply Rle_lt_trans with (/ 2 * / IZR (2 ^ 52) * (IZR (2 ^ 31) * / IZR b))%R.
    - apply Rmult_le_compat_l; [|exact X3]. apply Rmult_le_pos; [lra|]. left. apply Rinv_0_lt_compat. apply IZR_lt. reflexivity.
    - replace (/ 2 * / IZR (2 ^ 52) * (IZR (2 ^ 31) * / IZR b))%R with (/ IZR b * (/ 2 * / IZR (2 ^ 52) * IZR (2 ^ 31)))%R by ring.
      rewrite <- (Rmult_1_r (/ IZR b)) at 2. apply Rmult_lt_compat_l; [exact I|].
      change (2 ^ 52) with (2 ^ 21 * 2 ^ 31). rewrite mult_IZR.
      assert (0 < IZR (2 ^ 21))%R by now apply IZR_lt. assert (0 < IZR (2 ^ 31))%R by now apply IZR_lt.
      replace (/ 2 * / (IZR (2 ^ 21) * IZR (2 ^ 31)) * IZR (2 ^ 31))%R with (/ (2 * IZR (2 ^ 21)))%R by (field; split; lra).
      rewrite <- Rinv_1. apply Rinv_lt; [lra|]. assert (1 <= IZR (2 ^ 21))%R by (apply IZR_le; vm_compute; discriminate). lra. }
  lra.
Qed.
Lemma quotient_int neg z d f : in_int z = true -> in_int d = true -> d <> 0 -> double neg (IZR z / IZR d) f ->
  double_to_int f = if in_int (Z.quot z d) then Ok (Z.quot z d) else UB IntConversion.
Proof.
  intros Hz Hd Hn H. apply in_int_abs in Hz, Hd.
  assert (D0 : (IZR d <> 0)%R) by (now apply not_0_IZR).
  assert (R := rnd_quotient (Z.abs z) (Z.abs d)). specialize (R ltac:(lia) ltac:(lia)).
  assert (Q := Z.quot_div z d Hn). set (q := Z.abs z / Z.abs d) in *.
  assert (Q0 : 0 <= q) by (apply Z.div_pos; lia).
  assert (Q3 : q <= 2 ^ 31) by (apply Z.div_le_upper_bound; nia).
  set (y := (IZR (Z.abs z) / IZR (Z.abs d))%R) in *.
  assert (Fl : Ztrunc (rnd y) = q).
  { rewrite Ztrunc_floor; [apply Zfloor_imp; exact R|]. apply Rle_trans with (IZR q); [now apply IZR_le|apply R]. }
  assert (T : Ztrunc (rnd (IZR z / IZR d)) = Z.quot z d /\ (Rabs (rnd (IZR z / IZR d)) < IZR (q + 1))%R).
  { assert (Y0 : (0 <= rnd y)%R) by (apply Rle_trans with (IZR q); [now apply IZR_le|apply R]).
    assert (P : (IZR z / IZR d = y \/ IZR z / IZR d = - y)%R).
    { unfold y. rewrite !abs_IZR. unfold Rabs. destruct (Rcase_abs (IZR z)), (Rcase_abs (IZR d)); [left|right|right|left]; field; lra. }
    rewrite Q. destruct (Z.lt_trichotomy z 0) as [Lz|[->|Lz]].
    - destruct (Z.lt_trichotomy d 0) as [Ld|[->|Ld]]; [|easy|].
      + replace (IZR z / IZR d)%R with y by (unfold y; rewrite !Z.abs_neq, !opp_IZR by lia; field; exact D0).
        rewrite (Z.sgn_neg z), (Z.sgn_neg d), Fl, Rabs_pos_eq by auto. split; [lia|apply R].
      + replace (IZR z / IZR d)%R with (- y)%R by (unfold y; rewrite Z.abs_neq, Z.abs_eq, opp_IZR by lia; field; exact D0).
        rewrite (Z.sgn_neg z), (Z.sgn_pos d), rnd_opp, Ztrunc_opp, Rabs_Ropp, Fl, Rabs_pos_eq by auto. split; [lia|apply R].
    - assert (Q' : q = 0) by reflexivity. rewrite Q'. unfold Rdiv. rewrite Rmult_0_l, (rnd_int 0), Ztrunc_IZR, Rabs_R0 by (vm_compute; discriminate).
      split; [lia|]. apply IZR_lt. lia.
    - destruct (Z.lt_trichotomy d 0) as [Ld|[->|Ld]]; [|easy|].
      + replace (IZR z / IZR d)%R with (- y)%R by (unfold y; rewrite (Z.abs_neq d), Z.abs_eq, opp_IZR by lia; field; exact D0).
        rewrite (Z.sgn_pos z), (Z.sgn_neg d), rnd_opp, Ztrunc_opp, Rabs_Ropp, Fl, Rabs_pos_eq by auto. split; [lia|apply R].
      + replace (IZR z / IZR d)%R with y by (unfold y; rewrite !Z.abs_eq by lia; reflexivity).
        rewrite (Z.sgn_pos z), (Z.sgn_pos d), Fl, Rabs_pos_eq by auto. split; [lia|apply R]. }
  destruct T as [T1 T2]. destruct H as [H _]. destruct H as (F & V & _).
  { eapply Rlt_le_trans; [exact T2|]. apply Rle_trans with (IZR (2 ^ 53)); [apply IZR_le; lia|].
    change 2%R with (IZR radix2). rewrite <- bpow_powerRZ. change (IZR (2 ^ 53)) with (IZR (Zpower radix2 53)). rewrite IZR_Zpower by lia. apply bpow_le. lia. }
  rewrite double_to_int_value, V, T1 by exact F. reflexivity.
Qed.

Definition d_op (o : operation) : f64 -> f64 -> f64 :=
  match o with Add => d_add | Subtract => d_sub | Multiply => d_mul | Divide => d_div end.
Lemma arith_valid o x y : V64 x -> V64 y -> V64 (d_op o x y).
Proof. intros. destruct o; [apply add_valid|apply sub_valid|apply mul_valid|apply div_valid]; auto using prec64_gt, prec64_lt. Qed.
Lemma arith_rounds o x y : V64 x -> V64 y -> finite x -> finite y -> (o = Divide -> ~ zero y) ->
  double (result_sign o x y) (real_result o (value x) (value y)) (d_op o x y).
Proof.
  intros. destruct o; [apply add_rounds|apply sub_rounds|apply mul_rounds|apply div_rounds]; auto using prec64_gt, prec64_lt.
Qed.
Lemma not_zero_value x : zero x -> value x = 0%R.
Proof. now destruct x. Qed.
Lemma arith_ieee o x y : V64 x -> V64 y -> ieee o x y (d_op o x y).
Proof.
  intros Hx Hy.
  assert (D : {finite x /\ finite y /\ (o = Divide -> ~ zero y)} + {~ (finite x /\ finite y /\ (o = Divide -> ~ zero y))}).
  { destruct x, y, o; cbn; try (left; repeat split; auto; easy); right; intros (? & ? & ?); try easy; now apply H1. }
  destruct D as [(Fx & Fy & Hz)|D].
  - apply ieee_finite; auto. now apply arith_rounds.
  - destruct x as [sx|sx| |sx mx ex]; destruct y as [sy|sy| |sy my ey]; destruct o; cbn [finite zero] in D;
    try (exfalso; apply D; repeat split; auto; easy); cbn [d_op];
    try (apply ieee_nan; unfold nan; auto; fail);
    try (eapply ieee_sum_left; [auto|reflexivity|exact I]; fail);
    try (eapply ieee_sum_right; [auto|exact I|reflexivity]; fail);
    try (eapply ieee_difference_right; [auto|exact I|reflexivity]; fail);
    try (apply (ieee_sum_infinities 53 1024 Add _ _ sx sy); reflexivity);
    try (apply ieee_product_zero; [reflexivity|cbn; unfold infinite; eauto]; fail);
    try (apply ieee_product; [reflexivity|cbn; unfold infinite; eauto 6]; fail);
    try (apply ieee_quotient_undefined; [reflexivity|cbn; unfold infinite; eauto]; fail);
    try (apply ieee_quotient_infinite; [reflexivity|cbn; unfold infinite; eauto]; fail);
    try (apply ieee_quotient_zero; [reflexivity|exact I|cbn; unfold infinite; eauto]; fail).
    1: assert (X := ieee_difference_infinities 53 1024 Subtract (S754_infinity sx) (S754_infinity sy) sx sy eq_refl eq_refl eq_refl).
    + unfold d_sub, SFsub. destruct sx, sy; exact X.
    + apply ieee_product; [reflexivity|left; split; [unfold infinite; eauto|right; cbn; auto]].
Qed.

(** ** Integers *)
Definition int_result (o : operation) (z d : Z) : option Z :=
  match o with
  | Add => Some (z + d) | Subtract => Some (z - d) | Multiply => Some (z * d)
  | Divide => if d =? 0 then None else Some (Z.quot z d)
  end.
Lemma zero_int d : in_int d = true -> (zero (int_to_double d) <-> d = 0).
Proof.
  intros H. apply in_int_abs in H. destruct (int_to_double_value d) as (_ & F & V & _); [lia|]. split.
  - intros Z. apply not_zero_value in Z. rewrite V in Z. now apply eq_IZR.
  - intros ->. exact I.
Qed.
Lemma arith_ints o z d : in_int z = true -> in_int d = true ->
  double_to_int (d_op o (int_to_double z) (int_to_double d)) =
  match int_result o z d with Some r => if in_int r then Ok r else UB IntConversion | None => UB IntConversion end.
Proof.
  intros Hz Hd. assert (Az := in_int_abs _ Hz). assert (Ad := in_int_abs _ Hd).
  destruct (int_to_double_value z) as (V1 & F1 & E1 & S1); [lia|]. destruct (int_to_double_value d) as (V2 & F2 & E2 & S2); [lia|].
  destruct (Z.eq_dec d 0) as [->|Hn].
  - destruct o.
    + assert (X := arith_rounds Add _ _ V1 V2 F1 F2 ltac:(discriminate)). cbn [real_result] in X. rewrite E1, E2, <- plus_IZR in X.
      exact (exact_int _ _ _ X).
    + assert (X := arith_rounds Subtract _ _ V1 V2 F1 F2 ltac:(discriminate)). cbn [real_result] in X. rewrite E1, E2, <- minus_IZR in X.
      exact (exact_int _ _ _ X).
    + assert (X := arith_rounds Multiply _ _ V1 V2 F1 F2 ltac:(discriminate)). cbn [real_result] in X. rewrite E1, E2, <- mult_IZR in X.
      exact (exact_int _ _ _ X).
    + cbn [int_result d_op]. rewrite Z.eqb_refl. change (int_to_double 0) with (S754_zero false). unfold d_div, SFdiv.
      destruct (int_to_double z); reflexivity.
  - assert (X := arith_rounds o _ _ V1 V2 F1 F2 ltac:(intros _ Z; apply zero_int in Z; auto)). rewrite E1, E2 in X.
    destruct o; cbn [real_result int_result] in *.
    + rewrite <- plus_IZR in X. exact (exact_int _ _ _ X).
    + rewrite <- minus_IZR in X. exact (exact_int _ _ _ X).
    + rewrite <- mult_IZR in X. exact (exact_int _ _ _ X).
    + apply Z.eqb_neq in Hn as Hb. rewrite Hb. exact (quotient_int _ _ _ _ Hz Hd Hn X).
Qed.

(** ** Reading float literals *)
Lemma decimal_spec neg p k : V64 (decimal_to_double neg (Z.pos p) k) /\
  double neg ((if neg then -1 else 1) * IZR (Z.pos p) * powerRZ 10 k) (decimal_to_double neg (Z.pos p) k).
Proof.
  unfold decimal_to_double. destruct (Z.leb_spec 0 k) as [Hk|Hk].
  - destruct (round_spec 53 1024 _ _ neg (p * Z.to_pos (10 ^ k)) 0) as [H1 H2]. split; [exact H1|].
    rewrite int_value in H2. replace ((if neg then -1 else 1) * IZR (Z.pos p) * powerRZ 10 k)%R with
      (IZR (if neg then Z.neg (p * Z.to_pos (10 ^ k)) else Z.pos (p * Z.to_pos (10 ^ k)))); [exact H2|].
    assert (E : IZR (Z.pos (p * Z.to_pos (10 ^ k))) = (IZR (Z.pos p) * powerRZ 10 k)%R).
    { rewrite Pos2Z.inj_mul, Z2Pos.id, mult_IZR by (apply Z.pow_pos_nonneg; lia). f_equal.
      destruct k as [|q|q]; [reflexivity| |lia]. rewrite <- (positive_nat_Z q). rewrite <- pow_IZR, <- pow_powerRZ. reflexivity. }
    destruct neg; [|rewrite E; ring]. rewrite <- Pos2Z.opp_pos, opp_IZR, E. ring.
  - assert (P : 0 < 10 ^ (- k)) by (apply Z.pow_pos_nonneg; lia).
    assert (E : Z.pos (Z.to_pos (10 ^ (- k))) = 10 ^ (- k)) by (now apply Z2Pos.id).
    assert (C := div_core_rounds 53 1024 _ _ neg p 0 (Z.to_pos (10 ^ (- k))) 0). rewrite E in C. cbv zeta in C.
    unfold prec64, emax64. destruct (SFdiv_core_binary 53 1024 (Z.pos p) 0 (10 ^ - k) 0) as [[mz ez] lz]. destruct C as [C1 C2]. split; [exact C1|].
    rewrite !int_value, E in C2. replace ((if neg then -1 else 1) * IZR (Z.pos p) * powerRZ 10 k)%R with
      (IZR (if neg then Z.neg p else Z.pos p) / IZR (10 ^ - k))%R; [exact C2|].
    assert (T : (/ IZR (10 ^ - k) = powerRZ 10 k)%R).
    { destruct k as [|q|q]; [lia|lia|]. cbn [Z.opp]. rewrite <- (positive_nat_Z q), <- pow_IZR. reflexivity. }
    unfold Rdiv. rewrite T. destruct neg; [|ring]. rewrite <- Pos2Z.opp_pos, opp_IZR. ring.
Qed.
Lemma rnd_0 : rnd 0 = 0%R.
Proof. exact (rnd_int 0 ltac:(vm_compute; discriminate)). Qed.
Lemma decimal_rounds neg m k : 0 <= m -> V64 (decimal_to_double neg m k) /\
  double neg ((if neg then -1 else 1) * IZR m * powerRZ 10 k) (decimal_to_double neg m k).
Proof.
  intros Hm. destruct m as [|p|p]; [|apply decimal_spec|lia]. split; [reflexivity|]. cbn [decimal_to_double].
  replace ((if neg then -1 else 1) * 0 * powerRZ 10 k)%R with 0%R by ring. split.
  - rewrite rnd_0. repeat split.
  - rewrite rnd_0, Rabs_R0. intros H. assert (0 < powerRZ 2 1024)%R by (apply powerRZ_lt; lra). lra.
Qed.
Lemma reads_sign_iff sg neg : reads_sign sg neg -> sign sg /\ match sg with c :: _ => ceq c c_minus | [] => false end = neg.
Proof. unfold sign. destruct 1; auto. Qed.
Lemma app3 (a b c : bytes) : a ++ B "." ++ b = a ++ c_dot :: b. Proof. reflexivity. Qed.
Lemma dot_not_digit : is_numeric c_dot = false. Proof. reflexivity. Qed.
Lemma exponent_read ex e : reads_exponent ex e ->
  (match ex with c :: _ => is_numeric c = false | [] => True end) /\
  (match ex with
   | c :: r' => if ceq c c_e
                then let '(eneg, r'') := read_sign r' in
                     let '(ev, _, _) := read_digits r'' 0 0 in if eneg then - ev else ev
                else 0
   | [] => 0 end) = e.
Proof.
  destruct 1 as [|i z H]; [auto|]. split; [reflexivity|]. change (B "e" ++ i) with (c_e :: i). change (ceq c_e c_e) with true. cbv iota.
  destruct H as [ds Hd Hn|ds Hd Hn|ds Hd Hn].
  - assert (S := read_sign_cases [] ds (or_introl eq_refl) (digits_no_sign ds Hd)). cbn [app] in S. rewrite S.
    assert (R := read_digits_digits ds [] Hd I 0 0). rewrite app_nil_r in R. rewrite R. reflexivity.
  - rewrite (read_sign_cases (B "+") ds (or_intror (or_introl eq_refl)) (digits_no_sign ds Hd)).
    assert (R := read_digits_digits ds [] Hd I 0 0). rewrite app_nil_r in R. rewrite R. reflexivity.
  - rewrite (read_sign_cases (B "-") ds (or_intror (or_intror eq_refl)) (digits_no_sign ds Hd)).
    assert (R := read_digits_digits ds [] Hd I 0 0). rewrite app_nil_r in R. rewrite R. reflexivity.
Qed.
Lemma atof_decimal sg neg m d k ex e : reads_sign sg neg -> reads_mantissa m d k -> reads_exponent ex e ->
  atof (sg ++ m ++ ex) = decimal_to_double neg d (e - Z.of_nat k) /\ 0 <= d.
Proof.
  intros Hs Hm He. apply reads_sign_iff in Hs as [Hs Hneg]. destruct (exponent_read ex e He) as [He1 He2].
  unfold atof. rewrite (read_sign_cases sg (m ++ ex) Hs).
  2:{ destruct Hm as [ds Hd Hn|a b Ha Hb Hn].
      - assert (X := digits_no_sign ds Hd). destruct ds as [|c ds]; [easy|exact X].
      - destruct a as [|c a]; [cbn; split; discriminate|]. assert (X := digits_no_sign (c :: a) Ha). exact X. }
  rewrite Hneg. destruct Hm as [ds Hd Hn|a b Ha Hb Hn].
  - rewrite (read_digits_digits ds ex Hd He1 0 0). split; [|apply horner_nonneg; auto; lia].
    destruct He as [|i z Hi]; exact (f_equal (fun t => decimal_to_double neg (digits_value ds) (t - 0)) He2).
  - rewrite <- !app_assoc. rewrite (read_digits_digits a (B "." ++ b ++ ex) Ha eq_refl 0 0).
    change (B "." ++ b ++ ex) with (c_dot :: b ++ ex). cbv iota. change (ceq c_dot c_dot) with true. cbv iota. rewrite (read_digits_digits b ex Hb He1 _ 0), He2.
    split; [|apply horner_nonneg; [now apply Forall_app|lia]]. unfold digits_value. change (fold_left _ (a ++ b) 0) with (horner 0 (a ++ b)).
    rewrite horner_app. f_equal.
Qed.
Lemma atof_rounds l neg x : denotes_real l neg x -> V64 (atof l) /\ double neg x (atof l).
Proof.
  intros (sg & m & ex & d & k & e & -> & H1 & H2 & H3 & ->). destruct (atof_decimal _ _ _ _ _ _ _ H1 H2 H3) as [-> Hd].
  now apply decimal_rounds.
Qed.
Lemma float_value_denotes l : float_value l <-> exists neg x, denotes_real l neg x.
Proof.
  split.
  - intros (sg & m & ex & -> & Hs & Hm & He).
    assert (S : exists neg, reads_sign sg neg) by (destruct Hs as [->|[->| ->]]; eexists; constructor).
    assert (Mn : exists d k, reads_mantissa m d k).
    { destruct Hm as [[Hd Hn]|[(a & b & -> & Ha & Hb & Hn)|(a & b & -> & Ha & Hb & Hn)]]; eexists _, _; [now apply man_int|now apply man_point; auto|now apply man_point; auto]. }
    assert (X : exists e, reads_exponent ex e).
    { destruct He as [->|(i & -> & Hi)]; [eexists; constructor|]. apply integer_value_denotes in Hi as [z Hz]. exists z. now constructor. }
    destruct S as [neg S], Mn as (d & k & Mn), X as [e X]. exists neg. eexists. exists sg, m, ex, d, k, e. repeat split; eauto.
  - intros (neg & x & sg & m & ex & d & k & e & -> & Hs & Hm & He & _). exists sg, m, ex. repeat split.
    + now apply reads_sign_iff in Hs.
    + destruct Hm as [ds Hd Hn|a b Ha Hb [Hn|Hn]]; [left; auto|right; right; exists a, b; auto|right; left; exists a, b; auto].
    + destruct He as [|i z Hi]; [now left|right]. exists i. split; auto. apply integer_value_denotes. eauto.
Qed.
Lemma int_denotes_real l z : denotes_int l z -> exists neg, denotes_real l neg (IZR z) /\ (z <> 0 -> neg = (z <? 0)).
Proof.
  destruct 1 as [ds Hd Hn|ds Hd Hn|ds Hd Hn].
  - exists false. split.
    + exists [], ds, [], (digits_value ds), 0%nat, 0. split; [|split; [constructor|split; [now constructor|split; [constructor|]]]]; [now rewrite app_nil_r|cbn; ring].
    + intros _. symmetry. apply Z.ltb_ge. apply horner_nonneg; auto. lia.
  - exists false. split.
    + exists (B "+"), ds, [], (digits_value ds), 0%nat, 0. split; [|split; [constructor|split; [now constructor|split; [constructor|]]]]; [now rewrite app_nil_r|cbn; ring].
    + intros _. symmetry. apply Z.ltb_ge. apply horner_nonneg; auto. lia.
  - exists true. split.
    + exists (B "-"), ds, [], (digits_value ds), 0%nat, 0. split; [|split; [constructor|split; [now constructor|split; [constructor|]]]]; [now rewrite app_nil_r|rewrite opp_IZR; cbn; ring].
    + intros H. symmetry. apply Z.ltb_lt. assert (0 <= digits_value ds) by (apply horner_nonneg; auto; lia). lia.
Qed.
