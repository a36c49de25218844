(** Printing and reading integers; printing floats (C08, C11). *)
From Coq Require Import QArith Qabs Qpower.
From Verif Require Import Bytes StrUtils Grammar Outcome Num Containers Instance.
From Verif Require Import Lemmas Proof_Grammar Proof_Inv Proof_TextLit.
From Verif Require Import Spec_Grammar Spec_Text Spec_Number.
Open Scope Z_scope.
Open Scope list_scope.

Lemma digit_value_char n : 0 <= n < 10 -> digit_value (digit_char n) = n.
Proof.
  intros H. assert (D : n = 0 \/ n = 1 \/ n = 2 \/ n = 3 \/ n = 4 \/ n = 5 \/ n = 6 \/ n = 7 \/ n = 8 \/ n = 9) by lia.
  destruct D as [->|[->|[->|[->|[->|[->|[->|[->|[->| ->]]]]]]]]]; reflexivity.
Qed.
Definition horner (a : Z) (ds : bytes) : Z := fold_left (fun a c => 10 * a + digit_value c) ds a.
Lemma horner_cons a c ds : horner a (c :: ds) = horner (10 * a + digit_value c) ds. Proof. reflexivity. Qed.
Lemma horner_app a s t : horner a (s ++ t) = horner (horner a s) t. Proof. apply fold_left_app. Qed.
Lemma horner_shift ds : forall a, horner a ds = a * 10 ^ Z.of_nat (length ds) + horner 0 ds.
Proof.
  induction ds as [|c ds IH]; intros a; [cbn; lia|]. rewrite !horner_cons, IH, (IH (10 * 0 + digit_value c)).
  cbn [length]. rewrite Nat2Z.inj_succ, Z.pow_succ_r by lia. lia.
Qed.
Lemma digits_forallb s : forallb isdig s = true <-> digits s.
Proof. apply forallb_iff. intros x. apply is_numeric_iff. Qed.
Lemma digit_value_bounds c : Spec_Grammar.digit c -> 0 <= digit_value c < 10.
Proof. unfold Spec_Grammar.digit, digit_value. lia. Qed.
Lemma horner_nonneg ds : digits ds -> forall a, 0 <= a -> 0 <= horner a ds.
Proof.
  induction 1 as [|c ds Hc Hds IH]; intros a Ha; [exact Ha|]. rewrite horner_cons. apply IH.
  apply digit_value_bounds in Hc. lia.
Qed.

(** *** decimal numerals *)
Lemma dec_loop_value fuel : forall n acc, 0 <= n < 2 ^ Z.of_nat fuel \/ (n < 10 /\ 0 <= n /\ (0 < fuel)%nat) ->
  digits_value (dec_loop fuel n acc) = n * 10 ^ Z.of_nat (length acc) + horner 0 acc.
Proof.
  assert (X : forall n acc, 0 <= n < 10 -> digits_value (digit_char (n mod 10) :: acc) = n * 10 ^ Z.of_nat (length acc) + horner 0 acc).
  { intros n acc Hn. change (digits_value ?l) with (horner 0 l). rewrite horner_cons, horner_shift.
    rewrite digit_value_char by (apply Z.mod_pos_bound; lia). rewrite Z.mod_small by lia. lia. }
  induction fuel as [|f IH]; intros n acc H; cbn [dec_loop].
  - assert (n = 0) by (destruct H; [cbn in *; lia|lia]). subst. cbn. reflexivity.
  - destruct (Z.ltb_spec n 10).
    + apply X. lia.
    + assert (Hn : 0 <= n / 10 < 2 ^ Z.of_nat f).
      { destruct H as [H|H]; [|lia]. rewrite Nat2Z.inj_succ, Z.pow_succ_r in H by lia. split; [apply Z.div_pos; lia|].
        apply Z.div_lt_upper_bound; lia. }
      rewrite IH by auto. cbn [length]. rewrite Nat2Z.inj_succ, Z.pow_succ_r by lia. rewrite horner_cons, (horner_shift acc).
      rewrite digit_value_char by (apply Z.mod_pos_bound; lia). pose proof (Z.div_mod n 10). nia.
Qed.
Lemma dec_value n : 0 <= n -> digits_value (dec n) = n.
Proof.
  intros H. unfold dec. rewrite dec_loop_value; [cbn; lia|].
  destruct (Z.eq_dec n 0) as [->|Hn]; [right; lia|]. left. split; [lia|].
  pose proof (Z.log2_spec n). rewrite Nat2Z.inj_succ, Z2Nat.id by apply Z.log2_nonneg. lia.
Qed.
Lemma dec_loop_head fuel : forall n acc, 0 < n -> n < 2 ^ Z.of_nat fuel ->
  match dec_loop fuel n acc with c :: _ => c <> "0"%char | [] => False end.
Proof.
  induction fuel as [|f IH]; intros n acc Hn Hf; cbn [dec_loop]; [cbn in Hf; lia|].
  destruct (Z.ltb_spec n 10).
  - rewrite Z.mod_small by lia. intros E. assert (Hv := digit_value_char n). rewrite E in Hv.
    change (digit_value "0") with 0 in Hv. lia.
  - rewrite Nat2Z.inj_succ, Z.pow_succ_r in Hf by lia. apply IH.
    + apply Z.div_str_pos. lia.
    + apply Z.div_lt_upper_bound; lia.
Qed.
Lemma dec_head n : 0 < n -> match dec n with c :: _ => c <> "0"%char | [] => False end.
Proof.
  intros H. unfold dec. apply dec_loop_head; [lia|]. pose proof (Z.log2_spec n).
  rewrite Nat2Z.inj_succ, Z2Nat.id by apply Z.log2_nonneg. lia.
Qed.
Lemma dec_numeral n : 0 <= n -> numeral n (dec n).
Proof.
  intros H. split; [apply digits_forallb, dec_digits; lia|]. split; [apply dec_nonempty|]. split; [now apply dec_value|].
  destruct (Z.eq_dec n 0) as [->|Hn]; [now left|]. right. intros r E. assert (X := dec_head n). rewrite E in X. cbn in X. apply X; [lia|reflexivity].
Qed.
Lemma to_string_prints z : prints_int z (to_string z).
Proof.
  unfold to_string, prints_int. destruct (Z.ltb_spec z 0).
  - right. split; [lia|]. exists (dec (- z)). split; [reflexivity|]. apply dec_numeral. lia.
  - left. split; [lia|]. now apply dec_numeral.
Qed.
(** Numerals are unique. *)
Lemma numeral_unique_len s : forall t, digits s -> digits t -> length s = length t -> digits_value s = digits_value t -> s = t.
Proof.
  change digits_value with (horner 0).
  induction s as [|c s IH] using rev_ind; intros t Hs Ht Hl Hv.
  - destruct t; [reflexivity|discriminate].
  - destruct t as [|d t _] using rev_ind; [rewrite app_length in Hl; cbn in Hl; lia|].
    rewrite !app_length in Hl. cbn in Hl. unfold digits in *. rewrite Forall_app in Hs, Ht. destruct Hs as [Hs Hc], Ht as [Ht Hd].
    inversion Hc as [|? ? Hc' _]; subst. inversion Hd as [|? ? Hd' _]; subst. rewrite !horner_app in Hv. cbn in Hv.
    assert (Bc := digit_value_bounds c Hc'). assert (Bd := digit_value_bounds d Hd').
    change (10 * horner 0 s + digit_value c = 10 * horner 0 t + digit_value d) in Hv.
    assert (horner 0 s = horner 0 t /\ digit_value c = digit_value d) as [E1 E2] by lia.
    rewrite (IH t Hs Ht ltac:(lia) E1). f_equal. f_equal. unfold digit_value, code in E2.
    rewrite <- (ascii_nat_embedding c), <- (ascii_nat_embedding d). f_equal. lia.
Qed.
Lemma horner_lower c ds : Spec_Grammar.digit c -> digits ds -> c <> "0"%char -> 10 ^ Z.of_nat (length ds) <= horner 0 (c :: ds).
Proof.
  intros Hc Hd Hn. rewrite horner_cons, horner_shift. assert (0 <= horner 0 ds) by now apply horner_nonneg.
  assert (1 <= digit_value c).
  { assert (Bc := digit_value_bounds c Hc). destruct (Z.eq_dec (digit_value c) 0) as [E|]; [|lia]. exfalso. apply Hn.
    unfold digit_value, code in E. rewrite <- (ascii_nat_embedding c). replace (nat_of_ascii c) with 48%nat by lia. reflexivity. }
  assert (0 < 10 ^ Z.of_nat (length ds)) by (apply Z.pow_pos_nonneg; lia). nia.
Qed.
Lemma horner_upper ds : digits ds -> horner 0 ds < 10 ^ Z.of_nat (length ds).
Proof.
  induction ds as [|c ds IH]; intros H; [cbn; lia|]. inversion H; subst. rewrite horner_cons, horner_shift.
  assert (Bc := digit_value_bounds c ltac:(assumption)). specialize (IH ltac:(assumption)). cbn [length].
  rewrite Nat2Z.inj_succ, Z.pow_succ_r by lia. assert (0 < 10 ^ Z.of_nat (length ds)) by (apply Z.pow_pos_nonneg; lia). nia.
Qed.
Lemma canonical_length s t : digits s -> digits t -> s <> [] -> t <> [] ->
  (forall r, s <> B "0" ++ r) -> digits_value s = digits_value t -> (length s <= length t)%nat.
Proof.
  intros Hs Ht Ns Nt Cs E. destruct s as [|c s]; [congruence|]. inversion Hs; subst.
  assert (c <> "0"%char) by (intros ->; apply (Cs s); reflexivity).
  assert (L := horner_lower c s ltac:(assumption) ltac:(assumption) ltac:(assumption)).
  change (horner 0 (c :: s)) with (digits_value (c :: s)) in L. rewrite E in L. assert (U := horner_upper t Ht).
  change (horner 0 t) with (digits_value t) in U. cbn [length].
  assert (10 ^ Z.of_nat (length s) < 10 ^ Z.of_nat (length t)) by lia.
  apply Z.pow_lt_mono_r_iff in H0; lia.
Qed.
Lemma numeral_unique n s t : numeral n s -> numeral n t -> s = t.
Proof.
  intros (Ds & Ns & Vs & Cs) (Dt & Nt & Vt & Ct). apply numeral_unique_len; auto; [|congruence].
  assert (Z0 : forall r, digits r -> r <> [] -> (1 <= length r)%nat) by (intros [|? ?] ? ?; cbn; [congruence|lia]).
  destruct Cs as [->|Cs], Ct as [->|Ct]; auto.
  - apply Nat.le_antisymm; [now apply Z0|]. apply canonical_length; auto; congruence.
  - apply Nat.le_antisymm; [|now apply Z0]. apply canonical_length; auto; congruence.
  - apply Nat.le_antisymm; apply canonical_length; auto; congruence.
Qed.
Lemma numeral_nonneg n t : numeral n t -> 0 <= n.
Proof. intros (D & _ & <- & _). now apply horner_nonneg. Qed.
Lemma prints_int_iff z t : prints_int z t <-> t = to_string z.
Proof.
  split; [|intros ->; apply to_string_prints]. intros [[Hz Hn]|[Hz (t' & -> & Hn)]]; unfold to_string.
  - destruct (Z.ltb_spec z 0); [lia|]. apply (numeral_unique z); auto. now apply dec_numeral.
  - destruct (Z.ltb_spec z 0); [|lia]. change (B "-" ++ t') with (c_minus :: t'). f_equal. apply (numeral_unique (- z)); auto. apply dec_numeral. lia.
Qed.
Lemma prints_int_inj z z' t : prints_int z t -> prints_int z' t -> z = z'.
Proof.
  assert (N : forall n s r, numeral n s -> s <> B "-" ++ r).
  { intros n s r (D & _) ->. inversion D as [|? ? H _]; subst. unfold Spec_Grammar.digit in H. cbn in H. lia. }
  intros [[H1 H2]|[H1 (t1 & E1 & H2)]] [[H3 H4]|[H3 (t2 & E2 & H4)]].
  - destruct H2 as (_ & _ & <- & _), H4 as (_ & _ & <- & _). reflexivity.
  - exfalso. exact (N _ _ _ H2 E2).
  - exfalso. exact (N _ _ _ H4 E1).
  - subst t. inversion E2; subst. destruct H2 as (_ & _ & V2 & _), H4 as (_ & _ & V4 & _). lia.
Qed.

(** *** reading integers *)
Lemma digit_num c : is_numeric c = true -> Num.digit c = digit_value c.
Proof.
  intros _. unfold Num.digit, digit_value, code. rewrite <- (N_nat_ascii c) || idtac. unfold nat_of_ascii. lia.
Qed.
Lemma read_digits_digits ds rest : digits ds -> match rest with c :: _ => is_numeric c = false | [] => True end ->
  forall acc n, read_digits (ds ++ rest) acc n = (horner acc ds, n + Z.of_nat (length ds), rest).
Proof.
  intros Hd Hr. induction Hd as [|c ds Hc Hd IH]; intros acc n.
  - cbn [app length]. rewrite Z.add_0_r. destruct rest as [|c r]; [reflexivity|]. cbn [read_digits]. now rewrite Hr.
  - cbn [app read_digits]. apply is_numeric_iff in Hc. rewrite Hc, IH, horner_cons, digit_num by auto. cbn [length]. do 2 f_equal. lia.
Qed.
Lemma read_sign_cases sg t : sign sg -> match t with c :: _ => c <> c_plus /\ c <> c_minus | [] => True end ->
  read_sign (sg ++ t) = ((match sg with c :: _ => ceq c c_minus | [] => false end), t).
Proof.
  intros [->|[->| ->]] Ht; [|reflexivity|reflexivity]. cbn [app]. destruct t as [|c t]; [reflexivity|]. cbn [read_sign].
  destruct Ht as [H1 H2]. apply ceq_neq in H1, H2. now rewrite H1, H2.
Qed.
Lemma digits_no_sign ds : digits ds -> match ds with c :: _ => c <> c_plus /\ c <> c_minus | [] => True end.
Proof.
  intros H. destruct H as [|c ds H _]; [exact I|]. unfold Spec_Grammar.digit in H. split; intros ->; cbn in H; lia.
Qed.
Lemma atoi_denotes a z : denotes_int a z -> atoi a = if in_int z then Ok z else UB AtoiRange.
Proof.
  intros H. unfold atoi.
  assert (X : forall sg ds, sign sg -> digits ds -> z = (if match sg with c :: _ => ceq c c_minus | [] => false end then - digits_value ds else digits_value ds) ->
    (let '(neg, r) := read_sign (sg ++ ds) in
     let '(v, _, _) := read_digits r 0 0 in
     let z := if neg then - v else v in if in_int z then Ok z else UB AtoiRange) = (if in_int z then Ok z else UB AtoiRange)).
  { intros sg ds Hsg Hd ->. rewrite (read_sign_cases sg ds Hsg (digits_no_sign ds Hd)). assert (R := read_digits_digits ds [] Hd I 0 0). rewrite app_nil_r in R. rewrite R. reflexivity. }
  destruct H as [ds Hd _|ds Hd _|ds Hd _].
  - apply (X [] ds); auto. now left.
  - apply (X (B "+") ds); auto. right. now left.
  - apply (X (B "-") ds); auto. right. now right.
Qed.
Lemma integer_value_denotes a : integer_value a <-> exists z, denotes_int a z.
Proof.
  split.
  - intros (sg & ds & -> & [->|[->| ->]] & Hd & Hn); eexists; [now apply int_plain|now apply int_plus|now apply int_minus].
  - intros [z H]. destruct H as [ds Hd Hn|ds Hd Hn|ds Hd Hn]; [exists [], ds|exists (B "+"), ds|exists (B "-"), ds]; unfold sign; auto 6.
Qed.
Lemma denotes_int_unique a z z' : denotes_int a z -> denotes_int a z' -> z = z'.
Proof.
  assert (P : forall ds r, digits ds -> ds = B "+" ++ r -> False).
  { intros ds r D ->. inversion D as [|? ? H _]; subst. unfold Spec_Grammar.digit in H. cbn in H. lia. }
  assert (Mi : forall ds r, digits ds -> ds = B "-" ++ r -> False).
  { intros ds r D ->. inversion D as [|? ? H _]; subst. unfold Spec_Grammar.digit in H. cbn in H. lia. }
  intros H H'. inversion H as [ds ? ? E|ds ? ? E|ds ? ? E]; inversion H' as [ds' ? ? E'|ds' ? ? E'|ds' ? ? E']; subst; try congruence;
    try (exfalso; eapply P; [|eauto]; eauto; fail); try (exfalso; eapply Mi; [|eauto]; eauto; fail);
    try (exfalso; eapply P; [|symmetry; eauto]; eauto; fail); try (exfalso; eapply Mi; [|symmetry; eauto]; eauto; fail);
    inversion E'; subst; reflexivity.
Qed.
Lemma in_int_fits z : in_int z = true <-> fits z.
Proof. unfold in_int, fits, INT_MIN, INT_MAX. rewrite andb_true_iff, !Z.leb_le. lia. Qed.
Lemma prints_denotes z t : prints_int z t -> denotes_int t z.
Proof.
  intros [[_ (D & N & <- & _)]|[_ (t' & -> & D & N & V & _)]]; [now constructor|].
  replace z with (- digits_value t') by lia. now constructor.
Qed.

(** *** printing floats *)
Lemma point_digits n p : 0 <= n -> point_numeral p n (fixed_digits n p).
Proof.
  intros Hn. unfold fixed_digits, point_numeral. destruct (dec_numeral n Hn) as (D & Ne & V & C).
  set (d0 := dec n) in *. assert (Dr : digits (repeat "0"%char (S p - length d0))) by (apply digits_forallb, repeat0_digits).
  assert (Vr : forall k t, digits_value (repeat "0"%char k ++ t) = digits_value t).
  { induction k as [|k IH]; intros t; [reflexivity|]. cbn [repeat app]. change digits_value with (horner 0). rewrite horner_cons. apply IH. }
  assert (L0 : (1 <= length d0)%nat) by (destruct d0; cbn; [congruence|lia]).
  destruct p as [|p].
  - replace (1 - length d0)%nat with 0%nat by lia. exact (conj D (conj Ne (conj V C))).
  - set (d := repeat "0"%char (S (S p) - length d0) ++ d0) in *.
    assert (Ld : (S (S p) <= length d)%nat) by (unfold d; rewrite app_length, repeat_length; lia).
    assert (Dd : digits d) by (apply Forall_app; auto).
    exists (firstn (length d - S p) d), (skipn (length d - S p) d). split; [reflexivity|].
    split; [rewrite skipn_length; lia|]. split; [now apply Forall_skipn|]. split; [rewrite firstn_skipn; unfold d; now rewrite Vr|].
    split; [now apply Forall_firstn|]. split.
    + intros E. assert (X := firstn_length (length d - S p) d). rewrite E in X. change (length (@nil ascii)) with 0%nat in X. lia.
    + destruct (Nat.le_gt_cases (length d0) (S (S p))) as [L|L].
      * assert (Ed : length d = S (S p)) by (unfold d; rewrite app_length, repeat_length; lia).
        rewrite Ed. replace (S (S p) - S p)%nat with 1%nat by lia. destruct d as [|c d1]; [cbn in Ld; lia|]. cbn [firstn].
        destruct (ascii_dec c "0"%char) as [->|Hc]; [now left|]. right. intros r E. inversion E. congruence.
      * assert (Ed : d = d0) by (unfold d; replace (S (S p) - length d0)%nat with 0%nat by lia; reflexivity).
        rewrite Ed. destruct C as [C|C]; [rewrite C in L; cbn in L; lia|]. right. intros r E.
        apply (C (r ++ skipn (length d0 - S p) d0)). rewrite <- (firstn_skipn (length d0 - S p) d0) at 1. rewrite E. now rewrite <- app_assoc.
Qed.
Lemma nearest_frac n d : 0 <= n -> 0 < d -> nearest (inject_Z n / inject_Z d)%Q (round_half_even n d).
Proof.
  intros Hn Hd. unfold nearest.
  assert (Hd' : ~ (inject_Z d == 0)%Q) by (intros E; unfold Qeq in E; cbn in E; lia).
  assert (X : forall k, (Qabs (inject_Z k - inject_Z n / inject_Z d) == inject_Z (Z.abs (k * d - n)) / inject_Z d)%Q).
  { intros k. setoid_replace (inject_Z k - inject_Z n / inject_Z d)%Q with (inject_Z (k * d - n) / inject_Z d)%Q.
    - unfold Qdiv at 1. rewrite Qabs_Qmult. rewrite (Qabs_pos (/ inject_Z d)%Q); [reflexivity|].
      apply Qinv_le_0_compat. unfold Qle; cbn; lia.
    - unfold Z.sub. rewrite inject_Z_plus, inject_Z_mult, inject_Z_opp. field. exact Hd'. }
  assert (Hle : forall a, (inject_Z a / inject_Z d <= 1 # 2)%Q <-> 2 * a <= d).
  { intros a. split.
    - intros H. apply (Qmult_le_compat_r _ _ (inject_Z d)) in H; [|unfold Qle; cbn; lia].
      setoid_replace (inject_Z a / inject_Z d * inject_Z d)%Q with (inject_Z a) in H by (field; exact Hd').
      unfold Qle in H. cbn in H. destruct d; lia.
    - intros H. apply Qle_shift_div_r; [unfold Qlt; cbn; lia|]. unfold Qle. cbn. destruct d; lia. }
  assert (Heq : forall a, (inject_Z a / inject_Z d == 1 # 2)%Q -> 2 * a = d).
  { intros a H. assert (E : (inject_Z a == (1 # 2) * inject_Z d)%Q) by (rewrite <- H; field; exact Hd'). unfold Qeq in E. cbn in E. destruct d; lia. }
  rewrite !X. clear X. pose proof (Z.div_mod n d ltac:(lia)) as DM. pose proof (Z.mod_pos_bound n d Hd) as MB.
  unfold round_half_even. destruct (Z.compare_spec (2 * (n mod d)) d) as [E|E|E].
  - destruct (Z.even (n / d)) eqn:Ev.
    + split; [apply Hle; lia|auto].
    + split; [apply Hle; lia|]. intros _. rewrite Z.even_add, Ev. reflexivity.
  - split; [apply Hle; lia|]. intros H. apply Heq in H. lia.
  - split; [apply Hle; lia|]. intros H. apply Heq in H. lia.
Qed.
Lemma nearest_int n : nearest (inject_Z n) n.
Proof.
  unfold nearest. setoid_replace (inject_Z n - inject_Z n)%Q with 0%Q by ring. cbn. split; [unfold Qle; cbn; lia|].
  intros H. unfold Qeq in H. cbn in H. lia.
Qed.
Lemma nearest_compat q q' n : (q == q')%Q -> nearest q n -> nearest q' n.
Proof. intros E [H1 H2]. split; [now rewrite <- E|]. intros H. apply H2. now rewrite E. Qed.
Lemma Qpower_pos_Z b k : 0 <= k -> (inject_Z b ^ k == inject_Z (b ^ k))%Q.
Proof. intros H. symmetry. now apply Zpower_Qpower. Qed.
Lemma scaled_nearest m e p : nearest (magnitude m e * 10 ^ Z.of_nat p)%Q (scaled m e p).
Proof.
  unfold scaled, magnitude. change 2%Q with (inject_Z 2). change 10%Q with (inject_Z 10). destruct (Z.leb_spec 0 e).
  - eapply nearest_compat; [|apply nearest_int]. rewrite !Qpower_pos_Z by lia. rewrite !inject_Z_mult. reflexivity.
  - eapply nearest_compat; [|apply nearest_frac; [apply Z.mul_nonneg_nonneg; [lia|apply Z.pow_nonneg; lia]|apply Z.pow_pos_nonneg; lia]].
    replace e with (- (- e)) at 2 by lia. rewrite Qpower_opp. rewrite !Qpower_pos_Z by lia. rewrite inject_Z_mult. field.
    intros E. unfold Qeq in E. cbn in E. assert (0 < 2 ^ (- e)) by (apply Z.pow_pos_nonneg; lia). lia.
Qed.
Lemma fixed_repr_prints precision f : prints_float (places precision) f (fixed_repr precision f).
Proof.
  unfold fixed_repr, prints_float, places, minus_sign. cbv zeta. destruct f as [s|s| |s m e].
  - eexists. split; [destruct s; reflexivity|]. apply point_digits. lia.
  - destruct s; reflexivity.
  - reflexivity.
  - eexists _, _. split; [destruct s; reflexivity|]. split; [apply point_digits, scaled_nonneg|apply scaled_nearest].
Qed.
(** The nearest integer is unique, and so is a numeral with a decimal point: the printed text is determined. *)
Lemma nearest_unique q a b : nearest q a -> nearest q b -> a = b.
Proof.
  intros [A1 A2] [B1 B2]. destruct (Z.eq_dec a b) as [|N]; [assumption|exfalso].
  assert (T : (Qabs (inject_Z a - inject_Z b) <= Qabs (inject_Z a - q) + Qabs (inject_Z b - q))%Q).
  { setoid_replace (inject_Z a - inject_Z b)%Q with ((inject_Z a - q) + - (inject_Z b - q))%Q by ring.
    rewrite <- (Qabs_opp (inject_Z b - q)). apply Qabs_triangle. }
  assert (L : (1 <= Qabs (inject_Z a - inject_Z b))%Q).
  { unfold Z.sub, Qminus. rewrite <- inject_Z_opp, <- inject_Z_plus. rewrite <- (inject_Z_injective) || idtac.
    cbn [Qabs inject_Z]. unfold Qle. cbn. lia. }
  assert (Ea : (Qabs (inject_Z a - q) == 1 # 2)%Q).
  { apply Qle_antisym; [exact A1|]. assert (X := Qle_trans _ _ _ L T). apply Qle_minus_iff in X. apply Qle_minus_iff.
    apply Qle_minus_iff in B1. assert (Y := Qplus_le_compat _ _ _ _ X B1). rewrite Qplus_0_l in Y.
    eapply Qle_trans; [exact Y|]. apply Qle_lteq. right. ring. }
  assert (Eb : (Qabs (inject_Z b - q) == 1 # 2)%Q).
  { apply Qle_antisym; [exact B1|]. assert (X := Qle_trans _ _ _ L T). apply Qle_minus_iff in X. apply Qle_minus_iff.
    apply Qle_minus_iff in A1. assert (Y := Qplus_le_compat _ _ _ _ X A1). rewrite Qplus_0_l in Y.
    eapply Qle_trans; [exact Y|]. apply Qle_lteq. right. ring. }
  specialize (A2 Ea). specialize (B2 Eb).
  assert (U : (Qabs (inject_Z a - inject_Z b) <= 1)%Q).
  { eapply Qle_trans; [exact T|]. rewrite Ea, Eb. unfold Qle; cbn; lia. }
  unfold Qminus in U. rewrite <- inject_Z_opp, <- inject_Z_plus in U. unfold Qle in U. cbn in U.
  apply Z.even_spec in A2 as [x ->], B2 as [y ->]. lia.
Qed.
Lemma point_numeral_unique p n s t : point_numeral p n s -> point_numeral p n t -> s = t.
Proof.
  destruct p as [|p]; [apply numeral_unique|].
  intros (i1 & f1 & -> & L1 & D1 & V1 & I1 & N1 & C1) (i2 & f2 & -> & L2 & D2 & V2 & I2 & N2 & C2).
  assert (X : forall i f, digits f -> length f = S p -> digits_value (i ++ f) = n ->
    digits_value i = n / 10 ^ Z.of_nat (S p) /\ digits_value f = n mod 10 ^ Z.of_nat (S p)).
  { intros i f Df Lf V. change digits_value with (horner 0) in *. rewrite horner_app, horner_shift, Lf in V.
    assert (U := horner_upper f Df). assert (0 <= horner 0 f) by now apply horner_nonneg. rewrite Lf in U.
    apply (Z.div_mod_unique (10 ^ Z.of_nat (S p))).
    - left. lia.
    - left. apply Z.mod_pos_bound. lia.
    - rewrite <- Z.div_mod by lia. lia. }
  destruct (X i1 f1 D1 L1 V1) as [Vi1 Vf1], (X i2 f2 D2 L2 V2) as [Vi2 Vf2].
  assert (f1 = f2) by (apply numeral_unique_len; congruence). assert (i1 = i2); [|congruence].
  apply (numeral_unique (n / 10 ^ Z.of_nat (S p))); repeat split; auto.
Qed.
Lemma prints_float_unique p f s t : prints_float p f s -> prints_float p f t -> s = t.
Proof.
  destruct f as [b|b| |b m e]; cbn [prints_float]; try congruence.
  - intros (s' & -> & H1) (t' & -> & H2). f_equal. eapply point_numeral_unique; eauto.
  - intros (n1 & s' & -> & H1 & N1) (n2 & t' & -> & H2 & N2). assert (n1 = n2) by (eapply nearest_unique; eauto). subst.
    f_equal. eapply point_numeral_unique; eauto.
Qed.
Lemma obj_repr_shows E o : shows (e_precision E) o (obj_repr E o).
Proof.
  destruct o; cbn [obj_repr]; try constructor; [apply to_string_prints|apply fixed_repr_prints|].
  rewrite quoted_printed. constructor.
Qed.
(** The printed text of a value is determined. *)
Lemma shows_iff E o t : shows (e_precision E) o t <-> t = obj_repr E o.
Proof.
  split; [|intros ->; apply obj_repr_shows].
  intros H. destruct H as [b|c|z t Hp|f t Hp|v]; cbn [obj_repr]; try reflexivity; try now apply prints_int_iff.
  - eapply prints_float_unique; [exact Hp|apply fixed_repr_prints].
  - now rewrite quoted_printed.
Qed.
