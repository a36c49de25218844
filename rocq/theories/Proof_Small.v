(** C89: lengths of numerals and of floating-point numbers in print. *)
From Coq Require Import ZArith QArith Qabs Qpower Lia Lqa List Ascii String.
From Coq Require Import Floats.SpecFloat.
From Verif Require Import Bytes StrUtils Num Instance Context.
From Verif Require Import Spec_Grammar Spec_State Spec_Names Spec_Text Spec_Number Spec_Literal.
From Verif Require Import Proof_Length.
Import ListNotations.
Open Scope list_scope.
Open Scope Z_scope.

Lemma magnitude_bound m e : bounded 24 128 m e = true -> (magnitude m e <= inject_Z (2 ^ 128))%Q.
Proof.
  unfold bounded, canonical_mantissa. rewrite Bool.andb_true_iff. intros [C L]. apply Zeq_bool_eq in C. apply Z.leb_le in L.
  unfold magnitude.
  assert (M : Z.pos m < 2 ^ 24).
  { unfold fexp, emin in C. assert (D : Z.pos (digits2_pos m) <= 24) by lia. clear - D.
    assert (G : forall m, Z.pos m < 2 ^ Z.pos (digits2_pos m)).
    { clear. induction m as [m IH|m IH|]; cbn [digits2_pos]; rewrite ?Pos2Z.inj_succ, ?Z.pow_succ_r by lia; try lia. }
    specialize (G m). assert (2 ^ Z.pos (digits2_pos m) <= 2 ^ 24) by (apply Z.pow_le_mono_r; lia). lia. }
  apply Qle_trans with (inject_Z (2 ^ 24) * inject_Z (2 ^ 104))%Q; [|rewrite <- inject_Z_mult; vm_compute; discriminate].
  apply Qmult_le_compat_nonneg; split.
  - apply (Qle_trans _ (inject_Z 0)); [apply Qle_refl|rewrite <- Zle_Qle; lia].
  - rewrite <- Zle_Qle. lia.
  - apply Qpower_pos. discriminate.
  - destruct (Z.le_gt_cases 0 e) as [P|P].
    + assert (E : (Qpower 2 e == inject_Z (2 ^ e))%Q) by (rewrite Zpower_Qpower by lia; reflexivity). rewrite E, <- Zle_Qle. apply Z.pow_le_mono_r; lia.
    + apply (Qle_trans _ 1); [|vm_compute; discriminate]. replace e with (- (- e)) by lia. rewrite Qpower_opp.
      assert (E : (Qpower 2 (- e) == inject_Z (2 ^ (- e)))%Q) by (rewrite Zpower_Qpower by lia; reflexivity). rewrite E.
      assert (X : 1 <= 2 ^ (- e)) by (assert (Y := Z.pow_pos_nonneg 2 (- e)); lia).
      apply Qle_shift_inv_r; [rewrite <- (Zlt_Qlt 0); lia|]. rewrite Qmult_1_l. change 1%Q with (inject_Z 1). now rewrite <- Zle_Qle.
Qed.
Lemma digits_value_app s t : digits_value (s ++ t) = digits_value s * 10 ^ Z.of_nat (List.length t) + digits_value t.
Proof.
  induction t as [|c t IH] using rev_ind; [rewrite app_nil_r; change (digits_value []) with 0; cbn [List.length]; rewrite Z.pow_0_r; lia|].
  rewrite app_assoc, !digits_value_snoc, IH, app_length. cbn [List.length]. replace (Z.of_nat (List.length t + 1)) with (Z.succ (Z.of_nat (List.length t))) by lia.
  rewrite Z.pow_succ_r by lia. ring.
Qed.
Lemma short_numeral n t : numeral n t -> n <= 2 ^ 128 -> (List.length t <= 39)%nat.
Proof.
  intros (D & N & V & Z0) H. destruct Z0 as [->|Z0]; [cbn; lia|]. assert (A := numeral_low t D N Z0).
  destruct (Nat.le_gt_cases (List.length t) 39) as [L|L]; auto. exfalso.
  assert (X : 10 ^ 39 <= 10 ^ (Z.of_nat (List.length t) - 1)) by (apply Z.pow_le_mono_r; lia). assert (Y : 2 ^ 128 < 10 ^ 39) by reflexivity. lia.
Qed.
Lemma short_point_numeral p n t : point_numeral p n t -> n <= 2 ^ 128 * 10 ^ Z.of_nat p -> (List.length t <= 40 + p)%nat.
Proof.
  destruct p as [|p]; cbn [point_numeral].
  - intros H L. assert (X := short_numeral n t H ltac:(cbn [Z.of_nat] in L; rewrite Z.pow_0_r in L; lia)). lia.
  - intros (ip & fp & -> & Lf & Df & V & Di & N & Z0) L. rewrite !app_length. change (List.length (B ".")) with 1%nat. rewrite Lf.
    enough (List.length ip <= 39)%nat by lia. apply (short_numeral (digits_value ip)).
    + repeat split; auto.
    + rewrite digits_value_app, Lf in V. assert (P : 0 < 10 ^ Z.of_nat (S p)) by (apply Z.pow_pos_nonneg; lia). assert (F := digits_bounds fp Df).
      apply (Z.mul_le_mono_pos_r _ _ (10 ^ Z.of_nat (S p))); lia.
Qed.
Lemma minus_length b : (List.length (minus_sign b) <= 1)%nat.
Proof. destruct b; cbn; lia. Qed.
Lemma float_length p f t : single_precision f -> prints_float p f t -> (List.length t <= 41 + p)%nat.
Proof.
  intros S H. destruct f as [b|b| |b m e]; cbn [prints_float] in H.
  - destruct H as (body & -> & P). rewrite app_length. assert (M := minus_length b). assert (X := short_point_numeral p 0 body P ltac:(apply Z.mul_nonneg_nonneg; [lia|apply Z.pow_nonneg; lia])). lia.
  - subst t. rewrite app_length. assert (M := minus_length b). cbn [List.length]. change (List.length (B "inf")) with 3%nat. lia.
  - subst t. change (List.length (B "-nan")) with 4%nat. lia.
  - destruct H as (n & body & -> & P & (A & _)). rewrite app_length. assert (M := minus_length b).
    enough (X : n <= 2 ^ 128 * 10 ^ Z.of_nat p) by (assert (Y := short_point_numeral p n body P X); lia).
    unfold single_precision, valid_binary in S. assert (Bd := magnitude_bound m e S). apply Qabs_Qle_condition in A as [_ A].
    assert (E : ((10 ^ Z.of_nat p)%Q == inject_Z (10 ^ Z.of_nat p))%Q) by (rewrite Zpower_Qpower by lia; reflexivity).
    rewrite E in A.
    assert (C : (magnitude m e * inject_Z (10 ^ Z.of_nat p) <= inject_Z (2 ^ 128) * inject_Z (10 ^ Z.of_nat p))%Q).
    { apply Qmult_le_compat_r; auto. apply (Qle_trans _ (inject_Z 0)); [apply Qle_refl|rewrite <- Zle_Qle; apply Z.pow_nonneg; lia]. }
    rewrite <- inject_Z_mult in C.
    assert (G : (inject_Z n <= inject_Z (2 ^ 128 * 10 ^ Z.of_nat p) + (1 # 2))%Q) by lra.
    unfold Qle, Qplus, inject_Z in G. cbn [Qnum Qden] in G. lia.
Qed.
Lemma integer_length z t : prints_int z t -> Z.abs z <= 2 ^ 31 -> (List.length t <= 11)%nat.
Proof.
  assert (G : forall n t, numeral n t -> n <= 2 ^ 31 -> (List.length t <= 10)%nat).
  { clear. intros n t (D & N & V & Z0) H. destruct Z0 as [->|Z0]; [cbn; lia|]. assert (A := numeral_low t D N Z0).
    destruct (Nat.le_gt_cases (List.length t) 10) as [L|L]; auto. exfalso.
    assert (X : 10 ^ 10 <= 10 ^ (Z.of_nat (List.length t) - 1)) by (apply Z.pow_le_mono_r; lia). assert (Y : 2 ^ 31 < 10 ^ 10) by reflexivity. lia. }
  intros [[P H]|(P & u & -> & H)] L.
  - assert (X := G z t H ltac:(lia)). lia.
  - assert (X := G _ u H ltac:(lia)). rewrite app_length. change (List.length (B "-")) with 1%nat. lia.
Qed.
