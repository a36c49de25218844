(** String literals: the recogniser of src/grammar.cpp:108-125 against the specification. *)
From Verif Require Import Bytes StrUtils Grammar.
From Verif Require Import Spec_Grammar Lemmas.
From Coq Require Import ZifyBool ZifyNat.

(** Length of the final run of backslashes; argument reversed. *)
Fixpoint lead_bs (rv : str) : nat :=
  match rv with
  | c :: r => if ceq c c_bslash then S (lead_bs r) else 0
  | [] => 0
  end.
Definition trail_bs (s : str) : nat := lead_bs (rev s).

Lemma trail_bs_nil : trail_bs [] = 0. Proof. reflexivity. Qed.
Lemma trail_bs_snoc s c : trail_bs (s ++ [c]) = if ceq c c_bslash then S (trail_bs s) else 0.
Proof. unfold trail_bs. rewrite rev_app_distr. reflexivity. Qed.

Lemma backslash_run_iff s n : backslash_run s n <-> trail_bs s = n.
Proof.
  split.
  - induction 1 as [|s c Hc|s n H IH]; [reflexivity| |].
    + rewrite trail_bs_snoc. apply ceq_neq in Hc. unfold c_bslash. unfold BACKSLASH in Hc.
      change (ascii_of_nat 92) with "\"%char in Hc. now rewrite Hc.
    + rewrite trail_bs_snoc. change BACKSLASH with c_bslash. rewrite ceq_refl. now f_equal.
  - revert n; induction s as [|c s IH] using rev_ind; intros n H.
    + rewrite <- H. constructor.
    + rewrite trail_bs_snoc in H. destruct (ceq c c_bslash) eqn:E.
      * apply ceq_eq in E; subst c. rewrite <- H. change c_bslash with BACKSLASH. constructor. now apply IH.
      * rewrite <- H. apply ceq_neq in E. constructor. exact E.
Qed.

(** Left-to-right reading: [esc] says whether the previous character is an unpaired backslash. *)
Fixpoint scan (esc : bool) (body : str) : bool :=
  match body with
  | [] => negb esc
  | c :: r =>
      if esc then scan false r
      else if ceq c c_bslash then scan true r
      else if ceq c c_quote then false
      else scan false r
  end.
(** The body of a literal: a sequence of plain characters and of pairs of a backslash and any character. *)
Definition lit_body (body : str) : bool := scan false body.

Lemma bs_neq_quote : ceq c_quote c_bslash = false. Proof. reflexivity. Qed.

(** Relation between the scan and runs of backslashes. *)
Definition run_ok (pre body : str) : Prop :=
  (forall before after, body = before ++ c_quote :: after -> Nat.odd (trail_bs (pre ++ before)) = true) /\
  Nat.even (trail_bs (pre ++ body)) = true.

Lemma run_ok_cons pre c body :
  run_ok pre (c :: body) <-> (c = c_quote -> Nat.odd (trail_bs pre) = true) /\ run_ok (pre ++ [c]) body.
Proof.
  unfold run_ok. split.
  - intros [H1 H2]. repeat split.
    + intros ->. specialize (H1 [] body eq_refl). now rewrite app_nil_r in H1.
    + intros b a ->. specialize (H1 (c :: b) a eq_refl). now rewrite <- app_assoc.
    + now rewrite <- app_assoc.
  - intros [H0 [H1 H2]]. split.
    + intros b a E. destruct b as [|x b]; cbn in E; inversion E; subst.
      * rewrite app_nil_r. auto.
      * specialize (H1 b a eq_refl). now rewrite <- app_assoc in H1.
    + now rewrite <- app_assoc in H2.
Qed.

Lemma scan_run_ok body : forall pre, scan (Nat.odd (trail_bs pre)) body = true <-> run_ok pre body.
Proof.
  induction body as [|c r IH]; intros pre; cbn [scan].
  - unfold run_ok. rewrite app_nil_r. unfold Nat.odd. rewrite negb_involutive. split.
    + intros H; split; auto. intros b a E; destruct b; discriminate.
    + intros [_ H]; exact H.
  - rewrite run_ok_cons. rewrite <- IH. rewrite trail_bs_snoc.
    destruct (Nat.odd (trail_bs pre)) eqn:Eo.
    + destruct (ceq c c_bslash) eqn:Eb.
      * rewrite Nat.odd_succ. unfold Nat.odd in Eo. apply negb_true_iff in Eo. rewrite Eo. tauto.
      * cbn [Nat.odd]. tauto.
    + destruct (ceq c c_bslash) eqn:Eb.
      * rewrite Nat.odd_succ. unfold Nat.odd in Eo. apply negb_false_iff in Eo. rewrite Eo.
        apply ceq_eq in Eb; subst c. split; [intros; split; auto; discriminate|tauto].
      * destruct (ceq c c_quote) eqn:Eq.
        -- apply ceq_eq in Eq. split; [discriminate|]. intros [H _]; specialize (H Eq); discriminate.
        -- apply ceq_neq in Eq. cbn [Nat.odd]. split; [intros; split; auto; congruence | tauto].
Qed.

Lemma lit_body_run_ok body : lit_body body = true <-> run_ok [] body.
Proof. unfold lit_body. rewrite <- scan_run_ok. reflexivity. Qed.

Lemma odd_Odd n : Nat.odd n = true <-> Nat.Odd n.
Proof. apply Nat.odd_spec. Qed.

Lemma string_value_lit s : string_value s <-> exists body, s = c_quote :: body ++ [c_quote] /\ lit_body body = true.
Proof.
  unfold string_value. split.
  - intros (body & E & H1 & H2). exists body. split; [exact E|].
    apply lit_body_run_ok. split.
    + intros b a Eb. apply Nat.odd_spec. eapply H1; [exact Eb|]. now apply backslash_run_iff.
    + apply Nat.even_spec. apply H2. now apply backslash_run_iff.
  - intros (body & E & H). apply lit_body_run_ok in H as [H1 H2]. exists body. repeat split; auto.
    + intros b a n Eb Hr. apply backslash_run_iff in Hr. subst n. apply Nat.odd_spec. eapply H1; eauto.
    + intros n Hr. apply backslash_run_iff in Hr. subst n. now apply Nat.even_spec.
Qed.

(** ** The recogniser *)
Lemma mod2_odd d : (d mod 2 =? 1)%nat = Nat.odd d.
Proof.
  destruct (Nat.odd d) eqn:E.
  - apply Nat.odd_spec in E as [k ->]. apply Nat.eqb_eq.
    rewrite Nat.add_comm, Nat.mul_comm, Nat.mod_add by lia. reflexivity.
  - unfold Nat.odd in E. apply negb_false_iff, Nat.even_spec in E as [k ->]. apply Nat.eqb_neq.
    rewrite Nat.mul_comm, Nat.mod_mul by lia. lia.
Qed.
Lemma mod2_even d : (d mod 2 =? 0)%nat = Nat.even d.
Proof.
  destruct (Nat.even d) eqn:E.
  - apply Nat.even_spec in E as [k ->]. apply Nat.eqb_eq. rewrite Nat.mul_comm, Nat.mod_mul by lia. reflexivity.
  - assert (O : Nat.odd d = true) by (unfold Nat.odd; now rewrite E).
    rewrite <- mod2_odd in O. apply Nat.eqb_eq in O. apply Nat.eqb_neq. lia.
Qed.

Lemma inner_quote_bad_run rv c d :
  ceq c c_bslash = false -> inner_quote_bad (rv ++ [c]) d = Nat.odd (lead_bs rv + d).
Proof.
  revert d; induction rv as [|x rv IH]; intros d Hc; cbn [inner_quote_bad app lead_bs].
  - rewrite Hc. cbn. apply mod2_odd.
  - destruct (ceq x c_bslash) eqn:E; cbn [negb].
    + rewrite IH by auto. f_equal. lia.
    + cbn. apply mod2_odd.
Qed.
Lemma lead_bs_quote rv : lead_bs (rv ++ [c_quote]) = lead_bs rv.
Proof. induction rv as [|x rv IH]; cbn; [reflexivity|]. destruct (ceq x c_bslash); auto. Qed.

Lemma nat_odd_add1 n : Nat.odd (n + 1) = Nat.even n.
Proof. rewrite Nat.add_1_r. apply Nat.odd_succ. Qed.

Lemma closing_loop_run body i :
  (i <= length body)%nat ->
  closing_loop (c_quote :: body ++ [c_quote]) i =
    if (lead_bs (rev (firstn i body)) =? i)%nat then Nat.even (length body)
    else Nat.even (length body - i + lead_bs (rev (firstn i body))).
Proof.
  set (s := c_quote :: body ++ [c_quote]).
  assert (Ls : length s = S (S (length body))) by (unfold s; cbn; rewrite app_length; cbn; lia).
  induction i as [|i IH]; intros Hi.
  - cbn [closing_loop]. rewrite Ls, mod2_even. reflexivity.
  - cbn [closing_loop]. rewrite Ls.
    assert (Hat : at_ s (S i) = nth i body zero).
    { unfold s, at_. cbn [nth]. apply app_nth1. lia. }
    rewrite Hat.
    assert (Hf : firstn (S i) body = firstn i body ++ [nth i body zero]).
    { clear - Hi. revert body Hi; induction i as [|i IH]; intros [|c b] H; cbn in *; try lia; auto.
      f_equal. apply IH. lia. }
    rewrite Hf, rev_app_distr. cbn [rev app lead_bs].
    destruct (ceq (nth i body zero) c_bslash) eqn:E; cbn [negb].
    + rewrite IH by lia.
      destruct (Nat.eqb_spec (lead_bs (rev (firstn i body))) i) as [H|H].
      * destruct (Nat.eqb_spec (S (lead_bs (rev (firstn i body)))) (S i)); [reflexivity|lia].
      * destruct (Nat.eqb_spec (S (lead_bs (rev (firstn i body)))) (S i)); [lia|]. f_equal. lia.
    + cbn [Nat.eqb]. rewrite mod2_odd.
      replace (S (S (length body)) - 1 - S i)%nat with (length body - S i + 1)%nat by lia.
      rewrite nat_odd_add1. f_equal. lia.
Qed.

Lemma is_string_value_body body :
  is_string_value (c_quote :: body ++ [c_quote]) = lit_body body.
Proof.
  set (s := c_quote :: body ++ [c_quote]).
  assert (Ls : length s = S (S (length body))) by (unfold s; cbn; rewrite app_length; cbn; lia).
  unfold is_string_value. rewrite Ls. cbn [Nat.ltb Nat.leb].
  change (at_ s 0) with c_quote.
  assert (Hl : at_ s (S (S (length body)) - 1) = c_quote).
  { unfold s. change (c_quote :: body ++ [c_quote]) with ((c_quote :: body) ++ [c_quote]).
    replace (S (S (length body)) - 1)%nat with (length (c_quote :: body)) by (cbn; lia). apply at_app_mid. }
  rewrite Hl, ceq_refl. cbn [negb orb].
  replace (S (S (length body)) - 2)%nat with (length body) by lia.
  assert (Hclose : closing_loop s (length body) = Nat.even (trail_bs body)).
  { unfold s. rewrite closing_loop_run by lia. rewrite firstn_all. unfold trail_bs.
    destruct (Nat.eqb_spec (lead_bs (rev body)) (length body)) as [H|H].
    - now rewrite H.
    - f_equal; lia. }
  rewrite Hclose.
  destruct (existsb _ _) eqn:Ex.
  - symmetry. apply not_true_iff_false. intros Hb. apply lit_body_run_ok in Hb as [Hb _].
    apply existsb_exists in Ex as (i & Hi & Hq). apply in_seq in Hi. apply andb_prop in Hq as [Hq Hbad].
    apply ceq_eq in Hq.
    assert (Hs : body = firstn (i - 1) body ++ c_quote :: skipn i body).
    { assert (Hn : nth (i - 1) body zero = c_quote).
      { rewrite <- Hq. unfold s, at_. destruct i as [|j]; [lia|]. cbn [nth]. rewrite app_nth1 by lia. f_equal; lia. }
      destruct i as [|j]; [lia|]. replace (S j - 1)%nat with j in * by lia.
      rewrite <- (firstn_skipn j body) at 1. f_equal.
      assert (Hj : (j < length body)%nat) by lia. clear - Hn Hj.
      revert j Hn Hj; induction body as [|c b IH]; intros [|j] Hn Hj; cbn in *; try lia; [now subst|].
      rewrite IH by (auto; lia). reflexivity. }
    specialize (Hb _ _ Hs). cbn [app] in Hb.
    destruct i as [|j]; [lia|]. replace (S j - 1)%nat with j in * by lia.
    unfold s in Hbad. cbn [firstn] in Hbad. rewrite firstn_app in Hbad.
    replace (j - length body)%nat with 0%nat in Hbad by lia. cbn [firstn] in Hbad. rewrite app_nil_r in Hbad.
    cbn [rev] in Hbad. rewrite inner_quote_bad_run in Hbad by reflexivity.
    rewrite nat_odd_add1 in Hbad. unfold trail_bs in Hb. unfold Nat.odd in Hb. rewrite Hbad in Hb. discriminate.
  - assert (Hin : forall b a, body = b ++ c_quote :: a -> Nat.odd (trail_bs b) = true).
    { intros b a Hb. unfold Nat.odd. apply negb_true_iff, not_true_iff_false. intros Hev.
      assert (X : existsb (fun i => ceq (at_ s i) c_quote && inner_quote_bad (rev (firstn i s)) 1) (seq 1 (length body)) = true).
      { apply existsb_exists. exists (S (length b)). split.
        - apply in_seq. subst body. rewrite app_length. cbn. lia.
        - unfold s. subst body. apply andb_true_intro. split.
          + apply ceq_eq. replace (c_quote :: (b ++ c_quote :: a) ++ [c_quote]) with
              ((c_quote :: b) ++ c_quote :: (a ++ [c_quote])) by (cbn; rewrite <- app_assoc; reflexivity).
            replace (S (length b)) with (length (c_quote :: b)) by reflexivity. apply at_app_mid.
          + cbn [firstn]. rewrite <- app_assoc. rewrite firstn_app, Nat.sub_diag, firstn_all. cbn [firstn app].
            rewrite app_nil_r. cbn [rev]. rewrite inner_quote_bad_run by reflexivity. now rewrite nat_odd_add1. }
      congruence. }
    destruct (Nat.even (trail_bs body)) eqn:Ev; symmetry.
    + apply lit_body_run_ok. split; auto.
    + apply not_true_iff_false. intros Hb. apply lit_body_run_ok in Hb as [_ Hb]. cbn [app] in Hb. congruence.
Qed.

Lemma is_string_value_lit s :
  is_string_value s = true <-> exists body, s = c_quote :: body ++ [c_quote] /\ lit_body body = true.
Proof.
  split.
  - intros H. assert (H' := H). unfold is_string_value in H.
    destruct (Nat.ltb_spec (length s) 2) as [L|L]; [discriminate|].
    destruct (negb (ceq (at_ s 0) c_quote) || negb (ceq (at_ s (length s - 1)) c_quote)) eqn:E; [discriminate|].
    apply orb_false_iff in E as [E1 E2]. apply negb_false_iff in E1, E2. apply ceq_eq in E1, E2.
    destruct s as [|c s]; [cbn in L; lia|]. unfold at_ in E1. cbn in E1. subst c.
    destruct s as [|d s'] using rev_ind; [cbn in L; lia|]. clear IHs'.
    assert (d = c_quote).
    { rewrite <- E2. change (c_quote :: s' ++ [d]) with ((c_quote :: s') ++ [d]). now rewrite at_last. }
    subst d. exists s'. split; auto. now rewrite is_string_value_body in H'.
  - intros (body & -> & H). now rewrite is_string_value_body.
Qed.

Lemma is_string_value_iff s : is_string_value s = true <-> string_value s.
Proof. now rewrite is_string_value_lit, string_value_lit. Qed.

(** ** No literal is a proper prefix of another. *)
Lemma scan_prefix_quote b1 rest : forall e, scan e b1 = true -> scan e (b1 ++ c_quote :: rest) = false.
Proof.
  induction b1 as [|c b IH]; intros e H; cbn [scan app] in *.
  - apply negb_true_iff in H. subst e. reflexivity.
  - destruct e; [now apply IH|]. destruct (ceq c c_bslash); [now apply IH|].
    destruct (ceq c c_quote); [discriminate|]. now apply IH.
Qed.
Lemma scan_app a : forall e b, scan e a = true -> scan e (a ++ b) = scan false b.
Proof.
  induction a as [|c a IH]; intros e b H; cbn [scan app] in *.
  - apply negb_true_iff in H. now subst e.
  - destruct e; [now apply IH|]. destruct (ceq c c_bslash); [now apply IH|].
    destruct (ceq c c_quote); [discriminate|]. now apply IH.
Qed.
Lemma string_literal_prefix_free p t :
  is_string_value p = true -> is_string_value (p ++ t) = true -> t = [].
Proof.
  intros Hp Hpt. apply is_string_value_lit in Hp as (b1 & -> & H1). apply is_string_value_lit in Hpt as (b2 & E & H2).
  destruct t as [|x t'] using rev_ind; [reflexivity|]. clear IHt'.
  rewrite app_assoc in E. change (c_quote :: b2 ++ [c_quote]) with ((c_quote :: b2) ++ [c_quote]) in E.
  apply app_inj_tail in E as [E _]. cbn [app] in E. inversion E as [E'].
  rewrite <- E' in H2. rewrite <- app_assoc in H2. cbn [app] in H2. unfold lit_body in *.
  rewrite scan_prefix_quote in H2; auto. discriminate.
Qed.
