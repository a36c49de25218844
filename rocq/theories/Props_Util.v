(** Property C51: the text functions of str_utils.h.  Specification: [Spec_Util]. *)
From Verif Require Import Bytes StrUtils Lemmas.
From Verif Require Import Spec_Grammar Spec_Util.
Open Scope list_scope.

Theorem C51_ltrim : forall s t, ltrim s = t <-> (exists sp, s = sp ++ t /\ spaces sp) /\ no_leading_space t.
Proof.
  intros s t. split.
  - intros <-. destruct (ltrim_spec s) as (sp & E & H & L). split; [now exists sp|]. intros x r Ex.
    destruct L as [L|(y & q & L & N)]; rewrite L in Ex; [discriminate|]. now inversion Ex; subst.
  - intros [(sp & -> & H) N]. rewrite ltrim_spaces_app by auto. destruct t as [|x r]; [reflexivity|]. apply ltrim_cons_nonspace. eapply N; reflexivity.
Qed.
Theorem C51_rtrim : forall s t, rtrim s = t <-> (exists sp, s = t ++ sp /\ spaces sp) /\ no_trailing_space t.
Proof.
  intros s t. split.
  - intros <-. destruct (rtrim_spec s) as (sp & E & H & L). split; [now exists sp|]. intros r x Ex.
    destruct L as [L|(q & y & L & N)]; rewrite L in Ex; [destruct r; discriminate|]. apply app_inj_tail in Ex as [-> ->]. exact N.
  - intros [(sp & -> & H) N]. rewrite rtrim_app_spaces by auto. destruct t as [|x r] using rev_ind; [reflexivity|]. apply rtrim_snoc_nonspace. eapply N; reflexivity.
Qed.
Theorem C51_trim : forall s t, trim s = t <-> (exists sp sp', s = sp ++ t ++ sp' /\ spaces sp /\ spaces sp') /\ no_leading_space t /\ no_trailing_space t.
Proof.
  intros s t. unfold trim. split.
  - intros E. apply C51_rtrim in E as [(sp' & E & H') N']. apply C51_ltrim in E as [(sp & -> & H) N].
    split; [exists sp, sp'; auto|]. split; auto. intros x r ->. eapply N; reflexivity.
  - intros [(sp & sp' & -> & H & H') [N N']]. apply C51_rtrim. destruct t as [|x r].
    + split; [|exact N']. exists []. split; [|constructor]. cbn [app]. apply C51_ltrim. split; [|exact N].
      exists (sp ++ sp'). split; [now rewrite app_nil_r|]. apply Forall_app; auto.
    + split; [|exact N']. exists sp'. split; auto. apply C51_ltrim. split; [now exists sp|]. intros y q E. apply (N y (r)). cbn in E. inversion E. reflexivity.
Qed.
Theorem C51_escape : forall c s t, escape s c = t <-> escapes c s t.
Proof.
  intros c s t. split.
  - intros <-. induction s as [|x s IH]; cbn [escape]; [constructor|]. destruct (ceq x c) eqn:E; cbn [app].
    + apply ceq_eq in E. subst. now constructor.
    + apply ceq_neq in E. now constructor.
  - induction 1 as [|s t H IH|x s t N H IH]; cbn [escape]; [reflexivity| |].
    + rewrite ceq_refl, IH. reflexivity.
    + apply ceq_neq in N. rewrite N, IH. reflexivity.
Qed.
Lemma unescape_cons x r c : unescape (x :: r) c =
  match r with y :: _ => if ceq x c_bslash && ceq y c then unescape r c else x :: unescape r c | [] => x :: unescape r c end.
Proof. reflexivity. Qed.
Theorem C51_unescape : forall c s t, unescape s c = t <-> unescapes c s t.
Proof.
  intros c s t. split.
  - intros <-. induction s as [|x s IH]; [constructor|]. rewrite unescape_cons. destruct s as [|y s].
    + constructor; [discriminate|exact IH].
    + destruct (ceq x c_bslash) eqn:E1; cbn [andb]; [destruct (ceq y c) eqn:E2|].
      * apply ceq_eq in E1, E2. subst. now constructor.
      * apply ceq_neq in E2. constructor; [|exact IH]. intros _ r Er. congruence.
      * apply ceq_neq in E1. constructor; [|exact IH]. intros X. contradiction.
  - induction 1 as [|s t H IH|x s t N H IH]; [reflexivity| |].
    + rewrite unescape_cons. change (ceq BACKSLASH c_bslash) with true. rewrite ceq_refl. exact IH.
    + rewrite unescape_cons, IH. destruct s as [|y s]; [reflexivity|]. destruct (ceq x c_bslash) eqn:E1; cbn [andb]; auto. destruct (ceq y c) eqn:E2; auto.
      apply ceq_eq in E1, E2. subst. exfalso. now apply (N eq_refl s).
Qed.
(** Escaping is undone by unescaping, for every character but the backslash itself. *)
Theorem C51_escape_round_trip : forall c s, c <> BACKSLASH -> unescape (escape s c) c = s.
Proof.
  intros c s N. induction s as [|x s IH]; [reflexivity|]. cbn [escape]. destruct (ceq x c) eqn:E; cbn [app].
  - apply ceq_eq in E. subst x. rewrite unescape_cons. change (ceq c_bslash c_bslash) with true. rewrite ceq_refl. cbn [andb].
    rewrite unescape_cons. destruct (escape s c) as [|y q] eqn:Es; [now rewrite IH|].
    destruct (ceq c c_bslash) eqn:Ec; [apply ceq_eq in Ec; contradiction|]. cbn [andb]. now rewrite IH.
  - rewrite unescape_cons. destruct (escape s c) as [|y q] eqn:Es; [now rewrite IH|].
    destruct (ceq x c_bslash && ceq y c) eqn:Ec; [|now rewrite IH]. exfalso. apply andb_prop in Ec as [E1 E2]. apply ceq_eq in E2. subst y.
    destruct s as [|z s]; [discriminate|]. cbn [escape] in Es. destruct (ceq z c) eqn:Ez; inversion Es; subst; [now apply N|]. rewrite ceq_refl in Ez. discriminate.
Qed.
Theorem C51_escape_round_trip_refuted : exists s, unescape (escape s BACKSLASH) BACKSLASH <> s.
Proof. exists [BACKSLASH; BACKSLASH]. vm_compute. discriminate. Qed.
Theorem C51_character_classes : forall c, (is_space c = true <-> space c) /\ (is_alpha c = true <-> letter c) /\
  (is_numeric c = true <-> digit c) /\ (is_alphanumeric c = true <-> letter c \/ digit c).
Proof.
  intros c. split; [apply is_space_iff|]. split; [apply is_alpha_iff|]. split; [apply is_numeric_iff|].
  unfold is_alphanumeric. now rewrite Bool.orb_true_iff, is_alpha_iff, is_numeric_iff.
Qed.
Theorem C51_starts_and_ends : forall s p, (starts_with s p = true <-> exists t, s = p ++ t) /\ (ends_with s p = true <-> exists t, s = t ++ p).
Proof. intros s p. split; [apply starts_with_iff|apply ends_with_iff]. Qed.
Theorem C51_remove_spaces : forall s t, remove_spaces s = t <-> without_spaces s t.
Proof.
  intros s t. split.
  - intros <-. induction s as [|x s IH]; cbn [remove_spaces]; [constructor|]. destruct (is_space x) eqn:E.
    + apply ws_space; [now apply is_space_iff|exact IH].
    + apply ws_other; [now apply is_space_false|exact IH].
  - induction 1 as [|x s t H W IH|x s t H W IH]; cbn [remove_spaces]; [reflexivity| |].
    + apply is_space_iff in H. now rewrite H.
    + apply is_space_false in H. now rewrite H, IH.
Qed.
Example C51_ex : trim (B "  x y  ") = B "x y" /\ rtrim (B "    ") = [] /\ escape (B "a""b") QUOTE = B "a\""b" /\
  unescape (B "\\""") QUOTE = B "\""" /\ remove_spaces (B "Set< Integer >") = B "Set<Integer>".
Proof. repeat split. Qed.

Print Assumptions C51_ltrim.
Print Assumptions C51_rtrim.
Print Assumptions C51_trim.
Print Assumptions C51_escape.
Print Assumptions C51_unescape.
Print Assumptions C51_escape_round_trip.
Print Assumptions C51_escape_round_trip_refuted.
Print Assumptions C51_character_classes.
Print Assumptions C51_starts_and_ends.
Print Assumptions C51_remove_spaces.
