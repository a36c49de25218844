(** Property C75: the answers to different messages fit together.  Specification: [Spec_Coherent]. *)
From Coq Require Import ZArith Reals Psatz Sorting.Sorted Sorting.Permutation Classical.
From Flocq Require Import Core.
From Coq Require Import Floats.SpecFloat.
From Verif Require Import Bytes StrUtils Grammar Outcome Parser Num Containers Instance Context Server Platform.
From Verif Require Import Lemmas StringLit Proof_Grammar Proof_Parser Proof_Exec WP Proof_Inv Proof_Literal Proof_Receive Proof_Context Proof_Names Api Proof_Text.
From Verif Require Import Proof_Number Proof_Float Proof_Arith Proof_Order Props_Text Props_State Props_Number Props_Float Props_Order Proof_TextLit.
From Verif Require Import Proof_Vector Props_Vector Proof_String Props_String Proof_Set Props_Set Props_Object Props_Server Props_Local Props_Whole Props_Errors Props_Undo.
From Verif Require Import Spec_Grammar Spec_State Spec_Names Spec_Text Spec_Number Spec_Float Spec_Order Spec_Vector Spec_String Spec_Set Spec_Object Spec_Server Spec_Local Spec_Whole Spec_Coherent.
Open Scope Z_scope.
Open Scope list_scope.

Lemma shows_unique p x a b : shows p x a -> shows p x b -> a = b.
Proof.
  intros H1 H2. inversion H1; subst; inversion H2; subst; auto.
  - match goal with H : prints_int _ a, H' : prints_int _ b |- _ => apply prints_int_iff in H, H'; congruence end.
  - eapply prints_float_unique; eauto.
Qed.
Lemma shows_list_unique p v a b : shows_list p v a -> shows_list p v b -> a = b.
Proof.
  intros (t1 & F1 & ->) (t2 & F2 & ->). f_equal. revert t2 F2. induction F1 as [|x t v t1 S1 _ IH]; intros t2 F2; inversion F2; subst; auto.
  f_equal; [eapply shows_unique; eauto|]. now apply IH.
Qed.
Lemma n_no_digit : ~ digit "n"%char.
Proof. unfold digit. vm_compute. lia. Qed.
Lemma numeral_no_null p n : ~ point_numeral p n (B "null").
Proof.
  destruct p.
  - intros (D & _). apply n_no_digit. apply (Forall_inv D).
  - intros (ip & fp & E & _ & _ & _ & D & N & _). destruct ip as [|x ip]; [congruence|]. cbn in E. injection E as <- _. apply n_no_digit. exact (Forall_inv D).
Qed.
Lemma shows_not_null p x : ~ shows p x (B "null").
Proof.
  intros H. remember (B "null") as t eqn:E. destruct H as [b|ch|z t P|f t P|v].
  - now destruct b.
  - discriminate E.
  - subst t. destruct P as [(_ & D & _)|(_ & t' & E & _)]; [|discriminate E]. apply n_no_digit. apply (Forall_inv D).
  - subst t. destruct f as [s|s| |s m e]; cbn [prints_float] in P.
    + destruct P as (body & E & P). destruct s; [discriminate E|]. cbn [minus_sign app] in E. subst body. exact (numeral_no_null _ _ P).
    + destruct s; discriminate P.
    + discriminate P.
    + destruct P as (n & body & E & P & _). destruct s; [discriminate E|]. cbn [minus_sign app] in E. subst body. exact (numeral_no_null _ _ P).
  - discriminate E.
Qed.
Lemma prints_zero z t : prints_int z t -> (t = B "0" <-> z = 0).
Proof.
  intros P. assert (P0 : prints_int 0 (B "0")) by (apply prints_int_iff; reflexivity). split.
  - intros ->. eapply prints_int_inj; eauto.
  - intros ->. apply prints_int_iff in P, P0. congruence.
Qed.
Lemma prints_minus_one z t : prints_int z t -> (t = B "-1" <-> z = -1).
Proof.
  intros P. assert (P0 : prints_int (-1) (B "-1")) by (apply prints_int_iff; reflexivity). split.
  - intros ->. eapply prints_int_inj; eauto.
  - intros ->. apply prints_int_iff in P, P0. congruence.
Qed.
Lemma size_zero {A} (l : list A) : size l = 0 <-> l = [].
Proof. unfold size. destruct l; cbn; split; congruence || lia. Qed.
Lemma truth_true b : truth b = B "true" <-> b = true. Proof. destruct b; cbn; split; congruence. Qed.
Lemma truth_false b : truth b = B "false" <-> b = false. Proof. destruct b; cbn; split; congruence. Qed.

(** ** positions *)
Section Positions.
Context (tol : f32) (x : obj).
Lemma positions_none base v : Forall (fun y => ~ equals tol y x) v -> forall l, positions tol x base v l -> l = [].
Proof using Type.
  intros F l [_ H]. destruct l as [|i l]; auto. destruct (proj1 (H i) (or_introl eq_refl)) as (k & y & _ & N & E).
  rewrite Forall_forall in F. now destruct (F y (nth_error_In _ _ N)).
Qed.
Lemma positions_some base v : Exists (fun y => equals tol y x) v -> forall l, positions tol x base v l -> l <> [].
Proof using Type.
  intros F l [_ H] ->. apply Exists_exists in F as (y & I & E). apply In_nth_error in I as (k & N). destruct (proj2 (H (base + Z.of_nat k))). eauto.
Qed.
Lemma positions_first base pre y post l : Forall (fun y => ~ equals tol y x) pre -> equals tol y x -> positions tol x base (pre ++ y :: post) l ->
  exists r, l = (base + size pre) :: r.
Proof using Type.
  intros F E [S H]. assert (I : In (base + size pre) l).
  { apply H. exists (length pre), y. split; auto. split; auto. rewrite nth_error_app2, Nat.sub_diag by lia. reflexivity. }
  destruct l as [|h r]; [easy|]. exists r. f_equal. destruct (proj1 (H h) (or_introl eq_refl)) as (k & z & -> & N & Ez).
  destruct (Nat.lt_ge_cases k (length pre)) as [L|L].
  - rewrite nth_error_app1 in N by auto. rewrite Forall_forall in F. destruct (F z (nth_error_In _ _ N) Ez).
  - destruct I as [I|I]; auto. inversion S as [|h' r' Sr Fr]; subst. rewrite Forall_forall in Fr. specialize (Fr _ I). unfold size in Fr. lia.
Qed.
Lemma positions_unique base v : forall l l', positions tol x base v l -> positions tol x base v l' -> l = l'.
Proof using Type.
  assert (W : forall l l', StronglySorted Z.lt l -> StronglySorted Z.lt l' -> (forall i, In i l <-> In i l') -> l = l').
  { induction l as [|i l IH]; intros [|j l'] S S' E; auto.
    - destruct (proj2 (E j)). now left.
    - destruct (proj1 (E i)). now left.
    - inversion S as [|? ? Sl Fl]; inversion S' as [|? ? Sl' Fl']; subst. rewrite Forall_forall in Fl, Fl'.
      assert (i = j) as -> by (destruct (proj1 (E i) (or_introl eq_refl)) as [|I]; auto; destruct (proj2 (E j) (or_introl eq_refl)) as [|J]; auto;
        specialize (Fl _ J); specialize (Fl' _ I); lia).
      f_equal. apply IH; auto. intros i. split; intros I.
      + destruct (proj1 (E i) (or_intror I)) as [->|]; auto. specialize (Fl _ I). lia.
      + destruct (proj2 (E i) (or_intror I)) as [->|]; auto. specialize (Fl' _ I). lia. }
  intros l l' [S H] [S' H']. apply W; auto. intros i. now rewrite H, H'.
Qed.
Lemma first_match_unique base v i j : first_match tol x base v i -> first_match tol x base v j -> i = j.
Proof using Type.
  intros [(-> & F)|(pre & y & post & E & F & Ey & ->)] [(-> & F')|(pre' & y' & post' & E' & F' & Ey' & ->)]; auto.
  - exfalso. subst v. rewrite Forall_forall in F. apply (F y'); auto. apply in_or_app. right. now left.
  - exfalso. subst v. rewrite Forall_forall in F'. apply (F' y); auto. apply in_or_app. right. now left.
  - rewrite E in E'. clear E. f_equal. unfold size. f_equal. revert pre' E' F'. induction pre as [|a pre IH]; intros [|b pre'] E' F'; auto.
    + injection E' as -> _. destruct (Forall_inv F' Ey).
    + injection E' as -> _. destruct (Forall_inv F Ey').
    + injection E' as -> E'. cbn. f_equal. apply IH; eauto using Forall_inv_tail.
Qed.
End Positions.

(** ** by kind of variable *)
Local Ltac clash := match goal with
  | E : B _ = B _ |- _ => discriminate E
  | E : _ = asks ?t ?q |- _ => exfalso; match goal with O : ordered_type t |- _ => destruct O as [-> | [-> | [-> | ->]]]; destruct q; discriminate E end
  | E : asks ?t ?q = _ |- _ => exfalso; match goal with O : ordered_type t |- _ => destruct O as [-> | [-> | [-> | ->]]]; destruct q; discriminate E end
  | E : _ = message_of ?o |- _ => destruct o; discriminate E
  | E : message_of ?o = _ |- _ => destruct o; discriminate E
  | Q : character_question _ _ |- _ => inversion Q; discriminate
  end.
Lemma fit_vector p tol t v m1 args1 m2 args2 P i1 a1 i2 a2 : fit m1 args1 m2 args2 P -> message_effect p tol (IVector t v) m1 args1 i1 a1 ->
  message_effect p tol (IVector t v) m2 args2 i2 a2 -> i1 = IVector t v /\ P a1 a2.
Proof.
  intros F M1 M2.
  assert (N1 : m1 <> B "sort") by (destruct F; discriminate). assert (N2 : m2 <> B "sort") by (destruct F; discriminate).
  destruct (vector_message _ _ _ _ _ _ _ _ M1 N1) as (v1 & -> & V1). destruct (vector_message _ _ _ _ _ _ _ _ M2 N2) as (v2 & -> & V2). clear M1 M2 N1 N2.
  destruct F; (destruct V1 as [V1|V1]; inversion V1; subst; try clash); (destruct V2 as [V2|V2]; inversion V2; subst; try clash).
  all: try (split; [reflexivity|]).
  all: repeat match goal with H1 : literal_of ?t ?a ?x1, H2 : literal_of ?t ?a ?x2 |- _ => assert_fails (unify x1 x2); pose proof (literal_unique _ _ _ _ H1 H2); subst x2 end.
  all: repeat match goal with H1 : index_of ?a ?x1, H2 : index_of ?a ?x2 |- _ => assert_fails (unify x1 x2); pose proof (index_unique _ _ _ H1 H2); clear H2 end.
  all: repeat match goal with H : 0 = size ?l |- _ => symmetry in H; apply size_zero in H; subst l | H : size ?l = 0 |- _ => apply size_zero in H; subst l end.
  all: cbn [app] in *; subst.
  all: try (match goal with H : prints_int (size _) ?b |- _ <-> ?b = _ => rewrite (prints_zero _ _ H), size_zero; cbn [truth]; split; congruence end).
  all: try (match goal with |- truth true = _ <-> B "null" = _ => cbn [truth]; tauto end).
  all: try (match goal with H : shows _ _ ?b |- truth false = _ <-> ?b = _ => cbn [truth]; split; [discriminate|intros ->; destruct (shows_not_null _ _ H)] end).
  all: try (match goal with H : shows_list ?p ?v ?a, H' : shows_list ?p ?v ?b |- ?a = ?b => exact (shows_list_unique _ _ _ _ H H') end).
  all: try (match goal with H : shows ?p ?v ?a, H' : shows ?p ?v ?b |- ?a = ?b => exact (shows_unique _ _ _ _ H H') end).
  all: clear V1 V2.
  - split; intros X; [discriminate X|]. match goal with H : prints_int _ _ |- _ => apply (prints_zero _ _ H) in X; apply size_zero in X; discriminate X end.
  - exfalso. match goal with H : _ ++ [_] = [] |- _ => now destruct (app_cons_not_nil _ _ _ (eq_sym H)) end.
  - match goal with H : positions _ _ _ _ _, H' : prints_int _ _ |- _ => rewrite (prints_zero _ _ H'), size_zero; split; [intros _; eapply positions_some; eauto|reflexivity] end.
  - match goal with H : positions _ _ _ _ _, H' : prints_int _ _ |- _ => rewrite (prints_zero _ _ H'), size_zero; split; [intros X; discriminate X|intros X; destruct X; eapply positions_none; eauto] end.
  - match goal with H : first_match _ _ _ _ _, H' : prints_int _ _ |- _ => rewrite (prints_minus_one _ _ H'); split; [intros _ ->|reflexivity]; destruct H as [(_ & F)|(pre & y & post & _ & _ & _ & X)] end;
      [match goal with H : Exists _ _ |- _ => apply Exists_exists in H as (y & I & E); rewrite Forall_forall in F; exact (F y I E) end|unfold size in X; lia].
  - match goal with H : first_match _ _ _ _ _, H' : prints_int _ _ |- _ => rewrite (prints_minus_one _ _ H'); split; [intros X; discriminate X|intros X; destruct X]; destruct H as [(X & _)|(pre & y & post & -> & _ & E & _)]; [exact X|] end.
    match goal with H : Forall _ _ |- _ => rewrite Forall_forall in H; destruct (H y); auto; apply in_or_app; right; now left end.
  - match goal with H : first_match _ _ _ _ _, H' : prints_int _ a1, Q : positions _ _ _ _ _, T : Forall2 _ _ _ |- _ => rewrite (prints_minus_one _ _ H'); destruct H as [(-> & F)|(pre & y & post & -> & F & E & ->)] end.
    + left. split; auto. match goal with Q : positions _ _ _ _ ?l, T : Forall2 _ _ _ |- _ => rewrite (positions_none _ _ _ _ F _ Q) in T; inversion T; reflexivity end.
    + right. split; [unfold size; lia|]. destruct (positions_first _ _ _ _ _ _ _ F E H4) as (r & ->). destruct texts as [|u w]; [inversion H5|].
      exists w. do 2 f_equal. inversion H5 as [|z1 z2 z3 z4 P1]; subst. apply prints_int_iff in P1, H2. now rewrite P1, H2.
  - rewrite (positions_unique _ _ _ _ _ _ H1 H4) in *. exists texts. split; auto. replace (size texts) with (size l0); auto. unfold size. f_equal. clear - H5. induction H5; cbn; congruence.
  - reflexivity.
  - exfalso. match goal with H : Exists _ _, H' : Forall _ _ |- _ => apply Exists_exists in H as (y & I & E); rewrite Forall_forall in H'; exact (H' y I E) end.
  - exfalso. match goal with H : Exists _ _, H' : Forall _ _ |- _ => apply Exists_exists in H as (y & I & E); rewrite Forall_forall in H'; exact (H' y I E) end.
  - reflexivity.
  - change (size (@nil obj)) with 0 in H7. rewrite (first_match_unique _ _ _ _ _ _ H2 H7) in *. apply prints_int_iff in H3, H8. congruence.
  - discriminate H0.
  - injection H0 as -> _. eapply shows_unique; eauto.
  - destruct (split_unique _ _ _ _ H2 (eq_sym H)) as [_ E]. injection E as -> _. eapply shows_unique; eauto.
  - change (size (@nil obj)) with 0 in H2. assert (mid = pre) as ->; [|eapply shows_list_unique; eauto].
    destruct H2 as [E|(E & ->)]; [apply (split_unique _ _ _ _ H5); lia|]. apply (f_equal (@size _)) in H5. rewrite app_nil_r in H5. unfold size in *. rewrite app_length in H5. lia.
Qed.

Lemma denotes_unique a v w : denotes_string a v -> denotes_string a w -> v = w.
Proof. intros [_ H] [_ H']. apply printed_inj. congruence. Qed.
Lemma fit_string p tol v m1 args1 m2 args2 P i1 a1 i2 a2 : fit m1 args1 m2 args2 P -> message_effect p tol (IObj (OStr v)) m1 args1 i1 a1 ->
  message_effect p tol (IObj (OStr v)) m2 args2 i2 a2 -> i1 = IObj (OStr v) /\ P a1 a2.
Proof.
  intros F M1 M2.
  destruct (string_message _ _ _ _ _ _ _ M1) as (v1 & -> & V1); [destruct F; intros []; discriminate|destruct F; discriminate|].
  destruct (string_message _ _ _ _ _ _ _ M2) as (v2 & -> & V2); [destruct F; intros []; discriminate|destruct F; discriminate|]. clear M1 M2.
  destruct F; (inversion V1; subst; try clash); (inversion V2; subst; try clash).
  all: try (split; [reflexivity|]).
  all: repeat match goal with H1 : index_of ?a ?x1, H2 : index_of ?a ?x2 |- _ => assert_fails (unify x1 x2); pose proof (index_unique _ _ _ H1 H2); clear H2 end.
  all: repeat match goal with H1 : denotes_string ?a ?x1, H2 : denotes_string ?a ?x2 |- _ => assert_fails (unify x1 x2); pose proof (denotes_unique _ _ _ H1 H2); subst x2; clear H2 end.
  all: repeat match goal with H : 0 = size ?l |- _ => symmetry in H; apply size_zero in H; subst l | H : size ?l = 0 |- _ => apply size_zero in H; subst l end.
  all: cbn [app] in *; subst.
  all: clear V1 V2.
  - match goal with H : prints_int _ _ |- _ => rewrite (prints_zero _ _ H) end. cbn. tauto.
  - match goal with H : prints_int _ _ |- _ => rewrite (prints_zero _ _ H), size_zero end. split; intros X; discriminate X.
  - cbn. tauto.
  - split; intros X; discriminate X.
  - cbn. tauto.
  - exfalso. match goal with H : _ ++ [_] = [] |- _ => now destruct (app_cons_not_nil _ _ _ (eq_sym H)) end.
  - split; intros X; discriminate X.
  - discriminate.
  - match goal with H : _ :: _ = _ :: _ |- _ => injection H as -> _; reflexivity end.
  - match goal with H : _ ++ _ :: _ = _ ++ _ :: _, E : size _ = size _ |- _ => destruct (split_unique _ _ _ _ H (eq_sym E)) as [_ X]; injection X as -> _; reflexivity end.
  - reflexivity.
  - enough (mid = pre) as -> by reflexivity. change (size (@nil ascii)) with 0 in H2.
    destruct H2 as [E|(E & ->)]; [apply (split_unique _ _ _ _ H4); lia|]. apply (f_equal (@size _)) in H4. rewrite app_nil_r in H4. unfold size in *. rewrite app_length in H4. lia.
  - split; [intros _|reflexivity]. enough (pre = w) as -> by reflexivity.
    destruct H5 as [E|(E & ->)]; [now apply (split_unique _ _ _ _ H3)|]. apply (f_equal (@size _)) in H3. rewrite app_nil_r in H3. unfold size in *. rewrite app_length in H3. lia.
  - split; intros X; [discriminate X|]. apply printed_inj in X. subst pre. now destruct (H3 post).
  - split; [intros _|reflexivity]. enough (post = w) as -> by reflexivity.
    destruct H5 as [E|(E & ->)].
    + apply (split_unique _ _ _ _ H3). apply (f_equal (@size _)) in H3. unfold size in *. rewrite !app_length in H3. lia.
    + apply (f_equal (@size _)) in H3. unfold size in *. rewrite !app_length in H3. cbn [length] in H3. lia.
  - split; intros X; [discriminate X|]. apply printed_inj in X. subst post. now destruct (H3 pre).
Qed.

(** The second message of the pair is understood. *)
Lemma fit_object p tol o m1 args1 m2 args2 P i1 a1 i2 a2 : fit m1 args1 m2 args2 P -> message_effect p tol (IObj o) m1 args1 i1 a1 ->
  message_effect p tol (IObj o) m2 args2 i2 a2 -> i1 = IObj o /\ P a1 a2.
Proof.
  intros F M1 M2. destruct (classic (exists v, o = OStr v)) as [[v ->]|N]; [eapply fit_string; eauto|].
  destruct F; inversion M2; subst; try clash; try (exfalso; apply N; eauto; fail).
  all: match goal with V : value_effect _ _ _ _ _ _ |- _ => inversion V; subst; try clash end.
  inversion M1; subst; try clash. match goal with V : value_effect _ (B "isTrue?") _ _ _ _ |- _ => inversion V; subst; try clash end.
  split; auto. rewrite truth_true, truth_false. now destruct b.
Qed.
Lemma fit_set p tol t v m1 args1 m2 args2 P i1 a1 i2 a2 : fit m1 args1 m2 args2 P -> message_effect p tol (ISet t v) m1 args1 i1 a1 ->
  message_effect p tol (ISet t v) m2 args2 i2 a2 -> i1 = ISet t v /\ P a1 a2.
Proof.
  intros F M1 M2. destruct F; inversion M2; subst; try clash; inversion M1; subst; try clash.
  split; auto. rewrite truth_true. match goal with H : prints_int _ _ |- _ => rewrite (prints_zero _ _ H), size_zero end. assumption.
Qed.
Lemma fit_dict p tol kt vt d m1 args1 m2 args2 P i1 a1 i2 a2 : fit m1 args1 m2 args2 P -> message_effect p tol (IDict kt vt d) m1 args1 i1 a1 ->
  message_effect p tol (IDict kt vt d) m2 args2 i2 a2 -> i1 = IDict kt vt d /\ P a1 a2.
Proof.
  intros F M1 M2. destruct F; inversion M2; subst; try clash; inversion M1; subst; try clash; (split; [reflexivity|]); rewrite truth_true.
  - match goal with H : prints_int _ _ |- _ => rewrite (prints_zero _ _ H), size_zero end. assumption.
  - match goal with H1 : literal_of ?t ?a ?x1, H2 : literal_of ?t ?a ?x2 |- _ => assert_fails (unify x1 x2); pose proof (literal_unique _ _ _ _ H1 H2); subst x2 end.
    match goal with H : b = true <-> _ |- _ => rewrite H end. split; intros _.
    + intros ->. match goal with H : shows _ _ _ |- _ => exact (shows_not_null _ _ H) end.
    + apply Exists_exists. eexists. split; [apply in_map; eassumption|]. assumption.
  - match goal with H1 : literal_of ?t ?a ?x1, H2 : literal_of ?t ?a ?x2 |- _ => assert_fails (unify x1 x2); pose proof (literal_unique _ _ _ _ H1 H2); subst x2 end.
    match goal with H : b = true <-> _ |- _ => rewrite H end. split; [|intros X; now destruct X]. intros X. exfalso. apply Exists_exists in X as (y & I & E).
    match goal with H : Forall _ _ |- _ => rewrite Forall_forall in H; exact (H y I E) end.
Qed.
Lemma fit_message p tol i m1 args1 m2 args2 P i1 a1 i2 a2 : fit m1 args1 m2 args2 P -> message_effect p tol i m1 args1 i1 a1 ->
  message_effect p tol i m2 args2 i2 a2 -> i1 = i /\ P a1 a2.
Proof. destruct i; [apply fit_object|apply fit_vector|apply fit_set|apply fit_dict]. Qed.

Lemma positions_exist tol x v : forall base, exists l, positions tol x base v l.
Proof.
  induction v as [|y v IH]; intros base.
  - exists []. split; [constructor|]. intros i. split; [easy|]. intros ([|k] & y & _ & N & _); discriminate N.
  - destruct (IH (base + 1)) as (l & S & H). destruct (classic (equals tol y x)) as [E|E].
    + exists (base :: l). split.
      * constructor; auto. apply Forall_forall. intros i I. apply H in I as (k & z & -> & _). lia.
      * intros i. split.
        -- intros [<-|I]; [exists 0%nat, y; split; [lia|auto]|]. apply H in I as (k & z & -> & N & Ez). exists (Datatypes.S k), z. split; [lia|auto].
        -- intros (k & z & -> & N & Ez). destruct k as [|k]; [left; lia|right]. apply H. exists k, z. split; [lia|auto].
    + exists l. split; auto. intros i. rewrite H. split.
      * intros (k & z & -> & N & Ez). exists (Datatypes.S k), z. split; [lia|auto].
      * intros (k & z & -> & N & Ez). destruct k as [|k]; [cbn in N; congruence|]. exists k, z. split; [lia|auto].
Qed.
Lemma first_match_exists tol x v : exists i, first_match tol x 0 v i.
Proof.
  induction v as [|y v IH]; [exists (-1); left; auto|]. destruct (classic (equals tol y x)) as [E|E].
  - exists 0. right. exists [], y, v. auto.
  - destruct IH as (i & [(-> & F)|(pre & z & post & -> & F & Ez & ->)]); [exists (-1); left; auto|].
    exists (0 + size (y :: pre)). right. exists (y :: pre), z, post. auto.
Qed.
Lemma printable z : exists t, prints_int z t.
Proof. exists (to_string z). now apply prints_int_iff. Qed.
Lemma printables l : exists ts, Forall2 prints_int l ts.
Proof. induction l as [|z l (ts & IH)]; [exists []; auto|]. destruct (printable z) as (t & T). exists (t :: ts). auto. Qed.
Lemma shown_truth (P : Prop) : exists b, b = true <-> P.
Proof. destruct (classic P); [exists true|exists false]; split; congruence || tauto. Qed.
Lemma then_message p tol i m args m' args' i1 a1 : if_then m args m' args' -> message_effect p tol i m args i1 a1 -> exists i2 a2, message_effect p tol i m' args' i2 a2.
Proof.
  intros F M. destruct F; inversion M; subst; try clash;
    try (match goal with V : value_effect _ _ _ _ _ _ |- _ => inversion V; subst; try clash end);
    try (match goal with V : seq_effect _ _ _ _ _ _ _ |- _ => inversion V; subst; try clash end);
    try (match goal with V : search_effect _ _ _ _ _ _ _ |- _ => inversion V; subst; try clash end);
    try (match goal with V : string_effect _ _ _ _ _ |- _ => inversion V; subst; try clash end).
  - destruct v' as [|y v']; do 2 eexists; apply msg_sequence; constructor.
  - destruct (shown_truth (v = [])) as (b & Hb). do 2 eexists. apply msg_set_isEmpty. exact Hb.
  - destruct (shown_truth (d = [])) as (b & Hb). do 2 eexists. apply msg_dict_isEmpty. exact Hb.
  - destruct v' as [|y v']; do 2 eexists; apply msg_string; constructor.
  - do 2 eexists. apply msg_value. constructor.
  - do 2 eexists. apply msg_value. constructor.
  - destruct (classic (Exists (fun y => equals tol y x0) v')) as [E|E]; do 2 eexists; apply msg_search; [eapply eff_contains_true; eauto|eapply eff_contains_false; eauto].
    apply Forall_forall. intros y I X. apply E. apply Exists_exists. eauto.
  - destruct (first_match_exists tol x0 v') as (i & F). destruct (printable i) as (t' & T). do 2 eexists. apply msg_search. eapply eff_firstIndexOf; eauto.
  - destruct (positions_exist tol x0 v' 0) as (l' & F). destruct (printables l') as (t' & T). do 2 eexists. apply msg_search. eapply eff_allIndexesOf; eauto.
  - match goal with F : positions _ _ _ _ ?l |- _ => destruct (printable (size l)) as (t' & T) end. do 2 eexists. apply msg_search. eapply eff_count; eauto.
  - do 2 eexists. apply msg_string. now constructor.
  - do 2 eexists. apply msg_sequence. econstructor; eauto.
  - do 2 eexists. apply msg_string. now constructor.
  - do 2 eexists. apply msg_sequence. econstructor; eauto.
  - destruct (classic (Exists (fun k' => equals tol k' k0) (map fst d))) as [E|E].
    + apply Exists_exists in E as (k' & I & E). apply in_map_iff in I as ((k1 & v) & <- & I). destruct (shown p v) as (t' & T). do 2 eexists. eapply msg_dict_found; eauto.
    + do 2 eexists. eapply msg_dict_not_found; eauto. apply Forall_forall. intros y I X. apply E. apply Exists_exists. eauto.
  - match goal with H : literal_of _ k ?x |- _ => destruct (shown_truth (Exists (fun k' => equals tol k' x) (map fst d))) as (b & Hb) end. do 2 eexists. eapply msg_dict_containsKey; eauto.
  - match goal with H : literal_of _ k ?x |- _ => destruct (shown_truth (Exists (fun k' => equals tol k' x) (map fst d))) as (b & Hb) end. do 2 eexists. eapply msg_dict_containsKey; eauto.
Qed.

Lemma fit_reads p tol i m1 args1 m2 args2 P i1 a1 : fit m1 args1 m2 args2 P -> message_effect p tol i m1 args1 i1 a1 -> i1 = i.
Proof.
  intros F M. destruct F; inversion M; subst; try clash; try reflexivity;
    try (match goal with V : value_effect _ _ _ _ _ _ |- _ => inversion V; subst; try clash; reflexivity end);
    try (match goal with V : seq_effect _ _ _ _ _ _ _ |- _ => inversion V; subst; try clash; reflexivity end);
    try (match goal with V : search_effect _ _ _ _ _ _ _ |- _ => inversion V; subst; try clash; reflexivity end);
    try (match goal with V : string_effect _ _ _ _ _ |- _ => inversion V; subst; try clash; reflexivity end).
Qed.

(** ** statements *)
Lemma message_only pw c s n m args c1 s1 a : effect pw c s n m args c1 s1 a -> (exists m2 args2 P, fit m args m2 args2 P \/ fit m2 args2 m args P) \/ (exists m2 args2, if_then m args m2 args2) ->
  exists i i1, lookup c n = Some i /\ message_effect (float_precision c) (tolerance c) i m args i1 a /\ only_changes c c1 n (Some i1) /\ s1 = s.
Proof.
  intros E F. assert (Cr : forall t l x j, ~ creates t m l x j).
  { intros t l x j C. assert (W : with_value m \/ without_value m) by (inversion C; auto). clear C E.
    destruct F as [(m2 & args2 & P & [F|F])|(m2 & args2 & F)]; destruct F; destruct W as [W|W]; unfold with_value, without_value in W; firstorder discriminate. }
  inversion E; subst; try (exfalso; eapply Cr; eauto; fail); eauto 10.
  all: exfalso; clear E Cr; destruct F as [(m2 & args2 & P & [F|F])|(m2 & args2 & F)]; inversion F.
Qed.

(** C75: two successful statements that are sent to the same variable one after the other, by the same or by different clients, while the
    variable and the settings are not changed in between, get answers that fit together; the first one changes nothing. *)
Theorem C75_answers_fit_together : forall srt pw c s1 s1' s2 s2' line1 line2 n m1 args1 m2 args2 P c1 c2 c3 a b,
  sort_contract srt -> reachable srt pw c -> reachable srt pw c2 ->
  statement line1 n m1 args1 -> statement line2 n m2 args2 -> fit m1 args1 m2 args2 P ->
  runs srt pw c s1 line1 c1 s1' a -> ~ error_answer a ->
  lookup c2 n = lookup c1 n -> same_settings c1 c2 ->
  runs srt pw c2 s2 line2 c3 s2' b -> ~ error_answer b ->
  same_data c c1 /\ P a b.
Proof.
  intros srt pw c s1 s1' s2 s2' line1 line2 n m1 args1 m2 args2 P c1 c2 c3 a b Hs R R2 S1 S2 F X1 N1 L [Sp St] X2 N2.
  assert (E1 := C66_every_success_is_an_effect _ _ _ _ _ _ _ _ _ _ _ Hs R S1 X1 N1).
  assert (E2 := C66_every_success_is_an_effect _ _ _ _ _ _ _ _ _ _ _ Hs R2 S2 X2 N2).
  destruct (message_only _ _ _ _ _ _ _ _ _ E1) as (i & i1 & L1 & M1 & (O1 & O2 & O3) & _); [left; eauto 10|].
  destruct (message_only _ _ _ _ _ _ _ _ _ E2) as (j & i2 & L2 & M2 & _ & _); [left; eauto 10|].
  destruct O3 as [Op Ot]. rewrite Sp, St, Op, Ot in M2. assert (j = i1) as -> by congruence.
  assert (i1 = i) as ->.
  { eapply fit_reads; eauto. }
  destruct (fit_message _ _ _ _ _ _ _ _ _ _ _ _ F M1 M2) as [_ Pab]. split; auto. split; [|split; auto].
  intros x. destruct (bytes_dec x n) as [->|Ne]; [congruence|auto].
Qed.

Lemma changed_to c n i : exists c', only_changes c c' n (Some i).
Proof.
  exists {| instances := (n, i) :: instances c; float_precision := float_precision c; tolerance := tolerance c; log_is_open := log_is_open c; quiet := quiet c;
            logfile := logfile c; stdout := stdout c |}.
  unfold only_changes, lookup. cbn [instances assoc]. split; [now destruct (bytes_dec n n)|]. split; [|now split].
  intros x Ne. now destruct (bytes_dec n x); [congruence|].
Qed.
(** If one of them is answered, so is the other. *)
Theorem C75_one_succeeds_if_the_other_does : forall srt pw c s s' t line line' n m args m' args' c1 a,
  sort_contract srt -> reachable srt pw c -> statement line n m args -> statement line' n m' args' -> if_then m args m' args' ->
  runs srt pw c s line c1 s' a -> ~ error_answer a ->
  exists c2 b, runs srt pw c t line' c2 t b /\ ~ error_answer b.
Proof.
  intros srt pw c s s' t line line' n m args m' args' c1 a Hs R S1 S2 F X1 N1.
  assert (E1 := C66_every_success_is_an_effect _ _ _ _ _ _ _ _ _ _ _ Hs R S1 X1 N1).
  destruct (message_only _ _ _ _ _ _ _ _ _ E1) as (i & i1 & L1 & M1 & _ & _); [right; eauto|].
  destruct (then_message _ _ _ _ _ _ _ _ _ F M1) as (i2 & b & M2).
  destruct (changed_to c n i2) as (c2 & O).
  assert (E2 : effect pw c t n m' args' c2 t b) by (eapply eff_message; eauto).
  destruct (C66_every_effect_happens srt pw c t line' n m' args' c2 t b Hs R S2 E2) as (c3 & X2 & _).
  - intros v _. destruct F; discriminate.
  - exists c3, b. split; auto. eapply effect_answers; eauto.
Qed.

Lemma prints_no_error z t : prints_int z t -> ~ error_answer t.
Proof. intros P X. apply error_answer_looks in X. revert X. apply success_not_error. apply prints_int_iff in P as ->. apply success_to_string. Qed.
Definition counted : list bytes := [B "Vector<Integer> create: v;"; B "v pushBack: 7;"; B "v pushBack: 5;"; B "v pushBack: 7;"].
Example C75_ex : exists c c1 c2, reachable insertion_sort [] c /\ lookup c (B "v") = Some (IVector (B "Integer") [OInt 7; OInt 5; OInt 7]) /\
  statement (B "v count: 7;") (B "v") (B "count:") [B "7"] /\ statement (B "v allIndexesOf: 7;") (B "v") (B "allIndexesOf:") [B "7"] /\
  (exists P, fit (B "count:") [B "7"] (B "allIndexesOf:") [B "7"] P) /\
  runs insertion_sort [] c None (B "v count: 7;") c1 None (B "2") /\ ~ error_answer (B "2") /\
  runs insertion_sort [] c1 None (B "v allIndexesOf: 7;") c2 None (B "[0,2]") /\
  if_then (B "count:") [B "7"] (B "firstIndexOf:") [B "7"].
Proof.
  eexists _, _, _. split; [apply (after_reachable _ _ counted empty_server); [constructor; vm_compute; reflexivity|vm_compute; reflexivity]|].
  split; [vm_compute; reflexivity|]. split; [stmt|]. split; [stmt|]. split; [eexists; constructor|].
  split; [unfold runs; vm_compute; reflexivity|]. split; [apply (prints_no_error 2); now apply prints_int_iff|]. split; [unfold runs; vm_compute; reflexivity|constructor].
Qed.
