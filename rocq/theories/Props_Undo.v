(** Property C73: statements that take back others.  Specification: [Spec_Undo]; the effects of statements: [Spec_Whole]. *)
From Coq Require Import ZArith Reals Psatz Sorting.Sorted Sorting.Permutation Classical.
From Flocq Require Import Core.
From Coq Require Import Floats.SpecFloat.
From Verif Require Import Bytes StrUtils Grammar Outcome Parser Num Containers Instance Context Server Platform.
From Verif Require Import Lemmas StringLit Proof_Grammar Proof_Parser Proof_Exec WP Proof_Inv Proof_Literal Proof_Receive Proof_Context Proof_Names Api Proof_Text.
From Verif Require Import Proof_Number Proof_Float Proof_Arith Proof_Order Props_Text Props_State Props_Number Props_Float Props_Order.
From Verif Require Import Proof_Vector Props_Vector Proof_String Props_String Proof_Set Props_Set Props_Object Props_Server Props_Local Props_Whole Props_Errors.
From Verif Require Import Spec_Grammar Spec_State Spec_Names Spec_Text Spec_Number Spec_Float Spec_Order Spec_Vector Spec_String Spec_Set Spec_Object Spec_Server Spec_Local Spec_Whole Spec_Undo.
Open Scope Z_scope.
Open Scope list_scope.

(** ** the effects of the messages that are taken back *)
Lemma vector_message p tol t v m args i' ans : message_effect p tol (IVector t v) m args i' ans -> m <> B "sort" ->
  exists v', i' = IVector t v' /\ (seq_effect p t m args v v' ans \/ search_effect tol t m args v v' ans).
Proof.
  intros M N. inversion M; subst; eauto. contradiction.
Qed.
Ltac by_seq M := 
  let V := fresh "V" in let v' := fresh "v'" in
  destruct (vector_message _ _ _ _ _ _ _ _ M) as (v' & -> & [V|V]); [discriminate| |];
  inversion V; subst; try discriminate.

Lemma shown p x : exists a, shows p x a.
Proof. exists (obj_repr {| e_precision := p; e_tolerance := S754_zero false; e_sort := fun _ l => l |} x). exact (obj_repr_shows {| e_precision := p; e_tolerance := S754_zero false; e_sort := fun _ l => l |} x). Qed.
Lemma index_unique a x y : index_of a x -> index_of a y -> x = y.
Proof. intros H1 H2. assert (E := literal_unique _ _ _ _ H1 H2). congruence. Qed.
Lemma split_unique {A} (a1 a2 b1 b2 : list A) : a1 ++ b1 = a2 ++ b2 -> size a1 = size a2 -> a1 = a2 /\ b1 = b2.
Proof.
  unfold size. intros E L. apply Nat2Z.inj in L. revert a2 E L. induction a1 as [|x a1 IH]; intros [|y a2] E L; try discriminate L; auto.
  injection E as -> E. injection L as L. destruct (IH _ E L) as [-> ->]. auto.
Qed.

Lemma undo_vector p tol t v m args m' args' i1 ans1 : taken_back tol (IVector t v) m args m' args' ->
  message_effect p tol (IVector t v) m args i1 ans1 -> exists ans2, message_effect p tol i1 m' args' (IVector t v) ans2.
Proof.
  intros T M. inversion T; subst; clear T.
  - by_seq M. destruct (shown p x) as [s Hs]. exists s. apply msg_sequence. now apply eff_popBack.
  - by_seq M. destruct (shown p x) as [s Hs]. exists s. apply msg_sequence. now apply eff_popFront.
  - by_seq M.
    + match goal with H : [] = _ ++ [_] |- _ => destruct (app_cons_not_nil _ _ _ H) end.
    + match goal with H : _ ++ [_] = _ ++ [_] |- _ => apply app_inj_tail in H as [-> ->] end.
      exists (B "null"). apply msg_sequence. now apply eff_pushBack.
  - by_seq M. exists (B "null"). apply msg_sequence. now apply eff_pushFront.
  - by_seq M. destruct (shown p x) as [s Hs]. exists s. apply msg_sequence. now apply eff_popAtIndex.
  - by_seq M. match goal with H : _ ++ _ :: _ = _ ++ _ :: _ |- _ => apply split_unique in H as [-> E] end.
    + injection E as -> ->. exists (B "null"). apply msg_sequence. now apply eff_insert.
    + eapply index_unique; eauto.
  - by_seq M. exists (B "null"). apply msg_sequence. rewrite <- (rev_involutive v) at 2. apply eff_reverse.
Qed.

Lemma denotes_one a u v : denotes_string a u -> denotes_string a v -> u = v.
Proof. intros H1 H2. assert (E := literal_unique _ _ _ _ (lit_string _ _ H1) (lit_string _ _ H2)). congruence. Qed.
Lemma string_message p tol v m args i' ans : message_effect p tol (IObj (OStr v)) m args i' ans -> (forall q, m <> asks (B "String") q) -> m <> B "set:" ->
  exists v', i' = IObj (OStr v') /\ string_effect m args v v' ans.
Proof.
  intros M N S. inversion M; subst.
  - match goal with V : value_effect _ _ _ _ _ _ |- _ => inversion V; subst; try contradiction end.
    match goal with H : shows _ _ _ |- _ => inversion H; subst end. exists v. split; auto. constructor.
  - match goal with Ha : has_type ?t (OStr v), q : question |- _ => assert (t = B "String") as -> by (inversion Ha; reflexivity); destruct (N q eq_refl) end.
  - eauto.
Qed.
Ltac by_string M :=
  let V := fresh "V" in let v' := fresh "v'" in
  destruct (string_message _ _ _ _ _ _ _ M) as (v' & -> & V); [intros [| | | |]; discriminate|discriminate|];
  inversion V; subst; try discriminate.
Lemma undo_string p tol v m args m' args' i1 ans1 : taken_back tol (IObj (OStr v)) m args m' args' -> m <> B "set:" ->
  message_effect p tol (IObj (OStr v)) m args i1 ans1 -> exists ans2, message_effect p tol i1 m' args' (IObj (OStr v)) ans2.
Proof.
  intros T N M. inversion T; subst; clear T; try contradiction.
  - by_string M. eexists. apply msg_string. apply txt_popBack.
  - by_string M. eexists. apply msg_string. apply txt_popFront.
  - by_string M.
    + match goal with H : [] = _ ++ [_] |- _ => destruct (app_cons_not_nil _ _ _ H) end.
    + match goal with H : _ ++ [_] = _ ++ [_] |- _ => apply app_inj_tail in H as [-> ->] end. eexists. apply msg_string. apply txt_pushBack.
  - by_string M. eexists. apply msg_string. apply txt_pushFront.
  - by_string M. eexists. apply msg_string. now apply txt_erase.
  - by_string M. assert (k = size pre) as -> by (eapply index_unique; eauto).
    match goal with H1 : denotes_string a ?x, H2 : denotes_string a ?y |- _ => assert (x = y) as -> by (eapply denotes_one; eauto) end.
    eexists. apply msg_string. now apply txt_erase_to.
  - by_string M.
    match goal with H1 : index_of a (size pre), H2 : index_of a (size ?pre'), H3 : index_of b (size pre + size mid), H4 : index_of b (size ?pre' + size ?mid'), E : _ = _ |- _ =>
      assert (I1 := index_unique _ _ _ H1 H2); assert (I2 := index_unique _ _ _ H3 H4); symmetry in E; apply split_unique in E as [<- E]; [|exact I1];
      apply split_unique in E as [<- <-]; [|lia] end.
    eexists. apply msg_string. now apply txt_insert.
Qed.

Lemma type_unique t t' x : has_type t x -> has_type t' x -> t = t'.
Proof. destruct x; cbn; congruence. Qed.
Lemma asks_neither t q : asks t q <> B "set:" /\ forall o, asks t q <> message_of o.
Proof.
  unfold asks. split; [|intros [| | |]]; destruct (bytes_dec t (B "String")); destruct q; discriminate.
Qed.
Lemma undo_set p tol x t a b i1 ans1 : has_type t x -> literal_of t b x ->
  message_effect p tol (IObj x) (B "set:") [a] i1 ans1 -> exists ans2, message_effect p tol i1 (B "set:") [b] (IObj x) ans2.
Proof.
  intros T L M. exists (B "null"). inversion M; subst.
  - match goal with V : value_effect _ _ _ _ _ _ |- _ => inversion V; subst; try discriminate end.
    match goal with H : has_type ?t' x |- _ => assert (t' = t) as -> by (eapply type_unique; eauto) end.
    apply msg_value. apply (val_set p t); auto. eapply literal_typed; eauto.
  - match goal with H : asks ?t ?q = _ |- _ => destruct (proj1 (asks_neither t q) H) end.
  - match goal with H : message_of ?o = _ |- _ => destruct o; discriminate H end.
  - match goal with H : message_of ?o = _ |- _ => destruct o; discriminate H end.
  - match goal with H : message_of ?o = _ |- _ => destruct o; discriminate H end.
  - match goal with V : string_effect _ _ _ _ _ |- _ => inversion V; subst; try discriminate end.
    assert (t = B "String") as -> by exact T. apply msg_value. apply (val_set p (B "String")); auto.
Qed.
Lemma integer_message p tol z o a d i1 ans : denotes_int a d -> message_effect p tol (IObj (OInt z)) (message_of o) [a] i1 ans ->
  exists r, i1 = IObj (OInt r) /\ fits d /\ exact_result o z d r /\ fits r.
Proof.
  intros D M. remember (message_of o) as m eqn:Em. inversion M; subst.
  - match goal with V : value_effect _ _ _ _ _ _ |- _ => inversion V; subst end; destruct o; discriminate.
  - match goal with H : asks ?t ?q = message_of o |- _ => destruct (proj2 (asks_neither t q) o H) end.
  - match goal with H : message_of ?o1 = message_of o |- _ => assert (o1 = o) as -> by (destruct o1, o; try discriminate H; reflexivity) end.
    match goal with H : denotes_int a ?d1 |- _ => assert (d1 = d) as -> by (eapply denotes_int_unique; eauto) end. eauto.
  - exfalso. match goal with H : ~ integer_value a |- _ => apply H end. apply is_integer_value_iff. eapply int_literal; eauto.
Qed.
Lemma undo_integer p tol z o o' a d i1 ans : denotes_int a d -> fits z ->
  (o = Add /\ o' = Subtract) \/ (o = Subtract /\ o' = Add) \/ (o = Multiply /\ o' = Divide /\ d <> 0) ->
  message_effect p tol (IObj (OInt z)) (message_of o) [a] i1 ans -> exists ans2, message_effect p tol i1 (message_of o') [a] (IObj (OInt z)) ans2.
Proof.
  intros D Fz O M. destruct (integer_message _ _ _ _ _ _ _ _ D M) as (r & -> & Fd & E & Fr). exists (B "null"). apply (msg_integer _ _ o' a r d z); auto.
  destruct O as [[-> ->]|[[-> ->]|(-> & -> & Nz)]]; cbn in *; subst r; try lia. split; auto. symmetry. now apply Z.quot_mul.
Qed.

(** ** sets and dictionaries *)
Lemma weak_order_sub tol l l' : (forall x, In x l' -> In x l) -> weak_order tol l -> weak_order tol l'.
Proof. intros S (A1 & A2 & A3). split; [|split]; eauto 10. Qed.
Lemma increasing_one tol l x y : strictly_increasing tol l -> In x l -> In y l -> equals tol y x -> y = x.
Proof.
  intros S. induction S as [|z l S IH F]; [intros []|]. rewrite Forall_forall in F. intros [<-|Hx] [<-|Hy] [E1 E2]; auto.
  - destruct (E2 (F _ Hy)).
  - destruct (E1 (F _ Hx)).
  - apply IH; auto. now split.
Qed.
Ltac same_literals := repeat match goal with H1 : literal_of ?t ?l ?x1, H2 : literal_of ?t ?l ?x2 |- _ =>
  assert_fails (constr_eq x1 x2); assert (x2 = x1) by (eapply literal_unique; eauto); subst x2 end.
Lemma undo_set_add p tol t v a x i1 ans1 : literal_of t a x -> Forall (fun y => ~ equals tol y x) v ->
  message_effect p tol (ISet t v) (B "add:") [a] i1 ans1 -> exists ans2, message_effect p tol i1 (B "remove:") [a] (ISet t v) ans2.
Proof.
  intros L F M. exists (B "null"). inversion M; subst; try discriminate. same_literals. match goal with H : usable tol _ v |- _ => destruct H as [W S] end.
  match goal with H : added _ _ _ _ |- _ => destruct H as (S' & [[X _]|[_ X]]) end.
  { exfalso. apply Exists_exists in X as (y & Hy & Ey). rewrite Forall_forall in F; exact (F y Hy Ey). }
  apply (msg_set_remove _ _ t _ _ a x); auto.
  - split; auto. eapply weak_order_sub; [|exact W]. intros z [->|Hz]; [now left|]. apply X in Hz as [->|Hz]; [now left|now right].
  - split; auto. intros z. rewrite X. rewrite Forall_forall in F. split.
    + intros Hz. split; auto.
    + intros [[->|Hz] Ne]; auto. exfalso. apply Ne. split; apply W; now left.
Qed.
Lemma undo_set_remove p tol t v a x i1 ans1 : literal_of t a x -> In x v ->
  message_effect p tol (ISet t v) (B "remove:") [a] i1 ans1 -> exists ans2, message_effect p tol i1 (B "add:") [a] (ISet t v) ans2.
Proof.
  intros L F M. exists (B "null"). inversion M; subst; try discriminate. same_literals. match goal with H : usable tol _ v |- _ => destruct H as [W S] end.
  match goal with H : removed _ _ _ _ |- _ => destruct H as (S' & X) end.
  apply (msg_set_add _ _ t _ _ a x); auto.
  - split; auto. eapply weak_order_sub; [|exact W]. intros z [->|Hz]; [now left|]. apply X in Hz as [Hz _]. now right.
  - split; auto. right. split; [apply Forall_forall; intros z Hz; now apply X in Hz|]. intros z. rewrite X. split.
    + intros Hz. destruct (obj_dec z x) as [->|Ne]; auto. right. split; auto. intros Eq. apply Ne. eapply increasing_one; eauto.
    + intros [->|[Hz _]]; auto.
Qed.

Lemma increasing_key tol (d : list (obj * obj)) k k' y y' : strictly_increasing tol (map fst d) -> In (k, y) d -> In (k', y') d -> equals tol k' k -> k' = k /\ y' = y.
Proof.
  induction d as [|[q w] d IH]; [intros _ []|]. cbn [map fst]. intros S. inversion S as [|q0 l0 S0 F]; subst. rewrite Forall_forall in F.
  assert (G : forall a b, In (a, b) d -> before tol q a) by (intros a b Hab; apply F, in_map_iff; exists (a, b); auto).
  intros [E|H1] [E'|H2] [E1 E2].
  - injection E as <- <-. injection E' as <- <-. auto.
  - injection E as <- <-. destruct (E2 (G _ _ H2)).
  - injection E' as <- <-. destruct (E1 (G _ _ H1)).
  - apply IH; auto. now split.
Qed.
Lemma key_of (d : list (obj * obj)) k y : In (k, y) d -> In k (map fst d).
Proof. intros H. apply in_map_iff. exists (k, y). auto. Qed.
Lemma of_key (d : list (obj * obj)) k : In k (map fst d) -> exists y, In (k, y) d.
Proof. intros H. apply in_map_iff in H as ([k' y] & <- & H). eauto. Qed.
Lemma equals_self tol k l x : weak_order tol (k :: l) -> In x l -> equals tol x x.
Proof. intros (A & _) H. split; apply A; now right. Qed.
Lemma equals_through tol k l x y : weak_order tol (k :: l) -> In x l -> In y l -> equals tol x k -> equals tol y k -> equals tol x y.
Proof. intros (_ & _ & A) Hx Hy E [E1 E2]. apply (A x k y); try (now right); try (now left); auto. now split. Qed.
Lemma undo_associate p tol kt vt d a b k i1 ans1 : literal_of kt b k -> Forall (fun k' => ~ equals tol k' k) (map fst d) ->
  message_effect p tol (IDict kt vt d) (B "associateValue:withKey:") [a; b] i1 ans1 -> exists ans2, message_effect p tol i1 (B "removeKey:") [b] (IDict kt vt d) ans2.
Proof.
  intros L F M. exists (B "null"). inversion M; subst; try discriminate. same_literals. match goal with H : usable tol _ _ |- _ => destruct H as [W S] end.
  match goal with H : associated _ _ _ _ _ |- _ => destruct H as (S' & [(k' & Hk & Ek & _)|[_ X]]) end.
  { exfalso. match goal with F : Forall _ (map fst d) |- _ => rewrite Forall_forall in F; exact (F k' Hk Ek) end. }
  match goal with F : Forall _ (map fst d) |- _ => rewrite Forall_forall in F end.
  apply (msg_dict_removeKey _ _ kt vt _ _ b k); auto.
  - split; auto. eapply weak_order_sub; [|exact W]. intros z [->|Hz]; [now left|]. apply of_key in Hz as (y & Hz). apply X in Hz as [[-> _]|Hz]; [now left|right].
      eapply key_of; eauto.
  - split; auto. intros z y. rewrite X. split.
    + intros Hz. split; auto. match goal with F : forall x, In x (map fst d) -> _ |- _ => apply F end. eapply key_of; eauto.
    + intros [[[-> _]|Hz] Ne]; auto. exfalso. apply Ne. split; apply W; now left.
Qed.
Lemma undo_reassociate p tol kt vt d a b a' k k' y i1 ans1 : literal_of kt b k -> In (k', y) d -> equals tol k' k -> literal_of vt a' y ->
  message_effect p tol (IDict kt vt d) (B "associateValue:withKey:") [a; b] i1 ans1 ->
  exists ans2, message_effect p tol i1 (B "associateValue:withKey:") [a'; b] (IDict kt vt d) ans2.
Proof.
  intros L F E L2 M. exists (B "null"). inversion M; subst; try discriminate. match goal with H : literal_of kt b ?q |- _ => lazymatch q with k => fail | _ => assert (q = k) by (eapply literal_unique; eauto); subst q end end. match goal with H : usable tol _ _ |- _ => destruct H as [W S] end.
  match goal with H : associated _ _ _ _ _ |- _ => destruct H as (S' & [(q & Hq & Eq & X)|[X _]]) end.
  2: { exfalso. rewrite Forall_forall in X. apply (X k'); auto. eapply key_of; eauto. }
  assert (Kq : k' = q).
  { apply of_key in Hq as (w & Hq). refine (proj1 (increasing_key tol d q k' w y S Hq F _)).
    apply (equals_through tol k (map fst d)); auto; eapply key_of; eauto. }
  subst q. apply (msg_dict_associate _ _ kt vt _ _ a' b y k); auto.
  - split; auto. eapply weak_order_sub; [|exact W]. intros z [->|Hz]; [now left|]. apply of_key in Hz as (w & Hz). apply X in Hz as [[-> _]|[_ Hz]]; right; eapply key_of; eauto.
  - split; auto. left. exists k'. split; [eapply key_of; apply X; left; split; reflexivity|]. split; auto. intros z w. rewrite X. split.
    + intros Hz. destruct (obj_dec z k') as [->|Ne]; auto. left. split; auto.
        match goal with Hy : In (k', y) d |- _ => destruct (increasing_key tol d k' k' y w S Hy Hz) as [_ ->] end; auto. apply (equals_self tol k (map fst d)); auto.
    + intros [[-> ->]|[Ne [[-> _]|[_ Hz]]]]; auto. contradiction.
Qed.
Lemma undo_removeKey p tol kt vt d a b k y i1 ans1 : literal_of kt b k -> In (k, y) d -> literal_of vt a y ->
  message_effect p tol (IDict kt vt d) (B "removeKey:") [b] i1 ans1 ->
  exists ans2, message_effect p tol i1 (B "associateValue:withKey:") [a; b] (IDict kt vt d) ans2.
Proof.
  intros L F L2 M. exists (B "null"). inversion M; subst; try discriminate. match goal with H : literal_of kt b ?q |- _ => lazymatch q with k => fail | _ => assert (q = k) by (eapply literal_unique; eauto); subst q end end. match goal with H : usable tol _ _ |- _ => destruct H as [W S] end.
  match goal with H : dissociated _ _ _ _ |- _ => destruct H as (S' & X) end.
  apply (msg_dict_associate _ _ kt vt _ _ a b y k); auto.
  - split; auto. eapply weak_order_sub; [|exact W]. intros z [->|Hz]; [now left|]. apply of_key in Hz as (w & Hz). apply X in Hz as [Hz _]. right. eapply key_of; eauto.
  - split; auto. right. split; [apply Forall_forall; intros z Hz; apply of_key in Hz as (w & Hz); now apply X in Hz|]. intros z w. rewrite X. split.
    + intros Hz. destruct (obj_dec z k) as [->|Ne].
      * left. split; auto. match goal with Hy : In (k, y) d |- _ => destruct (increasing_key tol d k k y w S Hy Hz) as [_ ->] end; auto. split; apply W; now left.
      * right. split; auto. intros Eq. apply Ne. match goal with Hy : In (k, y) d |- _ => exact (proj1 (increasing_key tol d k z y w S Hy Hz Eq)) end.
    + intros [[-> ->]|[Hz _]]; auto.
Qed.

Lemma undo_message p tol i m args m' args' i1 ans1 : (forall z, i = IObj (OInt z) -> fits z) -> taken_back tol i m args m' args' ->
  message_effect p tol i m args i1 ans1 -> exists ans2, message_effect p tol i1 m' args' i ans2.
Proof.
  intros Fz T M. assert (T' := T). destruct T.
  - eapply undo_set; eauto.
  - apply integer_value_denotes in H as (d & D). apply (undo_integer p tol z Add Subtract a d i1 ans1); auto.
  - apply integer_value_denotes in H as (d & D). apply (undo_integer p tol z Subtract Add a d i1 ans1); auto.
  - apply (undo_integer p tol z Multiply Divide a d i1 ans1); auto.
  - eapply undo_string; eauto. discriminate.
  - eapply undo_string; eauto. discriminate.
  - eapply undo_string; eauto. discriminate.
  - eapply undo_string; eauto. discriminate.
  - eapply undo_string; eauto. discriminate.
  - eapply undo_string; eauto. discriminate.
  - eapply undo_string; eauto. discriminate.
  - eapply undo_vector; eauto.
  - eapply undo_vector; eauto.
  - eapply undo_vector; eauto.
  - eapply undo_vector; eauto.
  - eapply undo_vector; eauto.
  - eapply undo_vector; eauto.
  - eapply undo_vector; eauto.
  - eapply undo_set_add; eauto.
  - eapply undo_set_remove; eauto.
  - eapply undo_associate; eauto.
  - eapply undo_reassociate; eauto.
  - eapply undo_removeKey; eauto.
Qed.
Lemma changes_back c c1 n i i1 : lookup c n = i -> only_changes c c1 n i1 -> only_changes c1 c n i.
Proof. intros L (A1 & A2 & A3 & A4). split; auto. split; [intros x Hx; symmetry; auto|]. split; congruence. Qed.
Lemma context_not_variable : ~ variable (B "Context").
Proof. intros V. apply is_variable_iff in V. vm_compute in V. discriminate V. Qed.
Lemma connection_not_variable : ~ variable (B "Connection").
Proof. intros V. apply is_variable_iff in V. vm_compute in V. discriminate V. Qed.
Lemma variable_no_type n : variable n -> ~ type n.
Proof. intros V T. apply variable_not_type in V. apply is_type_iff in T. congruence. Qed.
Lemma creates_name t m args n i n' i' : creates t m args n i -> creates t m args n' i' -> n = n'.
Proof. intros H1 H2. destruct H1; inversion H2; reflexivity. Qed.
Lemma undo_effect srt pw c s a m args a' m' args' c1 s1 ans : sort_contract srt -> reachable srt pw c -> reverted c a m args a' m' args' ->
  effect pw c s a m args c1 s1 ans -> s1 = s /\ exists ans2, effect pw c1 s a' m' args' c s ans2.
Proof.
  intros Hs R V E.
  assert (Nv : forall n i, lookup c n = Some i -> variable n).
  { intros n i L. eapply C25_live_names_are_variables; eauto. unfold live. congruence. }
  destruct V as [n i m args m' args' L T|t m args n i Cr L|t m args n i L Cr|a b I P|a b I P].
  - assert (X : exists i1, message_effect (float_precision c) (tolerance c) i m args i1 ans /\ only_changes c c1 n (Some i1) /\ s1 = s).
    { assert (Vn := Nv _ _ L). inversion E; subst.
      - replace i0 with i in * by congruence. eauto.
      - exfalso. eapply variable_no_type; eauto. eapply creates_type; eauto.
      - exfalso. eapply variable_no_type; eauto. eapply creates_type; eauto.
      - destruct (context_not_variable Vn).
      - destruct (context_not_variable Vn).
      - destruct (context_not_variable Vn).
      - destruct (context_not_variable Vn).
      - destruct (context_not_variable Vn).
      - destruct (context_not_variable Vn).
      - destruct (context_not_variable Vn).
      - destruct (context_not_variable Vn).
      - destruct (context_not_variable Vn).
      - destruct (connection_not_variable Vn).
      - destruct (connection_not_variable Vn). }
    destruct X as (i1 & M & O & ->). split; auto. assert (Fz : forall z, i = IObj (OInt z) -> fits z).
    { intros z ->. eapply C08_stored_integers_fit; eauto. }
    destruct (undo_message _ _ _ _ _ _ _ _ _ Fz T M) as (ans2 & M2). exists ans2. destruct O as (O1 & O2 & O3 & O4).
    apply (eff_message pw c1 s n m' args' i1 i ans2 c); auto.
    + rewrite O3, O4. exact M2.
    + eapply changes_back; eauto. split; auto. split; auto. split; auto.
  - assert (Ty := creates_type _ _ _ _ _ Cr). destruct (type_not_context t Ty) as [N1 N2].
    assert (X : exists i1, only_changes c c1 n (Some i1) /\ s1 = s).
    { inversion E; subst; try congruence.
      - exfalso. eapply variable_no_type; eauto.
      - match goal with H : creates _ _ _ ?n' ?i' |- _ => lazymatch n' with n => fail | _ => assert (n' = n) by (eapply creates_name; eauto); subst n' end end. eauto.
      - match goal with H : creates _ _ _ ?n' ?i' |- _ => lazymatch n' with n => fail | _ => assert (n' = n) by (eapply creates_name; eauto); subst n' end end. contradiction. }
    destruct X as (i1 & O & ->). split; auto. exists (B "null"). apply eff_delete.
    + destruct O as (O1 & _). unfold live. congruence.
    + eapply changes_back; eauto. unfold live in L. destruct (lookup c n); auto. exfalso. apply L. congruence.
  - assert (X : only_changes c c1 n None /\ s1 = s).
    { inversion E; subst; try discriminate; auto.
      - exfalso. eapply context_not_variable; eauto.
      - exfalso. eapply (proj1 (type_not_context (B "Context") ltac:(eapply creates_type; eauto))). reflexivity.
      - exfalso. eapply (proj1 (type_not_context (B "Context") ltac:(eapply creates_type; eauto))). reflexivity. }
    destruct X as (O & ->). split; auto. exists (B "null"). apply (eff_create pw c1 s t m args n i c); auto.
    + destruct O as (O1 & _). unfold live. congruence.
    + eapply changes_back; eauto.
  - assert (X : (forall n, lookup c1 n = lookup c n) /\ tolerance c1 = tolerance c /\ s1 = s).
    { inversion E; subst; try discriminate; auto.
      - exfalso. eapply context_not_variable; eauto.
      - exfalso. eapply (proj1 (type_not_context (B "Context") ltac:(eapply creates_type; eauto))). reflexivity.
      - exfalso. eapply (proj1 (type_not_context (B "Context") ltac:(eapply creates_type; eauto))). reflexivity. }
    destruct X as (X1 & X2 & ->). split; auto. exists (B "null"). apply (eff_setFloatPrecision pw c1 s b (float_precision c) c); auto.
  - assert (X : (forall n, lookup c1 n = lookup c n) /\ float_precision c1 = float_precision c /\ s1 = s).
    { inversion E; subst; try discriminate; auto.
      - exfalso. eapply context_not_variable; eauto.
      - exfalso. eapply (proj1 (type_not_context (B "Context") ltac:(eapply creates_type; eauto))). reflexivity.
      - exfalso. eapply (proj1 (type_not_context (B "Context") ltac:(eapply creates_type; eauto))). reflexivity. }
    destruct X as (X1 & X2 & ->). split; auto. exists (B "null"). apply (eff_setFloatComparisonTolerance pw c1 s b (tolerance c) c); auto.
Qed.
Lemma never_sort c a m args a' m' args' : reverted c a m args a' m' args' -> m' <> B "sort".
Proof.
  intros H. destruct H as [n i m args m' args' L T|t m args n i Cr L|t m args n i L Cr|a b I P|a b I P]; try discriminate.
  - destruct T; discriminate.
  - intros ->. inversion Cr; subst; match goal with H : with_value _ |- _ => destruct H; discriminate | H : without_value _ |- _ => destruct H; discriminate end.
Qed.

(** ** C73: taking back *)
(** If the first statement succeeded, the second one succeeds too and leaves exactly the data there were before. *)
Theorem C73_undo : forall srt pw c s line1 line2 a m args a' m' args' c1 s1 ans1, sort_contract srt -> reachable srt pw c ->
  statement line1 a m args -> statement line2 a' m' args' -> reverted c a m args a' m' args' ->
  runs srt pw c s line1 c1 s1 ans1 -> ~ error_answer ans1 ->
  exists c2 ans2, runs srt pw c1 s1 line2 c2 s ans2 /\ ~ error_answer ans2 /\ same_data c c2.
Proof.
  intros srt pw c s line1 line2 a m args a' m' args' c1 s1 ans1 Hs R S1 S2 V Rn N.
  assert (E := C66_every_success_is_an_effect _ _ _ _ _ _ _ _ _ _ _ Hs R S1 Rn N).
  destruct (undo_effect _ _ _ _ _ _ _ _ _ _ _ _ _ Hs R V E) as (-> & ans2 & E2).
  assert (R1 : reachable srt pw c1) by exact (reach_step _ _ _ _ _ _ _ _ R Rn).
  destruct (C66_every_effect_happens srt pw c1 s line2 a' m' args' c s ans2 Hs R1 S2 E2) as (c2 & Rn2 & D).
  - intros v _. eapply never_sort; eauto.
  - exists c2, ans2. split; auto. split; auto. exact (effect_answers srt _ _ _ _ _ _ _ _ _ E2).
Qed.

Lemma undoable_reaches srt pw s c l c' : undoable srt pw s c l c' -> reachable srt pw c -> reachable srt pw c'.
Proof. induction 1 as [|c line undo a m args a' m' args' c1 ans rest c' _ _ _ Rn _ _ IH]; auto. intros R. apply IH. exact (reach_step _ _ _ _ _ _ _ _ R Rn). Qed.
Lemma executes_reaches srt pw c s l c' s' answers : executes srt pw c s l c' s' answers -> reachable srt pw c -> reachable srt pw c'.
Proof. induction 1 as [|c s line c1 s1 ans l c' s' answers Rn _ IH]; auto. intros R. apply IH. exact (reach_step _ _ _ _ _ _ _ _ R Rn). Qed.
(** Rolling back: any number of such statements, taken back in reverse order. *)
Theorem C73_rollback : forall srt pw s c l c', sort_contract srt -> reachable srt pw c -> undoable srt pw s c l c' ->
  exists c2 answers, executes srt pw c' s (rev (map snd l)) c2 s answers /\ Forall (fun a => ~ error_answer a) answers /\ same_data c c2.
Proof.
  intros srt pw s c l c' Hs R U. induction U as [c|c line undo a m args a' m' args' c1 ans rest c' S1 S2 V Rn N U IH].
  - exists c, []. split; [constructor|]. split; [constructor|]. split; [auto|split; reflexivity].
  - assert (R1 : reachable srt pw c1) by exact (reach_step _ _ _ _ _ _ _ _ R Rn).
    destruct (IH R1) as (d & answers & X & F & D).
    assert (R' := undoable_reaches _ _ _ _ _ _ U R1). assert (Rd := executes_reaches _ _ _ _ _ _ _ _ X R').
    destruct (C73_undo _ _ _ _ _ _ _ _ _ _ _ _ _ _ _ Hs R S1 S2 V Rn N) as (c2 & ans2 & Rn2 & N2 & D2).
    destruct (C52_effect_depends_on_pieces_and_data srt pw pw pw c1 d s undo undo c2 s ans2 Hs R1 Rd D) as (d2 & Rd2 & Dd); auto.
    { intros a0 m0 args0. tauto. }
    exists d2, (answers ++ [ans2]). split; [|split].
    + cbn [map rev snd]. eapply executes_app; [exact X|]. econstructor; [exact Rd2|constructor].
    + apply Forall_app. split; auto.
    + destruct D2 as [A1 [A2 A3]], Dd as [B1 [B2 B3]]. split; [intros n; rewrite B1, A1; auto|split; congruence].
Qed.

(** Not everything can be taken back: Float arithmetic rounds, division of Integers loses the remainder, and adding an element that was
    already there must not be taken back by removing it. *)
Theorem C73_other_pairs_refuted :
  (exists c c1 c2, reachable insertion_sort [] c /\ runs insertion_sort [] c None (B "f add: 100000000.0;") c1 None (B "null") /\
     runs insertion_sort [] c1 None (B "f subtract: 100000000.0;") c2 None (B "null") /\ lookup c (B "f") <> lookup c2 (B "f")) /\
  (exists c c1 c2, reachable insertion_sort [] c /\ runs insertion_sort [] c None (B "i divideBy: 2;") c1 None (B "null") /\
     runs insertion_sort [] c1 None (B "i multiplyBy: 2;") c2 None (B "null") /\ lookup c (B "i") <> lookup c2 (B "i")) /\
  (exists c c1 c2, reachable insertion_sort [] c /\ runs insertion_sort [] c None (B "s add: 1;") c1 None (B "null") /\
     runs insertion_sort [] c1 None (B "s remove: 1;") c2 None (B "null") /\ lookup c (B "s") <> lookup c2 (B "s")).
Proof.
  split; [|split]; eexists; eexists; eexists.
  - split; [apply (after_reachable _ _ [B "Float create: f withValue: 1.5;"] empty_server); [constructor; vm_compute; reflexivity|vm_compute; reflexivity]|].
    split; [unfold runs; vm_compute; reflexivity|]. split; [unfold runs; vm_compute; reflexivity|]. vm_compute. discriminate.
  - split; [apply (after_reachable _ _ [B "Integer create: i withValue: 5;"] empty_server); [constructor; vm_compute; reflexivity|vm_compute; reflexivity]|].
    split; [unfold runs; vm_compute; reflexivity|]. split; [unfold runs; vm_compute; reflexivity|]. vm_compute. discriminate.
  - split; [apply (after_reachable _ _ [B "Set<Integer> create: s;"; B "s add: 1;"] empty_server); [constructor; vm_compute; reflexivity|vm_compute; reflexivity]|].
    split; [unfold runs; vm_compute; reflexivity|]. split; [unfold runs; vm_compute; reflexivity|]. vm_compute. discriminate.
Qed.

Lemma null_no_error : ~ error_answer (B "null").
Proof. intros X. apply error_answer_looks in X. revert X. apply success_not_error, success_null. Qed.
Ltac one := eapply undoable_more; [stmt|stmt| |unfold runs; vm_compute; reflexivity|exact null_no_error|].
Ltac ex_variable := apply is_variable_iff; reflexivity.
Ltac ex_object := unfold object_type; tauto.
Ltac ex_type := exists [], []; split; [reflexivity|]; split; [constructor|]; split; [constructor|ex_object].
Ltac ex_int z := ex_lit.
Example C73_ex : exists c, reachable insertion_sort [] empty_server /\
  undoable insertion_sort [] None empty_server
    [(B "Integer create: i withValue: 5;", B "Context deleteVariable: i;"); (B "i add: 7;", B "i subtract: 7;"); (B "i set: 1;", B "i set: 12;");
     (B "Vector<Integer> create: v;", B "Context deleteVariable: v;"); (B "v pushBack: 3;", B "v popBack;"); (B "v insert: 4 beforeIndex: 0;", B "v popAtIndex: 0;");
     (B "Set<Integer> create: s;", B "Context deleteVariable: s;"); (B "s add: 1;", B "s remove: 1;")] c /\
  lookup c (B "v") = Some (IVector (B "Integer") [OInt 4; OInt 3]) /\ lookup c (B "i") = Some (IObj (OInt 1)).
Proof.
  eexists. split; [constructor; reflexivity|]. split.
  - one. { eapply (rev_create _ _ _ _ (B "i")); [|intros H; apply H; reflexivity]. apply creates_object; [ex_object|now left|ex_variable|ex_int 5]. }
    one. { eapply rev_message; [reflexivity|]. apply back_add. apply is_integer_value_iff. reflexivity. }
    one. { eapply rev_message; [reflexivity|]. apply (back_set _ (B "Integer")); [reflexivity|ex_int 12]. }
    one. { eapply (rev_create _ _ _ _ (B "v")); [|intros H; apply H; reflexivity]. apply (creates_vector _ _ _ (B "Integer")); [ex_type|now left|ex_variable]. }
    one. { eapply rev_message; [reflexivity|]. apply back_pushBack. }
    one. { eapply rev_message; [reflexivity|]. apply back_insert. }
    one. { eapply (rev_create _ _ _ _ (B "s")); [|intros H; apply H; reflexivity]. apply (creates_set _ _ _ (B "Integer")); [ex_type|now left|ex_variable]. }
    one. { eapply rev_message; [reflexivity|]. apply (back_set_add _ _ _ _ (OInt 1)); [ex_int 1|constructor]. }
    apply undoable_none.
  - split; reflexivity.
Qed.
