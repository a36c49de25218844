(** Proofs for vectors (C18, C19). *)
From Coq Require Import ZArith Reals Psatz Sorting.Sorted Sorting.Permutation.
From Verif Require Import Bytes StrUtils Grammar Outcome Parser Num Containers Instance Context Platform.
From Verif Require Import Lemmas StringLit Proof_Grammar Proof_Parser Proof_Exec WP Proof_Inv Proof_Literal Proof_Receive Proof_Context Proof_Names Api Proof_Text.
From Verif Require Import Proof_Number Proof_Float Proof_Arith Proof_Order Props_Text Props_State Props_Number Props_Float Props_Order.
From Verif Require Import Spec_Grammar Spec_State Spec_Names Spec_Text Spec_Number Spec_Float Spec_Order Spec_Vector.
Open Scope Z_scope.
Open Scope list_scope.

(** ** Sequences *)
Lemma size_app {A} (a b : list A) : size (a ++ b) = size a + size b.
Proof. unfold size. rewrite app_length. lia. Qed.
Lemma size_cons {A} (x : A) b : size (x :: b) = 1 + size b.
Proof. unfold size. cbn [length]. lia. Qed.
Lemma size_nil {A} : size (@nil A) = 0. Proof. reflexivity. Qed.
Lemma size_nonneg {A} (a : list A) : 0 <= size a.
Proof. unfold size. lia. Qed.
Lemma zlen_size {A} (l : list A) : zlen l = size l. Proof. reflexivity. Qed.
Ltac sz := rewrite ?zlen_size in *; rewrite ?size_app, ?size_cons, ?size_nil in *;
  repeat match goal with |- context [size ?l] => lazymatch goal with H : 0 <= size l |- _ => fail | _ => assert (0 <= size l) by apply size_nonneg end end;
  repeat match goal with K : context [size ?l] |- _ => lazymatch goal with H : 0 <= size l |- _ => fail | _ => assert (0 <= size l) by apply size_nonneg end end.
Lemma split_size {A} (v : list A) i : 0 <= i <= size v -> exists pre post, v = pre ++ post /\ size pre = i.
Proof.
  intros H. exists (firstn (Z.to_nat i) v), (skipn (Z.to_nat i) v). split; [now rewrite firstn_skipn|].
  unfold size in *. rewrite firstn_length. lia.
Qed.
Lemma split_elt {A} (v : list A) i : 0 <= i < size v -> exists pre x post, v = pre ++ x :: post /\ size pre = i.
Proof.
  intros H. destruct (split_size v i) as (pre & post & -> & E); [lia|]. destruct post as [|x post]; [rewrite app_nil_r in H; lia|].
  eauto.
Qed.
Lemma split_last {A} (v : list A) : v = [] \/ exists w x, v = w ++ [x].
Proof. destruct v using rev_ind; eauto. Qed.
Lemma to_nat_size {A} (l : list A) : Z.to_nat (size l) = length l.
Proof. unfold size. apply Nat2Z.id. Qed.
Lemma firstn_pre {A} (a b : list A) : firstn (length a) (a ++ b) = a.
Proof. rewrite firstn_app, firstn_all, Nat.sub_diag. cbn. apply app_nil_r. Qed.
Lemma skipn_pre {A} (a b : list A) : skipn (length a) (a ++ b) = b.
Proof. rewrite skipn_app, skipn_all, Nat.sub_diag. reflexivity. Qed.
Lemma skipn_pre1 {A} (a : list A) x b : skipn (S (length a)) (a ++ x :: b) = b.
Proof. change (x :: b) with ([x] ++ b). rewrite app_assoc. replace (S (length a)) with (length (a ++ [x])) by (rewrite app_length; cbn; lia). apply skipn_pre. Qed.
Ltac tests := repeat match goal with
  | |- context [?a <? ?b] => destruct (Z.ltb_spec a b); [exfalso; sz; lia|] || (destruct (Z.ltb_spec a b); [|exfalso; sz; lia])
  | |- context [?a <=? ?b] => destruct (Z.leb_spec a b); [exfalso; sz; lia|] || (destruct (Z.leb_spec a b); [|exfalso; sz; lia])
  | |- context [?a =? ?b] => destruct (Z.eqb_spec a b); [exfalso; sz; lia|] || (destruct (Z.eqb_spec a b); [|exfalso; sz; lia])
  end; cbn [orb].
Lemma vec_at_mid {A} (pre : list A) x post : vec_at (pre ++ x :: post) (size pre) = Ok x.
Proof.
  unfold vec_at. tests. rewrite to_nat_size, nth_error_app2, Nat.sub_diag by lia. reflexivity.
Qed.
Lemma vec_range_mid {A} (pre mid post : list A) : vec_range (pre ++ mid ++ post) (size pre) (size pre + size mid) = Ok mid.
Proof.
  unfold vec_range. tests. replace (Z.to_nat (size pre + size mid) - Z.to_nat (size pre))%nat with (length mid) by (unfold size; lia).
  now rewrite to_nat_size, skipn_pre, firstn_pre.
Qed.
Lemma vec_range_tail {A} (pre post : list A) : vec_range (pre ++ post) (size pre) (size (pre ++ post)) = Ok post.
Proof. rewrite size_app. rewrite <- (app_nil_r post) at 1. apply vec_range_mid. Qed.
Lemma vec_range_head {A} (pre post : list A) : vec_range (pre ++ post) 0 (size pre) = Ok pre.
Proof. apply (vec_range_mid [] pre post). Qed.
Lemma vec_set_mid {A} (pre : list A) x z post : vec_set (pre ++ x :: post) (size pre) z = Ok (pre ++ z :: post).
Proof. unfold vec_set. tests. now rewrite to_nat_size, firstn_pre, skipn_pre1. Qed.
Lemma vec_erase_at_mid {A} (pre : list A) x post : vec_erase_at (pre ++ x :: post) (size pre) = Ok (pre ++ post).
Proof. unfold vec_erase_at. tests. now rewrite to_nat_size, firstn_pre, skipn_pre1. Qed.
Lemma vec_erase_range_mid {A} (pre mid post : list A) : vec_erase_range (pre ++ mid ++ post) (size pre) (size pre + size mid) = Ok (pre ++ post).
Proof.
  unfold vec_erase_range. tests. rewrite to_nat_size, firstn_pre. replace (Z.to_nat (size pre + size mid)) with (length (pre ++ mid)) by (unfold size; rewrite app_length; lia).
  now rewrite app_assoc, skipn_pre.
Qed.
Lemma vec_insert_mid {A} (pre : list A) x post : vec_insert (pre ++ post) (size pre) x = Ok (pre ++ x :: post).
Proof. unfold vec_insert. tests. now rewrite to_nat_size, firstn_pre, skipn_pre. Qed.
Lemma vec_pop_back_last {A} (v : list A) x : vec_pop_back (v ++ [x]) = Ok v.
Proof. unfold vec_pop_back. destruct (v ++ [x]) eqn:E; [now destruct v|]. now rewrite <- E, removelast_last. Qed.
(** ** Printing *)
Lemma shows_list_iff E v ans : shows_list (e_precision E) v ans <-> ans = vector_representation E v.
Proof.
  unfold shows_list, vector_representation, listing. split.
  - intros (ts & H & ->). replace (map (obj_repr E) v) with ts; [now rewrite joined_comma_sep|].
    clear -H. induction H as [|x t v ts Hx H IH]; [reflexivity|]. cbn. rewrite IH. f_equal. now apply shows_iff.
  - intros ->. exists (map (obj_repr E) v). rewrite joined_comma_sep. split; [|reflexivity].
    induction v as [|x v IH]; constructor; auto. now apply shows_iff.
Qed.
(** ** Reading *)
Lemma integer_of_range a : match integer_of a with Ok z => True | Throw e => e = InvalidArgument | UB u => out_of_range a end.
Proof.
  unfold integer_of. destruct (is_integer_value a) eqn:I.
  - apply is_integer_value_iff, integer_value_denotes in I as [d Hd]. assert (X := integer_of_int a d Hd). unfold integer_of in X.
    rewrite (int_literal _ _ Hd) in X. cbn [negb andb] in *. rewrite X. destruct (in_int d) eqn:Ed; auto.
    left. exists d. split; auto. intros Y. apply in_int_fits in Y. congruence.
  - destruct (is_float_value a) eqn:F; cbn [negb andb]; auto. apply is_float_value_iff, float_value_denotes in F as (neg & x & Hx).
    assert (N : ~ integer_value a) by (intros X; apply is_integer_value_iff in X; congruence).
    rewrite number_float by exact N. cbn [rbind]. destruct (double_to_int_cases (atof a)) as [(z & -> & _)|[-> T]]; auto.
    right. split; auto. exists neg, x, (atof a). split; auto. split; auto. now apply atof_rounds.
Qed.
Lemma shared_range t a : object_type t -> match get_shared_instance t a with Ok x => True | Throw e => e = InvalidArgument | UB u => t = B "Integer" /\ out_of_range a end.
Proof.
  intros Ht. assert (X := get_shared_instance_cases false t a Ht (clean_false _)).
  destruct (bytes_dec t (B "Integer")) as [->|N].
  - change (get_shared_instance (B "Integer") a) with (let! z := integer_of a in Ok (OInt z)) in *. assert (Y := integer_of_range a).
    destruct (integer_of a); cbn [rbind] in *; auto.
  - destruct (get_shared_instance t a) eqn:E; auto. exfalso. clear X. destruct Ht as [->|[->|[->|[->| ->]]]]; try congruence.
    + change (get_shared_instance (B "Boolean") a) with (let! z := boolean_of a in Ok (OBool z)) in E. unfold boolean_of in E.
      destruct (negb _); discriminate.
    + change (get_shared_instance (B "Character") a) with (let! z := character_of a in Ok (OChar z)) in E. unfold character_of in E.
      destruct (is_character_value a) eqn:C; [|discriminate]. destruct (str_at_character a C) as (c & Hc & _). cbn [negb] in E. rewrite Hc in E. discriminate.
    + change (get_shared_instance (B "Float") a) with (let! z := float_of a in Ok (OFloat z)) in E. unfold float_of in E.
      destruct (negb _); discriminate.
    + change (get_shared_instance (B "String") a) with (let! z := string_of a in Ok (OStr z)) in E.
      assert (Y := string_of_cases false a (clean_false _)). destruct (string_of a); cbn in E; try discriminate. exact Y.
Qed.

#[local] Hint Resolve get_index get_literal : core.
(** ** C18: from an effect to the computation *)
Section Ops.
Context (E : env) (t : str) (Ht : object_type t).
Notation P := (e_precision E).
Lemma int_ok a z : index_of a z -> integer_of a = Ok z. Proof. apply index_get. Qed.
Lemma obj_ok a x : literal_of t a x -> get_shared_instance t a = Ok x. Proof. apply literal_get. Qed.
Lemma zlen_zero {A} (l : list A) : (zlen l =? 0) = match l with [] => true | _ => false end.
Proof. destruct l; reflexivity. Qed.
Ltac reads := repeat match goal with |- context [zlen ?l] => change (zlen l) with (size l) end; repeat match goal with
  | H : index_of ?a _ |- context [integer_of ?a] => rewrite (int_ok _ _ H)
  | H : literal_of t ?a _ |- context [get_shared_instance t ?a] => rewrite (obj_ok _ _ H)
  end.
Ltac sh := repeat match goal with
  | H : shows P _ _ |- _ => apply shows_iff in H; subst
  | H : shows_list P _ _ |- _ => apply shows_list_iff in H; subst
  | H : prints_int _ _ |- _ => apply prints_int_iff in H; subst
  end.
Lemma seq_forward m args v v' ans : seq_effect P t m args v v' ans -> vector_receive E t m args v = (v', Ok ans).
Proof using Type.
  intros H. destruct H; sh.
  - change (vector_get E [] v = (v, Ok (vector_representation E v))). reflexivity.
  - reflexivity.
  - reflexivity.
  - reflexivity.
  - match goal with |- vector_receive _ _ _ ?l ?v = ?r => change (vector_atIndex E l v = r) end.
    unfold vector_atIndex. mon. reads. tests. reads. now rewrite vec_at_mid.
  - match goal with |- vector_receive _ _ _ ?l ?v = ?r => change (vector_first E l v = r) end.
    unfold vector_first. mon. reads. assert (0 <= size pre) by apply size_nonneg. tests. reads.
    destruct H0 as [->|[H0 ->]].
    + rewrite Z.min_l by (sz; lia). now rewrite vec_range_head.
    + rewrite app_nil_r in *. rewrite Z.min_r by (sz; lia). assert (X := vec_range_head pre []). rewrite app_nil_r in X. now rewrite X.
  - match goal with |- vector_receive _ _ _ ?l ?v = ?r => change (vector_last E l v = r) end.
    unfold vector_last. mon. reads. assert (0 <= size post) by apply size_nonneg. tests. reads.
    destruct H0 as [->|[H0 ->]].
    + rewrite Z.min_l by (sz; lia). replace (size (pre ++ post) - size post) with (size pre) by (sz; lia). rewrite vec_range_tail. reflexivity.
    + cbn [app]. rewrite Z.min_r by (sz; lia). rewrite Z.sub_diag. assert (X := vec_range_tail [] post). cbn [app] in X. change (size []) with 0 in X. now rewrite X.
  - match goal with |- vector_receive _ _ _ ?l ?v = ?r => change (vector_sliceFromIndex E l v = r) end.
    unfold vector_sliceFromIndex. mon. reads. tests. reads. now rewrite vec_range_tail.
  - match goal with |- vector_receive _ _ _ ?l ?v = ?r => change (vector_sliceFromIndex_toIndex E l v = r) end.
    unfold vector_sliceFromIndex_toIndex. mon. reads. tests. reads. now rewrite vec_range_mid.
  - match goal with |- vector_receive _ _ _ ?l ?v = ?r => change (vector_pushBack t l v = r) end.
    unfold vector_pushBack. mon. reads. reflexivity.
  - match goal with |- vector_receive _ _ _ ?l ?v = ?r => change (vector_pushFront t l v = r) end.
    unfold vector_pushFront. mon. reads. change 0 with (size (@nil obj)). change v with ([] ++ v) at 1 2. now rewrite vec_insert_mid.
  - reflexivity.
  - match goal with |- vector_receive _ _ _ ?l ?v = ?r => change (vector_popBack E l v = r) end.
    unfold vector_popBack. mon. reads. tests. reads. replace (size (v ++ [x]) - 1) with (size v) by (sz; change (size (@nil obj)) with 0; lia).
    now rewrite vec_at_mid, vec_pop_back_last.
  - reflexivity.
  - match goal with |- vector_receive _ _ _ ?l ?v = ?r => change (vector_popFront E l v = r) end.
    unfold vector_popFront. mon. reads. tests. reads. change 0 with (size (@nil obj)). change (x :: v) with ([] ++ x :: v) at 1 2 3.
    now rewrite vec_at_mid, vec_erase_at_mid.
  - match goal with |- vector_receive _ _ _ ?l ?v = ?r => change (vector_popAtIndex E l v = r) end.
    unfold vector_popAtIndex. mon. reads. tests. reads. now rewrite vec_at_mid, vec_erase_at_mid.
  - match goal with |- vector_receive _ _ _ ?l ?v = ?r => change (vector_insert_beforeIndex t l v = r) end.
    unfold vector_insert_beforeIndex. mon. reads. tests. reads. now rewrite vec_insert_mid.
  - match goal with |- vector_receive _ _ _ ?l ?v = ?r => change (vector_eraseFromIndex l v = r) end.
    unfold vector_eraseFromIndex. mon. reads. tests. reads. rewrite size_app.
    assert (X := vec_erase_range_mid pre post []). rewrite !app_nil_r in X. now rewrite X.
  - match goal with |- vector_receive _ _ _ ?l ?v = ?r => change (vector_eraseFromIndex_toIndex l v = r) end.
    unfold vector_eraseFromIndex_toIndex. mon. reads. tests. reads. now rewrite vec_erase_range_mid.
  - reflexivity.
  - reflexivity.
Qed.
(** ** C18: no effect means refusal *)
Definition refused {A} (k : nat) (args : list str) (v : A) : A * res str :=
  (v, Throw (if Nat.eqb (length args) k then InvalidArgument else WrongNumberOfArguments)).
Lemma range_arg idx args k a : in_range t idx args -> nth_error args k = Some a -> In k idx -> ~ out_of_range a.
Proof using Type. intros H Hn Hi. apply (H k a Hn). now right. Qed.
Lemma int_dec idx args k a : in_range t idx args -> nth_error args k = Some a -> In k idx ->
  (exists z, integer_of a = Ok z) \/ integer_of a = Throw InvalidArgument.
Proof using Type.
  intros H Hn Hi. assert (X := integer_of_range a). destruct (integer_of a); [eauto|subst; auto|]. exfalso. eapply range_arg; eauto.
Qed.
Lemma obj_dec idx args k a : in_range t idx args -> nth_error args k = Some a ->
  (exists x, get_shared_instance t a = Ok x) \/ get_shared_instance t a = Throw InvalidArgument.
Proof using Ht.
  intros H Hn. assert (X := shared_range t a Ht). destruct (get_shared_instance t a); [eauto|subst; auto|]. exfalso.
  destruct X as [X1 X2]. apply (H k a Hn); auto.
Qed.
Ltac wrong_nargs args := unfold refused; mon; repeat (destruct args as [|? args]; [try reflexivity|]); try reflexivity.
Ltac tst := match goal with
  | |- context [?a <? ?b] => destruct (Z.ltb_spec a b)
  | |- context [?a <=? ?b] => destruct (Z.leb_spec a b)
  end; cbn [orb]; repeat match goal with |- context [zlen ?l] => change (zlen l) with (size l) end.
Ltac zl := repeat match goal with |- context [zlen ?l] => change (zlen l) with (size l) end.
Lemma seq_otherwise m k idx args v : In (m, k, idx) seq_messages -> in_range t idx args ->
  (exists v' ans, seq_effect P t m args v v' ans) \/ vector_receive E t m args v = refused k args v.
Proof using Ht.
  intros Hm Hr. cbn [seq_messages In] in Hm.
  repeat (destruct Hm as [Hm|Hm]; [injection Hm as <- <- <-|]); [..|contradiction].
  Ltac zero args := destruct args as [|? ?]; [left|right; reflexivity].
  Ltac one args := destruct args as [|?a [|? ?]]; [right; reflexivity| |right; reflexivity].
  Ltac two args := destruct args as [|?a [|?b [|? ?]]]; [right; reflexivity|right; reflexivity| |right; reflexivity].
  Ltac int k := match goal with Hr : in_range t ?idx ?args |- _ =>
    let z := fresh "z" in let Hz := fresh "Hz" in
    destruct (int_dec idx args k _ Hr eq_refl) as [[z Hz]|Hz]; [cbn; tauto|..] end.
  Ltac obj k := match goal with Hr : in_range t ?idx ?args |- _ =>
    let z := fresh "x" in let Hz := fresh "Hx" in
    destruct (obj_dec idx args k _ Hr eq_refl) as [[z Hz]|Hz] end.
  Ltac op d := match goal with |- (exists v' ans, seq_effect _ _ ?m ?a ?v v' ans) \/ _ =>
     change (vector_receive E t m a v) with (d a v); unfold vector_atIndex, vector_first, vector_last, vector_sliceFromIndex, vector_sliceFromIndex_toIndex, vector_pushBack, vector_pushFront, vector_popAtIndex, vector_insert_beforeIndex, vector_eraseFromIndex, vector_eraseFromIndex_toIndex, refused; mon end.
  Ltac rd := repeat match goal with H : integer_of _ = _ |- _ => rewrite H | H : get_shared_instance _ _ = _ |- _ => rewrite H end; zl.
  Ltac bad := rd; repeat tst; first [exfalso; lia | right; reflexivity].
  - zero args. exists v, (vector_representation E v). constructor. now apply shows_list_iff.
  - zero args. destruct v; eauto using seq_effect.
  - zero args. exists v, (to_string (size v)). constructor. apply to_string_prints.
  - one args. int 0%nat; op (vector_atIndex E); [|bad].
    destruct (Z_lt_dec z 0); [bad|]. destruct (Z_le_dec (size v) z); [bad|]. left.
    destruct (split_elt v z) as (pre & x & post & -> & <-); [lia|]. do 2 eexists. eapply eff_atIndex; eauto. apply obj_repr_shows.
  - one args. int 0%nat; op (vector_first E); [|bad].
    destruct (Z_lt_dec z 0); [rd; tst; [right; reflexivity|lia]|]. left.
    destruct (Z_le_dec (size v) z).
    + exists v, (vector_representation E v). rewrite <- (app_nil_r v) at 1 2. apply (eff_first _ _ a z v []); auto; [|now apply shows_list_iff].
      destruct (Z.eq_dec z (size v)); [now left|right; split; auto; lia].
    + destruct (split_size v z) as (pre & post & -> & <-); [lia|]. do 2 eexists. eapply eff_first; eauto. now apply shows_list_iff.
  - one args. int 0%nat; op (vector_last E); [|bad].
    destruct (Z_lt_dec z 0); [rd; tst; [right; reflexivity|lia]|]. left.
    destruct (Z_le_dec (size v) z).
    + exists v, (vector_representation E v). change v with ([] ++ v) at 1 2. apply (eff_last _ _ a z [] v); auto; [|now apply shows_list_iff].
      destruct (Z.eq_dec z (size v)); [now left|right; split; auto; lia].
    + destruct (split_size v (size v - z)) as (pre & post & -> & Hp); [lia|]. do 2 eexists. eapply eff_last; eauto; [|now apply shows_list_iff].
      left. sz. lia.
  - one args. int 0%nat; op (vector_sliceFromIndex E); [|bad].
    destruct (Z_lt_dec z 0); [bad|]. destruct (Z_lt_dec (size v) z); [bad|]. left.
    destruct (split_size v z) as (pre & post & -> & <-); [lia|]. do 2 eexists. eapply eff_slice; eauto. now apply shows_list_iff.
  - two args. int 0%nat; [int 1%nat|]; op (vector_sliceFromIndex_toIndex E); [|bad..].
    destruct (Z_lt_dec z 0); [bad|]. destruct (Z_lt_dec (size v) z); [bad|].
    destruct (Z_lt_dec z0 0); [bad|]. destruct (Z_lt_dec (size v) z0); [bad|]. destruct (Z_lt_dec z0 z); [bad|]. left.
    destruct (split_size v z) as (pre & post & -> & <-); [lia|]. destruct (split_size post (z0 - size pre)) as (mid & post' & -> & Hm); [sz; lia|].
    do 2 eexists. eapply eff_slice_to; eauto; [|now apply shows_list_iff]. replace (size pre + size mid) with z0 by lia. auto.
  - one args. obj 0%nat; op (vector_pushBack t); [|bad]. left. do 2 eexists. constructor. eauto.
  - one args. obj 0%nat; op (vector_pushFront t); [|bad]. left. do 2 eexists. constructor. eauto.
  - zero args. destruct (split_last v) as [->|(w & x & ->)]; do 2 eexists; econstructor. apply obj_repr_shows.
  - zero args. destruct v; do 2 eexists; econstructor. apply obj_repr_shows.
  - one args. int 0%nat; op (vector_popAtIndex E); [|bad].
    destruct (Z_lt_dec z 0); [bad|]. destruct (Z_le_dec (size v) z); [bad|]. left.
    destruct (split_elt v z) as (pre & x & post & -> & <-); [lia|]. do 2 eexists. eapply eff_popAtIndex; eauto. apply obj_repr_shows.
  - two args. obj 0%nat; [int 1%nat|]; op (vector_insert_beforeIndex t); [|bad..].
    destruct (Z_lt_dec z 0); [bad|]. destruct (Z_lt_dec (size v) z); [bad|]. left.
    destruct (split_size v z) as (pre & post & -> & <-); [lia|]. do 2 eexists. eapply eff_insert; eauto.
  - one args. int 0%nat; op vector_eraseFromIndex; [|bad].
    destruct (Z_lt_dec z 0); [bad|]. destruct (Z_lt_dec (size v) z); [bad|]. left.
    destruct (split_size v z) as (pre & post & -> & <-); [lia|]. do 2 eexists. eapply eff_erase; eauto.
  - two args. int 0%nat; [int 1%nat|]; op vector_eraseFromIndex_toIndex; [|bad..].
    destruct (Z_lt_dec z 0); [bad|]. destruct (Z_lt_dec (size v) z); [bad|].
    destruct (Z_lt_dec z0 0); [bad|]. destruct (Z_lt_dec (size v) z0); [bad|]. destruct (Z_lt_dec z0 z); [bad|]. left.
    destruct (split_size v z) as (pre & post & -> & <-); [lia|]. destruct (split_size post (z0 - size pre)) as (mid & post' & -> & Hm); [sz; lia|].
    do 2 eexists. eapply eff_erase_to; eauto. replace (size pre + size mid) with z0 by lia. auto.
  - zero args. do 2 eexists. constructor.
  - zero args. do 2 eexists. constructor.
Qed.
End Ops.

(** ** C19: the loops *)
Section Search.
Context (E : env) (t : str) (x : obj) (e : obj -> bool).
Notation tol := (e_tolerance E).
(** [e] decides equality to [x] on the elements of [v]. *)
Definition decides (v : list obj) : Prop := Forall (fun y => is_equal_to tol y x = Ok (e y) /\ (e y = true <-> equals tol y x)) v.
Lemma decides_app a b : decides (a ++ b) <-> decides a /\ decides b. Proof. apply Forall_app. Qed.
Lemma decides_cons y v : decides (y :: v) -> is_equal_to tol y x = Ok (e y) /\ (e y = true <-> equals tol y x) /\ decides v.
Proof. intros H. inversion H; subst. tauto. Qed.
Lemma none_iff v : decides v -> (Forall (fun y => ~ equals tol y x) v <-> forallb (fun y => negb (e y)) v = true).
Proof.
  induction v as [|y v IH]; intros H; [split; auto|]. apply decides_cons in H as (_ & Hy & H). cbn [forallb]. rewrite andb_true_iff, Forall_cons_iff, IH by auto.
  destruct (e y); cbn.
  - split; [intros [X _]; exfalso; apply X; tauto|intros [X _]; discriminate].
  - split; [tauto|intros [_ X]; split; auto; intros Y; apply Hy in Y; discriminate].
Qed.
Lemma some_iff v : decides v -> (Exists (fun y => equals tol y x) v <-> existsb e v = true).
Proof.
  induction v as [|y v IH]; intros H; [split; inversion 1|]. apply decides_cons in H as (_ & Hy & H). cbn [existsb]. rewrite orb_true_iff, Exists_cons, IH by auto. tauto.
Qed.
Lemma contains_loop_eq v : decides v -> contains_loop E v x = Ok (existsb e v).
Proof.
  induction v as [|y v IH]; intros H; [reflexivity|]. apply decides_cons in H as (Hy & _ & H). cbn [contains_loop existsb rbind]. rewrite Hy. cbn [rbind].
  destruct (e y); auto.
Qed.
Lemma existsb_none v : existsb e v = false <-> forallb (fun y => negb (e y)) v = true.
Proof using Type. clear. induction v as [|y v IH]; cbn; [tauto|]. destruct (e y); cbn; [intuition congruence|auto]. Qed.
(** positions *)
Fixpoint pos (i : Z) (v : list obj) : list Z :=
  match v with [] => [] | y :: r => if e y then i :: pos (i + 1) r else pos (i + 1) r end.
Lemma pos_In v : decides v -> forall i j, In j (pos i v) <-> exists k y, j = i + Z.of_nat k /\ nth_error v k = Some y /\ equals tol y x.
Proof.
  induction v as [|y v IH]; intros H i j; cbn [pos].
  - split; [intros []|]. intros (k & z & _ & Hk & _). now destruct k.
  - apply decides_cons in H as (_ & Hy & H).
    assert (T : In j (pos (i + 1) v) <-> exists k z, j = i + Z.of_nat (S k) /\ nth_error (y :: v) (S k) = Some z /\ equals tol z x).
    { rewrite IH by auto. split; intros (k & z & -> & Hk & Hz); exists k, z; (split; [lia|auto]). }
    destruct (e y); cbn [In]; rewrite T; split.
    + intros [<-|(k & z & Hk)]; [exists 0%nat, y; cbn; split; [lia|tauto]|eauto].
    + intros ([|k] & z & Hk); [left; lia|eauto].
    + intros (k & z & Hk); eauto.
    + intros ([|k] & z & Hk); [|eauto]. exfalso. destruct Hk as (_ & Hk & Hz). cbn in Hk. inversion Hk; subst. apply Hy in Hz. congruence.
Qed.
Lemma pos_lower v : forall i, Forall (fun j => i <= j) (pos i v).
Proof.
  induction v as [|y v IH]; intros i; cbn [pos]; [constructor|].
  assert (T : Forall (fun j => i <= j) (pos (i + 1) v)) by (eapply Forall_impl; [|apply IH]; cbn; intros; lia).
  destruct (e y); auto. constructor; [lia|auto].
Qed.
Lemma pos_sorted v : forall i, StronglySorted Z.lt (pos i v).
Proof.
  induction v as [|y v IH]; intros i; cbn [pos]; [constructor|]. destruct (e y); auto. constructor; auto.
  eapply Forall_impl; [|apply pos_lower]; cbn; intros; lia.
Qed.
Lemma pos_positions v i : decides v -> positions tol x i v (pos i v).
Proof. intros H. split; [apply pos_sorted|]. intros j. now apply pos_In. Qed.
Lemma sorted_unique l : forall l', StronglySorted Z.lt l -> StronglySorted Z.lt l' -> (forall i, In i l <-> In i l') -> l = l'.
Proof.
  induction l as [|a l IH]; intros l' H1 H2 Hi.
  - destruct l' as [|b l']; auto. exfalso. apply (Hi b). now left.
  - destruct l' as [|b l']; [exfalso; apply (Hi a); now left|]. inversion H1 as [|? ? S1 F1]; inversion H2 as [|? ? S2 F2]; subst.
    rewrite Forall_forall in F1, F2.
    assert (a = b).
    { destruct (proj1 (Hi a) (or_introl eq_refl)) as [->|X]; auto. destruct (proj2 (Hi b) (or_introl eq_refl)) as [->|Y]; auto.
      apply F2 in X. apply F1 in Y. lia. }
    subst b. f_equal. apply IH; auto. intros i. specialize (Hi i). cbn in Hi. split; intros X.
    + destruct (proj1 Hi (or_intror X)) as [<-|Y]; auto. apply F1 in X. lia.
    + destruct (proj2 Hi (or_intror X)) as [<-|Y]; auto. apply F2 in X. lia.
Qed.
Lemma positions_pos v i l : decides v -> positions tol x i v l -> l = pos i v.
Proof.
  intros H [S M]. apply sorted_unique; auto using pos_sorted. intros j. now rewrite M, (pos_In v H).
Qed.
Lemma count_loop_eq v : decides v -> forall i n, count_loop E v x n = Ok (n + size (pos i v)).
Proof.
  induction v as [|y v IH]; intros H i n; cbn [count_loop pos]; [change (size []) with 0; f_equal; lia|].
  apply decides_cons in H as (Hy & _ & H). rewrite Hy. cbn [rbind]. rewrite (IH H (i + 1)). f_equal. destruct (e y); [rewrite size_cons|]; lia.
Qed.
Lemma comma_sep_snoc l z : comma_sep (l ++ [z]) = (match l with [] => z | _ => comma_sep l ++ [c_comma] ++ z end)%list.
Proof.
  unfold comma_sep. destruct l as [|a l]; [cbn; now rewrite app_nil_r|]. cbn [app comma_loop]. rewrite <- !app_assoc. f_equal.
  induction l as [|b l IH]; cbn [app comma_loop]; [now rewrite app_nil_r|]. rewrite IH. now rewrite <- !app_assoc.
Qed.
Lemma to_string_nonempty z : to_string z <> [].
Proof.
  intros H. assert (X := to_string_prints z). rewrite H in X. destruct X as [[_ X]|[_ (r & X & _)]]; [|discriminate]. destruct X as (_ & X & _). congruence.
Qed.
Lemma comma_sep_nonempty l : Forall (fun s => s <> []) l -> (0 <? zlen (comma_sep l)) = match l with [] => false | _ => true end.
Proof.
  intros H. destruct l as [|a l]; [reflexivity|]. inversion H; subst. unfold comma_sep. cbn [comma_loop]. destruct a; [congruence|]. reflexivity.
Qed.
Lemma all_indexes_loop_eq v : decides v -> forall i l,
  all_indexes_loop E v x i (comma_sep (map to_string l)) = Ok (comma_sep (map to_string (l ++ pos i v))).
Proof.
  induction v as [|y v IH]; intros H i l; cbn [all_indexes_loop pos]; [now rewrite app_nil_r|].
  apply decides_cons in H as (Hy & _ & H). rewrite Hy. cbn [rbind]. rewrite comma_sep_nonempty.
  2:{ rewrite Forall_map. apply Forall_forall. intros z _. apply to_string_nonempty. }
  destruct (e y).
  - rewrite (app_assoc l [i] (pos (i + 1) v) : l ++ i :: pos (i + 1) v = (l ++ [i]) ++ pos (i + 1) v), <- (IH H). f_equal.
    rewrite map_app. cbn [map]. rewrite comma_sep_snoc. now destruct l.
  - apply IH. exact H.
Qed.
Lemma first_index_none v : decides v -> Forall (fun y => ~ equals tol y x) v -> forall i, first_index_loop E v x i = Ok None.
Proof.
  intros H N. apply (none_iff _ H) in N. revert H N. induction v as [|y v IH]; intros H N i; [reflexivity|].
  apply decides_cons in H as (Hy & _ & H). cbn [forallb] in N. apply andb_true_iff in N as [N1 N2]. cbn [first_index_loop]. rewrite Hy. cbn [rbind].
  destruct (e y); [discriminate|]. auto.
Qed.
Lemma first_index_some pre y post : decides (pre ++ y :: post) -> Forall (fun y => ~ equals tol y x) pre -> equals tol y x ->
  forall i, first_index_loop E (pre ++ y :: post) x i = Ok (Some (i + size pre)).
Proof.
  intros H N. assert (H' := H). apply decides_app in H' as [H' _]. apply (none_iff _ H') in N. clear H'. revert H N.
  induction pre as [|w pre IH]; intros H N He i; cbn [app first_index_loop].
  - apply decides_cons in H as (Hy & Hi & H). rewrite Hy. cbn [rbind]. apply Hi in He. rewrite He. unfold size. cbn [length]. do 2 f_equal. lia.
  - apply decides_cons in H as (Hy & _ & H). cbn [forallb] in N. apply andb_true_iff in N as [N1 N2]. rewrite Hy. cbn [rbind].
    destruct (e w); [discriminate|]. rewrite IH by auto. rewrite size_cons. do 2 f_equal. lia.
Qed.
(** Split at the first match. *)
Lemma first_split v : decides v -> Forall (fun y => ~ equals tol y x) v \/
  exists pre y post, v = pre ++ y :: post /\ Forall (fun y => ~ equals tol y x) pre /\ equals tol y x.
Proof.
  induction v as [|y v IH]; intros H; [auto|]. apply decides_cons in H as (_ & Hy & H).
  destruct (e y) eqn:Ey.
  - right. exists [], y, v. split; auto. split; auto. now apply Hy.
  - assert (N : ~ equals tol y x) by (intros X; apply Hy in X; discriminate).
    destruct (IH H) as [F|(pre & z & post & -> & F & Hz)]; [left; auto|]. right. exists (y :: pre), z, post. auto.
Qed.
Lemma remove_all_eq fuel : forall pre rest, decides rest -> (length rest <= fuel)%nat ->
  remove_all_loop E fuel (size pre) x (pre ++ rest) = (pre ++ filter (fun y => negb (e y)) rest, Ok tt).
Proof.
  induction fuel as [|f IH]; intros pre rest H L.
  - destruct rest; [|cbn in L; lia]. cbn [remove_all_loop filter]. unfold bind, Outcome.get. change (zlen (pre ++ [])) with (size (pre ++ [])). tests. reflexivity.
  - cbn [remove_all_loop]. unfold bind, Outcome.get, lift, put. change (zlen (pre ++ rest)) with (size (pre ++ rest)).
    destruct rest as [|y rest]; [rewrite app_nil_r; tests; cbn [filter]; now rewrite app_nil_r|].
    apply decides_cons in H as (Hy & _ & H). tests. rewrite vec_at_mid, Hy. cbn [filter].
    destruct (e y); cbn [negb].
    + rewrite vec_erase_at_mid. apply IH; auto. cbn in L. lia.
    + replace (size pre + 1) with (size (pre ++ [y])) by (rewrite size_app; reflexivity).
      change (y :: rest) with ([y] ++ rest). rewrite app_assoc. rewrite IH by (auto; cbn in L; lia). now rewrite <- app_assoc.
Qed.
Lemma removes_all_eq v : decides v -> forall v', removes_all tol x v v' <-> v' = filter (fun y => negb (e y)) v.
Proof.
  induction v as [|y v IH]; intros H v'; cbn [filter]; [split; [inversion 1; auto|intros ->; constructor]|].
  apply decides_cons in H as (_ & Hy & H). split.
  - inversion 1; subst.
    + apply Hy in H3. rewrite H3. cbn. now apply IH.
    + destruct (e y); [exfalso; tauto|]. cbn. f_equal. now apply IH.
  - intros ->. destruct (e y) eqn:Ey; cbn; [apply rem_drop|apply rem_keep]; try (now apply IH); try tauto. intros X. apply Hy in X. congruence.
Qed.
(** Replacing. *)
Context (w : str) (z : obj) (Hw : get_shared_instance t w = Ok z).
Lemma replace_all_eq fuel : forall pre rest, decides rest -> (length rest <= fuel)%nat ->
  replace_loop E t fuel false (size pre) x w (pre ++ rest) = (pre ++ map (fun y => if e y then z else y) rest, Ok tt).
Proof using Hw.
  induction fuel as [|f IH]; intros pre rest H L.
  - destruct rest; [|cbn in L; lia]. cbn [replace_loop map]. unfold bind, Outcome.get. change (zlen (pre ++ [])) with (size (pre ++ [])). tests. reflexivity.
  - cbn [replace_loop]. unfold bind, Outcome.get, lift, put. change (zlen (pre ++ rest)) with (size (pre ++ rest)).
    destruct rest as [|y rest]; [rewrite app_nil_r; tests; cbn [map]; now rewrite app_nil_r|].
    apply decides_cons in H as (Hy & _ & H). tests. rewrite vec_at_mid, Hy. cbn [map].
    destruct (e y).
    + rewrite Hw, vec_set_mid. replace (size pre + 1) with (size (pre ++ [z])) by (rewrite size_app; reflexivity).
      change (z :: rest) with ([z] ++ rest). rewrite app_assoc. rewrite IH by (auto; cbn in L; lia). now rewrite <- app_assoc.
    + replace (size pre + 1) with (size (pre ++ [y])) by (rewrite size_app; reflexivity).
      change (y :: rest) with ([y] ++ rest). rewrite app_assoc. rewrite IH by (auto; cbn in L; lia). now rewrite <- app_assoc.
Qed.
Lemma replaces_all_eq v : decides v -> forall v', replaces_all tol x z v v' <-> v' = map (fun y => if e y then z else y) v.
Proof using Type.
  unfold replaces_all. induction v as [|y v IH]; intros H v'; cbn [map]; [split; [inversion 1; auto|intros ->; constructor]|].
  apply decides_cons in H as (_ & Hy & H). split.
  - inversion 1; subst. rewrite (proj1 (IH H _) ltac:(eassumption)). f_equal. destruct (e y); intuition congruence.
  - intros ->. constructor; [|now apply IH]. destruct (e y); [left; tauto|right; split; auto]. intros X. apply Hy in X. discriminate.
Qed.
Lemma replace_first_none fuel : forall pre rest, decides rest -> (length rest <= fuel)%nat -> Forall (fun y => ~ equals tol y x) rest ->
  replace_loop E t fuel true (size pre) x w (pre ++ rest) = (pre ++ rest, Ok tt).
Proof using Type.
  induction fuel as [|f IH]; intros pre rest H L N.
  - destruct rest; [|cbn in L; lia]. cbn [replace_loop map]. unfold bind, Outcome.get. change (zlen (pre ++ [])) with (size (pre ++ [])). tests. reflexivity.
  - cbn [replace_loop]. unfold bind, Outcome.get, lift, put. change (zlen (pre ++ rest)) with (size (pre ++ rest)).
    destruct rest as [|y rest]; [rewrite app_nil_r; tests; reflexivity|].
    apply decides_cons in H as (Hy & Hi & H). inversion N; subst. tests. rewrite vec_at_mid, Hy.
    destruct (e y) eqn:Ey; [exfalso; tauto|].
    replace (size pre + 1) with (size (pre ++ [y])) by (rewrite size_app; reflexivity).
    change (y :: rest) with ([y] ++ rest). rewrite app_assoc. rewrite IH by (auto; cbn in L; lia). now rewrite <- app_assoc.
Qed.
Lemma replace_first_some y post : equals tol y x -> forall mid fuel pre, decides (mid ++ y :: post) -> (length (mid ++ y :: post) <= fuel)%nat ->
  Forall (fun y => ~ equals tol y x) mid ->
  replace_loop E t fuel true (size pre) x w (pre ++ mid ++ y :: post) = (pre ++ mid ++ z :: post, Ok tt).
Proof using Hw.
  intros Hq. induction mid as [|a mid IH]; intros fuel pre H L N; (destruct fuel as [|f]; [cbn in L; lia|]);
    cbn [replace_loop app]; unfold bind, Outcome.get, lift, put.
  - cbn [app] in H. apply decides_cons in H as (Hy & Hi & H). apply Hi in Hq. change (zlen (pre ++ y :: post)) with (size (pre ++ y :: post)).
    tests. now rewrite vec_at_mid, Hy, Hq, Hw, vec_set_mid.
  - cbn [app] in H. apply decides_cons in H as (Hy & Hi & H). inversion N; subst. change (zlen (pre ++ a :: mid ++ y :: post)) with (size (pre ++ a :: mid ++ y :: post)).
    tests. rewrite vec_at_mid, Hy. destruct (e a) eqn:Ea; [exfalso; tauto|].
    replace (size pre + 1) with (size (pre ++ [a])) by (rewrite size_app; reflexivity).
    rewrite (app_assoc pre [a] (mid ++ y :: post) : pre ++ a :: mid ++ y :: post = (pre ++ [a]) ++ mid ++ y :: post).
    cbn [app length] in L. rewrite IH by (auto; lia). now rewrite <- app_assoc.
Qed.
End Search.

(** ** C19: from an effect to the computation, and refusals *)
Section SearchOps.
Context (E : env) (t : str) (v0 : list obj).
Notation P := (e_precision E).
Notation tol := (e_tolerance E).
Context (Ht : object_type t) (Hv : V32 tol) (Ty : Forall (has_type t) v0) (So : Forall sound v0).
Definition eqto (x y : obj) : bool := match is_equal_to tol y x with Ok b => b | _ => false end.
Lemma decides_typed a x : literal_of t a x -> decides E x (eqto x) v0.
Proof using Ht Hv Ty So.
  intros Hx. apply reads_sound in Hx as (Tx & Sx & _); auto. unfold decides. rewrite Forall_forall in *. intros y Hy.
  destruct (cmp_holds IsEqual tol y x Hv (So y Hy) Sx (same_type_comparable t y x (Ty y Hy) Tx)) as (r & C & I). cbn [cmp_of holds] in C, I.
  unfold eqto. rewrite C. split; auto.
Qed.
Ltac zl := repeat match goal with |- context [zlen ?l] => change (zlen l) with (size l) end.
Ltac reads := zl; repeat match goal with
  | H : index_of ?a _ |- context [integer_of ?a] => rewrite (int_ok _ _ H)
  | H : literal_of t ?a _ |- context [get_shared_instance t ?a] => rewrite (obj_ok t _ _ H)
  end.
Ltac pr := repeat match goal with H : prints_int _ _ |- _ => apply prints_int_iff in H; subst end.
Ltac op d := match goal with |- vector_receive E t _ ?l ?v = ?r => change (d l v = r) end.
Lemma search_forward m args v' ans : search_effect tol t m args v0 v' ans -> vector_receive E t m args v0 = (v', Ok ans).
Proof using Ht Hv Ty So.
  assert (D := decides_typed). clear Ty So Hv. intros H. destruct H; pr; assert (Dx := D a x ltac:(assumption)).
  - op (vector_contains E t). unfold vector_contains. mon. reads. rewrite (contains_loop_eq _ _ _ _ Dx). apply (some_iff _ _ _ _ Dx) in H0. now rewrite H0.
  - op (vector_contains E t). unfold vector_contains. mon. reads. rewrite (contains_loop_eq _ _ _ _ Dx). apply (none_iff _ _ _ _ Dx), existsb_none in H0. now rewrite H0.
  - op (vector_contains_fromIndex E t). unfold vector_contains_fromIndex. mon. reads. tests. reads. rewrite vec_range_tail.
    apply decides_app in Dx as [_ Dx]. rewrite (contains_loop_eq _ _ _ _ Dx). apply (some_iff _ _ _ _ Dx) in H1. now rewrite H1.
  - op (vector_contains_fromIndex E t). unfold vector_contains_fromIndex. mon. reads. tests. reads. rewrite vec_range_tail.
    apply decides_app in Dx as [_ Dx]. rewrite (contains_loop_eq _ _ _ _ Dx). apply (none_iff _ _ _ _ Dx), existsb_none in H1. now rewrite H1.
  - op (vector_count E t). unfold vector_count. mon. reads. rewrite (count_loop_eq _ _ _ _ Dx 0). now rewrite (positions_pos _ _ _ _ _ _ Dx H0).
  - op (vector_firstIndexOf E t). unfold vector_firstIndexOf. mon. reads.
    destruct H0 as [[-> N]|(pre & y & post & -> & N & Hy & ->)].
    + now rewrite (first_index_none _ _ _ _ Dx N).
    + now rewrite (first_index_some _ _ _ _ _ _ Dx N Hy).
  - op (vector_firstIndexOf_fromIndex E t). unfold vector_firstIndexOf_fromIndex. mon. reads. tests. reads. rewrite vec_range_tail.
    apply decides_app in Dx as [_ Dx]. destruct H1 as [[-> N]|(mid & y & post' & -> & N & Hy & ->)].
    + now rewrite (first_index_none _ _ _ _ Dx N).
    + now rewrite (first_index_some _ _ _ _ _ _ Dx N Hy).
  - op (vector_allIndexesOf E t). unfold vector_allIndexesOf. mon. reads. assert (A := all_indexes_loop_eq _ _ _ _ Dx 0 []). change (comma_sep (map to_string [])) with (@nil ascii) in A. rewrite A.
    rewrite <- (positions_pos _ _ _ _ _ _ Dx H0). cbn [app]. unfold listing. rewrite joined_comma_sep. replace texts with (map to_string l); [reflexivity|].
    clear -H1. induction H1 as [|i s l ts Hi Hl IH]; [reflexivity|]. cbn [map]. apply prints_int_iff in Hi. now rewrite Hi, IH.
  - op (vector_removeFirst E t). unfold vector_removeFirst. mon. reads.
    destruct H0 as [[-> N]|(pre & y & post & -> & N & Hy & ->)].
    + now rewrite (first_index_none _ _ _ _ Dx N).
    + rewrite (first_index_some _ _ _ _ _ _ Dx N Hy). now rewrite Z.add_0_l, vec_erase_at_mid.
  - op (vector_removeFirst_fromIndex E t). unfold vector_removeFirst_fromIndex. mon. reads. tests. reads. rewrite vec_range_tail.
    apply decides_app in Dx as [_ Dx]. destruct H1 as [[-> N]|(mid & y & post2 & -> & N & Hy & ->)].
    + now rewrite (first_index_none _ _ _ _ Dx N).
    + rewrite (first_index_some _ _ _ _ _ _ Dx N Hy). rewrite <- size_app, !app_assoc. now rewrite vec_erase_at_mid.
  - op (vector_removeAll E t). unfold vector_removeAll. mon. reads.
    assert (R := remove_all_eq E x (eqto x) (length v) [] v Dx (le_n _)). cbn [app] in R. change (size []) with 0 in R. unfold bind, Outcome.get in R.
    rewrite R. apply (removes_all_eq _ _ _ _ Dx) in H0. now rewrite H0.
  - op (vector_replaceFirst_with E t). unfold vector_replaceFirst_with. mon. reads.
    destruct H1 as [[-> N]|(pre & y & post & -> & N & Hy & ->)].
    + assert (R := replace_first_none E t x (eqto x) w (length v) [] v Dx (le_n _) N). change (size []) with 0 in R. cbn [app] in R. now rewrite R.
    + assert (R := replace_first_some E t x (eqto x) w z (literal_get _ _ _ H0) y post Hy pre _ [] Dx (le_n _) N). change (size []) with 0 in R. cbn [app] in R. now rewrite R.
  - op (vector_replaceFirst_fromIndex_with E t). unfold vector_replaceFirst_fromIndex_with. mon. reads. tests. reads.
    apply decides_app in Dx as [_ Dx]. assert (L : (length post <= length (pre ++ post))%nat) by (rewrite app_length; lia).
    destruct H2 as [[-> N]|(mid & y & post2 & -> & N & Hy & ->)].
    + now rewrite (replace_first_none E t x (eqto x) w _ pre post Dx L N).
    + now rewrite (replace_first_some E t x (eqto x) w z (literal_get _ _ _ H1) y post2 Hy mid _ pre Dx L N).
  - op (vector_replaceAll_with E t). unfold vector_replaceAll_with. mon. reads.
    assert (R := replace_all_eq E t x (eqto x) w z (literal_get _ _ _ H0) (length v) [] v Dx (le_n _)). cbn [app] in R. change (size []) with 0 in R. unfold bind, Outcome.get in R.
    rewrite R. apply (replaces_all_eq _ _ _ _ _ Dx) in H1. now rewrite H1.
Qed.
Lemma first_match_exists x base v : decides E x (eqto x) v -> exists i, first_match tol x base v i.
Proof using Type.
  intros D. destruct (first_split E x (eqto x) v D) as [N|(pre & y & post & -> & N & Hy)]; [exists (-1); now left|].
  exists (base + size pre). right. now exists pre, y, post.
Qed.
Lemma removes_first_exists x v : decides E x (eqto x) v -> exists v', removes_first tol x v v'.
Proof using Type.
  intros D. destruct (first_split E x (eqto x) v D) as [N|(pre & y & post & -> & N & Hy)]; [exists v; now left|].
  exists (pre ++ post). right. now exists pre, y, post.
Qed.
Lemma replaces_first_exists x z v : decides E x (eqto x) v -> exists v', replaces_first tol x z v v'.
Proof using Type.
  intros D. destruct (first_split E x (eqto x) v D) as [N|(pre & y & post & -> & N & Hy)]; [exists v; now left|].
  exists (pre ++ z :: post). right. now exists pre, y, post.
Qed.
Lemma exists_or_none x v : decides E x (eqto x) v -> Exists (fun y => equals tol y x) v \/ Forall (fun y => ~ equals tol y x) v.
Proof using Type.
  intros D. rewrite (some_iff _ _ _ _ D), (none_iff _ _ _ _ D), <- existsb_none. destruct (existsb _ _); auto.
Qed.
Lemma search_otherwise m k idx args : In (m, k, idx) search_messages -> in_range t idx args ->
  (exists v' ans, search_effect tol t m args v0 v' ans) \/ vector_receive E t m args v0 = refused k args v0.
Proof using Ht Hv Ty So.
  assert (D := decides_typed). clear Hv Ty So. intros Hm Hr. cbn [search_messages In] in Hm.
  repeat (destruct Hm as [Hm|Hm]; [injection Hm as <- <- <-|]); [..|contradiction].
  Ltac one1 args := destruct args as [|?a [|? ?]]; [right; reflexivity| |right; reflexivity].
  Ltac two1 args := destruct args as [|?a [|?b [|? ?]]]; [right; reflexivity|right; reflexivity| |right; reflexivity].
  Ltac three1 args := destruct args as [|?a [|?b [|?c [|? ?]]]]; [right; reflexivity|right; reflexivity|right; reflexivity| |right; reflexivity].
  Ltac int1 k := match goal with Hr : in_range ?t ?idx ?args |- _ =>
    let z := fresh "z" in let Hz := fresh "Hz" in
    destruct (int_dec t idx args k _ Hr eq_refl) as [[z Hz]|Hz]; [cbn; tauto|..] end.
  Ltac obj1 k := match goal with Ht : object_type ?t, Hr : in_range ?t ?idx ?args |- _ =>
    let z := fresh "x" in let Hz := fresh "Hx" in
    destruct (obj_dec t Ht idx args k _ Hr eq_refl) as [[z Hz]|Hz] end.
  Ltac rd1 := repeat match goal with H : integer_of _ = _ |- _ => rewrite H | H : get_shared_instance _ _ = _ |- _ => rewrite H end;
     repeat match goal with |- context [zlen ?l] => change (zlen l) with (size l) end.
  Ltac tst1 := match goal with
  | |- context [?a <? ?b] => destruct (Z.ltb_spec a b)
  | |- context [?a <=? ?b] => destruct (Z.leb_spec a b)
  end; cbn [orb]; repeat match goal with |- context [zlen ?l] => change (zlen l) with (size l) end.
  Ltac bad1 d := match goal with |- (exists v' ans, search_effect _ ?t ?m ?a ?v v' ans) \/ vector_receive ?E _ _ _ _ = _ =>
     right; change (vector_receive E t m a v) with (d a v);
     unfold vector_contains, vector_contains_fromIndex, vector_count, vector_firstIndexOf, vector_firstIndexOf_fromIndex, vector_allIndexesOf,
       vector_removeFirst, vector_removeFirst_fromIndex, vector_removeAll, vector_replaceFirst_with, vector_replaceFirst_fromIndex_with,
       vector_replaceAll_with, refused; mon end; rd1; repeat tst1; first [exfalso; lia | reflexivity].
  - one1 args. obj1 0%nat; [|bad1 (vector_contains E t)]. left.
    destruct (exists_or_none _ _ (D _ _ (get_literal _ _ _ Ht Hx))); do 2 eexists; [eapply eff_contains_true|eapply eff_contains_false]; eauto.
  - two1 args. obj1 0%nat; [int1 1%nat|]; [|bad1 (vector_contains_fromIndex E t)..].
    destruct (Z_lt_dec z 0); [bad1 (vector_contains_fromIndex E t)|]. destruct (Z_lt_dec (size v0) z); [bad1 (vector_contains_fromIndex E t)|]. left.
    assert (Dx := D _ _ (get_literal _ _ _ Ht Hx)). destruct (split_size v0 z) as (pre & post & -> & <-); [lia|]. apply decides_app in Dx as [_ Dx].
    destruct (exists_or_none _ _ Dx); do 2 eexists; [eapply eff_contains_from_true|eapply eff_contains_from_false]; eauto.
  - one1 args. obj1 0%nat; [|bad1 (vector_count E t)]. left. do 2 eexists. eapply eff_count; eauto using to_string_prints. apply pos_positions. eauto.
  - one1 args. obj1 0%nat; [|bad1 (vector_firstIndexOf E t)]. left. destruct (first_match_exists x 0 v0) as [i Hi]; [eauto|].
    do 2 eexists. eapply eff_firstIndexOf; eauto using to_string_prints.
  - two1 args. obj1 0%nat; [int1 1%nat|]; [|bad1 (vector_firstIndexOf_fromIndex E t)..].
    destruct (Z_lt_dec z 0); [bad1 (vector_firstIndexOf_fromIndex E t)|]. destruct (Z_lt_dec (size v0) z); [bad1 (vector_firstIndexOf_fromIndex E t)|]. left.
    assert (Dx := D _ _ (get_literal _ _ _ Ht Hx)). destruct (split_size v0 z) as (pre & post & -> & <-); [lia|]. apply decides_app in Dx as [_ Dx].
    destruct (first_match_exists x (size pre) post Dx) as [i Hi]. do 2 eexists. eapply eff_firstIndexOf_from; eauto using to_string_prints.
  - one1 args. obj1 0%nat; [|bad1 (vector_allIndexesOf E t)]. left. do 2 eexists. eapply (eff_allIndexesOf _ _ _ x v0 _ (map to_string (pos (eqto x) 0 v0))); eauto.
    + apply pos_positions. eauto.
    + clear. induction (pos _ _ _); constructor; auto using to_string_prints.
  - one1 args. obj1 0%nat; [|bad1 (vector_removeFirst E t)]. left. destruct (removes_first_exists x v0) as [i Hi]; [eauto|].
    do 2 eexists. eapply eff_removeFirst; eauto.
  - two1 args. obj1 0%nat; [int1 1%nat|]; [|bad1 (vector_removeFirst_fromIndex E t)..].
    destruct (Z_lt_dec z 0); [bad1 (vector_removeFirst_fromIndex E t)|]. destruct (Z_lt_dec (size v0) z); [bad1 (vector_removeFirst_fromIndex E t)|]. left.
    assert (Dx := D _ _ (get_literal _ _ _ Ht Hx)). destruct (split_size v0 z) as (pre & post & -> & <-); [lia|]. apply decides_app in Dx as [_ Dx].
    destruct (removes_first_exists x post Dx) as [i Hi]. do 2 eexists. eapply eff_removeFirst_from; eauto.
  - one1 args. obj1 0%nat; [|bad1 (vector_removeAll E t)]. left. do 2 eexists. eapply eff_removeAll; eauto. eapply removes_all_eq; [|reflexivity]. eauto.
  - two1 args. obj1 0%nat; [obj1 1%nat|]; [|bad1 (vector_replaceFirst_with E t)..]. left. destruct (replaces_first_exists x x0 v0) as [i Hi]; [eauto|].
    do 2 eexists. eapply eff_replaceFirst; eauto.
  - three1 args. obj1 0%nat; [obj1 2%nat; [int1 1%nat|]|]; [|bad1 (vector_replaceFirst_fromIndex_with E t)..].
    destruct (Z_lt_dec z 0); [bad1 (vector_replaceFirst_fromIndex_with E t)|]. destruct (Z_lt_dec (size v0) z); [bad1 (vector_replaceFirst_fromIndex_with E t)|]. left.
    assert (Dx := D _ _ (get_literal _ _ _ Ht Hx)). destruct (split_size v0 z) as (pre & post & -> & <-); [lia|]. apply decides_app in Dx as [_ Dx].
    destruct (replaces_first_exists x x0 post Dx) as [i Hi]. do 2 eexists. eapply eff_replaceFirst_from; eauto.
  - two1 args. obj1 0%nat; [obj1 1%nat|]; [|bad1 (vector_replaceAll_with E t)..]. left.
    do 2 eexists. eapply eff_replaceAll; eauto. eapply (replaces_all_eq E x (eqto x) x0); [|reflexivity]. eauto.
Qed.
End SearchOps.
