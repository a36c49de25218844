(** Lemmas for C62: what a message adds to a variable. *)
From Coq Require Import ZArith Permutation Lia.
From Verif Require Import Bytes StrUtils Grammar Outcome Parser Num Containers Instance Context Platform.
From Verif Require Import Lemmas StringLit Proof_Grammar Proof_Parser Proof_Exec Proof_Inv Proof_Literal Proof_TextLit Proof_Receive Proof_Context Proof_Names Api Proof_Vector Proof_Order Props_Number Proof_Set Proof_Exact.
From Verif Require Import Spec_Grammar Spec_State Spec_Names Spec_Text Spec_Set Spec_Origin.
Local Open Scope Z_scope.
Local Open Scope list_scope.

(** ** Sequences *)
Definition sub {A} (r v : list A) : Prop := incl r v /\ (length r <= length v)%nat.
Lemma sub_refl {A} (v : list A) : sub v v.
Proof. split; [apply incl_refl|lia]. Qed.
Lemma sub_nil {A} (v : list A) : sub [] v.
Proof. split; [apply incl_nil_l|cbn; lia]. Qed.
Lemma firstn_incl {A} n (v : list A) : incl (firstn n v) v.
Proof. intros x H. rewrite <- (firstn_skipn n v). apply in_or_app. now left. Qed.
Lemma skipn_incl {A} n (v : list A) : incl (skipn n v) v.
Proof. intros x H. rewrite <- (firstn_skipn n v). apply in_or_app. now right. Qed.
Lemma sub_firstn {A} n (v : list A) : sub (firstn n v) v.
Proof. split; [apply firstn_incl|rewrite firstn_length; lia]. Qed.
Lemma sub_skipn {A} n (v : list A) : sub (skipn n v) v.
Proof. split; [apply skipn_incl|rewrite skipn_length; lia]. Qed.
Lemma sub_trans {A} (a b c : list A) : sub a b -> sub b c -> sub a c.
Proof. intros [H1 H2] [H3 H4]. split; [eapply incl_tran; eauto|lia]. Qed.
Lemma sub_cut {A} n k (v : list A) : (n <= k)%nat -> sub (firstn n v ++ skipn k v) v.
Proof.
  intros H. split; [apply incl_app; [apply firstn_incl|apply skipn_incl]|]. rewrite app_length, firstn_length, skipn_length. lia.
Qed.
Lemma sub_removelast {A} (v : list A) : sub (removelast v) v.
Proof. rewrite removelast_firstn_len. apply sub_firstn. Qed.
Lemma sub_erase_at {A} (v r : list A) i : vec_erase_at v i = Ok r -> sub r v.
Proof. unfold vec_erase_at. destruct (_ : bool); [discriminate|]. intros [= <-]. apply (sub_cut (Z.to_nat i) (S (Z.to_nat i)) v). lia. Qed.
Lemma sub_erase_range {A} (v r : list A) i j : vec_erase_range v i j = Ok r -> sub r v.
Proof. unfold vec_erase_range. destruct (_ : bool) eqn:X; [discriminate|]. intros [= <-]. apply sub_cut. lia. Qed.
Lemma sub_pop_back {A} (v r : list A) : vec_pop_back v = Ok r -> sub r v.
Proof. unfold vec_pop_back. destruct v; [discriminate|]. intros [= <-]. apply (sub_removelast (a :: v)). Qed.
Lemma sub_substr (v r : str) i j : str_substr v i j = Ok r -> sub r v.
Proof.
  unfold str_substr. destruct (_ : bool); [discriminate|]. destruct (_ : bool); intros [= <-]; [apply sub_skipn|].
  eapply sub_trans; [apply sub_firstn|apply sub_skipn].
Qed.
Lemma sub_erase_from (v r : str) i : str_erase_from v i = Ok r -> sub r v.
Proof. unfold str_erase_from. destruct (_ : bool); [discriminate|]. intros [= <-]. apply sub_firstn. Qed.
Lemma sub_erase (v r : str) i j : str_erase v i j = Ok r -> sub r v.
Proof.
  unfold str_erase. destruct (_ : bool); [discriminate|]. destruct (_ : bool); intros [= <-]; [apply sub_firstn|]. apply sub_cut. lia.
Qed.

(** [v'] has only elements of [v] and of [new], and at most [k] more than [v]. *)
Definition grows {A} (P : A -> Prop) (k : nat) (v v' : list A) : Prop :=
  (forall x, In x v' -> In x v \/ P x) /\ (length v' <= k + length v)%nat.
Lemma grows_sub {A} (P : A -> Prop) k v v' : sub v' v -> grows P k v v'.
Proof. intros [H1 H2]. split; [auto|lia]. Qed.
Lemma grows_refl {A} (P : A -> Prop) k v : grows P k v v.
Proof. apply grows_sub, sub_refl. Qed.
Lemma grows_trans {A} (P : A -> Prop) j k u v w : grows P j u v -> grows P k v w -> grows P (j + k) u w.
Proof. intros [H1 H2] [H3 H4]. split; [|lia]. intros x [H|H]%H3; auto. Qed.
Lemma grows_insert {A} (P : A -> Prop) (v r w : list A) n : (forall x, In x w -> P x) -> r = firstn n v ++ w ++ skipn n v -> grows P (length w) v r.
Proof.
  intros H ->. split.
  - intros y [Y|[Y|Y]%in_app_or]%in_app_or; [left; eapply firstn_incl; eauto|right; auto|left; eapply skipn_incl; eauto].
  - rewrite !app_length. assert (L := f_equal (@length A) (firstn_skipn n v)). rewrite app_length in L. lia.
Qed.
Lemma grows_vec_insert {A} (P : A -> Prop) (v r : list A) i x : vec_insert v i x = Ok r -> P x -> grows P 1 v r.
Proof.
  unfold vec_insert. destruct (_ : bool); [discriminate|]. intros [= <-] H.
  apply (grows_insert P v _ [x] (Z.to_nat i)); [intros y [<-|[]]; auto|reflexivity].
Qed.
Lemma grows_vec_set {A} (P : A -> Prop) (v r : list A) i x : vec_set v i x = Ok r -> P x -> grows P 0 v r.
Proof.
  unfold vec_set. destruct (_ : bool) eqn:B; [discriminate|]. intros X H.
  assert (R : r = firstn (Z.to_nat i) v ++ x :: skipn (S (Z.to_nat i)) v) by congruence. subst r. split.
  - intros y [Y|[<-|Y]]%in_app_or; [left; eapply firstn_incl; eauto|right; exact H|left; apply (skipn_incl (S (Z.to_nat i)) v); exact Y].
  - assert (L := skipn_length (S (Z.to_nat i)) v). rewrite app_length, firstn_length. change (length (x :: skipn (S (Z.to_nat i)) v)) with (S (length (skipn (S (Z.to_nat i)) v))).
    rewrite L. unfold zlen in *. lia.
Qed.

Section Vec.
Context (E : env) (t : str) (Ot : object_type t) (Hs : sort_contract (e_sort E)).
Definition from_args (args : list str) (x : obj) : Prop := exists a, In a args /\ literal_of t a x.
Lemma remove_all_sub fuel : forall i x v, sub (fst (remove_all_loop E fuel i x v)) v.
Proof.
  induction fuel as [|f IH]; intros i x v; cbn [remove_all_loop]; unfold bind, Outcome.get; destruct (i <? zlen v); cbn [fst]; try apply sub_refl.
  unfold lift. destruct (vec_at v i) as [y| |]; cbn [fst]; try apply sub_refl. destruct (is_equal_to _ y x) as [e| |]; cbn [fst]; try apply sub_refl.
  destruct e; [|apply IH]. destruct (vec_erase_at v i) as [r| |] eqn:R; cbn [fst]; try apply sub_refl. unfold put.
  eapply sub_trans; [apply IH|]. eapply sub_erase_at; eauto.
Qed.
Lemma replace_grows fuel : forall once i x w v, grows (fun z => literal_of t w z) 0 v (fst (replace_loop E t fuel once i x w v)).
Proof.
  induction fuel as [|f IH]; intros once i x w v; cbn [replace_loop]; unfold bind, Outcome.get; destruct (i <? zlen v); cbn [fst]; try apply grows_refl.
  unfold lift. destruct (vec_at v i) as [y| |]; cbn [fst]; try apply grows_refl. destruct (is_equal_to _ y x) as [e| |]; cbn [fst]; try apply grows_refl.
  destruct e; [|apply IH]. destruct (get_shared_instance t w) as [z| |] eqn:Z; cbn [fst]; try apply grows_refl.
  destruct (vec_set v i z) as [r| |] eqn:R; cbn [fst]; try apply grows_refl. unfold put.
  assert (G : grows (fun z => literal_of t w z) 0 v r) by (eapply grows_vec_set; eauto using get_literal).
  destruct once; [exact G|]. eapply (grows_trans _ 0 0); [exact G|apply IH].
Qed.
Lemma grows_weaken {A} (P Q : A -> Prop) j k v w : grows P j v w -> (forall x, P x -> Q x) -> (j <= k)%nat -> grows Q k v w.
Proof. intros [H1 H2] H L. split; [intros x [|]%H1; auto|lia]. Qed.
Ltac step := match goal with
  | |- context [(if ?b then _ else _) _] => destruct b eqn:?
  | |- context [match nth_error ?l ?n with _ => _ end] => destruct (nth_error l n) eqn:?
  | |- context [match ?x with _ => _ end] => destruct x eqn:? end; cbn [fst negb length Nat.eqb].
Ltac subs := apply grows_sub; first [apply sub_nil | eapply sub_erase_at; eassumption | eapply sub_erase_range; eassumption | eapply sub_pop_back; eassumption].
Ltac one_row f := unfold f; unfold bind, check_nargs, arg, throw_if, throw, ret, Outcome.get, put, lift, undefined; cbn [fst negb length Nat.eqb].
Definition growth (m : str) : nat := if existsb (seq_eqb m) inserters then 1 else 0.
Lemma vector_grows m args v : grows (from_args args) (growth m) v (fst (vector_receive E t m args v)).
Proof.
  unfold vector_receive. match goal with |- context [dispatch ?l m args v] => pattern (dispatch l m args) end.
  apply dispatch_cases; [apply grows_refl|].
  repeat apply Forall_cons; try apply Forall_nil; cbn [fst snd]; intros Hm; subst m;
    try (match goal with |- grows _ _ _ (fst (?f ?v)) => let C := fresh in assert (C : const f) by const_op; rewrite (C v); apply grows_refl end).
  - one_row vector_pushBack. destruct args as [|a [|]]; cbn [length Nat.eqb negb nth_error fst]; try apply grows_refl.
    destruct (get_shared_instance t a) as [x| |] eqn:G; cbn [fst]; try apply grows_refl.
    apply (grows_insert _ v _ [x] (length v)); [intros y [<-|[]]; exists a; split; [now left|now apply get_literal]|].
    now rewrite firstn_all, skipn_all, app_nil_r.
  - one_row vector_pushFront. destruct args as [|a [|]]; cbn [length Nat.eqb negb nth_error fst]; try apply grows_refl.
    destruct (get_shared_instance t a) as [x| |] eqn:G; cbn [fst]; try apply grows_refl.
    destruct (vec_insert v 0 x) eqn:R; cbn [fst]; try apply grows_refl. eapply grows_vec_insert; [exact R|]. exists a; split; [now left|now apply get_literal].
  - one_row vector_popBack. repeat step; try apply grows_refl; subs.
  - one_row vector_popFront. repeat step; try apply grows_refl; subs.
  - one_row vector_popAtIndex. repeat step; try apply grows_refl; subs.
  - one_row vector_insert_beforeIndex. destruct args as [|a [|b [|]]]; cbn [length Nat.eqb negb nth_error fst]; try apply grows_refl.
    destruct (get_shared_instance t a) as [x| |] eqn:G; cbn [fst]; try apply grows_refl.
    repeat step; try apply grows_refl. eapply grows_vec_insert; [eassumption|]. exists a; split; [now left|now apply get_literal].
  - one_row vector_eraseFromIndex. repeat step; try apply grows_refl; subs.
  - one_row vector_eraseFromIndex_toIndex. repeat step; try apply grows_refl; subs.
  - one_row vector_removeFirst. repeat step; try apply grows_refl; subs.
  - one_row vector_removeFirst_fromIndex. repeat step; try apply grows_refl; subs.
  - one_row vector_removeAll. destruct args as [|a [|]]; cbn [length Nat.eqb negb nth_error fst]; try apply grows_refl.
    destruct (get_shared_instance t a) as [x| |] eqn:G; cbn [fst]; try apply grows_refl.
    assert (R := remove_all_sub (length v) 0 x v). destruct (remove_all_loop _ _ _ _ v) as [v' [| |]]; cbn [fst] in *; now apply grows_sub.
  - one_row vector_replaceFirst_with. destruct args as [|a [|b [|]]]; cbn [length Nat.eqb negb nth_error fst]; try apply grows_refl.
    destruct (get_shared_instance t a) as [x| |] eqn:G; cbn [fst]; try apply grows_refl.
    destruct (get_shared_instance t b) as [y| |] eqn:G'; cbn [fst]; try apply grows_refl.
    assert (R := replace_grows (length v) true 0 x b v). destruct (replace_loop _ _ _ _ _ _ _ v) as [v' [| |]]; cbn [fst] in *;
      (eapply grows_weaken; [exact R| |apply Nat.le_0_l]; intros z Z; exists b; split; [right; now left|exact Z]).
  - one_row vector_replaceFirst_fromIndex_with. destruct args as [|a [|b [|c [|]]]]; cbn [length Nat.eqb negb nth_error fst]; try apply grows_refl.
    destruct (get_shared_instance t a) as [x| |] eqn:G; cbn [fst]; try apply grows_refl.
    destruct (get_shared_instance t c) as [y| |] eqn:G'; cbn [fst]; try apply grows_refl.
    destruct (integer_of b) as [z| |]; cbn [fst]; try apply grows_refl. destruct (_ || _)%bool; cbn [fst]; try apply grows_refl.
    assert (R := replace_grows (length v) true z x c v). destruct (replace_loop _ _ _ _ _ _ _ v) as [v' [| |]]; cbn [fst] in *;
      (eapply grows_weaken; [exact R| |apply Nat.le_0_l]; intros ? Z; exists c; split; [right; right; now left|exact Z]).
  - one_row vector_replaceAll_with. destruct args as [|a [|b [|]]]; cbn [length Nat.eqb negb nth_error fst]; try apply grows_refl.
    destruct (get_shared_instance t a) as [x| |] eqn:G; cbn [fst]; try apply grows_refl.
    destruct (get_shared_instance t b) as [y| |] eqn:G'; cbn [fst]; try apply grows_refl.
    assert (R := replace_grows (length v) false 0 x b v). destruct (replace_loop _ _ _ _ _ _ _ v) as [v' [| |]]; cbn [fst] in *;
      (eapply grows_weaken; [exact R| |apply Nat.le_0_l]; intros z Z; exists b; split; [right; now left|exact Z]).
  - one_row vector_sort. destruct args as [|a l]; cbn [length Nat.eqb negb nth_error fst]; try apply grows_refl.
    destruct (strict_weak_order_on _ v) eqn:W; cbn [fst]; try apply grows_refl. apply grows_sub.
    apply swo_iff in W. destruct (Hs _ _ W) as [P _]. split; [intros x X; eapply Permutation_in; [apply Permutation_sym; exact P|exact X]|].
    rewrite (Permutation_length P). lia.
  - one_row vector_reverse. destruct args as [|a l]; cbn [length Nat.eqb negb nth_error fst]; try apply grows_refl.
    apply grows_sub. split; [intros x; apply in_rev|rewrite rev_length; lia].
  - one_row vector_clear. destruct args as [|a l]; cbn [length Nat.eqb negb nth_error fst]; try apply grows_refl. apply grows_sub, sub_nil.
Qed.
End Vec.

(** ** Sets and Dictionaries *)
Lemma grows_filter {A} (P : A -> Prop) k (f : A -> bool) v : grows P k v (filter f v).
Proof. apply grows_sub. split; [intros x X; apply filter_In in X; tauto|]. induction v as [|x v IH]; cbn; [lia|]. destruct (f x); cbn; lia. Qed.
Lemma grows_set_insert lt (P : obj -> Prop) v x : P x -> grows P 1 v (insert_sorted lt v x).
Proof.
  intros Px. split; [intros z Hz; apply insert_in in Hz as [->|]; auto|].
  induction v as [|y v IH]; cbn [insert_sorted length]; [lia|]. destruct (ltb lt y x); [cbn [length]; lia|]. destruct (ltb lt x y); cbn [length]; lia.
Qed.
Lemma set_grows E t m args v : object_type t -> grows (from_args t args) (growth m) v (fst (set_receive E t m args v)).
Proof.
  intros Ot. destruct (set_changes E t m args v Ot) as [->|[(a & x & -> & Hx & Hm)|[-> ->]]]; [apply grows_refl| |apply grows_sub, sub_nil].
  destruct Hm as [->| ->]; [rewrite (set_add_eq E t a x v Hx)|rewrite (set_remove_eq E t a x v Hx)]; destruct (tree_ok _ _ _); cbn [fst]; try apply grows_refl.
  - apply grows_set_insert. exists a. split; [now left|auto].
  - apply grows_filter.
Qed.
(** All keys and values in [d'] are in [d] or in the arguments, and it has at most [k] more entries. *)
Definition dict_growth (kt vt : str) (args : list str) (k : nat) (d d' : list (obj * obj)) : Prop :=
  (forall z, In z (map fst d') -> In z (map fst d) \/ from_args kt args z) /\
  (forall z, In z (map snd d') -> In z (map snd d) \/ from_args vt args z) /\ (length d' <= k + length d)%nat.
Lemma dict_growth_refl kt vt args k d : dict_growth kt vt args k d d.
Proof. split; [auto|]. split; [auto|lia]. Qed.
Lemma assign_in lt (d : list (obj * obj)) k x z : In z (assign_sorted lt d k x) -> In z d \/ ((fst z = k \/ In (fst z) (map fst d)) /\ snd z = x).
Proof.
  induction d as [|[y w] d IH]; cbn [assign_sorted]; [intros [<-|[]]; auto|]. destruct (ltb lt y k); [|destruct (ltb lt k y)].
  - intros [<-|H]; [left; now left|]. destruct (IH H) as [?|[[?|?] ?]]; [left; now right|auto|]. right. split; auto. right. now right.
  - intros [<-|H]; [right; auto|left; exact H].
  - intros [<-|H]; [right; split; auto; right; now left|left; now right].
Qed.
Lemma assign_length lt (d : list (obj * obj)) k x : (length (assign_sorted lt d k x) <= S (length d))%nat.
Proof.
  induction d as [|[y w] d IH]; cbn [assign_sorted length]; [lia|]. destruct (ltb lt y k); [cbn [length]; lia|]. destruct (ltb lt k y); cbn [length]; lia.
Qed.
Lemma dict_grows E kt vt m args d : object_type kt -> object_type vt ->
  dict_growth kt vt args (growth m) d (fst (dict_receive E kt vt m args d)).
Proof.
  intros Ok Ov.
  destruct (dict_changes E kt vt m args d Ok Ov) as [->|[(a & b & x & k & -> & Hx & Hy & ->)|[(b & k & -> & Hy & ->)|[-> ->]]]]; [apply dict_growth_refl| | |].
  - rewrite (dict_assoc_eq E kt vt a b x k d Hx Hy). destruct (tree_ok _ _ _); cbn [fst]; [|apply dict_growth_refl].
    split; [|split; [|apply assign_length]].
    + intros z (p & <- & H)%in_map_iff. destruct (assign_in _ _ _ _ _ H) as [H'|[[->|H'] _]]; [left; now apply in_map| |auto].
      right. exists b. split; [right; now left|exact Hy].
    + intros z (p & <- & H)%in_map_iff. destruct (assign_in _ _ _ _ _ H) as [H'|[_ ->]]; [left; now apply in_map|].
      right. exists a. split; [now left|exact Hx].
  - rewrite (dict_removeKey_eq E kt vt b k d Hy). destruct (tree_ok _ _ _); cbn [fst]; [|apply dict_growth_refl].
    split; [|split].
    + intros z (p & <- & H)%in_map_iff. apply filter_In in H as [H _]. left. now apply in_map.
    + intros z (p & <- & H)%in_map_iff. apply filter_In in H as [H _]. left. now apply in_map.
    + match goal with |- context [filter ?f d] => destruct (grows_filter (fun _ => False) (growth $"removeKey:") f d) as [_ L] end. exact L.
  - split; [intros z []|]. split; [intros z []|cbn; lia].
Qed.

(** ** Strings *)
Definition volume (args : list str) : nat := fold_right (fun a k => (length a + k)%nat) 0%nat args.
Definition char_from (args : list str) (ch : ascii) : Prop :=
  exists a, In a args /\ (literal_of (B "Character") a (OChar ch) \/ exists w, literal_of (B "String") a (OStr w) /\ In ch w).
Lemma escapes_length v : (length v <= length (with_escapes v))%nat.
Proof. unfold with_escapes. induction v as [|x v IH]; [auto|]. cbn [flat_map length]. rewrite app_length. destruct (ascii_dec x QUOTE); cbn [length]; lia. Qed.
Lemma string_literal_length a w : literal_of (B "String") a (OStr w) -> (length w < length a)%nat.
Proof.
  intros (v & [_ ->] & [= ->])%reads_string. unfold printed_string. cbn [app length]. rewrite app_length. cbn [length].
  pose proof (escapes_length v). lia.
Qed.
Lemma string_of_literal a w : string_of a = Ok w -> literal_of (B "String") a (OStr w).
Proof. intros H. apply reads_string. exists w. split; auto. now apply string_of_iff. Qed.
Lemma char_of_literal a ch : is_character_value a = true -> str_at a 1 = Ok ch -> literal_of (B "Character") a (OChar ch).
Proof.
  intros H1 H2. apply get_literal; [right; now left|]. change (get_shared_instance (B "Character") a) with (let! c := character_of a in Ok (OChar c)).
  unfold character_of. now rewrite H1, H2.
Qed.
Lemma string_given args a w : In a args -> string_of a = Ok w -> (forall ch, In ch w -> char_from args ch) /\ (length w <= volume args)%nat.
Proof.
  intros I H%string_of_literal. split; [intros ch Hc; exists a; split; eauto|]. apply string_literal_length in H.
  assert (length a <= volume args)%nat; [|lia]. clear H. induction args as [|b args IH]; [destruct I|]. cbn [volume fold_right]. destruct I as [->|I]; [lia|]. specialize (IH I). unfold volume in IH. lia.
Qed.
Section Str.
Ltac step := match goal with
  | |- context [(if ?b then _ else _) _] => destruct b eqn:?
  | |- context [match nth_error ?l ?n with _ => _ end] => destruct (nth_error l n) eqn:?
  | |- context [match ?x with _ => _ end] => destruct x eqn:? end; cbn [fst negb length Nat.eqb].
Ltac subs := apply grows_sub; first [apply sub_nil | eapply sub_erase_at; eassumption | eapply sub_substr; eassumption | eapply sub_erase_from; eassumption | eapply sub_erase; eassumption].
Ltac one_row f := unfold f; unfold bind, check_nargs, arg, throw_if, throw, ret, Outcome.get, put, lift, undefined; cbn [fst negb length Nat.eqb].
Lemma string_grows E m args v : grows (char_from args) (volume args) v (fst (string_receive E m args v)).
Proof.
  unfold string_receive. match goal with |- context [dispatch ?l m args v] => pattern (dispatch l m args) end.
  apply dispatch_cases; [apply grows_refl|].
  repeat apply Forall_cons; try apply Forall_nil; cbn [fst snd]; intros Hm; subst m;
    try (match goal with |- grows _ _ _ (fst (?f ?v)) => let C := fresh in assert (C : const f) by const_op; rewrite (C v); apply grows_refl end).
  - one_row string_set. destruct args as [|a [|]]; cbn [length Nat.eqb negb nth_error fst]; try apply grows_refl.
    destruct (is_string_value a) eqn:S; cbn [negb fst]; try apply grows_refl. destruct (unquote a) as [w| |] eqn:U; cbn [fst]; try apply grows_refl.
    assert (X : string_of a = Ok w) by (unfold string_of; now rewrite S).
    destruct (string_given [a] a w (or_introl eq_refl) X) as [A1 A2]. split; [auto|lia].
  - one_row string_pushBack. destruct args as [|a [|]]; cbn [length Nat.eqb negb nth_error fst]; try apply grows_refl.
    destruct (is_character_value a) eqn:S; cbn [negb fst]; try apply grows_refl. destruct (str_at a 1) as [w| |] eqn:U; cbn [fst]; try apply grows_refl.
    assert (X := char_of_literal a w S U). assert (L : (1 <= volume [a])%nat) by (inversion X; subst; cbn; lia).
    split; [intros ch [|[<-|[]]]%in_app_or; auto; right; exists a; split; [now left|auto]|rewrite app_length; cbn [s1 length]; lia].
  - one_row string_pushFront. destruct args as [|a [|]]; cbn [length Nat.eqb negb nth_error fst]; try apply grows_refl.
    destruct (is_character_value a) eqn:S; cbn [negb fst]; try apply grows_refl. destruct (str_at a 1) as [w| |] eqn:U; cbn [fst]; try apply grows_refl.
    assert (X := char_of_literal a w S U). assert (L : (1 <= volume [a])%nat) by (inversion X; subst; cbn; lia).
    split; [intros ch [<-|]; auto; right; exists a; split; [now left|auto]|cbn [s1 app length]; lia].
  - one_row string_popBack. repeat step; try apply grows_refl; subs.
  - one_row string_popFront. repeat step; try apply grows_refl; subs.
  - one_row string_popAtIndex. repeat step; try apply grows_refl; subs.
  - one_row string_concatenate. destruct args as [|a [|]]; cbn [length Nat.eqb negb nth_error fst]; try apply grows_refl.
    destruct (is_string_value a) eqn:S; cbn [negb fst]; try apply grows_refl. destruct (string_of a) as [w| |] eqn:U; cbn [fst]; try apply grows_refl.
    destruct (string_given [a] a w (or_introl eq_refl) U) as [A1 A2].
    split; [intros ch [|]%in_app_or; auto|rewrite app_length; lia].
  - one_row string_insert_beforeIndex. destruct args as [|a [|b [|]]]; cbn [length Nat.eqb negb nth_error fst]; try apply grows_refl.
    destruct (is_string_value a) eqn:S; cbn [negb fst]; try apply grows_refl. destruct (integer_of b) as [z| |]; cbn [fst]; try apply grows_refl.
    destruct (_ || _)%bool; cbn [fst]; try apply grows_refl.
    destruct (string_of a) as [w| |] eqn:U; cbn [fst]; try apply grows_refl. destruct (string_given [a; b] a w (or_introl eq_refl) U) as [A1 A2].
    destruct (str_insert v z w) as [r| |] eqn:R; cbn [fst]; try apply grows_refl. unfold str_insert in R. destruct (_ || _)%bool; [discriminate|]. injection R as <-.
    eapply grows_weaken; [eapply (grows_insert (char_from [a; b]) v _ w); [exact A1|reflexivity]|auto|exact A2].
  - one_row string_eraseFromIndex. repeat step; try apply grows_refl; subs.
  - one_row string_eraseFromIndex_toIndex. repeat step; try apply grows_refl; subs.
  - one_row string_clear. repeat step; try apply grows_refl; subs.
Qed.
End Str.

(** ** Lines *)
Lemma keyword_volume s name args : keyword_message s name args -> (volume args <= length s)%nat.
Proof. induction 1; unfold volume in *; cbn [fold_right]; repeat rewrite app_length; lia. Qed.
Lemma statement_volume line n m args : statement line n m args -> (length n + volume args < length line)%nat.
Proof.
  intros (a & s & b & msg & d & e & -> & _ & _ & _ & _ & M & _). repeat rewrite app_length. cbn [length].
  assert (volume args <= length msg)%nat; [|change (length (B ";")) with 1%nat; lia].
  destruct M as [|? ? ? M]; [cbn; lia|now apply keyword_volume in M].
Qed.
Lemma volume_in args a : In a args -> (length a <= volume args)%nat.
Proof. intros I. induction args as [|b args IH]; [destruct I|]. unfold volume in *. cbn [fold_right]. destruct I as [->|I]; [|specialize (IH I)]; lia. Qed.

(** ** Variables *)
Definition adds (m : str) (args : list str) (i i' : inst) : Prop :=
  match i with
  | IObj (OBool b) => exists b', i' = IObj (OBool b') /\ (b' = b \/ exists a, In a args /\ literal_of (B "Boolean") a (OBool b'))
  | IObj (OChar b) => exists b', i' = IObj (OChar b') /\ (b' = b \/ exists a, In a args /\ literal_of (B "Character") a (OChar b'))
  | IObj (OInt _) => exists z, i' = IObj (OInt z)
  | IObj (OFloat _) => exists z, i' = IObj (OFloat z)
  | IObj (OStr v) => exists v', i' = IObj (OStr v') /\ grows (char_from args) (volume args) v v'
  | IVector t v => exists v', i' = IVector t v' /\ grows (from_args t args) (growth m) v v'
  | ISet t v => exists v', i' = ISet t v' /\ grows (from_args t args) (growth m) v v'
  | IDict kt vt d => exists d', i' = IDict kt vt d' /\ dict_growth kt vt args (growth m) d d'
  end.
Lemma receive_adds E i m args : sort_contract (e_sort E) -> inst_good false i -> adds m args i (fst (receive E i m args)).
Proof.
  intros Hs G. destruct i as [[b|b|z|f|v]|t v|t v|kt vt d]; cbn [receive on fst adds].
  - eexists; split; [reflexivity|]. unfold boolean_receive. match goal with |- context [dispatch ?l m args b] => pattern (dispatch l m args) end.
    apply dispatch_cases; [now left|]. repeat apply Forall_cons; try apply Forall_nil; cbn [fst snd]; intros Hm; subst m;
      try (left; match goal with |- fst (?f ?v) = _ => let C := fresh in assert (C : const f) by const_op; now rewrite (C v) end).
    unfold boolean_set. mon. destruct args as [|a [|]]; cbn [length Nat.eqb negb nth_error fst]; auto.
    destruct (is_boolean_value a) eqn:U; cbn [negb fst]; auto. right. exists a. split; [now left|]. apply get_literal; [now left|].
    change (get_shared_instance (B "Boolean") a) with (let! c := boolean_of a in Ok (OBool c)). unfold boolean_of. now rewrite U.
  - eexists; split; [reflexivity|]. unfold character_receive. match goal with |- context [dispatch ?l m args b] => pattern (dispatch l m args) end.
    apply dispatch_cases; [now left|]. repeat apply Forall_cons; try apply Forall_nil; cbn [fst snd]; intros Hm; subst m;
      try (left; match goal with |- fst (?f ?v) = _ => let C := fresh in assert (C : const f) by const_op; now rewrite (C v) end).
    unfold character_set. mon. destruct args as [|a [|]]; cbn [length Nat.eqb negb nth_error fst]; auto.
    destruct (is_character_value a) eqn:S; cbn [negb fst]; auto. destruct (str_at a 1) as [w| |] eqn:U; cbn [fst]; auto.
    right. exists a. split; [now left|]. now apply char_of_literal.
  - eauto.
  - eauto.
  - eexists; split; [reflexivity|]. apply string_grows.
  - destruct G as [Ot _]. eexists; split; [reflexivity|]. now apply vector_grows.
  - destruct G as [Ot _]. eexists; split; [reflexivity|]. now apply set_grows.
  - destruct G as (Ok & Ov & _). eexists; split; [reflexivity|]. now apply dict_grows.
Qed.

Lemma given_more n args0 after line a : given n args0 after a -> given n args0 (after ++ [line]) a.
Proof.
  intros [I|(l & m & args & H1 & H2 & H3)]; [now left|right]. exists l, m, args. split; [apply in_or_app; now left|auto].
Qed.
Lemma given_last n args0 after line m args a : statement line n m args -> In a args -> given n args0 (after ++ [line]) a.
Proof. intros S I. right. exists line, m, args. split; [apply in_or_app; right; now left|auto]. Qed.
Lemma originates_more n args0 after line i : originates n args0 after i -> originates n args0 (after ++ [line]) i.
Proof.
  assert (K : forall P : bytes -> Prop, (exists a, given n args0 after a /\ P a) -> exists a, given n args0 (after ++ [line]) a /\ P a).
  { intros P (a & H1 & H2). exists a. split; auto. now apply given_more. }
  destruct i as [[b|b|z|f|v]|t v|t v|kt vt d]; cbn [originates]; auto; try exact (K (fun a => literal_of _ a _)).
  - intros H k x I. destruct (H k x I) as [(a & H1 & H2) (a' & H1' & H2')]. split; [exists a|exists a']; split; auto; now apply given_more.
Qed.
Lemma originates_adds n args0 after line m args i i' : statement line n m args -> adds m args i i' -> originates n args0 after i ->
  originates n args0 (after ++ [line]) i'.
Proof.
  intros Hs A O.
  assert (L : forall (t : bytes) (x : obj), from_args t args x -> exists a, given n args0 (after ++ [line]) a /\ literal_of t a x).
  { intros t x (a & I & H). exists a. split; auto. eapply given_last; eauto. }
  destruct i as [[b|b|z|f|v]|t v|t v|kt vt d]; cbn [adds originates] in *.
  - destruct A as (b' & -> & [->|(a & I & H)]); [exact (originates_more n args0 after line (IObj (OBool b)) O)|]. apply L. exists a. auto.
  - destruct A as (b' & -> & [->|(a & I & H)]); [exact (originates_more n args0 after line (IObj (OChar b)) O)|]. apply L. exists a. auto.
  - destruct A as (z' & ->). exact I.
  - destruct A as (z' & ->). exact I.
  - destruct A as (v' & -> & [G _]). intros ch [I|(a & I & H)]%G.
    + destruct (O ch I) as (a & H1 & H2). exists a. split; auto. now apply given_more.
    + exists a. split; auto. eapply given_last; eauto.
  - destruct A as (v' & -> & [G _]). intros x [I|H]%G; [|now apply L]. destruct (O x I) as (a & H1 & H2). exists a. split; auto. now apply given_more.
  - destruct A as (v' & -> & [G _]). intros x [I|H]%G; [|now apply L]. destruct (O x I) as (a & H1 & H2). exists a. split; auto. now apply given_more.
  - destruct A as (d' & -> & G1 & G2 & _). intros k x I. split.
    + assert (I1 : In k (map fst d')) by (apply (in_map fst) in I; exact I).
      destruct (G1 k I1) as [J|J]; [|now apply L]. apply in_map_iff in J as ([k0 x0] & <- & J).
      destruct (O k0 x0 J) as [(a & H1 & H2) _]. exists a. split; auto. now apply given_more.
    + assert (I1 : In x (map snd d')) by (apply (in_map snd) in I; exact I).
      destruct (G2 x I1) as [J|J]; [|now apply L]. apply in_map_iff in J as ([k0 x0] & <- & J).
      destruct (O k0 x0 J) as [_ (a & H1 & H2)]. exists a. split; auto. now apply given_more.
Qed.
Lemma adds_type m args i i' : adds m args i i' -> type_name i' = type_name i.
Proof.
  destruct i as [[b|b|z|f|v]|t v|t v|kt vt d]; cbn [adds]; intros H; try destruct H as (x & -> & _); try destruct H as (x & ->); reflexivity.
Qed.
Lemma adds_cardinal m args i i' : adds m args i i' -> (cardinal i' <= growth m + cardinal i)%nat.
Proof.
  destruct i as [[b|b|z|f|v]|t v|t v|kt vt d]; cbn [adds]; intros H.
  1,2,5: destruct H as (x & -> & _); cbn; lia. 1,2: destruct H as (x & ->); cbn; lia.
  1,2: destruct H as (x & -> & [_ H]); exact H.
  destruct H as (x & -> & _ & _ & H). exact H.
Qed.
Lemma growth_inserts n line m args : statement line n m args -> (growth m <= 1)%nat /\ (growth m = 1%nat -> inserts n line).
Proof.
  intros Hs. unfold growth. destruct (existsb _ _) eqn:X; split; [lia|intros _|lia|discriminate]. exists m, args. split; auto.
  apply existsb_exists in X as (y & I & Y). apply seq_eqb_eq in Y. now subst.
Qed.

(** ** Histories *)
Lemma total_exists P w l : exists k, total P w l k.
Proof.
  induction l as [|x l [k H]] using rev_ind; [exists 0%nat; constructor|].
  destruct (Classical_Prop.classic (P x)); eexists; [apply total_yes|apply total_no]; eauto.
Qed.
Lemma total_step P w l x k : total P w l k -> exists k', total P w (l ++ [x]) k' /\ (k <= k')%nat /\ (P x -> k' = k + w x)%nat.
Proof.
  intros H. destruct (Classical_Prop.classic (P x)) as [Y|N].
  - exists (k + w x)%nat. split; [now apply total_yes|]. split; [lia|auto].
  - exists k. split; [now apply total_no|]. split; [lia|contradiction].
Qed.
Lemma reached_reachable srt pw lines c : reached_by srt pw lines c -> reachable srt pw c.
Proof. induction 1; [now constructor|eapply reach_step; eauto]. Qed.
Lemma total_last P w l x k : total P w (l ++ [x]) k -> exists k0, total P w l k0 /\ ((P x /\ k = (k0 + w x)%nat) \/ (~ P x /\ k = k0)).
Proof.
  intros H. remember (l ++ [x]) as l' eqn:El. destruct H as [|l0 k0 x0 H0 P0|l0 k0 x0 H0 P0]; [destruct l; discriminate| |];
    apply app_inj_tail in El as [-> ->]; exists k0; auto.
Qed.
Lemma total_unique P w l k k' : total P w l k -> total P w l k' -> k = k'.
Proof.
  revert k k'. induction l as [|x l IH] using rev_ind; intros k k' H H'.
  - assert (Z : forall k, total P w [] k -> k = 0%nat).
    { clear. intros k H. remember [] as l eqn:El. destruct H as [|l0 k0 x0 H0 P0|l0 k0 x0 H0 P0]; auto; destruct l0; discriminate. }
    now rewrite (Z _ H), (Z _ H').
  - destruct (total_last _ _ _ _ _ H) as (a & A & [[A1 A2]|[A1 A2]]), (total_last _ _ _ _ _ H') as (b & B & [[B1 B2]|[B1 B2]]); try contradiction;
      rewrite (IH _ _ A B) in A2; lia.
Qed.
Lemma qualified_namespace ns i : variable (qualified ns i) -> namespace ns.
Proof.
  unfold qualified. intros V.
  assert (NC : forall s, identifier s -> ~ In c_colon s).
  { intros s H I. apply identifier_no_colon in H. rewrite Forall_forall in H. exact (H _ I eq_refl). }
  destruct V as [V|(n1 & i1 & E & V1 & V2)].
  - exfalso. apply (NC _ V). apply in_or_app. right. now left.
  - change (B "::" ++ i) with (c_colon :: c_colon :: i) in E. change (B "::" ++ i1) with (c_colon :: c_colon :: i1) in E.
    apply app_eq_app in E as (l & [[-> E]|[-> E]]).
    + destruct l as [|x l]; [now rewrite app_nil_r|]. injection E as <- E. destruct l as [|y l].
      * injection E as E. exfalso. apply (NC _ V2). rewrite E. now left.
      * injection E as <- E. exfalso. apply (NC _ V2). rewrite E. apply in_or_app. right. now left.
    + destruct l as [|x l]; [now rewrite app_nil_r in V1|]. injection E as <- E. exfalso. apply (NC _ V1). apply in_or_app. right. now left.
Qed.
