(** Lemmas for C69: where numbers that are too large are read. *)
From Coq Require Import ZArith Lia Reals.
From Flocq Require Import Core.
From Verif Require Import Bytes StrUtils Grammar Outcome Parser Num Containers Instance Context.
From Verif Require Import Lemmas Proof_Grammar Proof_Number Proof_Arith Proof_Literal Proof_String Proof_Exec Proof_Context Proof_Names.
From Verif Require Import Spec_Grammar Spec_State Spec_Names Spec_Text Spec_Number Spec_Float Spec_Literal Spec_Order Spec_Vector Spec_String Spec_Set Spec_Undefined.
Open Scope Z_scope.
Open Scope list_scope.

(** The kinds of undefined behaviour that occur (C28). *)
Definition numeric (u : ub) : Prop := u = AtoiRange \/ u = IntConversion \/ u = BadOrder.
(** Results that are not undefined because of a number. *)
Definition tame {A} (r : res A) : Prop := forall u, r = UB u -> ~ numeric u.
Lemma tame_ok {A} (a : A) : tame (Ok a). Proof. intros u H. discriminate H. Qed.
Lemma tame_throw {A} e : tame (@Throw A e). Proof. intros u H. discriminate H. Qed.
Lemma tame_bind {A B} (m : res A) (f : A -> res B) : tame m -> (forall a, tame (f a)) -> tame (rbind m f).
Proof. unfold tame. destruct m; cbn; intros H1 H2 x E; auto; [eapply H2; eauto|discriminate E|]. inversion E; subst. now apply H1. Qed.
Ltac not_numeric := let X := fresh in let Y := fresh in intros X; destruct X as [Y|[Y|Y]]; discriminate Y.
Ltac tame_ub := let u := fresh "u" in let E := fresh "E" in intros u E; inversion E; not_numeric.
Ltac tame1 := lazymatch goal with
  | |- tame (rbind _ _) => apply tame_bind; [|intros ?]
  | |- tame (Ok _) => apply tame_ok
  | |- tame (Throw _) => apply tame_throw
  | |- tame (UB _) => tame_ub
  | |- tame (if ?b then _ else _) => destruct b
  | |- tame (match ?b with _ => _ end) => destruct b
  | |- tame (let _ := _ in _) => cbv zeta
  end.
Ltac head t := lazymatch t with ?f _ => head f | ?f => f end.
Create HintDb tame.
Ltac tame_all := repeat first [tame1|assumption|solve [auto with tame]|lazymatch goal with |- tame ?t => let f := head t in unfold f; cbv zeta end].
Lemma tame_equal eps x y : tame (is_equal_to eps x y). Proof. tame_all. Qed.
Lemma tame_less eps x y : tame (is_less_than eps x y). Proof. tame_all. Qed.
Lemma tame_greater eps x y : tame (is_greater_than eps x y). Proof. tame_all. Qed.
Global Hint Resolve tame_equal tame_less tame_greater : tame.
Lemma tame_le eps x y : tame (is_less_than_or_equal_to eps x y). Proof. tame_all. Qed.
Lemma tame_ge eps x y : tame (is_greater_than_or_equal_to eps x y). Proof. tame_all. Qed.
Lemma tame_contains E v x : tame (contains_loop E v x). Proof. induction v; cbn [contains_loop]; tame_all. Qed.
Lemma tame_count E v x : forall n, tame (count_loop E v x n). Proof. induction v; intros n; cbn [count_loop]; tame_all. Qed.
Lemma tame_first E v x : forall n, tame (first_index_loop E v x n). Proof. induction v; intros n; cbn [first_index_loop]; tame_all. Qed.
Lemma tame_indexes E v x : forall n acc, tame (all_indexes_loop E v x n acc). Proof. induction v; intros n acc; cbn [all_indexes_loop]; tame_all. Qed.
Lemma tame_str_at s i : tame (str_at s i). Proof. tame_all. Qed.
Lemma tame_substr s i j : tame (str_substr s i j). Proof. tame_all. Qed.
Lemma tame_substr_from s i : tame (str_substr_from s i). Proof. tame_all. Qed.
Global Hint Resolve tame_str_at tame_substr tame_substr_from tame_contains tame_count tame_first tame_indexes : tame.
Lemma tame_unquote s : tame (unquote s). Proof. tame_all. Qed.
Lemma tame_str_insert s i v : tame (str_insert s i v). Proof. tame_all. Qed.
Lemma tame_str_erase s i j : tame (str_erase s i j). Proof. tame_all. Qed.
Lemma tame_str_erase_from s i : tame (str_erase_from s i). Proof. tame_all. Qed.
Lemma tame_vec_at {A} (v : list A) i : tame (vec_at v i). Proof. tame_all. Qed.
Lemma tame_vec_set {A} (v : list A) i x : tame (vec_set v i x). Proof. tame_all. Qed.
Lemma tame_vec_insert {A} (v : list A) i x : tame (vec_insert v i x). Proof. tame_all. Qed.
Lemma tame_vec_erase_at {A} (v : list A) i : tame (vec_erase_at v i). Proof. tame_all. Qed.
Lemma tame_vec_erase_range {A} (v : list A) i j : tame (vec_erase_range v i j). Proof. tame_all. Qed.
Lemma tame_vec_range {A} (v : list A) i j : tame (vec_range v i j). Proof. tame_all. Qed.
Lemma tame_vec_pop_back {A} (v : list A) : tame (vec_pop_back v). Proof. tame_all. Qed.
Global Hint Resolve tame_unquote tame_str_insert tame_str_erase tame_str_erase_from tame_vec_at tame_vec_set tame_vec_insert tame_vec_erase_at
  tame_vec_erase_range tame_vec_range tame_vec_pop_back tame_le tame_ge : tame.
Lemma tame_boolean_of a : tame (boolean_of a). Proof. tame_all. Qed.
Lemma tame_character_of a : tame (character_of a). Proof. tame_all. Qed.
Lemma tame_float_of a : tame (float_of a). Proof. tame_all. Qed.
Lemma tame_string_of a : tame (string_of a). Proof. tame_all. Qed.
Global Hint Resolve tame_boolean_of tame_character_of tame_float_of tame_string_of : tame.

(** ** Numbers *)
Lemma number_ub a u : negb (is_integer_value a) && negb (is_float_value a) = false -> (let! d := number_of a in double_to_int d) = UB u -> out_of_range a.
Proof.
  intros L H. destruct (is_integer_value a) eqn:Ei.
  - apply is_integer_value_iff in Ei. apply integer_value_denotes in Ei as [d Hd]. left. exists d. split; [exact Hd|]. intros F.
    apply in_int_fits in F. assert (X := integer_of_int _ _ Hd). rewrite F in X. unfold integer_of in X. rewrite (int_literal _ _ Hd) in X.
    cbn [negb andb] in X. congruence.
  - cbn in L. apply negb_false_iff, is_float_value_iff in L. apply float_value_denotes in L as (neg & x & Hx).
    assert (N : ~ integer_value a) by (intros X; apply is_integer_value_iff in X; congruence).
    right. split; [exact N|]. exists neg, x, (atof a). split; [exact Hx|]. destruct (atof_rounds _ _ _ Hx) as [_ D]. split; [exact D|].
    rewrite (number_float _ N) in H. cbn [rbind] in H. destruct (double_to_int_cases (atof a)) as [(z & E & _)|[_ K]]; [congruence|exact K].
Qed.
Lemma integer_ub a u : integer_of a = UB u -> out_of_range a.
Proof. unfold integer_of. destruct (_ && _) eqn:E; [discriminate|]. apply number_ub. exact E. Qed.
Lemma get_ub t a u : get_shared_instance t a = UB u -> numeric u -> t = B "Integer" /\ out_of_range a.
Proof.
  unfold get_shared_instance. intros H N.
  assert (K : forall (A : Type) (r : res A) (f : A -> res obj), tame r -> (forall x, tame (f x)) -> rbind r f = UB u -> False).
  { intros A r f T1 T2 E. exact (tame_bind r f T1 T2 u E N). }
  destruct (seq_eqb t $"Boolean"); [exfalso; eapply K; [apply tame_boolean_of| |exact H]; intros; apply tame_ok|].
  destruct (seq_eqb t $"Character"); [exfalso; eapply K; [apply tame_character_of| |exact H]; intros; apply tame_ok|].
  destruct (seq_eqb t $"Integer") eqn:E.
  - apply seq_eqb_eq in E. split; [exact E|]. destruct (integer_of a) eqn:I; cbn in H; try discriminate H. eapply integer_ub; eauto.
  - destruct (seq_eqb t $"Float"); [exfalso; eapply K; [apply tame_float_of| |exact H]; intros; apply tame_ok|].
    destruct (seq_eqb t $"String"); [exfalso; eapply K; [apply tame_string_of| |exact H]; intros; apply tame_ok|].
    inversion H; subst. exfalso. destruct N as [N|[N|N]]; discriminate N.
Qed.

(** ** Operations *)
Definition mild {S A} (m : M S A) : Prop := forall s, tame (snd (m s)).
Lemma mild_ret {S A} (a : A) : @mild S A (ret a). Proof. intros s. apply tame_ok. Qed.
Lemma mild_get {S} : @mild S S get. Proof. intros s. apply tame_ok. Qed.
Lemma mild_put {S} (x : S) : mild (put x). Proof. intros s. apply tame_ok. Qed.
Lemma mild_throw {S A} e : @mild S A (throw e). Proof. intros s. apply tame_throw. Qed.
Lemma mild_throw_if {S} b e : @mild S unit (throw_if b e). Proof. destruct b; [apply mild_throw|apply mild_ret]. Qed.
Lemma mild_nargs {S} args n : @mild S unit (check_nargs args n). Proof. apply mild_throw_if. Qed.
Lemma mild_arg {S} args n : @mild S str (arg args n).
Proof. unfold arg. destruct (nth_error args n); [apply mild_ret|]. intros s. cbn. tame_ub. Qed.
Lemma mild_lift {S A} (r : res A) : tame r -> @mild S A (lift r). Proof. intros T s. exact T. Qed.
Lemma mild_bind {S A B} (m : M S A) (f : A -> M S B) : mild m -> (forall a, mild (f a)) -> mild (bind m f).
Proof.
  intros H1 H2 s. unfold bind. specialize (H1 s). destruct (m s) as [s' [a|e|u]]; cbn [snd] in *; [apply H2|apply tame_throw|].
  intros w E. inversion E; subst. now apply H1.
Qed.
Ltac mild1 := lazymatch goal with
  | |- mild (bind _ _) => apply mild_bind; [|intros ?]
  | |- mild (ret _) => apply mild_ret
  | |- mild (throw _) => apply mild_throw
  | |- mild (undefined _) => intros ?; cbn; tame_ub
  | |- mild (lift _) => apply mild_lift; tame_all
  | |- mild get => apply mild_get
  | |- mild (put _) => apply mild_put
  | |- mild (throw_if _ _) => apply mild_throw_if
  | |- mild (check_nargs _ _) => apply mild_nargs
  | |- mild (arg _ _) => apply mild_arg
  | |- mild (if ?b then _ else _) => destruct b
  | |- mild (match ?b with _ => _ end) => destruct b
  | |- mild (let _ := _ in _) => cbv zeta
  end.
Ltac mild_all := repeat first [mild1|assumption|solve [auto with tame]].

(** [numbers m l]: if [m] is undefined because of a number, one of the literals [l] is too large. *)
Definition numbers {S A} (m : M S A) (l : list (bytes * bytes)) : Prop := forall s u, snd (m s) = UB u -> numeric u -> undefined_reading l.
Lemma numbers_mild {S A} (m : M S A) l : mild m -> numbers m l.
Proof. intros H s u E N. exfalso. exact (H s u E N). Qed.
Lemma numbers_skip {S A B} (m : M S A) (f : A -> M S B) l : mild m -> (forall a, numbers (f a) l) -> numbers (bind m f) l.
Proof.
  intros H1 H2 s u E N. unfold bind in E. specialize (H1 s). destruct (m s) as [s' [a|e|w]]; cbn [snd] in *; [eapply H2; eauto|discriminate E|].
  inversion E; subst. exfalso. exact (H1 u eq_refl N).
Qed.
Lemma reading_cons p l : (exists x, literal_of (fst p) (snd p) x) -> undefined_reading l -> undefined_reading (p :: l).
Proof. intros X (b & a & c & -> & O & F). exists (p :: b), a, c. split; [reflexivity|]. split; [exact O|]. constructor; auto. Qed.
Lemma reading_here a l : out_of_range a -> undefined_reading ((B "Integer", a) :: l).
Proof. intros O. exists [], a, l. split; [reflexivity|]. split; [exact O|constructor]. Qed.
Lemma reading_never : ~ undefined_reading [].
Proof. intros (b & x & c & E & _). destruct b; discriminate E. Qed.
Lemma numbers_index {S A} (a : bytes) (f : Z -> M S A) l : (forall z, numbers (f z) l) -> numbers (bind (lift (integer_of a)) f) ((B "Integer", a) :: l).
Proof.
  intros H s u E N. unfold bind, lift in E. destruct (integer_of a) as [z|e|w] eqn:I; cbn [snd] in E.
  - apply reading_cons; [exists (OInt z); now apply get_index|]. eapply H; eauto.
  - discriminate E.
  - apply reading_here. eapply integer_ub; eauto.
Qed.
Lemma numbers_element {S A} t (a : bytes) (f : obj -> M S A) l : object_type t ->
  (forall x, get_shared_instance t a = Ok x -> numbers (f x) l) -> numbers (bind (lift (get_shared_instance t a)) f) ((t, a) :: l).
Proof.
  intros O H s u E N. unfold bind, lift in E. destruct (get_shared_instance t a) as [x|e|w] eqn:I; cbn [snd] in E.
  - apply reading_cons; [exists x; now apply get_literal|]. eapply H; eauto.
  - discriminate E.
  - inversion E; subst. destruct (get_ub _ _ _ I N) as [-> R]. now apply reading_here.
Qed.
Lemma numbers_text {S A} (a : bytes) (f : unit -> M S A) l : (is_string_value a = true -> numbers (f tt) l) ->
  numbers (bind (throw_if (negb (is_string_value a)) InvalidArgument) f) ((B "String", a) :: l).
Proof.
  intros H s u E N. unfold bind, throw_if in E. destruct (is_string_value a) eqn:I; cbn in E; [|discriminate E].
  apply reading_cons; [|eapply H; eauto]. destruct (string_no a) as [[v Hv]|X]; [|congruence]. exists (OStr v). now constructor.
Qed.
Lemma numbers_arg {S A} args i a (f : str -> M S A) l : nth_error args i = Some a -> numbers (f a) l -> numbers (bind (arg args i) f) l.
Proof. intros E H. unfold arg. rewrite E. exact H. Qed.
Lemma dispatch_ub {S} (table : list (str * (list str -> M S str))) m args s u : snd (dispatch table m args s) = UB u ->
  Exists (fun p => m = fst p /\ snd (snd p args s) = UB u) table.
Proof.
  induction table as [|[name op] table IH]; cbn; [discriminate|]. intros H. destruct (seq_eqb m name) eqn:E.
  - apply seq_eqb_eq in E. left. auto.
  - right. auto.
Qed.
(** The right number of arguments, or an error. *)
Lemma numbers_count {S A} n (args : list str) (f : unit -> M S A) s u : snd (bind (check_nargs args n) f s) = UB u ->
  length args = n /\ snd (f tt s) = UB u.
Proof.
  unfold bind, check_nargs, throw_if. destruct (Nat.eqb_spec (length args) n); cbn; [auto|discriminate].
Qed.

(** ** Classes *)
Ltac in_list := cbn [In]; repeat first [left; reflexivity|right].
(** Undefined because of a number, for an operation that reads nothing but harmless literals. *)
Ltac harmless H N := exfalso; revert N; refine (_ : ~ numeric _);
  match type of H with snd (?m ?s) = UB ?u => assert (T : mild m) by (mild_all); exact (T s u H) end.
Lemma boolean_numbers m args s u : snd (boolean_receive m args s) = UB u -> numeric u -> False.
Proof.
  intros H N. unfold boolean_receive in H. apply dispatch_ub in H.
  repeat (apply Exists_cons in H as [[E H]|H]; [cbn [fst snd] in E, H; unfold boolean_get, boolean_set, boolean_isTrue, boolean_isFalse in H; harmless H N|]).
  inversion H.
Qed.
Lemma character_numbers E m args s u : snd (character_receive E m args s) = UB u -> numeric u -> False.
Proof.
  intros H N. unfold character_receive in H. apply dispatch_ub in H.
  repeat (apply Exists_cons in H as [[Em H]|H]; [cbn [fst snd] in Em, H; unfold character_get, character_set, character_test, character_compare in H; harmless H N|]).
  inversion H.
Qed.
Lemma float_numbers E m args s u : snd (float_receive E m args s) = UB u -> numeric u -> False.
Proof.
  intros H N. unfold float_receive in H. apply dispatch_ub in H.
  repeat (apply Exists_cons in H as [[Em H]|H]; [cbn [fst snd] in Em, H; unfold float_get, float_set, float_compare, float_arith in H; harmless H N|]).
  inversion H.
Qed.

(** Skip to the first literal that is read. *)
Ltac skip1 := lazymatch goal with
  | |- numbers (bind (check_nargs _ _) _) _ => apply numbers_skip; [apply mild_nargs|intros _]
  | |- numbers (bind (arg _ _) _) _ => eapply numbers_arg; [reflexivity|]
  | |- numbers (bind (ret ?x) ?f) ?l => change (numbers (f x) l); cbv beta
  | |- numbers (bind (lift (integer_of _)) _) _ => apply numbers_index; intros ?
  | |- numbers (bind (lift (get_shared_instance _ _)) _) _ => apply numbers_element; [assumption|intros ? ?]
  | |- numbers (bind (throw_if (negb (is_string_value _)) _) _) ((B "String", _) :: _) => apply numbers_text; intros _
  | |- numbers _ [] => apply numbers_mild; mild_all
  end.
Ltac args_of H n :=
  match type of H with snd (bind (check_nargs ?args n) _ _) = UB _ =>
    let L := fresh "L" in let H' := fresh in assert (L := proj1 (numbers_count n args _ _ _ H)) end.
Lemma string_numbers E m args v u : snd (string_receive E m args v) = UB u -> numeric u ->
  exists l, reads_value (IObj (OStr v)) m args l /\ undefined_reading l.
Proof.
  intros H N. unfold string_receive in H. apply dispatch_ub in H.
  repeat (apply Exists_cons in H as [[Em H]|H]; [cbn [fst snd] in Em, H; subst m;
    first [ solve [unfold string_get, string_set, string_isEmpty, string_affix, string_compare, string_length, string_pushBack, string_pushFront,
                   string_popBack, string_popFront, string_concatenate, string_clear in H; harmless H N]
          | assert (L := proj1 (numbers_count _ args _ _ _ H)); destruct args as [|a [|b [|w [|]]]]; try discriminate L; clear L;
            [eexists; split; [first [apply reads_string_index; in_list; fail|apply reads_string_indexes; in_list; fail|apply reads_string_insert]|];
             refine ((_ : numbers _ _) v u H N); unfold string_atIndex, string_first, string_last, string_substringFromIndex,
               string_substringFromIndex_toIndex, string_popAtIndex, string_insert_beforeIndex, string_eraseFromIndex, string_eraseFromIndex_toIndex;
             repeat skip1] ] |]).
  inversion H.
Qed.

Lemma mild_remove E x fuel : forall i, mild (remove_all_loop E fuel i x).
Proof.
  induction fuel as [|f IH]; intros i; cbn [remove_all_loop]; mild_all.
Qed.
Lemma mild_replace E et w z fuel : get_shared_instance et w = Ok z -> forall once i x, mild (replace_loop E et fuel once i x w).
Proof.
  intros G. induction fuel as [|f IH]; intros once i x; cbn [replace_loop].
  - mild_all.
  - rewrite G. mild_all; apply IH.
Qed.
Global Hint Resolve mild_remove : tame.
Global Hint Extern 1 (mild (replace_loop _ _ _ _ _ _ _)) => eapply mild_replace; eassumption : tame.
Lemma vector_numbers E t m args v u : object_type t -> snd (vector_receive E t m args v) = UB u -> numeric u ->
  (m = B "sort" /\ args = []) \/ exists l, reads_value (IVector t v) m args l /\ undefined_reading l.
Proof.
  intros O H N. unfold vector_receive in H. apply dispatch_ub in H.
  repeat (apply Exists_cons in H as [[Em H]|H]; [cbn [fst snd] in Em, H; subst m;
    first [ solve [unfold vector_get, vector_isEmpty, vector_size, vector_popBack, vector_popFront, vector_reverse, vector_clear in H; harmless H N]
          | solve [left; split; [reflexivity|]; assert (L := proj1 (numbers_count _ args _ _ _ H)); destruct args; [reflexivity|discriminate L]]
          | assert (L := proj1 (numbers_count _ args _ _ _ H)); destruct args as [|a [|b [|w [|]]]]; try discriminate L; clear L;
            [right; eexists; split; [first [apply reads_vector_index; in_list; fail|apply reads_vector_indexes; in_list; fail|apply reads_vector_element; in_list; fail
                              |apply reads_vector_element_index; in_list; fail|apply reads_vector_elements; in_list; fail|apply reads_vector_replace]|];
             refine ((_ : numbers _ _) v u H N); unfold vector_contains, vector_contains_fromIndex, vector_count, vector_atIndex, vector_firstIndexOf,
               vector_firstIndexOf_fromIndex, vector_allIndexesOf, vector_first, vector_last, vector_sliceFromIndex, vector_sliceFromIndex_toIndex,
               vector_pushBack, vector_pushFront, vector_popAtIndex, vector_insert_beforeIndex, vector_eraseFromIndex, vector_eraseFromIndex_toIndex,
               vector_removeFirst, vector_removeFirst_fromIndex, vector_removeAll, vector_replaceFirst_with, vector_replaceFirst_fromIndex_with,
               vector_replaceAll_with;
             repeat skip1] ] |]).
  inversion H.
Qed.
(** Sets and dictionaries: a literal is too large, or all are read. *)
Definition all_read (l : list (bytes * bytes)) : Prop := Forall (fun p => exists x, literal_of (fst p) (snd p) x) l.
Definition reads_on {S A} (m : M S A) (l : list (bytes * bytes)) : Prop := forall s u, snd (m s) = UB u -> numeric u -> undefined_reading l \/ all_read l.
Lemma reads_on_end {S A} (m : M S A) : reads_on m []. Proof. intros s u H N. right. constructor. Qed.
Lemma reads_on_nargs {S A} args n (f : unit -> M S A) l : reads_on (f tt) l -> reads_on (bind (check_nargs args n) f) l.
Proof. intros H s u E N. destruct (numbers_count _ _ _ _ _ E) as [_ E']. eapply H; eauto. Qed.
Lemma reads_on_arg {S A} args i a (f : str -> M S A) l : nth_error args i = Some a -> reads_on (f a) l -> reads_on (bind (arg args i) f) l.
Proof. intros E H. unfold arg. rewrite E. exact H. Qed.
Lemma reads_on_element {S A} t (a : bytes) (f : obj -> M S A) l : object_type t ->
  (forall x, reads_on (f x) l) -> reads_on (bind (lift (get_shared_instance t a)) f) ((t, a) :: l).
Proof.
  intros O H s u E N. unfold bind, lift in E. destruct (get_shared_instance t a) as [x|e|w] eqn:I; cbn [snd] in E.
  - assert (X : exists y, literal_of (fst (t, a)) (snd (t, a)) y) by (exists x; now apply get_literal).
    destruct (H x s u E N) as [R|R]; [left; now apply reading_cons|right; now constructor].
  - discriminate E.
  - inversion E; subst. destruct (get_ub _ _ _ I N) as [-> R]. left. now apply reading_here.
Qed.
Ltac read1 := lazymatch goal with
  | |- reads_on _ [] => apply reads_on_end
  | |- reads_on (bind (check_nargs _ _) _) _ => apply reads_on_nargs
  | |- reads_on (bind (arg _ _) _) _ => eapply reads_on_arg; [reflexivity|]
  | |- reads_on (bind (lift (get_shared_instance _ _)) _) _ => apply reads_on_element; [assumption|intros ?]
  end.
Lemma set_numbers E t m args v u : object_type t -> snd (set_receive E t m args v) = UB u -> numeric u ->
  exists l, reads_value (ISet t v) m args l /\ (undefined_reading l \/ all_read l).
Proof.
  intros O H N. unfold set_receive in H. apply dispatch_ub in H.
  repeat (apply Exists_cons in H as [[Em H]|H]; [cbn [fst snd] in Em, H; subst m;
    first [ solve [unfold set_get, set_isEmpty, set_size, set_clear in H; harmless H N]
          | assert (L := proj1 (numbers_count _ args _ _ _ H)); destruct args as [|a [|b [|w [|]]]]; try discriminate L; clear L;
            [eexists; split; [apply reads_set_element; unfold set_lookups; in_list; fail|];
             refine ((_ : reads_on _ _) v u H N); unfold set_contains, set_add, set_remove; repeat read1] ] |]).
  inversion H.
Qed.
Lemma dict_numbers E kt vt m args d u : object_type kt -> object_type vt -> snd (dict_receive E kt vt m args d) = UB u -> numeric u ->
  exists l, reads_value (IDict kt vt d) m args l /\ (undefined_reading l \/ all_read l).
Proof.
  intros O O' H N. unfold dict_receive in H. apply dispatch_ub in H.
  repeat (apply Exists_cons in H as [[Em H]|H]; [cbn [fst snd] in Em, H; subst m;
    first [ solve [unfold dict_get, dict_isEmpty, dict_size, dict_keys, dict_values, dict_clear in H; harmless H N]
          | assert (L := proj1 (numbers_count _ args _ _ _ H)); destruct args as [|a [|b [|w [|]]]]; try discriminate L; clear L;
            [eexists; split; [first [apply reads_dictionary_key; unfold dictionary_lookups; in_list; fail|apply reads_association]|];
             refine ((_ : reads_on _ _) d u H N); unfold dict_containsKey, dict_getValueForKey, dict_removeKey, dict_associateValue_withKey; repeat read1] ] |]).
  inversion H.
Qed.

(** Integers: set:, a comparison with a literal that is too large, or arithmetic with a number. *)
Lemma integer_numbers E m args z u : snd (integer_receive E m args z) = UB u -> numeric u ->
  (exists l, reads_value (IObj (OInt z)) m args l /\ undefined_reading l) \/
  (exists a d, args = [a] /\ In m integer_comparisons /\ denotes_int a d /\ ~ fits d) \/
  (exists o a, m = message_of o /\ args = [a] /\ (integer_value a \/ float_value a)).
Proof.
  intros H N. unfold integer_receive in H. apply dispatch_ub in H.
  apply Exists_cons in H as [[Em H]|H]; [cbn [fst snd] in Em, H; unfold integer_get in H; harmless H N|].
  apply Exists_cons in H as [[Em H]|H]; [cbn [fst snd] in Em, H; subst m|].
  { left. destruct (numbers_count _ args _ _ _ H) as [L H']. destruct args as [|a [|]]; try discriminate L. eexists. split; [apply reads_set_integer|].
    apply reading_here. cbn [arg nth_error] in H'. unfold bind at 1, ret at 1, throw_if, throw in H'.
    destruct (negb (is_integer_value a) && negb (is_float_value a)) eqn:K; [discriminate H'|].
    unfold bind, ret, lift in H'. destruct (let! d := number_of a in double_to_int d) eqn:X; try discriminate H'. eapply number_ub; eauto. }
  assert (C : forall cmp, (forall x y, tame (cmp x y)) -> In m integer_comparisons -> snd (integer_compare cmp args z) = UB u ->
    exists a d, args = [a] /\ In m integer_comparisons /\ denotes_int a d /\ ~ fits d).
  { intros cmp T I H'. destruct (numbers_count _ args _ _ _ H') as [L H2]. destruct args as [|a [|]]; try discriminate L.
    cbn [arg nth_error] in H2. unfold bind at 1, ret at 1, throw_if, throw in H2.
    destruct (negb (is_integer_value a) && negb (is_float_value a)) eqn:K; [discriminate H2|].
    unfold bind, ret, lift, get in H2. cbn [snd fst] in H2. destruct (is_integer_value a) eqn:Ei.
    - apply is_integer_value_iff, integer_value_denotes in Ei as [d Hd]. exists a, d. repeat split; auto. intros F. apply in_int_fits in F.
      rewrite (integer_of_int _ _ Hd), F in H2. cbn [rbind] in H2. destruct (cmp (OInt z) (OInt d)) eqn:X; try discriminate H2.
      cbn in H2. inversion H2; subst. exact (T _ _ _ X N).
    - exfalso. destruct (let! o := float_of a in cmp (OInt z) (OFloat o)) eqn:X; try discriminate H2. cbn in H2. inversion H2; subst.
      refine (tame_bind _ _ (tame_float_of a) _ _ X N). intros x. apply T. }
  assert (A : forall o op, m = message_of o -> snd (integer_arith op args z) = UB u ->
    exists o a, m = message_of o /\ args = [a] /\ (integer_value a \/ float_value a)).
  { intros o op I H'. destruct (numbers_count _ args _ _ _ H') as [L H2]. destruct args as [|a [|]]; try discriminate L.
    cbn [arg nth_error] in H2. unfold bind at 1, ret at 1, throw_if, throw in H2.
    destruct (negb (is_integer_value a) && negb (is_float_value a)) eqn:K; [discriminate H2|]. exists o, a. repeat split; auto.
    apply andb_false_iff in K as [K|K]; apply negb_false_iff in K; [left; now apply is_integer_value_iff|right; now apply is_float_value_iff]. }
  do 5 (apply Exists_cons in H as [[Em H]|H]; [cbn [fst snd] in Em, H; right; left; eapply C;
    [|rewrite Em; unfold integer_comparisons; in_list|exact H]; intros; auto with tame|]).
  apply Exists_cons in H as [[Em H]|H]; [cbn [fst snd] in Em, H; right; right; eapply (A Add); [exact Em|exact H]|].
  apply Exists_cons in H as [[Em H]|H]; [cbn [fst snd] in Em, H; right; right; eapply (A Subtract); [exact Em|exact H]|].
  apply Exists_cons in H as [[Em H]|H]; [cbn [fst snd] in Em, H; right; right; eapply (A Multiply); [exact Em|exact H]|].
  apply Exists_cons in H as [[Em H]|H]; [cbn [fst snd] in Em, H; right; right; eapply (A Divide); [exact Em|exact H]|].
  inversion H.
Qed.

(** The Context reads an Integer for the precision only. *)
Lemma context_numbers m args c u : snd (execute_in_context {| p_actor := B "Context"; p_message := m; p_args := args |} c) = UB u -> numeric u ->
  exists a, m = B "setFloatPrecision:" /\ args = [a] /\ out_of_range a.
Proof.
  intros H N. unfold execute_in_context in H. cbn [p_message p_args] in H. apply dispatch_ub in H.
  repeat (apply Exists_cons in H as [[Em H]|H]; [cbn [fst snd] in Em, H; subst m;
    first [ solve [unfold op_listNamespaces, op_listVariables, op_listVariablesOfNamespace, op_deleteVariable, op_deleteVariablesOfNamespace,
                     op_getFloatPrecision, op_getFloatComparisonTolerance, op_setFloatComparisonTolerance in H; harmless H N]
          | destruct (numbers_count _ args _ _ _ H) as [L H2]; destruct args as [|a [|]]; try discriminate L; exists a; split; [reflexivity|]; split; [reflexivity|];
            cbn [arg nth_error] in H2; unfold bind at 1, ret at 1 in H2; unfold bind at 1, lift in H2; destruct (integer_of a) eqn:I;
            [exfalso; unfold bind, throw_if, throw, get, put, ret in H2; destruct (_ <=? 0); discriminate H2|discriminate H2|eapply integer_ub; eauto] ] |]).
  inversion H.
Qed.
Lemma session_numbers pw m args s u : snd (session_receive pw m args s) = UB u -> ~ numeric u.
Proof.
  intros H N. unfold session_receive in H. apply dispatch_ub in H.
  repeat (apply Exists_cons in H as [[Em H]|H]; [cbn [fst snd] in Em, H; unfold session_close, session_authenticate in H; harmless H N|]).
  inversion H.
Qed.
