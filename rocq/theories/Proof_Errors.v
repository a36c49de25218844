(** Lemmas for C67: how operations count their arguments. *)
From Coq Require Import ZArith Lia.
From Verif Require Import Bytes StrUtils Grammar Outcome Parser Num Containers Instance Context.
From Verif Require Import Lemmas Proof_Names Proof_Manual.
From Verif Require Import Spec_Grammar Spec_State Spec_Names Spec_Text Spec_Manual.
Open Scope Z_scope.
Open Scope list_scope.

Definition calm {A} (r : res A) : Prop := r <> Throw WrongNumberOfArguments.
Definition quiet {S A} (m : M S A) : Prop := forall s, calm (snd (m s)).
Lemma calm_ok {A} (a : A) : calm (Ok a). Proof. discriminate. Qed.
Lemma calm_ub {A} u : calm (@UB A u). Proof. discriminate. Qed.
Lemma calm_bind {A B} (m : res A) (f : A -> res B) : calm m -> (forall a, calm (f a)) -> calm (rbind m f).
Proof. unfold calm. destruct m; cbn; intros H1 H2; auto; congruence. Qed.
Ltac calm1 := lazymatch goal with
  | |- calm (rbind _ _) => apply calm_bind; [|intros ?]
  | |- calm (Ok _) => apply calm_ok
  | |- calm (UB _) => apply calm_ub
  | |- calm (Throw _) => discriminate
  | |- calm (if ?b then _ else _) => destruct b
  | |- calm (match ?b with _ => _ end) => destruct b
  | |- calm (let _ := _ in _) => cbv zeta
  end.
Ltac calm_all := repeat first [calm1|assumption|solve [auto with calm]|lazymatch goal with |- calm ?t => let f := head t in unfold f; cbv zeta end].
Lemma calm_integer_of a : calm (integer_of a). Proof. calm_all. Qed.
Lemma calm_float_of a : calm (float_of a). Proof. calm_all. Qed.
Lemma calm_unquote a : calm (unquote a). Proof. calm_all. Qed.
Lemma calm_equal eps x y : calm (is_equal_to eps x y). Proof. calm_all. Qed.
Create HintDb calm.
Global Hint Resolve calm_integer_of calm_float_of calm_unquote calm_equal : calm.
Lemma calm_get t a : calm (get_shared_instance t a). Proof. calm_all. Qed.
Lemma calm_contains E v x : calm (contains_loop E v x). Proof. induction v; cbn [contains_loop]; calm_all. Qed.
Lemma calm_count E v x : forall n, calm (count_loop E v x n). Proof. induction v; intros n; cbn [count_loop]; calm_all. Qed.
Lemma calm_first E v x : forall n, calm (first_index_loop E v x n). Proof. induction v; intros n; cbn [first_index_loop]; calm_all. Qed.
Lemma calm_indexes E v x : forall n acc, calm (all_indexes_loop E v x n acc). Proof. induction v; intros n acc; cbn [all_indexes_loop]; calm_all. Qed.
Global Hint Resolve calm_get calm_contains calm_count calm_first calm_indexes : calm.

Lemma quiet_ret {S A} (a : A) : @quiet S A (ret a). Proof. intros s. apply calm_ok. Qed.
Lemma quiet_undefined {S A} u : @quiet S A (undefined u). Proof. intros s. apply calm_ub. Qed.
Lemma quiet_lift {S A} (r : res A) : calm r -> @quiet S A (lift r). Proof. now intros H s. Qed.
Lemma quiet_get {S} : @quiet S S get. Proof. intros s. apply calm_ok. Qed.
Lemma quiet_put {S} (x : S) : @quiet S unit (put x). Proof. intros s. apply calm_ok. Qed.
Lemma quiet_throw {S A} e : e <> WrongNumberOfArguments -> @quiet S A (throw e). Proof. intros H s X. inversion X. contradiction. Qed.
Lemma quiet_throw_if {S} b e : e <> WrongNumberOfArguments -> @quiet S unit (throw_if b e).
Proof. intros H. destruct b; [now apply quiet_throw|apply quiet_ret]. Qed.
Lemma quiet_arg {S} args i : @quiet S str (arg args i).
Proof. intros s. unfold arg. destruct (nth_error args i); discriminate. Qed.
Lemma quiet_bind {S A B} (m : M S A) (f : A -> M S B) : quiet m -> (forall a, quiet (f a)) -> quiet (bind m f).
Proof.
  intros H1 H2 s. unfold bind. specialize (H1 s). destruct (m s) as [s' [a|e|u]]; cbn [snd] in *; [apply H2| |discriminate].
  unfold calm in *. congruence.
Qed.
Ltac quiet1 := lazymatch goal with
  | |- quiet (bind _ _) => apply quiet_bind; [|intros ?]
  | |- quiet (ret _) => apply quiet_ret
  | |- quiet (throw _) => apply quiet_throw; discriminate
  | |- quiet (undefined _) => apply quiet_undefined
  | |- quiet (lift _) => apply quiet_lift
  | |- quiet get => apply quiet_get
  | |- quiet (put _) => apply quiet_put
  | |- quiet (throw_if _ _) => apply quiet_throw_if; discriminate
  | |- quiet (arg _ _) => apply quiet_arg
  | |- quiet (if ?b then _ else _) => destruct b
  | |- quiet (match ?b with _ => _ end) => destruct b
  | |- quiet (let _ := _ in _) => cbv zeta
  | |- calm _ => progress calm_all
  end.
Ltac quiet_all := repeat first [quiet1|assumption|solve [auto with calm]|lazymatch goal with |- quiet ?t => let f := head t in unfold f; cbv zeta end].
Lemma quiet_remove_all E n : forall i x, quiet (remove_all_loop E n i x).
Proof. induction n; intros i x; cbn [remove_all_loop]; quiet_all; auto. Qed.
Lemma quiet_replace E t n : forall once i x w, quiet (replace_loop E t n once i x w).
Proof. induction n; intros once i x w; cbn [replace_loop]; quiet_all; auto. Qed.
Global Hint Resolve quiet_remove_all quiet_replace : calm.
(** An operation that takes [k] arguments. *)
Definition counts {S} (k : nat) (args : list str) (op : M S str) : Prop :=
  (length args <> k -> forall s, snd (op s) = Throw WrongNumberOfArguments) /\ (length args = k -> quiet op).
Lemma counts_check {S} k args (f : M S str) : quiet f -> counts k args (check_nargs args k ;;; f).
Proof.
  intros H. split; intros L.
  - intros s. unfold bind, check_nargs, throw_if. apply Nat.eqb_neq in L. rewrite L. reflexivity.
  - intros s. unfold bind, check_nargs, throw_if. apply Nat.eqb_eq in L. rewrite L. apply H.
Qed.
Definition counted {S} (cls : bytes) (args : list str) (table : list (str * (list str -> M S str))) : Prop :=
  Forall (fun q => exists takes gives, look Method cls (fst q) = Some (takes, gives) /\ counts (length takes) args (snd q args)) table.
Lemma dispatch_counts {S} cls m args (table : list (str * (list str -> M S str))) takes gives : counted cls args table -> look Method cls m = Some (takes, gives) ->
  covered Method cls table = true -> counts (length takes) args (dispatch table m args).
Proof.
  intros H L C. assert (X : existsb (fun q => seq_eqb m (fst q)) table = true).
  { destruct (existsb _ table) eqn:E; [reflexivity|]. rewrite (covered_look _ _ _ _ C E) in L. discriminate L. }
  clear C. induction H as [|[name op] table (tk & gv & L' & K) Ht IH]; [discriminate X|]. cbn [dispatch existsb fst snd] in *.
  destruct (seq_eqb m name) eqn:E; [|now apply IH]. apply seq_eqb_eq in E. subst name. rewrite L in L'. injection L' as <- <-. exact K.
Qed.
Ltac head_unfold := lazymatch goal with |- counts _ _ ?t => let f := head t in unfold f; cbv beta zeta end.
Ltac count_op := eexists; eexists; split; [vm_compute; reflexivity|]; cbn [length]; head_unfold; apply counts_check; quiet_all.
Ltac count_table := unfold counted; repeat apply Forall_cons; try apply Forall_nil; cbn [fst snd]; count_op.
Lemma boolean_counts args m takes gives : look Method (B "Boolean") m = Some (takes, gives) -> counts (length takes) args (boolean_receive m args).
Proof. intros L. unfold boolean_receive. eapply dispatch_counts; [|exact L|vm_compute; reflexivity]. count_table. Qed.
Lemma character_counts E args m takes gives : look Method (B "Character") m = Some (takes, gives) -> counts (length takes) args (character_receive E m args).
Proof. intros L. unfold character_receive. eapply dispatch_counts; [|exact L|vm_compute; reflexivity]. count_table. Qed.
Lemma integer_counts E args m takes gives : look Method (B "Integer") m = Some (takes, gives) -> counts (length takes) args (integer_receive E m args).
Proof. intros L. unfold integer_receive. eapply dispatch_counts; [|exact L|vm_compute; reflexivity]. count_table. Qed.
Lemma float_counts E args m takes gives : look Method (B "Float") m = Some (takes, gives) -> counts (length takes) args (float_receive E m args).
Proof. intros L. unfold float_receive. eapply dispatch_counts; [|exact L|vm_compute; reflexivity]. count_table. Qed.
Lemma string_counts E args m takes gives : look Method (B "String") m = Some (takes, gives) -> counts (length takes) args (string_receive E m args).
Proof. intros L. unfold string_receive. eapply dispatch_counts; [|exact L|vm_compute; reflexivity]. count_table. Qed.
Lemma vector_counts E t args m takes gives : look Method (B "Vector") m = Some (takes, gives) -> counts (length takes) args (vector_receive E t m args).
Proof. intros L. unfold vector_receive. eapply dispatch_counts; [|exact L|vm_compute; reflexivity]. count_table. Qed.
Lemma set_counts E t args m takes gives : look Method (B "Set") m = Some (takes, gives) -> counts (length takes) args (set_receive E t m args).
Proof. intros L. unfold set_receive. eapply dispatch_counts; [|exact L|vm_compute; reflexivity]. count_table. Qed.
Lemma dict_counts E k v args m takes gives : look Method (B "Dictionary") m = Some (takes, gives) -> counts (length takes) args (dict_receive E k v m args).
Proof. intros L. unfold dict_receive. eapply dispatch_counts; [|exact L|vm_compute; reflexivity]. count_table. Qed.
