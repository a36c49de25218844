(** Weakest preconditions for the state + exception monad of [Outcome]. *)
From Verif Require Import Bytes Outcome Instance.
Open Scope Z_scope.

Definition wp {S A : Type} (m : M S A) (s : S) (Q : S -> res A -> Prop) : Prop := Q (fst (m s)) (snd (m s)).
Lemma wp_bind {S A B} (m : M S A) (f : A -> M S B) s (Q : S -> res B -> Prop) :
  wp m s (fun s' r => match r with Ok a => wp (f a) s' Q | Throw e => Q s' (Throw e) | UB u => Q s' (UB u) end) ->
  wp (bind m f) s Q.
Proof. unfold wp, bind. destruct (m s) as [s' [a|e|u]]; auto. Qed.
Lemma wp_ret {S A} (a : A) (s : S) (Q : S -> res A -> Prop) : Q s (Ok a) -> wp (ret a) s Q.
Proof. auto. Qed.
Lemma wp_get {S} (s : S) (Q : S -> res S -> Prop) : Q s (Ok s) -> wp get s Q.
Proof. auto. Qed.
Lemma wp_put {S} (s t : S) (Q : S -> res unit -> Prop) : Q t (Ok tt) -> wp (put t) s Q.
Proof. auto. Qed.
Lemma wp_lift {S A} (r : res A) (s : S) (Q : S -> res A -> Prop) : (forall x, r = x -> Q s x) -> wp (lift r) s Q.
Proof. unfold wp, lift. auto. Qed.
Lemma wp_throw {S A} e (s : S) (Q : S -> res A -> Prop) : Q s (Throw e) -> wp (throw e) s Q.
Proof. auto. Qed.
Lemma wp_undefined {S A} u (s : S) (Q : S -> res A -> Prop) : Q s (UB u) -> wp (undefined u) s Q.
Proof. auto. Qed.
Lemma wp_throw_if {S} b e (s : S) (Q : S -> res unit -> Prop) :
  (b = true -> Q s (Throw e)) -> (b = false -> Q s (Ok tt)) -> wp (throw_if b e) s Q.
Proof. unfold throw_if. intros H1 H2. destruct b; [apply H1|apply H2]; reflexivity. Qed.
Lemma wp_check_nargs {S} args n (s : S) (Q : S -> res unit -> Prop) :
  (length args <> n -> Q s (Throw WrongNumberOfArguments)) -> (length args = n -> Q s (Ok tt)) -> wp (check_nargs args n) s Q.
Proof.
  intros H1 H2. unfold check_nargs. apply wp_throw_if; intros H; [apply negb_true_iff in H|apply negb_false_iff in H].
  - apply H1. now apply Nat.eqb_neq.
  - apply H2. now apply Nat.eqb_eq.
Qed.
Lemma wp_arg {S} args i (s : S) (Q : S -> res str -> Prop) :
  (i < length args)%nat -> (forall a, nth_error args i = Some a -> In a args -> Q s (Ok a)) -> wp (arg args i) s Q.
Proof.
  intros H1 H2. unfold arg. destruct (nth_error args i) as [a|] eqn:E.
  - apply H2; auto. eapply nth_error_In; eauto.
  - apply nth_error_None in E. lia.
Qed.
Lemma wp_consequence {S A} (m : M S A) s (Q Q' : S -> res A -> Prop) : wp m s Q -> (forall s' r, Q s' r -> Q' s' r) -> wp m s Q'.
Proof. unfold wp. auto. Qed.

Ltac wp_step :=
  lazymatch goal with
  | |- wp (bind _ _) _ _ => apply wp_bind
  | |- wp (ret _) _ _ => apply wp_ret
  | |- wp get _ _ => apply wp_get
  | |- wp (put _) _ _ => apply wp_put
  | |- wp (throw _) _ _ => apply wp_throw
  | |- wp (undefined _) _ _ => apply wp_undefined
  | |- wp (throw_if _ _) _ _ => apply wp_throw_if; intros ?
  | |- wp (check_nargs _ _) _ _ => apply wp_check_nargs; intros ?
  | |- wp (arg _ _) _ _ => apply wp_arg; [lia | intros ? ? ?]
  | |- wp (lift _) _ _ => apply wp_lift; intros [?|?|?] ?
  | |- wp (if ?b then _ else _) _ _ => destruct b eqn:?
  | |- wp (match ?x with _ => _ end) _ _ => destruct x eqn:?
  end; cbv beta iota zeta.
