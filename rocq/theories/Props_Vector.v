(** Properties C18, C19: vectors as sequences.  Specification: [Spec_Vector]; model: [Containers], [Instance]. *)
From Coq Require Import ZArith Reals Psatz Sorting.Sorted Sorting.Permutation.
From Verif Require Import Bytes StrUtils Grammar Outcome Parser Num Containers Instance Context Platform.
From Verif Require Import Lemmas StringLit Proof_Grammar Proof_Parser Proof_Exec WP Proof_Inv Proof_Literal Proof_Receive Proof_Context Proof_Names Api Proof_Text.
From Verif Require Import Proof_Number Proof_Float Proof_Arith Proof_Order Props_Text Props_State Props_Number Props_Float Props_Order Proof_Vector.
From Verif Require Import Spec_Grammar Spec_State Spec_Names Spec_Text Spec_Number Spec_Float Spec_Order Spec_Vector.
Open Scope Z_scope.
Open Scope list_scope.

Lemma vector_message E t v m args : receive E (IVector t v) m args = on (IVector t) (vector_receive E t m args v).
Proof. reflexivity. Qed.
Lemma refusal_text k args : text_of (Throw (A := str) (if Nat.eqb (length args) k then InvalidArgument else WrongNumberOfArguments)) = refusal k args.
Proof. unfold refusal. now destruct (Nat.eqb _ _). Qed.

Lemma out_of_range_ub a : out_of_range a -> exists u, integer_of a = UB u.
Proof.
  intros Ha. destruct Ha as [(d & Hd & Hf)|(Hi & neg & x & d & Hx & Hd & Hr)].
  - exists AtoiRange. rewrite (integer_of_int _ _ Hd). destruct (in_int d) eqn:Ed; auto. apply in_int_fits in Ed. tauto.
  - exists IntConversion. unfold integer_of. rewrite (float_literal _ _ _ Hx), (not_int_literal _ Hi), (number_float _ Hi). cbn [negb andb rbind].
    destruct (double_to_int_cases (atof a)) as [(z & _ & X)|[-> _]]; auto. exfalso. apply (Hr z).
    destruct (atof_rounds _ _ _ Hx) as [_ [A1 A2]]. destruct Hd as [D1 D2]. destruct X as (F & Xz & Xf).
    destruct (Rlt_or_le (Rabs (rounded 53 1024 x)) (powerRZ 2 1024)) as [L|L].
    + destruct (A1 L) as (_ & Ev & _), (D1 L) as (Fd & Dv & _). split; auto. split; auto. now rewrite Xz, Ev, Dv.
    + rewrite (A2 L) in F. contradiction.
Qed.

(** ** C18 *)
Theorem C18_effect : forall srt pw c s line n m args t v v' ans, sort_contract srt -> reachable srt pw c ->
  statement line n m args -> lookup c n = Some (IVector t v) -> seq_effect (float_precision c) t m args v v' ans ->
  becomes srt pw c s line n ans (IVector t v').
Proof.
  intros srt pw c s line n m args t v v' ans H1 H2 Hs Hl He.
  apply (var_becomes srt pw c s line n _ _ _ H1 H2 Hs Hl _ (Ok ans)); [|exact (fun x => x)].
  rewrite vector_message, (seq_forward (env_of srt c) t m args v v' ans He). reflexivity.
Qed.
Theorem C18_otherwise_refused : forall srt pw c s line n m k indexes args t v, sort_contract srt -> reachable srt pw c ->
  statement line n m args -> lookup c n = Some (IVector t v) -> In (m, k, indexes) seq_messages -> in_range t indexes args ->
  (forall v' ans, ~ seq_effect (float_precision c) t m args v v' ans) -> only_answers srt pw c s line (refusal k args).
Proof.
  intros srt pw c s line n m k idx args t v H1 H2 Hs Hl Hm Hr Hn. destruct (vector_good _ _ _ _ _ _ H1 H2 Hl) as (Ho & _).
  destruct (seq_otherwise (env_of srt c) t Ho m k idx args v Hm Hr) as [(v' & ans & X)|X]; [exfalso; eapply Hn; eauto|].
  rewrite <- refusal_text. apply (var_answers srt pw c s line n _ _ _ H1 H2 Hs Hl); [|exact (fun x => x)].
  rewrite vector_message, X. reflexivity.
Qed.
(** The effect of a message is determined by the sequence and the arguments. *)
Theorem C18_effect_unique : forall precision t m args v v1 ans1 v2 ans2,
  seq_effect precision t m args v v1 ans1 -> seq_effect precision t m args v v2 ans2 -> v1 = v2 /\ ans1 = ans2.
Proof.
  intros p t m args v v1 a1 v2 a2 X1 X2. pose (E := {| e_precision := p; e_tolerance := S754_nan; e_sort := insertion_sort |}).
  apply (seq_forward E) in X1, X2. rewrite X1 in X2. now inversion X2.
Qed.
(** Indexes beyond 32 bits: the server's integer conversion is undefined. *)
Theorem C18_index_beyond_32_bits : forall srt pw c s line n m a t v, sort_contract srt -> reachable srt pw c ->
  statement line n m [a] -> lookup c n = Some (IVector t v) -> In (m, 1%nat, [0%nat]) seq_messages -> out_of_range a ->
  exists u, undefined_behaviour srt pw c s line u.
Proof.
  intros srt pw c s line n m a t v H1 H2 Hs Hl Hm Ha.
  assert (U := out_of_range_ub a Ha).
  destruct U as [u U]. exists u. apply (var_undefined srt pw c s line n _ _ _ H1 H2 Hs Hl (IVector t v)). rewrite vector_message.
  cbn [seq_messages In] in Hm. repeat (destruct Hm as [Hm|Hm]; [try discriminate Hm; injection Hm as <-|]); [..|contradiction].
  1: match goal with |- on _ ?x = _ => change x with (vector_atIndex (env_of srt c) [a] v) end.
  2: match goal with |- on _ ?x = _ => change x with (vector_first (env_of srt c) [a] v) end.
  3: match goal with |- on _ ?x = _ => change x with (vector_last (env_of srt c) [a] v) end.
  4: match goal with |- on _ ?x = _ => change x with (vector_sliceFromIndex (env_of srt c) [a] v) end.
  5: match goal with |- on _ ?x = _ => change x with (vector_popAtIndex (env_of srt c) [a] v) end.
  6: match goal with |- on _ ?x = _ => change x with (vector_eraseFromIndex [a] v) end.
  all: unfold vector_atIndex, vector_first, vector_last, vector_sliceFromIndex, vector_popAtIndex, vector_eraseFromIndex; mon; rewrite U; reflexivity.
Qed.
Theorem C18_other_messages_are_refused : forall srt pw c s line n m args t v, sort_contract srt -> reachable srt pw c ->
  statement line n m args -> lookup c n = Some (IVector t v) -> m <> B "sort" ->
  (forall k indexes, ~ In (m, k, indexes) seq_messages /\ ~ In (m, k, indexes) search_messages) ->
  only_answers srt pw c s line ERR_MESSAGE.
Proof.
  intros srt pw c s line n m args t v H1 H2 Hs Hl N1 N2.
  apply (var_answers srt pw c s line n _ _ _ H1 H2 Hs Hl (Throw InvalidMessage)); [|exact (fun x => x)].
  rewrite vector_message. unfold vector_receive.
  assert (A : forall x k idx, In (x, k, idx) seq_messages \/ In (x, k, idx) search_messages -> seq_eqb m x = false).
  { intros x k idx Hx. apply not_true_is_false. intros Ex. apply seq_eqb_eq in Ex. subst x. destruct (N2 k idx). tauto. }
  assert (A0 : seq_eqb m (B "sort") = false) by (apply not_true_is_false; intros Ex; apply seq_eqb_eq in Ex; contradiction).
  unfold dispatch.
  repeat match goal with |- context [seq_eqb m ?x] =>
    first [ change (seq_eqb m x) with (seq_eqb m (B "sort")); rewrite A0
          | let H := fresh in assert (H : seq_eqb m x = false);
            [ first [ solve [eapply A; left; cbn [seq_messages In]; repeat (first [left; reflexivity | right])]
                    | solve [eapply A; right; cbn [search_messages In]; repeat (first [left; reflexivity | right])] ] | rewrite H; clear H ] ] end.
  reflexivity.
Qed.

(** ** C19 *)
Theorem C19_effect : forall srt pw c s line n m args t v v' ans, sort_contract srt -> reachable srt pw c ->
  statement line n m args -> lookup c n = Some (IVector t v) ->
  search_effect (tolerance c) t m args v v' ans -> becomes srt pw c s line n ans (IVector t v').
Proof.
  intros srt pw c s line n m args t v v' ans H1 H2 Hs Hl He. destruct (vector_good _ _ _ _ _ _ H1 H2 Hl) as (Ho & Ht & Hso & _).
  apply (var_becomes srt pw c s line n _ _ _ H1 H2 Hs Hl _ (Ok ans)); [|exact (fun x => x)]. assert (V := reachable_tolerance srt pw c H1 H2).
  rewrite vector_message, (search_forward (env_of srt c) t v Ho V Ht Hso m args v' ans He). reflexivity.
Qed.
Theorem C19_otherwise_refused : forall srt pw c s line n m k indexes args t v, sort_contract srt -> reachable srt pw c ->
  statement line n m args -> lookup c n = Some (IVector t v) ->
  In (m, k, indexes) search_messages -> in_range t indexes args ->
  (forall v' ans, ~ search_effect (tolerance c) t m args v v' ans) -> only_answers srt pw c s line (refusal k args).
Proof.
  intros srt pw c s line n m k idx args t v H1 H2 Hs Hl Hm Hr N. destruct (vector_good _ _ _ _ _ _ H1 H2 Hl) as (Ho & Ht & Hso & _).
  assert (V := reachable_tolerance srt pw c H1 H2).
  destruct (search_otherwise (env_of srt c) t v Ho V Ht Hso m k idx args Hm Hr) as [(v' & ans & X)|X]; [exfalso; eapply N; eauto|].
  rewrite <- refusal_text. apply (var_answers srt pw c s line n _ _ _ H1 H2 Hs Hl); [|exact (fun x => x)].
  rewrite vector_message, X. reflexivity.
Qed.
(** For the element types other than Float, equal means identical. *)
Theorem C19_equal_is_identical : forall tol t x y, t <> B "Float" -> has_type t x -> has_type t y -> (equals tol x y <-> x = y).
Proof.
  intros tol t x y N Hx Hy. unfold equals, relates. split.
  - intros [A C]. eapply before_total; eauto.
  - intros <-. assert (P := type_plain _ _ N Hx). assert (~ before tol x x); [|tauto].
    intros X. apply (before_irrefl zero32 x nonneg_zero). revert X. now apply before_plain.
Qed.

(** ** Examples: [1,2,1] *)
Definition ints_vector : context := set_instances empty_server [(B "v", IVector (B "Integer") [OInt 1; OInt 2; OInt 1])].
Lemma ints_reachable : reachable insertion_sort [] ints_vector.
Proof.
  apply (after_reachable _ _ [B "Vector<Integer> create: v;"; B "v pushBack: 1;"; B "v pushBack: 2;"; B "v pushBack: 1;"] empty_server); [constructor; vm_compute; reflexivity|vm_compute; reflexivity].
Qed.
Example C18_ex : reachable insertion_sort [] ints_vector /\ statement (B "v insert: 7 beforeIndex: 2;") (B "v") (B "insert:beforeIndex:") [B "7"; B "2"] /\
  seq_effect 3 (B "Integer") (B "insert:beforeIndex:") [B "7"; B "2"] [OInt 1; OInt 2; OInt 1] [OInt 1; OInt 2; OInt 7; OInt 1] (B "null").
Proof.
  split; [exact ints_reachable|]. split; [stmt|]. apply (eff_insert _ _ _ _ (OInt 7) [OInt 1; OInt 2] [OInt 1]); ex_lit.
Qed.
Example C18_ex_refused : statement (B "v atIndex: 3;") (B "v") (B "atIndex:") [B "3"] /\ In (B "atIndex:", 1%nat, [0%nat]) seq_messages /\
  in_range (B "Integer") [0%nat] [B "3"] /\
  (forall v' ans, ~ seq_effect 3 (B "Integer") (B "atIndex:") [B "3"] [OInt 1; OInt 2; OInt 1] v' ans).
Proof.
  split; [stmt|]. split; [cbn [seq_messages In]; tauto|]. split.
  - intros k a Hk _ X. assert (R := integer_of_int (B "3") 3). assert (D : denotes_int (B "3") 3) by (apply (int_plain (B "3")); [repeat constructor; cbn; lia|discriminate]).
    assert (a = B "3") by (destruct k as [|[|k]]; [now inversion Hk|discriminate Hk..]). subst a. destruct X as [(d & Hd & Hf)|[X _]].
    + assert (d = 3) by (eapply denotes_int_unique; eauto). subst. apply Hf. split; [discriminate|reflexivity].
    + apply X. apply integer_value_denotes. eauto.
  - intros v' ans H. apply (seq_forward (env_of insertion_sort ints_vector)) in H. vm_compute in H. discriminate.
Qed.
Example C18_ex_overflow : statement (B "v atIndex: 9999999999;") (B "v") (B "atIndex:") [B "9999999999"] /\ out_of_range (B "9999999999").
Proof.
  split; [stmt|]. left. exists 9999999999. split; [apply (int_plain (B "9999999999")); [repeat constructor; cbn; lia|discriminate]|]. intros [_ X]. discriminate X.
Qed.
Example C19_ex : statement (B "v replaceAll: 1 with: 5;") (B "v") (B "replaceAll:with:") [B "1"; B "5"] /\
  search_effect zero32 (B "Integer") (B "replaceAll:with:") [B "1"; B "5"] [OInt 1; OInt 2; OInt 1] [OInt 5; OInt 2; OInt 5] (B "null").
Proof.
  split; [stmt|]. apply (eff_replaceAll _ _ _ _ (OInt 1) (OInt 5)); [ex_lit..|].
  repeat constructor; cbn; lia.
Qed.

Print Assumptions C18_effect.
Print Assumptions C18_otherwise_refused.
Print Assumptions C18_effect_unique.
Print Assumptions C18_index_beyond_32_bits.
Print Assumptions C18_other_messages_are_refused.
Print Assumptions C19_effect.
Print Assumptions C19_otherwise_refused.
Print Assumptions C19_equal_is_identical.
