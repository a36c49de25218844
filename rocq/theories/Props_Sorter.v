(** Property C56: which std::sort is used matters only for Vector<Float>.  Specification: [Spec_Local]; model: [Instance], [Context]. *)
From Coq Require Import ZArith Reals QArith Sorting.Sorted Sorting.Permutation.
From Verif Require Import Bytes StrUtils Grammar Outcome Parser Num Containers Instance Context Platform.
From Verif Require Import Lemmas StringLit Proof_Grammar Proof_Parser Proof_Exec WP Proof_Inv Proof_Literal Proof_Receive Proof_Context Proof_Names Api Proof_Text.
From Verif Require Import Proof_Number Proof_Float Proof_Arith Proof_Order Props_Text Props_State Props_Number Props_Float Props_Order.
From Verif Require Import Spec_Grammar Spec_State Spec_Names Spec_Text Spec_Number Spec_Float Spec_Order Spec_Local.
Open Scope Z_scope.
Open Scope list_scope.

Lemma dispatch_same {S} (t1 t2 : list (str * (list str -> M S str))) m args (k0 : str) : m <> k0 ->
  Forall2 (fun r1 r2 => fst r1 = fst r2 /\ (fst r1 = k0 \/ forall a s, snd r1 a s = snd r2 a s)) t1 t2 ->
  forall s, dispatch t1 m args s = dispatch t2 m args s.
Proof.
  intros N. induction 1 as [|[k1 o1] [k2 o2] t1 t2 [K O] F IH]; intros s; [reflexivity|]. cbn [fst snd] in *. subst k2. cbn [dispatch].
  destruct (seq_eqb m k1) eqn:E; [|apply IH]. destruct O as [->|O]; [|apply O]. apply seq_eqb_eq in E. contradiction.
Qed.
Ltac no_sorter := cbv beta zeta delta [contains_loop count_loop first_index_loop all_indexes_loop vector_get vector_isEmpty vector_contains vector_contains_fromIndex vector_count vector_atIndex vector_firstIndexOf vector_firstIndexOf_fromIndex vector_allIndexesOf vector_size vector_first vector_last vector_sliceFromIndex vector_sliceFromIndex_toIndex vector_pushBack vector_pushFront vector_popBack vector_popFront vector_popAtIndex vector_insert_beforeIndex vector_eraseFromIndex vector_eraseFromIndex_toIndex vector_removeFirst vector_removeFirst_fromIndex remove_all_loop vector_removeAll replace_loop vector_replaceFirst_with vector_replaceFirst_fromIndex_with vector_replaceAll_with vector_reverse vector_clear vector_receive set_get set_isEmpty set_contains set_size set_add set_remove set_clear set_receive dict_get dict_isEmpty dict_containsKey dict_size dict_keys dict_values dict_getValueForKey dict_associateValue_withKey dict_removeKey dict_clear dict_receive character_receive integer_receive float_get float_receive string_receive obj_repr vector_representation set_representation dict_representation]; cbn [e_precision e_tolerance]; reflexivity.
Lemma receive_same p tol srt1 srt2 i m args : (forall t v, i = IVector t v -> m <> B "sort") ->
  receive {| e_precision := p; e_tolerance := tol; e_sort := srt1 |} i m args = receive {| e_precision := p; e_tolerance := tol; e_sort := srt2 |} i m args.
Proof.
  intros N. destruct i as [[b|ch|z|f|s]|t v|t v|kt vt d]; cbn [receive]; [reflexivity|apply (f_equal (on _)); no_sorter|apply (f_equal (on _)); no_sorter|apply (f_equal (on _)); no_sorter|apply (f_equal (on _)); no_sorter| |apply (f_equal (on _)); no_sorter|apply (f_equal (on _)); no_sorter].
  apply (f_equal (on _)). unfold vector_receive. apply (dispatch_same _ _ m args (B "sort")); [now apply (N t v)|].
  repeat first [apply Forall2_cons; [split; [reflexivity|first [left; vm_compute; reflexivity | right; intros a s; cbn [snd]; no_sorter]]|] | apply Forall2_nil].
Qed.
Lemma contract_in_order tol t v v' : V32 tol -> t <> B "Float" -> Forall (has_type t) v -> Forall sound v -> Permutation v v' ->
  StronglySorted (fun a b => less_opt tol b a <> Some true) v' -> in_order tol v'.
Proof.
  intros V Hn Ht Hso P S. assert (Ht' := Permutation_Forall P Ht). assert (Hso' := Permutation_Forall P Hso). unfold in_order. clear - V Hn S Ht' Hso'.
  induction S as [|a l S IH Ha]; [constructor|]. inversion Ht'; subst. inversion Hso'; subst. constructor; auto.
  rewrite Forall_forall in *. intros b Hb. rewrite <- (less_opt_iff _ t) by auto. auto.
Qed.
Lemma sorters_agree srt1 srt2 pw c n t v : sort_contract srt1 -> sort_contract srt2 -> reachable srt1 pw c ->
  lookup c n = Some (IVector t v) -> t <> B "Float" -> srt1 (less_opt (tolerance c)) v = srt2 (less_opt (tolerance c)) v.
Proof.
  intros K1 K2 Q L N. assert (V := reachable_tolerance srt1 pw c K1 Q). destruct (vector_good _ _ _ _ _ _ K1 Q L) as (_ & Ht & Hs & _).
  assert (W := proj2 (swo_weak' _ t v V Ht Hs) (weak_order_plain _ t v N Ht)).
  destruct (K1 _ _ W) as [P1 S1], (K2 _ _ W) as [P2 S2].
  apply (in_order_unique (tolerance c) t); auto.
  - now apply (Permutation_Forall P1).
  - etransitivity; [symmetry; exact P1|exact P2].
  - apply (contract_in_order _ t v); auto.
  - apply (contract_in_order _ t v); auto.
Qed.
Lemma same_statement srt1 srt2 pw c s line : sort_contract srt1 -> sort_contract srt2 -> reachable srt1 pw c -> ~ sorts_floats c line ->
  run_statement srt1 pw line {| w_ctx := c; w_session := s |} = run_statement srt2 pw line {| w_ctx := c; w_session := s |}.
Proof.
  intros K1 K2 Q N. destruct (statement_dec line) as [(a & m & args & S)|X].
  - assert (A := statement_actor _ _ _ _ S). destruct A as [->|[->|[T|T]]].
    + now rewrite !(run_connection _ _ _ _ _ _ S).
    + now rewrite !(run_context _ _ _ _ _ _ S).
    + now rewrite !(run_type _ _ _ _ _ _ _ S T).
    + rewrite !(run_variable _ _ _ _ _ _ _ S T). unfold in_ctx, execute_in_variable. cbn [w_ctx w_session p_actor p_message p_args].
      destruct (smap_find (instances c) a) as [i|] eqn:L; [|reflexivity].
      assert (R : receive (env_of srt1 c) i m args = receive (env_of srt2 c) i m args); [|now rewrite R].
      destruct (bytes_dec m (B "sort")) as [->|Nm]; [|apply receive_same; auto].
      destruct i as [o|t v|t v|kt vt d]; try (apply receive_same; discriminate).
      assert (Nt : t <> B "Float").
      { intros ->. apply N. exists a, args, v. split; [exact S|]. unfold lookup. now rewrite assoc_smap_find. }
      rewrite !sort_receive. assert (La : length args = 0%nat) by (eapply args_len; eauto). apply len0 in La as ->. unfold vector_sort. mon.
      cbn [e_tolerance env_of e_sort]. destruct (strict_weak_order_on _ _); [|reflexivity].
      rewrite (sorters_agree srt1 srt2 pw c a t v); auto. unfold lookup. now rewrite assoc_smap_find.
  - unfold run_statement, bind, lift. now rewrite (parse_not_statement _ X).
Qed.
(** Everything but the sorting of a Vector<Float> is independent of the sorting algorithm of the C++ library. *)
Theorem C56_any_sort_gives_the_same : forall srt1 srt2 pw c s line c' s' ans, sort_contract srt1 -> sort_contract srt2 -> reachable srt1 pw c ->
  ~ sorts_floats c line -> runs srt1 pw c s line c' s' ans -> runs srt2 pw c s line c' s' ans.
Proof.
  intros srt1 srt2 pw c s line c' s' ans K1 K2 Q N R. unfold runs, execute in *. now rewrite (same_statement srt1 srt2) in R by auto.
Qed.
(** Undefined behaviour is the same for all lines, the sorting of floats included. *)
Theorem C56_any_sort_has_the_same_undefined_behaviour : forall srt1 srt2 pw c s line u, sort_contract srt1 -> sort_contract srt2 -> reachable srt1 pw c ->
  (undefined_behaviour srt1 pw c s line u <-> undefined_behaviour srt2 pw c s line u).
Proof.
  intros srt1 srt2 pw c s line u K1 K2 Q. unfold undefined_behaviour, execute.
  assert (E : forall r1 r2 : res str, (forall u, r1 = UB u <-> r2 = UB u) -> forall u, catch_text r1 = UB u <-> catch_text r2 = UB u).
  { intros [o1|e1|u1] [o2|e2|u2] H v; cbn [catch_text]; try (split; discriminate); specialize (H v); destruct H as [H H']; split; intros X; try discriminate;
      try (now apply H in X); try (now apply H' in X); try (assert (Y := H X); discriminate); try (assert (Y := H' X); discriminate). }
  assert (G : forall u, snd (run_statement srt1 pw line {| w_ctx := c; w_session := s |}) = UB u <-> snd (run_statement srt2 pw line {| w_ctx := c; w_session := s |}) = UB u).
  { intros v. destruct (statement_dec line) as [(a & m & args & S)|X].
    - assert (A := statement_actor _ _ _ _ S). destruct A as [->|[->|[T|T]]].
      + now rewrite !(run_connection _ _ _ _ _ _ S).
      + now rewrite !(run_context _ _ _ _ _ _ S).
      + now rewrite !(run_type _ _ _ _ _ _ _ S T).
      + rewrite !(run_variable _ _ _ _ _ _ _ S T). unfold in_ctx, execute_in_variable. cbn [w_ctx w_session p_actor p_message p_args].
        destruct (smap_find (instances c) a) as [i|] eqn:L; [|reflexivity]. cbn [snd].
        assert (R : snd (receive (env_of srt1 c) i m args) = snd (receive (env_of srt2 c) i m args)); [|now rewrite R].
        destruct (bytes_dec m (B "sort")) as [->|Nm]; [|apply (f_equal snd), receive_same; auto].
        destruct i as [o|t w|t w|kt vt d]; try (apply (f_equal snd), receive_same; discriminate).
        rewrite !sort_receive. assert (La : length args = 0%nat) by (eapply args_len; eauto). apply len0 in La as ->. unfold vector_sort. mon.
        cbn [e_tolerance env_of e_sort]. destruct (strict_weak_order_on _ _); reflexivity.
    - unfold run_statement, bind, lift. now rewrite (parse_not_statement _ X). }
  specialize (E _ _ G u). destruct (catch_text (snd (run_statement srt1 _ _ _))) as [o1|e1|u1], (catch_text (snd (run_statement srt2 _ _ _))) as [o2|e2|u2]; cbn [snd] in *;
    try (split; discriminate); exact E.
Qed.
(** So it is for whole histories. *)
Theorem C56_histories : forall srt1 srt2 pw c s lines c' s' answers, sort_contract srt1 -> sort_contract srt2 -> reachable srt1 pw c ->
  (forall before line after c1 s1 answers1, lines = before ++ line :: after -> executes srt1 pw c s before c1 s1 answers1 -> ~ sorts_floats c1 line) ->
  executes srt1 pw c s lines c' s' answers -> executes srt2 pw c s lines c' s' answers.
Proof.
  intros srt1 srt2 pw c s lines c' s' answers K1 K2 Q N X. revert Q N. induction X as [c s|c s line c1 s1 ans lines c2 s2 answers R X IH]; intros Q N; [constructor|].
  econstructor; [eapply (C56_any_sort_gives_the_same srt1 srt2); eauto|].
  - apply (N [] line lines c s []); [reflexivity|constructor].
  - apply IH; [eapply reach_step; [exact Q|exact R]|]. intros before l after c3 s3 a3 -> Y. apply (N (line :: before) l after c3 s3 (ans :: a3)); [reflexivity|]. econstructor; eauto.
Qed.
(** For floats the result does depend on it: 0.0 and -0.0 are neither before the other, but print differently. *)
Definition other_sort : sorter := fun lt l => insertion_sort lt (rev l).
Lemma other_sort_contract : sort_contract other_sort.
Proof.
  intros lt l W. destruct (insertion_sort_contract lt (rev l)) as [P S].
  - destruct W as (W1 & W2 & W3 & W4). split; [|split; [|split]].
    + intros a b A B. apply W1; now apply in_rev.
    + intros a A. apply W2. now apply in_rev.
    + intros a b c A B C. apply W3; now apply in_rev.
    + intros a b c A B C. apply W4; now apply in_rev.
  - split; [|exact S]. etransitivity; [apply Permutation_rev|exact P].
Qed.
Definition two_zeros : context :=
  set_instances empty_server [(B "v", IVector (B "Float") [OFloat (to_float (atof (B "0.0"))); OFloat (to_float (atof (B "-0.0")))])].
Theorem C56_float_sorts_agree_refuted : exists c c1 c2, sort_contract insertion_sort /\ sort_contract other_sort /\ reachable insertion_sort [] c /\ reachable other_sort [] c /\
  runs insertion_sort [] c None (B "v sort;") c1 None (B "null") /\ runs other_sort [] c None (B "v sort;") c2 None (B "null") /\
  (exists d, runs insertion_sort [] c1 None (B "v get;") d None (B "[0.000,-0.000]")) /\ (exists d, runs other_sort [] c2 None (B "v get;") d None (B "[-0.000,0.000]")).
Proof.
  exists two_zeros. eexists _, _. split; [exact insertion_sort_contract|]. split; [exact other_sort_contract|].
  split; [|split; [|split; [|split; [|split]]]].
  1,2: apply (after_reachable _ _ [B "Vector<Float> create: v;"; B "v pushBack: 0.0;"; B "v pushBack: -0.0;"] empty_server); [constructor; vm_compute; reflexivity|vm_compute; reflexivity].
  - unfold runs. vm_compute. reflexivity.
  - unfold runs. vm_compute. reflexivity.
  - eexists. unfold runs. vm_compute. reflexivity.
  - eexists. unfold runs. vm_compute. reflexivity.
Qed.
Example C56_ex : sort_contract insertion_sort /\ sort_contract other_sort /\ reachable insertion_sort [] some_vector /\ ~ sorts_floats some_vector (B "v sort;") /\
  exists c', runs insertion_sort [] some_vector None (B "v sort;") c' None (B "null") /\ runs other_sort [] some_vector None (B "v sort;") c' None (B "null").
Proof.
  split; [exact insertion_sort_contract|]. split; [exact other_sort_contract|]. split; [exact (proj1 C16_ex)|]. split.
  - intros (n & args & v & S & L). destruct (statement_unique _ _ _ _ _ _ _ S (proj1 (proj2 C16_ex))) as (-> & _ & _). discriminate.
  - eexists. split; unfold runs; vm_compute; reflexivity.
Qed.

Print Assumptions C56_any_sort_gives_the_same.
Print Assumptions C56_any_sort_has_the_same_undefined_behaviour.
Print Assumptions C56_histories.
Print Assumptions C56_float_sorts_agree_refuted.
