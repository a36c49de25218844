(** C69: exactly which statements have undefined behaviour. *)
From Coq Require Import ZArith Reals Psatz Sorting.Sorted Sorting.Permutation Classical.
From Flocq Require Import Core.
From Coq Require Import Floats.SpecFloat.
From Verif Require Import Bytes StrUtils Grammar Outcome Parser Num Containers Instance Context Server Platform.
From Verif Require Import Lemmas StringLit Proof_Grammar Proof_Parser Proof_Exec WP Proof_Inv Proof_Literal Proof_Receive Proof_Context Proof_Names Api Proof_Text.
From Verif Require Import Proof_Number Proof_Float Proof_Arith Proof_String Proof_Order Props_Text Props_State Props_Number Props_Float Props_Order Props_Vector Props_Set.
From Verif Require Import Proof_Set Proof_Whole Props_Whole Proof_Errors Props_Errors Proof_Server Props_Server Proof_Undefined.
From Verif Require Import Spec_Grammar Spec_State Spec_Names Spec_Text Spec_Number Spec_Float Spec_Literal Spec_Order Spec_Vector Spec_String Spec_Set Spec_Server Spec_Whole Spec_Errors Spec_Undefined.
Open Scope Z_scope.
Open Scope list_scope.

(** ** A literal that is too large is undefined where it is read *)
Definition reads {S A} (m : M S A) (l : list (bytes * bytes)) : Prop := forall s, undefined_reading l -> exists u, snd (m s) = UB u.
Lemma reading_inv t a l : undefined_reading ((t, a) :: l) -> (t = B "Integer" /\ out_of_range a) \/ ((exists x, literal_of t a x) /\ undefined_reading l).
Proof.
  intros (before & b & after & E & O & F). destruct before as [|p before]; cbn in E; [injection E as -> -> _; now left|].
  injection E as <- ->. inversion F as [|q l F1 F2]; subst. right. split; [exact F1|]. now exists before, b, after.
Qed.
Lemma reads_end {S A} (m : M S A) : reads m [].
Proof. intros s U. destruct (reading_never U). Qed.
Lemma reads_nargs {S A} args n (f : unit -> M S A) l : List.length args = n -> reads (f tt) l -> reads (bind (check_nargs args n) f) l.
Proof. intros L H s U. unfold bind. rewrite (nargs_bool args n s L). now apply H. Qed.
Lemma reads_arg {S A} args i a (f : str -> M S A) l : nth_error args i = Some a -> reads (f a) l -> reads (bind (arg args i) f) l.
Proof. intros E H. unfold arg. rewrite E. exact H. Qed.
Lemma reads_ret {S A C} (x : C) (f : C -> M S A) l : reads (f x) l -> reads (bind (ret x) f) l.
Proof. intros H. exact H. Qed.
Lemma reads_index {S A} (a : bytes) (f : Z -> M S A) l : (forall z, reads (f z) l) -> reads (bind (lift (integer_of a)) f) ((B "Integer", a) :: l).
Proof.
  intros H s U. apply reading_inv in U as [[_ O]|[[x X] U]]; unfold bind, lift.
  - destruct (out_of_range_ub _ O) as [u ->]. now exists u.
  - assert (exists z, integer_of a = Ok z) as [z ->].
    { apply literal_get in X. change (get_shared_instance (B "Integer") a) with (let! z := integer_of a in Ok (OInt z)) in X.
      destruct (integer_of a); try discriminate X. eauto. }
    now apply H.
Qed.
Lemma reads_element {S A} t (a : bytes) (f : obj -> M S A) l : (forall x, reads (f x) l) -> reads (bind (lift (get_shared_instance t a)) f) ((t, a) :: l).
Proof.
  intros H s U. apply reading_inv in U as [[-> O]|[[x X] U]]; unfold bind, lift.
  - change (get_shared_instance (B "Integer") a) with (let! z := integer_of a in Ok (OInt z)). destruct (out_of_range_ub _ O) as [u ->]. now exists u.
  - rewrite (literal_get _ _ _ X). now apply H.
Qed.
Lemma reads_text {S A} (a : bytes) (f : unit -> M S A) l e : reads (f tt) l -> reads (bind (throw_if (negb (is_string_value a)) e) f) ((B "String", a) :: l).
Proof.
  intros H s U. apply reading_inv in U as [[E _]|[[x X] U]]; [discriminate E|]. unfold bind.
  assert (K : is_string_value a = true).
  { inversion X as [| | | | | |a' v D]; subst. exact (proj1 (string_ok _ _ D)). }
  rewrite K. now apply H.
Qed.
Ltac read2 := lazymatch goal with
  | |- reads _ [] => apply reads_end
  | |- reads (bind (check_nargs _ _) _) _ => apply reads_nargs; [reflexivity|]
  | |- reads (bind (arg _ _) _) _ => eapply reads_arg; [reflexivity|]
  | |- reads (bind (ret _) _) _ => apply reads_ret
  | |- reads (bind (lift (integer_of _)) _) _ => apply reads_index; intros ?
  | |- reads (bind (lift (get_shared_instance _ _)) _) _ => apply reads_element; intros ?
  | |- reads (bind (throw_if (negb (is_string_value _)) _) _) ((B "String", _) :: _) => apply reads_text
  end.
Ltac each H := repeat (destruct H as [<-|H]); [..|contradiction].
Lemma reading_undefined E i m args l : reads_value i m args l -> undefined_reading l -> exists u, snd (receive E i m args) = UB u.
Proof.
  intros R U. destruct R as [z a|v m a I|v m a b I|v a b|t v m a I|t v m a b I|t v m a I|t v m a b I|t v m a b I|t v a b w|t v m a I|kt vt d m b I|kt vt d a b].
  - apply reading_inv in U as [[_ O]|[_ U]]; [|destruct (reading_never U)]. destruct (out_of_range_ub _ O) as [u X]. exists u.
    change (snd (integer_set [a] z) = UB u). unfold integer_of in X. unfold integer_set, bind, lift, arg, check_nargs, throw_if, throw, ret.
    cbn [List.length Nat.eqb negb nth_error]. destruct (negb (is_integer_value a) && negb (is_float_value a)); [discriminate X|].
    rewrite X. reflexivity.
  - each I; [refine ((_ : reads (string_atIndex [a]) _) v U)|refine ((_ : reads (string_first [a]) _) v U)|refine ((_ : reads (string_last [a]) _) v U)
      |refine ((_ : reads (string_substringFromIndex [a]) _) v U)|refine ((_ : reads (string_popAtIndex [a]) _) v U)|refine ((_ : reads (string_eraseFromIndex [a]) _) v U)];
      unfold string_atIndex, string_first, string_last, string_substringFromIndex, string_popAtIndex, string_eraseFromIndex; repeat read2.
  - each I; [refine ((_ : reads (string_substringFromIndex_toIndex [a; b]) _) v U)|refine ((_ : reads (string_eraseFromIndex_toIndex [a; b]) _) v U)];
      unfold string_substringFromIndex_toIndex, string_eraseFromIndex_toIndex; repeat read2.
  - refine ((_ : reads (string_insert_beforeIndex [a; b]) _) v U). unfold string_insert_beforeIndex. repeat read2.
  - each I; [refine ((_ : reads (vector_atIndex E [a]) _) v U)|refine ((_ : reads (vector_first E [a]) _) v U)|refine ((_ : reads (vector_last E [a]) _) v U)
      |refine ((_ : reads (vector_sliceFromIndex E [a]) _) v U)|refine ((_ : reads (vector_popAtIndex E [a]) _) v U)|refine ((_ : reads (vector_eraseFromIndex [a]) _) v U)];
      unfold vector_atIndex, vector_first, vector_last, vector_sliceFromIndex, vector_popAtIndex, vector_eraseFromIndex; repeat read2.
  - each I; [refine ((_ : reads (vector_sliceFromIndex_toIndex E [a; b]) _) v U)|refine ((_ : reads (vector_eraseFromIndex_toIndex [a; b]) _) v U)];
      unfold vector_sliceFromIndex_toIndex, vector_eraseFromIndex_toIndex; repeat read2.
  - each I; [refine ((_ : reads (vector_contains E t [a]) _) v U)|refine ((_ : reads (vector_count E t [a]) _) v U)|refine ((_ : reads (vector_firstIndexOf E t [a]) _) v U)
      |refine ((_ : reads (vector_allIndexesOf E t [a]) _) v U)|refine ((_ : reads (vector_pushBack t [a]) _) v U)|refine ((_ : reads (vector_pushFront t [a]) _) v U)
      |refine ((_ : reads (vector_removeFirst E t [a]) _) v U)|refine ((_ : reads (vector_removeAll E t [a]) _) v U)];
      unfold vector_contains, vector_count, vector_firstIndexOf, vector_allIndexesOf, vector_pushBack, vector_pushFront, vector_removeFirst, vector_removeAll; repeat read2.
  - each I; [refine ((_ : reads (vector_contains_fromIndex E t [a; b]) _) v U)|refine ((_ : reads (vector_firstIndexOf_fromIndex E t [a; b]) _) v U)
      |refine ((_ : reads (vector_insert_beforeIndex t [a; b]) _) v U)|refine ((_ : reads (vector_removeFirst_fromIndex E t [a; b]) _) v U)];
      unfold vector_contains_fromIndex, vector_firstIndexOf_fromIndex, vector_insert_beforeIndex, vector_removeFirst_fromIndex; repeat read2.
  - each I; [refine ((_ : reads (vector_replaceFirst_with E t [a; b]) _) v U)|refine ((_ : reads (vector_replaceAll_with E t [a; b]) _) v U)];
      unfold vector_replaceFirst_with, vector_replaceAll_with; repeat read2.
  - refine ((_ : reads (vector_replaceFirst_fromIndex_with E t [a; b; w]) _) v U). unfold vector_replaceFirst_fromIndex_with. repeat read2.
  - each I; [refine ((_ : reads (set_contains E t [a]) _) v U)|refine ((_ : reads (set_add E t [a]) _) v U)|refine ((_ : reads (set_remove E t [a]) _) v U)];
      unfold set_contains, set_add, set_remove; repeat read2.
  - each I; [refine ((_ : reads (dict_containsKey E kt [b]) _) d U)|refine ((_ : reads (dict_getValueForKey E kt [b]) _) d U)|refine ((_ : reads (dict_removeKey E kt [b]) _) d U)];
      unfold dict_containsKey, dict_getValueForKey, dict_removeKey; repeat read2.
  - refine ((_ : reads (dict_associateValue_withKey E kt vt [a; b]) _) d U). unfold dict_associateValue_withKey. repeat read2.
Qed.

(** ** Statements *)
Lemma vector_stored srt pw c n t v : sort_contract srt -> reachable srt pw c -> lookup c n = Some (IVector t v) -> object_type t.
Proof. intros H1 H2 Hl. exact (proj1 (vector_good _ _ _ _ _ _ H1 H2 Hl)). Qed.
Section Statement.
Variables (srt : sorter) (pw : bytes) (c : context) (s : session) (line : bytes).
Hypothesis (H1 : sort_contract srt) (H2 : reachable srt pw c).
Let undefined := exists u, undefined_behaviour srt pw c (Some s) line u.
Lemma message_undefined n i m args : statement line n m args -> lookup c n = Some i -> undefined_message (tolerance c) i m args -> undefined.
Proof using H1 H2.
  intros Hs Hl U. destruct U as [i m args l R U|z m a d I D F|z o a d D F|z o a neg x zd d res Ni D Fz Ez Dd Ie N|t v W|t v m a x I X W|kt vt d m b k I X W|kt vt d a b x k X X' W].
  - destruct (reading_undefined (env_of srt c) i m args l R U) as [u E]. exists u. destruct (receive (env_of srt c) i m args) as [i' r] eqn:K. cbn [snd] in E. subst r.
    eapply var_undefined; eauto.
  - assert (X : exists cmp, receive (env_of srt c) (IObj (OInt z)) m [a] = on (fun z => IObj (OInt z)) (integer_compare cmp [a] z)).
    { each I; eexists; reflexivity. }
    destruct X as [cmp X]. exists AtoiRange. apply (var_undefined srt pw c (Some s) line n _ _ _ H1 H2 Hs Hl (IObj (OInt z))). rewrite X. unfold integer_compare. mon.
    rewrite (int_literal _ _ D), (integer_of_int _ _ D). destruct (in_int d) eqn:K; [apply in_int_fits in K; contradiction|]. reflexivity.
  - apply (proj2 (C10_arithmetic_undefined_iff srt pw c (Some s) line n z o a d H1 H2 Hs Hl D)). exact F.
  - destruct (C10_arithmetic_with_a_float_literal srt pw c (Some s) line n z o a neg x H1 H2 Hs Hl Ni D) as (zd' & d' & res' & Fz' & Ez' & Dd' & Ie' & _ & K).
    exists IntConversion. apply K. intros r T. apply (N r). apply (truncates_result o zd' zd d' d res' res r); auto; [congruence|]. exact (rounds_alike _ _ _ _ _ _ Dd' Dd).
  - apply (proj2 (C17_undefined_iff srt pw c (Some s) line n t v [] H1 H2 Hs Hl)). exact W.
  - apply (proj2 (C23_set_undefined_iff srt pw c (Some s) line n m a x t v H1 H2 I Hs Hl X)). exact W.
  - apply (proj2 (C23_dictionary_undefined_iff srt pw c (Some s) line n m b k kt vt d H1 H2 I Hs Hl X)). exact W.
  - apply (proj2 (C23_associate_undefined_iff srt pw c (Some s) line n a b x k kt vt d H1 H2 Hs Hl X X')). exact W.
Qed.
Lemma undefined_value n i m args u : statement line n m args -> lookup c n = Some i -> undefined_behaviour srt pw c (Some s) line u ->
  snd (receive (env_of srt c) i m args) = UB u -> numeric u -> undefined_message (tolerance c) i m args.
Proof using H1 H2.
  intros Hs Hl Hu E N. destruct i as [[b|ch|z|f|v]|t v|t v|kt vt d]; cbn [receive on snd] in E.
  - destruct (boolean_numbers _ _ _ _ E N).
  - destruct (character_numbers _ _ _ _ _ E N).
  - destruct (integer_numbers _ _ _ _ _ E N) as [(l & R & U)|[(a & d & -> & I & D & F)|(o & a & -> & -> & V)]].
    + eapply und_read; eauto.
    + eapply und_compare; eauto.
    + destruct (classic (integer_value a)) as [Vi|Ni].
      * apply integer_value_denotes in Vi as [d D]. eapply und_arithmetic; [exact D|].
        apply (proj1 (C10_arithmetic_undefined_iff srt pw c (Some s) line n z o a d H1 H2 Hs Hl D)). now exists u.
      * destruct V as [V|V]; [contradiction|]. apply float_value_denotes in V as (neg & x & D).
        destruct (C10_arithmetic_with_a_float_literal srt pw c (Some s) line n z o a neg x H1 H2 Hs Hl Ni D) as (zd & d & res & Fz & Ez & Dd & Ie & K & _).
        eapply und_float_arithmetic; eauto. intros r T. destruct (K r T) as (c' & R & _). eapply runs_ub; eauto.
  - destruct (float_numbers _ _ _ _ _ E N).
  - destruct (string_numbers _ _ _ _ _ E N) as (l & R & U). eapply und_read; eauto.
  - destruct (vector_numbers _ _ _ _ _ _ (vector_stored _ _ _ _ _ _ H1 H2 Hl) E N) as [[-> ->]|(l & R & U)].
    + apply und_sort. apply (proj1 (C17_undefined_iff srt pw c (Some s) line n t v [] H1 H2 Hs Hl)). now exists u.
    + eapply und_read; eauto.
  - assert (O : object_type t) by (destruct (set_stored _ _ _ _ _ _ H1 H2 Hl) as (O & _); exact O).
    destruct (set_numbers _ _ _ _ _ _ O E N) as (l & R & [U|U]); [eapply und_read; eauto|].
    inversion R; subst. inversion U as [|p q (x & X) _]; subst. cbn [fst snd] in X. eapply und_set; eauto.
    eapply (proj1 (C23_set_undefined_iff srt pw c (Some s) line n _ _ _ _ _ H1 H2 ltac:(eassumption) Hs Hl X)). now exists u.
  - destruct (dict_stored _ _ _ _ _ _ _ H1 H2 Hl) as (O & O' & _).
    destruct (dict_numbers _ _ _ _ _ _ _ O O' E N) as (l & R & [U|U]); [eapply und_read; eauto|].
    inversion R; subst; inversion U as [|p q (x & X) U']; subst; cbn [fst snd] in X.
    + eapply und_dictionary; eauto.
      eapply (proj1 (C23_dictionary_undefined_iff srt pw c (Some s) line n _ _ _ _ _ _ H1 H2 ltac:(eassumption) Hs Hl X)). now exists u.
    + inversion U' as [|p q (k & Xk) _]; subst. cbn [fst snd] in Xk. eapply und_associate; eauto.
      eapply (proj1 (C23_associate_undefined_iff srt pw c (Some s) line n _ _ _ _ _ _ _ H1 H2 Hs Hl X Xk)). now exists u.
Qed.
End Statement.

Lemma creation_reads t l u : object_type t -> num_ub u -> get_shared_instance t l = UB u -> t = B "Integer" /\ out_of_range l.
Proof. intros O N E. apply (get_ub _ _ _ E). destruct N; [now left|right; now left]. Qed.
Theorem C69_undefined_iff : forall srt pw c s line, sort_contract srt -> reachable srt pw c ->
  ((exists u, undefined_behaviour srt pw c (Some s) line u) <-> (exists a m args, statement line a m args /\ undefined_statement c a m args)).
Proof.
  intros srt pw c s line H1 H2. split.
  - intros [u Hu]. assert (N : numeric u) by exact (C28_memory_safety _ _ _ _ _ _ H1 H2 Hu).
    assert (E : snd (run_statement srt pw line {| w_ctx := c; w_session := Some s |}) = UB u).
    { unfold undefined_behaviour, execute in Hu. destruct (run_statement srt pw line _) as [w r]. cbn [fst snd] in Hu |- *. now destruct r. }
    destruct (statement_dec line) as [(a & m & args & Hs)|No].
    2:{ exfalso. unfold run_statement, bind, lift in E. rewrite (parse_not_statement _ No) in E. discriminate E. }
    exists a, m, args. split; [exact Hs|]. destruct (statement_actor _ _ _ _ Hs) as [->|[->|[T|V]]].
    + exfalso. rewrite (run_connection _ _ _ _ _ _ Hs) in E. unfold in_session in E. cbn [w_session snd] in E. exact (session_numbers _ _ _ _ _ E N).
    + rewrite (run_context _ _ _ _ _ _ Hs) in E. unfold in_ctx in E. cbn [w_ctx snd] in E.
      destruct (context_numbers _ _ _ _ E N) as (b & -> & -> & O). now apply und_precision.
    + destruct (run_type_made srt pw c (Some s) line a m args Hs T) as (r & M & R). rewrite R in E. destruct r as [[n i]|e|u'].
      * destruct (lookup c n); [destruct (starts_with m _)|]; discriminate E.
      * discriminate E.
      * destruct M as (Nu & O & W & n & l & -> & Vn & G). destruct (creation_reads _ _ _ O Nu G) as [-> K]. now apply und_create.
    + rewrite (run_variable _ _ _ _ _ _ _ Hs V) in E. unfold in_ctx, execute_in_variable in E. cbn [w_ctx p_actor p_message p_args] in E.
      rewrite <- assoc_smap_find in E. change (assoc (instances c) a) with (lookup c a) in E. destruct (lookup c a) as [i|] eqn:L; [|discriminate E].
      cbn [fst snd] in E. eapply und_variable; [exact L|]. eapply undefined_value; eauto.
  - intros (a & m & args & Hs & U). destruct U as [m n l W V O|l O|n i m args L U].
    + destruct (out_of_range_ub _ O) as [u E]. exists u. unfold integer_of in E.
      destruct (negb (is_integer_value l) && negb (is_float_value l)); [discriminate E|]. eapply create_integer_run; eauto.
      destruct O as [(d & D & _)|(_ & neg & x & d & D & _)]; [apply int_is_float, integer_value_denotes; eauto|apply float_value_denotes; eauto].
    + destruct (out_of_range_ub _ O) as [u E]. exists u. unfold undefined_behaviour. eapply execute_ub. rewrite (run_context _ _ _ _ _ _ Hs). unfold in_ctx. cbn [w_ctx w_session].
      assert (X : execute_in_context {| p_actor := B "Context"; p_message := B "setFloatPrecision:"; p_args := [l] |} c = (c, UB u)).
      { change (op_setFloatPrecision [l] c = (c, UB u)). unfold op_setFloatPrecision, bind, lift, arg, check_nargs, throw_if, ret. cbn [List.length Nat.eqb negb nth_error].
        now rewrite E. }
      rewrite X. reflexivity.
    + exact (message_undefined srt pw c s line H1 H2 n i m args Hs L U).
Qed.

(** A statement with undefined behaviour has no effect (C66); every other statement has its effect or answers its error (C67). *)
Theorem C69_three_outcomes : forall srt pw c s line a m args, sort_contract srt -> reachable srt pw c ->
  statement line a m args ->
  (undefined_statement c a m args /\ (exists u, undefined_behaviour srt pw c (Some s) line u) /\ ~ has_effect pw c (Some s) line) \/
  (~ undefined_statement c a m args /\ exists c' s' ans, runs srt pw c (Some s) line c' (Some s') ans /\
     ((effect pw c (Some s) a m args c' (Some s') ans /\ ~ error_answer ans) \/
      (~ has_effect pw c (Some s) line /\ error_of pw c a m args ans /\ error_answer ans /\ same_data c c' /\ s' = s))).
Proof.
  intros srt pw c s line a m args H1 H2 Hs. assert (I := C69_undefined_iff srt pw c s line H1 H2).
  destruct (classic (undefined_statement c a m args)) as [U|U].
  - left. split; [exact U|]. destruct (proj2 I) as [u Hu]; [now exists a, m, args|]. split; [now exists u|].
    intros (a' & m' & args' & c1 & s1 & ans1 & Hs' & E). destruct (statement_unique _ _ _ _ _ _ _ Hs Hs') as (<- & <- & <-).
    destruct (proj2 (C66_succeeds_iff srt pw c (Some s) line a m args H1 H2 Hs)) as (c2 & s2 & ans2 & R & _); [eauto|]. eapply runs_ub; eauto.
  - right. split; [exact U|].
    assert (T : exists c' s' ans, runs srt pw c (Some s) line c' (Some s') ans).
    { destruct (execute_good false srt pw line c (Some s) H1 (reachable_good srt pw c H1 H2) (clean_false _)) as [(c1 & s1 & t & H & Q)|[(e & H & Q)|(u & H & _)]].
      - destruct (runs_some _ _ _ _ _ _ _ _ H) as [s2 ->]. eauto.
      - eauto.
      - exfalso. destruct (proj1 I) as (a' & m' & args' & Hs' & U'); [now exists u|]. destruct (statement_unique _ _ _ _ _ _ _ Hs Hs') as (<- & <- & <-). contradiction. }
    destruct T as (c' & s' & ans & R). exists c', s', ans. split; [exact R|].
    destruct (C67_every_outcome srt pw c (Some s) line a m args c' (Some s') ans H1 H2 Hs R) as [K|(K1 & K2 & K3 & K4 & K5)]; [now left|right].
    injection K5 as ->. auto.
Qed.
(** The specification alone says whether a statement is executed, refused or undefined. *)
Theorem C69_refused_iff : forall srt pw c s line a m args, sort_contract srt -> reachable srt pw c ->
  statement line a m args ->
  ((exists c' s' ans, runs srt pw c (Some s) line c' (Some s') ans /\ error_answer ans) <-> (~ has_effect pw c (Some s) line /\ ~ undefined_statement c a m args)).
Proof.
  intros srt pw c s line a m args H1 H2 Hs. destruct (C69_three_outcomes srt pw c s line a m args H1 H2 Hs) as [(U & [u Hu] & N)|(U & c' & s' & ans & R & K)].
  - split; [|tauto]. intros (c' & s' & ans & R & _). exfalso. eapply runs_ub; eauto.
  - destruct K as [[E X]|(N & E & X & _)].
    + split; [|intros [N _]; exfalso; apply N; exists a, m, args, c', (Some s'), ans; auto].
      intros (c1 & s1 & ans1 & R1 & X1). destruct (runs_unique _ _ _ _ _ _ _ _ _ _ _ R R1) as (_ & _ & <-). contradiction.
    + split; [auto|]. intros _. exists c', s', ans. auto.
Qed.

(** ** Servers *)
Lemma connection_defined srt pw c m args : sort_contract srt -> reachable srt pw c -> ~ undefined_statement c (B "Connection") m args.
Proof.
  intros H1 H2 U. remember (B "Connection") as q eqn:Eq. destruct U as [m n a _ _ _|a _|n i m args L _]; [discriminate Eq|discriminate Eq|subst n].
  assert (V : variable (B "Connection")) by (eapply C25_live_names_are_variables; eauto; unfold live; congruence).
  apply is_variable_iff in V. vm_compute in V. discriminate V.
Qed.
Lemma run_reaches srt pw c0 es : sort_contract srt -> reachable srt pw c0 -> sv_crash (run srt (start pw c0) es) = None ->
  reachable srt pw (sv_ctx (run srt (start pw c0) es)).
Proof.
  intros H1 H2 Hc. destruct (C35_every_schedule_is_serialisable srt pw c0 es Hc) as (h & ss & S & _).
  exact (proj2 (serial_specified _ _ _ _ _ _ _ H1 H2 S)).
Qed.
Lemma server_password srt pw c0 es : sv_crash (run srt (start pw c0) es) = None -> sv_password (run srt (start pw c0) es) = pw.
Proof. intros Hc. destruct (inv_exists srt pw c0 es Hc) as (h & ss & I). apply (i_pw _ _ _ _ _ _ _ I). Qed.
Theorem C69_every_crash : forall srt pw c0 es u, sort_contract srt -> reachable srt pw c0 ->
  sv_crash (run srt (start pw c0) es) = Some u ->
  exists es1 sid k es2 cn line, es = es1 ++ Handle sid k :: es2 /\ let sv := run srt (start pw c0) es1 in
    sv_crash sv = None /\ nth_error (sv_conns sv) sid = Some cn /\ next_line cn line /\
    ((is_authenticated (c_session cn) = true /\ exists a m args, statement line a m args /\ undefined_statement (sv_ctx sv) a m args) \/
     (u = DanglingBuffer /\ exists c' s' o a, processes srt pw (sv_ctx sv) (c_session cn) line c' s' o /\ answer_to o = [a] /\
        (k <= List.length a \/ 65536 <= List.length a)%nat)).
Proof.
  intros srt pw c0 es u H1 H2 H. destruct (first_crash srt es (start pw c0) u eq_refl H) as (es1 & e & es2 & -> & Hc & E).
  destruct (crash_cause _ _ _ _ Hc E) as (sid & k & cn & line & -> & Hn & _ & N & K). exists es1, sid, k, es2, cn, line. split; [reflexivity|]. cbv zeta.
  assert (R := run_reaches srt pw c0 es1 H1 H2 Hc). rewrite (server_password srt pw c0 es1 Hc) in K.
  split; [exact Hc|]. split; [exact Hn|]. split; [exact N|]. destruct K as [[U A]|(-> & c' & s' & o & a & Pr & An & L)].
  - left. destruct (proj1 (C69_undefined_iff srt pw _ (c_session cn) line H1 R)) as (a & m & args & Hs & Ud); [now exists u|].
    split; [|now exists a, m, args]. destruct A as [A|(m' & args' & Hs')]; [exact A|]. exfalso.
    destruct (statement_unique _ _ _ _ _ _ _ Hs Hs') as (-> & -> & ->). eapply connection_defined; eauto.
  - right. split; [reflexivity|]. exists c', s', o, a. split; [exact Pr|]. split; [exact An|]. revert L. generalize 65536%nat. intros q L. lia.
Qed.
(** One such line of an authenticated client is enough. *)
Theorem C69_undefined_statements_stop_the_server : forall srt pw c0 es sid k cn line a m args,
  sort_contract srt -> reachable srt pw c0 ->
  let sv := run srt (start pw c0) es in
  sv_crash sv = None -> nth_error (sv_conns sv) sid = Some cn -> c_phase cn = Reading -> is_authenticated (c_session cn) = true -> next_line cn line ->
  statement line a m args -> undefined_statement (sv_ctx sv) a m args ->
  exists u, sv_crash (step srt sv (Handle sid k)) = Some u /\ (u = AtoiRange \/ u = IntConversion \/ u = BadOrder).
Proof.
  intros srt pw c0 es sid k cn line a m args H1 H2 sv Hc Hn Hp A N Hs U. assert (R := run_reaches srt pw c0 es H1 H2 Hc).
  destruct (proj2 (C69_undefined_iff srt pw _ (c_session cn) line H1 R)) as [u Hu]; [now exists a, m, args|]. fold sv in Hu.
  destruct (handle_cases srt sv sid k cn line Hc Hn Hp N) as [(v & V & _ & E)|(c' & s' & o & P)]; unfold sv in *; rewrite (server_password srt pw c0 es Hc) in *.
  - exists v. rewrite E. split; [reflexivity|]. exact (C28_memory_safety _ _ _ _ _ _ H1 R V).
  - exfalso. destruct P as [A' _|c' s' ans _ Ru _|c' s' ans _ Ru _]; [congruence| |]; eapply runs_ub; eauto.
Qed.

(** x = 5 and v = [1,2]: what is undefined, and near misses that are not. *)
Definition undefined_data : context :=
  match after insertion_sort (B "pw") empty_server
    [B "Integer create: x withValue: 5;"; B "Vector<Integer> create: v;"; B "v pushBack: 1;"; B "v pushBack: 2;"] with Some c => c | None => empty_server end.
Example C69_ex : reachable insertion_sort (B "pw") undefined_data /\
  Forall (fun line => exists a m args, statement line a m args /\ undefined_statement undefined_data a m args)
    [B "x set: 2147483648;"; B "x isLessThan? 99999999999;"; B "x multiplyBy: 2147483647;"; B "x divideBy: 0;"; B "v atIndex: 99999999999;";
     B "v insert: 3 beforeIndex: 99999999999;"; B "Integer create: y withValue: -2147483649;"; B "Context setFloatPrecision: 4294967296;"] /\
  Forall (fun line => forall a m args, statement line a m args -> ~ undefined_statement undefined_data a m args)
    [B "x set: 2147483647;"; B "v atIndex: 2;"; B "v insert: true beforeIndex: 99999999999;"; B "x divideBy: 2;"].
Proof.
  assert (R : reachable insertion_sort (B "pw") undefined_data) by (apply (after_reachable insertion_sort (B "pw") [B "Integer create: x withValue: 5;"; B "Vector<Integer> create: v;"; B "v pushBack: 1;"; B "v pushBack: 2;"] empty_server);
    [constructor; vm_compute; reflexivity|vm_compute; reflexivity]).
  split; [exact R|]. split.
  - repeat apply Forall_cons; try apply Forall_nil;
      (apply (proj1 (C69_undefined_iff insertion_sort (B "pw") undefined_data (fresh (B "pw")) _ insertion_sort_contract R)); eexists; unfold undefined_behaviour; vm_compute; reflexivity).
  - assert (K : forall line, (exists c s t, execute insertion_sort (B "pw") line {| w_ctx := undefined_data; w_session := Some (fresh (B "pw")) |} = ({| w_ctx := c; w_session := s |}, Ok t)) ->
      forall a m args, statement line a m args -> ~ undefined_statement undefined_data a m args).
    { intros line (c & s & t & E) a m args Hs U. destruct (proj2 (C69_undefined_iff insertion_sort (B "pw") undefined_data (fresh (B "pw")) line insertion_sort_contract R)) as [u Hu]; [eauto|].
      unfold undefined_behaviour in Hu. rewrite E in Hu. discriminate Hu. }
    repeat apply Forall_cons; try apply Forall_nil; (apply K; eexists _, _, _; vm_compute; reflexivity).
Qed.
Print Assumptions C69_undefined_iff.
Print Assumptions C69_three_outcomes.
Print Assumptions C69_refused_iff.
Print Assumptions C69_every_crash.
Print Assumptions C69_undefined_statements_stop_the_server.
Print Assumptions C69_ex.
