(** What the effect of a line depends on. *)
From Verif Require Import Bytes StrUtils Grammar Outcome Parser Num Containers Instance Context.
From Verif Require Import Lemmas StringLit Proof_Grammar Proof_Parser Proof_Exec WP Proof_Inv Proof_Literal Proof_Receive Proof_Context Proof_Names Api.
From Verif Require Import Spec_Grammar Spec_State Spec_Names Spec_Local.
From Coq Require Import Sorting.Sorted.
Open Scope list_scope.

(** ** contexts that differ in their logs only *)
Definition twin (c d : context) : Prop := instances c = instances d /\ float_precision c = float_precision d /\ tolerance c = tolerance d.
Lemma twin_refl c : twin c c. Proof. now repeat split. Qed.
Lemma sorted_assoc_eq {V} (l1 : list (str * V)) : forall l2, keys_sorted l1 -> keys_sorted l2 -> (forall n, assoc l1 n = assoc l2 n) -> l1 = l2.
Proof.
  induction l1 as [|[k v] l1 IH]; intros [|[k2 v2] l2] H1 H2 E.
  - reflexivity.
  - specialize (E k2). cbn in E. destruct (bytes_dec k2 k2); congruence.
  - specialize (E k). cbn in E. destruct (bytes_dec k k); congruence.
  - assert (S1 := H1). assert (S2 := H2). unfold keys_sorted in H1, H2. cbn [map fst] in H1, H2.
    apply StronglySorted_inv in H1 as [H1 F1]. apply StronglySorted_inv in H2 as [H2 F2].
    rewrite Forall_forall in F1, F2.
    assert (Irr : forall a, str_ltb a a <> true) by (intros a; rewrite str_ltb_irrefl; discriminate).
    assert (K : k = k2).
    { assert (E1 := E k). cbn in E1. destruct (bytes_dec k k) as [_|N]; [|congruence]. destruct (bytes_dec k2 k) as [->|N]; [reflexivity|].
      assert (E2 := E k2). cbn in E2. destruct (bytes_dec k2 k2) as [_|N2]; [|congruence]. destruct (bytes_dec k k2) as [->|N2]; [reflexivity|].
      symmetry in E1. apply assoc_some_in in E1. apply assoc_some_in in E2.
      assert (A1 := F2 k (in_map fst _ _ E1)). assert (A2 := F1 k2 (in_map fst _ _ E2)). exfalso.
      apply (Irr k). eapply str_ltb_trans; eauto. }
    subst k2. assert (v = v2) as -> by (specialize (E k); cbn in E; destruct (bytes_dec k k); congruence).
    f_equal. apply IH; auto. intros n. specialize (E n). cbn in E. destruct (bytes_dec k n) as [->|N]; [|exact E].
    assert (X : forall l : list (str * V), (forall x, In x (map fst l) -> str_ltb n x = true) -> assoc l n = None).
    { intros l F. destruct (assoc l n) eqn:A; [|reflexivity]. apply assoc_some_in in A. exfalso. apply (Irr n). apply F. now apply (in_map fst) in A. }
    rewrite (X l1 F1), (X l2 F2). reflexivity.
Qed.
Lemma same_data_twin c d : keys_sorted (instances c) -> keys_sorted (instances d) -> (same_data c d <-> twin c d).
Proof.
  intros Hc Hd. split.
  - intros (L & P & T). repeat split; auto. apply sorted_assoc_eq; auto. intros n. symmetry. apply L.
  - intros (I & P & T). unfold same_data, same_settings, lookup. rewrite I, P, T. auto.
Qed.
Lemma twin_same_data c d : twin c d -> same_data c d.
Proof. intros (I & P & T). unfold same_data, same_settings, lookup. rewrite I, P, T. auto. Qed.
Lemma twin_log l o c d : twin c d -> twin (write_log l o c) d.
Proof. intros (I & P & T). unfold twin. now rewrite write_log_instances, write_log_precision, write_log_tolerance. Qed.
Lemma twin_sym c d : twin c d -> twin d c. Proof. intros (I & P & T). now repeat split. Qed.

Definition indep {A} (m : M context A) : Prop := forall c d, twin c d -> twin (fst (m c)) (fst (m d)) /\ snd (m c) = snd (m d).
Lemma indep_ret {A} (a : A) : indep (ret a). Proof. intros c d H. split; [exact H|reflexivity]. Qed.
Lemma indep_throw {A} e : indep (@throw context A e). Proof. intros c d H. split; [exact H|reflexivity]. Qed.
Lemma indep_ub {A} u : indep (@undefined context A u). Proof. intros c d H. split; [exact H|reflexivity]. Qed.
Lemma indep_lift {A} (r : res A) : indep (lift r). Proof. intros c d H. split; [exact H|reflexivity]. Qed.
Lemma indep_bind {A B} (m : M context A) (f : A -> M context B) : indep m -> (forall a, indep (f a)) -> indep (bind m f).
Proof.
  intros Hm Hf c d H. unfold bind. destruct (Hm c d H) as [T E]. destruct (m c) as [c1 r1], (m d) as [d1 r2]. cbn [fst snd] in *. subst r2.
  destruct r1; [now apply Hf|split; auto|split; auto].
Qed.
Lemma indep_get {B} (f : context -> M context B) : (forall c d, twin c d -> twin (fst (f c c)) (fst (f d d)) /\ snd (f c c) = snd (f d d)) -> indep (bind get f).
Proof. intros H c d T. exact (H c d T). Qed.
Lemma indep_check args n : indep (@check_nargs context args n).
Proof. unfold check_nargs, throw_if. destruct (_ : bool); [apply indep_throw|apply indep_ret]. Qed.
Lemma indep_throw_if b e : indep (@throw_if context b e).
Proof. unfold throw_if. destruct b; [apply indep_throw|apply indep_ret]. Qed.
Lemma indep_arg args n : indep (@arg context args n).
Proof. intros c d H. unfold arg. destruct (nth_error args n); split; auto. Qed.
Ltac indep := repeat first [apply indep_ret | apply indep_throw | apply indep_ub | apply indep_lift | apply indep_check | apply indep_throw_if | apply indep_arg
  | match goal with |- indep (bind get _) => apply indep_get; intros ? ? (I & P & T) end | apply indep_bind; [|intros] | match goal with |- indep (if ?b then _ else _) => destruct b end].
Lemma indep_dispatch table m args : (forall k op, In (k, op) table -> forall a, indep (op a)) -> indep (dispatch table m args).
Proof.
  induction table as [|[k op] t IH]; intros H; cbn [dispatch]; [apply indep_throw|]. destruct (seq_eqb m k).
  - apply (H k). now left.
  - apply IH. intros k' op' Hin. apply (H k'). now right.
Qed.
Lemma indep_dict_loop m args : forall rest before acc, indep (dict_type_loop rest before m args acc).
Proof.
  induction rest as [|c r IH]; intros before acc; cbn [dict_type_loop]; [apply indep_ret|]. destruct (ceq c c_comma); [|apply IH].
  apply indep_bind; [unfold container_create; indep|intros; apply IH].
Qed.
Lemma indep_construct t m args : indep (construct t m args).
Proof.
  unfold construct, boolean_create, character_create, integer_create, float_create, string_create, container_create. indep.
  - apply indep_dict_loop.
  - destruct a0; indep.
Qed.
Lemma indep_type p : indep (execute_in_type p).
Proof.
  unfold execute_in_type. apply indep_bind; [apply indep_construct|]. intros i. apply indep_get. intros c d (I & P & T). rewrite I.
  destruct (smap_find (instances d) (fst i)).
  - destruct (starts_with _ _); (split; [now repeat split|reflexivity]).
  - split; [now repeat split|reflexivity].
Qed.
Lemma indep_context p : indep (execute_in_context p).
Proof.
  unfold execute_in_context. apply indep_dispatch. intros k op H a.
  repeat destruct H as [H|H]; try contradiction; inversion H; subst; clear H.
  - unfold op_listNamespaces. indep. rewrite I. split; [now repeat split|reflexivity].
  - unfold op_listVariables. indep. rewrite I. split; [now repeat split|reflexivity].
  - unfold op_listVariablesOfNamespace. indep. rewrite I. split; [now repeat split|reflexivity].
  - unfold op_deleteVariable. indep. rewrite I. destruct (erase_name _ _); first [split; [now repeat split|reflexivity] | now repeat split].
  - unfold op_deleteVariablesOfNamespace. indep. rewrite I. first [split; [now repeat split|reflexivity] | now repeat split].
  - unfold op_getFloatPrecision. indep. rewrite P. first [split; [now repeat split|reflexivity] | now repeat split].
  - unfold op_setFloatPrecision. indep. first [split; [now repeat split|reflexivity] | now repeat split].
  - unfold op_getFloatComparisonTolerance. indep. rewrite P, T. first [split; [now repeat split|reflexivity] | now repeat split].
  - unfold op_setFloatComparisonTolerance. indep. first [split; [now repeat split|reflexivity] | now repeat split].
Qed.
Lemma indep_variable srt p : indep (execute_in_variable srt p).
Proof.
  intros c d (I & P & T). unfold execute_in_variable, env_of. rewrite I, P, T. destruct (smap_find _ _); (split; [now repeat split|reflexivity]).
Qed.
Lemma reading_parse l1 l2 : same_reading l1 l2 -> parse l1 = parse l2.
Proof.
  intros H. destruct (statement_dec l1) as [(a & m & args & S)|N].
  - rewrite (parse_statement _ _ _ _ S). symmetry. apply parse_statement. now apply H.
  - rewrite (parse_not_statement _ N), parse_not_statement; [reflexivity|]. intros a m args S. apply H in S. eapply N; eauto.
Qed.
Lemma statement_twin srt pw l1 l2 c d s : same_reading l1 l2 -> twin c d ->
  let r := run_statement srt pw l1 {| w_ctx := c; w_session := s |} in
  let r' := run_statement srt pw l2 {| w_ctx := d; w_session := s |} in
  twin (w_ctx (fst r)) (w_ctx (fst r')) /\ w_session (fst r) = w_session (fst r') /\ snd r = snd r'.
Proof.
  intros R T. cbv zeta. unfold run_statement, bind, lift. rewrite <- (reading_parse _ _ R). destruct (parse l1) as [p|e|u]; [|now (split; [exact T|])|now (split; [exact T|])].
  assert (C : forall m : M context str, indep m -> let r := in_ctx m {| w_ctx := c; w_session := s |} in let r' := in_ctx m {| w_ctx := d; w_session := s |} in
    twin (w_ctx (fst r)) (w_ctx (fst r')) /\ w_session (fst r) = w_session (fst r') /\ snd r = snd r').
  { intros m Hm. cbv zeta. unfold in_ctx. cbn [w_ctx w_session fst snd]. destruct (Hm c d T) as [A B]. auto. }
  destruct (is_type _); [apply C, indep_type|]. destruct (is_context _); [apply C, indep_context|].
  destruct (is_variable _); [apply C, indep_variable|]. destruct (is_connection _); [|now (split; [exact T|])].
  unfold in_session. cbn [w_session w_ctx]. destruct s; now (split; [exact T|]).
Qed.
Lemma runs_twin srt pw l1 l2 c d s c' s' ans : same_reading l1 l2 -> twin c d -> runs srt pw c s l1 c' s' ans ->
  exists d', runs srt pw d s l2 d' s' ans /\ twin c' d'.
Proof.
  intros R T H. unfold runs, execute in *. destruct (statement_twin srt pw l1 l2 c d s R T) as (A & B & E).
  destruct (run_statement srt pw l1 _) as [w r]. destruct (run_statement srt pw l2 _) as [w' r']. cbn [fst snd] in *. subst r'.
  destruct (catch_text r) as [o|e|u]; inversion H; subst; clear H. rewrite <- B. eexists. split; [reflexivity|].
  apply twin_log, twin_sym, twin_log, twin_sym, A.
Qed.
Lemma ub_twin srt pw l1 l2 c d s u : same_reading l1 l2 -> twin c d -> undefined_behaviour srt pw c s l1 u -> undefined_behaviour srt pw d s l2 u.
Proof.
  intros R T H. unfold undefined_behaviour, execute in *. destruct (statement_twin srt pw l1 l2 c d s R T) as (A & B & E).
  destruct (run_statement srt pw l1 _) as [w r]. destruct (run_statement srt pw l2 _) as [w' r']. cbn [fst snd] in *. subst r'.
  destruct (catch_text r) as [o|e|v]; exact H.
Qed.
