(** Property C80: the tolerance of comparisons matters only where floating-point numbers are compared.  Specification: [Spec_Tolerance]. *)
From Coq Require Import ZArith Reals QArith Sorting.Sorted Sorting.Permutation.
From Verif Require Import Bytes StrUtils Grammar Outcome Parser Num Containers Instance Context Server Platform.
From Verif Require Import Lemmas StringLit Proof_Grammar Proof_Parser Proof_Exec WP Proof_Inv Proof_Literal Proof_Receive Proof_Context Proof_Names Api Proof_Text Proof_Local.
From Verif Require Import Proof_Number Proof_Float Proof_Arith Proof_Order Props_Text Props_State Props_Number Props_Float Props_Order Props_Local Props_Observe Proof_Display Proof_Tolerance.
From Verif Require Import Spec_Grammar Spec_State Spec_Names Spec_Text Spec_Number Spec_Float Spec_Order Spec_Local Spec_Observe Spec_Display Spec_Tolerance.
Local Open Scope list_scope.

(** ** data that differ in the tolerance and the logs only *)
Definition near (c d : context) : Prop := instances c = instances d /\ float_precision c = float_precision d.
Lemma near_sym c d : near c d -> near d c. Proof. intros [I T]. now split. Qed.
Lemma near_log l o c d : near c d -> near (write_log l o c) d.
Proof. intros [I T]. unfold near. now rewrite write_log_instances, write_log_precision. Qed.
Definition ind {A} (m : M context A) : Prop := forall c d, near c d -> near (fst (m c)) (fst (m d)) /\ snd (m c) = snd (m d).
Lemma ind_ret {A} (a : A) : ind (ret a). Proof. intros c d H. split; [exact H|reflexivity]. Qed.
Lemma ind_throw {A} e : ind (@throw context A e). Proof. intros c d H. split; [exact H|reflexivity]. Qed.
Lemma ind_ub {A} u : ind (@undefined context A u). Proof. intros c d H. split; [exact H|reflexivity]. Qed.
Lemma ind_lift {A} (r : res A) : ind (lift r). Proof. intros c d H. split; [exact H|reflexivity]. Qed.
Lemma ind_bind {A B} (m : M context A) (f : A -> M context B) : ind m -> (forall a, ind (f a)) -> ind (bind m f).
Proof.
  intros Hm Hf c d H. unfold bind. destruct (Hm c d H) as [T E]. destruct (m c) as [c1 r1], (m d) as [d1 r2]. cbn [fst snd] in *. subst r2.
  destruct r1; [now apply Hf|split; auto|split; auto].
Qed.
Lemma ind_get {B} (f : context -> M context B) : (forall c d, near c d -> near (fst (f c c)) (fst (f d d)) /\ snd (f c c) = snd (f d d)) -> ind (bind get f).
Proof. intros H c d T. exact (H c d T). Qed.
Lemma ind_check args n : ind (@check_nargs context args n).
Proof. unfold check_nargs, throw_if. destruct (_ : bool); [apply ind_throw|apply ind_ret]. Qed.
Lemma ind_throw_if b e : ind (@throw_if context b e).
Proof. unfold throw_if. destruct b; [apply ind_throw|apply ind_ret]. Qed.
Lemma ind_arg args n : ind (@arg context args n).
Proof. intros c d H. unfold arg. destruct (nth_error args n); split; auto. Qed.
Ltac fin := now repeat split.
Ltac ind := repeat first [apply ind_ret | apply ind_throw | apply ind_ub | apply ind_lift | apply ind_check | apply ind_throw_if | apply ind_arg
  | match goal with |- ind (bind get _) => apply ind_get; intros ? ? (I & T) end | apply ind_bind; [|intros] | match goal with |- ind (if ?b then _ else _) => destruct b end].
Lemma ind_dict_loop m args : forall rest before acc, ind (dict_type_loop rest before m args acc).
Proof.
  induction rest as [|c r IH]; intros before acc; cbn [dict_type_loop]; [apply ind_ret|]. destruct (ceq c c_comma); [|apply IH].
  apply ind_bind; [unfold container_create; ind|intros; apply IH].
Qed.
Lemma ind_construct t m args : ind (construct t m args).
Proof.
  unfold construct, boolean_create, character_create, integer_create, float_create, string_create, container_create. ind.
  - apply ind_dict_loop.
  - destruct a0; ind.
Qed.
Lemma ind_type p : ind (execute_in_type p).
Proof.
  unfold execute_in_type. apply ind_bind; [apply ind_construct|]. intros i. apply ind_get. intros c d (I & T). rewrite I.
  destruct (smap_find (instances d) (fst i)).
  - destruct (starts_with _ _); (fin).
  - fin.
Qed.

Lemma context_near p c d : near c d -> p_message p <> B "getFloatComparisonTolerance" ->
  near (fst (execute_in_context p c)) (fst (execute_in_context p d)) /\ snd (execute_in_context p c) = snd (execute_in_context p d).
Proof.
  intros Nr Nm. unfold execute_in_context.
  assert (D : forall table m args, m <> B "getFloatComparisonTolerance" -> (forall k op, In (k, op) table -> k = B "getFloatComparisonTolerance" \/ forall a, ind (op a)) -> ind (dispatch table m args)).
  { clear. induction table as [|[k op] t IH]; intros m args Nm H; cbn [dispatch]; [apply ind_throw|]. destruct (seq_eqb m k) eqn:Q.
    - apply seq_eqb_eq in Q. subst k. destruct (H m op) as [X|X]; [now left|contradiction|apply X].
    - apply IH; [exact Nm|]. intros k' op' I. apply (H k' op'). now right. }
  apply D; [exact Nm| |exact Nr]. intros k op H.
  repeat destruct H as [H|H]; try contradiction; inversion H; subst; clear H; try (left; reflexivity); right; intros a.
  - unfold op_listNamespaces. ind. rewrite I. fin.
  - unfold op_listVariables. ind. rewrite I. fin.
  - unfold op_listVariablesOfNamespace. ind. rewrite I. fin.
  - unfold op_deleteVariable. ind. rewrite I. destruct (erase_name _ _); fin.
  - unfold op_deleteVariablesOfNamespace. ind. rewrite I. fin.
  - unfold op_getFloatPrecision. ind. rewrite T. fin.
  - unfold op_setFloatPrecision. ind; try fin.
  - unfold op_setFloatComparisonTolerance. ind; try fin.
Qed.
Lemma variable_near srt p c d : near c d -> sort_contract srt -> V32 (tolerance c) -> V32 (tolerance d) -> (forall i, lookup c (p_actor p) = Some i -> in_shape i /\ ~ compares_floats i (p_message p) (p_args p)) ->
  near (fst (execute_in_variable srt p c)) (fst (execute_in_variable srt p d)) /\ snd (execute_in_variable srt p c) = snd (execute_in_variable srt p d).
Proof.
  intros (I & T) K Vc Vd. unfold execute_in_variable, env_of, lookup. rewrite assoc_smap_find, I, T. destruct (smap_find (instances d) (p_actor p)) as [i|]; intros H.
  - destruct (H i eq_refl) as [Sh N]. rewrite (receive_tolerance (float_precision d) (tolerance c) (tolerance d) srt i _ _ N K Vc Vd Sh). destruct (receive _ i _ _) as [i1 r1]. now split.
  - now split.
Qed.
Lemma shape srt pw c n i : sort_contract srt -> reachable srt pw c -> lookup c n = Some i -> in_shape i.
Proof.
  intros K R L. destruct (ctx_good_lookup _ _ _ _ (reachable_good srt pw c K R) L) as [_ G]. assert (W := inst_good_typed _ _ G).
  destruct i as [o|t v|t v|kt vt d]; cbn [in_shape well_typed] in *.
  - exact I.
  - destruct (vector_good _ _ _ _ _ _ K R L) as (_ & A & B & _). now split.
  - apply W.
  - destruct W as (_ & _ & W). revert W. apply Forall_impl. tauto.
Qed.
Lemma statement_near srt pw pwc pwd line c d s : sort_contract srt -> reachable srt pwc c -> reachable srt pwd d -> near c d -> ~ tolerance_matters c line ->
  let r := run_statement srt pw line {| w_ctx := c; w_session := s |} in
  let r' := run_statement srt pw line {| w_ctx := d; w_session := s |} in
  near (w_ctx (fst r)) (w_ctx (fst r')) /\ w_session (fst r) = w_session (fst r') /\ snd r = snd r'.
Proof.
  intros K Rc Rd T N. cbv zeta. unfold run_statement, bind, lift.
  destruct (parse line) as [[a m args]|e|u] eqn:Ep; [|split; [exact T|now split]|split; [exact T|now split]].
  apply parse_iff in Ep. cbn [p_actor p_message p_args].
  assert (C : forall (x : M context str), (near (fst (x c)) (fst (x d)) /\ snd (x c) = snd (x d)) ->
    let r := in_ctx x {| w_ctx := c; w_session := s |} in let r' := in_ctx x {| w_ctx := d; w_session := s |} in
    near (w_ctx (fst r)) (w_ctx (fst r')) /\ w_session (fst r) = w_session (fst r') /\ snd r = snd r').
  { intros x (A & B). cbv zeta. unfold in_ctx. cbn [w_ctx w_session fst snd]. split; [exact A|]. now split. }
  destruct (is_type _); [apply C, ind_type; exact T|].
  destruct (is_context _) eqn:Ec.
  { apply C, context_near; [exact T|]. cbn [p_message]. intros X. apply N. apply seq_eqb_eq in Ec. exists a, m, args. split; [exact Ep|]. now left. }
  destruct (is_variable _).
  { apply C, variable_near; [exact T|exact K|exact (reachable_tolerance _ _ _ K Rc)|exact (reachable_tolerance _ _ _ K Rd)|]. cbn [p_actor p_message p_args]. intros i L. split; [exact (shape _ _ _ _ _ K Rc L)|].
    intros X. apply N. exists a, m, args. split; [exact Ep|]. right. now exists i. }
  destruct (is_connection _); [|split; [exact T|now split]].
  unfold in_session. cbn [w_session w_ctx]. destruct s; (split; [exact T|]; now split).
Qed.
Lemma near_values srt pwc pwd c d : sort_contract srt -> reachable srt pwc c -> reachable srt pwd d -> (same_but_tolerance c d <-> near c d).
Proof.
  intros Hs Rc Rd. split.
  - intros [L T]. split; [|now symmetry]. apply sorted_assoc_eq; [now apply (reachable_keys srt pwc)|now apply (reachable_keys srt pwd)|]. intros n. symmetry. apply L.
  - intros [I T]. split; [|now symmetry]. intros n. unfold lookup. now rewrite I.
Qed.

(** ** C80 *)
Theorem C80_tolerance_matters_for_floats_only : forall srt pw pwc pwd c d s line c' s' ans, sort_contract srt -> reachable srt pwc c -> reachable srt pwd d ->
  same_but_tolerance c d -> ~ tolerance_matters c line -> runs srt pw c s line c' s' ans ->
  exists d', runs srt pw d s line d' s' ans /\ same_but_tolerance c' d'.
Proof.
  intros srt pw pwc pwd c d s line c' s' ans K Rc Rd V N H. apply (near_values srt pwc pwd c d K Rc Rd) in V.
  unfold runs, execute in *. destruct (statement_near srt pw pwc pwd line c d s K Rc Rd V N) as (A & B & Q).
  destruct (run_statement srt pw line {| w_ctx := c; w_session := s |}) as [w r]. destruct (run_statement srt pw line {| w_ctx := d; w_session := s |}) as [w' r']. cbn [fst snd] in *. subst r'.
  destruct (catch_text r) as [o|e|u]; inversion H; subst; clear H. rewrite <- B. eexists. split; [reflexivity|].
  destruct (near_log line ans _ _ (near_sym _ _ (near_log line ans _ _ (near_sym _ _ A)))) as [X Y]. split; [|now symmetry]. intros n. unfold lookup. now rewrite X.
Qed.
Theorem C80_undefined_behaviour_and_tolerance : forall srt pw pwc pwd c d s line u, sort_contract srt -> reachable srt pwc c -> reachable srt pwd d ->
  same_but_tolerance c d -> ~ tolerance_matters c line -> (undefined_behaviour srt pw c s line u <-> undefined_behaviour srt pw d s line u).
Proof.
  intros srt pw pwc pwd c d s line u K Rc Rd V N. apply (near_values srt pwc pwd c d K Rc Rd) in V.
  unfold undefined_behaviour, execute. destruct (statement_near srt pw pwc pwd line c d s K Rc Rd V N) as (A & B & Q).
  destruct (run_statement srt pw line {| w_ctx := c; w_session := s |}) as [w r]. destruct (run_statement srt pw line {| w_ctx := d; w_session := s |}) as [w' r']. cbn [fst snd] in *. subst r'.
  destruct (catch_text r); cbn [snd]; split; intros X; exact X.
Qed.
Definition integer_lines : list bytes := [B "Integer create: x withValue: 5;"; B "Vector<String> create: v;"; B "Vector<Float> create: w;"].
Example C80_ex :
  let c := data_after integer_lines in let d := data_after (integer_lines ++ [B "Context setFloatComparisonTolerance: 0.5;"]) in
  reachable insertion_sort [] c /\ reachable insertion_sort [] d /\ same_but_tolerance c d /\ tolerance c <> tolerance d /\
  ~ tolerance_matters c (B "x isEqualTo? 6;") /\ ~ tolerance_matters c (B "v sort;") /\ ~ tolerance_matters c (B "w pushBack: 1.5;") /\ tolerance_matters c (B "x isEqualTo? 5.2;") /\
  answered insertion_sort [] c None [B "x isEqualTo? 6;"; B "x isEqualTo? 5.2;"] [B "false"; B "false"] /\
  answered insertion_sort [] d None [B "x isEqualTo? 6;"; B "x isEqualTo? 5.2;"] [B "false"; B "true"].
Proof.
  cbv zeta. split; [apply data_after_reachable|]. split; [apply data_after_reachable|].
  assert (X : forall c line a m args i, statement line a m args -> lookup c a = Some i -> a <> B "Context" -> ~ compares_floats i m args -> ~ tolerance_matters c line).
  { intros c line a m args i S L Na N (a' & m' & args' & S' & H). destruct (statement_unique _ _ _ _ _ _ _ S' S) as (-> & -> & ->). destruct H as [[H _]|(i' & L' & H)]; [contradiction|].
    rewrite L in L'. inversion L'; subst. contradiction. }
  split; [|split; [|split; [|split; [|split; [|split; [|split]]]]]].
  - split; [|vm_compute; reflexivity]. intros n. unfold lookup. f_equal.
  - vm_compute. discriminate.
  - apply (X _ _ (B "x") (B "isEqualTo?") [B "6"] (IObj (OInt 5))); [stmt|vm_compute; reflexivity|vm_compute; discriminate|].
    intros (_ & _ & a & [<-|[]] & _ & N). apply N. apply is_integer_value_iff. vm_compute. reflexivity.
  - apply (X _ _ (B "v") (B "sort") [] (IVector (B "String") [])); [stmt|vm_compute; reflexivity|vm_compute; discriminate|]. intros (_ & N). vm_compute in N. discriminate N.
  - apply (X _ _ (B "w") (B "pushBack:") [B "1.5"] (IVector (B "Float") [])); [stmt|vm_compute; reflexivity|vm_compute; discriminate|]. intros (N & _). vm_compute in N. repeat destruct N as [N|N]; try discriminate N. exact N.
  - exists (B "x"), (B "isEqualTo?"), [B "5.2"]. split; [stmt|]. right. exists (IObj (OInt 5)). split; [vm_compute; reflexivity|]. split; [now left|]. split; [vm_compute; discriminate|].
    exists (B "5.2"). split; [now left|]. split; [apply is_float_value_iff; vm_compute; reflexivity|]. intros F1. apply is_integer_value_iff in F1. vm_compute in F1. discriminate F1.
  - eexists _, _. do 2 (econstructor; [unfold runs; vm_compute; reflexivity|]). constructor.
  - eexists _, _. do 2 (econstructor; [unfold runs; vm_compute; reflexivity|]). constructor.
Qed.
