(** Property C79: the precision setting is for display only.  Specification: [Spec_Display]. *)
From Verif Require Import Bytes StrUtils Grammar Outcome Parser Num Containers Instance Context Server Platform.
From Verif Require Import Lemmas StringLit Proof_Grammar Proof_Parser Proof_Exec WP Proof_Inv Proof_Literal Proof_Receive Proof_Context Proof_Names Api Proof_Text Proof_Order Proof_Local Proof_Display Props_State Props_Local Props_Observe.
From Verif Require Import Spec_Grammar Spec_State Spec_Names Spec_Text Spec_Local Spec_Observe Spec_Display.
From Coq Require Import Lia.
Local Open Scope list_scope.

(** ** data that differ in the precision and the logs only *)
Definition near (c d : context) : Prop := instances c = instances d /\ tolerance c = tolerance d.
Lemma near_sym c d : near c d -> near d c. Proof. intros [I T]. now split. Qed.
Lemma near_log l o c d : near c d -> near (write_log l o c) d.
Proof. intros [I T]. unfold near. now rewrite write_log_instances, write_log_tolerance. Qed.
Definition ind {A} (m : M context A) : Prop := forall c d, near c d -> near (fst (m c)) (fst (m d)) /\ snd (m c) = snd (m d).
Lemma ind_ret {A} (a : A) : ind (ret a). Proof. intros c d H. split; [exact H|reflexivity]. Qed.
Lemma ind_throw {A} e : ind (@throw context A e). Proof. intros c d H. split; [exact H|reflexivity]. Qed.
Lemma ind_ub {A} u : ind (@undefined context A u). Proof. intros c d H. split; [exact H|reflexivity]. Qed.
Lemma ind_lift {A} (r : res A) : ind (lift r). Proof. intros c d H. split; [exact H|reflexivity]. Qed.
Lemma ind_bind {A B} (m : M context A) (f : A -> M context B) : ind m -> (forall a, ind (f a)) -> ind (bind m f).
Proof.
  intros Hm Hf c d H. unfold bind. destruct (Hm c d H) as [T E]. destruct (m c) as [c1 r1], (m d) as [d1 r2]. cbn [fst snd] in *. subst r2.
  destruct r1; [now apply Hf|split; auto|split; auto].
Qed.
Lemma ind_get {B} (f : context -> M context B) : (forall c d, near c d -> near (fst (f c c)) (fst (f d d)) /\ snd (f c c) = snd (f d d)) -> ind (bind get f).
Proof. intros H c d T. exact (H c d T). Qed.
Lemma ind_check args n : ind (@check_nargs context args n).
Proof. unfold check_nargs, throw_if. destruct (_ : bool); [apply ind_throw|apply ind_ret]. Qed.
Lemma ind_throw_if b e : ind (@throw_if context b e).
Proof. unfold throw_if. destruct b; [apply ind_throw|apply ind_ret]. Qed.
Lemma ind_arg args n : ind (@arg context args n).
Proof. intros c d H. unfold arg. destruct (nth_error args n); split; auto. Qed.
Ltac fin := now repeat split.
Ltac ind := repeat first [apply ind_ret | apply ind_throw | apply ind_ub | apply ind_lift | apply ind_check | apply ind_throw_if | apply ind_arg
  | match goal with |- ind (bind get _) => apply ind_get; intros ? ? (I & T) end | apply ind_bind; [|intros] | match goal with |- ind (if ?b then _ else _) => destruct b end].
Lemma ind_dict_loop m args : forall rest before acc, ind (dict_type_loop rest before m args acc).
Proof.
  induction rest as [|c r IH]; intros before acc; cbn [dict_type_loop]; [apply ind_ret|]. destruct (ceq c c_comma); [|apply IH].
  apply ind_bind; [unfold container_create; ind|intros; apply IH].
Qed.
Lemma ind_construct t m args : ind (construct t m args).
Proof.
  unfold construct, boolean_create, character_create, integer_create, float_create, string_create, container_create. ind.
  - apply ind_dict_loop.
  - destruct a0; ind.
Qed.
Lemma ind_type p : ind (execute_in_type p).
Proof.
  unfold execute_in_type. apply ind_bind; [apply ind_construct|]. intros i. apply ind_get. intros c d (I & T). rewrite I.
  destruct (smap_find (instances d) (fst i)).
  - destruct (starts_with _ _); (fin).
  - fin.
Qed.
Definition asks_setting (m : bytes) : Prop := m = B "getFloatPrecision" \/ m = B "getFloatComparisonTolerance".
Lemma near_dispatch table m args c d : near c d ->
  (forall k op, In (k, op) table -> forall a, near (fst (op a c)) (fst (op a d)) /\ same_kind (snd (op a c)) (snd (op a d)) /\ (~ asks_setting k -> snd (op a c) = snd (op a d))) ->
  near (fst (dispatch table m args c)) (fst (dispatch table m args d)) /\ same_kind (snd (dispatch table m args c)) (snd (dispatch table m args d)) /\
  (~ asks_setting m -> snd (dispatch table m args c) = snd (dispatch table m args d)).
Proof.
  intros Nr. induction table as [|[k op] t IH]; intros H; cbn [dispatch].
  - split; [exact Nr|]. split; [apply same_kind_refl|reflexivity].
  - destruct (seq_eqb m k) eqn:E1.
    + apply seq_eqb_eq in E1. subst k. apply (H m). now left.
    + apply IH. intros k' op' Hin. apply (H k'). now right.
Qed.
Lemma ind_all (m : M context str) c d : near c d -> ind m -> forall P : Prop, near (fst (m c)) (fst (m d)) /\ same_kind (snd (m c)) (snd (m d)) /\ (P -> snd (m c) = snd (m d)).
Proof. intros Nr H P. destruct (H c d Nr) as [H1 H2]. split; [exact H1|]. rewrite H2. split; [apply same_kind_refl|reflexivity]. Qed.
Lemma context_near p c d : near c d ->
  near (fst (execute_in_context p c)) (fst (execute_in_context p d)) /\ same_kind (snd (execute_in_context p c)) (snd (execute_in_context p d)) /\
  (~ asks_setting (p_message p) -> snd (execute_in_context p c) = snd (execute_in_context p d)).
Proof.
  intros Nr. unfold execute_in_context. apply near_dispatch; [exact Nr|]. intros k op H a.
  repeat destruct H as [H|H]; try contradiction; inversion H; subst; clear H.
  1-5: apply ind_all; [exact Nr|].
  - unfold op_listNamespaces. ind. rewrite I. fin.
  - unfold op_listVariables. ind. rewrite I. fin.
  - unfold op_listVariablesOfNamespace. ind. rewrite I. fin.
  - unfold op_deleteVariable. ind. rewrite I. destruct (erase_name _ _); fin.
  - unfold op_deleteVariablesOfNamespace. ind. rewrite I. fin.
  - split; [exact Nr|]. split; [exact Logic.I|]. intros N. destruct N. now left.
  - apply ind_all; [exact Nr|]. unfold op_setFloatPrecision. ind; try fin.
  - split; [exact Nr|]. split; [exact Logic.I|]. intros N. destruct N. now right.
  - apply ind_all; [exact Nr|]. unfold op_setFloatComparisonTolerance. ind; try fin.
Qed.
Lemma variable_near srt p c d : near c d ->
  near (fst (execute_in_variable srt p c)) (fst (execute_in_variable srt p d)) /\ same_kind (snd (execute_in_variable srt p c)) (snd (execute_in_variable srt p d)) /\
  ((forall i, lookup c (p_actor p) = Some i -> without_floats i) -> snd (execute_in_variable srt p c) = snd (execute_in_variable srt p d)).
Proof.
  intros (I & T). unfold execute_in_variable, env_of, lookup. rewrite assoc_smap_find, I, T. destruct (smap_find (instances d) (p_actor p)) as [i|].
  - destruct (receive_like (float_precision c) (float_precision d) (tolerance d) srt i (p_message p) (p_args p)) as [H1 H2].
    assert (H3 := receive_same (float_precision c) (float_precision d) (tolerance d) srt i (p_message p) (p_args p)).
    destruct (receive _ i _ _) as [i1 r1] eqn:E1, (receive {| e_precision := float_precision d; e_tolerance := tolerance d; e_sort := srt |} i _ _) as [i2 r2] eqn:E2.
    cbn [fst snd] in *. subst i2. split; [now split|]. split; [exact H2|]. intros H. specialize (H3 (H i eq_refl)). congruence.
  - split; [now split|]. split; [apply same_kind_refl|reflexivity].
Qed.
Lemma statement_near srt pw line c d s : near c d ->
  let r := run_statement srt pw line {| w_ctx := c; w_session := s |} in
  let r' := run_statement srt pw line {| w_ctx := d; w_session := s |} in
  near (w_ctx (fst r)) (w_ctx (fst r')) /\ w_session (fst r) = w_session (fst r') /\ same_kind (snd r) (snd r') /\ (shows_no_float c line -> snd r = snd r').
Proof.
  intros T. cbv zeta. unfold run_statement, bind, lift.
  destruct (parse line) as [[a m args]|e|u] eqn:Ep; [|split; [exact T|now repeat split]|split; [exact T|now repeat split]].
  apply parse_iff in Ep. cbn [p_actor p_message p_args].
  assert (C : forall (x : M context str) (P : Prop), (near (fst (x c)) (fst (x d)) /\ same_kind (snd (x c)) (snd (x d)) /\ (P -> snd (x c) = snd (x d))) -> (shows_no_float c line -> P) ->
    let r := in_ctx x {| w_ctx := c; w_session := s |} in let r' := in_ctx x {| w_ctx := d; w_session := s |} in
    near (w_ctx (fst r)) (w_ctx (fst r')) /\ w_session (fst r) = w_session (fst r') /\ same_kind (snd r) (snd r') /\ (shows_no_float c line -> snd r = snd r')).
  { intros x P (A & B & D) H. cbv zeta. unfold in_ctx. cbn [w_ctx w_session fst snd]. split; [exact A|]. split; [reflexivity|]. split; [exact B|]. intros X. exact (D (H X)). }
  destruct (is_type _); [apply (C _ True); [apply ind_all; [exact T|apply ind_type]|auto]|].
  destruct (is_context _) eqn:Ec.
  { refine (C _ _ (context_near _ c d T) _). intros H [X|X]; cbn [p_message] in X; apply seq_eqb_eq in Ec; destruct (H _ _ _ Ep) as [H1 _]; destruct (H1 Ec); contradiction. }
  destruct (is_variable _); [refine (C _ _ (variable_near srt _ c d T) _); intros H; apply (H _ _ _ Ep)|].
  destruct (is_connection _); [|split; [exact T|now repeat split]].
  unfold in_session. cbn [w_session w_ctx]. destruct s; (split; [exact T|]; split; [reflexivity|]; split; [apply same_kind_refl|reflexivity]).
Qed.
Lemma ok_no_error srt pw c s line w t : sort_contract srt -> ctx_good false c -> run_statement srt pw line {| w_ctx := c; w_session := s |} = (w, Ok t) -> ~ error_answer t.
Proof.
  intros Hs R H X. apply error_answer_looks in X. destruct (statement_dec line) as [(a & m & args & S)|N].
  - assert (G := run_statement_good false srt pw line a m args c s Hs R (clean_false _) S). unfold wp in G. rewrite H in G. cbn [fst snd] in G.
    destruct G as (_ & _ & _ & G & _). now apply success_not_error in G.
  - unfold run_statement, bind, lift in H. rewrite (parse_not_statement _ N) in H. discriminate H.
Qed.
Lemma near_values srt pwc pwd c d : sort_contract srt -> reachable srt pwc c -> reachable srt pwd d -> (same_values c d <-> near c d).
Proof.
  intros Hs Rc Rd. split.
  - intros [L T]. split; [|now symmetry]. apply sorted_assoc_eq; [now apply (reachable_keys srt pwc)|now apply (reachable_keys srt pwd)|]. intros n. symmetry. apply L.
  - intros [I T]. split; [|now symmetry]. intros n. unfold lookup. now rewrite I.
Qed.
Lemma near_runs srt pw c d s line c' s' ans : sort_contract srt -> (exists pwc, reachable srt pwc c) -> (exists pwd, reachable srt pwd d) -> near c d -> runs srt pw c s line c' s' ans ->
  exists d' ans', runs srt pw d s line d' s' ans' /\ near c' d' /\ (error_answer ans \/ error_answer ans' -> ans' = ans) /\ (shows_no_float c line -> ans' = ans).
Proof.
  intros Hs [pwc Rc] [pwd Rd] Nr H. unfold runs, execute in *. destruct (statement_near srt pw line c d s Nr) as (A & B & K & Q).
  assert (N1 := ok_no_error srt pw c s line). assert (N2 := ok_no_error srt pw d s line).
  destruct (run_statement srt pw line {| w_ctx := c; w_session := s |}) as [w r]. destruct (run_statement srt pw line {| w_ctx := d; w_session := s |}) as [w' r']. cbn [fst snd] in *.
  destruct r as [o|e|u]; cbn [catch_text] in H; [| |discriminate H]; destruct r' as [o'|e'|u']; cbn [same_kind] in K; try contradiction.
  - inversion H; subst; clear H. cbn [catch_text]. rewrite <- B. eexists _, _. split; [reflexivity|]. split; [apply near_log, near_sym, near_log, near_sym, A|].
    split; [|intros X; specialize (Q X); congruence]. intros [X|X]; exfalso; revert X; [exact (N1 _ _ Hs (reachable_good _ _ _ Hs Rc) eq_refl)|exact (N2 _ _ Hs (reachable_good _ _ _ Hs Rd) eq_refl)].
  - subst e'. inversion H; subst; clear H. cbn [catch_text]. rewrite <- B. eexists _, _. split; [reflexivity|]. split; [apply near_log, near_sym, near_log, near_sym, A|]. auto.
Qed.

(** ** C79 *)
(** The same answers, as far as errors are concerned. *)
Theorem C79_precision_is_only_for_display : forall srt pw pwc pwd c d s line c' s' ans, sort_contract srt -> reachable srt pwc c -> reachable srt pwd d ->
  same_values c d -> runs srt pw c s line c' s' ans ->
  exists d' ans', runs srt pw d s line d' s' ans' /\ same_values c' d' /\ (error_answer ans \/ error_answer ans' -> ans' = ans) /\ (shows_no_float c line -> ans' = ans).
Proof.
  intros srt pw pwc pwd c d s line c' s' ans Hs Rc Rd V H. apply (near_values srt pwc pwd c d Hs Rc Rd) in V.
  destruct (near_runs srt pw c d s line c' s' ans Hs (ex_intro _ _ Rc) (ex_intro _ _ Rd) V H) as (d' & ans' & H2 & [I T] & E & Q). exists d', ans'.
  split; [exact H2|]. split; [split; [intros n; unfold lookup; now rewrite I|now symmetry]|]. auto.
Qed.
Theorem C79_precision_does_not_cause_undefined_behaviour : forall srt pw pwc pwd c d s line u, sort_contract srt -> reachable srt pwc c -> reachable srt pwd d ->
  same_values c d -> (undefined_behaviour srt pw c s line u <-> undefined_behaviour srt pw d s line u).
Proof.
  assert (X : forall srt pw c d s line u, near c d -> undefined_behaviour srt pw c s line u -> undefined_behaviour srt pw d s line u).
  { intros srt pw c d s line u V H. unfold undefined_behaviour, execute in *. destruct (statement_near srt pw line c d s V) as (A & B & K & _).
    destruct (run_statement srt pw line {| w_ctx := c; w_session := s |}) as [w r]. destruct (run_statement srt pw line {| w_ctx := d; w_session := s |}) as [w' r']. cbn [fst snd] in *.
    destruct r as [o|e|v]; cbn [catch_text snd] in H; [discriminate H|discriminate H|]. destruct r' as [o'|e'|v']; cbn [same_kind] in K; try contradiction. subst v'. exact H. }
  intros srt pw pwc pwd c d s line u Hs Rc Rd V. apply (near_values srt pwc pwd c d Hs Rc Rd) in V. split; apply X; [exact V|now apply near_sym].
Qed.
(** The same for any number of lines. *)
Theorem C79_for_many_lines : forall srt pw c d s lines c' s' answers, sort_contract srt -> reachable srt pw c -> reachable srt pw d ->
  same_values c d -> executes srt pw c s lines c' s' answers ->
  exists d' answers', executes srt pw d s lines d' s' answers' /\ same_values c' d' /\ Forall2 (fun a a' => error_answer a \/ error_answer a' -> a' = a) answers answers'.
Proof.
  intros srt pw c d s lines c' s' answers Hs Rc Rd V H. revert d Rd V. induction H as [c s|c s line c1 s1 ans lines c2 s2 answers H H2 IH]; intros d Rd V.
  - exists d, []. split; [constructor|]. split; [exact V|constructor].
  - destruct (C79_precision_is_only_for_display srt pw pw pw c d s line c1 s1 ans Hs Rc Rd V H) as (d1 & ans' & X & V1 & E & _).
    destruct (IH (reach_step _ _ _ _ _ _ _ _ Rc H) d1 (reach_step _ _ _ _ _ _ _ _ Rd X) V1) as (d' & answers' & X2 & V2 & E2).
    exists d', (ans' :: answers'). split; [econstructor; eauto|]. split; [exact V2|]. constructor; auto.
Qed.
(** Setting the precision changes no value. *)
Theorem C79_setting_the_precision_changes_no_value : forall srt pw c s line args c' s' ans, sort_contract srt -> reachable srt pw c ->
  statement line (B "Context") (B "setFloatPrecision:") args -> runs srt pw c s line c' s' ans -> same_values c c' /\ s' = s.
Proof.
  intros srt pw c s line args c' s' ans Hs R S H.
  unfold runs, execute in H. rewrite (run_context srt pw line (B "setFloatPrecision:") args _ S) in H. unfold in_ctx in H. cbn [w_session w_ctx fst snd] in H.
  assert (X : instances (fst (execute_in_context {| p_actor := B "Context"; p_message := B "setFloatPrecision:"; p_args := args |} c)) = instances c /\
              tolerance (fst (execute_in_context {| p_actor := B "Context"; p_message := B "setFloatPrecision:"; p_args := args |} c)) = tolerance c).
  { change (execute_in_context {| p_actor := B "Context"; p_message := B "setFloatPrecision:"; p_args := args |} c) with (op_setFloatPrecision args c).
    unfold op_setFloatPrecision, bind, check_nargs, throw_if, arg, lift, get, put, ret, throw, undefined.
    repeat match goal with |- context [match ?x with _ => _ end] => lazymatch x with context [match _ with _ => _ end] => fail | _ => destruct x eqn:?; cbv beta iota end end; split; reflexivity. }
  destruct (execute_in_context _ c) as [c1 r]. cbn [fst snd] in X. destruct X as [X1 X2]. destruct r as [o|e|u]; cbn [catch_text] in H.
  3: discriminate H.
  all: inversion H; subst; clear H; split; [|reflexivity]; unfold same_values, lookup; rewrite write_log_instances, write_log_tolerance, X1, X2; auto.
Qed.

Definition display_lines : list bytes := [B "Float create: f withValue: 0.125;"; B "Vector<Integer> create: v;"; B "v pushBack: 7;"].
Example C79_ex :
  let c := data_after display_lines in let d := data_after (display_lines ++ [B "Context setFloatPrecision: 9;"]) in
  reachable insertion_sort [] c /\ reachable insertion_sort [] d /\ same_values c d /\ float_precision c <> float_precision d /\
  answered insertion_sort [] c None [B "f get;"; B "f foo;"; B "v get;"] [B "0.125"; ERR_MESSAGE; B "[7]"] /\
  answered insertion_sort [] d None [B "f get;"; B "f foo;"; B "v get;"] [B "0.125000000"; ERR_MESSAGE; B "[7]"] /\
  shows_no_float c (B "v get;") /\ ~ shows_no_float c (B "f get;").
Proof.
  cbv zeta. split; [apply data_after_reachable|]. split; [apply data_after_reachable|]. split; [|split; [|split; [|split; [|split]]]].
  - split; [|vm_compute; reflexivity]. intros n. unfold lookup. f_equal.
  - vm_compute. discriminate.
  - eexists _, _. do 3 (econstructor; [unfold runs; vm_compute; reflexivity|]). constructor.
  - eexists _, _. do 3 (econstructor; [unfold runs; vm_compute; reflexivity|]). constructor.
  - intros a m args S. assert (S2 : statement (B "v get;") (B "v") (B "get") []) by stmt. destruct (statement_unique _ _ _ _ _ _ _ S S2) as (-> & -> & ->).
    split; [intros X; vm_compute in X; discriminate X|]. intros i L. vm_compute in L. inversion L; subst. repeat constructor. intros f X. discriminate X.
  - intros X. assert (S2 : statement (B "f get;") (B "f") (B "get") []) by stmt. destruct (X _ _ _ S2) as [_ Y].
    assert (L : exists f, lookup (data_after display_lines) (B "f") = Some (IObj (OFloat f))) by (eexists; vm_compute; reflexivity). destruct L as [f L].
    exact (Y _ L f eq_refl).
Qed.
