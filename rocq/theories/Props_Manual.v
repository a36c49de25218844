(** C65: the message reference of the documentation is the interface of the server. *)
From Verif Require Import Bytes StrUtils Grammar Outcome Parser Num Containers Instance Context.
From Verif Require Import Lemmas StringLit Proof_Grammar Proof_Parser Proof_Exec WP Proof_Inv Proof_Receive Proof_Literal Proof_Context Proof_Names Api.
From Verif Require Import Proof_Number Proof_Vector Props_Set Props_State Props_Start Props_Object Proof_Origin Proof_Manual Platform.
From Verif Require Import Spec_Grammar Spec_State Spec_Names Spec_Text Spec_Number Spec_Float Spec_Literal Spec_Vector Spec_String Spec_Set Spec_Start Spec_Manual.
From Coq Require Import Lia Sorting.Sorted.

(** ** Context *)
Lemma text_of_variable held m k a : fits_word held m k (B "variable") a -> is_variable a = true.
Proof.
  intros F. apply is_variable_iff. inversion F as [? V E1 E2|? V E1 E2|w' t' ? W V E1 E2|t' ? O V E1 E2]; subst; auto.
  unfold value_words in W. repeat (destruct W as [W|W]; [discriminate W|]). destruct W.
Qed.
Lemma text_of_namespace held m k a : fits_word held m k (B "namespace") a -> is_namespace a = true.
Proof.
  intros F. apply is_identifier_iff. inversion F as [? V E1 E2|? V E1 E2|w' t' ? W V E1 E2|t' ? O V E1 E2]; subst; auto.
  unfold value_words in W. repeat (destruct W as [W|W]; [discriminate W|]). destruct W.
Qed.
Lemma context_names c : ctx_good false c -> Forall variable (map fst (instances c)).
Proof. intros [_ H]. apply Forall_map. eapply Forall_impl; [|exact H]. now intros e [V _]. Qed.
Lemma context_obeys srt m args c : ctx_good false c -> (count_delims m = 0%nat -> ~ single_q m -> args = []) ->
  wp (execute_in_context {| p_actor := B "Context"; p_message := m; p_args := args |}) c
    (fun _ r => obeys Method (B "Context") (e_precision (env_of srt c)) None m args r).
Proof.
  intros Hc Hu. assert (V := context_names c Hc).
  unfold execute_in_context. cbn [p_message p_args]. apply dispatch_obeys; [vm_compute; reflexivity|].
  repeat apply Forall_cons; try apply Forall_nil; cbn [fst snd].
  - row ([] : list bytes) (B "vector"). one op_listNamespaces. left.
    destruct (fold_namespaces (instances c) [] (SSorted_nil _)) as [_ I].
    rewrite joined_comma_sep. apply ans_namespaces; [reflexivity|reflexivity|]. apply Forall_forall. intros x Hx. apply I in Hx as [[]|[i Hi]].
    rewrite Forall_forall in V. exact (qualified_namespace _ _ (V _ Hi)).
  - row ([] : list bytes) (B "vector"). one op_listVariables. left. rewrite joined_comma_sep.
    apply ans_variables; [reflexivity|now left|exact V].
  - row ([B "namespace"] : list bytes) (B "vector"). one op_listVariablesOfNamespace.
    + split; [discriminate|]. intros D. assert (F := documented_nth _ _ _ _ 0 _ _ D eq_refl H0). apply text_of_namespace in F. rewrite F in H2. discriminate H2.
    + left. assert (NL := names_loop_joined a (instances c) [] (Forall_nil _)). cbn [app joined] in NL. rewrite NL.
      apply ans_variables; [reflexivity|now right|]. apply Forall_forall. intros x Hx.
      apply (in_filter_names (fun k => starts_with k (a ++ $"::")%list)) in Hx as [Hx _]. rewrite Forall_forall in V. exact (V _ Hx).
    + eapply documented1; [eassumption|eassumption|]. apply fit_namespace. now apply is_identifier_iff.
  - row ([B "variable"] : list bytes) (B "null"). one op_deleteVariable.
    + split; [discriminate|]. intros D. assert (F := documented_nth _ _ _ _ 0 _ _ D eq_refl H0). apply text_of_variable in F. rewrite F in H2. discriminate H2.
    + eapply documented1; [eassumption|eassumption|]. apply fit_variable. now apply is_variable_iff.
    + split; [discriminate|]. intros D. apply ref_unused.
  - row ([B "namespace"] : list bytes) (B "null"). one op_deleteVariablesOfNamespace.
    + split; [discriminate|]. intros D. assert (F := documented_nth _ _ _ _ 0 _ _ D eq_refl H0). apply text_of_namespace in F. rewrite F in H2. discriminate H2.
    + eapply documented1; [eassumption|eassumption|]. apply fit_namespace. now apply is_identifier_iff.
  - intros Hm. exists ([] : list bytes), (B "integer"). split; [vm_compute; reflexivity|]. subst m. rewrite Hu in *; [one op_getFloatPrecision|reflexivity|now apply not_single_q].
    now apply documented0.
  - row ([B "integer"] : list bytes) (B "null"). one op_setFloatPrecision.
    + split; [discriminate|]. intros D. apply ref_setting. now left.
  - intros Hm. exists ([] : list bytes), (B "float"). split; [vm_compute; reflexivity|]. subst m. rewrite Hu in *; [one op_getFloatComparisonTolerance|reflexivity|now apply not_single_q].
    now apply documented0.
  - row ([B "float"] : list bytes) (B "null"). one op_setFloatComparisonTolerance.
    destruct (is_float_value a) eqn:Ef.
    + rewrite (float_of_ok a Ef). apply wp_lift; intros ? <-. crush false; try leaf.
      split; [discriminate|]. intros D. apply ref_setting. now (right; left).
    + replace (float_of a) with (@Throw f32 InvalidArgument) by (unfold float_of; now rewrite Ef). apply wp_lift; intros ? <-.
      split; [discriminate|]. intros D. exfalso. literals D. apply text_of_float in F. congruence.
Qed.

(** ** Connection *)
Lemma connection_obeys p pw m args s : (count_delims m = 0%nat -> ~ single_q m -> args = []) ->
  wp (session_receive pw m args) s (fun _ r => obeys Method (B "Connection") p None m args r).
Proof.
  intros Hu. unfold session_receive. apply dispatch_obeys; [vm_compute; reflexivity|].
  repeat apply Forall_cons; try apply Forall_nil; cbn [fst snd].
  - intros Hm. exists ([] : list bytes), (B "null"). split; [vm_compute; reflexivity|]. subst m.
    rewrite Hu in *; [unfold session_close|reflexivity|now apply not_single_q]. repeat wpn.
    split; [left; apply ans_null|now apply documented0].
  - row ([B "string"] : list bytes) (B "null"). unfold session_authenticate. repeat wpn.
    + split; [discriminate|]. intros D. apply documented_length in D. contradiction.
    + split; [discriminate|]. intros D. exfalso. literals D. apply text_of_string in F. rewrite F in H2. discriminate H2.
    + apply negb_false_iff in H2. destruct (string_of_ok false a (clean_false a) H2) as (v & -> & _). apply wp_lift; intros ? <-. repeat wpn.
      * split; [left; apply ans_null|]. documented_args.
      * split; [discriminate|]. intros _. apply ref_password.
Qed.

(** ** Types *)
Lemma unary_args line a m args : statement line a m args -> count_delims m = 0%nat -> ~ single_q m -> args = [].
Proof. intros H C N. apply statement_args in H as [H|H]; [|contradiction]. rewrite C in H. now apply len0. Qed.
Fixpoint messages_in (l : list entry) (sec : section) (cls : bytes) : list bytes :=
  match l with
  | [] => []
  | (_, s, k, n, _, _) :: r => if same_section s sec && seq_eqb k cls then n :: messages_in r sec cls else messages_in r sec cls
  end.
Lemma look_in_messages l sec cls m x : look_in l sec cls m = Some x -> In m (messages_in l sec cls).
Proof.
  induction l as [|[[[[[i s] k] n] t] g] l IH]; cbn [look_in messages_in]; [discriminate|].
  destruct (same_section s sec && seq_eqb k cls); cbn [andb]; [|exact IH].
  destruct (seq_eqb n m) eqn:E; [|intros H; right; now apply IH]. intros _. left. now apply seq_eqb_eq.
Qed.
Inductive built (t : bytes) : bytes -> Prop :=
| built_object : object_type t -> built t t
| built_vector e : vector_type t e -> built t (B "Vector")
| built_set e : set_type t e -> built t (B "Set")
| built_dictionary k v : dictionary_type t k v -> built t (B "Dictionary").
Definition entry_of (t m : bytes) (x : list bytes * bytes) : Prop :=
  snd x = B "null" /\
  ((with_value m /\ object_type t /\ exists w, In (w, t) value_words /\ fst x = [B "variable"; w]) \/
   (without_value m /\ (t = B "String" \/ container_type t) /\ fst x = [B "variable"])).
Lemma constructor_entry t cls m : built t cls ->
  match look Constructor cls m with None => ~ understands t m | Some x => entry_of t m x end.
Proof.
  intros Hb. destruct (look Constructor cls m) as [x|] eqn:E.
  - assert (I := look_in_messages _ _ _ _ _ E). destruct Hb as [Ht|e Ht|e Ht|k v Ht].
    1: destruct Ht as [->|[->|[->|[->| ->]]]].
    all: let l := eval vm_compute in (messages_in manual Constructor (B "String")) in idtac.
    all: match type of I with In _ (messages_in manual Constructor ?c) => 
           let l := eval vm_compute in (messages_in manual Constructor c) in change (In m l) in I end.
    all: repeat (destruct I as [I|I]; [subst m; vm_compute in E; inversion E; subst x; split; [reflexivity|]|]); try destruct I; cbn [fst snd].
    all: try (left; split; [(left; reflexivity) || (right; reflexivity)|]; split; [unfold object_type; tauto|]; eexists; split; [|reflexivity]; vm_compute; tauto).
    all: right; split; [(left; reflexivity) || (right; reflexivity)|]; split; [|reflexivity]; try (left; reflexivity); right; unfold container_type; eauto.
  - intros [[Ho Hw]|[Ho Hw]].
    + destruct Hb as [Ht|e Ht|e Ht|k v Ht].
      * destruct Ht as [->|[->|[->|[->| ->]]]]; destruct Hw as [->| ->]; vm_compute in E; discriminate E.
      * exact (vector_type_not_object _ _ Ht Ho).
      * exact (set_type_not_object _ _ Ht Ho).
      * exact (dictionary_type_not_object _ _ _ Ht Ho).
    + destruct Hb as [Ht|e Ht|e Ht|k v Ht]; try (destruct Hw as [->| ->]; vm_compute in E; discriminate E).
      destruct Ho as [->|Ho]; [destruct Hw as [->| ->]; vm_compute in E; discriminate E|].
      destruct Ho as [[e Hc]|[[e Hc]|(k & v & Hc)]]; [exact (vector_type_not_object _ _ Hc Ht)|exact (set_type_not_object _ _ Hc Ht)|exact (dictionary_type_not_object _ _ _ Hc Ht)].
Qed.
Lemma built_type t cls : built t cls -> type t.
Proof. intros [H|e H|e H|k v H]; [now left|right; left; eauto|right; right; left; eauto|right; right; right; eauto]. Qed.
Lemma integer_overflows srt pw line m n l w : statement line (B "Integer") m [n; l] -> with_value m -> variable n -> out_of_range l ->
  is_ub (snd (run_statement srt pw line w)).
Proof.
  intros Hs Hw Hn Hl. rewrite (run_type srt pw line (B "Integer") m [n; l] w Hs) by (left; unfold object_type; tauto).
  unfold in_ctx, execute_in_type. cbn [p_actor p_message p_args]. change (remove_spaces (B "Integer")) with (B "Integer").
  change (construct (B "Integer") m [n; l]) with (integer_create (S:=context) m [n; l]).
  assert (X : exists u, @integer_create context m [n; l] (w_ctx w) = (w_ctx w, UB u)).
  { rewrite integer_create_eq. unfold object_create. rewrite (proj2 (is_create_with_iff m) Hw). apply is_variable_iff in Hn. rewrite Hn. cbn [negb].
    change (get_shared_instance $"Integer" l) with (let! c := integer_of l in Ok (OInt c)).
    destruct (Props_Vector.out_of_range_ub l Hl) as [u ->]. now exists u. }
  destruct X as [u X]. unfold bind. rewrite X. exact I.
Qed.
Lemma type_obeys srt pw line t cls m args c s p : statement line t m args -> built t cls ->
  obeys Constructor cls p None m args (snd (run_statement srt pw line {| w_ctx := c; w_session := s |})).
Proof.
  intros Hs Hb. assert (L := constructor_entry t cls m Hb). unfold obeys.
  destruct (run_type_made srt pw c s line t m args Hs (built_type _ _ Hb)) as (r & Hm & E).
  assert (UBI : forall n l, t = B "Integer" -> args = [n; l] -> with_value m -> variable n -> out_of_range l -> is_ub (snd (run_statement srt pw line {| w_ctx := c; w_session := s |})))
    by (intros n l -> ->; apply integer_overflows; exact Hs).
  rewrite E in UBI |- *. clear E. destruct (look Constructor cls m) as [[takes gives]|].
  - destruct L as [G L]. cbn [fst snd] in G, L. subst gives. destruct r as [[n i]|e|u]; cbn [made] in Hm.
    + assert (D : as_documented None m takes args).
      { destruct Hm as [n l x Ho Hw Hv Hl|n Ho Hw Hv|n e Ho Hw Hv|n e Ho Hw Hv|n k v Ho Hw Hv].
        - destruct L as [(_ & _ & w & Iw & ->)|(Hw' & _)]; [|exfalso; exact (with_not_without _ Hw Hw')].
          eapply documented2; [reflexivity|reflexivity|reflexivity|now apply fit_variable|]. eapply fit_value; [exact Iw|]. now destruct (C46_of_the_type _ _ _ Hl) as (_ & _ & ?).
        - destruct L as [(Hw' & _)|(_ & _ & ->)]; [exfalso; exact (with_not_without _ Hw' Hw)|]. eapply documented1; [reflexivity|reflexivity|now apply fit_variable].
        - destruct L as [(Hw' & _)|(_ & _ & ->)]; [exfalso; exact (with_not_without _ Hw' Hw)|]. eapply documented1; [reflexivity|reflexivity|now apply fit_variable].
        - destruct L as [(Hw' & _)|(_ & _ & ->)]; [exfalso; exact (with_not_without _ Hw' Hw)|]. eapply documented1; [reflexivity|reflexivity|now apply fit_variable].
        - destruct L as [(Hw' & _)|(_ & _ & ->)]; [exfalso; exact (with_not_without _ Hw' Hw)|]. eapply documented1; [reflexivity|reflexivity|now apply fit_variable]. }
      destruct (lookup c n); cbn [snd]; [|split; [left; apply ans_null|exact D]].
      destruct (starts_with m $"createIfNotExists:") eqn:Ec; [split; [left; apply ans_null|exact D]|].
      split; [discriminate|]. intros _. apply ref_used.
      destruct L as [([->| ->] & _)|([->| ->] & _)]; try discriminate Ec; [right; now left|now left].
    + cbn [snd] in *. destruct Hm as (_ & Hno & Hi). split.
      * intros Hmsg. apply Hi in Hmsg. apply Hmsg. destruct L as [(Hw & Ho & _)|(Hw & Ho & _)]; [left|right]; tauto.
      * intros D. exfalso. destruct L as [(Hw & Ho & w & Iw & ->)|(Hw & Ho & ->)].
        -- assert (Len := documented_length _ _ _ _ D). destruct args as [|n [|l [|]]]; try discriminate Len.
           assert (F := documented_nth _ _ _ _ 0 _ _ D eq_refl eq_refl). assert (F' := documented_nth _ _ _ _ 1 _ _ D eq_refl eq_refl).
           apply text_of_variable, is_variable_iff in F. apply (word_value _ _ _ _ _ _ Iw) in F'.
           destruct (C46_every_literal_has_a_value _ _ F') as [[x Hx]|[Ht Hx]].
           ++ exact (Hno n (IObj x) (creates_object _ _ _ _ _ Ho Hw F Hx)).
           ++ exact (UBI n l Ht eq_refl Hw F Hx).
        -- assert (Len := documented_length _ _ _ _ D). destruct args as [|n [|]]; try discriminate Len.
           assert (F := documented_nth _ _ _ _ 0 _ _ D eq_refl eq_refl). apply text_of_variable, is_variable_iff in F.
           destruct Ho as [->|[[e1 Ho]|[[e1 Ho]|(k & v & Ho)]]]; eapply Hno.
           ++ now apply creates_string.
           ++ now apply (creates_vector _ _ _ e1).
           ++ now apply (creates_set _ _ _ e1).
           ++ now apply (creates_dictionary _ _ _ k v).
    + exact I.
  - destruct r as [[n i]|e|u]; cbn [made] in Hm.
    + exfalso. apply L. inversion Hm; subst; unfold understands, container_type; eauto 8.
    + cbn [snd]. f_equal. now apply Hm.
    + exfalso. apply L. left. tauto.
Qed.

(** ** Any statement *)
Lemma value_obeys srt c i m args : inst_good false i ->
  obeys Method (class_of i) (e_precision (env_of srt c)) (Some i) m args (snd (receive (env_of srt c) i m args)).
Proof.
  intros Hi. assert (Ha : Forall (clean false) args) by (apply Forall_forall; intros; apply clean_false).
  destruct i as [[b|ch|z|f|v]|t v|t v|k v d]; cbn [class_of inst_good obj_clean] in *; unfold receive, on; cbn [snd].
  - exact (boolean_obeys _ m args b I Ha).
  - exact (character_obeys _ m args ch I Ha).
  - exact (integer_obeys _ m args z Hi Ha).
  - exact (float_obeys _ m args f Hi Ha).
  - exact (string_obeys _ m args v Hi Ha).
  - exact (vector_obeys _ t m args v (proj1 Hi) (proj2 Hi) Ha).
  - exact (set_obeys _ t m args v (proj1 Hi) (proj2 Hi) Ha).
  - exact (dict_obeys _ k v m args d (proj1 Hi) (proj1 (proj2 Hi)) (proj2 (proj2 Hi)) Ha).
Qed.
Lemma statement_obeys srt pw c s line a m args sec cls held : sort_contract srt -> reachable srt pw c -> statement line a m args ->
  chapter c a sec cls held ->
  obeys sec cls (float_precision c) held m args (snd (run_statement srt pw line {| w_ctx := c; w_session := s |})) \/
  is_ub (snd (run_statement srt pw line {| w_ctx := c; w_session := s |})).
Proof.
  intros Hsrt Hr Hs Hc. assert (G := reachable_good _ _ _ Hsrt Hr).
  change (float_precision c) with (e_precision (env_of srt c)).
  destruct Hc as [n i Hl|t Ht|t e Ht|t e Ht|t k v Ht| | ].
  - left. destruct (ctx_good_lookup _ _ _ _ G Hl) as [Hv Hi].
    rewrite (run_variable srt pw line n m args _ Hs Hv). unfold in_ctx, execute_in_variable. cbn [w_ctx w_session p_actor p_message p_args].
    unfold lookup in Hl. rewrite assoc_smap_find in Hl. rewrite Hl. cbn [fst snd]. now apply value_obeys.
  - left. apply (type_obeys _ _ _ t); [exact Hs|now apply built_object].
  - left. apply (type_obeys _ _ _ t); [exact Hs|eapply built_vector; exact Ht].
  - left. apply (type_obeys _ _ _ t); [exact Hs|eapply built_set; exact Ht].
  - left. apply (type_obeys _ _ _ t); [exact Hs|eapply built_dictionary; exact Ht].
  - left. rewrite (run_context srt pw line m args _ Hs). unfold in_ctx. cbn [w_ctx w_session snd].
    exact (context_obeys srt m args c G (unary_args _ _ _ _ Hs)).
  - rewrite (run_connection srt pw line m args _ Hs). unfold in_session. cbn [w_ctx w_session snd].
    destruct s as [s|]; [left|now right]. cbn [snd].
    exact (connection_obeys _ pw m args s (unary_args _ _ _ _ Hs)).
Qed.
Lemma run_answer srt pw c s line c' s' ans : runs srt pw c s line c' s' ans ->
  let r := snd (run_statement srt pw line {| w_ctx := c; w_session := s |}) in ~ is_ub r /\ ans = text_of r.
Proof.
  intros H r. unfold r. clear r. unfold runs in H. destruct (run_statement srt pw line {| w_ctx := c; w_session := s |}) as [w1 r] eqn:E. cbn [snd].
  destruct r as [o|e|u].
  - rewrite (execute_ok _ _ _ _ _ _ E) in H by (cbn; auto). inversion H. split; [cbn; auto|reflexivity].
  - rewrite (execute_ok _ _ _ _ _ _ E) in H by (cbn; auto). inversion H. split; [cbn; auto|reflexivity].
  - exfalso. assert (U := execute_ub _ _ _ _ _ _ E). rewrite H in U. discriminate U.
Qed.
(** Never an error text as the answer of something done. *)
Lemma answer_word_success p held m w ans : answer_word p held m w ans -> ~ error_answer ans.
Proof.
  set (E := {| e_precision := p; e_tolerance := S754_zero false; e_sort := fun _ l => l |}).
  intros H R. apply error_answer_looks in R. revert R. apply success_not_error.
  destruct H as [|w t x ans Hw Ht S|t x ans Hg Ht S|t l ans Hg Ht S|l _ _ _|l _ _ _|t v l ans _ _ S|kt vt d e ans _ _ S].
  - apply success_null.
  - apply (shows_iff E) in S. subst ans. apply success_obj_repr.
  - apply (shows_iff E) in S. subst ans. apply success_obj_repr.
  - apply (shows_list_iff E) in S. subst ans. apply success_vector_representation.
  - apply success_bracket.
  - apply success_bracket.
  - apply (shows_set_iff E) in S. subst ans. apply success_set_representation.
  - apply (shows_dictionary_iff E) in S. subst ans. apply success_dict_representation.
Qed.

Section Theorems.
Context (srt : sorter) (pw : bytes) (c : context) (s : option session) (line a m : bytes) (args : list bytes) (sec : section) (cls : bytes) (held : option inst).
Context (c' : context) (s' : option session) (ans : bytes).
Context (Hsrt : sort_contract srt) (Hr : reachable srt pw c) (Hs : statement line a m args) (Hc : chapter c a sec cls held) (Hrun : runs srt pw c s line c' s' ans).
Lemma documented_run : match look sec cls m with
  | None => ans = ERR_MESSAGE
  | Some (takes, gives) =>
     (~ error_answer ans /\ (answer_word (float_precision c) held m gives ans \/ (ans = B "null" /\ In m may_find_nothing)) /\ as_documented held m takes args) \/
     (error_answer ans /\ ans <> ERR_MESSAGE /\ (as_documented held m takes args -> may_be_refused sec cls m ans))
  end.
Proof.
  destruct (run_answer _ _ _ _ _ _ _ _ Hrun) as [U A].
  destruct (statement_obeys srt pw c s line a m args sec cls held Hsrt Hr Hs Hc) as [O|O]; [|contradiction].
  unfold obeys in O. destruct (look sec cls m) as [[takes gives]|]; [|now rewrite O in A].
  destruct (snd (run_statement srt pw line {| w_ctx := c; w_session := s |})) as [o|e|u]; [| |now destruct U]; cbn [text_of] in A; subst ans.
  - left. destruct O as [O D]. split; [|now split]. destruct O as [O|[-> _]]; [exact (answer_word_success _ _ _ _ _ O)|].
    exact (answer_word_success 0 None m (B "null") _ (ans_null _ _ _)).
  - right. destruct O as [O D]. split; [apply error_answer_exc|]. split; [|exact D]. intros H. apply O. destruct e; try reflexivity; discriminate H.
Qed.
End Theorems.

(** Every statement is about a chapter of the documentation, unless it names a variable that does not exist. *)
Theorem C65_every_actor_has_a_chapter : forall srt pw c s line a m args c' s' ans, sort_contract srt -> reachable srt pw c ->
  statement line a m args -> runs srt pw c s line c' s' ans ->
  (exists sec cls held, chapter c a sec cls held) \/ (variable a /\ ~ live c a /\ ans = ERR_UNKNOWN_NAME).
Proof.
  intros srt pw c s line a m args c' s' ans Hsrt Hr Hs Hrun. destruct (statement_actor _ _ _ _ Hs) as [->|[->|[H|H]]].
  - left. do 3 eexists. apply chap_connection.
  - left. do 3 eexists. apply chap_context.
  - left. destruct H as [H|[[e H]|[[e H]|(k & v & H)]]]; do 3 eexists; [now apply chap_object|eapply chap_vector; exact H|eapply chap_set; exact H|eapply chap_dictionary; exact H].
  - destruct (lookup c a) as [i|] eqn:L; [left; exists Method, (class_of i), (Some i); exact (chap_variable c a i L)|]. right. split; [exact H|]. split; [unfold live; congruence|].
    destruct (run_answer _ _ _ _ _ _ _ _ Hrun) as [U A]. rewrite (run_variable srt pw line a m args _ Hs H) in A.
    unfold in_ctx, execute_in_variable in A. cbn [w_ctx w_session p_actor p_message p_args] in A.
    unfold lookup in L. rewrite assoc_smap_find in L. rewrite L in A. exact A.
Qed.

(** The messages that are not refused as unknown are those of the documentation. *)
Theorem C65_interface : forall srt pw c s line a m args sec cls held c' s' ans, sort_contract srt -> reachable srt pw c ->
  statement line a m args -> chapter c a sec cls held -> runs srt pw c s line c' s' ans ->
  (ans = ERR_MESSAGE <-> ~ documented sec cls m).
Proof.
  intros srt pw c s line a m args sec cls held c' s' ans Hsrt Hr Hs Hc Hrun.
  assert (H := documented_run _ _ _ _ _ _ _ _ _ _ _ _ _ _ Hsrt Hr Hs Hc Hrun). rewrite <- look_undocumented.
  destruct (look sec cls m) as [[takes gives]|]; [|tauto]. split; [|discriminate]. intros E. exfalso.
  destruct H as [(N & _)|(_ & N & _)]; [|contradiction]. apply N. rewrite E. exact (error_answer_exc InvalidMessage).
Qed.
(** An answer that is no error is of the kind documented, or null where there was nothing to answer ... *)
Theorem C65_answers : forall srt pw c s line a m args sec cls held takes gives c' s' ans, sort_contract srt -> reachable srt pw c ->
  statement line a m args -> chapter c a sec cls held -> documents sec cls m takes gives -> runs srt pw c s line c' s' ans ->
  ~ error_answer ans ->
  answer_word (float_precision c) held m gives ans \/ (ans = B "null" /\ In m may_find_nothing).
Proof.
  intros srt pw c s line a m args sec cls held takes gives c' s' ans Hsrt Hr Hs Hc D Hrun N.
  assert (H := documented_run _ _ _ _ _ _ _ _ _ _ _ _ _ _ Hsrt Hr Hs Hc Hrun). apply look_documents in D. rewrite D in H. tauto.
Qed.
(** ... and was given for arguments that are as documented. *)
Theorem C65_arguments : forall srt pw c s line a m args sec cls held takes gives c' s' ans, sort_contract srt -> reachable srt pw c ->
  statement line a m args -> chapter c a sec cls held -> documents sec cls m takes gives -> runs srt pw c s line c' s' ans ->
  ~ error_answer ans -> as_documented held m takes args.
Proof.
  intros srt pw c s line a m args sec cls held takes gives c' s' ans Hsrt Hr Hs Hc D Hrun N.
  assert (H := documented_run _ _ _ _ _ _ _ _ _ _ _ _ _ _ Hsrt Hr Hs Hc Hrun). apply look_documents in D. rewrite D in H. tauto.
Qed.
(** Arguments that are as documented are refused for the documented reasons only. *)
Theorem C65_refusals : forall srt pw c s line a m args sec cls held takes gives c' s' ans, sort_contract srt -> reachable srt pw c ->
  statement line a m args -> chapter c a sec cls held -> documents sec cls m takes gives -> runs srt pw c s line c' s' ans ->
  as_documented held m takes args -> error_answer ans -> may_be_refused sec cls m ans.
Proof.
  intros srt pw c s line a m args sec cls held takes gives c' s' ans Hsrt Hr Hs Hc D Hrun N F.
  assert (H := documented_run _ _ _ _ _ _ _ _ _ _ _ _ _ _ Hsrt Hr Hs Hc Hrun). apply look_documents in D. rewrite D in H. tauto.
Qed.
(** The documentation describes every message once. *)
Theorem C65_manual_is_unambiguous : forall sec cls m takes gives takes' gives',
  documents sec cls m takes gives -> documents sec cls m takes' gives' -> takes = takes' /\ gives = gives'.
Proof.
  intros sec cls m takes gives takes' gives' H H'. apply look_documents in H. apply look_documents in H'.
  rewrite H in H'. now inversion H'.
Qed.
(** A vector that holds 5 and 7. *)
Definition manual_server : context := set_instances empty_server [(B "v", IVector (B "Integer") [OInt 5; OInt 7])].
Lemma manual_reachable : reachable insertion_sort [] manual_server.
Proof.
  apply (after_reachable _ _ [B "Vector<Integer> create: v;"; B "v pushBack: 5;"; B "v pushBack: 7;"] empty_server); [constructor; vm_compute; reflexivity|vm_compute; reflexivity].
Qed.
(** Something answered, something refused although as documented, something undocumented. *)
Example C65_ex :
  chapter manual_server (B "v") Method (B "Vector") (Some (IVector (B "Integer") [OInt 5; OInt 7])) /\
  (statement (B "v atIndex: 1;") (B "v") (B "atIndex:") [B "1"] /\ documents Method (B "Vector") (B "atIndex:") [B "integer"] (B "object") /\
   exists c', runs insertion_sort [] manual_server None (B "v atIndex: 1;") c' None (B "7")) /\
  (statement (B "v atIndex: 2;") (B "v") (B "atIndex:") [B "2"] /\ as_documented (Some (IVector (B "Integer") [OInt 5; OInt 7])) (B "atIndex:") [B "integer"] [B "2"] /\
   exists c', runs insertion_sort [] manual_server None (B "v atIndex: 2;") c' None ERR_ARGUMENT) /\
  (statement (B "v sum;") (B "v") (B "sum") [] /\ ~ documented Method (B "Vector") (B "sum") /\
   exists c', runs insertion_sort [] manual_server None (B "v sum;") c' None ERR_MESSAGE).
Proof.
  split; [exact (chap_variable manual_server (B "v") (IVector (B "Integer") [OInt 5; OInt 7]) eq_refl)|]. split; [|split].
  - split; [stmt|]. split; [apply look_documents; vm_compute; reflexivity|]. eexists. unfold runs. vm_compute. reflexivity.
  - split; [stmt|]. split; [|eexists; unfold runs; vm_compute; reflexivity].
    eapply documented1; [reflexivity|reflexivity|]. eapply fit_value; [do 2 right; now left|]. apply text_of_integer. vm_compute. reflexivity.
  - split; [stmt|]. split; [apply look_undocumented; vm_compute; reflexivity|]. eexists. unfold runs. vm_compute. reflexivity.
Qed.
Print Assumptions C65_every_actor_has_a_chapter.
Print Assumptions C65_interface.
Print Assumptions C65_answers.
Print Assumptions C65_arguments.
Print Assumptions C65_refusals.
Print Assumptions C65_manual_is_unambiguous.
