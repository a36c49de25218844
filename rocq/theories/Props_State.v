(** Properties C24-C29, C36, C39: names, creation, deletion, isolation of statements, errors, types, characters.
    Specification: [Spec_Grammar], [Spec_State], [Spec_Names]; model: [Instance], [Context].
    [srt] is any implementation of std::sort that meets its ISO contract; [reachable srt pw c]: [c] is the data of a server after any
    sequence of lines of any sessions. *)
From Verif Require Import Bytes StrUtils Grammar Outcome Parser Num Containers Instance Context Platform.
From Verif Require Import Lemmas StringLit Proof_Grammar Proof_Parser Proof_Exec Proof_Inv Proof_Literal Proof_Receive Proof_Context Proof_Names Api.
From Verif Require Import Spec_Grammar Spec_State Spec_Names.

(** ** C24: create and createIfNotExists *)
Theorem C24_create_on_a_free_name : forall srt pw c s line t m args n i,
  sort_contract srt -> reachable srt pw c -> statement line t m args -> creates t m args n i -> ~ live c n ->
  becomes srt pw c s line n (B "null") i.
Proof.
  intros. eapply create_free; eauto using reachable_keys. unfold live in *. destruct (lookup c n) eqn:E; [|reflexivity]. exfalso. apply H3. discriminate.
Qed.
Theorem C24_create_on_a_used_name : forall srt pw c s line t m args n i,
  statement line t m args -> creates t m args n i -> live c n ->
  m = B "create:" \/ m = B "create:withValue:" ->
  only_answers srt pw c s line ERR_USED.
Proof.
  intros srt pw c s line t m args n i Hs Hc Hl Hm. unfold live in Hl. destruct (lookup c n) as [j|] eqn:E; [|congruence].
  assert (X := create_used srt pw c s line t m args n i j Hs Hc E). destruct Hm as [->| ->]; exact X.
Qed.
Theorem C24_createIfNotExists_on_a_used_name : forall srt pw c s line t m args n i,
  statement line t m args -> creates t m args n i -> live c n ->
  m = B "createIfNotExists:" \/ m = B "createIfNotExists:withValue:" ->
  only_answers srt pw c s line (B "null").
Proof.
  intros srt pw c s line t m args n i Hs Hc Hl Hm. unfold live in Hl. destruct (lookup c n) as [j|] eqn:E; [|congruence].
  assert (X := create_used srt pw c s line t m args n i j Hs Hc E). destruct Hm as [->| ->]; exact X.
Qed.
Theorem C24_other_messages_to_a_type : forall srt pw c s line t m args,
  statement line t m args -> type t -> ~ understands t m -> only_answers srt pw c s line ERR_MESSAGE.
Proof. exact create_other_message. Qed.
(** The remaining case, a creation whose name or value is not acceptable, answers an error, except for an Integer literal out
    of range (C10). *)
Theorem C24_bad_creation : forall srt pw c s line t m args,
  statement line t m args -> type t -> understands t m -> (forall n i, ~ creates t m args n i) ->
  only_answers srt pw c s line ERR_ARGUMENT \/
  (t = B "Integer" /\ with_value m /\ exists u, undefined_behaviour srt pw c s line u).
Proof.
  intros srt pw c s line t m args H1 H2 H3 H4.
  destruct (create_bad_arguments srt pw c s line t m args H1 H2 H3 H4) as [H|(n & l & u & _ & H5 & H6 & _ & H7)]; eauto.
Qed.

(** Non-vacuity. *)
Definition empty_server : context := new_context false 3 (to_float (S754_zero false)) true.
Lemma empty_reachable : reachable insertion_sort [] empty_server.
Proof. constructor. reflexivity. Qed.
Ltac stmt := apply parse_iff; vm_compute; reflexivity.
Example C24_ex1 : statement (B "Vector<Integer> create: ns::v;") (B "Vector<Integer>") (B "create:") [B "ns::v"] /\
  creates (B "Vector<Integer>") (B "create:") [B "ns::v"] (B "ns::v") (IVector (B "Integer") []) /\ ~ live empty_server (B "ns::v").
Proof.
  split; [stmt|]. split.
  - apply creates_vector; [|now left|apply is_variable_iff; reflexivity].
    exists [], []. split; [reflexivity|]. split; [constructor|]. split; [constructor|]. right; right; now left.
  - intros H. apply H. reflexivity.
Qed.
Definition one_integer : context := set_instances empty_server [(B "x", IObj (OInt 5))].
Lemma one_integer_reachable : reachable insertion_sort [] one_integer.
Proof.
  eapply (reach_step _ _ empty_server None (B "Integer create: x withValue: 5;")); [constructor; vm_compute; reflexivity|].
  unfold runs. vm_compute. reflexivity.
Qed.
Example C24_ex2 : statement (B "String createIfNotExists: x withValue: ""a"";") (B "String") (B "createIfNotExists:withValue:") [B "x"; B """a"""] /\
  creates (B "String") (B "createIfNotExists:withValue:") [B "x"; B """a"""] (B "x") (IObj (OStr (B "a"))) /\ live one_integer (B "x").
Proof.
  split; [stmt|]. split; [|discriminate].
  apply creates_object; [right; right; right; now right|now right|apply is_variable_iff; reflexivity|ex_lit].
Qed.
Example C24_ex3 : statement (B "Integer create: x withValue: true;") (B "Integer") (B "create:withValue:") [B "x"; B "true"] /\
  understands (B "Integer") (B "create:withValue:") /\ forall n i, ~ creates (B "Integer") (B "create:withValue:") [B "x"; B "true"] n i.
Proof.
  split; [stmt|]. split; [left; split; [right; right; now left|now left]|].
  intros n i H. inversion H; subst. lits. discriminate.
Qed.

(** ** C25: listing and deletion *)
Theorem C25_listVariables : forall srt pw c s line args, sort_contract srt -> reachable srt pw c ->
  statement line (B "Context") (B "listVariables") args ->
  exists names, increasing names /\ (forall n, In n names <-> live c n) /\ only_answers srt pw c s line (listing names).
Proof. exact list_variables. Qed.
Theorem C25_listNamespaces : forall srt pw c s line args, sort_contract srt -> reachable srt pw c ->
  statement line (B "Context") (B "listNamespaces") args ->
  exists names, increasing names /\ (forall ns, In ns names <-> exists i, live c (qualified ns i)) /\
    only_answers srt pw c s line (listing names).
Proof. exact list_namespaces. Qed.
Theorem C25_listVariablesOfNamespace : forall srt pw c s line ns, sort_contract srt -> reachable srt pw c ->
  statement line (B "Context") (B "listVariablesOfNamespace:") [ns] -> namespace ns ->
  exists names, increasing names /\ (forall n, In n names <-> live c n /\ exists i, n = qualified ns i) /\
    only_answers srt pw c s line (listing names).
Proof. intros. eapply list_of_namespace; eauto. Qed.
Theorem C25_deleteVariable : forall srt pw c s line n, sort_contract srt -> reachable srt pw c ->
  statement line (B "Context") (B "deleteVariable:") [n] -> live c n ->
  exists c', runs srt pw c s line c' s (B "null") /\ lookup c' n = None /\
    (forall m, m <> n -> lookup c' m = lookup c m) /\ same_settings c c'.
Proof. intros. eapply delete_one; eauto. Qed.
Theorem C25_deleteVariable_of_an_unused_name : forall srt pw c s line n,
  statement line (B "Context") (B "deleteVariable:") [n] -> variable n -> ~ live c n ->
  only_answers srt pw c s line ERR_UNKNOWN_NAME.
Proof. intros. eapply delete_absent; eauto. Qed.
Theorem C25_deleteVariablesOfNamespace : forall srt pw c s line ns,
  statement line (B "Context") (B "deleteVariablesOfNamespace:") [ns] -> namespace ns ->
  exists c', runs srt pw c s line c' s (B "null") /\ same_settings c c' /\
    (forall i, lookup c' (qualified ns i) = None) /\
    (forall m, (forall i, m <> qualified ns i) -> lookup c' m = lookup c m).
Proof. intros. eapply delete_namespace; eauto. Qed.
(** An argument that is no name. *)
Theorem C25_bad_names : forall srt pw c s line m a,
  statement line (B "Context") m [a] ->
  (m = B "deleteVariable:" /\ ~ variable a) \/ (m = B "listVariablesOfNamespace:" /\ ~ namespace a) \/
  (m = B "deleteVariablesOfNamespace:" /\ ~ namespace a) ->
  only_answers srt pw c s line ERR_ARGUMENT.
Proof.
  intros srt pw c s line m a Hs [[-> H]|[[-> H]|[-> H]]].
  - eapply delete_bad; eauto.
  - eapply list_of_bad_namespace; eauto.
  - eapply delete_bad_namespace; eauto.
Qed.
(** Live names are variable names. *)
Theorem C25_live_names_are_variables : forall srt pw c n, sort_contract srt -> reachable srt pw c -> live c n -> variable n.
Proof.
  intros srt pw c n H1 H2 H. unfold live in H. destruct (lookup c n) eqn:E; [|congruence]. eapply holder_variable; eauto.
Qed.
Definition two_namespaces : context :=
  set_instances empty_server [(B "a", IObj (OBool true)); (B "ns::b", IObj (OBool false)); (B "ns::c", IObj (OStr []))].
Lemma two_namespaces_reachable : reachable insertion_sort [] two_namespaces.
Proof.
  apply (after_reachable _ _ [B "Boolean create: ns::b withValue: false;"; B "Boolean create: a withValue: true;"; B "String create: ns::c;"] empty_server);
    [constructor; vm_compute; reflexivity|vm_compute; reflexivity].
Qed.
Example C25_ex1 : only_answers insertion_sort [] two_namespaces None (B "Context listVariables;") (B "[a,ns::b,ns::c]").
Proof. eexists. split; [unfold runs; vm_compute; reflexivity|]. split; [reflexivity|split; reflexivity]. Qed.
Example C25_ex2 : statement (B "Context listVariablesOfNamespace: ns;") (B "Context") (B "listVariablesOfNamespace:") [B "ns"] /\ namespace (B "ns") /\
  only_answers insertion_sort [] two_namespaces None (B "Context listVariablesOfNamespace: ns;") (B "[ns::b,ns::c]").
Proof.
  split; [stmt|]. split; [apply is_identifier_iff; reflexivity|].
  eexists. split; [unfold runs; vm_compute; reflexivity|]. split; [reflexivity|split; reflexivity].
Qed.
Example C25_ex3 : statement (B "Context deleteVariable: ns::b;") (B "Context") (B "deleteVariable:") [B "ns::b"] /\ live two_namespaces (B "ns::b").
Proof. split; [stmt|discriminate]. Qed.

(** ** C26: a statement changes at most what it names *)
Theorem C26_message_to_a_variable : forall srt pw c s line n m args c' s' ans, sort_contract srt -> reachable srt pw c ->
  statement line n m args -> variable n -> runs srt pw c s line c' s' ans ->
  s' = s /\ same_settings c c' /\ (forall x, x <> n -> lookup c' x = lookup c x) /\
  (~ In m mutators -> lookup c' n = lookup c n) /\
  match lookup c n with
  | None => lookup c' n = None /\ ans = ERR_UNKNOWN_NAME
  | Some i => exists i', lookup c' n = Some i' /\ type_name i' = type_name i
  end.
Proof. exact variable_statement. Qed.
Theorem C26_message_to_a_type : forall srt pw c s line t m args c' s' ans, sort_contract srt -> reachable srt pw c ->
  statement line t m args -> type t -> runs srt pw c s line c' s' ans ->
  s' = s /\ same_settings c c' /\ (forall x, live c x -> lookup c' x = lookup c x) /\
  (forall x, lookup c' x <> lookup c x -> exists r, args = x :: r).
Proof. exact type_statement. Qed.
Theorem C26_message_to_Context : forall srt pw c s line m args c' s' ans, sort_contract srt -> reachable srt pw c ->
  statement line (B "Context") m args -> runs srt pw c s line c' s' ans ->
  s' = s /\
  (~ In m setters -> same_settings c c') /\
  (~ In m deleters -> forall x, lookup c' x = lookup c x) /\
  (forall x, lookup c' x = lookup c x \/ lookup c' x = None) /\
  (m = B "deleteVariable:" -> forall x, lookup c' x <> lookup c x -> args = [x]) /\
  (m = B "deleteVariablesOfNamespace:" -> forall x, lookup c' x <> lookup c x -> exists ns i, args = [ns] /\ x = qualified ns i).
Proof. exact context_statement. Qed.
Theorem C26_message_to_Connection : forall srt pw c s line m args c' s' ans,
  statement line (B "Connection") m args -> runs srt pw c s line c' s' ans -> same_data c c'.
Proof. exact connection_statement. Qed.
(** Together with C01/C02: whatever is not a statement changes nothing. *)
Theorem C26_not_a_statement : forall srt pw c s line c' s' ans,
  (forall a m args, ~ statement line a m args) -> runs srt pw c s line c' s' ans -> same_data c c' /\ s' = s.
Proof.
  intros srt pw c s line c' s' ans H Hr. unfold runs, execute, run_statement, bind, lift in Hr.
  rewrite parse_not_statement in Hr by auto. cbn in Hr. inversion Hr; subst. split; [apply same_data_log|reflexivity].
Qed.
Example C26_ex : exists c' ans, runs insertion_sort [] one_integer None (B "x add: 2;") c' None ans /\ lookup c' (B "x") = Some (IObj (OInt 7)).
Proof. eexists _, _. split; [unfold runs; vm_compute; reflexivity|reflexivity]. Qed.

(** ** C27: a failed statement changes nothing, and answers are never ambiguous *)
Theorem C27_errors_change_nothing : forall srt pw c s line c' s' ans, sort_contract srt -> reachable srt pw c ->
  runs srt pw c s line c' s' ans -> looks_like_error ans ->
  error_answer ans /\ same_data c c' /\ s' = s.
Proof.
  intros srt pw c s line c' s' ans H1 H2 Hr He.
  destruct (every_answer srt pw c s line c' s' ans H1 H2 Hr) as [H|[_ H]]; [exact H|contradiction].
Qed.
Theorem C27_syntax_error_iff_not_a_statement : forall srt pw c s line c' s' ans, sort_contract srt -> reachable srt pw c ->
  runs srt pw c s line c' s' ans -> (ans = ERR_SYNTAX <-> forall a m args, ~ statement line a m args).
Proof.
  intros srt pw c s line c' s' ans H1 H2 Hr. split.
  - intros E. destruct (which_error srt pw c s line c' s' ans InvalidStatement H1 H2 Hr E) as [[_ H]|(a & m & ar & Hs & He)]; auto.
    exfalso. unfold stmt_exc in He. destruct He as [He|[He|[He|[He|[He|[He _]]]]]]; discriminate.
  - intros H. unfold runs, execute, run_statement, bind, lift in Hr. rewrite parse_not_statement in Hr by auto.
    cbn in Hr. now inversion Hr.
Qed.
Example C27_ex : runs insertion_sort [] one_integer None (B "x set: ""a"";") one_integer None ERR_ARGUMENT.
Proof. unfold runs. vm_compute. reflexivity. Qed.

(** ** C28: containers are strongly typed in every reachable state *)
Theorem C28_reachable_data_is_well_typed : forall srt pw c n i, sort_contract srt -> reachable srt pw c ->
  lookup c n = Some i -> variable n /\ well_typed i.
Proof. intros. split; [eapply holder_variable|eapply holder_typed]; eauto. Qed.
Theorem C28_no_comparison_or_unknown_error : forall srt pw c s line c' s' ans, sort_contract srt -> reachable srt pw c ->
  runs srt pw c s line c' s' ans -> ans <> ERR_COMPARE /\ ans <> ERR_UNKNOWN.
Proof.
  intros srt pw c s line c' s' ans H1 H2 Hr. split; intros E.
  - destruct (which_error srt pw c s line c' s' ans InvalidComparison H1 H2 Hr E) as [[H _]|(a & m & ar & Hs & He)]; [discriminate|].
    unfold stmt_exc in He. destruct He as [He|[He|[He|[He|[He|[He _]]]]]]; discriminate.
  - destruct (which_error srt pw c s line c' s' ans EUnknown H1 H2 Hr E) as [[H _]|(a & m & ar & Hs & He)]; [discriminate|].
    unfold stmt_exc in He. destruct He as [He|[He|[He|[He|[He|[He _]]]]]]; discriminate.
Qed.
(** The only undefined behaviour left is numeric (C10) or an inconsistent Float order (C17, C23): no out-of-bounds access, no null
    element, no endless loop. *)
Theorem C28_memory_safety : forall srt pw c s line u, sort_contract srt -> reachable srt pw c ->
  undefined_behaviour srt pw c (Some s) line u -> u = AtoiRange \/ u = IntConversion \/ u = BadOrder.
Proof.
  intros srt pw c s line u H1 H2 Hu. assert (Hg := reachable_good srt pw c H1 H2). unfold undefined_behaviour in Hu.
  destruct (execute_good false srt pw line c (Some s) H1 Hg (clean_false _)) as [(c1 & s1 & t & H & _)|[(e & H & _)|(u' & H & H')]].
  - unfold runs in H. rewrite H in Hu. discriminate.
  - unfold runs in H. rewrite H in Hu. discriminate.
  - unfold undefined_behaviour in H. rewrite H in Hu. inversion Hu; subst.
    destruct H' as [[[->| ->]| ->]|(_ & H' & _)]; auto. discriminate.
Qed.
(** Every statement of a session is answered, unless it has undefined behaviour. *)
Theorem C28_every_line_is_answered : forall srt pw c s line, sort_contract srt -> reachable srt pw c ->
  (exists c' s' ans, runs srt pw c s line c' s' ans) \/ exists u, undefined_behaviour srt pw c s line u.
Proof.
  intros srt pw c s line H1 H2. assert (Hg := reachable_good srt pw c H1 H2).
  destruct (execute_good false srt pw line c s H1 Hg (clean_false _)) as [(c1 & s1 & t & H & _)|[(e & H & _)|(u' & H & H')]]; eauto 10.
Qed.
Definition a_dictionary : context :=
  set_instances empty_server [(B "d", IDict (B "Integer") (B "String") [(OInt 3, OStr (B "z"))])].
Example C28_ex : reachable insertion_sort [] a_dictionary /\ well_typed (IDict (B "Integer") (B "String") [(OInt 3, OStr (B "z"))]).
Proof.
  split.
  - apply (after_reachable _ _ [B "Dictionary<Integer,String> create: d;"; B "d associateValue: ""z"" withKey: 3;"] empty_server);
      [constructor; vm_compute; reflexivity|vm_compute; reflexivity].
  - split; [right; right; now left|]. split; [right; right; right; now right|]. repeat constructor.
Qed.

(** ** C29: wrong number of arguments *)
Theorem C29_only_for_question_marks : forall srt pw c s line c' s', sort_contract srt -> reachable srt pw c ->
  runs srt pw c s line c' s' ERR_NARGS ->
  exists a i args, statement line a (i ++ B "?")%list args /\ identifier i.
Proof.
  intros srt pw c s line c' s' H1 H2 Hr.
  destruct (which_error srt pw c s line c' s' _ WrongNumberOfArguments H1 H2 Hr eq_refl) as [[H _]|(a & m & ar & Hs & He)]; [discriminate|].
  unfold stmt_exc in He. destruct He as [He|[He|[He|[He|[He|[_ (i & Hi & ->)]]]]]]; try discriminate. eauto.
Qed.
Theorem C29_otherwise_the_name_fixes_the_number : forall line a m args,
  statement line a m args -> length args = arity m \/ exists i, identifier i /\ m = (i ++ B "?")%list.
Proof.
  intros line a m args H. apply statement_args in H as [H|H]; [left|right; exact H]. rewrite H. unfold count_delims, arity. f_equal.
  apply filter_ext. intros x. generalize x.
  assert (X := by_all_ascii (fun x => Bool.eqb (is_kw_delim x) ((code x =? 58) || (code x =? 63))%nat) eq_refl).
  intros y. apply Bool.eqb_prop. apply X.
Qed.
Example C29_ex : statement (B "x isEqualTo?;") (B "x") (B "isEqualTo?") [] /\ runs insertion_sort [] one_integer None (B "x isEqualTo?;") one_integer None ERR_NARGS.
Proof. split; [stmt|]. unfold runs. vm_compute. reflexivity. Qed.

(** ** C36: an answer is one line *)
Theorem C36_answers_are_single_lines : forall srt pw c s line c' s' ans, sort_contract srt -> reachable_by_lines srt pw c ->
  ~ In NEWLINE line -> runs srt pw c s line c' s' ans -> ~ In NEWLINE ans.
Proof.
  assert (Clean : forall line, ~ In NEWLINE line <-> clean true line).
  { intros line. split.
    - intros H. apply Forall_forall. intros x Hx _ ->. now apply H.
    - intros H Hin. unfold clean in H. rewrite Forall_forall in H. exact (H _ Hin eq_refl eq_refl). }
  assert (Exc : forall e, clean true (exc_text e)) by (intros []; apply clean_lit; reflexivity).
  assert (Step : forall srt pw c s line c' s' ans, sort_contract srt -> ctx_good true c -> ~ In NEWLINE line ->
    runs srt pw c s line c' s' ans -> ctx_good true c' /\ ~ In NEWLINE ans).
  { intros srt pw c s line c' s' ans H1 Hg Hl Hr. apply Clean in Hl.
    destruct (execute_good true srt pw line c s H1 Hg Hl) as [(c1 & s1 & t & H & Hg' & [_ Ha] & _)|[(e & H & _)|(u & H & _)]].
    - destruct (runs_unique _ _ _ _ _ _ _ _ _ _ _ Hr H) as (-> & -> & ->). split; auto. now apply Clean.
    - destruct (runs_unique _ _ _ _ _ _ _ _ _ _ _ Hr H) as (-> & -> & ->). split; [now apply ctx_good_log|]. now apply Clean.
    - exfalso. eapply runs_ub; eauto. }
  intros srt pw c s line c' s' ans H1 H2 Hl Hr.
  assert (Hg : ctx_good true c).
  { clear Hr Hl. induction H2 as [o p t q|c0 s0 line0 c0' s0' ans0 Hl0 _ IH Hr0]; [apply new_context_good|]. eapply Step; eauto. }
  eapply Step; eauto.
Qed.
Example C36_ex : reachable_by_lines insertion_sort [] one_integer /\ ~ In NEWLINE (B "x get;").
Proof.
  split; [|cbn; intuition discriminate].
  eapply (line_step _ _ empty_server None (B "Integer create: x withValue: 5;")); [cbn; intuition discriminate|constructor; vm_compute; reflexivity|].
  unfold runs. vm_compute. reflexivity.
Qed.

(** ** C39: character predicates *)
Definition truth (b : bool) : bytes := if b then B "true" else B "false".
Theorem C39_character_predicates : forall srt pw c s line n m x (P : ascii -> Prop),
  sort_contract srt -> reachable srt pw c -> statement line n m [] -> lookup c n = Some (IObj (OChar x)) ->
  (m = B "isAlphabetic?" /\ P = letter) \/ (m = B "isNumeric?" /\ P = digit) \/
  (m = B "isAlphanumeric?" /\ P = (fun x => letter x \/ digit x)) \/ (m = B "isSpace?" /\ P = space) ->
  (P x /\ only_answers srt pw c s line (B "true")) \/ (~ P x /\ only_answers srt pw c s line (B "false")).
Proof.
  intros srt pw c s line n m x P H1 H2 Hs Hl HP.
  assert (A : forall b, receive (env_of srt c) (IObj (OChar x)) m [] = (IObj (OChar x), Ok (btext b)) ->
              only_answers srt pw c s line (truth b)).
  { intros b E. apply (var_answers srt pw c s line n m [] _ H1 H2 Hs Hl (Ok (btext b)) E). auto. }
  destruct HP as [[-> ->]|[[-> ->]|[[-> ->]|[-> ->]]]].
  - specialize (A (is_alpha x) eq_refl). destruct (is_alpha x) eqn:E; [left|right]; (split; [|exact A]).
    now apply is_alpha_iff. now apply is_alpha_false.
  - specialize (A (is_numeric x) eq_refl). destruct (is_numeric x) eqn:E; [left|right]; (split; [|exact A]).
    now apply is_numeric_iff. now apply is_numeric_false.
  - specialize (A (is_alphanumeric x) eq_refl). unfold is_alphanumeric in A.
    destruct (is_alpha x) eqn:E1; [left; split; [left; now apply is_alpha_iff|exact A]|].
    destruct (is_numeric x) eqn:E2; [left; split; [right; now apply is_numeric_iff|exact A]|].
    right. split; [|exact A]. apply is_alpha_false in E1. apply is_numeric_false in E2. tauto.
  - specialize (A (is_space x) eq_refl). destruct (is_space x) eqn:E; [left|right]; (split; [|exact A]).
    now apply is_space_iff. now apply is_space_false.
Qed.
Example C39_ex : reachable insertion_sort [] (set_instances empty_server [(B "k", IObj (OChar "z"))]) /\
  statement (B "k isAlphabetic?;") (B "k") (B "isAlphabetic?") [].
Proof.
  split; [|stmt]. eapply (reach_step _ _ empty_server None (B "Character create: k withValue: 'z';")); [constructor; vm_compute; reflexivity|].
  unfold runs. vm_compute. reflexivity.
Qed.

Print Assumptions C24_create_on_a_free_name.
Print Assumptions C24_create_on_a_used_name.
Print Assumptions C24_createIfNotExists_on_a_used_name.
Print Assumptions C24_other_messages_to_a_type.
Print Assumptions C24_bad_creation.
Print Assumptions C25_listVariables.
Print Assumptions C25_listNamespaces.
Print Assumptions C25_listVariablesOfNamespace.
Print Assumptions C25_deleteVariable.
Print Assumptions C25_deleteVariablesOfNamespace.
Print Assumptions C26_message_to_a_variable.
Print Assumptions C26_message_to_a_type.
Print Assumptions C26_message_to_Context.
Print Assumptions C26_message_to_Connection.
Print Assumptions C27_errors_change_nothing.
Print Assumptions C27_syntax_error_iff_not_a_statement.
Print Assumptions C28_reachable_data_is_well_typed.
Print Assumptions C28_memory_safety.
Print Assumptions C29_only_for_question_marks.
Print Assumptions C36_answers_are_single_lines.
Print Assumptions C39_character_predicates.
