(** C67: which error is answered. *)
From Coq Require Import ZArith Reals Psatz Sorting.Sorted Sorting.Permutation Classical.
From Flocq Require Import Core.
From Coq Require Import Floats.SpecFloat.
From Verif Require Import Bytes StrUtils Grammar Outcome Parser Num Containers Instance Context Server Platform.
From Verif Require Import Lemmas StringLit Proof_Grammar Proof_Parser Proof_Exec WP Proof_Inv Proof_Literal Proof_Receive Proof_Context Proof_Names Api Proof_Text.
From Verif Require Import Proof_Number Proof_Float Proof_Arith Proof_Order Props_Text Props_State Props_Number Props_Float Props_Order.
From Verif Require Import Proof_Manual Props_Start Props_Manual Props_Whole Proof_Errors.
From Verif Require Import Spec_Grammar Spec_State Spec_Names Spec_Text Spec_Number Spec_Float Spec_Order Spec_Server Spec_Start Spec_Manual Spec_Whole Spec_Errors.
Open Scope Z_scope.
Open Scope list_scope.

Lemma value_counts E i m args takes gives : look Method (class_of i) m = Some (takes, gives) ->
  (length args <> length takes -> snd (receive E i m args) = Throw WrongNumberOfArguments) /\
  (length args = length takes -> snd (receive E i m args) <> Throw WrongNumberOfArguments).
Proof.
  intros L. destruct i as [[b|ch|z|f|v]|t v|t v|k v d]; cbn [class_of] in L; unfold receive, on; cbn [snd].
  - destruct (boolean_counts args _ _ _ L) as [C1 C2]. split; intros H; [now apply C1|now apply C2].
  - destruct (character_counts E args _ _ _ L) as [C1 C2]. split; intros H; [now apply C1|now apply C2].
  - destruct (integer_counts E args _ _ _ L) as [C1 C2]. split; intros H; [now apply C1|now apply C2].
  - destruct (float_counts E args _ _ _ L) as [C1 C2]. split; intros H; [now apply C1|now apply C2].
  - destruct (string_counts E args _ _ _ L) as [C1 C2]. split; intros H; [now apply C1|now apply C2].
  - destruct (vector_counts E t args _ _ _ L) as [C1 C2]. split; intros H; [now apply C1|now apply C2].
  - destruct (set_counts E t args _ _ _ L) as [C1 C2]. split; intros H; [now apply C1|now apply C2].
  - destruct (dict_counts E k v args _ _ _ L) as [C1 C2]. split; intros H; [now apply C1|now apply C2].
Qed.
(** Outside the chapters about values no message ends in a question mark. *)
Lemma keyword_arity sec cls m takes gives : documents sec cls m takes gives ->
  sec = Constructor \/ cls = B "Context" \/ cls = B "Connection" ->
  count_delims m = length takes /\ (match rev m with c :: _ => ceq c c_qmark | [] => false end) = false.
Proof.
  intros (i & I) H.
  assert (X : forallb (fun e : entry => match e with (_, s, k, m, t, _) =>
     negb (same_section s Constructor || seq_eqb k (B "Context") || seq_eqb k (B "Connection")) ||
     (Nat.eqb (count_delims m) (length t) && negb (match rev m with c :: _ => ceq c c_qmark | [] => false end)) end) manual = true) by (vm_compute; reflexivity).
  rewrite forallb_forall in X. specialize (X _ I). cbv beta iota in X.
  assert (Y : (same_section sec Constructor || seq_eqb cls (B "Context") || seq_eqb cls (B "Connection")) = true).
  { destruct H as [->|[->| ->]]; [reflexivity| |]; rewrite seq_eqb_refl, ?orb_true_r; reflexivity. }
  rewrite Y in X. cbn [negb orb] in X. apply andb_prop in X as [X1 X2]. apply Nat.eqb_eq in X1. apply negb_true_iff in X2. now split.
Qed.
Lemma right_number line a m args sec cls takes gives : statement line a m args -> documents sec cls m takes gives ->
  sec = Constructor \/ cls = B "Context" \/ cls = B "Connection" -> length args = length takes.
Proof. intros Hs D H. destruct (keyword_arity _ _ _ _ _ D H) as [C Q]. eapply args_len; eauto. Qed.
Lemma variable_not_special pw c a m args e : variable a -> ~ special_error pw c a m args e.
Proof.
  intros V H. destruct H as [t m args n i Cr L M|n Vn L|a v D N].
  - apply creates_type, is_type_iff in Cr. rewrite variable_not_type in Cr; [discriminate Cr|exact V].
  - apply is_variable_iff in V. vm_compute in V. discriminate V.
  - apply is_variable_iff in V. vm_compute in V. discriminate V.
Qed.
Lemma type_chapter c t : type t -> exists cls, chapter c t Constructor cls None.
Proof.
  intros [H|[(e & H)|[(e & H)|(k & v & H)]]]; eexists; [now apply chap_object|eapply chap_vector; exact H|eapply chap_set; exact H|eapply chap_dictionary; exact H].
Qed.
Lemma type_not_context t : type t -> t <> B "Context" /\ t <> B "Connection".
Proof. intros H. apply is_type_iff in H. split; intros ->; vm_compute in H; discriminate H. Qed.

Lemma type_special pw c a m args e : type a -> special_error pw c a m args e ->
  exists n i, creates a m args n i /\ live c n /\ In m [B "create:"; B "create:withValue:"] /\ e = ERR_USED.
Proof.
  intros T H. destruct (type_not_context a T) as [N1 N2]. destruct H as [t m args n i Cr L M|n Vn L|a v D N]; [exists n, i; tauto|now destruct N1|now destruct N2].
Qed.
Section Which.
Context (srt : sorter) (pw : bytes) (c : context) (s : option session) (line a m : bytes) (args : list bytes) (c' : context) (s' : option session) (ans : bytes).
Context (Hsrt : sort_contract srt) (Hr : reachable srt pw c) (Hs : statement line a m args) (R : runs srt pw c s line c' s' ans) (X : error_answer ans).
Lemma value_error i : lookup c a = Some i -> error_of pw c a m args ans.
Proof using Hsrt Hr Hs R X.
  intros L. assert (Ch := chap_variable c a i L). assert (I := C65_interface srt pw c s line a m args _ _ _ _ _ _ Hsrt Hr Hs Ch R).
  destruct (look Method (class_of i) m) as [[takes gives]|] eqn:E.
  2:{ assert (N : ~ documented Method (class_of i) m).
      { intros (t & g & D). apply look_documents in D. congruence. }
      rewrite (proj2 I N). eapply error_no_message; eauto. }
  assert (D := E). apply look_documents in D. destruct (value_counts (env_of srt c) i m args _ _ E) as [C1 C2].
  assert (V := C25_live_names_are_variables srt pw c a Hsrt Hr ltac:(unfold live; congruence)).
  assert (T : exists r, ans = text_of r /\ snd (receive (env_of srt c) i m args) = r).
  { destruct (receive (env_of srt c) i m args) as [i1 r] eqn:Er. cbn [snd]. exists r. split; [|reflexivity].
    destruct r as [o|e|u].
    - destruct (var_becomes srt pw c s line a m args i Hsrt Hr Hs L _ _ Er ltac:(cbn; tauto)) as (c1 & R1 & _).
      now destruct (runs_unique _ _ _ _ _ _ _ _ _ _ _ R1 R) as (_ & _ & <-).
    - destruct (var_becomes srt pw c s line a m args i Hsrt Hr Hs L _ _ Er ltac:(cbn; tauto)) as (c1 & R1 & _).
      now destruct (runs_unique _ _ _ _ _ _ _ _ _ _ _ R1 R) as (_ & _ & <-).
    - exfalso. eapply runs_ub; [exact R|]. eapply exec_variable_ub; eauto. }
  destruct T as (r & T & Er). destruct (Nat.eq_dec (length args) (length takes)) as [K|K].
  2:{ rewrite (C1 K) in Er. subst r. subst ans. eapply (error_number _ _ _ _ _ Method); eauto. }
  specialize (C2 K).
  assert (Y : ans = ERR_ARGUMENT); [|rewrite Y; eapply error_argument; eauto; intros e; now apply variable_not_special].
  destruct (ctx_good_lookup _ _ _ _ (reachable_good _ _ _ Hsrt Hr) L) as [_ Gi].
  assert (G := receive_good false (env_of srt c) i m args Hsrt Gi ltac:(apply Forall_forall; intros; apply clean_false)).
  unfold recv_post in G. rewrite Er in *. destruct r as [o|e|u].
  - exfalso. cbn [text_of] in T. subst o. destruct G as (_ & _ & G). apply error_answer_looks in X. revert X. apply success_not_error. apply G.
  - cbn [text_of] in T. destruct G as (_ & _ & _ & G). unfold msg_exc in G. destruct G as [->|[->|[-> _]]]; [exact T| |now destruct C2].
    exfalso. apply I; [exact T|]. now exists takes, gives.
  - exfalso. cbn [text_of] in T. subst ans. apply error_answer_looks in X as (r & [Y|[Y|Y]]); discriminate Y.
Qed.
Lemma known_message sec cls held : chapter c a sec cls held -> ans <> ERR_MESSAGE -> exists takes gives, documents sec cls m takes gives.
Proof using Hsrt Hr Hs R.
  intros Ch N. assert (I := C65_interface srt pw c s line a m args _ _ _ _ _ _ Hsrt Hr Hs Ch R).
  destruct (classic (documented sec cls m)) as [D|D]; [exact D|]. exfalso. apply N. now apply I.
Qed.
Lemma message_error sec cls held : chapter c a sec cls held -> ans = ERR_MESSAGE -> error_of pw c a m args ans.
Proof using Hsrt Hr Hs R.
  intros Ch N. assert (I := C65_interface srt pw c s line a m args _ _ _ _ _ _ Hsrt Hr Hs Ch R).
  rewrite N. eapply error_no_message; eauto. now apply I.
Qed.
Lemma argument_error sec cls held : chapter c a sec cls held -> sec = Constructor \/ cls = B "Context" \/ cls = B "Connection" ->
  ans = ERR_ARGUMENT -> (forall e, ~ special_error pw c a m args e) -> error_of pw c a m args ans.
Proof using Hsrt Hr Hs R.
  intros Ch K E S. destruct (known_message _ _ _ Ch) as (takes & gives & D); [rewrite E; discriminate|]. rewrite E.
  eapply error_argument; eauto. eapply right_number; eauto.
Qed.
Lemma answer_is ans' : only_answers srt pw c s line ans' -> ans = ans'.
Proof using R. clear X. intros O. now destruct (same_run _ _ _ _ _ _ _ _ _ O R) as (-> & _). Qed.
Lemma not_done ans' c1 s1 : runs srt pw c s line c1 s1 ans' -> error_answer ans'.
Proof using R X. intros R1. destruct (runs_unique _ _ _ _ _ _ _ _ _ _ _ R1 R) as (_ & _ & ->). exact X. Qed.
Lemma null_no_error : ~ error_answer (B "null").
Proof using Type. intros H. apply error_answer_looks in H. revert H. apply success_not_error, success_null. Qed.
Lemma type_error : type a -> error_of pw c a m args ans.
Proof using Hsrt Hr Hs R X.
  intros T. destruct (type_chapter c a T) as (cls & Ch).
  destruct (classic (understands a m)) as [U|U]; [|eapply message_error; [exact Ch|]; apply answer_is; now apply (C24_other_messages_to_a_type srt pw c s line a m args)].
  destruct (classic (exists n i, creates a m args n i)) as [(n & i & Cr)|No].
  2:{ destruct (C24_bad_creation srt pw c s line a m args Hs T U) as [O|(_ & _ & u & Hu)].
      - intros n i Y. apply No. eauto.
      - eapply argument_error; [exact Ch|now left|now apply answer_is|]. intros e H. destruct (type_special _ _ _ _ _ _ T H) as (n & i & Cr & _). apply No. eauto.
      - exfalso. eapply runs_ub; eauto. }
  destruct (classic (live c n)) as [L|L].
  - assert (M : (m = B "create:" \/ m = B "create:withValue:") \/ (m = B "createIfNotExists:" \/ m = B "createIfNotExists:withValue:")).
    { destruct U as [[_ [->| ->]]|[_ [->| ->]]]; tauto. }
    destruct M as [M|M].
    + rewrite (answer_is ERR_USED); [|eapply C24_create_on_a_used_name; eauto]. apply error_special. eapply spec_used; eauto. cbn [In]. intuition.
    + exfalso. destruct (C24_createIfNotExists_on_a_used_name srt pw c s line a m args n i Hs Cr L M) as (c1 & R1 & _). exact (null_no_error (not_done _ _ _ R1)).
  - exfalso. destruct (C24_create_on_a_free_name srt pw c s line a m args n i Hsrt Hr Hs Cr L) as (c1 & R1 & _). exact (null_no_error (not_done _ _ _ R1)).
Qed.
End Which.

Lemma context_error srt pw c s line m args c' s' ans : sort_contract srt -> reachable srt pw c ->
  statement line (B "Context") m args -> runs srt pw c s line c' s' ans -> error_answer ans -> error_of pw c (B "Context") m args ans.
Proof.
  intros Hsrt Hr Hs R X. assert (Ch := chap_context c).
  assert (AE := argument_error srt pw c s line (B "Context") m args c' s' ans Hsrt Hr Hs R _ _ _ Ch ltac:(tauto)).
  assert (AI := answer_is srt pw c s line c' s' ans R). assert (ND := not_done srt pw c s line c' s' ans R X).
  assert (Sp : m <> B "deleteVariable:" -> forall e, ~ special_error pw c (B "Context") m args e).
  { intros N e H. remember (B "Context") as a eqn:Ea. destruct H as [t m args n i Cr L M|n Vn L|q v D N0]; [|now apply N|discriminate Ea].
    apply creates_type in Cr. destruct (type_not_context t Cr) as [K _]. contradiction. }
  assert (Ok : forall t, success_text t -> only_answers srt pw c s line t -> False).
  { intros t T O. assert (Y := AI _ O). subst t. apply error_answer_looks in X. revert X. now apply success_not_error. }
  destruct (in_dec bytes_dec m context_messages) as [I|I].
  2:{ eapply message_error; eauto. apply AI. eapply C49_other_messages_to_Context_are_refused; eauto. }
  unfold context_messages in I. repeat (destruct I as [<-|I]); [..|destruct I].
  - exfalso. destruct (C25_listNamespaces srt pw c s line args Hsrt Hr Hs) as (names & _ & _ & O). eapply Ok; [|exact O]. apply text_listing.
  - exfalso. destruct (C25_listVariables srt pw c s line args Hsrt Hr Hs) as (names & _ & _ & O). eapply Ok; [|exact O]. apply text_listing.
  - destruct (one_argument _ _ _ _ Hs) as (a & ->); [vm_compute; reflexivity..|]. destruct (namespace_dec a) as [V|V].
    + exfalso. destruct (C25_listVariablesOfNamespace srt pw c s line a Hsrt Hr Hs V) as (names & _ & _ & O). eapply Ok; [|exact O]. apply text_listing.
    + apply AE; [|apply Sp; discriminate]. apply AI. eapply C25_bad_names; [exact Hs|tauto].
  - destruct (one_argument _ _ _ _ Hs) as (a & ->); [vm_compute; reflexivity..|]. destruct (variable_dec a) as [V|V].
    + destruct (classic (live c a)) as [L|L].
      * exfalso. destruct (C25_deleteVariable srt pw c s line a Hsrt Hr Hs L) as (c1 & R1 & _). exact (null_no_error (ND _ _ _ R1)).
      * rewrite (AI _ (C25_deleteVariable_of_an_unused_name srt pw c s line a Hs V L)). apply error_special. now apply spec_not_used.
    + apply AE; [apply AI; eapply C25_bad_names; [exact Hs|tauto]|]. intros e H.
      remember (B "Context") as q eqn:Eq. remember [a] as l eqn:El. destruct H as [t m args n i Cr L M|n Vn L|q v D N0]; [|congruence|discriminate Eq].
      apply creates_type in Cr. destruct (type_not_context t Cr) as [K _]. contradiction.
  - destruct (one_argument _ _ _ _ Hs) as (a & ->); [vm_compute; reflexivity..|]. destruct (namespace_dec a) as [V|V].
    + exfalso. destruct (C25_deleteVariablesOfNamespace srt pw c s line a Hs V) as (c1 & R1 & _). exact (null_no_error (ND _ _ _ R1)).
    + apply AE; [|apply Sp; discriminate]. apply AI. eapply C25_bad_names; [exact Hs|tauto].
  - exfalso. destruct (C38_getFloatPrecision srt pw c s line args Hs) as (t & O & P). eapply Ok; [|exact O]. apply prints_int_iff in P. subst t. apply success_to_string.
  - destruct (one_argument _ _ _ _ Hs) as (a & ->); [vm_compute; reflexivity..|]. apply AE; [|apply Sp; discriminate].
    destruct (integer_of a) as [z|e|u] eqn:E.
    + apply literal_integer in E. destruct (Z.ltb_spec 0 z) as [Z|Z].
      * exfalso. destruct (C38_setFloatPrecision srt pw c s line a z Hs E Z) as (c1 & R1 & _). exact (null_no_error (ND _ _ _ R1)).
      * apply AI. eapply C38_setFloatPrecision_refuses; [exact Hs|left; eauto].
    + assert (e = InvalidArgument) as ->.
      { assert (Y := integer_of_cases a). now rewrite E in Y. }
      apply AI. apply (context_throws srt pw c s line _ _ InvalidArgument Hs).
      change (op_setFloatPrecision [a] c = (c, Throw InvalidArgument)). unfold op_setFloatPrecision. mon. now rewrite E.
    + exfalso. destruct (context_outcome _ _ _ _ _ _ _ _ _ _ Hs R) as (c1 & r & Y & U & _).
      change (op_setFloatPrecision [a] c = (c1, r)) in Y. unfold op_setFloatPrecision in Y. unfold bind, check_nargs, throw_if, arg, ret, lift in Y. cbn in Y. rewrite E in Y. inversion Y; subst. now apply U.
  - exfalso. destruct (C38_getFloatComparisonTolerance srt pw c s line args Hs) as (t & O & P). eapply Ok; [|exact O].
    rewrite (prints_float_unique _ _ _ _ P (fixed_repr_prints _ _)). apply success_fixed_repr.
  - destruct (one_argument _ _ _ _ Hs) as (a & ->); [vm_compute; reflexivity..|]. apply AE; [|apply Sp; discriminate].
    destruct (is_float_value a) eqn:E.
    + assert (F : literal_of (B "Float") a (OFloat (to_float (atof a)))) by (apply literal_float; split; [now apply is_float_value_iff|reflexivity]).
      destruct (classic (below_zero (to_float (atof a)))) as [Z|Z].
      * apply AI. eapply C38_setFloatComparisonTolerance_refuses; [exact Hs|left; eauto].
      * exfalso. destruct (C38_setFloatComparisonTolerance srt pw c s line a _ Hs F Z) as (c1 & R1 & _). exact (null_no_error (ND _ _ _ R1)).
    + apply AI. eapply C38_setFloatComparisonTolerance_refuses; [exact Hs|right]. intros Y. apply is_float_value_iff in Y. congruence.
Qed.
Lemma connection_error srt pw c s line m args c' s' ans : sort_contract srt -> reachable srt pw c ->
  statement line (B "Connection") m args -> runs srt pw c s line c' s' ans -> error_answer ans -> error_of pw c (B "Connection") m args ans.
Proof.
  intros Hsrt Hr Hs R X. assert (Ch := chap_connection c). destruct s as [z|].
  2:{ exfalso. destruct (runs_statement _ _ _ _ _ _ _ _ R) as (w1 & r & E & U & _). rewrite (run_connection srt pw line m args _ Hs) in E.
      unfold in_session in E. cbn [w_session] in E. inversion E; subst. now apply U. }
  destruct (C49_connection_messages_are_complete pw line m args z Hs) as (z' & a & Y).
  destruct (C49_connection_messages srt pw c z line m args z' a Hs Y) as (c1 & R1 & L1 & S1).
  destruct (runs_unique _ _ _ _ _ _ _ _ _ _ _ R1 R) as (-> & <- & ->). clear R1.
  assert (AE := argument_error srt pw c (Some z) line (B "Connection") m args c' (Some z') ans Hsrt Hr Hs R _ _ _ Ch ltac:(tauto)).
  assert (ME := message_error srt pw c (Some z) line (B "Connection") m args c' (Some z') ans Hsrt Hr Hs R _ _ _ Ch).
  destruct Y as [z|a z D|a v z D V|a z D|m args z M1 M2].
  - destruct (null_no_error X).
  - destruct (null_no_error X).
  - apply error_special. now apply (spec_password _ _ _ v).
  - apply AE; [reflexivity|]. intros e H. remember (B "Connection") as q eqn:Eq. remember [a] as l eqn:El.
    destruct H as [t m args n i Cr L M|n Vn L|q v [D0 E0] N0]; [|discriminate Eq|apply D; congruence].
    apply creates_type in Cr. destruct (type_not_context t Cr) as [_ K]. contradiction.
  - now apply ME.
Qed.

Theorem C67_which_error : forall srt pw c s line a m args c' s' ans, sort_contract srt -> reachable srt pw c ->
  statement line a m args -> runs srt pw c s line c' s' ans -> error_answer ans -> error_of pw c a m args ans.
Proof.
  intros srt pw c s line a m args c' s' ans Hsrt Hr Hs R X. destruct (statement_actor _ _ _ _ Hs) as [->|[->|[T|V]]].
  - eapply connection_error; eauto.
  - eapply context_error; eauto.
  - eapply type_error; eauto.
  - destruct (lookup c a) as [i|] eqn:L; [eapply value_error; eauto|].
    destruct (C26_message_to_a_variable srt pw c s line a m args c' s' ans Hsrt Hr Hs V R) as (_ & _ & _ & _ & Y).
    rewrite L in Y. destruct Y as [_ ->]. apply error_no_variable; [exact V|]. unfold live. congruence.
Qed.

Lemma chapter_unique srt pw c a sec cls held sec' cls' held' : sort_contract srt -> reachable srt pw c ->
  chapter c a sec cls held -> chapter c a sec' cls' held' -> sec = sec' /\ cls = cls' /\ held = held'.
Proof.
  intros Hsrt Hr H H'.
  assert (V : forall i, lookup c a = Some i -> variable a) by (intros i L; eapply C25_live_names_are_variables; eauto; unfold live; congruence).
  assert (VT : forall i, lookup c a = Some i -> type a -> False).
  { intros i L T. apply V, variable_not_type in L. apply is_type_iff in T. congruence. }
  assert (VC : forall i, lookup c a = Some i -> a = B "Context" \/ a = B "Connection" -> False).
  { intros i L. apply V in L. apply is_variable_iff in L. intros [->| ->]; vm_compute in L; discriminate L. }
  Ltac clash := exfalso; solve [
      eapply vector_type_not_object; eauto | eapply set_type_not_object; eauto | eapply dictionary_type_not_object; eauto
    | eapply vector_not_set; eauto | eapply vector_not_dictionary; eauto | eapply set_not_dictionary; eauto].
  assert (TC : type a -> a = B "Context" \/ a = B "Connection" -> False) by (intros T; destruct (type_not_context a T); tauto).
  destruct H as [a i L|t Ht|t e Ht|t e Ht|t k v Ht| | ].
  all: inversion H' as [? j L' E1 E2 E3 E4|? Ht' E1 E2 E3 E4|? e' Ht' E1 E2 E3 E4|? e' Ht' E1 E2 E3 E4|? k' v' Ht' E1 E2 E3 E4|E1 E2 E3 E4|E1 E2 E3 E4]; subst.
  all: try (split; [reflexivity|now split]).
  all: try clash.
  all: try (exfalso; eapply VT; [eassumption|solve [now left|right; left; eauto|right; right; left; eauto|right; right; right; eauto]]).
  all: try (exfalso; eapply VC; [eassumption|solve [now left|now right]]).
  all: try (exfalso; apply TC; [solve [now left|right; left; eauto|right; right; left; eauto|right; right; right; eauto]|solve [now left|now right]]).
  assert (i = j) by congruence. subst j. auto.
Qed.
Lemma chapter_exists c a : variable a -> ~ live c a -> forall sec cls held, ~ chapter c a sec cls held.
Proof.
  intros V L sec cls held H. assert (T := variable_not_type a V).
  destruct H as [a i Hl|t Ht|t e Ht|t e Ht|t k v Ht| | ].
  - apply L. unfold live. congruence.
  - assert (X : type t) by now left. apply is_type_iff in X. congruence.
  - assert (X : type t) by (right; left; eauto). apply is_type_iff in X. congruence.
  - assert (X : type t) by (right; right; left; eauto). apply is_type_iff in X. congruence.
  - assert (X : type t) by (right; right; right; eauto). apply is_type_iff in X. congruence.
  - apply is_variable_iff in V. vm_compute in V. discriminate V.
  - apply is_variable_iff in V. vm_compute in V. discriminate V.
Qed.
Lemma creates_understands t m args n i : creates t m args n i -> understands t m.
Proof.
  intros [n' l x O W V L|n' E W V|n' e H W V|n' e H W V|n' k v H W V].
  - now left.
  - right. split; [now left|exact W].
  - right. split; [right; left; eauto|exact W].
  - right. split; [right; right; left; eauto|exact W].
  - right. split; [right; right; right; eauto|exact W].
Qed.
Lemma special_documented srt pw c a m args e sec cls held : sort_contract srt -> reachable srt pw c ->
  special_error pw c a m args e -> chapter c a sec cls held ->
  documented sec cls m /\ (sec = Constructor \/ cls = B "Context" \/ cls = B "Connection").
Proof.
  intros Hsrt Hr H Ch. destruct H as [t m args n i Cr L M|n Vn L|q v D N].
  - assert (T := creates_type _ _ _ _ _ Cr). assert (U := creates_understands _ _ _ _ _ Cr).
    assert (Y : exists cls', chapter c t Constructor cls' None /\ built t cls').
    { destruct T as [O|[(e & O)|[(e & O)|(k & v & O)]]]; eexists; (split; [eauto using chap_object, chap_vector, chap_set, chap_dictionary|]);
        [now apply built_object|eapply built_vector; exact O|eapply built_set; exact O|eapply built_dictionary; exact O]. }
    destruct Y as (cls' & Ch' & Bt). destruct (chapter_unique srt pw c t _ _ _ _ _ _ Hsrt Hr Ch Ch') as (-> & -> & _). split; [|now left].
    assert (K := constructor_entry t cls' m Bt). destruct (look Constructor cls' m) as [[tk gv]|] eqn:E; [|contradiction].
    exists tk, gv. now apply look_documents.
  - destruct (chapter_unique srt pw c _ _ _ _ _ _ _ Hsrt Hr Ch (chap_context c)) as (-> & -> & _). split; [|tauto].
    eexists. eexists. apply look_documents. vm_compute. reflexivity.
  - destruct (chapter_unique srt pw c _ _ _ _ _ _ _ Hsrt Hr Ch (chap_connection c)) as (-> & -> & _). split; [|tauto].
    eexists. eexists. apply look_documents. vm_compute. reflexivity.
Qed.
Lemma special_unique pw c a m args e e' : special_error pw c a m args e -> special_error pw c a m args e' -> e = e'.
Proof.
  intros H H'. destruct H as [t m args n i Cr L M|n Vn L|q v D N].
  - assert (T := creates_type _ _ _ _ _ Cr). destruct (type_special _ _ _ _ _ _ T H') as (_ & _ & _ & _ & _ & ->). reflexivity.
  - remember (B "Context") as q eqn:Eq. destruct H' as [t m args n' i Cr L' M|n' Vn' L'|q v D N]; [|reflexivity|discriminate Eq].
    exfalso. apply (proj1 (type_not_context t (creates_type _ _ _ _ _ Cr))). exact Eq.
  - remember (B "Connection") as r eqn:Eq. destruct H' as [t m args n' i Cr L' M|n' Vn' L'|q' v' D' N']; [|discriminate Eq|reflexivity].
    exfalso. apply (proj2 (type_not_context t (creates_type _ _ _ _ _ Cr))). exact Eq.
Qed.
Theorem C67_error_is_unique : forall srt pw c line a m args e e', sort_contract srt -> reachable srt pw c -> statement line a m args ->
  error_of pw c a m args e -> error_of pw c a m args e' -> e = e'.
Proof.
  intros srt pw c line a m args e e' Hsrt Hr Hs.
  assert (U := fun sec cls held sec' cls' held' => chapter_unique srt pw c a sec cls held sec' cls' held' Hsrt Hr).
  assert (DU := C65_manual_is_unambiguous).
  assert (Sp : forall f sec cls held, special_error pw c a m args f -> chapter c a sec cls held -> ~ documented sec cls m -> False).
  { intros f sec cls held S Ch N. now destruct (special_documented _ _ _ _ _ _ _ _ _ _ Hsrt Hr S Ch). }
  assert (Sn : forall f sec cls held takes gives, special_error pw c a m args f -> chapter c a sec cls held -> documents sec cls m takes gives ->
    length args <> length takes -> False).
  { intros f sec cls held takes gives S Ch D N. destruct (special_documented _ _ _ _ _ _ _ _ _ _ Hsrt Hr S Ch) as [_ K]. apply N. eapply right_number; eauto. }
  intros [V L|sec cls held Ch N|sec cls held tk gv Ch D N|f S|sec cls held tk gv Ch D N F]
    [V' L'|sec' cls' held' Ch' N'|sec' cls' held' tk' gv' Ch' D' N'|f' S'|sec' cls' held' tk' gv' Ch' D' N' F'];
    try reflexivity;
    try (exfalso; eapply chapter_exists; [| |eassumption]; assumption);
    try (exfalso; eapply variable_not_special; [|eassumption]; assumption);
    try (exfalso; eapply Sp; eassumption);
    try (exfalso; eapply Sn; eassumption);
    try (exfalso; eapply F; eassumption); try (exfalso; eapply F'; eassumption);
    try (eapply special_unique; eassumption);
    exfalso; destruct (U _ _ _ _ _ _ Ch Ch') as (<- & <- & _);
    try (apply N; now exists tk', gv'); try (apply N'; now exists tk, gv); destruct (DU _ _ _ _ _ _ _ D D') as [<- _]; contradiction.
Qed.
(** With C66: what every statement does. *)
Theorem C67_every_outcome : forall srt pw c s line a m args c' s' ans,
  sort_contract srt -> reachable srt pw c -> statement line a m args -> runs srt pw c s line c' s' ans ->
  (effect pw c s a m args c' s' ans /\ ~ error_answer ans) \/
  (~ has_effect pw c s line /\ error_of pw c a m args ans /\ error_answer ans /\ same_data c c' /\ s' = s).
Proof.
  intros srt pw c s line a m args c' s' ans Hsrt Hr Hs R. destruct (classic (error_answer ans)) as [X|X].
  - right. split; [|split; [eapply C67_which_error; eauto|split; [exact X|]]].
    + intros (a' & m' & args' & c1 & s1 & ans1 & Hs' & E). destruct (statement_unique _ _ _ _ _ _ _ Hs Hs') as (<- & <- & <-).
      destruct (proj2 (C66_succeeds_iff srt pw c s line a m args Hsrt Hr Hs)) as (c2 & s2 & a2 & R2 & N2); [eauto|].
      destruct (runs_unique _ _ _ _ _ _ _ _ _ _ _ R R2) as (_ & _ & <-). contradiction.
    + destruct (C27_errors_change_nothing _ _ _ _ _ _ _ _ Hsrt Hr R (error_answer_looks _ X)) as (_ & D & E). now split.
  - left. split; [|exact X]. eapply C66_every_success_is_an_effect; eauto.
Qed.
Theorem C67_the_error : forall srt pw c s line a m args c' s' ans e,
  sort_contract srt -> reachable srt pw c -> statement line a m args ->
  runs srt pw c s line c' s' ans -> ~ has_effect pw c s line -> error_of pw c a m args e -> ans = e.
Proof.
  intros srt pw c s line a m args c' s' ans e Hsrt Hr Hs R N E.
  destruct (C67_every_outcome srt pw c s line a m args c' s' ans Hsrt Hr Hs R) as [[Ef _]|(_ & E' & _)].
  - exfalso. apply N. exists a, m, args, c', s', ans. now split.
  - eapply C67_error_is_unique; eauto.
Qed.
(** Six statements to a server that holds x = 5: the error of each. *)
Example C67_ex : reachable insertion_sort (B "pw") one_integer /\
  Forall (fun q : bytes * bytes => match q with (line, e) => exists a m args c', statement line a m args /\
      runs insertion_sort (B "pw") one_integer (Some (fresh (B "pw"))) line c' (Some (fresh (B "pw"))) e /\ error_of (B "pw") one_integer a m args e end)
    [(B "y get;", ERR_UNKNOWN_NAME); (B "x size;", ERR_MESSAGE); (B "x isLessThan?;", ERR_NARGS); (B "x set: true;", ERR_ARGUMENT);
     (B "Integer create: x withValue: 1;", ERR_USED); (B "Context deleteVariable: y;", ERR_UNKNOWN_NAME);
     (B "Connection authenticateWithPassword: ""pv"";", ERR_PASSWORD)].
Proof.
  assert (R0 : reachable insertion_sort (B "pw") one_integer).
  { eapply (reach_step _ _ empty_server None (B "Integer create: x withValue: 5;")); [constructor; vm_compute; reflexivity|].
    unfold runs. vm_compute. reflexivity. }
  split; [exact R0|].
  assert (K : forall line a m args e, parse line = Ok {| p_actor := a; p_message := m; p_args := args |} -> error_answer e ->
    (exists c', runs insertion_sort (B "pw") one_integer (Some (fresh (B "pw"))) line c' (Some (fresh (B "pw"))) e) ->
    exists a m args c', statement line a m args /\
      runs insertion_sort (B "pw") one_integer (Some (fresh (B "pw"))) line c' (Some (fresh (B "pw"))) e /\ error_of (B "pw") one_integer a m args e).
  { intros line a m args e P X (c' & R). apply parse_iff in P. exists a, m, args, c'. split; [exact P|]. split; [exact R|].
    eapply C67_which_error; eauto; apply C16_a_sort_exists. }
  repeat apply Forall_cons; try apply Forall_nil;
    (eapply K; [vm_compute; reflexivity|unfold error_answer; cbn [In]; tauto|eexists; unfold runs; vm_compute; reflexivity]).
Qed.

Print Assumptions C67_which_error.
Print Assumptions C67_error_is_unique.
Print Assumptions C67_every_outcome.
Print Assumptions C67_the_error.
