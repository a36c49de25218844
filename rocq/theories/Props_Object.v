(** Properties C46 (what literals stand for) and C47 (variables that hold one value).  Specification: [Spec_Object]. *)
From Coq Require Import ZArith Reals Psatz.
From Verif Require Import Bytes StrUtils Grammar Outcome Parser Num Containers Instance Context Platform.
From Verif Require Import Lemmas StringLit Proof_Grammar Proof_Parser Proof_Exec WP Proof_Inv Proof_Literal Proof_Receive Proof_Context Proof_Names Api Proof_Text.
From Verif Require Import Proof_Number Proof_Float Proof_Arith Proof_Order Props_Text Props_State Props_Number Props_Float Proof_Vector Proof_String Proof_Literal.
From Verif Require Import Spec_Grammar Spec_State Spec_Names Spec_Text Spec_Number Spec_Float Spec_Order Spec_Object.
Open Scope Z_scope.
Open Scope list_scope.

(** ** C46 *)
(** A variable created with the text [a] holds exactly the value [a] stands for as a literal: the creation succeeds with the
    value [x] if and only if [a] is a literal of the type and stands for [x]. *)
Theorem C46_creation : forall srt pw c s line t m n a x, sort_contract srt -> reachable srt pw c ->
  statement line t m [n; a] -> object_type t -> with_value m -> variable n -> ~ live c n ->
  (becomes srt pw c s line n (B "null") (IObj x) <-> literal_of t a x).
Proof.
  intros srt pw c s line t m n a x H1 H2 Hs Ht Hm Hn Hl.
  assert (F : forall y, literal_of t a y -> becomes srt pw c s line n (B "null") (IObj y)).
  { intros y Hy. apply (C24_create_on_a_free_name srt pw c s line t m [n; a] n (IObj y)); auto. now apply creates_object. }
  split; [|apply F]. intros (c1 & R1 & L1 & _).
  destruct (reads_or_error t a Ht) as [[y Hy]|No].
  - destruct (F y Hy) as (c2 & R2 & L2 & _). destruct (runs_unique _ _ _ _ _ _ _ _ _ _ _ R1 R2) as (-> & _). congruence.
  - exfalso. assert (Nc : forall n' i', ~ creates t m [n; a] n' i').
    { intros n' i' Hc. inversion Hc; subst. lits. destruct No as [[e E]|[u E]]; congruence. }
    destruct (C24_bad_creation srt pw c s line t m [n; a] Hs (or_introl Ht) (or_introl (conj Ht Hm)) Nc) as [(c2 & R2 & _)|(_ & _ & u & U)].
    + destruct (runs_unique _ _ _ _ _ _ _ _ _ _ _ R1 R2) as (_ & _ & E). discriminate E.
    + eapply runs_ub; eauto.
Qed.
Theorem C46_one_value : forall t a x y, literal_of t a x -> literal_of t a y -> x = y.
Proof.
  intros t a x y Hx Hy. assert (Ht : object_type t) by (destruct Hx; unfold object_type; tauto).
  eapply literal_unique; eauto.
Qed.
Theorem C46_of_the_type : forall t a x, literal_of t a x -> object_type t /\ has_type t x /\ literal_text t a.
Proof.
  intros t a x H. assert (T := literal_typed _ _ _ H). destruct H; split; try (unfold object_type; tauto); split; auto.
  - constructor. now left.
  - constructor. now right.
  - constructor. now exists ch.
  - constructor. apply int_is_float. apply integer_value_denotes. eauto.
  - constructor. apply float_value_denotes. eauto.
  - constructor. apply float_value_denotes. eauto.
  - constructor. apply H.
Qed.
(** Every literal has a value, except numbers that do not fit an Integer. *)
Theorem C46_every_literal_has_a_value : forall t a, literal_text t a ->
  (exists x, literal_of t a x) \/ (t = B "Integer" /\ out_of_range a).
Proof.
  intros t a H. destruct H.
  - left. destruct H as [->| ->]; eexists; constructor.
  - left. destruct H as [c ->]. eexists. constructor.
  - destruct (is_integer_value a) eqn:I;
      [apply is_integer_value_iff in I|assert (I' : ~ integer_value a) by (rewrite <- is_integer_value_iff; congruence); clear I; rename I' into I].
    + apply integer_value_denotes in I as [d Hd]. destruct (in_int d) eqn:E.
      * left. exists (OInt d). apply lit_integer; auto. now apply in_int_fits.
      * right. split; auto. left. exists d. split; auto. rewrite <- in_int_fits. congruence.
    + apply float_value_denotes in H as (neg & x & H). destruct (double_to_int_cases (atof a)) as [(z & _ & Hz)|[_ Hn]].
      * left. exists (OInt z). eapply lit_truncated; eauto. now apply atof_rounds.
      * right. split; auto. right. split; auto. exists neg, x, (atof a). split; auto. split; auto. now apply atof_rounds.
  - left. exists (OFloat (to_float (atof a))). now apply literal_float.
  - left. destruct (string_no a) as [[u Hu]|N]; [exists (OStr u); now constructor|]. apply is_string_value_iff in H. congruence.
Qed.
(** A value printed by [get] and sent back is read as the same value, for types other than Float and String (for which
    see C07). *)
Theorem C46_printed_values_read_back : forall p t x a, object_type t -> t <> B "Float" -> t <> B "String" ->
  has_type t x -> (forall z, x = OInt z -> fits z) -> shows p x a -> literal_of t a x.
Proof.
  intros p t x a Ht N1 N2 Hx Hz S. destruct S; cbn [has_type] in Hx; subst t; try congruence.
  - destruct b; constructor.
  - constructor.
  - apply lit_integer; [now apply prints_denotes|auto].
Qed.
Example C46_ex : literal_of (B "Integer") (B "-007") (OInt (-7)) /\ literal_of (B "Integer") (B "2.75") (OInt 2) /\
  literal_of (B "Character") (B "'''") (OChar "'") /\ literal_of (B "Float") (B "1.5e1") (OFloat (S754_finite false 15728640 (-20))).
Proof.
  repeat split.
  - apply literal_integer. vm_compute. reflexivity.
  - apply literal_integer. vm_compute. reflexivity.
  - constructor.
  - apply literal_float. split; [apply is_float_value_iff; reflexivity|vm_compute; reflexivity].
Qed.

(** ** C47 *)
Ltac fits_dispatch d := match goal with |- on _ ?x = _ => change x with d end.
Theorem C47_effect : forall srt pw c s line n m args x x' ans, sort_contract srt -> reachable srt pw c ->
  statement line n m args -> lookup c n = Some (IObj x) -> value_effect (float_precision c) m args x x' ans ->
  becomes srt pw c s line n ans (IObj x').
Proof.
  intros srt pw c s line n m args x x' ans H1 H2 Hs Hl He.
  apply (var_becomes srt pw c s line n _ _ _ H1 H2 Hs Hl _ (Ok ans)); [|exact (fun x => x)].
  destruct He.
  - apply (shows_iff (env_of srt c)) in H. subst ans. destruct x; reflexivity.
  - assert (Ht := proj1 (C46_of_the_type _ _ _ H0)). destruct H0; destruct x; try discriminate H; try reflexivity.
    + assert (L : literal_of (B "Integer") a (OInt z)) by now apply lit_integer. apply literal_integer in L.
      change (on (fun z => IObj (OInt z)) (integer_set [a] z0) = (IObj (OInt z), Ok $"null")).
      unfold integer_set. mon. unfold integer_of in L. destruct (negb (is_integer_value a) && negb (is_float_value a)); [discriminate|].
      unfold rbind in L. now rewrite L.
    + assert (L : literal_of (B "Integer") a (OInt z)) by (eapply lit_truncated; eauto). apply literal_integer in L.
      change (on (fun z => IObj (OInt z)) (integer_set [a] z0) = (IObj (OInt z), Ok $"null")).
      unfold integer_set. mon. unfold integer_of in L. destruct (negb (is_integer_value a) && negb (is_float_value a)); [discriminate|].
      unfold rbind in L. now rewrite L.
    + assert (L : literal_of (B "Float") a (OFloat f)) by (econstructor; eauto). apply literal_float in L as [F L].
      change (on (fun z => IObj (OFloat z)) (float_set [a] f0) = (IObj (OFloat f), Ok $"null")).
      unfold float_set. mon. rewrite (proj2 (is_float_value_iff a) F). cbn [negb]. now rewrite L.
    + change (on (fun z => IObj (OStr z)) (string_set [a] s0) = (IObj (OStr v), Ok $"null")).
      unfold string_set. mon. destruct (string_ok a v H0) as (E1 & _ & E2). rewrite E1. cbn [negb]. now rewrite E2.
  - reflexivity.
  - reflexivity.
Qed.
Theorem C47_effect_unique : forall p m args x x1 ans1 x2 ans2,
  value_effect p m args x x1 ans1 -> value_effect p m args x x2 ans2 -> x1 = x2 /\ ans1 = ans2.
Proof.
  intros p m args x x1 a1 x2 a2 H1 H2. destruct H1; inversion H2; subst; auto.
  - split; auto. pose (E := {| e_precision := p; e_tolerance := S754_nan; e_sort := insertion_sort |}).
    apply (shows_iff E) in H. match goal with H' : shows _ _ a2 |- _ => apply (shows_iff E) in H' end. congruence.
  - split; auto. assert (t = t0) by (destruct x; cbn [has_type] in *; congruence). subst. eapply C46_one_value; eauto.
Qed.
Theorem C47_set_refuses_other_texts : forall srt pw c s line n t a x, sort_contract srt -> reachable srt pw c ->
  statement line n (B "set:") [a] -> lookup c n = Some (IObj x) -> has_type t x -> ~ literal_text t a ->
  only_answers srt pw c s line ERR_ARGUMENT.
Proof.
  intros srt pw c s line n t a x H1 H2 Hs Hl Ht N.
  apply (var_answers srt pw c s line n _ _ _ H1 H2 Hs Hl (Throw InvalidArgument)); [|exact (fun x => x)].
  destruct x; cbn [has_type] in Ht; subst t.
  - change (on (fun z => IObj (OBool z)) (boolean_set [a] b) = (IObj (OBool b), Throw InvalidArgument)). unfold boolean_set. mon.
    destruct (is_boolean_value a) eqn:E; [|reflexivity]. exfalso. apply N. constructor. now apply is_boolean_value_iff.
  - change (on (fun z => IObj (OChar z)) (character_set [a] c0) = (IObj (OChar c0), Throw InvalidArgument)). unfold character_set. mon.
    destruct (is_character_value a) eqn:E; [|reflexivity]. exfalso. apply N. constructor. now apply is_character_value_iff.
  - change (on (fun z => IObj (OInt z)) (integer_set [a] z) = (IObj (OInt z), Throw InvalidArgument)). unfold integer_set. mon.
    destruct (is_float_value a) eqn:E; [exfalso; apply N; constructor; now apply is_float_value_iff|].
    destruct (is_integer_value a) eqn:E'; [exfalso; apply N; constructor; apply int_is_float; now apply is_integer_value_iff|]. reflexivity.
  - change (on (fun z => IObj (OFloat z)) (float_set [a] f) = (IObj (OFloat f), Throw InvalidArgument)). unfold float_set. mon.
    destruct (is_float_value a) eqn:E; [|reflexivity]. exfalso. apply N. constructor. now apply is_float_value_iff.
  - change (on (fun z => IObj (OStr z)) (string_set [a] s0) = (IObj (OStr s0), Throw InvalidArgument)). unfold string_set. mon.
    destruct (is_string_value a) eqn:E; [|reflexivity]. exfalso. apply N. constructor. now apply is_string_value_iff.
Qed.
(** [set:] as well: it stores [x] if and only if the text is a literal of the variable's type and stands for [x]. *)
Theorem C46_set : forall srt pw c s line n t a y x, sort_contract srt -> reachable srt pw c ->
  statement line n (B "set:") [a] -> lookup c n = Some (IObj y) -> has_type t y ->
  (becomes srt pw c s line n (B "null") (IObj x) <-> literal_of t a x).
Proof.
  intros srt pw c s line n t a y x H1 H2 Hs Hl Hy.
  assert (F : forall z, literal_of t a z -> becomes srt pw c s line n (B "null") (IObj z)).
  { intros z Hz. eapply C47_effect; eauto. eapply val_set; eauto. }
  split; [|apply F]. intros (c1 & R1 & L1 & _).
  assert (Ht : object_type t) by (destruct y; cbn [has_type] in Hy; subst t; unfold object_type; tauto).
  destruct (reads_or_error t a Ht) as [[z Hz]|No].
  - destruct (F z Hz) as (c2 & R2 & L2 & _). destruct (runs_unique _ _ _ _ _ _ _ _ _ _ _ R1 R2) as (-> & _). congruence.
  - exfalso. assert (X : (exists e, receive (env_of srt c) (IObj y) (B "set:") [a] = (IObj y, Throw e)) \/
                         (exists u, receive (env_of srt c) (IObj y) (B "set:") [a] = (IObj y, UB u))).
    { clear -No Hy. assert (G : forall v, get_shared_instance t a <> Ok v) by (intros v; destruct No as [[e E]|[u E]]; congruence). clear No.
      destruct y as [b|b|b|b|b]; cbn [has_type] in Hy; subst t.
      - change (get_shared_instance (B "Boolean") a) with (let! v := boolean_of a in Ok (OBool v)) in G.
        change (receive (env_of srt c) (IObj (OBool b)) (B "set:") [a]) with (on (fun z => IObj (OBool z)) (boolean_set [a] b)).
        unfold boolean_set. mon. unfold boolean_of in G. destruct (is_boolean_value a); [exfalso; eapply G; reflexivity|left; eexists; reflexivity].
      - change (get_shared_instance (B "Character") a) with (let! v := character_of a in Ok (OChar v)) in G.
        change (receive (env_of srt c) (IObj (OChar b)) (B "set:") [a]) with (on (fun z => IObj (OChar z)) (character_set [a] b)).
        unfold character_set. mon. unfold character_of in G. destruct (is_character_value a); cbn [negb] in *; [|left; eexists; reflexivity].
        destruct (str_at a 1) as [v|e|u]; [exfalso; eapply G; reflexivity|left; eexists; reflexivity|right; eexists; reflexivity].
      - change (get_shared_instance (B "Integer") a) with (let! v := integer_of a in Ok (OInt v)) in G.
        change (receive (env_of srt c) (IObj (OInt b)) (B "set:") [a]) with (on (fun z => IObj (OInt z)) (integer_set [a] b)).
        unfold integer_set. mon. unfold integer_of in G. destruct (negb (is_integer_value a) && negb (is_float_value a)); [left; eexists; reflexivity|].
        unfold rbind in *. destruct (number_of a) as [d|e|u]; [|left; eexists; reflexivity|right; eexists; reflexivity].
        destruct (double_to_int d) as [v|e|u]; [exfalso; eapply G; reflexivity|left; eexists; reflexivity|right; eexists; reflexivity].
      - change (get_shared_instance (B "Float") a) with (let! v := float_of a in Ok (OFloat v)) in G.
        change (receive (env_of srt c) (IObj (OFloat b)) (B "set:") [a]) with (on (fun z => IObj (OFloat z)) (float_set [a] b)).
        unfold float_set. mon. unfold float_of in G. destruct (is_float_value a); [exfalso; eapply G; reflexivity|left; eexists; reflexivity].
      - change (get_shared_instance (B "String") a) with (let! v := string_of a in Ok (OStr v)) in G.
        change (receive (env_of srt c) (IObj (OStr b)) (B "set:") [a]) with (on (fun z => IObj (OStr z)) (string_set [a] b)).
        unfold string_set. mon. unfold string_of in G. destruct (is_string_value a); cbn [negb] in *; [|left; eexists; reflexivity].
        destruct (unquote a) as [v|e|u]; [exfalso; eapply G; reflexivity|left; eexists; reflexivity|right; eexists; reflexivity]. }
    destruct X as [[e X]|[u X]].
    + destruct (var_answers srt pw c s line n _ _ _ H1 H2 Hs Hl (Throw e) X (fun x => x)) as (c2 & R2 & _).
      destruct (runs_unique _ _ _ _ _ _ _ _ _ _ _ R1 R2) as (_ & _ & E). destruct e; discriminate E.
    + eapply runs_ub; [exact R1|]. eapply var_undefined; eauto.
Qed.
Lemma nargs_throw {S} args k (s : S) : length args <> k -> check_nargs args k s = (s, Throw WrongNumberOfArguments).
Proof. intros H. unfold check_nargs, throw_if. apply Nat.eqb_neq in H. now rewrite H. Qed.
Lemma dispatch_eq {S} name (op : list str -> M S str) r m args : seq_eqb m name = true -> dispatch ((name, op) :: r) m args = op args.
Proof. intros H. cbn [dispatch]. now rewrite H. Qed.
Lemma dispatch_ne {S} name (op : list str -> M S str) r m args : seq_eqb m name = false -> dispatch ((name, op) :: r) m args = dispatch r m args.
Proof. intros H. cbn [dispatch]. now rewrite H. Qed.
Ltac find_op := unfold receive, boolean_receive, character_receive, integer_receive, float_receive, string_receive; cbv zeta;
  repeat first [rewrite dispatch_ne by reflexivity | rewrite dispatch_eq by reflexivity].
Ltac nargs_op := find_op;
  unfold boolean_get, boolean_set, boolean_isTrue, boolean_isFalse, character_get, character_set, character_test, character_compare,
    integer_get, integer_set, integer_compare, integer_arith, float_get, float_set, float_compare, float_arith, string_compare;
  unfold bind at 1; rewrite nargs_throw by assumption; reflexivity.
Ltac pick H := cbn [In] in H; repeat (destruct H as [H|H]; [injection H as <- <-|]); [..|contradiction].
Theorem C47_wrong_number_of_arguments : forall srt pw c s line n t m k args x, sort_contract srt -> reachable srt pw c ->
  statement line n m args -> lookup c n = Some (IObj x) -> has_type t x -> understood t m k -> length args <> k ->
  only_answers srt pw c s line ERR_NARGS.
Proof.
  intros srt pw c s line n t m k args x H1 H2 Hs Hl Ht Hu Hk.
  apply (var_answers srt pw c s line n _ _ _ H1 H2 Hs Hl (Throw WrongNumberOfArguments)); [|exact (fun x => x)].
  clear Hs Hl. destruct Hu.
  - destruct x; cbn [has_type] in Ht; subst t;
      try (exfalso; cbn [In] in H; repeat (destruct H as [H|H]; [discriminate H|]); contradiction);
      unfold accessors in H0; pick H0; nargs_op.
  - destruct x; cbn [has_type] in Ht; try discriminate Ht. pick H; nargs_op.
  - destruct x; cbn [has_type] in Ht; try discriminate Ht. pick H; nargs_op.
  - destruct H as [->|[->|[->| ->]]]; destruct x; cbn [has_type] in Ht; try discriminate Ht; unfold comparisons in H0; cbn [map] in H0; pick H0; nargs_op.
  - destruct H as [->| ->]; destruct x; cbn [has_type] in Ht; try discriminate Ht; unfold arithmetic in H0; cbn [map] in H0; pick H0; nargs_op.
Qed.
Ltac in_list := cbn [In map accessors comparisons arithmetic]; repeat (first [left; reflexivity | right]).
Theorem C47_other_messages_are_refused : forall srt pw c s line n t m args x, sort_contract srt -> reachable srt pw c ->
  statement line n m args -> lookup c n = Some (IObj x) -> has_type t x -> t <> B "String" -> (forall k, ~ understood t m k) ->
  only_answers srt pw c s line ERR_MESSAGE.
Proof.
  intros srt pw c s line n t m args x H1 H2 Hs Hl Ht N Hu.
  apply (var_answers srt pw c s line n _ _ _ H1 H2 Hs Hl (Throw InvalidMessage)); [|exact (fun x => x)].
  clear Hs Hl. assert (A : forall w k, understood t w k -> seq_eqb m w = false).
  { intros w k U. apply not_true_is_false. intros Ex. apply seq_eqb_eq in Ex. subst w. eapply Hu; eauto. }
  destruct x; cbn [has_type] in Ht; subst t; try (now contradiction N);
    unfold receive, boolean_receive, character_receive, integer_receive, float_receive; cbv zeta;
    repeat (rewrite dispatch_ne; [|
      first [ solve [eapply A; apply und_accessor; in_list]
            | solve [eapply A; apply und_boolean; in_list]
            | solve [eapply A; apply und_character; in_list]
            | solve [eapply A; apply und_comparison; [unfold ordered_type; tauto|in_list]]
            | solve [eapply A; apply und_arithmetic; [tauto|in_list]] ]]); reflexivity.
Qed.

Definition truth_server : context := set_instances empty_server [(B "b", IObj (OBool true)); (B "ch", IObj (OChar "x"))].
Lemma truth_reachable : reachable insertion_sort [] truth_server.
Proof.
  apply (after_reachable _ _ [B "Boolean create: b withValue: true;"; B "Character create: ch withValue: 'x';"] empty_server); [constructor; vm_compute; reflexivity|vm_compute; reflexivity].
Qed.
Example C47_ex : reachable insertion_sort [] truth_server /\ lookup truth_server (B "b") = Some (IObj (OBool true)) /\
  statement (B "b isFalse?;") (B "b") (B "isFalse?") [] /\ value_effect 3 (B "isFalse?") [] (OBool true) (OBool true) (B "false") /\
  statement (B "ch set: 'y';") (B "ch") (B "set:") [B "'y'"] /\ value_effect 3 (B "set:") [B "'y'"] (OChar "x") (OChar "y") (B "null") /\
  statement (B "b set: 1;") (B "b") (B "set:") [B "1"] /\ ~ literal_text (B "Boolean") (B "1").
Proof.
  repeat split; try stmt.
  - exact truth_reachable.
  - apply (val_isFalse 3 true).
  - apply (val_set 3 (B "Character")); [reflexivity|constructor].
  - intros H. inversion H; subst; try discriminate. destruct H0; discriminate.
Qed.
Example C47_ex_refused : statement (B "b isTrue? 1;") (B "b") (B "isTrue?") [B "1"] /\ understood (B "Boolean") (B "isTrue?") 0 /\
  statement (B "b add: 1;") (B "b") (B "add:") [B "1"] /\ (forall k, ~ understood (B "Boolean") (B "add:") k).
Proof.
  split; [stmt|]. split; [apply und_boolean; left; reflexivity|]. split; [stmt|]. intros k H. remember (B "Boolean") as t. remember (B "add:") as m.
  destruct H; subst; try discriminate.
  - cbn [In accessors] in H0. repeat (destruct H0 as [H0|H0]; [discriminate H0|]). contradiction.
  - cbn [In] in H. repeat (destruct H as [H|H]; [discriminate H|]). contradiction.
  - destruct H as [H|[H|[H|H]]]; discriminate.
  - destruct H as [H|H]; discriminate.
Qed.

Print Assumptions C46_creation.
Print Assumptions C46_set.
Print Assumptions C46_one_value.
Print Assumptions C46_of_the_type.
Print Assumptions C46_every_literal_has_a_value.
Print Assumptions C46_printed_values_read_back.
Print Assumptions C47_effect.
Print Assumptions C47_effect_unique.
Print Assumptions C47_set_refuses_other_texts.
Print Assumptions C47_wrong_number_of_arguments.
Print Assumptions C47_other_messages_are_refused.
