(** Proofs for C24-C29 and C36. *)
From Verif Require Import Bytes StrUtils Grammar Outcome Parser Num Containers Instance Context.
From Verif Require Import Lemmas StringLit Proof_Grammar Proof_Parser Proof_Exec WP Proof_Inv Proof_Receive Proof_Literal Proof_Context.
From Verif Require Import Spec_Grammar Spec_State Spec_Names.
From Coq Require Import Sorting.Sorted Permutation ZifyBool.
Open Scope Z_scope.

Lemma reachable_keys srt pw c : sort_contract srt -> reachable srt pw c -> keys_sorted (instances c).
Proof. intros H1 H2. apply (reachable_good srt pw c H1 H2). Qed.

Lemma statement_actor line a m args : statement line a m args -> actor a.
Proof. intros (? & ? & ? & ? & ? & ? & _ & _ & H & _). exact H. Qed.

(** Executing a statement that leaves the data alone. *)
Lemma only_answers_of srt pw c s line r :
  run_statement srt pw line {| w_ctx := c; w_session := s |} = ({| w_ctx := c; w_session := s |}, r) -> ~ is_ub r ->
  only_answers srt pw c s line (text_of r).
Proof.
  intros E H. unfold only_answers, runs. rewrite (execute_ok _ _ _ _ _ _ E H). cbn [w_ctx w_session].
  eexists. split; [reflexivity|]. split; [intros; apply write_log_lookup|].
  split; [apply write_log_precision|apply write_log_tolerance].
Qed.
Lemma runs_unique srt pw c s line c1 s1 a1 c2 s2 a2 :
  runs srt pw c s line c1 s1 a1 -> runs srt pw c s line c2 s2 a2 -> c1 = c2 /\ s1 = s2 /\ a1 = a2.
Proof. unfold runs. intros H1 H2. rewrite H1 in H2. inversion H2; auto. Qed.
Lemma runs_ub srt pw c s line c1 s1 a1 u : runs srt pw c s line c1 s1 a1 -> undefined_behaviour srt pw c s line u -> False.
Proof. unfold runs, undefined_behaviour. intros H1 H2. rewrite H1 in H2. discriminate. Qed.
Lemma same_data_log line t c : same_data c (write_log line t c).
Proof. split; [intros; apply write_log_lookup|]. split; [apply write_log_precision|apply write_log_tolerance]. Qed.

(** ** creation *)
Lemma creates_type t m args n i : creates t m args n i -> type t.
Proof.
  intros H. inversion H; subst; [now left|left; right; right; right; now right|right; left; eauto|right; right; left; eauto|right; right; right; eauto].
Qed.
Lemma string_object : object_type (B "String"). Proof. right; right; right; now right. Qed.
Lemma creates_unique t m args n i n' i' : creates t m args n i -> creates t m args n' i' -> n = n' /\ i = i'.
Proof.
  intros H H'.
  inversion H; subst; inversion H'; subst; auto;
      try (exfalso; eapply vector_type_not_object; solve [eauto using string_object]);
      try (exfalso; eapply set_type_not_object; solve [eauto using string_object]);
      try (exfalso; eapply dictionary_type_not_object; solve [eauto using string_object]);
      try (exfalso; eapply vector_not_set; eassumption); try (exfalso; eapply vector_not_dictionary; eassumption);
      try (exfalso; eapply set_not_dictionary; eassumption).
  - lits. assert (x0 = x) by congruence. now subst.
  - assert (e0 = e) by (eapply vector_type_unique; eauto). now subst.
  - assert (e0 = e) by (eapply set_type_unique; eauto). now subst.
  - destruct (dictionary_type_unique t k v k0 v0) as [-> ->]; auto.
Qed.
Lemma run_type_made srt pw c s line t m args : statement line t m args -> type t ->
  exists r, made t m args r /\
  run_statement srt pw line {| w_ctx := c; w_session := s |} =
  match r with
  | Ok (n, i) =>
    match lookup c n with
    | None => ({| w_ctx := set_instances c (smap_assign (instances c) n i); w_session := s |}, Ok null)
    | Some _ => ({| w_ctx := c; w_session := s |}, if starts_with m $"createIfNotExists:" then Ok null else Throw NameAlreadyUsed)
    end
  | Throw e => ({| w_ctx := c; w_session := s |}, Throw e)
  | UB u => ({| w_ctx := c; w_session := s |}, UB u)
  end.
Proof.
  intros Hs Ht. destruct (construct_made t m args c Ht) as (r & Er & Hm). exists r. split; [exact Hm|].
  rewrite (run_type srt pw line t m args _ Hs Ht). unfold in_ctx. cbn [w_ctx w_session].
  assert (E : execute_in_type {| p_actor := t; p_message := m; p_args := args |} c =
    match r with
    | Ok (n, i) => match lookup c n with
                   | None => (set_instances c (smap_assign (instances c) n i), Ok null)
                   | Some _ => (c, if starts_with m $"createIfNotExists:" then Ok null else Throw NameAlreadyUsed)
                   end
    | Throw e => (c, Throw e) | UB u => (c, UB u) end).
  { unfold execute_in_type. cbn [p_actor p_message p_args]. unfold bind at 1. rewrite Er. destruct r as [[n i]|e|u]; try reflexivity.
    unfold bind, get, put, ret. cbn [fst snd]. rewrite <- assoc_smap_find. change (assoc (instances c) n) with (lookup c n).
    destruct (lookup c n); [|reflexivity]. destruct (starts_with m $"createIfNotExists:"); reflexivity. }
  rewrite E. destruct r as [[n i]|e|u]; try reflexivity. destruct (lookup c n); reflexivity.
Qed.
Lemma run_creation srt pw c s line t m args n i :
  statement line t m args -> creates t m args n i ->
  run_statement srt pw line {| w_ctx := c; w_session := s |} =
  match lookup c n with
  | None => ({| w_ctx := set_instances c (smap_assign (instances c) n i); w_session := s |}, Ok null)
  | Some _ => ({| w_ctx := c; w_session := s |}, if starts_with m $"createIfNotExists:" then Ok null else Throw NameAlreadyUsed)
  end.
Proof.
  intros Hs Hcr. destruct (run_type_made srt pw c s line t m args Hs (creates_type _ _ _ _ _ Hcr)) as (r & Hm & E).
  rewrite E. destruct r as [[n' i']|e|u]; cbn [made] in Hm.
  - destruct (creates_unique _ _ _ _ _ _ _ Hcr Hm) as [-> ->]. reflexivity.
  - exfalso. destruct Hm as (_ & Hm & _). eapply Hm; eauto.
  - exfalso. eapply made_ub_not_created; eauto.
Qed.
Lemma create_free srt pw c s line t m args n i : keys_sorted (instances c) ->
  statement line t m args -> creates t m args n i -> lookup c n = None -> becomes srt pw c s line n (B "null") i.
Proof.
  intros Hk Hs Hcr Hl. assert (E := run_creation srt pw c s line t m args n i Hs Hcr). rewrite Hl in E.
  unfold becomes, runs. rewrite (execute_ok _ _ _ _ _ _ E) by (cbn; auto). cbn [w_ctx w_session text_of].
  eexists. split; [reflexivity|]. split.
  - rewrite write_log_lookup, lookup_set_instances, smap_assign_assoc by auto. destruct (bytes_dec n n); congruence.
  - split.
    + intros m' Hm. rewrite write_log_lookup, lookup_set_instances, smap_assign_assoc by auto.
      destruct (bytes_dec n m'); [congruence|reflexivity].
    + split; [now rewrite write_log_precision|now rewrite write_log_tolerance].
Qed.
Lemma create_used srt pw c s line t m args n i j :
  statement line t m args -> creates t m args n i -> lookup c n = Some j ->
  only_answers srt pw c s line (text_of (if starts_with m $"createIfNotExists:" then Ok null else Throw NameAlreadyUsed)).
Proof.
  intros Hs Hcr Hl. assert (E := run_creation srt pw c s line t m args n i Hs Hcr). rewrite Hl in E.
  apply only_answers_of; auto. destruct (starts_with m _); cbn; auto.
Qed.
Lemma create_other_message srt pw c s line t m args : statement line t m args -> type t -> ~ understands t m ->
  only_answers srt pw c s line ERR_MESSAGE.
Proof.
  intros Hs Ht Hn. destruct (run_type_made srt pw c s line t m args Hs Ht) as (r & Hm & E).
  destruct r as [[n i]|e|u]; cbn [made] in Hm.
  - exfalso. apply Hn. inversion Hm; subst; unfold understands, container_type; eauto 8.
  - destruct Hm as (_ & _ & Hm). apply Hm in Hn. subst e. apply (only_answers_of srt pw c s line (Throw InvalidMessage)); auto.
  - exfalso. apply Hn. left. tauto.
Qed.
Lemma create_bad_arguments srt pw c s line t m args : statement line t m args -> type t -> understands t m ->
  (forall n i, ~ creates t m args n i) ->
  only_answers srt pw c s line ERR_ARGUMENT \/
  exists n l u, args = [n; l] /\ with_value m /\ t = B "Integer" /\ get_shared_instance t l = UB u /\
    undefined_behaviour srt pw c s line u.
Proof.
  intros Hs Ht Hu Hn. destruct (run_type_made srt pw c s line t m args Hs Ht) as (r & Hm & E).
  destruct r as [[n i]|e|u].
  - exfalso. eapply Hn; eauto.
  - left. destruct Hm as (He & _ & Hm). assert (e <> InvalidMessage) by tauto.
    destruct He as [->|[->|[-> He]]].
    + apply (only_answers_of srt pw c s line (Throw InvalidArgument)); auto.
    + congruence.
    + exfalso. apply (nargs_excuse_single line t m args Hs) in He as (i & Hi & Hq).
      destruct Hu as [[_ [->| ->]]|[_ [->| ->]]]; apply (f_equal (fun l => last l c_qmark)) in Hq; change (B "?") with [c_qmark] in Hq; rewrite last_last in Hq; discriminate.
  - right. destruct Hm as (_ & Ho & Hw & n & l & -> & _ & Hg). exists n, l, u. repeat split; auto.
    + destruct Ho as [->|[->|[->|[->| ->]]]]; auto; exfalso.
      * unfold get_shared_instance in Hg. cbn in Hg. unfold boolean_of in Hg. destruct (is_boolean_value l); discriminate.
      * change (get_shared_instance (B "Character") l) with (let! x := character_of l in Ok (OChar x)) in Hg.
        unfold character_of in Hg. destruct (is_character_value l) eqn:Ec; [|discriminate]. destruct (str_at_character l Ec) as (x & Ex & _).
        cbn [negb] in Hg. rewrite Ex in Hg. discriminate.
      * change (get_shared_instance (B "Float") l) with (let! x := float_of l in Ok (OFloat x)) in Hg.
        unfold float_of in Hg. destruct (is_float_value l); discriminate.
      * change (get_shared_instance (B "String") l) with (let! x := string_of l in Ok (OStr x)) in Hg.
        assert (X := string_of_cases false l (clean_false l)). destruct (string_of l); try discriminate. contradiction.
    + eapply execute_ub; eauto.
Qed.

(** ** listings *)
Lemma joined_comma_sep l : comma_sep l = joined l.
Proof.
  unfold comma_sep. destruct l as [|x l]; [reflexivity|]. cbn [comma_loop app]. revert x.
  induction l as [|y l IH]; intros x; [apply app_nil_r|].
  change (joined (x :: y :: l)) with (x ++ B "," ++ joined (y :: l))%list. rewrite <- (IH y). reflexivity.
Qed.
Lemma sorted_increasing l : StronglySorted (fun a b => str_ltb a b = true) l -> increasing l.
Proof.
  intros H. induction H as [|a l Hs IH Hf]; constructor; auto.
  eapply Forall_impl; [|exact Hf]. intros b. apply str_ltb_iff.
Qed.
Lemma live_in c n : live c n <-> In n (map fst (instances c)).
Proof.
  unfold live, lookup. rewrite assoc_none. split; [|tauto]. intros H.
  destruct (in_dec bytes_dec n (map fst (instances c))); tauto.
Qed.
Lemma context_answers srt pw c s line msg args t :
  statement line (B "Context") msg args ->
  execute_in_context {| p_actor := B "Context"; p_message := msg; p_args := args |} c = (c, Ok t) ->
  only_answers srt pw c s line t.
Proof.
  intros Hs E. apply (only_answers_of srt pw c s line (Ok t)); [|cbn; auto].
  rewrite (run_context srt pw line msg args _ Hs). unfold in_ctx. cbn [w_ctx w_session]. now rewrite E.
Qed.
Lemma context_throws srt pw c s line msg args e :
  statement line (B "Context") msg args ->
  execute_in_context {| p_actor := B "Context"; p_message := msg; p_args := args |} c = (c, Throw e) ->
  only_answers srt pw c s line (exc_text e).
Proof.
  intros Hs E. apply (only_answers_of srt pw c s line (Throw e)); [|cbn; auto].
  rewrite (run_context srt pw line msg args _ Hs). unfold in_ctx. cbn [w_ctx w_session]. now rewrite E.
Qed.
Lemma not_single_q m : (match rev m with c :: _ => ceq c c_qmark | [] => false end) = false -> ~ single_q m.
Proof. intros H (i & _ & ->). change (B "?") with [c_qmark] in H. rewrite rev_app_distr in H. discriminate. Qed.
Lemma args_len line a m args n : statement line a m args -> count_delims m = n ->
  (match rev m with c :: _ => ceq c c_qmark | [] => false end) = false -> length args = n.
Proof. intros H H1 H2. apply statement_args in H as [H|H]; [congruence|]. exfalso. eapply not_single_q; eauto. Qed.
Lemma len0 {A} (l : list A) : length l = 0%nat -> l = []. Proof. destruct l; easy. Qed.
Lemma len1 {A} (l : list A) : length l = 1%nat -> exists a, l = [a]. Proof. destruct l as [|a [|]]; try easy. eauto. Qed.
Lemma len2 {A} (l : list A) : length l = 2%nat -> exists a b, l = [a; b]. Proof. destruct l as [|a [|b [|]]]; try easy. eauto. Qed.
Lemma len3 {A} (l : list A) : length l = 3%nat -> exists a b c, l = [a; b; c]. Proof. destruct l as [|a [|b [|c [|]]]]; try easy. eauto. Qed.

Lemma list_variables srt pw c s line args : sort_contract srt -> reachable srt pw c ->
  statement line (B "Context") (B "listVariables") args ->
  exists names, increasing names /\ (forall n, In n names <-> live c n) /\ only_answers srt pw c s line (listing names).
Proof.
  intros H1 H2 Hs. assert (args = []) by (apply len0; eapply args_len; eauto; reflexivity). subst args.
  exists (map fst (instances c)). split; [apply sorted_increasing; now apply (reachable_keys srt pw c)|].
  split; [intros n; now rewrite live_in|]. eapply context_answers; eauto.
  unfold listing. rewrite <- joined_comma_sep. reflexivity.
Qed.

Lemma sset_insert_in l k x : In x (sset_insert l k) <-> x = k \/ In x l.
Proof.
  induction l as [|y l IH]; cbn; [intuition|]. destruct (str_ltb y k) eqn:E1; cbn; [rewrite IH; intuition|].
  destruct (str_ltb k y) eqn:E2; cbn; [intuition|]. assert (y = k) by now apply str_ltb_total. subst. intuition.
Qed.
Lemma sset_insert_sorted l k : StronglySorted (fun a b => str_ltb a b = true) l -> StronglySorted (fun a b => str_ltb a b = true) (sset_insert l k).
Proof.
  induction 1 as [|y l Hs IH Hf]; cbn; [repeat constructor|]. destruct (str_ltb y k) eqn:E1.
  - constructor; auto. apply Forall_forall. intros x Hx. apply sset_insert_in in Hx as [->|Hx]; auto.
    rewrite Forall_forall in Hf. auto.
  - destruct (str_ltb k y) eqn:E2; [|constructor; auto]. constructor; [constructor; auto|]. constructor; auto.
    eapply Forall_impl; [|exact Hf]. intros a Ha. eapply str_ltb_trans; eauto.
Qed.
Lemma namespaces_of_in rest : forall before acc x,
  In x (namespaces_of rest before acc) <-> In x acc \/ exists p q, rest = (p ++ B "::" ++ q)%list /\ x = (rev before ++ p)%list.
Proof.
  induction rest as [|c r IH]; intros before acc x; cbn [namespaces_of].
  - split; [auto|]. intros [H|(p & q & H & _)]; auto. destruct p; discriminate.
  - destruct r as [|d r'].
    + split; [auto|]. intros [H|(p & q & H & _)]; auto. exfalso. destruct p as [|y [|]]; discriminate.
    + rewrite IH. clear IH. assert (X : (ceq c c_colon && ceq d c_colon)%bool = true <-> c = c_colon /\ d = c_colon).
      { rewrite andb_true_iff, !ceq_eq. tauto. }
      destruct (ceq c c_colon && ceq d c_colon)%bool.
      * destruct X as [X _]. destruct (X eq_refl) as [-> ->]. rewrite sset_insert_in. split.
        -- intros [[->|H]|(p & q & H & ->)]; auto.
           ++ right. exists [], r'. rewrite app_nil_r. auto.
           ++ right. exists (c_colon :: p), q. split; [now rewrite H|]. cbn [rev]. now rewrite <- app_assoc.
        -- intros [H|(p & q & H & ->)]; auto. destruct p as [|y p].
           ++ left. left. now rewrite app_nil_r.
           ++ right. injection H as -> H. exists p, q. split; [exact H|]. cbn [rev]. now rewrite <- app_assoc.
      * split.
        -- intros [H|(p & q & H & ->)]; auto. right. exists (c :: p), q. split; [now rewrite H|]. cbn [rev]. now rewrite <- app_assoc.
        -- intros [H|(p & q & H & ->)]; auto. destruct p as [|y p].
           ++ exfalso. injection H as -> -> _. destruct X as [_ X]. discriminate X; auto.
           ++ right. injection H as -> H. exists p, q. split; [exact H|]. cbn [rev]. now rewrite <- app_assoc.
Qed.
Lemma namespaces_of_sorted rest : forall before acc, StronglySorted (fun a b => str_ltb a b = true) acc ->
  StronglySorted (fun a b => str_ltb a b = true) (namespaces_of rest before acc).
Proof.
  induction rest as [|c r IH]; intros before acc H; cbn [namespaces_of]; [exact H|]. destruct r; [exact H|]. apply IH.
  destruct (_ && _)%bool; auto. now apply sset_insert_sorted.
Qed.
Lemma fold_namespaces (l : list (str * inst)) : forall acc, StronglySorted (fun a b => str_ltb a b = true) acc ->
  let r := fold_left (fun acc e => namespaces_of (fst e) [] acc) l acc in
  StronglySorted (fun a b => str_ltb a b = true) r /\
  forall x, In x r <-> In x acc \/ exists i, In (qualified x i) (map fst l).
Proof.
  induction l as [|[k i] l IH]; intros acc Ha; cbn [fold_left fst].
  - split; auto. intros x. split; [auto|]. intros [H|[_ []]]. exact H.
  - destruct (IH (namespaces_of k [] acc)) as [I1 I2]; [now apply namespaces_of_sorted|]. split; [exact I1|].
    intros x. rewrite I2, namespaces_of_in. cbn [map fst rev]. split.
    + intros [[H|(p & q & -> & ->)]|[j H]]; auto.
      * right. exists q. left. reflexivity.
      * right. exists j. now right.
    + intros [H|[j [H|H]]]; auto.
      * left. right. exists x, j. auto.
      * right. eauto.
Qed.
Lemma list_namespaces srt pw c s line args : sort_contract srt -> reachable srt pw c ->
  statement line (B "Context") (B "listNamespaces") args ->
  exists names, increasing names /\ (forall ns, In ns names <-> exists i, live c (qualified ns i)) /\
    only_answers srt pw c s line (listing names).
Proof.
  intros H1 H2 Hs. assert (args = []) by (apply len0; eapply args_len; eauto; reflexivity). subst args.
  destruct (fold_namespaces (instances c) [] (SSorted_nil _)) as [I1 I2].
  exists (fold_left (fun acc e => namespaces_of (fst e) [] acc) (instances c) []).
  split; [now apply sorted_increasing|]. split.
  - intros ns. rewrite I2. split.
    + intros [[]|[i H]]. exists i. now rewrite live_in.
    + intros [i H]. right. exists i. now rewrite <- live_in.
  - eapply context_answers; eauto. unfold listing. rewrite <- joined_comma_sep. reflexivity.
Qed.

Lemma joined_snoc l x : joined (l ++ [x]) = (joined l ++ (match l with [] => [] | _ => B "," end) ++ x)%list.
Proof.
  induction l as [|y l IH]; [reflexivity|]. destruct l as [|z l]; [reflexivity|].
  change (joined ((y :: z :: l) ++ [x])) with (y ++ B "," ++ joined ((z :: l) ++ [x]))%list. rewrite IH.
  change (joined (y :: z :: l)) with (y ++ B "," ++ joined (z :: l))%list. now rewrite !app_assoc.
Qed.
Lemma joined_nil l : Forall (fun x => x <> []) l -> joined l = [] -> l = [].
Proof.
  intros H Hj. destruct H as [|x l Hx Hl]; [reflexivity|]. exfalso. destruct l; cbn [joined] in Hj; [contradiction|].
  destruct x; [contradiction|discriminate].
Qed.
Lemma names_loop_joined ns l : forall acc, Forall (fun x => x <> []) acc ->
  names_loop ns l (joined acc) = joined (acc ++ map fst (filter (fun e => starts_with (fst e) (ns ++ $"::")%list) l)).
Proof.
  induction l as [|[k i] l IH]; intros acc Ha; cbn [names_loop filter fst]; [now rewrite app_nil_r|].
  destruct (starts_with k (ns ++ $"::")%list) eqn:E; [|now apply IH].
  assert (Hk : k <> []).
  { apply starts_with_iff in E as [t ->]. intros H. apply app_eq_nil in H as [H _]. apply app_eq_nil in H as [_ H]. discriminate. }
  assert (X : (if 0 <? zlen (joined acc) then (joined acc ++ [c_comma] ++ k)%list else (joined acc ++ k)%list) = joined (acc ++ [k])).
  2: { transitivity (names_loop ns l (joined (acc ++ [k]))); [f_equal; exact X|]. rewrite IH by (rewrite Forall_app; auto). cbn [map fst]. now rewrite <- app_assoc. }
  symmetry. {
    rewrite joined_snoc. destruct acc as [|a acc]; [reflexivity|].
    destruct (joined (a :: acc)) eqn:Ej; [apply joined_nil in Ej; auto; discriminate|]. reflexivity. }
Qed.
Lemma sorted_filter (p : str * inst -> bool) l : keys_sorted l -> StronglySorted (fun a b => str_ltb a b = true) (map fst (filter p l)).
Proof. apply keys_sorted_sublist. Qed.
Lemma in_filter_names (p : str -> bool) (l : list (str * inst)) n :
  In n (map fst (filter (fun e => p (fst e)) l)) <-> In n (map fst l) /\ p n = true.
Proof.
  rewrite !in_map_iff. split.
  - intros ([k i] & <- & H). apply filter_In in H as [H1 H2]. split; auto. exists (k, i). auto.
  - intros [([k i] & <- & H) Hp]. exists (k, i). split; auto. apply filter_In. auto.
Qed.
Lemma in_namespace n ns : starts_with n (ns ++ $"::")%list = true <-> exists i, n = qualified ns i.
Proof.
  rewrite starts_with_iff. unfold qualified. split; intros [t ->]; exists t; [now rewrite <- app_assoc|now rewrite app_assoc].
Qed.
Lemma list_of_namespace srt pw c s line args ns : sort_contract srt -> reachable srt pw c ->
  statement line (B "Context") (B "listVariablesOfNamespace:") args -> args = [ns] -> namespace ns ->
  exists names, increasing names /\ (forall n, In n names <-> live c n /\ exists i, n = qualified ns i) /\
    only_answers srt pw c s line (listing names).
Proof.
  intros H1 H2 Hs -> Hn.
  exists (map fst (filter (fun e => starts_with (fst e) (ns ++ $"::")%list) (instances c))).
  split; [apply sorted_increasing, sorted_filter; now apply (reachable_keys srt pw c)|]. split.
  - intros n. rewrite (in_filter_names (fun k => starts_with k (ns ++ $"::")%list)), live_in, in_namespace. reflexivity.
  - eapply context_answers; eauto. unfold listing.
    assert (NL := names_loop_joined ns (instances c) [] (Forall_nil _)). cbn [app] in NL. rewrite <- NL.
    change (op_listVariablesOfNamespace [ns] c = (c, Ok (B "[" ++ names_loop ns (instances c) (joined []) ++ B "]")%list)).
    unfold op_listVariablesOfNamespace, bind, check_nargs, arg, throw_if, get, ret. cbn [length Nat.eqb negb nth_error].
    apply is_identifier_iff in Hn. unfold is_namespace. rewrite Hn. reflexivity.
Qed.
Lemma not_namespace ns : ~ namespace ns -> is_namespace ns = false.
Proof. intros H. unfold is_namespace. destruct (is_identifier ns) eqn:E; [|reflexivity]. apply is_identifier_iff in E. contradiction. Qed.
Lemma not_variable n : ~ variable n -> is_variable n = false.
Proof. intros H. destruct (is_variable n) eqn:E; [|reflexivity]. apply is_variable_iff in E. contradiction. Qed.
Lemma list_of_bad_namespace srt pw c s line args ns :
  statement line (B "Context") (B "listVariablesOfNamespace:") args -> args = [ns] -> ~ namespace ns ->
  only_answers srt pw c s line ERR_ARGUMENT.
Proof.
  intros Hs -> Hn. eapply (context_throws srt pw c s line _ _ InvalidArgument); eauto.
  change (op_listVariablesOfNamespace [ns] c = (c, Throw InvalidArgument)).
  unfold op_listVariablesOfNamespace, bind, check_nargs, arg, throw_if, throw, ret. cbn [length Nat.eqb negb nth_error].
  now rewrite not_namespace.
Qed.

(** ** deletion *)
Lemma context_changes srt pw c c' s line msg args t :
  statement line (B "Context") msg args ->
  execute_in_context {| p_actor := B "Context"; p_message := msg; p_args := args |} c = (c', Ok t) ->
  runs srt pw c s line (write_log line t c') s t.
Proof.
  intros Hs E. assert (R := run_context srt pw line msg args {| w_ctx := c; w_session := s |} Hs).
  unfold in_ctx in R. cbn [w_ctx w_session] in R. rewrite E in R. cbn [fst snd] in R.
  unfold runs. rewrite (execute_ok _ _ _ _ _ _ R) by (cbn; auto). reflexivity.
Qed.
Lemma delete_one srt pw c s line args n : sort_contract srt -> reachable srt pw c ->
  statement line (B "Context") (B "deleteVariable:") args -> args = [n] -> live c n ->
  exists c', runs srt pw c s line c' s (B "null") /\ lookup c' n = None /\
    (forall m, m <> n -> lookup c' m = lookup c m) /\ same_settings c c'.
Proof.
  intros H1 H2 Hs -> Hl. assert (Hk := reachable_keys srt pw c H1 H2). assert (Hg := reachable_good srt pw c H1 H2).
  assert (Hv : is_variable n = true).
  { unfold live in Hl. destruct (lookup c n) as [i|] eqn:El; [|contradiction].
    apply is_variable_iff. eapply ctx_good_lookup; eauto. }
  destruct (erase_name (instances c) n) as [l|] eqn:Ee; [|apply erase_name_none in Ee; now contradiction Hl].
  assert (E : execute_in_context {| p_actor := B "Context"; p_message := B "deleteVariable:"; p_args := [n] |} c =
              (set_instances c l, Ok (B "null"))).
  { change (op_deleteVariable [n] c = (set_instances c l, Ok (B "null"))).
    unfold op_deleteVariable, bind, check_nargs, arg, throw_if, throw, ret, get, put. cbn [length Nat.eqb negb nth_error].
    rewrite Hv. cbn [negb]. now rewrite Ee. }
  eexists. split; [eapply context_changes; eauto|]. apply erase_name_filter in Ee; auto. subst l.
  assert (L : forall m, lookup (write_log line (B "null") (set_instances c (filter (fun e => negb (seq_eqb (fst e) n)) (instances c)))) m =
                        if negb (seq_eqb m n) then lookup c m else None).
  { intros m. rewrite write_log_lookup, lookup_set_instances. apply (assoc_filter (fun k => negb (seq_eqb k n))). }
  split; [rewrite L, seq_eqb_refl; reflexivity|]. split.
  - intros m Hm. rewrite L. apply seq_eqb_neq in Hm. now rewrite Hm.
  - split; [now rewrite write_log_precision|now rewrite write_log_tolerance].
Qed.
Lemma delete_absent srt pw c s line args n :
  statement line (B "Context") (B "deleteVariable:") args -> args = [n] -> variable n -> ~ live c n ->
  only_answers srt pw c s line ERR_UNKNOWN_NAME.
Proof.
  intros Hs -> Hv Hl. eapply (context_throws srt pw c s line _ _ UnexistentVariable); eauto.
  change (op_deleteVariable [n] c = (c, Throw UnexistentVariable)).
  unfold op_deleteVariable, bind, check_nargs, arg, throw_if, throw, ret, get, put. cbn [length Nat.eqb negb nth_error].
  apply is_variable_iff in Hv. rewrite Hv. cbn [negb].
  destruct (erase_name (instances c) n) as [l|] eqn:E; [|reflexivity].
  exfalso. apply Hl. rewrite live_in. clear Hl Hs Hv. revert l E.
  induction (instances c) as [|[k i] r IH]; cbn; [discriminate|]. intros l E.
  destruct (seq_eqb k n) eqn:Ek; [apply seq_eqb_eq in Ek; auto|]. destruct (erase_name r n); [|discriminate]. right. eapply IH; eauto.
Qed.
Lemma delete_bad srt pw c s line args n :
  statement line (B "Context") (B "deleteVariable:") args -> args = [n] -> ~ variable n ->
  only_answers srt pw c s line ERR_ARGUMENT.
Proof.
  intros Hs -> Hv. eapply (context_throws srt pw c s line _ _ InvalidArgument); eauto.
  change (op_deleteVariable [n] c = (c, Throw InvalidArgument)).
  unfold op_deleteVariable, bind, check_nargs, arg, throw_if, throw, ret, get, put. cbn [length Nat.eqb negb nth_error].
  now rewrite not_variable.
Qed.
Lemma delete_namespace srt pw c s line args ns :
  statement line (B "Context") (B "deleteVariablesOfNamespace:") args -> args = [ns] -> namespace ns ->
  exists c', runs srt pw c s line c' s (B "null") /\ same_settings c c' /\
    (forall i, lookup c' (qualified ns i) = None) /\
    (forall m, (forall i, m <> qualified ns i) -> lookup c' m = lookup c m).
Proof.
  intros Hs -> Hn. apply is_identifier_iff in Hn.
  set (c' := set_instances c (filter (fun e => negb (starts_with (fst e) (ns ++ $"::")%list)) (instances c))).
  assert (E : execute_in_context {| p_actor := B "Context"; p_message := B "deleteVariablesOfNamespace:"; p_args := [ns] |} c =
              (c', Ok (B "null"))).
  { change (op_deleteVariablesOfNamespace [ns] c = (c', Ok (B "null"))).
    unfold op_deleteVariablesOfNamespace, bind, check_nargs, arg, throw_if, throw, ret, get, put. cbn [length Nat.eqb negb nth_error].
    unfold is_namespace. rewrite Hn. reflexivity. }
  eexists. split; [eapply context_changes; eauto|].
  assert (L : forall m, lookup (write_log line (B "null") c') m = if negb (starts_with m (ns ++ $"::")%list) then lookup c m else None).
  { intros m. rewrite write_log_lookup. unfold c'. rewrite lookup_set_instances. apply (assoc_filter (fun k => negb (starts_with k (ns ++ $"::")%list))). }
  split; [split; [now rewrite write_log_precision|now rewrite write_log_tolerance]|]. split.
  - intros i. rewrite L. assert (X : starts_with (qualified ns i) (ns ++ $"::")%list = true) by (apply in_namespace; eauto). now rewrite X.
  - intros m Hm. rewrite L. destruct (starts_with m (ns ++ $"::")%list) eqn:X; [|reflexivity].
    apply in_namespace in X as [i X]. exfalso. eapply Hm; eauto.
Qed.
Lemma delete_bad_namespace srt pw c s line args ns :
  statement line (B "Context") (B "deleteVariablesOfNamespace:") args -> args = [ns] -> ~ namespace ns ->
  only_answers srt pw c s line ERR_ARGUMENT.
Proof.
  intros Hs -> Hn. eapply (context_throws srt pw c s line _ _ InvalidArgument); eauto.
  change (op_deleteVariablesOfNamespace [ns] c = (c, Throw InvalidArgument)).
  unfold op_deleteVariablesOfNamespace, bind, check_nargs, arg, throw_if, throw, ret. cbn [length Nat.eqb negb nth_error].
  now rewrite not_namespace.
Qed.

(** ** which messages leave a variable alone *)
Definition const {S A} (m : M S A) : Prop := forall s, fst (m s) = s.
Lemma const_ret {S A} (a : A) : @const S A (ret a). Proof. now intros s. Qed.
Lemma const_throw {S A} e : @const S A (throw e). Proof. now intros s. Qed.
Lemma const_undefined {S A} u : @const S A (undefined u). Proof. now intros s. Qed.
Lemma const_lift {S A} (r : res A) : @const S A (lift r). Proof. now intros s. Qed.
Lemma const_get {S} : @const S S get. Proof. now intros s. Qed.
Lemma const_throw_if {S} b e : @const S unit (throw_if b e). Proof. destruct b; now intros s. Qed.
Lemma const_check_nargs {S} args n : @const S unit (check_nargs args n). Proof. apply const_throw_if. Qed.
Lemma const_arg {S} args i : @const S str (arg args i).
Proof. unfold arg. destruct (nth_error args i); now intros ?. Qed.
Lemma const_bind {S A B} (m : M S A) (f : A -> M S B) : const m -> (forall a, const (f a)) -> const (bind m f).
Proof.
  intros H1 H2 s. unfold bind. specialize (H1 s). destruct (m s) as [s' [a|e|u]]; cbn in *; subst; auto. apply H2.
Qed.
Ltac const1 := lazymatch goal with
  | |- const (bind _ _) => apply const_bind; [|intros ?]
  | |- const (ret _) => apply const_ret
  | |- const (throw _) => apply const_throw
  | |- const (undefined _) => apply const_undefined
  | |- const (lift _) => apply const_lift
  | |- const get => apply const_get
  | |- const (throw_if _ _) => apply const_throw_if
  | |- const (check_nargs _ _) => apply const_check_nargs
  | |- const (arg _ _) => apply const_arg
  | |- const (if ?b then _ else _) => destruct b
  | |- const (match ?b with _ => _ end) => destruct b
  | |- const (let _ := _ in _) => cbv zeta
  end.
Lemma dispatch_const {S} (table : list (str * (list str -> M S str))) msg args : ~ In msg mutators ->
  Forall (fun p => In (fst p) mutators \/ const (snd p args)) table -> const (dispatch table msg args).
Proof.
  intros Hm H. apply dispatch_cases; [apply const_throw|]. eapply Forall_impl; [|exact H]. cbn beta. intros p [Hp|Hp] E; auto.
  exfalso. apply Hm. now rewrite E.
Qed.
Lemma in_by_bool (x : str) l : existsb (seq_eqb x) l = true -> In x l.
Proof. rewrite existsb_exists. intros (y & H & E). apply seq_eqb_eq in E. now subst. Qed.
Ltac head t := lazymatch t with ?f _ => head f | _ => t end.
Ltac const_op := repeat first [const1|lazymatch goal with |- const ?t => let f := head t in unfold f; cbv zeta end].
Ltac const_table :=
  repeat apply Forall_cons; try apply Forall_nil; cbn [fst snd];
  first [left; apply in_by_bool; vm_compute; reflexivity|right; const_op].
Lemma boolean_const msg args : ~ In msg mutators -> const (boolean_receive msg args).
Proof. intros H. apply dispatch_const; [exact H|]. const_table. Qed.
Lemma character_const E msg args : ~ In msg mutators -> const (character_receive E msg args).
Proof. intros H. apply dispatch_const; [exact H|]. const_table. Qed.
Lemma integer_const E msg args : ~ In msg mutators -> const (integer_receive E msg args).
Proof. intros H. apply dispatch_const; [exact H|]. const_table. Qed.
Lemma float_const E msg args : ~ In msg mutators -> const (float_receive E msg args).
Proof. intros H. apply dispatch_const; [exact H|]. const_table. Qed.
Lemma string_const E msg args : ~ In msg mutators -> const (string_receive E msg args).
Proof. intros H. apply dispatch_const; [exact H|]. const_table. Qed.
Lemma vector_const E t msg args : ~ In msg mutators -> const (vector_receive E t msg args).
Proof. intros H. apply dispatch_const; [exact H|]. const_table. Qed.
Lemma set_const E t msg args : ~ In msg mutators -> const (set_receive E t msg args).
Proof. intros H. apply dispatch_const; [exact H|]. const_table. Qed.
Lemma dict_const E k v msg args : ~ In msg mutators -> const (dict_receive E k v msg args).
Proof. intros H. apply dispatch_const; [exact H|]. const_table. Qed.
Lemma receive_const E i msg args : ~ In msg mutators -> fst (receive E i msg args) = i.
Proof.
  intros H. destruct i as [[b|c|z|f|s]|t v|t v|k v d]; cbn [receive on fst].
  - now rewrite (boolean_const msg args H).
  - now rewrite (character_const E msg args H).
  - now rewrite (integer_const E msg args H).
  - now rewrite (float_const E msg args H).
  - now rewrite (string_const E msg args H).
  - now rewrite (vector_const E t msg args H).
  - now rewrite (set_const E t msg args H).
  - now rewrite (dict_const E k v msg args H).
Qed.

(** ** C26 *)
Lemma runs_statement srt pw c s line c' s' ans : runs srt pw c s line c' s' ans ->
  exists w1 r, run_statement srt pw line {| w_ctx := c; w_session := s |} = (w1, r) /\ ~ is_ub r /\
    ans = text_of r /\ s' = w_session w1 /\ c' = write_log line ans (w_ctx w1).
Proof.
  unfold runs. intros H. destruct (run_statement srt pw line {| w_ctx := c; w_session := s |}) as [w1 r] eqn:E.
  exists w1, r. split; [reflexivity|]. destruct r as [o|e|u].
  1,2: rewrite (execute_ok _ _ _ _ _ _ E) in H by (cbn; auto); inversion H; subst; cbn; auto 10.
  exfalso. assert (X := execute_ub _ _ _ _ _ _ E). rewrite H in X. discriminate.
Qed.
Lemma same_class_type_name i j : same_class i j -> type_name i = type_name j.
Proof.
  destruct i as [[]|t v|t v|k v d], j as [[]|t' v'|t' v'|k' v' d']; cbn; try easy; try (now intros ->).
  now intros [-> ->].
Qed.
Lemma variable_statement srt pw c s line n m args c' s' ans : sort_contract srt -> reachable srt pw c ->
  statement line n m args -> variable n -> runs srt pw c s line c' s' ans ->
  s' = s /\ same_settings c c' /\ (forall x, x <> n -> lookup c' x = lookup c x) /\
  (~ In m mutators -> lookup c' n = lookup c n) /\
  match lookup c n with
  | None => lookup c' n = None /\ ans = ERR_UNKNOWN_NAME
  | Some i => exists i', lookup c' n = Some i' /\ type_name i' = type_name i
  end.
Proof.
  intros H1 H2 Hs Hv Hr. assert (Hk := reachable_keys srt pw c H1 H2). assert (Hg := reachable_good srt pw c H1 H2).
  destruct (runs_statement _ _ _ _ _ _ _ _ Hr) as (w1 & r & E & Hu & -> & -> & ->).
  rewrite (run_variable srt pw line n m args _ Hs Hv) in E. unfold in_ctx, execute_in_variable in E.
  cbn [w_ctx w_session p_actor p_message p_args] in E. rewrite <- assoc_smap_find in E. change (assoc (instances c) n) with (lookup c n) in E.
  destruct (lookup c n) as [i|] eqn:El; inversion E; subst; cbn [w_ctx w_session].
  - assert (L : forall x, lookup (write_log line (text_of (snd (receive (env_of srt c) i m args)))
        (set_instances c (smap_assign (instances c) n (fst (receive (env_of srt c) i m args))))) x =
        if bytes_dec n x then Some (fst (receive (env_of srt c) i m args)) else lookup c x).
    { intros x. now rewrite write_log_lookup, lookup_set_instances, smap_assign_assoc. }
    split; [reflexivity|]. split; [split; [now rewrite write_log_precision|now rewrite write_log_tolerance]|].
    split; [|split].
    + intros x Hx. rewrite L. destruct (bytes_dec n x); congruence.
    + intros Hm. rewrite L. destruct (bytes_dec n n); [|congruence]. now rewrite receive_const.
    + exists (fst (receive (env_of srt c) i m args)). rewrite L. destruct (bytes_dec n n); [|congruence]. split; [reflexivity|].
      symmetry. apply same_class_type_name.
      apply (receive_good false (env_of srt c) i m args); auto; [eapply ctx_good_lookup; eauto|].
      apply Forall_forall. intros. apply clean_false.
  - split; [reflexivity|]. split; [split; [now rewrite write_log_precision|now rewrite write_log_tolerance]|].
    split; [intros; now rewrite write_log_lookup|]. split; [intros; now rewrite write_log_lookup|].
    split; [now rewrite write_log_lookup|reflexivity].
Qed.
Lemma type_statement srt pw c s line t m args c' s' ans : sort_contract srt -> reachable srt pw c ->
  statement line t m args -> type t -> runs srt pw c s line c' s' ans ->
  s' = s /\ same_settings c c' /\ (forall x, lookup c x <> None -> lookup c' x = lookup c x) /\
  (forall x, lookup c' x <> lookup c x -> exists r, args = x :: r).
Proof.
  intros H1 H2 Hs Ht Hr. assert (Hk := reachable_keys srt pw c H1 H2).
  destruct (runs_statement _ _ _ _ _ _ _ _ Hr) as (w1 & r & E & Hu & -> & -> & ->).
  destruct (run_type_made srt pw c s line t m args Hs Ht) as (q & Hm & E'). rewrite E' in E. clear E'.
  assert (Same : forall y, (({| w_ctx := c; w_session := s |}, y) = (w1, r)) ->
    w_session w1 = s /\ same_settings c (write_log line (text_of r) (w_ctx w1)) /\
    (forall x, lookup c x <> None -> lookup (write_log line (text_of r) (w_ctx w1)) x = lookup c x) /\
    (forall x, lookup (write_log line (text_of r) (w_ctx w1)) x <> lookup c x -> exists r0, args = x :: r0)).
  { intros y Ey. inversion Ey; subst. cbn [w_ctx w_session]. split; [reflexivity|].
    split; [split; [now rewrite write_log_precision|now rewrite write_log_tolerance]|].
    split; intros x Hx; rewrite write_log_lookup in *; congruence. }
  destruct q as [[n i]|e|u]; [|now apply Same in E|now apply Same in E].
  cbn [made] in Hm. destruct (lookup c n) eqn:El; [now apply Same in E|].
  inversion E; subst. cbn [w_ctx w_session text_of]. split; [reflexivity|].
  split; [split; [now rewrite write_log_precision|now rewrite write_log_tolerance]|].
  assert (L : forall x, lookup (write_log line null (set_instances c (smap_assign (instances c) n i))) x =
        if bytes_dec n x then Some i else lookup c x).
  { intros x. now rewrite write_log_lookup, lookup_set_instances, smap_assign_assoc. }
  split; intros x Hx.
  - rewrite L. destruct (bytes_dec n x); congruence.
  - rewrite L in Hx. destruct (bytes_dec n x); [|congruence]. subst x. inversion Hm; subst; eauto.
Qed.
Lemma connection_statement srt pw c s line m args c' s' ans :
  statement line (B "Connection") m args -> runs srt pw c s line c' s' ans -> same_data c c'.
Proof.
  intros Hs Hr. destruct (runs_statement _ _ _ _ _ _ _ _ Hr) as (w1 & r & E & Hu & -> & -> & ->).
  rewrite (run_connection srt pw line m args _ Hs) in E. unfold in_session in E. cbn [w_ctx w_session] in E.
  destruct s; inversion E; subst; cbn [w_ctx w_session]; apply same_data_log.
Qed.
Lemma context_statement srt pw c s line m args c' s' ans : sort_contract srt -> reachable srt pw c ->
  statement line (B "Context") m args -> runs srt pw c s line c' s' ans ->
  s' = s /\
  (~ In m setters -> same_settings c c') /\
  (~ In m deleters -> forall x, lookup c' x = lookup c x) /\
  (forall x, lookup c' x = lookup c x \/ lookup c' x = None) /\
  (m = B "deleteVariable:" -> forall x, lookup c' x <> lookup c x -> args = [x]) /\
  (m = B "deleteVariablesOfNamespace:" -> forall x, lookup c' x <> lookup c x -> exists ns i, args = [ns] /\ x = qualified ns i).
Proof.
  intros H1 H2 Hs Hr. assert (Hk := reachable_keys srt pw c H1 H2).
  destruct (runs_statement _ _ _ _ _ _ _ _ Hr) as (w1 & r & E & Hu & -> & -> & ->).
  rewrite (run_context srt pw line m args _ Hs) in E. unfold in_ctx in E. cbn [w_ctx w_session] in E.
  set (P := fun (mo : M context str) => forall c1, c1 = fst (mo c) ->
    (~ In m setters -> float_precision c1 = float_precision c /\ tolerance c1 = tolerance c) /\
    (~ In m deleters -> instances c1 = instances c) /\
    (forall x, lookup c1 x = lookup c x \/ lookup c1 x = None) /\
    (m = B "deleteVariable:" -> forall x, lookup c1 x <> lookup c x -> args = [x]) /\
    (m = B "deleteVariablesOfNamespace:" -> forall x, lookup c1 x <> lookup c x -> exists ns i, args = [ns] /\ x = qualified ns i)).
  assert (Pc : forall mo, const mo -> P mo).
  { intros mo Hmo c1 Hc1. specialize (Hmo c). rewrite Hmo in Hc1. subst c1. split; [auto|]. split; [auto|]. split; [auto|]. split; congruence. }
  assert (Pw : P (execute_in_context {| p_actor := B "Context"; p_message := m; p_args := args |})).
  { unfold execute_in_context. cbn [p_message p_args]. apply dispatch_cases; [apply Pc, const_throw|].
    repeat apply Forall_cons; try apply Forall_nil; cbn [fst snd]; intros Hm.
    - apply Pc. const_op.
    - apply Pc. const_op.
    - apply Pc. const_op.
    - intros c1 ->. unfold op_deleteVariable, bind, check_nargs, arg, throw_if, throw, ret, get, put, undefined.
      destruct args as [|a [|]]; cbn [length Nat.eqb negb nth_error fst snd];
        try (split; [auto|]; split; [auto|]; split; [auto|]; split; congruence).
      destruct (is_variable a); cbn [negb fst]; [|split; [auto|]; split; [auto|]; split; [auto|]; split; congruence].
      destruct (erase_name (instances c) a) as [l|] eqn:Ee; cbn [fst];
        [|split; [auto|]; split; [auto|]; split; [auto|]; split; congruence].
      apply erase_name_filter in Ee; auto. subst l.
      assert (L : forall x, lookup (set_instances c (filter (fun e => negb (seq_eqb (fst e) a)) (instances c))) x =
                        if negb (seq_eqb x a) then lookup c x else None).
      { intros x. rewrite lookup_set_instances. apply (assoc_filter (fun k => negb (seq_eqb k a))). }
      split; [auto|]. split; [intros X; exfalso; apply X; rewrite Hm; now left|]. split.
      + intros x. rewrite L. destruct (negb _); auto.
      + split; [intros _ x|rewrite Hm; discriminate]. rewrite L. destruct (seq_eqb x a) eqn:Ex; cbn [negb]; [|congruence].
        apply seq_eqb_eq in Ex. now subst.
    - intros c1 ->. unfold op_deleteVariablesOfNamespace, bind, check_nargs, arg, throw_if, throw, ret, get, put, undefined.
      destruct args as [|a [|]]; cbn [length Nat.eqb negb nth_error fst snd];
        try (split; [auto|]; split; [auto|]; split; [auto|]; split; congruence).
      destruct (is_namespace a); cbn [negb fst]; [|split; [auto|]; split; [auto|]; split; [auto|]; split; congruence].
      assert (L : forall x, lookup (set_instances c (filter (fun e => negb (starts_with (fst e) (a ++ $"::")%list)) (instances c))) x =
                        if negb (starts_with x (a ++ $"::")%list) then lookup c x else None).
      { intros x. rewrite lookup_set_instances. apply (assoc_filter (fun k => negb (starts_with k (a ++ $"::")%list))). }
      split; [auto|]. split; [intros X; exfalso; apply X; rewrite Hm; right; now left|]. split.
      + intros x. rewrite L. destruct (negb _); auto.
      + split; [rewrite Hm; discriminate|]. intros _ x. rewrite L. destruct (starts_with x _) eqn:Ex; cbn [negb]; [|congruence].
        intros _. apply in_namespace in Ex as [i ->]. eauto.
    - apply Pc. const_op.
    - intros c1 ->. unfold op_setFloatPrecision, bind, check_nargs, arg, throw_if, throw, ret, get, put, undefined, lift.
      destruct args as [|a [|]]; cbn [length Nat.eqb negb nth_error fst snd];
        try (split; [auto|]; split; [auto|]; split; [auto|]; split; congruence).
      destruct (integer_of a) as [z|e|u]; cbn [fst]; try (split; [auto|]; split; [auto|]; split; [auto|]; split; congruence).
      destruct (z <=? 0); cbn [fst]; [split; [auto|]; split; [auto|]; split; [auto|]; split; congruence|].
      split; [intros X; exfalso; apply X; rewrite Hm; now left|]. split; [auto|]. split; [auto|]. split; rewrite Hm; discriminate.
    - apply Pc. const_op.
    - intros c1 ->. unfold op_setFloatComparisonTolerance, bind, check_nargs, arg, throw_if, throw, ret, get, put, undefined, lift.
      destruct args as [|a [|]]; cbn [length Nat.eqb negb nth_error fst snd];
        try (split; [auto|]; split; [auto|]; split; [auto|]; split; congruence).
      destruct (float_of a) as [z|e|u]; cbn [fst]; try (split; [auto|]; split; [auto|]; split; [auto|]; split; congruence).
      destruct (f_lt z _); cbn [fst]; [split; [auto|]; split; [auto|]; split; [auto|]; split; congruence|].
      split; [intros X; exfalso; apply X; rewrite Hm; right; now left|]. split; [auto|]. split; [auto|]. split; rewrite Hm; discriminate. }
  specialize (Pw _ eq_refl). destruct (execute_in_context _ c) as [c1 r1]. cbn [fst snd] in *. inversion E; subst. cbn [w_ctx w_session].
  destruct Pw as (P1 & P2 & P3 & P4 & P5). split; [reflexivity|].
  split; [intros X; destruct (P1 X); split; [now rewrite write_log_precision|now rewrite write_log_tolerance]|].
  split; [intros X x; rewrite write_log_lookup; unfold lookup; now rewrite P2|].
  split; [intros x; rewrite write_log_lookup; apply P3|].
  split; intros X x; rewrite write_log_lookup; auto.
Qed.

(** ** C27 *)
Lemma success_not_error a : success_text a -> ~ looks_like_error a.
Proof.
  intros [H _] [r H']. destruct H' as [->|[->| ->]]; cbn in H; intuition congruence.
Qed.
Lemma error_answer_exc e : error_answer (exc_text e).
Proof. destruct e; unfold error_answer, exc_text; cbn [In]; auto 12. Qed.
Lemma error_answer_looks a : error_answer a -> looks_like_error a.
Proof.
  unfold error_answer, looks_like_error. cbn [In].
  intros H; repeat (destruct H as [<-|H]); try contradiction; cbn;
  match goal with
  | |- exists r, ?x = _ \/ _ =>
      first [ exists (skipn 12 x); left; reflexivity | exists (skipn 13 x); right; left; reflexivity | exists (skipn 20 x); right; right; reflexivity ]
  end.
Qed.
Lemma every_answer srt pw c s line c' s' ans : sort_contract srt -> reachable srt pw c ->
  runs srt pw c s line c' s' ans ->
  (error_answer ans /\ same_data c c' /\ s' = s) \/ (~ error_answer ans /\ ~ looks_like_error ans).
Proof.
  intros H1 H2 Hr. assert (Hg := reachable_good srt pw c H1 H2).
  destruct (execute_good false srt pw line c s H1 Hg (clean_false _)) as [(c1 & s1 & t & H & _ & [Ha _] & _)|[(e & H & _)|(u & H & _)]].
  - destruct (runs_unique _ _ _ _ _ _ _ _ _ _ _ Hr H) as (-> & -> & ->). right.
    apply success_not_error in Ha. split; auto. intros X. now apply error_answer_looks in X.
  - destruct (runs_unique _ _ _ _ _ _ _ _ _ _ _ Hr H) as (-> & -> & ->). left. split; [apply error_answer_exc|].
    split; [apply same_data_log|reflexivity].
  - exfalso. eapply runs_ub; eauto.
Qed.
Lemma exc_text_inj e e' : exc_text e = exc_text e' -> e = e'.
Proof. destruct e, e'; cbn; intros H; try reflexivity; discriminate H. Qed.
Lemma which_error srt pw c s line c' s' ans e : sort_contract srt -> reachable srt pw c ->
  runs srt pw c s line c' s' ans -> ans = exc_text e ->
  (e = InvalidStatement /\ forall a msg args, ~ statement line a msg args) \/
  exists a msg args, statement line a msg args /\ stmt_exc msg args e.
Proof.
  intros H1 H2 Hr He. assert (Hg := reachable_good srt pw c H1 H2).
  destruct (execute_good false srt pw line c s H1 Hg (clean_false _)) as [(c1 & s1 & t & H & _ & [Ha _] & _)|[(e' & H & Hc)|(u & H & _)]].
  - destruct (runs_unique _ _ _ _ _ _ _ _ _ _ _ Hr H) as (-> & -> & ->). exfalso.
    eapply success_not_error; eauto. apply error_answer_looks. rewrite He. apply error_answer_exc.
  - destruct (runs_unique _ _ _ _ _ _ _ _ _ _ _ Hr H) as (-> & -> & ->). apply exc_text_inj in He. now subst e'.
  - exfalso. eapply runs_ub; eauto.
Qed.
