(** Properties C08-C12, C38, C42: numbers.  Specification: [Spec_Number], [Spec_Float]; model: [Num], [Instance], [Context]. *)
From Coq Require Import ZArith Reals Psatz QArith Qpower Qabs Qreals.
From Flocq Require Import Core.
From Verif Require Import Bytes StrUtils Grammar Outcome Parser Num Containers Instance Context Platform.
From Verif Require Import Lemmas StringLit Proof_Grammar Proof_Parser Proof_Exec WP Proof_Inv Proof_Literal Proof_Receive Proof_Context Proof_Names Api Proof_Text.
From Verif Require Import Proof_Number Proof_Float Proof_Arith Props_Text.
From Verif Require Import Spec_Grammar Spec_State Spec_Names Spec_Text Spec_Number Spec_Float.
Open Scope Z_scope.
Open Scope list_scope.

Ltac mon := unfold bind, check_nargs, arg, throw_if, throw, ret, Outcome.get, put, lift, undefined, rbind; cbn [length Nat.eqb negb nth_error fst snd].

Lemma stored_int srt pw c n z : sort_contract srt -> reachable srt pw c -> lookup c n = Some (IObj (OInt z)) -> in_int z = true.
Proof. intros H1 H2 Hl. assert (G := reachable_good srt pw c H1 H2). destruct (ctx_good_lookup _ _ _ _ G Hl) as [_ Hi]. exact Hi. Qed.
Lemma stored_float srt pw c n f : sort_contract srt -> reachable srt pw c -> lookup c n = Some (IObj (OFloat f)) -> V32 f.
Proof.
  intros H1 H2 Hl. assert (G := reachable_good srt pw c H1 H2). destruct (ctx_good_lookup _ _ _ _ G Hl) as [_ Hi].
  destruct Hi as [x ->]. apply to_float_narrows.
Qed.
(** ** C08: integers as text *)
Lemma int_literal_of a z : denotes_int a z -> fits z -> literal_of (B "Integer") a (OInt z).
Proof. apply lit_integer. Qed.
Theorem C08_every_literal_denotes_one_integer : forall a, integer_value a ->
  exists z, denotes_int a z /\ forall z', denotes_int a z' -> z' = z.
Proof. intros a H. apply integer_value_denotes in H as [z Hz]. exists z. split; auto. intros z' H'. eapply denotes_int_unique; eauto. Qed.
Theorem C08_stored_integers_fit : forall srt pw c n z, sort_contract srt -> reachable srt pw c ->
  lookup c n = Some (IObj (OInt z)) -> fits z.
Proof. intros. apply in_int_fits. eapply stored_int; eauto. Qed.
(** get answers the decimal numeral of the value; it is a literal that denotes that value, for every 32-bit value. *)
Theorem C08_get_round_trip : forall srt pw c s line n z args, sort_contract srt -> reachable srt pw c ->
  statement line n (B "get") args -> lookup c n = Some (IObj (OInt z)) ->
  exists t, only_answers srt pw c s line t /\ prints_int z t /\ denotes_int t z /\ literal_of (B "Integer") t (OInt z).
Proof.
  intros srt pw c s line n z args H1 H2 Hs Hl. assert (args = []) by (apply len0; eapply args_len; eauto; reflexivity). subst args.
  exists (to_string z). assert (P := to_string_prints z). assert (D := prints_denotes _ _ P). split; [|split; [exact P|split; [exact D|]]].
  - apply (var_answers srt pw c s line n _ _ _ H1 H2 Hs Hl (Ok (to_string z))); auto.
  - apply (int_literal_of _ _ D); auto. eapply C08_stored_integers_fit; eauto.
Qed.
Theorem C08_different_integers_print_differently : forall z z' t, prints_int z t -> prints_int z' t -> z = z'.
Proof. exact prints_int_inj. Qed.
Lemma int_set_receive E z a : receive E (IObj (OInt z)) (B "set:") [a] = on (fun z => IObj (OInt z)) (integer_set [a] z).
Proof. reflexivity. Qed.
Theorem C08_set : forall srt pw c s line n z a d, sort_contract srt -> reachable srt pw c ->
  statement line n (B "set:") [a] -> lookup c n = Some (IObj (OInt z)) -> denotes_int a d -> fits d ->
  becomes srt pw c s line n (B "null") (IObj (OInt d)).
Proof.
  intros srt pw c s line n z a d H1 H2 Hs Hl Hd Hf. apply in_int_fits in Hf.
  apply (var_becomes srt pw c s line n _ _ _ H1 H2 Hs Hl (IObj (OInt d)) (Ok null)); auto.
  rewrite int_set_receive. unfold integer_set. mon. rewrite (int_literal _ _ Hd), (number_int _ _ Hd), Hf. cbn [negb andb].
  rewrite double_to_int_to_double by exact Hf. reflexivity.
Qed.
Theorem C08_set_then_get : forall srt pw c s s2 line line2 n z a d args2, sort_contract srt -> reachable srt pw c ->
  statement line n (B "set:") [a] -> statement line2 n (B "get") args2 -> lookup c n = Some (IObj (OInt z)) -> denotes_int a d -> fits d ->
  exists c' t, runs srt pw c s line c' s (B "null") /\ only_answers srt pw c' s2 line2 t /\ prints_int d t.
Proof.
  intros srt pw c s s2 line line2 n z a d args2 H1 H2 Hs Hs2 Hl Hd Hf.
  destruct (becomes_reachable _ _ _ _ _ _ _ _ H2 (C08_set srt pw c s line n z a d H1 H2 Hs Hl Hd Hf)) as (c' & R & Hr & Hl').
  destruct (C08_get_round_trip srt pw c' s2 line2 n d args2 H1 Hr Hs2 Hl') as (t & A & P & _). exists c', t. auto.
Qed.
Theorem C08_create_then_get : forall srt pw c s s2 line line2 m n a d args2, sort_contract srt -> reachable srt pw c ->
  statement line (B "Integer") m [n; a] -> with_value m -> variable n -> statement line2 n (B "get") args2 -> ~ live c n ->
  denotes_int a d -> fits d ->
  exists c' t, runs srt pw c s line c' s (B "null") /\ only_answers srt pw c' s2 line2 t /\ prints_int d t.
Proof.
  intros srt pw c s s2 line line2 m n a d args2 H1 H2 Hs Hm Hn Hs2 Hl Hd Hf.
  assert (Hcr : creates (B "Integer") m [n; a] n (IObj (OInt d))).
  { apply creates_object; auto. - right; right; now left. - now apply int_literal_of. }
  assert (Hb : becomes srt pw c s line n (B "null") (IObj (OInt d))).
  { eapply create_free; eauto using reachable_keys. unfold live in Hl. destruct (lookup c n); [exfalso; apply Hl; discriminate|reflexivity]. }
  destruct (becomes_reachable _ _ _ _ _ _ _ _ H2 Hb) as (c' & R & Hr & Hl').
  destruct (C08_get_round_trip srt pw c' s2 line2 n d args2 H1 Hr Hs2 Hl') as (t & A & P & _). exists c', t. auto.
Qed.
Example C08_ex : denotes_int (B "-007") (-7) /\ fits (-7) /\ prints_int (-7) (B "-7") /\
  statement (B "Integer create: x withValue: -007;") (B "Integer") (B "create:withValue:") [B "x"; B "-007"].
Proof.
  split; [change (-7) with (- digits_value (B "007")); apply int_minus; [repeat constructor; cbn; lia|discriminate]|].
  split; [unfold fits; lia|]. split; [apply prints_int_iff; reflexivity|stmt].
Qed.

(** ** C09, C10: integer arithmetic *)
Lemma int_arith_receive E o z args : receive E (IObj (OInt z)) (message_of o) args = on (fun z => IObj (OInt z)) (integer_arith (d_op o) args z).
Proof. destruct o; reflexivity. Qed.
Lemma exact_int_result o z d r : exact_result o z d r <-> int_result o z d = Some r.
Proof.
  destruct o; cbn; try (split; [now intros ->|now inversion 1]). destruct (Z.eqb_spec d 0); split; try easy; [now intros [_ ->]|now inversion 1].
Qed.
Theorem C09_exact_arithmetic : forall srt pw c s line n z o a d r, sort_contract srt -> reachable srt pw c ->
  statement line n (message_of o) [a] -> lookup c n = Some (IObj (OInt z)) -> denotes_int a d -> fits d ->
  exact_result o z d r -> fits r ->
  becomes srt pw c s line n (B "null") (IObj (OInt r)).
Proof.
  intros srt pw c s line n z o a d r H1 H2 Hs Hl Hd Hf He Hr. apply in_int_fits in Hf, Hr. apply exact_int_result in He.
  assert (Hz := stored_int _ _ _ _ _ H1 H2 Hl).
  apply (var_becomes srt pw c s line n _ _ _ H1 H2 Hs Hl (IObj (OInt r)) (Ok null)); auto.
  rewrite int_arith_receive. unfold integer_arith. mon. rewrite (int_literal _ _ Hd), (number_int _ _ Hd), Hf. cbn [negb andb].
  rewrite arith_ints, He, Hr by auto. reflexivity.
Qed.
Theorem C09_other_arguments_are_refused : forall srt pw c s line n z o a, sort_contract srt -> reachable srt pw c ->
  statement line n (message_of o) [a] -> lookup c n = Some (IObj (OInt z)) -> ~ float_value a ->
  only_answers srt pw c s line ERR_ARGUMENT.
Proof.
  intros srt pw c s line n z o a H1 H2 Hs Hl Ha.
  apply (var_answers srt pw c s line n _ _ _ H1 H2 Hs Hl (Throw InvalidArgument)); auto.
  rewrite int_arith_receive. unfold integer_arith. mon.
  rewrite (not_float_literal _ Ha), not_int_literal by (intros X; now apply Ha, int_is_float). reflexivity.
Qed.
(** With an integer literal, an operation is undefined exactly when the literal or the exact result does not fit. *)
Theorem C10_arithmetic_undefined_iff : forall srt pw c s line n z o a d, sort_contract srt -> reachable srt pw c ->
  statement line n (message_of o) [a] -> lookup c n = Some (IObj (OInt z)) -> denotes_int a d ->
  ((exists u, undefined_behaviour srt pw c s line u) <-> ~ (fits d /\ exists r, exact_result o z d r /\ fits r)).
Proof.
  intros srt pw c s line n z o a d H1 H2 Hs Hl Hd. split.
  - intros [u Hu] (Hf & r & He & Hr).
    destruct (C09_exact_arithmetic srt pw c s line n z o a d r H1 H2 Hs Hl Hd Hf He Hr) as (c' & R & _). eapply runs_ub; eauto.
  - intros N. assert (Hz := stored_int _ _ _ _ _ H1 H2 Hl).
    destruct (in_int d) eqn:Ed.
    + exists IntConversion. eapply var_undefined; eauto. rewrite int_arith_receive. unfold integer_arith. mon.
      rewrite (int_literal _ _ Hd), (number_int _ _ Hd), Ed. cbn [negb andb]. rewrite arith_ints by auto.
      destruct (int_result o z d) as [r|] eqn:Er; [|reflexivity]. destruct (in_int r) eqn:Ei; [|reflexivity].
      exfalso. apply N. split; [now apply in_int_fits|]. exists r. split; [now apply exact_int_result|now apply in_int_fits].
    + exists AtoiRange. eapply var_undefined; eauto. rewrite int_arith_receive. unfold integer_arith. mon.
      rewrite (int_literal _ _ Hd), (number_int _ _ Hd), Ed. reflexivity.
Qed.
(** With a literal that has a fraction or exponent: the IEEE double result decides, truncated towards zero. *)
Theorem C10_arithmetic_with_a_float_literal : forall srt pw c s line n z o a neg x, sort_contract srt -> reachable srt pw c ->
  statement line n (message_of o) [a] -> lookup c n = Some (IObj (OInt z)) -> ~ integer_value a -> denotes_real a neg x ->
  exists zd d res, finite zd /\ value zd = IZR z /\ double neg x d /\ ieee o zd d res /\
    (forall r, truncates_to res r -> becomes srt pw c s line n (B "null") (IObj (OInt r))) /\
    ((forall r, ~ truncates_to res r) -> undefined_behaviour srt pw c s line IntConversion).
Proof.
  intros srt pw c s line n z o a neg x H1 H2 Hs Hl Ha Hd. assert (Hz := in_int_abs _ (stored_int _ _ _ _ _ H1 H2 Hl)).
  destruct (int_to_double_value z) as (V1 & F1 & E1 & _); [lia|]. destruct (atof_rounds _ _ _ Hd) as [V2 D2].
  exists (int_to_double z), (atof a), (d_op o (int_to_double z) (atof a)).
  split; [exact F1|]. split; [exact E1|]. split; [exact D2|]. split; [now apply arith_ieee|].
  assert (R : receive (env_of srt c) (IObj (OInt z)) (message_of o) [a] =
    match double_to_int (d_op o (int_to_double z) (atof a)) with
    | Ok r => (IObj (OInt r), Ok null) | Throw e => (IObj (OInt z), Throw e) | UB u => (IObj (OInt z), UB u) end).
  { rewrite int_arith_receive. unfold integer_arith. mon. rewrite (float_literal _ _ _ Hd), (number_float _ Ha), andb_false_r.
    destruct (double_to_int _); reflexivity. }
  split.
  - intros r Hr. apply double_to_int_Ok in Hr. rewrite Hr in R.
    apply (var_becomes srt pw c s line n _ _ _ H1 H2 Hs Hl (IObj (OInt r)) (Ok null)); auto.
  - intros N. destruct (double_to_int_cases (d_op o (int_to_double z) (atof a))) as [(r & _ & T)|[E _]]; [exfalso; eapply N; eauto|].
    rewrite E in R. eapply var_undefined; eauto.
Qed.
(** set: and creation. *)
Theorem C10_set_undefined_iff : forall srt pw c s line n z a d, sort_contract srt -> reachable srt pw c ->
  statement line n (B "set:") [a] -> lookup c n = Some (IObj (OInt z)) -> denotes_int a d ->
  ((exists u, undefined_behaviour srt pw c s line u) <-> ~ fits d).
Proof.
  intros srt pw c s line n z a d H1 H2 Hs Hl Hd. split.
  - intros [u Hu] Hf. destruct (C08_set srt pw c s line n z a d H1 H2 Hs Hl Hd Hf) as (c' & R & _). eapply runs_ub; eauto.
  - intros N. exists AtoiRange. eapply var_undefined; eauto. rewrite int_set_receive. unfold integer_set. mon.
    rewrite (int_literal _ _ Hd), (number_int _ _ Hd). destruct (in_int d) eqn:E; [exfalso; now apply N, in_int_fits|reflexivity].
Qed.
Theorem C10_set_with_a_float_literal : forall srt pw c s line n z a neg x, sort_contract srt -> reachable srt pw c ->
  statement line n (B "set:") [a] -> lookup c n = Some (IObj (OInt z)) -> ~ integer_value a -> denotes_real a neg x ->
  exists d, double neg x d /\
    (forall r, truncates_to d r -> becomes srt pw c s line n (B "null") (IObj (OInt r))) /\
    ((forall r, ~ truncates_to d r) -> undefined_behaviour srt pw c s line IntConversion).
Proof.
  intros srt pw c s line n z a neg x H1 H2 Hs Hl Ha Hd. destruct (atof_rounds _ _ _ Hd) as [V2 D2].
  exists (atof a). split; [exact D2|].
  assert (R : receive (env_of srt c) (IObj (OInt z)) (B "set:") [a] =
    match double_to_int (atof a) with
    | Ok r => (IObj (OInt r), Ok null) | Throw e => (IObj (OInt z), Throw e) | UB u => (IObj (OInt z), UB u) end).
  { rewrite int_set_receive. unfold integer_set. mon. rewrite (float_literal _ _ _ Hd), (number_float _ Ha), andb_false_r.
    destruct (double_to_int _); reflexivity. }
  split.
  - intros r Hr. apply double_to_int_Ok in Hr. rewrite Hr in R.
    apply (var_becomes srt pw c s line n _ _ _ H1 H2 Hs Hl (IObj (OInt r)) (Ok null)); auto.
  - intros N. destruct (double_to_int_cases (atof a)) as [(r & _ & T)|[E _]]; [exfalso; eapply N; eauto|].
    rewrite E in R. eapply var_undefined; eauto.
Qed.
Lemma create_integer_run srt pw c s line m n a : statement line (B "Integer") m [n; a] -> with_value m -> variable n -> float_value a ->
  forall u, (let! d := number_of a in double_to_int d) = UB u -> undefined_behaviour srt pw c s line u.
Proof.
  intros Hs Hm Hn Ha u Hu. unfold undefined_behaviour.
  assert (R := run_type srt pw line (B "Integer") m [n; a] {| w_ctx := c; w_session := s |} Hs ltac:(left; right; right; now left)).
  unfold in_ctx in R. cbn [w_ctx w_session] in R.
  assert (E : execute_in_type {| p_actor := B "Integer"; p_message := m; p_args := [n; a] |} c = (c, UB u)).
  { unfold execute_in_type. cbn [p_actor p_message p_args]. unfold bind at 1.
    change (construct (remove_spaces (B "Integer")) m [n; a] c) with (@integer_create context m [n; a] c).
    unfold integer_create. replace (is_create_with m) with true by (destruct Hm as [->| ->]; reflexivity).
    apply is_variable_iff in Hn. apply is_float_value_iff in Ha.
    unfold bind, check_nargs, arg, throw_if, throw, ret, Outcome.get, put, lift, undefined. cbn [length Nat.eqb negb nth_error fst snd].
    rewrite Hn, Ha. cbn [negb orb]. rewrite andb_false_r, Hu. reflexivity. }
  rewrite E in R. cbn [fst snd] in R. eapply execute_ub; eauto.
Qed.
Theorem C10_create_undefined_iff : forall srt pw c s line m n a d, statement line (B "Integer") m [n; a] -> with_value m -> variable n ->
  denotes_int a d -> ((exists u, undefined_behaviour srt pw c s line u) <-> ~ fits d).
Proof.
  intros srt pw c s line m n a d Hs Hm Hn Hd. split.
  - intros [u Hu] Hf.
    assert (Hcr : creates (B "Integer") m [n; a] n (IObj (OInt d))).
    { apply creates_object; auto. - right; right; now left. - now apply int_literal_of. }
    assert (E := run_creation srt pw c s line _ m _ n _ Hs Hcr). unfold undefined_behaviour in Hu.
    destruct (lookup c n); [destruct (starts_with m _)|]; rewrite (execute_ok _ _ _ _ _ _ E) in Hu by (cbn; auto); discriminate.
  - intros N. exists AtoiRange. eapply create_integer_run; eauto.
    + apply int_is_float, integer_value_denotes. eauto.
    + rewrite (number_int _ _ Hd). destruct (in_int d) eqn:E; [exfalso; now apply N, in_int_fits|reflexivity].
Qed.
Theorem C10_create_with_a_float_literal : forall srt pw c s line m n a neg x, sort_contract srt -> reachable srt pw c ->
  statement line (B "Integer") m [n; a] -> with_value m -> variable n -> ~ integer_value a -> denotes_real a neg x ->
  exists d, double neg x d /\
    (forall r, truncates_to d r -> ~ live c n -> becomes srt pw c s line n (B "null") (IObj (OInt r))) /\
    ((forall r, ~ truncates_to d r) -> undefined_behaviour srt pw c s line IntConversion).
Proof.
  intros srt pw c s line m n a neg x H1 H2 Hs Hm Hn Ha Hd. destruct (atof_rounds _ _ _ Hd) as [V2 D2].
  exists (atof a). split; [exact D2|]. split.
  - intros r Hr Hl. apply double_to_int_Ok in Hr.
    assert (Hcr : creates (B "Integer") m [n; a] n (IObj (OInt r))).
    { apply creates_object; auto. - right; right; now left. - apply get_literal; [right; right; now left|].
      change (get_shared_instance (B "Integer") a) with (let! z := integer_of a in Ok (OInt z)). unfold integer_of.
      rewrite (float_literal _ _ _ Hd), (number_float _ Ha), andb_false_r. cbn [rbind]. now rewrite Hr. }
    eapply create_free; eauto using reachable_keys. unfold live in Hl. destruct (lookup c n); [exfalso; apply Hl; discriminate|reflexivity].
  - intros N. eapply create_integer_run; eauto.
    + apply float_value_denotes. eauto.
    + rewrite (number_float _ Ha). cbn [rbind]. destruct (double_to_int_cases (atof a)) as [(r & _ & T)|[E _]]; [exfalso; eapply N; eauto|exact E].
Qed.
Definition one_int : context := set_instances empty_server [(B "x", IObj (OInt 2147483647))].
Lemma one_int_reachable : reachable insertion_sort [] one_int.
Proof. apply (after_reachable _ _ [B "Integer create: x withValue: 2147483647;"] empty_server); [constructor; vm_compute; reflexivity|vm_compute; reflexivity]. Qed.
(** Ordinary statements reach it: one more than the largest integer, division by zero. *)
Theorem C10_overflow_is_reachable :
  reachable insertion_sort [] one_int /\
  undefined_behaviour insertion_sort [] one_int None (B "x add: 1;") IntConversion /\
  undefined_behaviour insertion_sort [] one_int None (B "x divideBy: 0;") IntConversion /\
  undefined_behaviour insertion_sort [] one_int None (B "x set: 2147483648;") AtoiRange.
Proof. split; [apply one_int_reachable|]. split; [|split]; unfold undefined_behaviour; vm_compute; reflexivity. Qed.
Example C09_ex : exact_result Divide (-7) 2 (-3) /\ fits (-3) /\ statement (B "x divideBy: 2;") (B "x") (message_of Divide) [B "2"] /\
  exists c', runs insertion_sort [] (set_instances empty_server [(B "x", IObj (OInt (-7)))]) None (B "x divideBy: 2;") c' None (B "null") /\
    lookup c' (B "x") = Some (IObj (OInt (-3))).
Proof.
  split; [split; [discriminate|reflexivity]|]. split; [unfold fits; lia|]. split; [stmt|].
  eexists. split; [unfold runs; vm_compute; reflexivity|reflexivity].
Qed.
Example C10_ex : ~ integer_value (B "2.5") /\ exists x, denotes_real (B "2.5") false x.
Proof.
  split; [intros H; apply is_integer_value_iff in H; discriminate|].
  eexists. exists [], (B "2.5"), [], 25, 1%nat, 0. split; [reflexivity|]. split; [constructor|]. split; [|split; [constructor|reflexivity]].
  assert (D : forall c, c = "2"%char \/ c = "5"%char -> digit c) by (intros c [->| ->]; split; apply Nat.leb_le; reflexivity).
  assert (X := man_point (B "2") (B "5") (Forall_cons _ (D _ (or_introl eq_refl)) (Forall_nil _))
                 (Forall_cons _ (D _ (or_intror eq_refl)) (Forall_nil _)) (or_introl (not_eq_sym (@nil_cons _ _ _)))).
  exact X.
Qed.

(** ** C11: floats as text *)
Theorem C11_get_prints_rounded : forall srt pw c s line n f args, sort_contract srt -> reachable srt pw c ->
  statement line n (B "get") args -> lookup c n = Some (IObj (OFloat f)) ->
  exists t, only_answers srt pw c s line t /\ prints_float (places (float_precision c)) f t.
Proof.
  intros srt pw c s line n f args H1 H2 Hs Hl. assert (args = []) by (apply len0; eapply args_len; eauto; reflexivity). subst args.
  exists (fixed_repr (float_precision c) f). split; [|apply fixed_repr_prints].
  apply (var_answers srt pw c s line n _ _ _ H1 H2 Hs Hl (Ok (fixed_repr (float_precision c) f))); auto.
Qed.
Theorem C11_printed_text_is_unique : forall p f t t', prints_float p f t -> prints_float p f t' -> t = t'.
Proof. exact prints_float_unique. Qed.
(** In terms of the real number: sign, then the numeral with [p] places of the integer nearest to [|value| * 10^p]. *)
Lemma powerRZ_Q2R e : Q2R (Qpower 2 e) = powerRZ 2 e.
Proof.
  assert (P : forall p, Q2R (Qpower 2 (Z.pos p)) = powerRZ 2 (Z.pos p)).
  { intros p. change (Qpower 2 (Z.pos p)) with (Qpower_positive 2 p). rewrite <- (positive_nat_Z p), <- pow_powerRZ.
    induction p using Pos.peano_ind; [change (Q2R 2 = 2 ^ 1)%R; rewrite pow_1; unfold Q2R; cbn; lra|].
    rewrite Pos2Nat.inj_succ. cbn [pow]. rewrite <- IHp. rewrite <- Q2R_plus || idtac.
    assert (X : (Qpower_positive 2 (Pos.succ p) == 2 * Qpower_positive 2 p)%Q).
    { rewrite <- Pos.add_1_r, Qpower_plus_positive. change (Qpower_positive 2 1) with 2%Q. ring. }
    rewrite (Qeq_eqR _ _ X), Q2R_mult. f_equal. unfold Q2R. cbn. lra. }
  destruct e as [|p|p]; [unfold Q2R; cbn; lra|apply P|].
  change (Qpower 2 (Z.neg p)) with (/ Qpower_positive 2 p)%Q. change (Qpower_positive 2 p) with (Qpower 2 (Z.pos p)).
  rewrite Q2R_inv, P; [reflexivity|]. intros E. apply Qeq_eqR in E. rewrite P in E. unfold Q2R in E. cbn in E.
  assert (0 < 2 ^ Pos.to_nat p)%R by (apply pow_lt; lra). lra.
Qed.
Lemma magnitude_value s m e : Q2R (magnitude m e) = Rabs (value (S754_finite s m e)).
Proof.
  unfold magnitude. rewrite Q2R_mult, powerRZ_Q2R. assert (P : (0 < powerRZ 2 e)%R) by (apply powerRZ_lt; lra).
  assert (Q : Q2R (inject_Z (Z.pos m)) = IZR (Z.pos m)) by (unfold Q2R; cbn; field).
  rewrite Q. unfold value. rewrite Rabs_mult, (Rabs_pos_eq (powerRZ 2 e)) by lra. f_equal.
  destruct s; rewrite <- abs_IZR; reflexivity.
Qed.
Lemma Q2R_abs q : Q2R (Qabs.Qabs q) = Rabs (Q2R q).
Proof.
  apply (Qabs.Qabs_case q (fun a => Q2R a = Rabs (Q2R q))); intros H; apply Qle_Rle in H.
  - rewrite Rabs_pos_eq; auto. unfold Q2R in H at 1. cbn in H. lra.
  - rewrite Rabs_left1, Q2R_opp; auto. unfold Q2R in H at 2. cbn in H. lra.
Qed.
Lemma Q2R_10 p : Q2R (10 ^ Z.of_nat p) = powerRZ 10 (Z.of_nat p).
Proof.
  rewrite <- pow_powerRZ. assert (E : (10 ^ Z.of_nat p == inject_Z (10 ^ Z.of_nat p))%Q) by (apply (Qpower_pos_Z 10); lia).
  rewrite (Qeq_eqR _ _ E), pow_IZR. unfold Q2R. cbn [Qnum Qden inject_Z]. field.
Qed.
Theorem C11_nearest_numeral : forall p s m e t, prints_float p (S754_finite s m e) t ->
  exists k body, t = minus_sign s ++ body /\ point_numeral p k body /\
    (Rabs (IZR k - Rabs (value (S754_finite s m e)) * powerRZ 10 (Z.of_nat p)) <= 1 / 2)%R /\
    (Rabs (IZR k - Rabs (value (S754_finite s m e)) * powerRZ 10 (Z.of_nat p)) = 1 / 2 -> Z.even k = true)%R.
Proof.
  intros p s m e t (k & body & Ht & Hp & Hn). exists k, body. split; [exact Ht|]. split; [exact Hp|].
  assert (E : Q2R (Qabs.Qabs (inject_Z k - magnitude m e * 10 ^ Z.of_nat p)) =
              Rabs (IZR k - Rabs (value (S754_finite s m e)) * powerRZ 10 (Z.of_nat p))).
  { rewrite Q2R_abs, Q2R_minus, Q2R_mult, (magnitude_value s), Q2R_10. do 2 f_equal. unfold Q2R. cbn. field. }
  assert (H12 : Q2R (1 # 2) = (1 / 2)%R) by (unfold Q2R; cbn; lra).
  destruct Hn as [N1 N2]. apply Qle_Rle in N1. rewrite E, H12 in N1. split; [exact N1|].
  intros X. apply N2. apply eqR_Qeq. now rewrite E, H12.
Qed.
Example C11_ex : prints_float 3 (to_float (atof (B "-2.0625"))) (B "-2.062") /\
  exists m e, to_float (atof (B "-2.0625")) = S754_finite true m e.
Proof. split; [change (B "-2.062") with (fixed_repr 3 (to_float (atof (B "-2.0625")))) || idtac|]. 
  - assert (X := fixed_repr_prints 3 (to_float (atof (B "-2.0625")))). exact X.
  - eexists _, _. vm_compute. reflexivity.
Qed.

Print Assumptions C08_get_round_trip.
Print Assumptions C08_set_then_get.
Print Assumptions C08_create_then_get.
Print Assumptions C09_exact_arithmetic.
Print Assumptions C09_other_arguments_are_refused.
Print Assumptions C10_arithmetic_undefined_iff.
Print Assumptions C10_arithmetic_with_a_float_literal.
Print Assumptions C10_set_undefined_iff.
Print Assumptions C10_create_undefined_iff.
Print Assumptions C11_get_prints_rounded.
Print Assumptions C11_nearest_numeral.
