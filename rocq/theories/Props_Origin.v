(** Property C62: nothing comes from nowhere, and a server holds no more than it was sent.
    Specification: [Spec_Origin]; model: [Instance], [Context], [Server]. *)
From Coq Require Import ZArith Lia.
From Verif Require Import Bytes StrUtils Grammar Outcome Parser Num Containers Instance Context Server Platform.
From Verif Require Import Lemmas StringLit Proof_Grammar Proof_Parser Proof_Exec Proof_Inv Proof_Literal Proof_Receive Proof_Context Proof_Names Api Proof_Text Proof_Server Proof_Set Props_State Props_Server Props_Clients Proof_Order Proof_Origin.
From Verif Require Import Spec_Grammar Spec_State Spec_Names Spec_Text Spec_Set Spec_Server Spec_Origin.
Local Open Scope list_scope.

Lemma live_keeps srt pw c s line c' s' ans n : sort_contract srt -> reachable srt pw c -> runs srt pw c s line c' s' ans ->
  live c n -> live c' n -> keeps line n.
Proof.
  intros H1 H2 R L L'.
  destruct (Classical_Prop.classic (statement line (B "Context") (B "deleteVariable:") [n])) as [D|D].
  { exfalso. apply L'. destruct (C25_deleteVariable srt pw c s line n H1 H2 D L) as (c1 & R1 & X & _).
    destruct (runs_unique _ _ _ _ _ _ _ _ _ _ _ R R1) as (-> & _). exact X. }
  split; [exact D|]. intros ns i -> D'. apply L'.
  assert (Hn : namespace ns) by (eapply qualified_namespace, C25_live_names_are_variables; eauto).
  destruct (C25_deleteVariablesOfNamespace srt pw c s line ns D' Hn) as (c1 & R1 & _ & X & _).
  destruct (runs_unique _ _ _ _ _ _ _ _ _ _ _ R R1) as (-> & _). apply X.
Qed.
Definition string_volume (i : inst) : nat := match i with IObj (OStr v) => length v | _ => 0 end.
Lemma adds_volume m args i i' : adds m args i i' -> (string_volume i' <= volume args + string_volume i)%nat.
Proof.
  destruct i as [[b|b|z|f|v]|t v|t v|kt vt d]; cbn [adds]; intros H; try destruct H as (x & -> & H); try destruct H as (x & ->); cbn [string_volume]; try lia.
  destruct H as [_ H]. exact H.
Qed.
(** The history of a variable since its creation. *)
Lemma history_of srt pw lines c : sort_contract srt -> reached_by srt pw lines c -> forall n i, lookup c n = Some i ->
  exists before line after T m args i0 k v,
    lines = before ++ line :: after /\ statement line T m args /\ creates T m args n i0 /\ type_name i = type_name i0 /\
    Forall (fun l => keeps l n) after /\ originates n args after i /\
    total (inserts n) one after k /\ (cardinal i <= k)%nat /\
    total (addresses n) (@length ascii) after v /\ (string_volume i <= volume args + v)%nat.
Proof.
  intros H1 H. induction H as [|lines c s line c' s' ans Hr IH R]; intros n i Hl; [discriminate Hl|].
  assert (H2 := reached_reachable _ _ _ _ Hr).
  assert (K : forall j m' args' , lookup c n = Some j ->
    (statement line n m' args' /\ adds m' args' j i) \/ i = j -> exists before line0 after T m args i0 k v,
    lines ++ [line] = before ++ line0 :: after /\ statement line0 T m args /\ creates T m args n i0 /\ type_name i = type_name i0 /\
    Forall (fun l => keeps l n) after /\ originates n args after i /\
    total (inserts n) one after k /\ (cardinal i <= k)%nat /\
    total (addresses n) (@length ascii) after v /\ (string_volume i <= volume args + v)%nat).
  { intros j m' args' Hj HA. destruct (IH n j Hj) as (before & line0 & after & T & m & args & i0 & k & v & -> & S0 & C0 & T0 & F0 & O0 & K0 & L0 & V0 & M0).
    destruct (total_step _ one after line k K0) as (k' & K1 & K2 & K3). destruct (total_step _ (@length ascii) after line v V0) as (v' & V1 & V2 & V3).
    exists before, line0, (after ++ [line]), T, m, args, i0, k', v'. split; [now rewrite <- app_assoc|]. split; [exact S0|]. split; [exact C0|].
    assert (F1 : Forall (fun l => keeps l n) (after ++ [line])).
    { apply Forall_app. split; auto. constructor; auto. eapply live_keeps; [exact H1|exact H2|exact R| |]; unfold live; congruence. }
    destruct HA as [[Hs A]| ->].
    - rewrite (adds_type _ _ _ _ A). split; [exact T0|]. split; [exact F1|]. split; [eapply originates_adds; eauto|]. split; [exact K1|].
      apply adds_cardinal in A as AC. apply adds_volume in A as AV. destruct (growth_inserts n line m' args' Hs) as [G1 G2].
      split; [|split; [exact V1|]].
      + destruct (growth m') as [|[|]]; [lia| |lia]. rewrite (K3 (G2 eq_refl)). unfold one. lia.
      + assert (X : addresses n line) by (exists m', args'; exact Hs). rewrite (V3 X). apply statement_volume in Hs. lia.
    - split; [exact T0|]. split; [exact F1|]. split; [now apply originates_more|]. split; [exact K1|]. split; [lia|]. split; [exact V1|lia]. }
  destruct (step_cases srt pw c s line c' s' ans n H1 H2 R) as [L|[(m & args & j & Hs & Hm & Hj)|[(T & m & args & j & Hs & Hcr & _ & Hj)|[L _]]]].
  - rewrite L in Hl. apply (K i [] []); auto.
  - destruct (step_variable srt pw c s line n m args j c' s' ans H1 H2 Hs Hj R) as (L & _). rewrite Hl in L. injection L as ->.
    apply (K j m args); auto. left. split; auto. apply receive_adds; [exact H1|]. apply (ctx_good_lookup false c n j (reachable_good srt pw c H1 H2) Hj).
  - rewrite Hl in Hj. injection Hj as ->. exists lines, line, [], T, m, args, j, 0%nat, 0%nat.
    split; [reflexivity|]. split; [exact Hs|]. split; [exact Hcr|]. split; [reflexivity|]. split; [constructor|].
    destruct Hcr as [nn l x Ho Hw Hv Hx|nn Ht Hw Hv|nn e Ht Hw Hv|nn e Ht Hw Hv|nn kt vt Ht Hw Hv].
    + split; [|split; [constructor|split; [cbn; lia|split; [constructor|]]]].
      * assert (G : given nn [nn; l] [] l) by (left; right; now left). inversion Hx; subst; cbn [originates]; eauto.
        intros ch I. exists l. split; eauto.
      * destruct x; cbn [string_volume]; try lia. assert (Et : T = B "String") by (inversion Hx; reflexivity). subst T. apply string_literal_length in Hx. unfold volume. cbn [fold_right]. lia.
    + split; [intros ch []|]. split; [constructor|split; [cbn; lia|split; [constructor|cbn; lia]]].
    + split; [intros ch []|]. split; [constructor|split; [cbn; lia|split; [constructor|cbn; lia]]].
    + split; [intros ch []|]. split; [constructor|split; [cbn; lia|split; [constructor|cbn; lia]]].
    + split; [intros k x []|]. split; [constructor|split; [cbn; lia|split; [constructor|cbn; lia]]].
  - congruence.
Qed.

(** *** Nothing comes from nowhere *)
(** Whatever a variable holds was given to it, by the line that created it or by a message to it since then: the values of Boolean and
    Character variables, each character of a String, each element of a Vector or Set, each key and each value of a Dictionary. *)
Theorem C62_where_values_come_from : forall srt pw lines c n i, sort_contract srt -> reached_by srt pw lines c -> lookup c n = Some i ->
  exists before line after T m args i0, lines = before ++ line :: after /\ statement line T m args /\ creates T m args n i0 /\
    type_name i = type_name i0 /\ Forall (fun l => keeps l n) after /\ originates n args after i.
Proof.
  intros srt pw lines c n i H1 H2 H. destruct (history_of srt pw lines c H1 H2 n i H) as (before & line & after & T & m & args & i0 & k & v & A & B & C & D & F & G & _).
  exists before, line, after, T, m, args, i0. auto 10.
Qed.

(** *** How much there can be *)
(** A container has at most as many elements as there were messages to it, since its creation, that can add one. *)
Theorem C62_elements_were_inserted : forall srt pw lines c n i, sort_contract srt -> reached_by srt pw lines c -> lookup c n = Some i ->
  exists before line after k, lines = before ++ line :: after /\ (exists T m args i0, statement line T m args /\ creates T m args n i0) /\
    Forall (fun l => keeps l n) after /\ total (inserts n) one after k /\ (cardinal i <= k)%nat.
Proof.
  intros srt pw lines c n i H1 H2 H. destruct (history_of srt pw lines c H1 H2 n i H) as (before & line & after & T & m & args & i0 & k & v & A & B & C & D & F & _ & G & L & _).
  exists before, line, after, k. eauto 12.
Qed.
(** The number of variables and of elements in them together is at most the number of lines executed. *)
Lemma weight_steps srt pw c s line c' s' ans : sort_contract srt -> reachable srt pw c -> runs srt pw c s line c' s' ans ->
  forall names, NoDup names -> (list_sum (map (weight c') names) <= 1 + list_sum (map (weight c) names))%nat.
Proof.
  intros H1 H2 R.
  assert (K : forall n, (weight c' n <= weight c n)%nat \/ ((exists m args, statement line n m args) \/ (exists T m args i, statement line T m args /\ type T /\ creates T m args n i)) /\ (weight c' n <= 1 + weight c n)%nat).
  { intros n. unfold weight.
    destruct (step_cases srt pw c s line c' s' ans n H1 H2 R) as [L|[(m & args & j & Hs & Hm & Hj)|[(T & m & args & j & Hs & Hcr & Hn & Hj)|[L _]]]].
    - left. rewrite L. lia.
    - right. split; [left; eauto|]. destruct (step_variable srt pw c s line n m args j c' s' ans H1 H2 Hs Hj R) as (L & _). rewrite L, Hj.
      assert (A := receive_adds (env_of srt c) j m args H1 (proj2 (ctx_good_lookup false c n j (reachable_good srt pw c H1 H2) Hj))). apply adds_cardinal in A.
      destruct (growth_inserts n line m args Hs) as [G _]. lia.
    - right. split.
      + right. exists T, m, args, j. split; [exact Hs|]. split; [|exact Hcr]. destruct Hcr; unfold type, container_type; [left|subst; left; unfold object_type|right|right|right]; eauto 10.
      + rewrite Hn, Hj. destruct Hcr; cbn [cardinal length]; lia.
    - left. rewrite L. lia. }
  assert (U : forall n n', ((exists m args, statement line n m args) \/ (exists T m args i, statement line T m args /\ type T /\ creates T m args n i)) ->
                      ((exists m args, statement line n' m args) \/ (exists T m args i, statement line T m args /\ type T /\ creates T m args n' i)) ->
                      live c' n -> live c' n' -> n = n').
  { assert (R' := reach_step _ _ _ _ _ _ _ _ H2 R).
    assert (X : forall n T m args m' args' , statement line n m args -> statement line T m' args' -> type T -> ~ live c' n).
    { intros n T m args m' args' S1 S2 Ty L. destruct (statement_unique _ _ _ _ _ _ _ S1 S2) as (-> & _).
      apply C25_live_names_are_variables with (srt := srt) (pw := pw) in L; auto. apply variable_not_type in L. apply is_type_iff in Ty. congruence. }
    intros n n' [(m & args & S1)|(T & m & args & i & S1 & Ty & C1)] [(m' & args' & S2)|(T' & m' & args' & i' & S2 & Ty' & C2)] L1 L2.
    - now destruct (statement_unique _ _ _ _ _ _ _ S1 S2) as (-> & _).
    - destruct (X n T' m args m' args' S1 S2 Ty' L1).
    - destruct (X n' T m' args' m args S2 S1 Ty L2).
    - destruct (statement_unique _ _ _ _ _ _ _ S1 S2) as (-> & -> & ->). destruct C1; inversion C2; subst; reflexivity. }
  assert (Z : forall n, weight c' n = 0%nat \/ live c' n).
  { intros n. unfold weight, live. destruct (lookup c' n); [right; discriminate|now left]. }
  assert (Q : forall n0, ((exists m args, statement line n0 m args) \/ (exists T m args i, statement line T m args /\ type T /\ creates T m args n0 i)) -> live c' n0 ->
    forall names, ~ In n0 names -> (list_sum (map (weight c') names) <= list_sum (map (weight c) names))%nat).
  { intros n0 A0 L0. induction names as [|n names IH]; intros N; [cbn; lia|]. cbn [map list_sum fold_right]. unfold list_sum in *.
    assert (IH' := IH (fun I => N (or_intror I))). destruct (K n) as [L|[A L]]; [lia|]. destruct (Z n) as [L'|L']; [lia|].
    exfalso. apply N. left. now apply U. }
  intros names. induction names as [|n names IH]; intros D; [cbn; lia|]. inversion D as [|? ? N D']; subst. specialize (IH D').
  cbn [map list_sum fold_right]. unfold list_sum in *. destruct (K n) as [L|[A L]]; [lia|]. destruct (Z n) as [L'|L']; [lia|].
  assert (Q' := Q n A L' names N). unfold list_sum in Q'. lia.
Qed.
Theorem C62_size_of_the_data : forall srt pw lines c names, sort_contract srt -> reached_by srt pw lines c -> NoDup names ->
  (list_sum (map (weight c) names) <= length lines)%nat.
Proof.
  intros srt pw lines c names H1 H D. induction H as [|lines c s line c' s' ans Hr IH R].
  - clear D. induction names as [|n names IH]; [cbn; lia|exact IH].
  - rewrite app_length. cbn [length]. assert (W := weight_steps srt pw c s line c' s' ans H1 (reached_reachable _ _ _ _ Hr) R names D). lia.
Qed.
(** Names and the texts in containers are shorter than one of the lines; a String is no longer than all the lines together that created
    it and were sent to it. *)
Theorem C62_length_of_texts : forall srt pw lines c n i, sort_contract srt -> reached_by srt pw lines c -> lookup c n = Some i ->
  (exists line, In line lines /\ (length n < length line)%nat) /\
  (forall v, In (OStr v) (texts i) -> exists line, In line lines /\ (length v < length line)%nat) /\
  (forall v, i = IObj (OStr v) -> exists before line after k, lines = before ++ line :: after /\
     (exists T m args i0, statement line T m args /\ creates T m args n i0) /\ total (addresses n) (@length ascii) after k /\
     (length v < length line + k)%nat).
Proof.
  intros srt pw lines c n i H1 H2 H.
  destruct (history_of srt pw lines c H1 H2 n i H) as (before & line & after & T & m & args & i0 & k & v & -> & S & C & _ & _ & O & _ & _ & V & L).
  assert (W := statement_volume _ _ _ _ S).
  assert (G : forall a, given n args after a -> exists line0, In line0 (before ++ line :: after) /\ (length a < length line0)%nat).
  { intros a [I|(l & m' & args' & I & S' & Ia)].
    - exists line. split; [apply in_or_app; right; now left|]. apply volume_in in I. lia.
    - exists l. split; [apply in_or_app; right; now right|]. apply volume_in in Ia. apply statement_volume in S'. lia. }
  assert (GT : forall t a w, literal_of t a (OStr w) -> (length w < length a)%nat).
  { intros t a w X. assert (t = B "String") by (inversion X; reflexivity). subst. now apply string_literal_length. }
  split; [|split].
  - exists line. split; [apply in_or_app; right; now left|]. assert (In n args) by (destruct C; now left). apply volume_in in H0. lia.
  - assert (P : forall t w, (exists a, given n args after a /\ literal_of t a (OStr w)) -> exists line0, In line0 (before ++ line :: after) /\ (length w < length line0)%nat).
    { intros t w (a & Ga & X). destruct (G a Ga) as (l0 & I0 & L0). apply GT in X. exists l0. split; auto. lia. }
    intros w. destruct i as [x|t l|t l|kt vt d]; cbn [texts originates] in *.
    + intros [].
    + intros I. eapply P, O, I.
    + intros I. eapply P, O, I.
    + intros [I|I]%in_app_or; apply in_map_iff in I as ([k0 x0] & E & I); cbn in E; subst; destruct (O _ _ I); eapply P; eauto.
  - intros w ->. exists before, line, after, v. split; [reflexivity|]. split; [eauto 8|]. split; [exact V|]. cbn [string_volume] in L. lia.
Qed.
(** All of this holds for a running server, whatever its clients send and however their lines interleave: the lines executed are those of
    the history of C35. *)
Lemma serial_reached srt pw c0 lines0 ss h c ss' : reached_by srt pw lines0 c0 -> serial srt pw c0 ss h c ss' -> reached_by srt pw (lines0 ++ executed_lines h) c.
Proof.
  intros H0 H. induction H as [|h c1 ss1 sid line c2 s2 o H IH P]; [now rewrite app_nil_r|].
  unfold executed_lines. rewrite flat_map_app, app_assoc. cbn [flat_map e_outcome e_line app].
  destruct (processes_cases _ _ _ _ _ _ _ _ P) as [(-> & -> & _)|(ans & R & [->| ->])]; [now rewrite app_nil_r| |]; eapply by_line; eauto.
Qed.
Theorem C62_of_a_server : forall srt pw opened precision tol is_quiet es, single_precision tol ->
  let c0 := new_context opened precision tol is_quiet in sv_crash (run srt (start pw c0) es) = None ->
  exists h, explains srt pw c0 es h /\ reached_by srt pw (executed_lines h) (sv_ctx (run srt (start pw c0) es)).
Proof.
  intros srt pw opened precision tol is_quiet es Ht c0 Hc. destruct (C35_every_schedule_is_serialisable srt pw c0 es Hc) as (h & Hh).
  exists h. split; [exact Hh|]. destruct Hh as (ss & S & _). apply (serial_reached srt pw c0 [] _ _ _ _ (by_none srt pw opened precision tol is_quiet Ht) S).
Qed.

(** A history of four lines after which the server holds one variable with two elements: the bound on the size counts the line that
    failed too, without it it would be reached. *)
Example C62_ex : exists c, reached_by insertion_sort [] [B "Vector<Integer> create: v;"; B "v pushBack: 1;"; B "v pushBack: x;"; B "v pushFront: 2;"] c /\
  lookup c (B "v") = Some (IVector (B "Integer") [OInt 2; OInt 1]) /\ list_sum (map (weight c) [B "v"]) = 3%nat.
Proof.
  eexists. split; [|split].
  - assert (K : forall l1 l2 l3 l4 c, reached_by insertion_sort [] ((((([] ++ [l1]) ++ [l2]) ++ [l3]) ++ [l4])) c -> reached_by insertion_sort [] [l1; l2; l3; l4] c) by auto.
    apply K. eapply (by_line _ _ _ _ None); [eapply (by_line _ _ _ _ None); [eapply (by_line _ _ _ _ None); [eapply (by_line _ _ _ _ None); [apply (by_none _ _ false 3%Z (to_float (SpecFloat.S754_zero false)) true)|]|]|]|].
    + reflexivity.
    + unfold runs. vm_compute. reflexivity.
    + unfold runs. vm_compute. reflexivity.
    + unfold runs. vm_compute. reflexivity.
    + unfold runs. vm_compute. reflexivity.
  - reflexivity.
  - reflexivity.
Qed.

Print Assumptions C62_where_values_come_from.
Print Assumptions C62_elements_were_inserted.
Print Assumptions C62_size_of_the_data.
Print Assumptions C62_length_of_texts.
Print Assumptions C62_of_a_server.
