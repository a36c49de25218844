(** C89: few short lines do no harm. *)
From Coq Require Import String List Ascii ZArith Reals Lia Sorting.Sorted Classical.
From Verif Require Import Bytes StrUtils Outcome Num Instance Context Server Platform.
From Verif Require Import Spec_Grammar Spec_State Spec_Names Spec_Text Spec_Number Spec_Float Spec_Literal Spec_Order Spec_Vector Spec_String Spec_Set Spec_Object Spec_Server.
From Verif Require Import Proof_Grammar Proof_Parser Proof_Exec Proof_Literal Proof_Names Proof_Context Proof_Set Proof_Server Proof_Number Proof_Order Proof_Length Proof_Small.
From Verif Require Lemmas Spec_Origin Props_Origin Props_Storable Props_Float.
From Verif Require Import Props_State Props_Set Props_Server Props_Order Props_Clients Props_Whole Props_Observe Props_Safe Props_Length.
From Verif Require Import Props_Undefined Spec_Number Spec_Whole Spec_Secret Spec_Safe Spec_Length Spec_Small Props_Small.
Import ListNotations.
Open Scope nat_scope.
Open Scope list_scope.
(** ** Few short lines *)
Lemma first_of_the_lines srt pw c0 es1 es2 h sid ls rest : explains srt pw c0 es1 h -> lines_of (arrived (es1 ++ es2) sid) ls rest -> exists more, ls = lines_in sid h ++ more.
Proof.
  intros (ss & _ & Who & Conn) (L1 & L2 & L3). unfold arrived in L1. rewrite arrives_app in L1. fold (arrived es1 sid) in L1.
  destruct (nth_error (sv_conns (run srt (start pw c0) es1)) sid) as [cn|] eqn:E.
  - destruct (Conn sid cn E) as [_ Ac]. destruct (acc_input _ _ _ _ Ac) as (w & W & _). rewrite W, <- app_assoc in L1.
    destruct (lines_unique _ _ _ _ (acc_lines _ _ _ _ Ac) L2 L1) as [(k & -> & _)|(k & Ek & Ez)]; [eauto|].
    destruct k as [|l k]; [exists []; rewrite app_nil_r in *; auto|]. exfalso. apply L3. rewrite Ez. apply in_flat_newline. intros Q; discriminate Q.
  - exists ls. assert (Fl : entries_of sid h = []); [|unfold lines_in; now rewrite Fl].
    unfold entries_of. destruct (filter (fun e => (e_sid e =? sid)%nat) h) as [|e l] eqn:Q; auto. exfalso.
    assert (I : In e (filter (fun e => (e_sid e =? sid)%nat) h)) by (rewrite Q; now left). apply filter_In in I as [I S]. apply Nat.eqb_eq in S. subst sid.
    destruct (Who e I) as [cn Hc]. congruence.
Qed.
Lemma sum_ones {A} (l : list A) : sum (map (fun _ => 1%Z) l) = Z.of_nat (length l).
Proof. induction l as [|x l IH]; [reflexivity|]. cbn [map sum fold_right length]. fold (sum (map (fun _ : A => 1%Z) l)). rewrite IH. lia. Qed.
Lemma no_more_lines ls N h : (forall j, exists more, ls j = lines_in j h ++ more) -> (forall sid, N <= sid -> ls sid = [])%nat -> (length h <= length (flat_map ls (seq 0 N)))%nat.
Proof.
  intros Pre Nl. assert (Sid : forall e, In e h -> (e_sid e < N)%nat).
  { intros e He. destruct (Nat.lt_ge_cases (e_sid e) N) as [|Ge]; auto. destruct (Pre (e_sid e)) as (more & E). rewrite (Nl _ Ge) in E.
    assert (I : In (e_line e) (lines_in (e_sid e) h)) by (unfold lines_in; apply in_map, filter_In; split; auto; apply Nat.eqb_refl).
    symmetry in E. apply app_eq_nil in E as [E _]. rewrite E in I. destruct I. }
  assert (X : (sum (map (fun _ => 1%Z) (map e_line h)) <= sum (map (fun _ => 1%Z) (flat_map ls (seq 0 N))))%Z).
  { rewrite (sum_by_session (fun _ => 1%Z) N h Sid), sum_flat. apply sum_le. intros j _. destruct (Pre j) as (more & ->). rewrite map_app, sum_app.
    assert (Z := sum_nonneg (fun _ => 1%Z) ltac:(intros; lia) more). lia. }
  rewrite !sum_ones, map_length in X. lia.
Qed.
Lemma total_bound P w l k m : Spec_Origin.total P w l k -> (forall x, In x l -> w x <= m)%nat -> (k <= length l * m)%nat.
Proof.
  induction 1 as [|l k x T IH Hx|l k x T IH Hx]; intros F; [cbn; lia| |]; rewrite app_length; cbn [length]; assert (Y : (k <= length l * m)%nat) by (apply IH; intros y Hy; apply F, in_or_app; now left);
    assert (Z := F x ltac:(apply in_or_app; right; now left)); nia.
Qed.
Lemma room_short p x m : (forall v, x = OStr v -> length v < m)%nat -> (room p x <= 43 + places p + 2 * m)%nat.
Proof. intros H. destruct x as [b|ch|z|f|v]; cbn [room]; try lia. specialize (H v eq_refl). lia. Qed.
Lemma sum_short {A} (f : A -> nat) b l : (forall x, In x l -> f x <= b)%nat -> (list_sum (map f l) <= length l * b)%nat.
Proof.
  induction l as [|x l IH]; intros H; [cbn; lia|]. cbn [map list_sum fold_right length]. change (fold_right Nat.add 0%nat (map f l)) with (list_sum (map f l)).
  assert (Y := IH ltac:(intros; apply H; now right)). assert (Z := H x ltac:(now left)). lia.
Qed.
Lemma reached_no_newline srt pw lines c : Spec_Origin.reached_by srt pw lines c -> (forall l, In l lines -> ~ In NEWLINE l) -> reachable_by_lines srt pw c.
Proof.
  induction 1 as [o p t q H|lines c s line c' s' ans R IH X]; intros F; [now constructor|]. eapply line_step; [|apply IH|exact X].
  - apply F, in_or_app. right. now left.
  - intros l Hl. apply F, in_or_app. now left.
Qed.
Lemma few_small srt pw lines c L m : sort_contract srt -> Spec_Origin.reached_by srt pw lines c -> (forall l, In l lines -> ~ In NEWLINE l) ->
  (length lines <= L)%nat -> (forall l, In l lines -> length l <= m)%nat -> (- 2 ^ 31 <= float_precision c <= 65000)%Z ->
  (3 + L * (90 + 2 * places (float_precision c) + 4 * m) <= LIMIT)%nat -> small c.
Proof.
  intros K R NL Len Short P Lim. assert (RL := reached_no_newline _ _ _ _ R NL).
  assert (Card : forall n i, lookup c n = Some i -> (Spec_Origin.cardinal i + 1 <= L)%nat).
  { intros n i H. destruct (Props_Origin.C62_elements_were_inserted srt pw lines c n i K R H) as (b & l & a & k & E & _ & _ & T & C).
    apply (total_bound _ _ _ _ 1) in T; [|intros; apply Nat.le_refl]. rewrite E, app_length in Len. cbn [length] in Len. lia. }
  assert (Q : forall n i, lookup c n = Some i -> (forall v, In (OStr v) (Spec_Origin.texts i) -> length v < m)%nat).
  { intros n i H v Hv. destruct (Props_Origin.C62_length_of_texts srt pw lines c n i K R H) as (_ & X & _). destruct (X v Hv) as (l & Hl & Lv). specialize (Short l Hl). lia. }
  assert (Room : forall n i, lookup c n = Some i -> (variable_room (float_precision c) i <= 2 + L * (90 + 2 * places (float_precision c) + 4 * m))%nat).
  { intros n i H. assert (C := Card n i H). specialize (Q n i H). set (pl := places (float_precision c)).
    destruct i as [x|t v|t v|kt vt d]; cbn [variable_room Spec_Origin.cardinal Spec_Origin.texts] in *.
    - assert (Y : (room (float_precision c) x <= 43 + pl + 2 * (L * m) )%nat).
      { apply room_short. intros v ->. destruct (Props_Origin.C62_length_of_texts srt pw lines c n _ K R H) as (_ & _ & X). destruct (X v eq_refl) as (b & l & a & k & E & _ & T & Lv).
        apply (total_bound _ _ _ _ m) in T; [|intros y Hy; apply Short; rewrite E; apply in_or_app; right; now right].
        assert (Sl : (length l <= m)%nat) by (apply Short; rewrite E; apply in_elt). rewrite E, app_length in Len. cbn [length] in Len. nia. }
      nia.
    - assert (Y := sum_short (fun x => 1 + room (float_precision c) x)%nat (44 + pl + 2 * m) v). assert (Z : (list_sum (map (fun x => 1 + room (float_precision c) x)%nat v) <= length v * (44 + pl + 2 * m))%nat).
      { apply Y. intros x Hx. assert (W := room_short (float_precision c) x m). fold pl in W. enough (room (float_precision c) x <= 43 + pl + 2 * m)%nat by lia. apply W. intros u ->. auto. }
      nia.
    - assert (Y := sum_short (fun x => 1 + room (float_precision c) x)%nat (44 + pl + 2 * m) v). assert (Z : (list_sum (map (fun x => 1 + room (float_precision c) x)%nat v) <= length v * (44 + pl + 2 * m))%nat).
      { apply Y. intros x Hx. assert (W := room_short (float_precision c) x m). fold pl in W. enough (room (float_precision c) x <= 43 + pl + 2 * m)%nat by lia. apply W. intros u ->. auto. }
      nia.
    - assert (Y := sum_short (fun q => 4 + room (float_precision c) (fst q) + room (float_precision c) (snd q))%nat (90 + 2 * pl + 4 * m) d).
      assert (Z : (list_sum (map (fun q => 4 + room (float_precision c) (fst q) + room (float_precision c) (snd q))%nat d) <= length d * (90 + 2 * pl + 4 * m))%nat).
      { apply Y. intros [k x] Hx. cbn [fst snd]. assert (W1 := room_short (float_precision c) k m). assert (W2 := room_short (float_precision c) x m). fold pl in W1, W2.
        enough (room (float_precision c) k <= 43 + pl + 2 * m /\ room (float_precision c) x <= 43 + pl + 2 * m)%nat by lia. split; [apply W1|apply W2]; intros u ->; apply Q, in_or_app.
        - left. apply (in_map fst) in Hx. exact Hx.
        - right. apply (in_map snd) in Hx. exact Hx. }
      nia. }
  assert (L10 : (L <= 10922)%nat).
  { assert (E1 : Z.of_nat LIMIT = 65536%Z) by (vm_compute; reflexivity). set (k := 10922%nat). assert (E2 : Z.of_nat k = 10922%Z) by (vm_compute; reflexivity).
    assert (L * 90 <= L * (90 + 2 * places (float_precision c) + 4 * m))%nat by (apply Nat.mul_le_mono_l; lia). clearbody k. generalize dependent LIMIT. intros lim Lim E1. lia. }
  assert (Under : forall x, (x <= 2 + L * (90 + 2 * places (float_precision c) + 4 * m))%nat -> (x < 65536)%nat).
  { intros x Hx. fold LIMIT. apply (Nat.lt_le_trans _ (3 + L * (90 + 2 * places (float_precision c) + 4 * m))); [|exact Lim]. clear - Hx. lia. }
  clear Lim. constructor.
  - intros n i g H T. apply Under. assert (Y := storable_room _ _ _ (Props_Storable.C57_only_storable_values srt pw c n i K RL H) T). specialize (Room n i H). clear - Y Room. lia.
  - intros n t v H. apply Card in H. cbn [Spec_Origin.cardinal] in H. apply (Nat.le_trans _ L); [|exact L10]. clear - H. lia.
  - intros names I E. apply Under. clear Under L10. rewrite len_listing.
    assert (Nn : (length names <= L)%nat).
    { assert (W := Props_Origin.C62_size_of_the_data srt pw lines c names K R (increasing_NoDup _ I)).
      assert (length names <= list_sum (map (Spec_Origin.weight c) names))%nat; [|lia]. assert (Al : forall n, In n names -> live c n) by (intros; now apply E). clear - Al.
      induction names as [|n names IH]; [cbn; lia|]. cbn [length map list_sum fold_right]. change (fold_right Nat.add 0%nat) with list_sum.
      assert (Y := IH ltac:(intros; apply Al; now right)). assert (Z := Al n ltac:(now left)). unfold live in Z. unfold Spec_Origin.weight at 1. destruct (lookup c n); [lia|contradiction]. }
    assert (Ln : (lens names <= length names * m)%nat).
    { assert (Al : forall n, In n names -> (length n <= m)%nat).
      { intros n Hn. apply E in Hn. unfold live in Hn. destruct (lookup c n) as [i|] eqn:H; [|contradiction].
        destruct (Props_Origin.C62_length_of_texts srt pw lines c n i K R H) as ((l & Hl & X) & _). specialize (Short l Hl). lia. }
      clear - Al. induction names as [|n names IH]; [cbn; lia|]. cbn [lens length]. assert (Y := IH ltac:(intros; apply Al; now right)). assert (Z := Al n ltac:(now left)). lia. }
    destruct (len_joined names) as [Y| ->]; [|cbn; lia]. nia.
  - exact P.
Qed.
Lemma precision_kept srt pw c ss h c' ss' : sort_contract srt -> reachable srt pw c -> serial srt pw c ss h c' ss' ->
  (forall e args, In e h -> ~ statement (e_line e) (B "Context") (B "setFloatPrecision:") args) -> float_precision c' = float_precision c.
Proof.
  intros K R H. induction H as [|h c1 ss1 sid line c2 s2 o H IH P]; intros F; [auto|]. rewrite <- IH; [|intros e args He; apply F, in_or_app; now left].
  assert (R1 := serial_reach _ _ _ _ _ _ _ R H).
  assert (N : forall args, ~ statement line (B "Context") (B "setFloatPrecision:") args) by (intros args; apply (F {| e_sid := sid; e_line := line; e_outcome := o |}), in_or_app; right; now left).
  destruct P as [A1 N1|c' s' ans A1 X C1|c' s' ans A1 X C1]; auto; exact (proj1 (Props_Float.step_settings _ _ _ _ _ _ _ _ K R1 X) N).
Qed.
Theorem C89_few_short_lines : forall srt pw pol A opened precision tol is_quiet es N ls rest L m, sort_contract srt -> single_precision tol ->
  let c0 := new_context opened precision tol is_quiet in
  (pol = ToleranceZero -> finite tol /\ value tol = 0%R) -> (- 2 ^ 31 <= precision <= 65000)%Z ->
  (forall sid, lines_of (arrived es sid) (ls sid) (rest sid)) -> (forall sid, N <= sid -> ls sid = [])%nat ->
  (forall sid line, In line (ls sid) -> cautious pol A line /\ (length line <= m)%nat /\ forall args, ~ statement line (B "Context") (B "setFloatPrecision:") args) ->
  (length (flat_map ls (seq 0 N)) <= L)%nat -> (3 + L * (90 + 2 * places precision + 4 * m) <= 65536)%nat -> roomy es ->
  sv_crash (run srt (start pw c0) es) = None.
Proof.
  intros srt pw pol A opened precision tol is_quiet es N ls rest L m K St c0 Tz Pr Ls Nl Al Tot Lim Ro.
  assert (R : reachable srt pw c0) by (now constructor).
  apply (C89_a_server_that_does_not_fail srt pw pol A c0 es K R); auto.
  - now apply C83_a_fresh_server_is_tame.
  - intros sid line (l2 & r2 & L2 & I). destruct (lines_of_unique _ _ _ _ _ L2 (Ls sid)) as [-> _]. exact (proj1 (Al sid line I)).
  - intros es1 es2 E C. destruct (Props_Origin.C62_of_a_server srt pw opened precision tol is_quiet es1 St C) as (h & X & Rb).
    assert (Pre : forall j, exists more, ls j = lines_in j h ++ more) by (intros j; eapply first_of_the_lines; [exact X|]; rewrite <- E; apply Ls).
    assert (In1 : forall e, In e h -> In (e_line e) (ls (e_sid e))).
    { intros e He. destruct (Pre (e_sid e)) as (more & ->). apply in_or_app. left. apply in_map, filter_In. split; auto. apply Nat.eqb_refl. }
    assert (In2 : forall l, In l (Spec_Origin.executed_lines h) -> exists e, In e h /\ e_line e = l).
    { intros l Hl. apply in_flat_map in Hl as (e & He & Hl). exists e. split; auto. destruct (e_outcome e); cbn [In] in Hl; tauto. }
    assert (Ln : (length (Spec_Origin.executed_lines h) <= length h)%nat).
    { clear. induction h as [|e h IH]; [cbn; lia|]. cbn [Spec_Origin.executed_lines flat_map]. fold (Spec_Origin.executed_lines h). rewrite app_length. cbn [length]. destruct (e_outcome e); cbn [length]; lia. }
    assert (Lh := no_more_lines ls N h Pre Nl).
    assert (Ep : float_precision (sv_ctx (run srt (start pw c0) es1)) = precision).
    { destruct X as (ss & S & _). transitivity (float_precision c0); [|reflexivity]. apply (precision_kept _ _ _ _ _ _ _ K R S). intros e args He. apply (Al (e_sid e)). auto. }
    apply (few_small srt pw (Spec_Origin.executed_lines h) (sv_ctx (run srt (start pw c0) es1)) L m K Rb).
    + intros l Hl. destruct (In2 l Hl) as (e & He & <-). exact (explains_lines _ _ _ _ _ e X He).
    + lia.
    + intros l Hl. destruct (In2 l Hl) as (e & He & <-). apply (Al (e_sid e)). auto.
    + rewrite Ep. exact Pr.
    + rewrite Ep. exact Lim.
Qed.

(** A client makes a vector and puts 7 into it, another reads it: 3 lines of at most 40 bytes, 3 decimal places.  By this theorem 131 lines of at most 100 bytes
    are always few enough. *)
Definition few_lines (sid : nat) : list bytes :=
  match sid with 0 => [B "Vector<Integer> create: v;"; B "v pushBack: 7;"] | 1 => [B "v get;"] | _ => [] end.
Definition speak (sid : nat) (line : bytes) : list event := [Arrive sid (with_newline line); ReadSome sid 1000; Handle sid 65536; WriteDone sid].
Definition few_events : list event := [Accept; Accept] ++ speak 0 (B "Vector<Integer> create: v;") ++ speak 0 (B "v pushBack: 7;") ++ speak 1 (B "v get;").
Example C89_few_ex :
  (forall sid, lines_of (arrived few_events sid) (few_lines sid) []) /\ (forall sid, 2 <= sid -> few_lines sid = []) /\
  (forall sid line, In line (few_lines sid) -> cautious NoFloatContainers (fun _ => False) line /\ length line <= 40 /\ forall args, ~ statement line (B "Context") (B "setFloatPrecision:") args) /\
  length (flat_map few_lines (seq 0 2)) <= 3 /\ 3 + 3 * (90 + 2 * places 3 + 4 * 40) <= 65536 /\ roomy few_events /\ 3 + 131 * (90 + 2 * places 3 + 4 * 100) <= 65536 /\
  map c_sent (sv_conns (run insertion_sort (start [] empty_server) few_events)) = [flat_map with_newline [B "null"; B "null"]; with_newline (B "[7]")].
Proof.
  split; [|split; [|split; [|split; [|split; [|split; [|split]]]]]].
  - intros [|[|sid]]; (split; [vm_compute; reflexivity|]; split; [|intros []]; repeat apply Forall_cons; try apply Forall_nil; vm_compute; intuition discriminate).
  - intros [|[|sid]] H; try lia. reflexivity.
  - assert (M : forall a m args line, statement line a m args ->
      (forall x, In x args -> ~ out_of_range x) -> existsb (seq_eqb m) arithmetic_messages = false -> seq_eqb a (B "Integer") = false -> no_float_container a = true ->
      cautious NoFloatContainers (fun _ => False) line).
    { intros a m args line Hs H1 H2 H3 H4 a2 m2 args2 Hs2. destruct (statement_unique _ _ _ _ _ _ _ Hs Hs2) as (<- & <- & <-). split; [exact H1|]. split.
      - intros X. exfalso. rewrite <- Bool.not_true_iff_false, existsb_exists in H2. apply H2. exists m. split; auto. apply Lemmas.seq_eqb_refl.
      - split; [intros ->; vm_compute in H3; discriminate H3|]. exact (no_float_container_of _ H4). }
    intros [|[|sid]] line H; cbn [few_lines In] in H; repeat destruct H as [<-|H]; try (now destruct H); (split; [|split; [apply Nat.leb_le; vm_compute; reflexivity|intros args; nostmt]]).
    + eapply (M (B "Vector<Integer>") (B "create:") [B "v"]); [stmt| |reflexivity..]. intros x [<-|[]]. apply in_range_of. vm_compute. exact I.
    + eapply (M (B "v") (B "pushBack:") [B "7"]); [stmt| |reflexivity..]. intros x [<-|[]]. apply in_range_of. vm_compute. exact I.
    + eapply (M (B "v") (B "get") []); [stmt| |reflexivity..]. intros x [].
  - apply Nat.leb_le. vm_compute. reflexivity.
  - apply Nat.leb_le. vm_compute. reflexivity.
  - intros sid k Hin. cbn [few_events app speak In] in Hin. repeat destruct Hin as [Hin|Hin]; try discriminate Hin; try (injection Hin as _ <-; apply Nat.le_refl); destruct Hin.
  - apply Nat.leb_le. vm_compute. reflexivity.
  - vm_compute. reflexivity.
Qed.
Print Assumptions C89_few_short_lines.
