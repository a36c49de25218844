(** Property C72: linearizability.  Specification: [Spec_Linear], [Spec_Server]. *)
From Verif Require Import Bytes StrUtils Grammar Outcome Parser Num Containers Instance Context Server Platform.
From Verif Require Import Lemmas StringLit Proof_Grammar Proof_Parser Proof_Exec Proof_Inv Proof_Literal Proof_Receive Proof_Context Proof_Names Api Proof_Text Props_State Props_Text Proof_Server Props_Server Proof_Order Props_Alone.
From Verif Require Import Spec_Grammar Spec_State Spec_Names Spec_Text Spec_Server Spec_Alone Spec_Linear.
Local Open Scope nat_scope.
Local Open Scope list_scope.

Lemma history_of srt pw c0 es : sv_crash (run srt (start pw c0) es) = None ->
  exists H, explains srt pw c0 es H /\ forall es1 es2, es = es1 ++ es2 -> exists h1 h2, H = h1 ++ h2 /\ explains srt pw c0 es1 h1.
Proof.
  intros Hc. enough (W : exists H ss, inv srt pw c0 es H (run srt (start pw c0) es) ss /\
    forall es1 es2, es = es1 ++ es2 -> exists h1 h2, H = h1 ++ h2 /\ explains srt pw c0 es1 h1).
  { destruct W as (H & ss & I & P). exists H. split; [eapply inv_explains; eauto|exact P]. }
  induction es as [|e es IH] using rev_ind.
  - exists [], (fun _ => fresh pw). split; [apply inv_start|]. intros es1 es2 E. symmetry in E. apply app_eq_nil in E as [-> ->].
    exists [], []. split; auto. eapply inv_explains. apply inv_start.
  - destruct (IH (uncrashed_prefix _ _ _ _ Hc)) as (H & ss & I & P).
    destruct (inv_extend srt pw c0 es [e] H ss I Hc) as (h' & ss' & I'). exists (H ++ h'), ss'. split; [exact I'|].
    intros es1 es2 E. destruct (snoc_split es2) as [->|(es2' & x & ->)].
    + rewrite app_nil_r in E. subst es1. exists (H ++ h'), []. split; [now rewrite app_nil_r|]. eapply inv_explains; eauto.
    + rewrite app_assoc in E. apply app_inj_tail in E as [E _]. destruct (P _ _ E) as (h1 & h2 & -> & X).
      exists h1, (h2 ++ h'). split; [now rewrite app_assoc|exact X].
Qed.

Lemma nth_entry sid L : forall i e, nth_error (entries_of sid L) i = Some e -> exists before, executed_at L sid i before e.
Proof.
  induction L as [|x L IH]; intros i e Hn; [destruct i; discriminate Hn|]. unfold entries_of in Hn. cbn [filter] in Hn.
  destruct (e_sid x =? sid) eqn:Ex.
  - destruct i as [|i].
    + injection Hn as ->. exists []. split; [exists L; reflexivity|]. split; [now apply Nat.eqb_eq|reflexivity].
    + destruct (IH i e Hn) as (b & (a & ->) & S & N). exists (x :: b). split; [exists a; reflexivity|]. split; auto.
      unfold entries_of. cbn [filter]. rewrite Ex. cbn. f_equal. exact N.
  - destruct (IH i e Hn) as (b & (a & ->) & S & N). exists (x :: b). split; [exists a; reflexivity|]. split; auto.
    unfold entries_of. cbn [filter]. rewrite Ex. exact N.
Qed.
Lemma executed_nth h sid i before e : executed_at h sid i before e -> nth_error (entries_of sid h) i = Some e.
Proof.
  intros ((a & ->) & S & N). rewrite entries_app. rewrite nth_error_app2 by (rewrite N; auto). rewrite N, Nat.sub_diag.
  unfold entries_of. cbn [filter]. rewrite S, Nat.eqb_refl. reflexivity.
Qed.

Lemma nth_answer L : (forall before e after, L = before ++ e :: after -> closes e -> after = []) ->
  forall i ans, nth_error (flat_map (fun e => answer_to (e_outcome e)) L) i = Some ans -> exists e, nth_error L i = Some e /\ answer_to (e_outcome e) = [ans].
Proof.
  induction L as [|x L IH]; intros C i ans Hn; [destruct i; discriminate Hn|]. cbn [flat_map] in Hn.
  assert (C' : forall before e after, L = before ++ e :: after -> closes e -> after = []).
  { intros b e a E Ce. apply (C (x :: b) e a); auto. now rewrite E. }
  assert (W : forall a, answer_to (e_outcome x) = [a] -> exists e, nth_error (x :: L) i = Some e /\ answer_to (e_outcome e) = [ans]).
  { intros a E. rewrite E in Hn. destruct i as [|i]; [|cbn [app nth_error] in Hn; exact (IH C' i ans Hn)].
    cbn in Hn. injection Hn as <-. exists x. split; [reflexivity|exact E]. }
  destruct (e_outcome x) as [|a|a] eqn:Eo; cbn [answer_to] in Hn.
  - apply (W ERR_NOT_AUTH). reflexivity.
  - apply (W a). reflexivity.
  - assert (E : L = []) by (apply (C [] x L); [reflexivity|now exists a]). rewrite E in Hn. destruct i; discriminate Hn.
Qed.

Section One.
Context (srt : sorter) (pw : bytes) (c0 : context) (es : list event) (h : list entry) (X : explains srt pw c0 es h).
Context (Hs : sort_contract srt) (R : reachable_by_lines srt pw c0).

Lemma answer_entry sid i ans : has_answer srt pw c0 es sid i ans -> exists e, nth_error (entries_of sid h) i = Some e /\ answer_to (e_outcome e) = [ans].
Proof using X Hs R.
  intros (cn & ls & rest & Hn & L & E). assert (N := fun e => explains_lines _ _ _ _ _ e X). destruct X as (ss & S & _ & C).
  destruct (C _ _ Hn) as [_ [_ _ O Cl _]]. assert (Ls : lines_of (c_sent cn) (answers_in sid h) []).
  { rewrite O. split; [now rewrite app_nil_r|]. split; [|intros []]. apply Forall_forall. intros a Ha. unfold answers_in in Ha.
    apply in_flat_map in Ha as (e & He & Ha). apply filter_In in He as [He _]. exact (answers_clean srt pw _ _ _ _ _ Hs S N R e a He Ha). }
  destruct (lines_of_unique _ _ _ _ _ L Ls) as [-> _]. apply nth_answer; auto.
Qed.
Lemma entry_sent sid i e : nth_error (entries_of sid h) i = Some e -> has_sent es sid i (e_line e).
Proof using X.
  intros Hn. destruct (lines_of_exists (arrived es sid)) as (ls & rest & L). exists ls, rest. split; auto.
  assert (He : In e h /\ e_sid e = sid).
  { apply nth_error_In in Hn. apply filter_In in Hn as [A B]. split; auto. now apply Nat.eqb_eq. }
  destruct He as [He <-]. assert (W := X). destruct W as (ss & _ & W & _). destruct (W e He) as (cn & Hc).
  destruct (C33_executed_lines_are_the_lines_of_the_stream srt pw c0 es h (e_sid e) cn ls rest X Hc L) as (wt & -> & _).
  rewrite nth_error_app1.
  - unfold lines_in. rewrite nth_error_map, Hn. reflexivity.
  - unfold lines_in. rewrite map_length. apply nth_error_Some. congruence.
Qed.
End One.

Lemma past_of b h1 h2 : forall before2 e2 a2 j, length (entries_of b h1) <= j -> length (entries_of b before2) = j -> e_sid e2 = b ->
  before2 ++ e2 :: a2 = h1 ++ h2 -> exists m, before2 = h1 ++ m.
Proof.
  induction h1 as [|x h1 IH]; intros before2 e2 a2 j W2 L2 S2 Q; [now exists before2|]. destruct before2 as [|y before2].
  - exfalso. injection Q as Q1 Q2. subst x. unfold entries_of in W2, L2. cbn [filter] in W2. rewrite S2, Nat.eqb_refl in W2.
    cbn in W2, L2. subst j. inversion W2.
  - injection Q as Q1 Q2. subst y. unfold entries_of in W2, L2. cbn [filter] in W2, L2. destruct (e_sid x =? b).
    + cbn in W2, L2. destruct j as [|j]; [inversion W2|]. apply le_S_n in W2. injection L2 as L2.
      destruct (IH before2 e2 a2 j W2 L2 S2 Q2) as (m & ->). now exists m.
    + destruct (IH before2 e2 a2 j W2 L2 S2 Q2) as (m & ->). now exists m.
Qed.

(** ** C72: as if every line were executed at one moment between its arrival and its answer *)
Theorem C72_linearizable : forall srt pw c0 es, sort_contract srt -> reachable_by_lines srt pw c0 -> sv_crash (run srt (start pw c0) es) = None ->
  exists h, explains srt pw c0 es h /\
    (forall a i ans, has_answer srt pw c0 es a i ans -> exists before e, executed_at h a i before e /\ answer_to (e_outcome e) = [ans]) /\
    (forall a i before e, executed_at h a i before e -> has_sent es a i (e_line e)) /\
    (forall es1 es2 a i ans b j before1 e1 before2 e2, es = es1 ++ es2 ->
       has_answer srt pw c0 es1 a i ans -> (forall line, ~ has_sent es1 b j line) ->
       executed_at h a i before1 e1 -> executed_at h b j before2 e2 -> exists between, before2 = before1 ++ e1 :: between).
Proof.
  intros srt pw c0 es Hs R Hc. destruct (history_of srt pw c0 es Hc) as (h & X & P). exists h. split; [exact X|]. split; [|split].
  - intros a i ans A. destruct (answer_entry srt pw c0 es h X Hs R a i ans A) as (e & E & F). destruct (nth_entry _ _ _ _ E) as (b & Hb). eauto.
  - intros a i b e He. apply executed_nth in He. exact (entry_sent srt pw c0 es h X a i e He).
  - intros es1 es2 a i ans b j before1 e1 before2 e2 E A N H1 H2. destruct (P _ _ E) as (h1 & h2 & Eh & X1).
    destruct (answer_entry srt pw c0 es1 h1 X1 Hs R a i ans A) as (e & Ee & _). destruct (nth_entry _ _ _ _ Ee) as (b1 & (a1 & E1) & S1 & L1).
    (* e1 is executed within h1 *)
    assert (W1 : b1 = before1 /\ e = e1).
    { destruct H1 as ((a1' & E1') & S1' & L1').
      assert (Q : b1 ++ e :: (a1 ++ h2) = before1 ++ e1 :: a1') by (rewrite <- E1', Eh, E1, <- app_assoc; reflexivity).
      clear - Q S1 S1' L1 L1'. revert i before1 L1 L1' Q. induction b1 as [|x b1 IH]; intros i before1 L1 L1' Q; destruct before1 as [|y before1].
      - injection Q as ->. auto.
      - injection Q as Q1 Q2. subst y. exfalso. unfold entries_of in L1, L1'. cbn [filter] in L1'. rewrite S1, Nat.eqb_refl in L1'. cbn in L1, L1'. congruence.
      - injection Q as Q1 Q2. subst x. exfalso. unfold entries_of in L1, L1'. cbn [filter] in L1. rewrite S1', Nat.eqb_refl in L1. cbn in L1, L1'. congruence.
      - injection Q as Q1 Q2. subst y. unfold entries_of in L1, L1'. cbn [filter] in L1, L1'. destruct (e_sid x =? a).
        + cbn in L1, L1'. destruct i as [|i]; [discriminate L1|]. injection L1 as L1. injection L1' as L1'.
          destruct (IH i before1 L1 L1' Q2) as [-> ->]. auto.
        + destruct (IH i before1 L1 L1' Q2) as [-> ->]. auto. }
    destruct W1 as [-> ->].
    (* e2 is executed after h1 *)
    assert (W2 : length (entries_of b h1) <= j).
    { destruct (Nat.le_gt_cases (length (entries_of b h1)) j) as [|G]; auto. exfalso.
      destruct (nth_error (entries_of b h1) j) as [e'|] eqn:En; [|apply nth_error_None in En; apply Nat.le_ngt in En; auto].
      exact (N _ (entry_sent srt pw c0 es1 h1 X1 b j e' En)). }
    destruct H2 as ((a2 & E2) & S2 & L2).
    assert (W3 : exists m, before2 = h1 ++ m).
    { assert (Q : before2 ++ e2 :: a2 = h1 ++ h2) by congruence. exact (past_of b h1 h2 before2 e2 a2 j W2 L2 S2 Q). }
    destruct W3 as (m & ->). exists (a1 ++ m). now rewrite E1, <- app_assoc.
Qed.

Lemma serial_split srt pw c ss h1 : forall h2 c2 ss2, serial srt pw c ss (h1 ++ h2) c2 ss2 ->
  exists c1 ss1, serial srt pw c ss h1 c1 ss1 /\ serial srt pw c1 ss1 h2 c2 ss2.
Proof.
  induction h2 as [|e h2 IH] using rev_ind; intros c2 ss2 H.
  - rewrite app_nil_r in H. exists c2, ss2. split; auto. constructor.
  - rewrite app_assoc in H. apply serial_snoc_inv in H as (c1 & ss1 & s2 & H & P & ->). destruct (IH _ _ H) as (c0 & ss0 & A & A2).
    exists c0, ss0. split; auto. destruct e as [sid line o]. cbn [e_sid e_line e_outcome] in *. exact (serial_more _ _ _ _ _ _ _ _ _ _ _ _ A2 P).
Qed.
Lemma serial_foreign srt pw N c ss h c' ss' : sort_contract srt -> reachable_by_lines srt pw c -> serial srt pw c ss h c' ss' ->
  (forall e, In e h -> ~ In NEWLINE (e_line e)) -> (forall e, In e h -> foreign N (e_line e)) -> agree N c c'.
Proof.
  intros Hs R. induction 1 as [|h c1 ss1 sid line c2 s2 o H IH P]; intros Nl F; [split; [auto|split; reflexivity]|].
  assert (Nl' : forall e, In e h -> ~ In NEWLINE (e_line e)) by (intros e He; apply Nl; apply in_or_app; now left).
  assert (R1 := serial_reachable _ _ _ _ _ _ _ H Nl' R).
  destruct (IH Nl' (fun e He => F e (in_or_app _ _ _ (or_introl He)))) as [L [A1 A2]].
  assert (Fl : foreign N line).
  { apply (F {| e_sid := sid; e_line := line; e_outcome := o |}). apply in_or_app. right. now left. }
  destruct (processes_foreign srt pw N c1 (ss1 sid) line c2 s2 o Hs (by_lines_reachable _ _ _ R1) (fun _ => Fl) P) as [L2 [B1 B2]].
  split; [intros n Hn; rewrite L2, L; auto|]. split; congruence.
Qed.
Lemma processes_private srt pw N c d s line c' s' o : sort_contract srt -> reachable srt pw c -> reachable srt pw d -> agree N c d -> private N line ->
  processes srt pw c s line c' s' o -> exists d', processes srt pw d s line d' s' o /\ agree N c' d'.
Proof.
  intros Hs Rc Rd A Pr P. inversion P as [Au Nc|c1 s1 ans Au Rn Cn|c1 s1 ans Au Rn Cn]; subst.
  - exists d. split; auto. now constructor.
  - destruct (private_step srt pw N c d (Some s) line c' (Some s') ans Hs Rc Rd A Pr Rn) as (d' & Rn' & A'). exists d'. split; auto. now constructor.
  - destruct (private_step srt pw N c d (Some s) line c' (Some s') ans Hs Rc Rd A Pr Rn) as (d' & Rn' & A'). exists d'. split; auto. now constructor.
Qed.

(** Once a client has the answer to a line [a, i], a line [b, j] that any client then begins to send is answered as if it were executed
    right after it, if no other line concerns the variables it is about. *)
Theorem C72_answered_lines_are_seen : forall srt pw N c0 es1 es2 a i answer1 b j answer2,
  let es := es1 ++ es2 in
  sort_contract srt -> reachable_by_lines srt pw c0 -> sv_crash (run srt (start pw c0) es) = None ->
  has_answer srt pw c0 es1 a i answer1 -> (forall line, ~ has_sent es1 b j line) -> has_answer srt pw c0 es b j answer2 ->
  (forall line, has_sent es b j line -> private N line) ->
  (forall k x line, has_sent es k x line -> (k, x) <> (a, i) -> (k, x) <> (b, j) -> foreign N line) ->
  exists c line1 s1 c1 s1' o1 line2 s2 c2 s2' o2, reachable_by_lines srt pw c /\
    has_sent es a i line1 /\ processes srt pw c s1 line1 c1 s1' o1 /\ answer_to o1 = [answer1] /\
    has_sent es b j line2 /\ processes srt pw c1 s2 line2 c2 s2' o2 /\ answer_to o2 = [answer2].
Proof.
  intros srt pw N c0 es1 es2 a i answer1 b j answer2 es Hs R Hc A1 Ns A2 Pr F.
  destruct (history_of srt pw c0 es Hc) as (h & X & P).
  assert (Nl := fun e => explains_lines _ _ _ _ _ e X).
  destruct (P es1 es2 eq_refl) as (h1 & h2 & Eh & X1).
  destruct (answer_entry srt pw c0 es1 h1 X1 Hs R a i answer1 A1) as (e1 & En1 & An1).
  destruct (nth_entry _ _ _ _ En1) as (b1 & (a1 & E1) & S1 & L1).
  destruct (answer_entry srt pw c0 es h X Hs R b j answer2 A2) as (e2 & En2 & An2).
  destruct (nth_entry _ _ _ _ En2) as (b2 & X2).
  assert (X0 : executed_at h a i b1 e1).
  { split; [|split; auto]. exists (a1 ++ h2). now rewrite Eh, E1, <- app_assoc. }
  assert (Q : exists m, b2 = h1 ++ m).
  { destruct X2 as ((a2 & E2) & S2 & L2). assert (W2 : length (entries_of b h1) <= j).
    { destruct (Nat.le_gt_cases (length (entries_of b h1)) j) as [|G]; auto. exfalso.
      destruct (nth_error (entries_of b h1) j) as [e'|] eqn:En; [|apply nth_error_None in En; apply Nat.le_ngt in En; auto].
      exact (Ns _ (entry_sent srt pw c0 es1 h1 X1 b j e' En)). }
    assert (Qe : b2 ++ e2 :: a2 = h1 ++ h2) by congruence. exact (past_of b h1 h2 b2 e2 a2 j W2 L2 S2 Qe). }
  destruct Q as (m & Eb2). assert (E2 : b2 = b1 ++ e1 :: (a1 ++ m)) by (rewrite Eb2, E1, <- app_assoc; reflexivity).
  destruct X2 as ((a2 & Ea2) & S2 & L2).
  assert (T1 : has_sent es a i (e_line e1)) by (eapply entry_sent; [exact X|]; apply (executed_nth h a i b1 e1 X0)).
  assert (T2 : has_sent es b j (e_line e2)) by (eapply entry_sent; [exact X|exact En2]).
  assert (Bt : forall e, In e (a1 ++ m) -> In e h /\ foreign N (e_line e)).
  { intros e He. apply in_split in He as (u & v & Euv).
    assert (Xe : executed_at h (e_sid e) (length (entries_of (e_sid e) (b1 ++ e1 :: u))) (b1 ++ e1 :: u) e).
    { split; [|split; auto]. exists (v ++ e2 :: a2). rewrite Ea2, E2, Euv, <- !app_assoc. cbn. rewrite <- app_assoc. reflexivity. }
    split. { destruct Xe as ((q & ->) & _). apply in_or_app. right. now left. }
    apply (F (e_sid e) (length (entries_of (e_sid e) (b1 ++ e1 :: u)))).
    - eapply entry_sent; [exact X|]. exact (executed_nth _ _ _ _ _ Xe).
    - intros Eq. injection Eq as Eq1 Eq2. rewrite Eq1, entries_app in Eq2. unfold entries_of at 2 in Eq2. cbn [filter] in Eq2.
      rewrite S1, Nat.eqb_refl, app_length in Eq2. cbn in Eq2. lia.
    - intros Eq. injection Eq as Eq1 Eq2. rewrite Eq1 in Eq2. rewrite E2, Euv in L2.
      assert (Er : b1 ++ e1 :: (u ++ e :: v) = (b1 ++ e1 :: u) ++ e :: v) by (rewrite <- app_assoc; reflexivity).
      rewrite Er, entries_app in L2. unfold entries_of at 2 in L2. cbn [filter] in L2. rewrite Eq1, Nat.eqb_refl, app_length in L2. cbn in L2. lia. }
  assert (Sr : exists ce sse, serial srt pw c0 (fun _ => fresh pw) h ce sse) by (destruct X as (ss & S & _); eauto).
  destruct Sr as (ce & sse & Sr). rewrite Ea2, E2 in Sr.
  replace ((b1 ++ e1 :: (a1 ++ m)) ++ e2 :: a2) with (((b1 ++ [e1]) ++ (a1 ++ m) ++ [e2]) ++ a2) in Sr
    by (rewrite <- !app_assoc; cbn [app]; rewrite <- !app_assoc; reflexivity).
  destruct (serial_split _ _ _ _ _ _ _ _ Sr) as (cy & ssy & Sy & _). destruct (serial_split _ _ _ _ _ _ _ _ Sy) as (c1 & ss1 & Sx & Sm).
  apply serial_snoc_inv in Sx as (c & ssc & s1' & Sb & P1 & _). apply serial_snoc_inv in Sm as (c2' & ss2' & s2' & Sm & P2 & _).
  assert (Nb : forall e, In e b1 -> ~ In NEWLINE (e_line e)).
  { intros e He. apply Nl. destruct X0 as ((q & ->) & _). apply in_or_app. now left. }
  assert (Rc := serial_reachable _ _ _ _ _ _ _ Sb Nb R).
  assert (N1 : ~ In NEWLINE (e_line e1)).
  { apply Nl. destruct X0 as ((q & ->) & _). apply in_or_app. right. now left. }
  assert (R1 := processes_reachable _ _ _ _ _ _ _ _ N1 Rc P1).
  assert (Nm : forall e, In e (a1 ++ m) -> ~ In NEWLINE (e_line e)) by (intros e He; apply Nl, Bt, He).
  assert (R2 := serial_reachable _ _ _ _ _ _ _ Sm Nm R1).
  assert (Ag := serial_foreign srt pw N _ _ _ _ _ Hs R1 Sm Nm (fun e He => proj2 (Bt e He))).
  assert (Ag' : agree N c2' c1). { destruct Ag as [G1 [G2 G3]]. split; [intros n Hn; symmetry; auto|]. split; auto. }
  destruct (processes_private srt pw N c2' c1 _ _ _ _ _ Hs (by_lines_reachable _ _ _ R2) (by_lines_reachable _ _ _ R1) Ag' (Pr _ T2) P2) as (c2 & P2' & _).
  exists c, (e_line e1), (ssc (e_sid e1)), c1, s1', (e_outcome e1), (e_line e2), (ss2' (e_sid e2)), c2, s2', (e_outcome e2). repeat split; auto.
Qed.

Lemma lines_are b ls : b = flat_map with_newline ls -> forallb (fun l => negb (has_newline l)) ls = true -> lines_of b ls [].
Proof.
  intros -> N. split; [now rewrite app_nil_r|]. split; [|intros []]. rewrite forallb_forall in N. apply Forall_forall. intros l Hl.
  specialize (N l Hl). apply has_newline_false. now destruct (has_newline l).
Qed.
(** No more than this: of two lines that are both on their way, the one sent later may be executed first.  Client 0 has asked for a
    variable that does not exist; then client 1 begins to send the line that creates it; client 0 gets its value. *)
Theorem C72_first_sent_first_executed_refuted : exists srt pw c0 es1 es2, sort_contract srt /\ reachable_by_lines srt pw c0 /\
  sv_crash (run srt (start pw c0) (es1 ++ es2)) = None /\ (forall n, lookup c0 n = None) /\
  has_sent es1 0 0 (B "x get;") /\ arrived es1 1 = [] /\
  has_sent (es1 ++ es2) 1 0 (B "Integer create: x withValue: 5;") /\ has_answer srt pw c0 (es1 ++ es2) 0 0 (B "5").
Proof.
  exists insertion_sort, [], empty_server, [Accept; Accept; Arrive 0 (with_newline (B "x get;"))],
    ([Arrive 1 (with_newline (B "Integer create: x withValue: 5;")); ReadSome 1 1000; Handle 1 1000; ReadSome 0 1000; Handle 0 1000]).
  split; [apply insertion_sort_contract|]. split; [constructor; reflexivity|]. split; [vm_compute; reflexivity|]. split; [reflexivity|].
  split. { exists [B "x get;"], []. split; [|reflexivity]. apply (lines_are _ [B "x get;"]); vm_compute; reflexivity. }
  split; [reflexivity|].
  split. { exists [B "Integer create: x withValue: 5;"], []. split; [|reflexivity]. apply (lines_are _ [B "Integer create: x withValue: 5;"]); vm_compute; reflexivity. }
  eexists _, [B "5"], []. split; [vm_compute; reflexivity|]. split; [|reflexivity]. apply (lines_are _ [B "5"]); vm_compute; reflexivity.
Qed.

Definition first_events : list event := [Accept; Accept] ++ talk 0 (B "Integer create: a::x withValue: 5;").
Definition later_events : list event :=
  [Arrive 0 (with_newline (B "Integer create: x withValue: 9;")); Arrive 1 (with_newline (B "a::x get;")); ReadSome 1 1000; ReadSome 0 1000; Handle 0 1000; Handle 1 1000].
Lemma sent_iff es sid ls : arrived es sid = flat_map with_newline ls -> forallb (fun l => negb (has_newline l)) ls = true ->
  forall i line, has_sent es sid i line -> nth_error ls i = Some line.
Proof.
  intros E N i line (ls' & rest & L & H). destruct (lines_of_unique _ _ _ _ _ L (lines_are _ _ E N)) as [-> _]. exact H.
Qed.
Lemma silent k i line : ~ has_sent (first_events ++ later_events) (S (S k)) i line.
Proof.
  intros H. assert (E := sent_iff (first_events ++ later_events) (S (S k)) [] (eq_refl _) (eq_refl _) i line H). destruct i; discriminate E.
Qed.
Example C72_ex : let es := first_events ++ later_events in
  sort_contract insertion_sort /\ reachable_by_lines insertion_sort [] empty_server /\ sv_crash (run insertion_sort (start [] empty_server) es) = None /\
  has_answer insertion_sort [] empty_server first_events 0 0 (B "null") /\ (forall line, ~ has_sent first_events 1 0 line) /\
  has_answer insertion_sort [] empty_server es 1 0 (B "5") /\ (forall line, has_sent es 1 0 line -> private in_a line) /\
  (forall k x line, has_sent es k x line -> (k, x) <> (0, 0) -> (k, x) <> (1, 0) -> foreign in_a line).
Proof.
  cbv zeta. split; [apply insertion_sort_contract|]. split; [constructor; reflexivity|]. split; [vm_compute; reflexivity|].
  split. { eexists _, [B "null"], []. split; [vm_compute; reflexivity|]. split; [|reflexivity]. apply (lines_are _ [B "null"]); vm_compute; reflexivity. }
  split. { intros line H. discriminate (sent_iff first_events 1 [] (eq_refl _) (eq_refl _) 0 line H). }
  split. { eexists _, [B "5"], []. split; [vm_compute; reflexivity|]. split; [|reflexivity]. apply (lines_are _ [B "5"]); vm_compute; reflexivity. }
  assert (A0 := sent_iff (first_events ++ later_events) 0 [B "Integer create: a::x withValue: 5;"; B "Integer create: x withValue: 9;"] (eq_refl _) (eq_refl _)).
  assert (A1 := sent_iff (first_events ++ later_events) 1 [B "a::x get;"] (eq_refl _) (eq_refl _)).
  split. { intros line H. apply A1 in H. assert (E : B "a::x get;" = line) by (cbn [nth_error] in H; injection H as H; exact H). rewrite <- E. exact neighbour_7. }
  intros [|[|k]] x line H N0 N1.
  - apply A0 in H. destruct x as [|[|x]]; [congruence| |destruct x; discriminate H]. assert (E : B "Integer create: x withValue: 9;" = line) by (cbn [nth_error] in H; injection H as H; exact H). rewrite <- E. exact neighbour_1.
  - apply A1 in H. destruct x as [|x]; [congruence|destruct x; discriminate H].
  - destruct (silent _ _ _ H).
Qed.
