(** Properties C30, C31, C33, C34, C35, C37, C40, C43, C44, C45: the server as a whole.
    Specification: [Spec_Server] (and [Spec_State], [Spec_Names], [Spec_Text]); model: [Server], [Context].
    [run srt (start pw c0) es]: a server with password [pw], started on data [c0], after the events [es], in any order: new connections,
    arrival of bytes in pieces of any size, reads, handlers, completed writes and failures of any sessions. *)
From Verif Require Import Bytes StrUtils Grammar Outcome Parser Num Containers Instance Context Server Platform.
From Verif Require Import Lemmas StringLit Proof_Grammar Proof_Parser Proof_Exec Proof_Inv Proof_Literal Proof_Receive Proof_Context Proof_Names Api Proof_Text Props_State Props_Text Proof_Server.
From Verif Require Import Spec_Grammar Spec_State Spec_Names Spec_Text Spec_Server.
Local Open Scope nat_scope.
Local Open Scope list_scope.

(** ** C35: every schedule is equivalent to executing the lines one at a time *)
Theorem C35_every_schedule_is_serialisable : forall srt pw c0 es, sv_crash (run srt (start pw c0) es) = None ->
  exists h, explains srt pw c0 es h.
Proof. intros srt pw c0 es H. destruct (inv_exists srt pw c0 es H) as (h & ss & I). exists h. eapply inv_explains; eauto. Qed.
(** The order is the order of processing: what has been done is never reordered by what comes later. *)
Theorem C35_histories_only_grow : forall srt pw c0 es es', sv_crash (run srt (start pw c0) (es ++ es')) = None ->
  exists h h', explains srt pw c0 es h /\ explains srt pw c0 (es ++ es') (h ++ h').
Proof.
  intros srt pw c0 es es' H. destruct (inv_exists srt pw c0 es (uncrashed_prefix _ _ _ _ H)) as (h & ss & I).
  destruct (inv_extend srt pw c0 es es' h ss I H) as (h' & ss' & I'). exists h, h'. split; eapply inv_explains; eauto.
Qed.
(** The order of the lines determines all answers, the data and the sessions. *)
Theorem C35_the_order_determines_everything : forall srt pw c ss h1 h2 c1 ss1 c2 ss2,
  serial srt pw c ss h1 c1 ss1 -> serial srt pw c ss h2 c2 ss2 ->
  map (fun e => (e_sid e, e_line e)) h1 = map (fun e => (e_sid e, e_line e)) h2 -> h1 = h2 /\ c1 = c2 /\ forall k, ss1 k = ss2 k.
Proof. intros. eapply serial_unique; eauto. Qed.
(** All that is proved about data reachable by lines holds for the data of a running server. *)
Theorem C35_server_data_are_reachable : forall srt pw c0 es, reachable_by_lines srt pw c0 ->
  reachable_by_lines srt pw (sv_ctx (run srt (start pw c0) es)).
Proof.
  intros srt pw c0 es H. induction es as [|e es IH] using rev_ind; [exact H|].
  destruct (sv_crash (run srt (start pw c0) (es ++ [e]))) as [u|] eqn:E.
  - destruct (sv_crash (run srt (start pw c0) es)) as [v|] eqn:E'; [rewrite run_snoc, crash_sticky; congruence|].
    rewrite run_snoc in *. destruct (crash_cause _ _ _ _ E' E) as (sid & k & cn & line & -> & Hn & Hp & N & _).
    unfold step in *. rewrite E', Hn, Hp in *. destruct (has_newline (c_streambuf cn)); [|exact IH]. unfold handle in *.
    destruct (handle_line _ _ _ _ _) as [[[c' s'] [r|]]|x|v]; try exact IH; [destruct (do_write r k); try exact IH|]; cbn in E; congruence.
  - destruct (inv_exists srt pw c0 _ E) as (h & ss & I). eapply explains_reachable; eauto. eapply inv_explains; eauto.
Qed.
(** A server in which two sessions work on the same variable. *)
Definition talk (sid : nat) (line : bytes) : list event :=
  [Arrive sid (with_newline line); ReadSome sid 1000; Handle sid 1000; WriteDone sid].
Definition two_clients : list event :=
  [Accept; Accept; Arrive 0 (B "Integer create: x wi"); Arrive 1 (with_newline (B "x get;")); ReadSome 1 3; ReadSome 0 100;
   Arrive 0 (with_newline (B "thValue: 5;")); ReadSome 0 5; ReadSome 0 100; Handle 0 500] ++ talk 1 (B "x add: 2;") ++
  [WriteDone 0; Handle 1 500] ++ talk 0 (B "x get;").
Example C35_ex : let sv := run insertion_sort (start [] empty_server) two_clients in
  sv_crash sv = None /\ map c_sent (sv_conns sv) = [with_newline (B "null") ++ with_newline (B "7"); with_newline (B "5") ++ with_newline (B "null")] /\
  reachable_by_lines insertion_sort [] empty_server.
Proof. repeat split; try (vm_compute; reflexivity). constructor. reflexivity. Qed.

(** ** C33: lines do not depend on how the bytes arrive *)
Theorem C33_every_stream_has_one_division_into_lines : forall b,
  exists ls rest, lines_of b ls rest /\ forall ls' rest', lines_of b ls' rest' -> ls' = ls /\ rest' = rest.
Proof.
  intros b. destruct (lines_of_exists b) as (ls & r & H). exists ls, r. split; auto. intros. eapply lines_of_unique; eauto.
Qed.
(** What a session has executed is an initial part of the lines of its byte stream; all of them once it is idle.  Nothing after the last
    newline is executed. *)
Theorem C33_executed_lines_are_the_lines_of_the_stream : forall srt pw c0 es h sid cn ls rest, explains srt pw c0 es h ->
  nth_error (sv_conns (run srt (start pw c0) es)) sid = Some cn -> lines_of (arrived es sid) ls rest ->
  exists waiting, ls = lines_in sid h ++ waiting /\ (idle cn -> waiting = []).
Proof.
  intros srt pw c0 es h sid cn ls rest (ss & _ & _ & C) Hn (E & F & N). destruct (C _ _ Hn) as [_ [(w & Ew & Hw) F' _ _ _]].
  rewrite Ew in E. destruct (lines_unique _ _ _ _ F' F E) as [(k & -> & E1)|(k & K & E1)].
  - exists k. split; auto. intros I. destruct k as [|l k]; auto. exfalso. apply (Hw I). rewrite E1. now apply in_flat_newline.
  - destruct k as [|l k]; [|exfalso; apply N; rewrite E1; now apply in_flat_newline]. rewrite app_nil_r in K. exists []. rewrite app_nil_r. auto.
Qed.
Lemma finished_lines srt pw c0 es h sid cn ls rest : explains srt pw c0 es h ->
  nth_error (sv_conns (run srt (start pw c0) es)) sid = Some cn -> lines_of (arrived es sid) ls rest -> finished cn ->
  lines_in sid h = ls \/ exists before e, entries_of sid h = before ++ [e] /\ closes e.
Proof.
  intros X Hn L [I|U].
  - left. destruct (C33_executed_lines_are_the_lines_of_the_stream _ _ _ _ _ _ _ _ _ X Hn L) as (w & -> & K). rewrite (K I). now rewrite app_nil_r.
  - right. destruct X as (ss & _ & _ & C). now apply (acc_hung_up _ _ _ _ (proj2 (C _ _ Hn))).
Qed.
(** A single client gets the same answers and leaves the same data, however its bytes were cut, read and scheduled. *)
Theorem C33_segmentation_is_irrelevant : forall srt pw c0 es1 es2 sid cn1 cn2,
  let sv1 := run srt (start pw c0) es1 in let sv2 := run srt (start pw c0) es2 in
  sv_crash sv1 = None -> sv_crash sv2 = None ->
  nth_error (sv_conns sv1) sid = Some cn1 -> nth_error (sv_conns sv2) sid = Some cn2 ->
  (forall k, k <> sid -> arrived es1 k = [] /\ arrived es2 k = []) ->
  arrived es1 sid = arrived es2 sid -> finished cn1 -> finished cn2 ->
  c_sent cn1 = c_sent cn2 /\ c_session cn1 = c_session cn2 /\ sv_ctx sv1 = sv_ctx sv2.
Proof.
  intros srt pw c0 es1 es2 sid cn1 cn2 sv1 sv2 H1 H2 N1 N2 Alone Same F1 F2.
  destruct (C35_every_schedule_is_serialisable _ _ _ _ H1) as (h1 & X1). destruct (C35_every_schedule_is_serialisable _ _ _ _ H2) as (h2 & X2).
  destruct (lines_of_exists (arrived es1 sid)) as (ls & rest & L1). assert (L2 := L1). rewrite Same in L2.
  destruct (C33_executed_lines_are_the_lines_of_the_stream _ _ _ _ _ _ _ _ _ X1 N1 L1) as (w1 & E1 & _).
  destruct (C33_executed_lines_are_the_lines_of_the_stream _ _ _ _ _ _ _ _ _ X2 N2 L2) as (w2 & E2 & _).
  assert (G1 := finished_lines _ _ _ _ _ _ _ _ _ X1 N1 L1 F1). assert (G2 := finished_lines _ _ _ _ _ _ _ _ _ X2 N2 L2 F2).
  assert (Only : forall es h, explains srt pw c0 es h -> (forall k, k <> sid -> arrived es k = []) -> entries_of sid h = h /\ map named h = map (fun l => (sid, l)) (lines_in sid h)).
  { clear. intros es h (ss & S & W & C) A.
    assert (All : forall e, In e h -> e_sid e = sid).
    { intros e He. destruct (Nat.eq_dec (e_sid e) sid) as [|Hne]; auto. exfalso. destruct (W e He) as (cn & Hn). destruct (C _ _ Hn) as [_ [(w & Ew & _) _ _ _ _]].
      rewrite (A _ Hne) in Ew. assert (K : In NEWLINE (flat_map with_newline (lines_in (e_sid e) h) ++ w)); [|rewrite <- Ew in K; exact K].
      apply in_flat_newline. intros Z. apply entry_in in He. unfold lines_in in Z. apply map_eq_nil in Z. rewrite Z in He. destruct He. }
    clear -All. unfold lines_in. assert (E : entries_of sid h = h).
    { induction h as [|e h IH]; [reflexivity|]. cbn. rewrite (All e) by now left. rewrite Nat.eqb_refl. f_equal. apply IH. intros x Hx. apply All. now right. }
    split; [exact E|]. rewrite E, map_map. apply map_ext_in. intros e He. unfold named. now rewrite (All e He). }
  destruct (Only _ _ X1 (fun k Hk => proj1 (Alone k Hk))) as [O1 M1]. destruct (Only _ _ X2 (fun k Hk => proj2 (Alone k Hk))) as [O2 M2].
  assert (Cls1 : forall e a b, h1 = b ++ e :: a -> closes e -> a = []).
  { destruct X1 as (ss & _ & _ & C). destruct (C _ _ N1) as [_ [_ _ _ K _]]. rewrite O1 in K. intros e a b Z Y. eapply K; eauto. }
  assert (Cls2 : forall e a b, h2 = b ++ e :: a -> closes e -> a = []).
  { destruct X2 as (ss & _ & _ & C). destruct (C _ _ N2) as [_ [_ _ _ K _]]. rewrite O2 in K. intros e a b Z Y. eapply K; eauto. }
  rewrite O1 in G1. rewrite O2 in G2.
  destruct X1 as (ss1 & S1 & _ & C1). destruct X2 as (ss2 & S2 & _ & C2). destruct (C1 _ _ N1) as [T1 A1]. destruct (C2 _ _ N2) as [T2 A2].
  assert (Short : forall ha hb ca sa cb sb wa, serial srt pw c0 (fun _ => fresh pw) ha ca sa -> serial srt pw c0 (fun _ => fresh pw) hb cb sb ->
    map named hb = map named ha ++ wa -> (wa = [] \/ exists b e, ha = b ++ [e] /\ closes e) -> (forall e a b, hb = b ++ e :: a -> closes e -> a = []) -> hb = ha).
  { clear. intros ha hb ca sa cb sb wa Sa Sb M W K.
    assert (Z : exists p q, hb = p ++ q /\ map named p = map named ha /\ map named q = wa).
    { clear -M. revert ha M. induction hb as [|e hb IH]; intros [|x ha] M; cbn in *.
      - exists [], []. auto.
      - discriminate.
      - exists [], (e :: hb). auto.
      - assert (M1 : named e = named x) by congruence. assert (M2 : map named hb = map named ha ++ wa) by congruence. destruct (IH ha M2) as (p & q & -> & P & Q). exists (e :: p), q. cbn. repeat split; auto. congruence. }
    destruct Z as (p & q & -> & P & Q). destruct (serial_prefix _ _ _ _ _ _ _ _ Sb) as (cp & sp & Sp).
    destruct (serial_unique _ _ _ _ _ _ _ _ _ _ Sp Sa P) as (-> & _). destruct W as [W|(b & e & Eb & Ce)].
    - rewrite W in Q. apply map_eq_nil in Q. subst q. now rewrite app_nil_r.
    - subst ha. rewrite <- app_assoc in K. cbn in K. rewrite (K e q b eq_refl Ce). now rewrite app_nil_r. }
  assert (E : h2 = h1).
  { destruct G1 as [G1|G1].
    - destruct G2 as [G2|G2].
      + eapply (Short h1 h2 _ _ _ _ [] S1 S2); auto. rewrite app_nil_r, M1, M2. congruence.
      + symmetry. eapply (Short h2 h1 _ _ _ _ (map (fun l => (sid, l)) w2) S2 S1); eauto. rewrite M1, M2, G1, E2, map_app. reflexivity.
    - destruct (Nat.le_gt_cases (length (lines_in sid h1)) (length (lines_in sid h2))) as [Hl|Hl].
      + assert (Z : exists w, lines_in sid h2 = lines_in sid h1 ++ w).
        { rewrite E1 in E2. clear -E2 Hl. revert E2 Hl. generalize (lines_in sid h1) (lines_in sid h2). intros a. induction a as [|x a IH]; intros [|y b] E2 Hl; cbn in *; eauto; try lia.
          inversion E2; subst. destruct (IH b H1) as (w & ->); [lia|]. eauto. }
        destruct Z as (w & Z). eapply (Short h1 h2 _ _ _ _ (map (fun l => (sid, l)) w) S1 S2); eauto. rewrite M1, M2, Z, map_app. reflexivity.
      + assert (Z : exists w, lines_in sid h1 = lines_in sid h2 ++ w).
        { rewrite E1 in E2. clear -E2 Hl. revert E2 Hl. generalize (lines_in sid h1) (lines_in sid h2). intros a b. revert a. induction b as [|x b IH]; intros [|y a] E2 Hl; cbn in *; eauto; try lia.
          inversion E2; subst. destruct (IH a H1) as (w & ->); [lia|]. eauto. }
        destruct G2 as [G2|G2]; [rewrite G2, E1, app_length in Hl; lia|].
        destruct Z as (w & Z). symmetry. eapply (Short h2 h1 _ _ _ _ (map (fun l => (sid, l)) w) S2 S1); eauto. rewrite M1, M2, Z, map_app. reflexivity. }
  subst h2. destruct (serial_unique _ _ _ _ _ _ _ _ _ _ S1 S2 eq_refl) as (_ & Ec & Es).
  split; [rewrite (acc_output _ _ _ _ A1), (acc_output _ _ _ _ A2); reflexivity|]. split; [congruence|exact Ec].
Qed.
(** The server can always get to the end of what a live session has sent; unless a line cannot be answered (C40, C45). *)
Theorem C33_every_complete_line_can_be_processed : forall srt pw c0 es sid cn, let sv := run srt (start pw c0) es in
  sv_crash sv = None -> nth_error (sv_conns sv) sid = Some cn -> c_phase cn <> Gone ->
  exists es', Forall (progress_of sid) es' /\ (forall k, arrived (es ++ es') k = arrived es k) /\
    let sv' := run srt (start pw c0) (es ++ es') in sv_crash sv' = None /\
    exists cn', nth_error (sv_conns sv') sid = Some cn' /\ (finished cn' \/ unserviceable srt sv' sid).
Proof.
  intros srt pw c0 es sid cn sv Hc Hn Hp. destruct (progress_lemma srt sid (S (pending cn)) sv cn (Nat.lt_succ_diag_r _) Hc Hn Hp) as (es' & F & C & cn' & N' & K).
  exists es'. split; [exact F|]. split; [now apply (arrived_progress es sid)|]. cbv zeta. rewrite run_app. split; [exact C|]. exists cn'. split; [exact N'|].
  unfold finished. tauto.
Qed.
Definition pieces : list event :=
  [Accept; Arrive 0 (B "Boolean create: b withVal"); ReadSome 0 7; ReadSome 0 100; Arrive 0 (B "ue: true;" ++ [NEWLINE] ++ B "b g"); ReadSome 0 3; ReadSome 0 300;
   Handle 0 500; WriteDone 0; Arrive 0 (B "et;" ++ [NEWLINE] ++ B "b clo"); ReadSome 0 500; Handle 0 500; WriteDone 0].
Definition one_piece : list event :=
  [Accept; Arrive 0 (with_newline (B "Boolean create: b withValue: true;") ++ with_newline (B "b get;") ++ B "b clo"); ReadSome 0 500;
   Handle 0 500; WriteDone 0; Handle 0 500; WriteDone 0].
Example C33_ex : arrived pieces 0 = arrived one_piece 0 /\
  (forall es, es = pieces \/ es = one_piece -> let sv := run insertion_sort (start [] empty_server) es in
     sv_crash sv = None /\ exists cn, nth_error (sv_conns sv) 0 = Some cn /\ idle cn /\ c_sent cn = with_newline (B "null") ++ with_newline (B "true")).
Proof.
  split; [vm_compute; reflexivity|]. intros es [->| ->]; cbv zeta; (split; [vm_compute; reflexivity|]); eexists; (split; [vm_compute; reflexivity|]);
    (split; [|vm_compute; reflexivity]); (split; [reflexivity|]); (split; [reflexivity|]); apply has_newline_false; reflexivity.
Qed.

(** ** C34: one answer per line, in order; none after close *)
(** What the client of a session sees: the answers, one line each, to the first lines it sent; if it hung up, one more line was executed
    (the one that closes), and nothing else; an idle session that is not closed has answered all its lines. *)
Theorem C34_one_answer_line_per_line : forall srt pw c0 es sid cn, sort_contract srt -> reachable_by_lines srt pw c0 ->
  sv_crash (run srt (start pw c0) es) = None -> nth_error (sv_conns (run srt (start pw c0) es)) sid = Some cn ->
  exists exchanges closing waiting rest,
    lines_of (arrived es sid) (map fst exchanges ++ closing ++ waiting) rest /\
    lines_of (c_sent cn) (map snd exchanges) [] /\
    ((~ hung_up cn /\ closing = [] /\ (idle cn -> waiting = [])) \/
     (hung_up cn /\ exists l, closing = [l] /\ statement l (B "Connection") (B "close") [])).
Proof.
  intros srt pw c0 es sid cn Hs Hr Hc Hn. destruct (C35_every_schedule_is_serialisable _ _ _ _ Hc) as (h & X).
  destruct (lines_of_exists (arrived es sid)) as (ls & rest & L).
  destruct (C33_executed_lines_are_the_lines_of_the_stream _ _ _ _ _ _ _ _ _ X Hn L) as (w & E & Hw).
  assert (NL := fun e => explains_lines _ _ _ _ _ e X). destruct X as (ss & S & W & C). destruct (C _ _ Hn) as [T A].
  assert (Clean : Forall (fun l => ~ In NEWLINE l) (answers_in sid h)).
  { apply Forall_forall. intros a Ha. unfold answers_in in Ha. apply in_flat_map in Ha as (e & He & Ha).
    apply filter_In in He as [He _]. eapply answers_clean; eauto. }
  assert (Pairs : forall l, (forall e, In e l -> ~ closes e) -> exists ex, map fst ex = map e_line l /\ map snd ex = flat_map (fun e => answer_to (e_outcome e)) l).
  { clear. induction l as [|e l IH]; intros N; [exists []; auto|]. destruct IH as (ex & E1 & E2); [intros x Hx; apply N; now right|].
    assert (Ne : ~ closes e) by (apply N; now left). unfold closes in Ne. destruct e as [sid line [|a|a]]; cbn.
    - exists ((line, ERR_NOT_AUTH) :: ex). cbn. now rewrite E1, E2.
    - exists ((line, a) :: ex). cbn. now rewrite E1, E2.
    - exfalso. apply Ne. cbn. eauto. }
  destruct A as [_ _ Out Cl Hu].
  assert (Sent : lines_of (c_sent cn) (answers_in sid h) []) by (split; [rewrite app_nil_r; exact Out|split; auto]).
  destruct (is_connected (c_session cn)) eqn:K.
  - assert (Open : ~ hung_up cn) by (unfold hung_up; congruence).
    assert (N : forall e, In e (entries_of sid h) -> ~ closes e).
    { intros e He Ce. apply Open, Hu. apply in_split in He as (b & a & Eb). rewrite (Cl _ _ _ Eb Ce) in Eb. eauto. }
    destruct (Pairs _ N) as (ex & E1 & E2). exists ex, [], w, rest. split; [|split].
    + rewrite E1. cbn. unfold lines_in in E. now rewrite <- E.
    + rewrite E2. exact Sent.
    + left. auto.
  - assert (Shut : hung_up cn) by exact K. destruct (proj1 Hu Shut) as (b & e & Eb & Ce).
    assert (N : forall x, In x b -> ~ closes x).
    { intros x Hx Cx. apply in_split in Hx as (p & q & ->). rewrite <- app_assoc in Eb. cbn in Eb. specialize (Cl _ _ _ Eb Cx). destruct q; discriminate. }
    destruct (Pairs _ N) as (ex & E1 & E2). exists ex, [e_line e], w, rest. unfold lines_in, answers_in in *. rewrite Eb in *. split; [|split].
    + rewrite E1. rewrite map_app, <- app_assoc in E. cbn [map] in E. now rewrite <- E.
    + rewrite E2. rewrite flat_map_app in Sent. cbn [flat_map] in Sent. destruct Ce as (ans & Ce). rewrite Ce in Sent. cbn in Sent. now rewrite app_nil_r in Sent.
    + right. split; auto. exists (e_line e). split; auto.
      (* the state just before the last line of this session *)
      assert (Z := serial_trace _ _ _ _ _ _ _ sid S). rewrite Eb in Z. inversion Z as [Z0|l s1 e' c c' s2 T1 P Z0]; subst; [destruct b; discriminate|].
      apply app_inj_tail in Z0 as [-> ->]. eapply close_iff; [|exact P|exact Ce].
      (* still connected: only a closing entry disconnects *)
      clear - T1 N. induction T1 as [|l s1 e c c' s2 T1 IH P]; [reflexivity|].
      assert (K1 : is_connected s1 = true) by (apply IH; intros x Hx; apply N, in_or_app; now left).
      assert (Ne : ~ closes e) by (apply N, in_or_app; right; now left).
      inversion P; subst; auto. exfalso. apply Ne. eexists. symmetry. eassumption.
Qed.
(** A session that has hung up does nothing more, whatever happens. *)
Theorem C34_nothing_after_close : forall srt pw c0 es es' sid cn, sv_crash (run srt (start pw c0) (es ++ es')) = None ->
  nth_error (sv_conns (run srt (start pw c0) es)) sid = Some cn -> hung_up cn ->
  exists h h' cn', explains srt pw c0 es h /\ explains srt pw c0 (es ++ es') (h ++ h') /\ entries_of sid h' = [] /\
    nth_error (sv_conns (run srt (start pw c0) (es ++ es'))) sid = Some cn' /\ c_sent cn' = c_sent cn.
Proof.
  intros srt pw c0 es es' sid cn H Hn Hu. destruct (inv_exists srt pw c0 es (uncrashed_prefix _ _ _ _ H)) as (h & ss & I).
  destruct (inv_extend srt pw c0 es es' h ss I H) as (h' & ss' & I'). destruct (i_conn _ _ _ _ _ _ _ I _ _ Hn) as [_ A].
  assert (G : c_phase cn = Gone) by (destruct (c_phase cn) eqn:E; auto; assert (Z := ci_live _ _ _ _ A); unfold hung_up in Hu; rewrite E in Z; rewrite Z in Hu; discriminate).
  destruct (run_gone srt es' _ _ _ Hn G) as (cn' & N' & _ & Sent & _). rewrite <- run_app in N'.
  exists h, h', cn'. split; [eapply inv_explains; eauto|]. split; [eapply inv_explains; eauto|]. split; auto.
  destruct (i_conn _ _ _ _ _ _ _ I' _ _ N') as [_ A']. destruct (proj1 (ci_hung _ _ _ _ A) Hu) as (b & e & Eb & Ce).
  assert (Z := ci_close _ _ _ _ A' b e (entries_of sid h')). rewrite entries_app, Eb, <- app_assoc in Z. auto.
Qed.
Definition closing_client : list event :=
  [Accept; Arrive 0 (with_newline (B "Integer create: x withValue: 1;") ++ with_newline (B " Connection close ;") ++ with_newline (B "x add: 1;")); ReadSome 0 500;
   Handle 0 500; WriteDone 0; Handle 0 500; WriteDone 0; Handle 0 500].
Example C34_ex : let sv := run insertion_sort (start [] empty_server) closing_client in
  sv_crash sv = None /\ lookup (sv_ctx sv) (B "x") = Some (IObj (OInt 1)) /\
  exists cn, nth_error (sv_conns sv) 0 = Some cn /\ hung_up cn /\ c_sent cn = with_newline (B "null").
Proof.
  cbv zeta. split; [vm_compute; reflexivity|]. split; [vm_compute; reflexivity|]. eexists. split; [vm_compute; reflexivity|]. split; reflexivity.
Qed.

(** ** C30: the authentication gate *)
(** A line of a session that is not authenticated and is not addressed to Connection is refused; data, log and session stay. *)
Theorem C30_refusal : forall srt sv sid k cn line, sv_crash sv = None -> nth_error (sv_conns sv) sid = Some cn -> c_phase cn = Reading ->
  next_line cn line -> is_authenticated (c_session cn) = false -> ~ connection_line line ->
  let sv' := step srt sv (Handle sid k) in
  sv_ctx sv' = sv_ctx sv /\
  (sv_crash sv' = Some DanglingBuffer \/
   (sv_crash sv' = None /\ exists cn', nth_error (sv_conns sv') sid = Some cn' /\ c_session cn' = c_session cn /\
      c_sent cn' = c_sent cn ++ with_newline ERR_NOT_AUTH)).
Proof.
  intros srt sv sid k cn line Hc Hn Hp N A L. cbv zeta.
  rewrite (handle_answer srt sv sid k cn line Hc Hn Hp N _ _ Refused ERR_NOT_AUTH (processes_refused _ _ _ _ _ A L) eq_refl).
  destruct (_ <? _); cbn [crashed after_handle sv_ctx sv_crash sv_conns]; split; auto.
  right. split; auto. eexists. split; [eapply set_conn_same; eauto|]. auto.
Qed.
(** No event of a session that is still not authenticated afterwards changes any data. *)
Theorem C30_unauthenticated_sessions_change_no_data : forall srt sv e sid cn, concerns e sid ->
  nth_error (sv_conns (step srt sv e)) sid = Some cn -> is_authenticated (c_session cn) = false -> same_data (sv_ctx sv) (sv_ctx (step srt sv e)).
Proof.
  intros srt sv e sid cn C Hn A. assert (Refl : forall c, same_data c c) by (intros; split; [reflexivity|split; reflexivity]).
  destruct (sv_crash sv) as [u|] eqn:Hc; [unfold step; rewrite Hc; apply Refl|].
  assert (D : (exists k, e = Handle sid k) \/ forall j k, e <> Handle j k).
  { destruct e; cbn in C; subst; eauto; right; intros; discriminate. }
  destruct D as [(k & ->)|D]; [|rewrite (proj1 (step_ctx srt sv e D)); apply Refl].
  destruct (sv_crash (step srt sv (Handle sid k))) as [u|] eqn:E.
  - destruct (crash_cause _ _ _ _ Hc E) as (j & k' & cj & line & Ee & Hj & Hp & N & _). inversion Ee; subst j k'. clear Ee.
    destruct (handle_cases srt sv sid k cj line Hc Hj Hp N) as [(v & _ & _ & X)|(c' & s' & o & P)]; [rewrite X; apply Refl|].
    destruct o as [|a|a]; [..|rewrite (handle_close srt sv sid k cj line Hc Hj Hp N _ _ _ P) in E; cbn in E; congruence].
    + rewrite (handle_answer srt sv sid k cj line Hc Hj Hp N _ _ _ _ P eq_refl) in *. destruct (_ <? _); [apply Refl|]. cbn in E. congruence.
    + rewrite (handle_answer srt sv sid k cj line Hc Hj Hp N _ _ _ _ P eq_refl) in *. destruct (_ <? _); [apply Refl|]. cbn in E. congruence.
  - destruct (nth_error (sv_conns sv) sid) as [cj|] eqn:Hj; [|unfold step; rewrite Hc, Hj; apply Refl].
    destruct (c_phase cj) eqn:Hp; try (unfold step; rewrite Hc, Hj, Hp; apply Refl).
    destruct (has_newline (c_streambuf cj)) eqn:Hl; [|unfold step; rewrite Hc, Hj, Hp, Hl; apply Refl].
    apply has_newline_iff in Hl. destruct (has_next_line _ Hl) as (line & N).
    destruct (handle_cases srt sv sid k cj line Hc Hj Hp N) as [(v & _ & _ & X)|(c' & s' & o & P)]; [rewrite X; apply Refl|].
    assert (G : is_authenticated s' = false -> same_data (sv_ctx sv) c').
    { intros G. eapply outsider_harmless; [|exact P]. destruct (is_authenticated (c_session cj)) eqn:K; auto.
      apply (processes_authenticated _ _ _ _ _ _ _ _ P) in K. congruence. }
    destruct o as [|a|a].
    + rewrite (handle_answer srt sv sid k cj line Hc Hj Hp N _ _ _ _ P eq_refl) in *. destruct (_ <? _); [apply Refl|]. cbn in Hn.
      rewrite (set_conn_same _ _ _ _ Hj) in Hn. inversion Hn; subst cn. auto.
    + rewrite (handle_answer srt sv sid k cj line Hc Hj Hp N _ _ _ _ P eq_refl) in *. destruct (_ <? _); [apply Refl|]. cbn in Hn.
      rewrite (set_conn_same _ _ _ _ Hj) in Hn. inversion Hn; subst cn. auto.
    + rewrite (handle_close srt sv sid k cj line Hc Hj Hp N _ _ _ P) in *. cbn in Hn.
      rewrite (set_conn_same _ _ _ _ Hj) in Hn. inversion Hn; subst cn. auto.
Qed.
(** What such a session is told does not depend on the data or on anybody else: two servers with the same password but any data, any other
    sessions and any schedules tell it the same. *)
Theorem C30_unauthenticated_sessions_learn_nothing : forall srt srt' pw c0 c0' es es' sid sid' cn cn',
  sv_crash (run srt (start pw c0) es) = None -> sv_crash (run srt' (start pw c0') es') = None ->
  nth_error (sv_conns (run srt (start pw c0) es)) sid = Some cn -> nth_error (sv_conns (run srt' (start pw c0') es')) sid' = Some cn' ->
  arrived es sid = arrived es' sid' -> idle cn -> idle cn' -> is_authenticated (c_session cn) = false ->
  c_sent cn = c_sent cn' /\ c_session cn = c_session cn'.
Proof.
  intros srt srt' pw c0 c0' es es' sid sid' cn cn' H1 H2 N1 N2 Same I1 I2 A.
  destruct (C35_every_schedule_is_serialisable _ _ _ _ H1) as (h1 & X1). destruct (C35_every_schedule_is_serialisable _ _ _ _ H2) as (h2 & X2).
  destruct (lines_of_exists (arrived es sid)) as (ls & rest & L1). assert (L2 := L1). rewrite Same in L2.
  destruct (C33_executed_lines_are_the_lines_of_the_stream _ _ _ _ _ _ _ _ _ X1 N1 L1) as (w1 & E1 & W1).
  destruct (C33_executed_lines_are_the_lines_of_the_stream _ _ _ _ _ _ _ _ _ X2 N2 L2) as (w2 & E2 & W2).
  rewrite (W1 I1), app_nil_r in E1. rewrite (W2 I2), app_nil_r in E2.
  destruct X1 as (ss1 & S1 & _ & C1). destruct X2 as (ss2 & S2 & _ & C2). destruct (C1 _ _ N1) as [T1 A1]. destruct (C2 _ _ N2) as [T2 A2].
  assert (Z1 := serial_trace _ _ _ _ _ _ _ sid S1). assert (Z2 := serial_trace _ _ _ _ _ _ _ sid' S2). cbn beta in Z1, Z2.
  rewrite <- T1 in Z1. rewrite <- T2 in Z2.
  destruct (trace_blind _ _ _ _ _ _ _ _ Z1 Z2) as [O Es]; [unfold lines_in in *; congruence|exact A|]. split; [|exact Es].
  rewrite (acc_output _ _ _ _ A1), (acc_output _ _ _ _ A2). unfold answers_in. rewrite !flat_map_concat_map.
  rewrite <- (map_map e_outcome answer_to (entries_of sid h1)), <- (map_map e_outcome answer_to (entries_of sid' h2)). now rewrite O.
Qed.
(** Such a session cannot make the server misbehave except through C40. *)
Theorem C30_unauthenticated_sessions_do_no_harm : forall srt sv e sid cn u, concerns e sid -> sv_crash sv = None ->
  nth_error (sv_conns sv) sid = Some cn -> is_authenticated (c_session cn) = false -> sv_crash (step srt sv e) = Some u -> u = DanglingBuffer.
Proof.
  intros srt sv e sid cn u C Hc Hn A E. destruct (crash_cause _ _ _ _ Hc E) as (j & k & cj & line & -> & Hj & Hp & N & K). cbn in C. subst j.
  rewrite Hn in Hj. inversion Hj; subst cj. destruct K as [[U [G|G]]|[-> _]]; auto; [congruence|]. exfalso. eapply connection_no_ub; eauto.
Qed.
Definition outsider : list event :=
  [Accept] ++ talk 0 (B "x get;") ++ talk 0 (B "rubbish") ++ talk 0 (B "Connection authenticateWithPassword: ""guess"";") ++ talk 0 (B "Connection foo;").
Definition secret_server : context := set_instances empty_server [(B "x", IObj (OInt 5))].
Example C30_ex : let sv := run insertion_sort (start (B "pw") secret_server) outsider in
  sv_crash sv = None /\ exists cn, nth_error (sv_conns sv) 0 = Some cn /\ idle cn /\ is_authenticated (c_session cn) = false /\
    c_sent cn = with_newline ERR_NOT_AUTH ++ with_newline ERR_NOT_AUTH ++ with_newline ERR_PASSWORD ++ with_newline ERR_MESSAGE.
Proof.
  cbv zeta. split; [vm_compute; reflexivity|]. eexists. split; [vm_compute; reflexivity|]. split; [|split; [reflexivity|vm_compute; reflexivity]].
  split; [reflexivity|]. split; [reflexivity|]. intros [].
Qed.

(** ** C31: only the right password authenticates, and only the session that sent it *)
Theorem C31_authenticated_only_by_the_password : forall srt pw c0 es sid cn ls rest, sv_crash (run srt (start pw c0) es) = None ->
  nth_error (sv_conns (run srt (start pw c0) es)) sid = Some cn -> lines_of (arrived es sid) ls rest ->
  is_authenticated (c_session cn) = true -> pw = [] \/ exists line, In line ls /\ password_line pw line.
Proof.
  intros srt pw c0 es sid cn ls rest Hc Hn L A. destruct (C35_every_schedule_is_serialisable _ _ _ _ Hc) as (h & X).
  destruct (C33_executed_lines_are_the_lines_of_the_stream _ _ _ _ _ _ _ _ _ X Hn L) as (w & -> & _).
  destruct X as (ss & S & _ & C). destruct (C _ _ Hn) as [T _]. assert (Z := serial_trace _ _ _ _ _ _ _ sid S). cbn beta in Z. rewrite <- T in Z.
  destruct (trace_authenticated _ _ _ _ _ Z A) as [F|(e & a & He & Hs & Hd)].
  - left. unfold fresh in F. cbn in F. destruct (bytes_dec pw []); [auto|discriminate].
  - right. exists (e_line e). split; [apply in_or_app; left; unfold lines_in; now apply in_map|]. exists a. auto.
Qed.
(** The right password works, and stays good. *)
Theorem C31_the_password_authenticates : forall srt pw c0 es sid cn ls rest line, sv_crash (run srt (start pw c0) es) = None ->
  nth_error (sv_conns (run srt (start pw c0) es)) sid = Some cn -> lines_of (arrived es sid) ls rest ->
  idle cn -> In line ls -> password_line pw line -> is_authenticated (c_session cn) = true.
Proof.
  intros srt pw c0 es sid cn ls rest line Hc Hn L I Hin (a & Hs & Hd). destruct (C35_every_schedule_is_serialisable _ _ _ _ Hc) as (h & X).
  destruct (C33_executed_lines_are_the_lines_of_the_stream _ _ _ _ _ _ _ _ _ X Hn L) as (w & E & W). rewrite (W I), app_nil_r in E.
  destruct X as (ss & S & _ & C). destruct (C _ _ Hn) as [T _]. assert (Z := serial_trace _ _ _ _ _ _ _ sid S). cbn beta in Z. rewrite <- T in Z.
  subst ls. unfold lines_in in Hin. apply in_map_iff in Hin as (e & <- & He). apply in_split in He as (p & q & Ee). rewrite Ee in Z.
  change (p ++ e :: q) with (p ++ [e] ++ q) in Z. rewrite app_assoc in Z. destruct (trace_mono _ _ _ _ _ _ Z) as (s1 & Z1 & M). apply M.
  inversion Z1 as [Z0|l s0 e' c c' s2 T1 P Z0]; subst; [destruct p; discriminate|]. apply app_inj_tail in Z0 as [-> ->]. eapply right_password; eauto.
Qed.
Definition login_example : list event :=
  [Accept; Accept] ++ talk 1 (B "Connection authenticateWithPassword: ""pw"";") ++ talk 0 (B "Integer create: x withValue: 1;") ++
  talk 1 (B "Integer create: x withValue: 2;").
Example C31_ex : let sv := run insertion_sort (start (B "pw") empty_server) login_example in
  sv_crash sv = None /\ map (fun cn => is_authenticated (c_session cn)) (sv_conns sv) = [false; true] /\
  map c_sent (sv_conns sv) = [with_newline ERR_NOT_AUTH; with_newline (B "null") ++ with_newline (B "null")] /\
  password_line (B "pw") (B "Connection authenticateWithPassword: ""pw"";").
Proof.
  cbv zeta. split; [vm_compute; reflexivity|]. split; [vm_compute; reflexivity|]. split; [vm_compute; reflexivity|].
  exists (B """pw"""). split; [stmt|]. split; [apply is_string_value_iff; reflexivity|reflexivity].
Qed.

(** ** C37: the log *)
Theorem C37_every_statement_is_logged : forall srt pw c s line c' s' ans, runs srt pw c s line c' s' ans ->
  exists t, trimmed line t /\ logs c [(t, ans)] c'.
Proof. exact runs_logs. Qed.
(** The log of a server: one record per executed line, in the order of execution, none for refused lines. *)
Theorem C37_the_log_is_the_history : forall srt pw c0 es, sv_crash (run srt (start pw c0) es) = None ->
  exists h l, explains srt pw c0 es h /\ records h l /\ logs c0 l (sv_ctx (run srt (start pw c0) es)).
Proof.
  intros srt pw c0 es H. destruct (C35_every_schedule_is_serialisable _ _ _ _ H) as (h & X). assert (Y := X). destruct Y as (ss & S & _).
  destruct (serial_logs _ _ _ _ _ _ _ S) as (l & R & L). eauto.
Qed.
Theorem C37_what_is_written_is_determined : forall line t t', trimmed line t -> trimmed line t' -> t = t'.
Proof. exact trimmed_unique. Qed.
Example C37_ex : let sv := run insertion_sort (start (B "pw") (new_context true 3 (to_float (S754_zero false)) false)) outsider in
  sv_crash sv = None /\
  logfile (sv_ctx sv) = [(B "Connection authenticateWithPassword: ""guess"";", ERR_PASSWORD); (B "Connection foo;", ERR_MESSAGE)] /\
  stdout (sv_ctx sv) = [].
Proof. cbv zeta. repeat split; vm_compute; reflexivity. Qed.

(** ** C40: delivery of answers *)
(** In a schedule without undefined behaviour the bytes sent are exactly the answers (C34); but an answer survives only if the first,
    immediate send takes all of it, and that is at most 65536 bytes: otherwise the rest is read from a destroyed string. *)
Theorem C40_delivered_iff_sent_at_once : forall srt sv sid k cn line c' s' o a, sv_crash sv = None ->
  nth_error (sv_conns sv) sid = Some cn -> c_phase cn = Reading -> next_line cn line ->
  processes srt (sv_password sv) (sv_ctx sv) (c_session cn) line c' s' o -> answer_to o = [a] ->
  let sv' := step srt sv (Handle sid k) in
  if (length a <? k) && (length a <? 65536)
  then sv_crash sv' = None /\ sv_ctx sv' = c' /\ exists cn', nth_error (sv_conns sv') sid = Some cn' /\ c_sent cn' = c_sent cn ++ a ++ [NEWLINE]
  else sv_crash sv' = Some DanglingBuffer.
Proof.
  intros srt sv sid k cn line c' s' o a Hc Hn Hp N P A. cbv zeta. rewrite (handle_answer srt sv sid k cn line Hc Hn Hp N _ _ _ _ P A).
  assert (E : (Nat.min k 65536 <? length (with_newline a)) = negb ((length a <? k) && (length a <? 65536))).
  { unfold with_newline. rewrite app_length. change (length [NEWLINE]) with 1. generalize 65536. intros m.
    destruct (Nat.ltb_spec (Nat.min k m) (length a + 1)), (Nat.ltb_spec (length a) k), (Nat.ltb_spec (length a) m); cbn; auto; lia. }
  rewrite E. destruct ((length a <? k) && (length a <? 65536)); cbn [negb]; [|reflexivity].
  cbn [after_handle sv_crash sv_ctx sv_conns]. split; auto. split; auto. eexists. split; [eapply set_conn_same; eauto|]. reflexivity.
Qed.
(** No limit on the length of answers: some can never be delivered, whatever the network does. *)
Lemma long_literal n : string_value ([QUOTE] ++ repeat "a"%char n ++ [QUOTE]).
Proof.
  assert (E : [QUOTE] ++ repeat "a"%char n ++ [QUOTE] = printed_string (repeat "a"%char n)).
  { unfold printed_string. f_equal. f_equal. induction n as [|n IH]; [reflexivity|]. cbn. now rewrite IH at 1. }
  rewrite E. apply printed_is_literal.
  assert (NB : forall l m, (forall x, In x l -> x <> BACKSLASH) -> backslash_run l m -> m = 0).
  { intros l m H R. destruct R; auto. exfalso. apply (H BACKSLASH); auto. apply in_or_app. right. now left. }
  assert (NA : forall x, In x (repeat "a"%char n) -> x = "a"%char) by (intros x Hx; now apply repeat_spec in Hx).
  split.
  - intros b a m Eb R. rewrite (NB b m); [exists 0; reflexivity| |exact R]. intros x Hx ->. specialize (NA BACKSLASH). rewrite Eb in NA.
    assert (Z : BACKSLASH = "a"%char) by (apply NA, in_or_app; now left). discriminate.
  - intros m R. rewrite (NB (repeat "a"%char n) m); [exists 0; reflexivity| |exact R]. intros x Hx ->. specialize (NA BACKSLASH Hx). discriminate.
Qed.
Lemma long_statement a : string_value a ->
  statement (B "String create: s withValue: " ++ a ++ B ";") (B "String") (B "create:withValue:") [B "s"; a].
Proof.
  intros H. exists [], " "%char, [], (B "create: s withValue: " ++ a), [], [].
  split; [cbn; now rewrite <- ?app_assoc|]. split; [constructor|]. split; [right; right; left; left; do 3 right; now right|]. split; [unfold space; cbn; lia|].
  split; [constructor|]. split; [|split; constructor]. right.
  apply (kw_more (B "create:") (B " ") (B "s") " "%char [] (B "withValue: " ++ a) (B "withValue:") [a]).
  - exists (B "create"). split; [now left|]. apply is_identifier_iff. reflexivity.
  - apply is_spaces_iff. reflexivity.
  - right. left. apply is_identifier_iff. reflexivity.
  - unfold space. cbn. lia.
  - constructor.
  - apply (kw_last (B "withValue:") (B " ") a).
    + exists (B "withValue"). split; [now left|]. apply is_identifier_iff. reflexivity.
    + apply is_spaces_iff. reflexivity.
    + left. now do 4 right.
Qed.
Theorem C40_answers_can_be_arbitrarily_long : forall srt pw n, sort_contract srt ->
  exists c c' s ans, reachable_by_lines srt pw c /\ runs srt pw c (Some s) (B "s get;") c' (Some s) ans /\ n <= length ans.
Proof.
  intros srt pw n Hs. set (lit := [QUOTE] ++ repeat "a"%char n ++ [QUOTE]). assert (V : string_value lit) by apply long_literal.
  set (s := {| is_connected := true; is_authenticated := true |}).
  destruct (C06_create_then_get srt pw empty_server (Some s) (Some s) (B "String create: s withValue: " ++ lit ++ B ";") (B "s get;") (B "create:withValue:") (B "s") lit [] Hs) as (c & R & c2 & R2 & _).
  - constructor; reflexivity.
  - apply long_statement. exact V.
  - now left.
  - apply is_variable_iff. reflexivity.
  - stmt.
  - intros K. apply K. reflexivity.
  - exact V.
  - exists c, c2, s, lit. split; [|split; [exact R2|]].
    + eapply (line_step _ _ empty_server); [|constructor; reflexivity|exact R]. rewrite !in_app_iff. intros K.
      assert (Rep : ~ In NEWLINE (repeat "a"%char n)) by (intros Z; apply repeat_spec in Z; discriminate).
      unfold lit in K. rewrite !in_app_iff in K. destruct K as [K|[[K|[K|K]]|K]]; auto; revert K; apply has_newline_false; reflexivity.
    + unfold lit. rewrite !app_length, repeat_length. lia.
Qed.
Theorem C40_every_answer_is_delivered_refuted :
  (exists es, sv_crash (run insertion_sort (start [] empty_server) es) = Some DanglingBuffer) /\
  (forall srt sv sid k cn line c' s' ans, sv_crash sv = None -> nth_error (sv_conns sv) sid = Some cn -> c_phase cn = Reading ->
     next_line cn line -> processes srt (sv_password sv) (sv_ctx sv) (c_session cn) line c' s' (Answered ans) -> 65536 <= length ans ->
     sv_crash (step srt sv (Handle sid k)) = Some DanglingBuffer).
Proof.
  split.
  - exists [Accept; Arrive 0 (with_newline (B "foo")); ReadSome 0 4; Handle 0 10]. vm_compute. reflexivity.
  - intros srt sv sid k cn line c' s' ans Hc Hn Hp N P L. assert (X := C40_delivered_iff_sent_at_once srt sv sid k cn line c' s' _ ans Hc Hn Hp N P eq_refl).
    cbv zeta in X. apply Nat.ltb_ge in L. rewrite L, andb_false_r in X. exact X.
Qed.
Definition before_handling : list event := [Accept; Arrive 0 (with_newline (B "foo")); ReadSome 0 4].
Example C40_ex : let sv := run insertion_sort (start [] empty_server) before_handling in
  exists cn, sv_crash sv = None /\ nth_error (sv_conns sv) 0 = Some cn /\ c_phase cn = Reading /\ next_line cn (B "foo") /\
  processes insertion_sort (sv_password sv) (sv_ctx sv) (c_session cn) (B "foo") (sv_ctx sv) (c_session cn) (Answered (B "SyntaxError: invalid statement.")).
Proof.
  cbv zeta. eexists. split; [vm_compute; reflexivity|]. split; [vm_compute; reflexivity|]. split; [reflexivity|]. split.
  - exists []. split; [reflexivity|]. intros I. repeat (destruct I as [I|I]; [discriminate I|]). destruct I.
  - apply processes_answered; [left; reflexivity|unfold runs; vm_compute; reflexivity|reflexivity].
Qed.

(** ** C43: an error of accept ends the acceptance of connections for good; the others go on *)
Theorem C43_accept_errors_are_final : forall srt sv es, sv_crash sv = None ->
  let sv' := step srt sv AcceptError in
  sv_conns sv' = sv_conns sv /\ sv_ctx sv' = sv_ctx sv /\ length (sv_conns (run srt sv' es)) = length (sv_conns sv).
Proof.
  intros srt sv es Hc. cbv zeta. unfold step at 1 2 3. rewrite Hc. cbn [sv_conns sv_ctx]. split; auto. split; auto.
  set (sv0 := {| sv_password := _ |}). change (length (sv_conns sv)) with (length (sv_conns sv0)). assert (H0 : sv_accepting sv0 = false) by reflexivity.
  clearbody sv0. clear Hc sv. revert sv0 H0. induction es as [|e es IH]; intros sv0 H0; [reflexivity|].
  change (run srt sv0 (e :: es)) with (run srt (step srt sv0 e) es).
  assert (S : sv_accepting (step srt sv0 e) = false /\ length (sv_conns (step srt sv0 e)) = length (sv_conns sv0)); [|destruct S as [S1 S2]; now rewrite IH].
  unfold step. destruct (sv_crash sv0); auto. destruct e as [| |sid b|sid n|sid w|sid|sid]; try rewrite H0; auto;
    (destruct (nth_error (sv_conns sv0) sid) as [cn|] eqn:Hn; auto); try (destruct (c_phase cn); auto); try (destruct (has_newline _); auto);
    try (cbn; split; auto; eapply set_conn_length; eauto; fail).
  unfold handle. destruct (handle_line _ _ _ _ _) as [[[c' s'] [r|]]|x|u]; auto; [destruct (do_write r w); auto|]; cbn; split; auto; eapply set_conn_length; eauto.
Qed.
Theorem C43_otherwise_every_connection_is_accepted : forall srt pw c0 es, ~ In AcceptError es -> sv_crash (run srt (start pw c0) es) = None ->
  exists cn, nth_error (sv_conns (run srt (start pw c0) (es ++ [Accept]))) (length (sv_conns (run srt (start pw c0) es))) = Some cn /\
    c_session cn = fresh pw /\ c_sent cn = [] /\ idle cn.
Proof.
  intros srt pw c0 es N Hc. destruct (inv_exists srt pw c0 es Hc) as (h & ss & I).
  assert (A : sv_accepting (run srt (start pw c0) es) = true).
  { rewrite (i_acc _ _ _ _ _ _ _ I). clear -N. generalize 0. induction es as [|e es IH]; intros n; [reflexivity|].
    assert (N' : ~ In AcceptError es) by (intros K; apply N; now right). destruct e; cbn [opened]; auto. exfalso. apply N. now left. }
  rewrite run_snoc. unfold step. rewrite Hc, A. cbn [sv_conns]. rewrite nth_error_app2, Nat.sub_diag by reflexivity. eexists. split; [reflexivity|].
  unfold new_conn. rewrite (i_pw _ _ _ _ _ _ _ I), fresh_new. split; [reflexivity|]. split; [reflexivity|]. split; [reflexivity|]. split; [reflexivity|]. intros [].
Qed.
Example C43_ex : let sv := run insertion_sort (start [] empty_server) ([Accept; AcceptError; Accept] ++ talk 0 (B "foo")) in
  sv_crash sv = None /\ map c_sent (sv_conns sv) = [with_newline ERR_SYNTAX].
Proof. cbv zeta. split; vm_compute; reflexivity. Qed.

(** ** C44: sessions are isolated from each other's failures *)
(** An event of one session does not touch any other session; a failure, an arrival, a read or a completed write touches no data. *)
Theorem C44_other_sessions_are_untouched : forall srt sv e sid k, concerns e sid -> k <> sid ->
  nth_error (sv_conns (step srt sv e)) k = nth_error (sv_conns sv) k.
Proof. intros. eapply step_others; eauto. Qed.
Theorem C44_only_processing_a_line_touches_data : forall srt sv e, (forall sid k, e <> Handle sid k) ->
  sv_ctx (step srt sv e) = sv_ctx sv /\ sv_crash (step srt sv e) = sv_crash sv.
Proof. exact step_ctx. Qed.
(** After a failure the session executes and sends nothing more. *)
Theorem C44_nothing_after_failure : forall srt pw c0 es es' sid cn, sv_crash (run srt (start pw c0) (es ++ [Fail sid] ++ es')) = None ->
  nth_error (sv_conns (run srt (start pw c0) es)) sid = Some cn ->
  exists h h' cn', explains srt pw c0 es h /\ explains srt pw c0 (es ++ [Fail sid] ++ es') (h ++ h') /\ entries_of sid h' = [] /\
    nth_error (sv_conns (run srt (start pw c0) (es ++ [Fail sid] ++ es'))) sid = Some cn' /\ c_sent cn' = c_sent cn.
Proof.
  intros srt pw c0 es es' sid cn H Hn. assert (H0 := uncrashed_prefix _ _ _ _ H). destruct (inv_exists srt pw c0 es H0) as (h & ss & I).
  exists h. rewrite (app_assoc es [Fail sid] es') in *.
  assert (G : exists h' ss' cn', inv srt pw c0 ((es ++ [Fail sid]) ++ es') (h ++ h') (run srt (start pw c0) ((es ++ [Fail sid]) ++ es')) ss' /\ entries_of sid h' = [] /\
    nth_error (sv_conns (run srt (start pw c0) ((es ++ [Fail sid]) ++ es'))) sid = Some cn' /\ c_phase cn' = Gone /\ c_sent cn' = c_sent cn).
  { assert (F : step srt (run srt (start pw c0) es) (Fail sid) = with_conn (run srt (start pw c0) es) sid
        {| c_session := c_session cn; c_phase := Gone; c_socket := c_socket cn; c_streambuf := c_streambuf cn; c_sent := c_sent cn |})
        by (unfold step; now rewrite H0, Hn).
    assert (B0 : exists cn0, inv srt pw c0 (es ++ [Fail sid]) h (run srt (start pw c0) (es ++ [Fail sid])) ss /\
      nth_error (sv_conns (run srt (start pw c0) (es ++ [Fail sid]))) sid = Some cn0 /\ c_phase cn0 = Gone /\ c_sent cn0 = c_sent cn).
    { eexists. rewrite run_snoc, F. split; [|split; [cbn; eapply set_conn_same; eauto|auto]].
      eapply inv_quiet; eauto. intros C. cbn [arrives]. rewrite app_nil_r. eapply conn_inv_same; eauto. }
    clear F. generalize dependent (es ++ [Fail sid]). intros pre H (cn0 & I0 & N0 & P0 & S0).
    induction es' as [|e es' IH] using rev_ind.
    - exists [], ss, cn0. rewrite !app_nil_r. auto.
    - rewrite (app_assoc pre es' [e]) in *. assert (Hp := uncrashed_prefix _ _ _ _ H).
      destruct (IH Hp) as (h1 & ss1 & cn1 & I1 & E1 & N1 & P1 & S1). rewrite run_snoc in *.
      destruct (step_inv _ _ _ _ _ _ _ e I1 Hp H) as (h2 & ss2 & I2 & Live).
      destruct (step_gone srt _ e sid cn1 N1 P1) as (cn2 & N2 & P2 & S2 & _).
      exists (h1 ++ h2), ss2, cn2. rewrite (app_assoc h h1 h2). split; auto. split; [|split; auto; split; congruence].
      rewrite entries_app, E1. cbn [app]. apply entries_none. intros x Hx K. destruct (Live x Hx) as (c & Nc & Pc). rewrite K in Nc. congruence. }
  destruct G as (h' & ss' & cn' & I' & E' & N' & _ & S'). exists h', cn'. split; [eapply inv_explains; eauto|]. split; [eapply inv_explains; eauto|]. auto.
Qed.
Example C44_ex : let sv := run insertion_sort (start [] empty_server) ([Accept; Accept] ++ talk 0 (B "Integer create: x withValue: 1;") ++ [Fail 0] ++ talk 0 (B "x add: 1;") ++ talk 1 (B "x get;")) in
  sv_crash sv = None /\ map c_sent (sv_conns sv) = [with_newline (B "null"); with_newline (B "1")].
Proof. cbv zeta. split; vm_compute; reflexivity. Qed.

(** ** C45: what can go wrong, in any schedule *)
Theorem C45_kinds_of_undefined_behaviour : forall srt pw c0 es u, sort_contract srt -> reachable_by_lines srt pw c0 ->
  sv_crash (run srt (start pw c0) es) = Some u -> u = AtoiRange \/ u = IntConversion \/ u = BadOrder \/ u = DanglingBuffer.
Proof.
  intros srt pw c0 es u Hs Hr H. destruct (first_crash srt es (start pw c0) u eq_refl H) as (es1 & e & es2 & -> & Hc & E).
  destruct (crash_cause _ _ _ _ Hc E) as (sid & k & cn & line & _ & _ & _ & _ & [[U _]|[-> _]]); [|auto].
  assert (R := by_lines_reachable _ _ _ (C35_server_data_are_reachable srt pw c0 es1 Hr)).
  assert (P : sv_password (run srt (start pw c0) es1) = pw).
  { destruct (inv_exists srt pw c0 es1 Hc) as (h & ss & I). apply (i_pw _ _ _ _ _ _ _ I). }
  rewrite P in U. destruct (C28_memory_safety _ _ _ _ _ _ Hs R U) as [->|[->| ->]]; auto.
Qed.
(** It happens only while a complete line is processed whose statement itself has undefined behaviour, or whose answer does not fit the first send. *)
Theorem C45_undefined_behaviour_has_a_cause : forall srt pw c0 es u, sv_crash (run srt (start pw c0) es) = Some u ->
  exists es1 sid k es2 cn line, es = es1 ++ Handle sid k :: es2 /\ let sv := run srt (start pw c0) es1 in
    sv_crash sv = None /\ nth_error (sv_conns sv) sid = Some cn /\ next_line cn line /\
    (undefined_behaviour srt pw (sv_ctx sv) (Some (c_session cn)) line u \/
     (u = DanglingBuffer /\ exists c' s' o a, processes srt pw (sv_ctx sv) (c_session cn) line c' s' o /\ answer_to o = [a] /\ (k <= length a \/ 65536 <= length a))).
Proof.
  intros srt pw c0 es u H. destruct (first_crash srt es (start pw c0) u eq_refl H) as (es1 & e & es2 & -> & Hc & E).
  destruct (crash_cause _ _ _ _ Hc E) as (sid & k & cn & line & -> & Hn & _ & N & K). exists es1, sid, k, es2, cn, line. split; auto. cbv zeta.
  assert (P : sv_password (run srt (start pw c0) es1) = pw).
  { destruct (inv_exists srt pw c0 es1 Hc) as (h & ss & I). apply (i_pw _ _ _ _ _ _ _ I). }
  rewrite P in K. repeat (split; auto). destruct K as [[U _]|(-> & c' & s' & o & a & Pr & A & L)]; [now left|right]. split; auto.
  exists c', s', o, a. split; auto. split; auto. revert L. generalize 65536. intros m L. lia.
Qed.
Example C45_ex : exists es, sv_crash (run insertion_sort (start [] empty_server) es) = Some AtoiRange.
Proof. exists ([Accept] ++ talk 0 (B "Integer create: x withValue: 99999999999;")). vm_compute. reflexivity. Qed.

Print Assumptions C35_every_schedule_is_serialisable.
Print Assumptions C35_histories_only_grow.
Print Assumptions C35_the_order_determines_everything.
Print Assumptions C35_server_data_are_reachable.
Print Assumptions C33_every_stream_has_one_division_into_lines.
Print Assumptions C33_executed_lines_are_the_lines_of_the_stream.
Print Assumptions C33_segmentation_is_irrelevant.
Print Assumptions C33_every_complete_line_can_be_processed.
Print Assumptions C34_one_answer_line_per_line.
Print Assumptions C34_nothing_after_close.
Print Assumptions C30_refusal.
Print Assumptions C30_unauthenticated_sessions_change_no_data.
Print Assumptions C30_unauthenticated_sessions_learn_nothing.
Print Assumptions C30_unauthenticated_sessions_do_no_harm.
Print Assumptions C31_authenticated_only_by_the_password.
Print Assumptions C31_the_password_authenticates.
Print Assumptions C37_every_statement_is_logged.
Print Assumptions C37_the_log_is_the_history.
Print Assumptions C37_what_is_written_is_determined.
Print Assumptions C40_delivered_iff_sent_at_once.
Print Assumptions C40_answers_can_be_arbitrarily_long.
Print Assumptions C40_every_answer_is_delivered_refuted.
Print Assumptions C43_accept_errors_are_final.
Print Assumptions C43_otherwise_every_connection_is_accepted.
Print Assumptions C44_other_sessions_are_untouched.
Print Assumptions C44_only_processing_a_line_touches_data.
Print Assumptions C44_nothing_after_failure.
Print Assumptions C45_kinds_of_undefined_behaviour.
Print Assumptions C45_undefined_behaviour_has_a_cause.
