(** Proofs for the server as a whole. *)
From Verif Require Import Bytes StrUtils Grammar Outcome Parser Num Containers Instance Context Server.
From Verif Require Import Lemmas StringLit Proof_Grammar Proof_Parser Proof_Exec Proof_Inv Proof_Literal Proof_Receive Proof_Context Proof_Names Proof_Text Props_State Props_Text.
From Verif Require Import Spec_Grammar Spec_State Spec_Names Spec_Text Spec_Server.
Local Open Scope nat_scope.
Local Open Scope list_scope.

(** ** lines *)
Lemma ceq_nl x : ceq c_nl x = true <-> x = NEWLINE.
Proof. rewrite ceq_eq. change c_nl with NEWLINE. split; congruence. Qed.
Lemma has_newline_iff b : has_newline b = true <-> In NEWLINE b.
Proof.
  unfold has_newline. rewrite existsb_exists. split.
  - intros (x & Hx & E). apply ceq_nl in E. now subst.
  - intros H. exists NEWLINE. split; [exact H|]. now apply ceq_nl.
Qed.
Lemma has_newline_false b : has_newline b = false <-> ~ In NEWLINE b.
Proof. rewrite <- has_newline_iff. destruct (has_newline b); split; try congruence; tauto. Qed.
Lemma getline_spec b : In NEWLINE b -> b = with_newline (fst (getline b)) ++ snd (getline b) /\ ~ In NEWLINE (fst (getline b)).
Proof.
  induction b as [|x b IH]; [intros []|]. intros H. cbn [getline]. destruct (ceq x c_nl) eqn:E.
  - apply ceq_eq in E. subst x. cbn. split; auto.
  - assert (Hx : x <> NEWLINE) by (apply ceq_neq in E; exact E). destruct H as [H|H]; [congruence|].
    destruct (IH H) as [E1 E2]. cbn [fst snd]. split.
    + cbn. f_equal. exact E1.
    + intros [K|K]; auto.
Qed.
Lemma lines_unique ls1 : forall ls2 r1 r2, Forall (fun l => ~ In NEWLINE l) ls1 -> Forall (fun l => ~ In NEWLINE l) ls2 ->
  flat_map with_newline ls1 ++ r1 = flat_map with_newline ls2 ++ r2 ->
  (exists k, ls2 = ls1 ++ k /\ r1 = flat_map with_newline k ++ r2) \/ (exists k, ls1 = ls2 ++ k /\ r2 = flat_map with_newline k ++ r1).
Proof.
  assert (Cut : forall a b x y : bytes, ~ In NEWLINE a -> ~ In NEWLINE b -> a ++ NEWLINE :: x = b ++ NEWLINE :: y -> a = b /\ x = y).
  { induction a as [|u a IH]; intros [|v b] x y Ha Hb E; cbn in E.
    - inversion E; auto.
    - inversion E; subst. exfalso. apply Hb. now left.
    - inversion E; subst. exfalso. apply Ha. now left.
    - inversion E; subst. destruct (IH b x y) as [-> ->]; auto; intros K; [apply Ha|apply Hb]; now right. }
  induction ls1 as [|l ls1 IH]; intros ls2 r1 r2 F1 F2 E; [left; exists ls2; auto|].
  destruct ls2 as [|l2 ls2]; [right; exists (l :: ls1); auto|]. inversion F1; subst. inversion F2; subst.
  cbn [flat_map] in E. unfold with_newline in E at 1 3. rewrite <- !app_assoc in E. cbn [app] in E. apply Cut in E as [-> E]; auto.
  destruct (IH ls2 r1 r2) as [(k & -> & ->)|(k & -> & ->)]; auto; [left|right]; exists k; auto.
Qed.
Lemma in_flat_newline ls r : ls <> [] -> In NEWLINE (flat_map with_newline ls ++ r).
Proof.
  destruct ls as [|l ls]; [congruence|]. intros _. cbn. unfold with_newline. rewrite !in_app_iff. left. left. right. now left.
Qed.
Lemma lines_of_unique b ls1 r1 ls2 r2 : lines_of b ls1 r1 -> lines_of b ls2 r2 -> ls1 = ls2 /\ r1 = r2.
Proof.
  intros (E1 & F1 & N1) (E2 & F2 & N2). rewrite E1 in E2. destruct (lines_unique _ _ _ _ F1 F2 E2) as [(k & -> & ->)|(k & -> & ->)].
  - destruct k; [now rewrite app_nil_r|]. exfalso. apply N1, in_flat_newline. discriminate.
  - destruct k; [now rewrite app_nil_r|]. exfalso. apply N2, in_flat_newline. discriminate.
Qed.
Lemma lines_of_exists b : exists ls r, lines_of b ls r.
Proof.
  induction b as [|x b (ls & r & E & F & N)]; [exists [], []; repeat constructor; intros []|].
  destruct (ascii_dec x NEWLINE) as [->|Hx].
  - exists ([] :: ls), r. split; [cbn; now rewrite E|]. split; auto.
  - destruct ls as [|l ls].
    + exists [], (x :: r). split; [cbn; now rewrite E|]. split; auto. intros [K|K]; auto.
    + inversion F; subst. exists ((x :: l) :: ls), r. split; [reflexivity|]. split; auto. constructor; auto. intros [K|K]; auto.
Qed.

(** ** one line *)
Lemma is_connection_true a : is_connection a = true <-> a = B "Connection".
Proof. unfold is_connection. apply seq_eqb_eq. Qed.
Lemma actor_of_spec line : exists a, actor_of line = Ok a /\ (is_connection a = true <-> connection_line line).
Proof.
  unfold actor_of, connection_line. destruct (statement_dec line) as [(a & m & r & H)|H].
  - rewrite (proj2 (parse_iff _ _ _ _) H). exists a. split; [reflexivity|]. rewrite is_connection_true. split.
    + intros ->. eauto.
    + intros (m2 & r2 & H2). exact (proj1 (statement_unique _ _ _ _ _ _ _ H H2)).
  - rewrite parse_not_statement by auto. exists []. split; [reflexivity|]. split; [discriminate|]. intros (m & r & H'). exfalso. eapply H; eauto.
Qed.
Lemma runs_some srt pw c s line c' s' ans : runs srt pw c (Some s) line c' s' ans -> exists s1, s' = Some s1.
Proof.
  intros R. destruct (statement_dec line) as [(a & m & r & H)|H].
  - destruct (bytes_dec a (B "Connection")) as [->|Ha].
    + destruct (auth_run _ _ _ _ _ _ _ _ _ _ H R) as (s1 & -> & _). eauto.
    + rewrite (session_unchanged _ _ _ _ _ _ _ _ _ _ _ H Ha R). eauto.
  - destruct (C26_not_a_statement _ _ _ _ _ _ _ _ H R) as [_ ->]. eauto.
Qed.
Lemma connection_dec line : {connection_line line} + {~ connection_line line}.
Proof.
  destruct (is_connection (match actor_of line with Ok a => a | _ => [] end)) eqn:E.
  - left. destruct (actor_of_spec line) as (a & Ha & Hi). rewrite Ha in E. now apply Hi.
  - right. destruct (actor_of_spec line) as (a & Ha & Hi). rewrite Ha in E. intros K. apply Hi in K. congruence.
Qed.
Definition written (o : outcome) : option str :=
  match o with Refused => Some ERR_NOT_AUTH | Answered a => Some a | Closed _ => None end.
Lemma execute_not_throw srt pw line w e : snd (execute srt pw line w) <> Throw e.
Proof.
  unfold execute. destruct (run_statement srt pw line w) as [w1 [a|x|u]]; cbn; discriminate.
Qed.
Lemma handle_line_spec srt pw line c s :
  (exists u, handle_line srt pw line c s = UB u /\ undefined_behaviour srt pw c (Some s) line u /\
     (is_authenticated s = true \/ connection_line line)) \/
  exists c' s' o, handle_line srt pw line c s = Ok (c', s', written o) /\ processes srt pw c s line c' s' o.
Proof.
  unfold handle_line. destruct (actor_of_spec line) as (a & -> & Ha). cbn [rbind].
  destruct (is_authenticated s || is_connection a) eqn:G.
  - assert (Hg : is_authenticated s = true \/ connection_line line).
    { apply orb_prop in G as [G|G]; [now left|right; now apply Ha]. }
    destruct (execute srt pw line {| w_ctx := c; w_session := Some s |}) as [[c1 s1] r] eqn:E. cbn [fst snd w_ctx w_session].
    destruct r as [ans|e|u]; cbn [rbind].
    + right. assert (R : runs srt pw c (Some s) line c1 s1 ans) by exact E.
      destruct (runs_some _ _ _ _ _ _ _ _ R) as (s2 & ->). destruct (is_connected s2) eqn:Ec.
      * exists c1, s2, (Answered ans). split; [reflexivity|]. now constructor.
      * exists c1, s2, (Closed ans). split; [reflexivity|]. now constructor.
    + exfalso. apply (execute_not_throw srt pw line {| w_ctx := c; w_session := Some s |} e). now rewrite E.
    + left. exists u. split; [reflexivity|]. split; auto. unfold undefined_behaviour. now rewrite E.
  - apply orb_false_iff in G as [G1 G2]. right. exists c, s, Refused. split; [reflexivity|]. constructor; auto.
    intros K. apply Ha in K. congruence.
Qed.
Lemma processes_unique srt pw c s line c1 s1 o1 c2 s2 o2 :
  processes srt pw c s line c1 s1 o1 -> processes srt pw c s line c2 s2 o2 -> c1 = c2 /\ s1 = s2 /\ o1 = o2.
Proof.
  intros H1 H2. inversion H1; subst; inversion H2; subst; auto;
    try (exfalso; match goal with H : _ \/ _ |- _ => destruct H; congruence end);
    match goal with A : runs _ _ _ _ _ _ _ _, B : runs _ _ _ _ _ _ _ _ |- _ => destruct (runs_unique _ _ _ _ _ _ _ _ _ _ _ A B) as (E1 & E2 & E3) end;
    inversion E2; subst; auto; congruence.
Qed.

(** ** connections *)
Lemma set_conn_same l sid c cn : nth_error l sid = Some cn -> nth_error (set_conn l sid c) sid = Some c.
Proof.
  intros H. assert (L : sid < length l) by (apply nth_error_Some; congruence). unfold set_conn.
  rewrite nth_error_app2; rewrite firstn_length_le by lia; [|lia]. now rewrite Nat.sub_diag.
Qed.
Lemma nth_error_skipn {A} (l : list A) n k : nth_error (skipn n l) k = nth_error l (n + k).
Proof. revert l; induction n as [|n IH]; intros [|x l]; cbn; auto. now destruct k. Qed.
Lemma nth_error_firstn {A} (l : list A) n k : k < n -> nth_error (firstn n l) k = nth_error l k.
Proof. revert l k; induction n as [|n IH]; intros [|x l] [|k] H; cbn; auto; try lia. apply IH. lia. Qed.
Lemma set_conn_other l sid c cn k : nth_error l sid = Some cn -> k <> sid -> nth_error (set_conn l sid c) k = nth_error l k.
Proof.
  intros H Hk. assert (L : sid < length l) by (apply nth_error_Some; congruence). unfold set_conn.
  destruct (Nat.lt_ge_cases k sid) as [Hl|Hl].
  - rewrite nth_error_app1 by (rewrite firstn_length_le; lia). now apply nth_error_firstn.
  - rewrite nth_error_app2; rewrite firstn_length_le by lia; [|lia].
    destruct (k - sid) as [|d] eqn:E; [lia|]. cbn [nth_error]. rewrite nth_error_skipn. f_equal. lia.
Qed.
Lemma set_conn_length l sid c cn : nth_error l sid = Some cn -> length (set_conn l sid c) = length l.
Proof.
  intros H. assert (L : sid < length l) by (apply nth_error_Some; congruence). unfold set_conn.
  rewrite app_length. cbn [length]. rewrite firstn_length_le, skipn_length by lia. lia.
Qed.
Lemma set_conn_inv l sid c cn k x : nth_error l sid = Some cn -> nth_error (set_conn l sid c) k = Some x ->
  (k = sid /\ x = c) \/ (k <> sid /\ nth_error l k = Some x).
Proof.
  intros H Hk. destruct (Nat.eq_dec k sid) as [->|Hn].
  - rewrite (set_conn_same _ _ _ _ H) in Hk. inversion Hk; auto.
  - rewrite (set_conn_other _ _ _ _ _ H Hn) in Hk. auto.
Qed.

(** ** what arrives *)
Fixpoint opened (accepting : bool) (n : nat) (es : list event) : bool * nat :=
  match es with
  | [] => (accepting, n)
  | Accept :: r => opened accepting (if accepting then S n else n) r
  | AcceptError :: r => opened false n r
  | _ :: r => opened accepting n r
  end.
Lemma opened_app es1 : forall a n es2, opened a n (es1 ++ es2) = opened (fst (opened a n es1)) (snd (opened a n es1)) es2.
Proof. induction es1 as [|e es1 IH]; intros a n es2; [reflexivity|]. destruct e; cbn [app opened]; apply IH. Qed.
Lemma arrives_app sid es1 : forall a n es2,
  arrives a n (es1 ++ es2) sid = arrives a n es1 sid ++ arrives (fst (opened a n es1)) (snd (opened a n es1)) es2 sid.
Proof.
  induction es1 as [|e es1 IH]; intros a n es2; [reflexivity|]. destruct e; cbn [app opened arrives]; rewrite IH; auto. now rewrite app_assoc.
Qed.
Lemma opened_mono es : forall a n, n <= snd (opened a n es).
Proof.
  induction es as [|e es IH]; intros a n; [reflexivity|]. destruct e; cbn [opened]; auto.
  destruct a; [|apply IH]. specialize (IH true (S n)). lia.
Qed.
Lemma arrives_none es sid : forall a n, snd (opened a n es) <= sid -> arrives a n es sid = [].
Proof.
  induction es as [|e es IH]; intros a n H; [reflexivity|]. destruct e; cbn [arrives opened] in *; auto.
  rewrite IH by auto. rewrite app_nil_r. destruct (Nat.eqb sid0 sid) eqn:E; [|reflexivity]. apply Nat.eqb_eq in E. subst.
  destruct (Nat.ltb sid n) eqn:E; [|reflexivity]. apply Nat.ltb_lt in E. assert (X := opened_mono es a n). lia.
Qed.

(** ** histories *)
Lemma entries_app sid h1 h2 : entries_of sid (h1 ++ h2) = entries_of sid h1 ++ entries_of sid h2.
Proof. apply filter_app. Qed.
Lemma entries_one sid k line o :
  entries_of sid [{| e_sid := k; e_line := line; e_outcome := o |}] = if k =? sid then [{| e_sid := k; e_line := line; e_outcome := o |}] else [].
Proof. reflexivity. Qed.
Lemma serial_app srt pw c ss h1 c1 ss1 h2 c2 ss2 : serial srt pw c ss h1 c1 ss1 -> serial srt pw c1 ss1 h2 c2 ss2 ->
  serial srt pw c ss (h1 ++ h2) c2 ss2.
Proof.
  intros H1 H2. induction H2; [now rewrite app_nil_r|]. rewrite app_assoc. econstructor; eauto.
Qed.

(** ** the invariant *)
Record conn_inv (h : list entry) (sid : nat) (b : bytes) (cn : conn) : Prop := {
  ci_in : b = flat_map with_newline (lines_in sid h) ++ c_streambuf cn ++ c_socket cn;
  ci_lines : Forall (fun l => ~ In NEWLINE l) (lines_in sid h);
  ci_out : c_sent cn = flat_map with_newline (answers_in sid h);
  ci_close : forall before e after, entries_of sid h = before ++ e :: after -> closes e -> after = [];
  ci_hung : hung_up cn <-> exists before e, entries_of sid h = before ++ [e] /\ closes e;
  ci_live : c_phase cn <> Gone -> is_connected (c_session cn) = true }.
Record inv (srt : sorter) (pw : bytes) (c0 : context) (es : list event) (h : list entry) (sv : server) (ss : nat -> session) : Prop := {
  i_pw : sv_password sv = pw;
  i_acc : sv_accepting sv = fst (opened true 0 es);
  i_len : length (sv_conns sv) = snd (opened true 0 es);
  i_serial : serial srt pw c0 (fun _ => fresh pw) h (sv_ctx sv) ss;
  i_who : forall e, In e h -> e_sid e < length (sv_conns sv);
  i_new : forall sid, length (sv_conns sv) <= sid -> ss sid = fresh pw;
  i_conn : forall sid cn, nth_error (sv_conns sv) sid = Some cn -> c_session cn = ss sid /\ conn_inv h sid (arrived es sid) cn }.

Lemma fresh_new pw : new_session pw = fresh pw.
Proof.
  unfold new_session, fresh. f_equal. destruct (bytes_dec pw []) as [->|H]; [reflexivity|].
  destruct (seq_eqb pw []) eqn:E; [|reflexivity]. apply seq_eqb_eq in E. contradiction.
Qed.
Lemma entries_none sid h : (forall e, In e h -> e_sid e <> sid) -> entries_of sid h = [].
Proof.
  intros H. unfold entries_of. induction h as [|e h IH]; [reflexivity|]. cbn [filter].
  destruct (e_sid e =? sid) eqn:E; [apply Nat.eqb_eq in E; exfalso; apply (H e); [now left|exact E]|]. apply IH. intros x Hx. apply H. now right.
Qed.

Lemma conn_inv_quiet h sid b x cn cn' :
  conn_inv h sid b cn -> c_session cn' = c_session cn -> c_sent cn' = c_sent cn -> (c_phase cn' <> Gone -> c_phase cn <> Gone) ->
  c_streambuf cn' ++ c_socket cn' = (c_streambuf cn ++ c_socket cn) ++ x ->
  conn_inv h sid (b ++ x) cn'.
Proof.
  intros [A1 A2 A3 A4 A5 A6] S T P Ew. constructor; auto.
  - rewrite A1, Ew. now rewrite <- !app_assoc.
  - congruence.
  - unfold hung_up in *. now rewrite S.
  - intros K. rewrite S. auto.
Qed.
Lemma conn_inv_same h sid b cn cn' :
  conn_inv h sid b cn -> c_session cn' = c_session cn -> c_sent cn' = c_sent cn -> (c_phase cn' <> Gone -> c_phase cn <> Gone) ->
  c_streambuf cn' ++ c_socket cn' = c_streambuf cn ++ c_socket cn -> conn_inv h sid b cn'.
Proof.
  intros H S T P E. rewrite <- (app_nil_r b). apply (conn_inv_quiet h sid b [] cn cn' H S T P). now rewrite app_nil_r.
Qed.

Section Step.
Context (srt : sorter) (pw : bytes) (c0 : context) (es : list event) (h : list entry) (sv : server) (ss : nat -> session).
Context (I : inv srt pw c0 es h sv ss).
Lemma arrived_snoc e sid : arrived (es ++ [e]) sid = arrived es sid ++ arrives (sv_accepting sv) (length (sv_conns sv)) [e] sid.
Proof using I. unfold arrived. rewrite arrives_app. now rewrite (i_acc _ _ _ _ _ _ _ I), (i_len _ _ _ _ _ _ _ I). Qed.
Lemma opened_snoc e : opened true 0 (es ++ [e]) = opened (sv_accepting sv) (length (sv_conns sv)) [e].
Proof using I. rewrite opened_app. now rewrite (i_acc _ _ _ _ _ _ _ I), (i_len _ _ _ _ _ _ _ I). Qed.
(** Events that neither execute anything nor accept. *)
Lemma inv_quiet e sid cn cn' : nth_error (sv_conns sv) sid = Some cn ->
  (forall k, k <> sid -> arrives (sv_accepting sv) (length (sv_conns sv)) [e] k = []) ->
  opened (sv_accepting sv) (length (sv_conns sv)) [e] = (sv_accepting sv, length (sv_conns sv)) ->
  (conn_inv h sid (arrived es sid) cn -> conn_inv h sid (arrived es sid ++ arrives (sv_accepting sv) (length (sv_conns sv)) [e] sid) cn') ->
  c_session cn' = c_session cn ->
  inv srt pw c0 (es ++ [e]) h (with_conn sv sid cn') ss.
Proof using I.
  intros H Ha Ho Hc Hs. assert (L : length (sv_conns (with_conn sv sid cn')) = length (sv_conns sv)) by (cbn; eapply set_conn_length; eauto).
  constructor.
  - apply (i_pw _ _ _ _ _ _ _ I).
  - rewrite opened_snoc, Ho. reflexivity.
  - rewrite opened_snoc, Ho. exact L.
  - apply (i_serial _ _ _ _ _ _ _ I).
  - intros x Hx. rewrite L. now apply (i_who _ _ _ _ _ _ _ I).
  - intros k Hk. rewrite L in Hk. now apply (i_new _ _ _ _ _ _ _ I).
  - intros k x Hx. rewrite arrived_snoc. cbn in Hx. apply (set_conn_inv _ _ _ _ _ _ H) in Hx as [[-> ->]|[Hk Hx]].
    + destruct (i_conn _ _ _ _ _ _ _ I _ _ H) as [E1 E2]. split; [congruence|auto].
    + rewrite Ha by auto. rewrite app_nil_r. now apply (i_conn _ _ _ _ _ _ _ I).
Qed.
Lemma inv_nothing e : (forall k, arrives (sv_accepting sv) (length (sv_conns sv)) [e] k = []) ->
  opened (sv_accepting sv) (length (sv_conns sv)) [e] = (sv_accepting sv, length (sv_conns sv)) ->
  inv srt pw c0 (es ++ [e]) h sv ss.
Proof using I.
  intros Ha Ho. destruct I as [A1 A2 A3 A4 A5 A6 A7]. constructor; auto.
  - now rewrite opened_snoc, Ho.
  - now rewrite opened_snoc, Ho.
  - intros k x Hx. rewrite arrived_snoc, Ha, app_nil_r. auto.
Qed.
End Step.

Lemma snoc_split {A} (l : list A) : l = [] \/ exists l' x, l = l' ++ [x].
Proof. induction l as [|x l _] using rev_ind; eauto. Qed.
Lemma lines_snoc sid h line o :
  lines_in sid (h ++ [{| e_sid := sid; e_line := line; e_outcome := o |}]) = lines_in sid h ++ [line].
Proof. unfold lines_in. rewrite entries_app, entries_one, Nat.eqb_refl, map_app. reflexivity. Qed.
Lemma answers_snoc sid h line o :
  answers_in sid (h ++ [{| e_sid := sid; e_line := line; e_outcome := o |}]) = answers_in sid h ++ answer_to o.
Proof. unfold answers_in. rewrite entries_app, entries_one, Nat.eqb_refl, flat_map_app. cbn. now rewrite app_nil_r. Qed.
Lemma other_entries k sid h line o : k <> sid -> entries_of k (h ++ [{| e_sid := sid; e_line := line; e_outcome := o |}]) = entries_of k h.
Proof.
  intros H. rewrite entries_app, entries_one. destruct (sid =? k) eqn:E; [apply Nat.eqb_eq in E; congruence|]. apply app_nil_r.
Qed.
Lemma conn_inv_other k sid h line o b cn : k <> sid -> conn_inv h k b cn ->
  conn_inv (h ++ [{| e_sid := sid; e_line := line; e_outcome := o |}]) k b cn.
Proof.
  intros H [A1 A2 A3 A4 A5 A6]. unfold lines_in, answers_in in *. constructor; unfold lines_in, answers_in; rewrite ?(other_entries _ _ _ _ _ H); auto.
Qed.
Lemma conn_inv_entry srt pw c c' sid h b cn cn' line rest s' o :
  conn_inv h sid b cn -> c_phase cn = Reading -> c_streambuf cn = with_newline line ++ rest -> ~ In NEWLINE line ->
  processes srt pw c (c_session cn) line c' s' o -> c_session cn' = s' -> c_streambuf cn' = rest -> c_socket cn' = c_socket cn ->
  c_sent cn' = c_sent cn ++ flat_map with_newline (answer_to o) -> (c_phase cn' <> Gone -> is_connected s' = true) ->
  conn_inv (h ++ [{| e_sid := sid; e_line := line; e_outcome := o |}]) sid b cn'.
Proof.
  intros [A1 A2 A3 A4 A5 A6] P B N Pr S' B' K' T' G'. assert (C : is_connected (c_session cn) = true) by (apply A6; congruence).
  assert (E : entries_of sid (h ++ [{| e_sid := sid; e_line := line; e_outcome := o |}]) = entries_of sid h ++ [{| e_sid := sid; e_line := line; e_outcome := o |}])
    by now rewrite entries_app, entries_one, Nat.eqb_refl.
  constructor.
  - rewrite A1, B, B', K', lines_snoc, flat_map_app. cbn. now rewrite app_nil_r, <- !app_assoc.
  - rewrite lines_snoc. apply Forall_app. auto.
  - rewrite T', A3, answers_snoc, flat_map_app. reflexivity.
  - rewrite E. intros before e after X Hc. destruct (snoc_split after) as [|(a & y & ->)]; auto. exfalso.
    rewrite app_comm_cons, app_assoc in X. apply app_inj_tail in X as [X _]. rewrite (A4 _ _ _ X Hc) in X.
    assert (H : hung_up cn) by (apply A5; eauto). unfold hung_up in H. congruence.
  - unfold hung_up. rewrite E, S'. split.
    + intros H. eexists _, _. split; [reflexivity|]. inversion Pr; subst; try congruence. now exists ans.
    + intros (before & e & X & ans & Hc). apply app_inj_tail in X as [_ <-]. cbn in Hc. subst o. now inversion Pr.
  - rewrite S'. auto.
Qed.

Lemma step_inv srt pw c0 es h sv ss e : inv srt pw c0 es h sv ss -> sv_crash sv = None -> sv_crash (step srt sv e) = None ->
  exists h' ss', inv srt pw c0 (es ++ [e]) (h ++ h') (step srt sv e) ss' /\
    (forall x, In x h' -> exists cn, nth_error (sv_conns sv) (e_sid x) = Some cn /\ c_phase cn = Reading).
Proof.
  intros I Hc. unfold step. rewrite Hc.
  assert (None_ : (forall k, arrives (sv_accepting sv) (length (sv_conns sv)) [e] k = []) ->
    opened (sv_accepting sv) (length (sv_conns sv)) [e] = (sv_accepting sv, length (sv_conns sv)) ->
    exists h' ss', inv srt pw c0 (es ++ [e]) (h ++ h') sv ss' /\ (forall x, In x h' -> exists cn, nth_error (sv_conns sv) (e_sid x) = Some cn /\ c_phase cn = Reading)).
  { intros H1 H2. exists [], ss. rewrite app_nil_r. split; [|intros x []]. now apply inv_nothing. }
  destruct e as [| |sid bytes|sid n|sid k|sid|sid].
  - (* Accept *) destruct (sv_accepting sv) eqn:Ea; [|intros _; apply None_; auto]. intros _. exists [], ss. rewrite app_nil_r. split; [|intros x []].
    assert (O := opened_snoc _ _ _ _ _ _ _ I Accept). rewrite Ea in O. cbn [opened] in O. destruct I as [A1 A2 A3 A4 A5 A6 A7].
    assert (L : forall x, length (sv_conns sv ++ [x]) = S (length (sv_conns sv))) by (intros; rewrite app_length; cbn; lia).
    constructor; cbn [sv_password sv_accepting sv_conns sv_ctx]; auto.
    + now rewrite O.
    + now rewrite O, L.
    + intros x Hx. rewrite L. specialize (A5 x Hx). lia.
    + intros sid Hs. rewrite L in Hs. apply A6. lia.
    + intros sid cn Hn. unfold arrived. rewrite arrives_app. cbn [arrives]. rewrite app_nil_r.
      destruct (Nat.lt_ge_cases sid (length (sv_conns sv))) as [Hl|Hl].
      * rewrite nth_error_app1 in Hn by exact Hl. auto.
      * rewrite nth_error_app2 in Hn by exact Hl. destruct (sid - length (sv_conns sv)) as [|d] eqn:Ed; [|destruct d; discriminate].
        inversion Hn; subst cn. clear Hn. unfold new_conn. cbn [c_session]. rewrite A1, fresh_new. split; [symmetry; apply A6; lia|].
        assert (N : entries_of sid h = []) by (apply entries_none; intros x Hx; specialize (A5 x Hx); lia).
        rewrite arrives_none by lia.
        constructor; unfold lines_in, answers_in; rewrite ?N; cbn; auto.
        -- intros before x after X. destruct before; discriminate.
        -- unfold hung_up. cbn. split; [discriminate|]. intros (before & x & X & _). destruct before; discriminate.
  - (* AcceptError *) intros _. exists [], ss. rewrite app_nil_r. split; [|intros x []]. assert (O := opened_snoc _ _ _ _ _ _ _ I AcceptError). cbn [opened] in O.
    destruct I as [A1 A2 A3 A4 A5 A6 A7]. constructor; cbn [sv_password sv_accepting sv_conns sv_ctx]; auto.
    + now rewrite O.
    + now rewrite O.
    + intros sid cn Hn. unfold arrived. rewrite arrives_app. cbn [arrives]. rewrite app_nil_r. auto.
  - (* Arrive *) destruct (nth_error (sv_conns sv) sid) as [cn|] eqn:Hn; intros _.
    + exists [], ss. rewrite app_nil_r. split; [|intros x []]. eapply inv_quiet; eauto.
      * intros k Hk. cbn [arrives]. destruct (Nat.eqb sid k) eqn:E; [apply Nat.eqb_eq in E; congruence|reflexivity].
      * intros C. cbn [arrives]. rewrite Nat.eqb_refl, app_nil_r. assert (L : sid < length (sv_conns sv)) by (apply nth_error_Some; congruence).
        apply Nat.ltb_lt in L. rewrite L. eapply conn_inv_quiet; eauto. cbn. now rewrite app_assoc.
    + apply None_; auto. intros k. cbn [arrives]. rewrite app_nil_r. destruct (Nat.eqb sid k); [|reflexivity].
      apply nth_error_None in Hn. apply Nat.ltb_ge in Hn. now rewrite Hn.
  - (* ReadSome *) destruct (nth_error (sv_conns sv) sid) as [cn|] eqn:Hn; [|intros _; apply None_; auto].
    destruct (c_phase cn) eqn:Hp; try (intros _; apply None_; auto; fail).
    destruct (has_newline (c_streambuf cn)); intros _; [apply None_; auto|].
    exists [], ss. rewrite app_nil_r. split; [|intros x []]. eapply inv_quiet; eauto. intros C. cbn [arrives]. rewrite app_nil_r.
    eapply conn_inv_same; eauto; [intros _; congruence|]. cbn. rewrite <- app_assoc, firstn_skipn. reflexivity.
  - (* Handle *) destruct (nth_error (sv_conns sv) sid) as [cn|] eqn:Hn; [|intros _; apply None_; auto].
    destruct (c_phase cn) eqn:Hp; try (intros _; apply None_; auto; fail).
    destruct (has_newline (c_streambuf cn)) eqn:Hl; [|intros _; apply None_; auto].
    apply has_newline_iff in Hl. destruct (getline_spec _ Hl) as [Eb Nb]. unfold handle.
    set (line := fst (getline (c_streambuf cn))) in *. set (rest := snd (getline (c_streambuf cn))) in *.
    destruct (handle_line_spec srt (sv_password sv) line (sv_ctx sv) (c_session cn)) as [(u & -> & _)|(c' & s' & o & -> & Pr)]; [discriminate|].
    rewrite (i_pw _ _ _ _ _ _ _ I) in Pr.
    assert (Fin : forall ph sent, c_sent cn ++ flat_map with_newline (answer_to o) = sent -> (ph <> Gone -> is_connected s' = true) ->
      exists h' ss', inv srt pw c0 (es ++ [Handle sid k]) (h ++ h')
        {| sv_password := sv_password sv; sv_ctx := c'; sv_conns := set_conn (sv_conns sv) sid
             {| c_session := s'; c_phase := ph; c_socket := c_socket cn; c_streambuf := rest; c_sent := sent |};
           sv_accepting := sv_accepting sv; sv_crash := sv_crash sv |} ss' /\ (forall x, In x h' -> exists cn, nth_error (sv_conns sv) (e_sid x) = Some cn /\ c_phase cn = Reading)).
    { intros ph sent Es Hg. exists [{| e_sid := sid; e_line := line; e_outcome := o |}], (fun k => if k =? sid then s' else ss k).
      split; [|intros x [<-|[]]; cbn [e_sid]; eauto].
      assert (O := opened_snoc _ _ _ _ _ _ _ I (Handle sid k)). cbn [opened] in O.
      assert (Ar : forall j, arrived (es ++ [Handle sid k]) j = arrived es j) by (intros j; rewrite (arrived_snoc _ _ _ _ _ _ _ I); cbn; apply app_nil_r).
      assert (L : sid < length (sv_conns sv)) by (apply nth_error_Some; congruence).
      assert (Ls : forall x, length (set_conn (sv_conns sv) sid x) = length (sv_conns sv)) by (intros; eapply set_conn_length; eauto).
      destruct I as [A1 A2 A3 A4 A5 A6 A7]. destruct (A7 _ _ Hn) as [E1 E2].
      constructor; cbn [sv_password sv_accepting sv_conns sv_ctx]; rewrite ?Ls; auto.
      - now rewrite O.
      - now rewrite O.
      - eapply serial_more; eauto. rewrite <- E1. exact Pr.
      - intros x Hx. apply in_app_or in Hx as [Hx|[<-|[]]]; auto.
      - intros j Hj. destruct (j =? sid) eqn:E; [apply Nat.eqb_eq in E; lia|]. auto.
      - intros j x Hx. rewrite Ar. apply (set_conn_inv _ _ _ _ _ _ Hn) in Hx as [[-> ->]|[Hk Hx]].
        + rewrite Nat.eqb_refl. split; [reflexivity|]. eapply conn_inv_entry; eauto.
        + destruct (j =? sid) eqn:E; [apply Nat.eqb_eq in E; congruence|]. destruct (A7 _ _ Hx) as [E3 E4]. split; auto. now apply conn_inv_other. }
    inversion Pr; subst; cbn [written].
    + unfold do_write. destruct (_ <? _)%nat; cbn; intros Hok; [discriminate|]. apply Fin; [reflexivity|].
      intros _. apply (ci_live _ _ _ _ (proj2 (i_conn _ _ _ _ _ _ _ I _ _ Hn))). congruence.
    + unfold do_write. destruct (_ <? _)%nat; cbn; intros Hok; [discriminate|]. apply Fin; [|auto]. cbn. now rewrite app_nil_r.
    + intros _. apply Fin; [|congruence]. cbn. apply app_nil_r.
  - (* WriteDone *) destruct (nth_error (sv_conns sv) sid) as [cn|] eqn:Hn; [|intros _; apply None_; auto].
    destruct (c_phase cn) eqn:Hp; intros _; try (apply None_; auto; fail).
    exists [], ss. rewrite app_nil_r. split; [|intros x []]. eapply inv_quiet; eauto. intros C. cbn [arrives]. rewrite app_nil_r.
    eapply conn_inv_same; eauto. intros _; congruence.
  - (* Fail *) destruct (nth_error (sv_conns sv) sid) as [cn|] eqn:Hn; intros _; [|apply None_; auto].
    exists [], ss. rewrite app_nil_r. split; [|intros x []]. eapply inv_quiet; eauto. intros C. cbn [arrives]. rewrite app_nil_r.
    eapply conn_inv_same; eauto.
Qed.
Lemma run_snoc srt sv es e : run srt sv (es ++ [e]) = step srt (run srt sv es) e.
Proof. unfold run. apply fold_left_app. Qed.
Lemma run_app srt sv es es' : run srt sv (es ++ es') = run srt (run srt sv es) es'.
Proof. unfold run. apply fold_left_app. Qed.
Lemma crash_sticky srt sv e : sv_crash sv <> None -> step srt sv e = sv.
Proof. unfold step. destruct (sv_crash sv); congruence. Qed.
Lemma run_crashed srt es : forall sv, sv_crash sv <> None -> run srt sv es = sv.
Proof. induction es as [|e es IH]; intros sv H; [reflexivity|]. cbn. rewrite crash_sticky by exact H. now apply IH. Qed.
Lemma uncrashed_prefix srt sv es es' : sv_crash (run srt sv (es ++ es')) = None -> sv_crash (run srt sv es) = None.
Proof.
  rewrite run_app. destruct (sv_crash (run srt sv es)) eqn:E; auto. intros H. rewrite run_crashed in H; congruence.
Qed.
Lemma inv_start srt pw c0 : inv srt pw c0 [] [] (start pw c0) (fun _ => fresh pw).
Proof.
  constructor; try reflexivity.
  - constructor.
  - intros e [].
  - intros [|sid] cn H; discriminate.
Qed.
Lemma inv_extend srt pw c0 es es' h ss : inv srt pw c0 es h (run srt (start pw c0) es) ss -> sv_crash (run srt (start pw c0) (es ++ es')) = None ->
  exists h' ss', inv srt pw c0 (es ++ es') (h ++ h') (run srt (start pw c0) (es ++ es')) ss'.
Proof.
  intros I. induction es' as [|e es' IH] using rev_ind; intros H.
  - exists [], ss. now rewrite !app_nil_r.
  - rewrite app_assoc in *. assert (Hp := uncrashed_prefix _ _ _ _ H). destruct (IH Hp) as (h1 & ss1 & I1).
    rewrite run_snoc in *. destruct (step_inv _ _ _ _ _ _ _ e I1 Hp H) as (h2 & ss2 & I2 & _). exists (h1 ++ h2), ss2. now rewrite app_assoc.
Qed.
Lemma inv_exists srt pw c0 es : sv_crash (run srt (start pw c0) es) = None ->
  exists h ss, inv srt pw c0 es h (run srt (start pw c0) es) ss.
Proof. intros H. destruct (inv_extend srt pw c0 [] es [] _ (inv_start srt pw c0) H) as (h & ss & I). eauto. Qed.
Lemma accounts_of h sid b cn : conn_inv h sid b cn -> accounts h sid b cn.
Proof.
  intros [A1 A2 A3 A4 A5 A6]. constructor; auto. eexists. split; [exact A1|]. intros (_ & E & N). rewrite E, app_nil_r. exact N.
Qed.
Lemma inv_explains srt pw c0 es h ss : inv srt pw c0 es h (run srt (start pw c0) es) ss -> explains srt pw c0 es h.
Proof.
  intros [A1 A2 A3 A4 A5 A6 A7]. exists ss. split; auto. split.
  - intros e He. specialize (A5 e He). apply nth_error_Some in A5. destruct (nth_error _ _) eqn:E; eauto. congruence.
  - intros sid cn H. destruct (A7 _ _ H) as [E1 E2]. split; auto using accounts_of.
Qed.

(** ** histories are determined by the order of the lines *)
Definition named (e : entry) : nat * bytes := (e_sid e, e_line e).
Lemma serial_snoc_inv srt pw c ss h e c2 ss2 : serial srt pw c ss (h ++ [e]) c2 ss2 ->
  exists c1 ss1 s2, serial srt pw c ss h c1 ss1 /\ processes srt pw c1 (ss1 (e_sid e)) (e_line e) c2 s2 (e_outcome e) /\
    ss2 = (fun k => if k =? e_sid e then s2 else ss1 k).
Proof.
  intros H. inversion H as [E|h' c1 ss1 sid line c' s2 o H1 H2 E]; subst; [destruct h; discriminate|].
  apply app_inj_tail in E as [<- <-]. cbn. eauto 10.
Qed.
Lemma serial_nil_inv srt pw c ss c2 ss2 : serial srt pw c ss [] c2 ss2 -> c2 = c /\ ss2 = ss.
Proof. intros H. inversion H as [|h ? ? ? ? ? ? ? ? ? E]; subst; auto. destruct h; discriminate. Qed.
Lemma serial_unique srt pw c ss : forall h1 h2 c1 ss1 c2 ss2, serial srt pw c ss h1 c1 ss1 -> serial srt pw c ss h2 c2 ss2 ->
  map named h1 = map named h2 -> h1 = h2 /\ c1 = c2 /\ forall k, ss1 k = ss2 k.
Proof.
  induction h1 as [|e1 h1 IH] using rev_ind; intros h2 c1 ss1 c2 ss2 H1 H2 E.
  - destruct h2; [|discriminate]. apply serial_nil_inv in H1 as [-> ->], H2 as [-> ->]. auto.
  - destruct (snoc_split h2) as [->|(h2' & e2 & ->)]; [rewrite map_app in E; destruct (map named h1); discriminate|].
    rewrite !map_app in E. apply app_inj_tail in E as [E En]. cbn in En.
    apply serial_snoc_inv in H1 as (d1 & t1 & s1 & S1 & P1 & ->). apply serial_snoc_inv in H2 as (d2 & t2 & s2 & S2 & P2 & ->).
    destruct (IH _ _ _ _ _ S1 S2 E) as (<- & <- & Et). destruct e1 as [sid line o1], e2 as [sid2 line2 o2]. inversion En; subst sid2 line2. cbn [e_sid e_line e_outcome] in *.
    rewrite Et in P1. destruct (processes_unique _ _ _ _ _ _ _ _ _ _ _ P1 P2) as (<- & <- & <-). repeat split.
    intros k. destruct (k =? sid); auto.
Qed.
Lemma serial_prefix srt pw c ss h1 : forall h2 c2 ss2, serial srt pw c ss (h1 ++ h2) c2 ss2 -> exists c1 ss1, serial srt pw c ss h1 c1 ss1.
Proof.
  induction h2 as [|e h2 IH] using rev_ind; intros c2 ss2 H; [rewrite app_nil_r in H; eauto|].
  rewrite app_assoc in H. apply serial_snoc_inv in H as (c1 & ss1 & s2 & H & _). eauto.
Qed.
(** ** the history of one session *)
Inductive trace (srt : sorter) (pw : bytes) (s : session) : list entry -> session -> Prop :=
| trace_none : trace srt pw s [] s
| trace_more l s1 e c c' s2 : trace srt pw s l s1 -> processes srt pw c s1 (e_line e) c' s2 (e_outcome e) -> trace srt pw s (l ++ [e]) s2.
Lemma serial_trace srt pw c ss h c' ss' sid : serial srt pw c ss h c' ss' -> trace srt pw (ss sid) (entries_of sid h) (ss' sid).
Proof.
  induction 1 as [|h c1 ss1 k line c2 s2 o H IH P]; [constructor|]. rewrite entries_app, entries_one, (Nat.eqb_sym k sid).
  destruct (sid =? k) eqn:E.
  - apply Nat.eqb_eq in E. subst k. eapply trace_more; [exact IH|exact P].
  - now rewrite app_nil_r.
Qed.
Lemma runs_authenticated srt pw c s line c' s' ans : runs srt pw c (Some s) line c' (Some s') ans ->
  (is_authenticated s = true -> is_authenticated s' = true) /\
  (is_authenticated s = false -> is_authenticated s' = true ->
     exists a, statement line (B "Connection") (B "authenticateWithPassword:") [a] /\ denotes_string a pw).
Proof.
  intros R. destruct (statement_dec line) as [(a & m & r & H)|H].
  - destruct (bytes_dec a (B "Connection")) as [->|Ha].
    + destruct (auth_run _ _ _ _ _ _ _ _ _ _ H R) as (s1 & E & Es). inversion E; subst s1. clear E. split.
      * intros A. assert (X : is_authenticated (fst (session_receive pw m r s)) = true); [|rewrite Es in X; exact X].
        unfold session_receive. apply (dispatch_cases (fun mo => is_authenticated (fst (mo s)) = true)); [exact A|].
        repeat apply Forall_cons; try apply Forall_nil; cbn [fst snd]; intros _; [exact A|].
        unfold session_authenticate, bind, check_nargs, arg, throw_if, throw, ret, get, put, lift, undefined.
        destruct r as [|x [|]]; cbn [length Nat.eqb negb nth_error fst snd]; try exact A.
        destruct (is_string_value x); cbn [negb fst snd]; [|exact A].
        destruct (string_of x) as [v|e|u]; cbn [fst]; try exact A. destruct (seq_eqb v pw); cbn [fst]; [reflexivity|exact A].
      * intros A A'. assert (X := session_receive_auth pw m r s A). rewrite Es in X. destruct (X A') as (-> & x & -> & Hd). eauto.
    + assert (X := session_unchanged _ _ _ _ _ _ _ _ _ _ _ H Ha R). inversion X; subst. split; congruence.
  - destruct (C26_not_a_statement _ _ _ _ _ _ _ _ H R) as [_ X]. inversion X; subst. split; congruence.
Qed.
Lemma processes_authenticated srt pw c s line c' s' o : processes srt pw c s line c' s' o ->
  (is_authenticated s = true -> is_authenticated s' = true) /\
  (is_authenticated s = false -> is_authenticated s' = true ->
     exists a, statement line (B "Connection") (B "authenticateWithPassword:") [a] /\ denotes_string a pw).
Proof. intros P. inversion P; subst; try (eapply runs_authenticated; eassumption). split; congruence. Qed.
Lemma trace_authenticated srt pw s l s' : trace srt pw s l s' -> is_authenticated s' = true ->
  is_authenticated s = true \/
  exists e a, In e l /\ statement (e_line e) (B "Connection") (B "authenticateWithPassword:") [a] /\ denotes_string a pw.
Proof.
  induction 1 as [|l s1 e c c' s2 H IH P]; [now left|]. intros A.
  destruct (is_authenticated s1) eqn:E.
  - destruct (IH eq_refl) as [K|(x & a & K1 & K2)]; [now left|right]. exists x, a. split; auto. apply in_or_app. now left.
  - right. destruct (proj2 (processes_authenticated _ _ _ _ _ _ _ _ P) E A) as (a & K). exists e, a. split; auto. apply in_or_app. right. now left.
Qed.
Lemma trace_mono srt pw s l1 l2 : forall s', trace srt pw s (l1 ++ l2) s' ->
  exists s1, trace srt pw s l1 s1 /\ (is_authenticated s1 = true -> is_authenticated s' = true).
Proof.
  induction l2 as [|e l2 IH] using rev_ind; intros s' H; [rewrite app_nil_r in H; eauto|]. rewrite app_assoc in H.
  inversion H as [E|l s1 e' c c' s2 H1 P E]; subst; [destruct (l1 ++ l2); discriminate|]. apply app_inj_tail in E as [-> ->].
  destruct (IH _ H1) as (s0 & T & M). exists s0. split; auto. intros K. apply (processes_authenticated _ _ _ _ _ _ _ _ P). auto.
Qed.
Lemma right_password srt pw c s line a c' s' o : processes srt pw c s line c' s' o ->
  statement line (B "Connection") (B "authenticateWithPassword:") [a] -> denotes_string a pw ->
  is_authenticated s' = true /\ is_connected s' = is_connected s /\ (is_connected s = true -> o = Answered (B "null")).
Proof.
  intros P Hs Hd. assert (C : connection_line line) by (eexists _, _; exact Hs).
  assert (R : runs srt pw c (Some s) line (write_log line (B "null") c) (Some {| is_connected := is_connected s; is_authenticated := true |}) (B "null")).
  { assert (R := run_connection srt pw _ _ _ {| w_ctx := c; w_session := Some s |} Hs).
    unfold in_session in R. cbn [w_session w_ctx] in R. rewrite session_receive_right in R by exact Hd. cbn [fst snd] in R.
    unfold runs. rewrite (execute_ok _ _ _ _ _ _ R) by (cbn; auto). reflexivity. }
  inversion P; subst; [contradiction| |]; destruct (runs_unique _ _ _ _ _ _ _ _ _ _ _ R H0) as (_ & E & <-); inversion E; subst; cbn in *; repeat split; auto; congruence.
Qed.
(** Messages to Connection: the answer and the new session do not depend on the data, nor can they go wrong. *)
Lemma string_of_no_ub a : is_string_value a = true -> exists v, string_of a = Ok v.
Proof. intros H. apply is_string_value_iff in H. destruct (string_literal_denotes a H) as [v Hv]. exists v. now apply string_of_iff. Qed.
Lemma session_receive_no_ub pw m args s u : snd (session_receive pw m args s) <> UB u.
Proof.
  unfold session_receive. apply (dispatch_cases (fun mo => snd (mo s) <> UB u)); [discriminate|].
  repeat apply Forall_cons; try apply Forall_nil; cbn [fst snd]; intros _; [discriminate|].
  unfold session_authenticate, bind, check_nargs, arg, throw_if, throw, ret, get, put, lift, undefined.
  destruct args as [|x [|]]; cbn [length Nat.eqb negb nth_error fst snd]; try discriminate.
  destruct (is_string_value x) eqn:E; cbn [negb fst snd]; [|discriminate]. destruct (string_of_no_ub x E) as [v ->].
  destruct (seq_eqb v pw); discriminate.
Qed.
Lemma connection_runs srt pw c s line m args : statement line (B "Connection") m args ->
  exists r, runs srt pw c (Some s) line (write_log line r c) (Some (fst (session_receive pw m args s))) r /\ r = text_of (snd (session_receive pw m args s)).
Proof.
  intros Hs. assert (R := run_connection srt pw _ _ _ {| w_ctx := c; w_session := Some s |} Hs).
  unfold in_session in R. cbn [w_session w_ctx] in R. assert (U := session_receive_no_ub pw m args s).
  destruct (session_receive pw m args s) as [s1 r]. cbn [fst snd] in *. exists (text_of r). split; [|reflexivity].
  unfold runs. rewrite (execute_ok _ _ _ _ _ _ R); [reflexivity|]. destruct r; cbn; auto. intros _. exact (U u eq_refl).
Qed.
Lemma connection_no_ub srt pw c s line u : connection_line line -> ~ undefined_behaviour srt pw c (Some s) line u.
Proof. intros (m & args & Hs) Hu. destruct (connection_runs srt pw c s line m args Hs) as (r & R & _). eapply runs_ub; eauto. Qed.
Lemma outsider_blind srt srt2 pw c d s line c' s' o d' s2 o2 : is_authenticated s = false ->
  processes srt pw c s line c' s' o -> processes srt2 pw d s line d' s2 o2 -> s' = s2 /\ o = o2.
Proof.
  intros A P1 P2. destruct (connection_dec line) as [(m & args & Hs)|N].
  - destruct (connection_runs srt pw c s line m args Hs) as (r & R1 & Er). destruct (connection_runs srt2 pw d s line m args Hs) as (r2 & R2 & Er2).
    rewrite <- Er in Er2. subst r2.
    assert (Cl : connection_line line) by (eexists _, _; exact Hs).
    inversion P1; subst; inversion P2; subst; try contradiction;
      (destruct (runs_unique _ _ _ _ _ _ _ _ _ _ _ R1 H0) as (_ & E1 & E2); destruct (runs_unique _ _ _ _ _ _ _ _ _ _ _ R2 H3) as (_ & E3 & E4));
      inversion E1; inversion E3; subst; split; congruence.
  - inversion P1; subst; inversion P2; subst; auto; try (destruct H; congruence); destruct H1; congruence.
Qed.
Lemma outsider_harmless srt pw c s line c' s' o : is_authenticated s = false -> processes srt pw c s line c' s' o -> same_data c c'.
Proof.
  intros A P. inversion P; subst.
  - split; [reflexivity|split; reflexivity].
  - destruct H as [H|(m & args & H)]; [congruence|]. eapply C26_message_to_Connection; eauto.
  - destruct H as [H|(m & args & H)]; [congruence|]. eapply C26_message_to_Connection; eauto.
Qed.
Lemma trace_blind srt srt2 pw s : forall l1 l2 s1 s2, trace srt pw s l1 s1 -> trace srt2 pw s l2 s2 -> map e_line l1 = map e_line l2 ->
  is_authenticated s1 = false -> map e_outcome l1 = map e_outcome l2 /\ s1 = s2.
Proof.
  induction l1 as [|e1 l1 IH] using rev_ind; intros l2 s1 s2 H1 H2 E A.
  - destruct l2; [|discriminate]. split; auto. inversion H1 as [|l ? ? ? ? ? ? ? X]; [|destruct l; discriminate]. subst.
    inversion H2 as [|l ? ? ? ? ? ? ? X]; [|destruct l; discriminate]. now subst.
  - destruct (snoc_split l2) as [->|(l2' & e2 & ->)]; [rewrite map_app in E; destruct (map e_line l1); discriminate|].
    rewrite !map_app in *. apply app_inj_tail in E as [E En].
    inversion H1 as [X|l t1 e' c c' s' T1 P1 X]; subst; [destruct l1; discriminate|]. apply app_inj_tail in X as [-> ->].
    inversion H2 as [X|l t2 e' d d' s'' T2 P2 X]; subst; [destruct l2'; discriminate|]. apply app_inj_tail in X as [-> ->].
    assert (A1 : is_authenticated t1 = false).
    { destruct (is_authenticated t1) eqn:K; auto. apply (processes_authenticated _ _ _ _ _ _ _ _ P1) in K. congruence. }
    destruct (IH _ _ _ T1 T2 E A1) as [-> <-]. rewrite En in P1. destruct (outsider_blind _ _ _ _ _ _ _ _ _ _ _ _ _ A1 P1 P2) as [-> Eo].
    cbn. rewrite Eo. auto.
Qed.

(** ** the data of the server are reachable data *)
Lemma processes_reachable srt pw c s line c' s' o : ~ In NEWLINE line -> reachable_by_lines srt pw c -> processes srt pw c s line c' s' o ->
  reachable_by_lines srt pw c'.
Proof. intros N R P. inversion P; subst; auto; eapply line_step; eauto. Qed.
Lemma serial_reachable srt pw c ss h c' ss' : serial srt pw c ss h c' ss' -> (forall e, In e h -> ~ In NEWLINE (e_line e)) ->
  reachable_by_lines srt pw c -> reachable_by_lines srt pw c'.
Proof.
  induction 1 as [|h c1 ss1 sid line c2 s2 o H IH P]; auto. intros N R. eapply processes_reachable; [|apply IH|exact P]; auto.
  - apply (N {| e_sid := sid; e_line := line; e_outcome := o |}). apply in_or_app. right. now left.
  - intros e He. apply N. apply in_or_app. now left.
Qed.
Lemma by_lines_reachable srt pw c : reachable_by_lines srt pw c -> reachable srt pw c.
Proof. induction 1; econstructor; eauto. Qed.
Lemma entry_in e h : In e h -> In e (entries_of (e_sid e) h).
Proof. intros H. apply filter_In. split; auto. apply Nat.eqb_refl. Qed.
Lemma explains_lines srt pw c0 es h e : explains srt pw c0 es h -> In e h -> ~ In NEWLINE (e_line e).
Proof.
  intros (ss & _ & W & C) He. destruct (W e He) as (cn & Hn). destruct (C _ _ Hn) as [_ [_ F _ _ _]].
  rewrite Forall_forall in F. apply F. unfold lines_in. apply in_map. now apply entry_in.
Qed.
Lemma explains_reachable srt pw c0 es h : reachable_by_lines srt pw c0 -> explains srt pw c0 es h ->
  reachable_by_lines srt pw (sv_ctx (run srt (start pw c0) es)).
Proof. intros R E. assert (N := fun e => explains_lines _ _ _ _ _ e E). destruct E as (ss & S & _). eapply serial_reachable; eauto. Qed.
Lemma answers_clean srt pw c ss h c' ss' : sort_contract srt -> serial srt pw c ss h c' ss' -> (forall e, In e h -> ~ In NEWLINE (e_line e)) ->
  reachable_by_lines srt pw c -> forall e a, In e h -> In a (answer_to (e_outcome e)) -> ~ In NEWLINE a.
Proof.
  intros Hs. induction 1 as [|h c1 ss1 sid line c2 s2 o H IH P]; [intros _ _ e a []|]. intros N R e a He Ha.
  assert (N' : forall e, In e h -> ~ In NEWLINE (e_line e)) by (intros x Hx; apply N; apply in_or_app; now left).
  apply in_app_or in He as [He|[<-|[]]]; [eapply IH; eauto|]. cbn [e_outcome] in Ha.
  assert (R1 : reachable_by_lines srt pw c1) by (eapply serial_reachable; eauto).
  assert (Nl : ~ In NEWLINE line).
  { apply (N {| e_sid := sid; e_line := line; e_outcome := o |}). apply in_or_app. right. now left. }
  inversion P; subst; cbn in Ha.
  - destruct Ha as [<-|[]]. apply has_newline_false. reflexivity.
  - destruct Ha as [<-|[]]. eapply C36_answers_are_single_lines; eauto.
  - destruct Ha.
Qed.

(** ** closing *)
Lemma close_iff srt pw c s line c' s' o : is_connected s = true -> processes srt pw c s line c' s' o ->
  (exists ans, o = Closed ans) <-> statement line (B "Connection") (B "close") [].
Proof.
  intros K P. split.
  - intros (ans & ->). inversion P as [| |c1 s1 a1 Hg H1 H2]; subst. destruct (statement_dec line) as [(a & m & r & H)|H].
    + destruct (bytes_dec a (B "Connection")) as [->|Ha].
      * destruct (connection_runs srt pw c s line m r H) as (x & R & _). destruct (runs_unique _ _ _ _ _ _ _ _ _ _ _ R H1) as (_ & E & _).
        inversion E as [E']. clear E.
        assert (X : is_connected (fst (session_receive pw m r s)) = false -> m = B "close").
        { unfold session_receive. apply (dispatch_cases (fun mo => is_connected (fst (mo s)) = false -> m = B "close")); [cbn; congruence|].
          repeat apply Forall_cons; try apply Forall_nil; cbn [fst snd]; intros Hm; [auto|].
          unfold session_authenticate, bind, check_nargs, arg, throw_if, throw, ret, get, put, lift, undefined.
          destruct r as [|y [|]]; cbn [length Nat.eqb negb nth_error fst snd]; try congruence.
          destruct (is_string_value y); cbn [negb fst snd]; [|congruence].
          destruct (string_of y) as [v|e|u]; cbn [fst]; try congruence. destruct (seq_eqb v pw); cbn [fst is_connected]; congruence. }
        rewrite E' in X. specialize (X H2). subst m. assert (r = []) by (apply len0; eapply args_len; eauto; reflexivity). now subst r.
      * assert (X := session_unchanged _ _ _ _ _ _ _ _ _ _ _ H Ha H1). inversion X; subst. congruence.
    + destruct (C26_not_a_statement _ _ _ _ _ _ _ _ H H1) as [_ X]. inversion X; subst. congruence.
  - intros H. assert (C : connection_line line) by (eexists _, _; exact H).
    destruct (connection_runs srt pw c s line _ _ H) as (x & R & _). change (fst (session_receive pw (B "close") [] s)) with {| is_connected := false; is_authenticated := is_authenticated s |} in R.
    inversion P as [|c1 s1 a1 Hg H1 H2|]; subst; [contradiction| |eauto]. destruct (runs_unique _ _ _ _ _ _ _ _ _ _ _ R H1) as (_ & E & _). inversion E; subst. discriminate.
Qed.

(** ** the log *)
Lemma trim_trimmed line : trimmed line (trim line).
Proof.
  destruct (ltrim_spec line) as (a & E & Ha & Hf).
  assert (R : exists b, ltrim line = rtrim (ltrim line) ++ b /\ spaces b /\ (forall r x, rtrim (ltrim line) = r ++ [x] -> ~ space x)).
  { destruct (ltrim_spec (rev (ltrim line))) as (b & Eb & Hb & Hl). exists (rev b). split.
    - unfold rtrim. rewrite <- rev_app_distr, <- Eb. now rewrite rev_involutive.
    - split; [apply Forall_rev; exact Hb|]. intros r x K. unfold rtrim in K.
      assert (K' : ltrim (rev (ltrim line)) = x :: rev r) by (rewrite <- (rev_involutive (ltrim _)), K, rev_app_distr; reflexivity).
      destruct Hl as [Hl|(c & q & Hl & Hc)]; rewrite Hl in K'; [discriminate|]. inversion K'; subst. exact Hc. }
  destruct R as (b & Eb & Hb & Hl). exists a, b. unfold trim. split; [rewrite <- Eb; exact E|]. split; auto. split; auto. split; auto.
  intros x r K. destruct Hf as [Hf|(c & q & Hf & Hc)].
  - rewrite Hf in K. discriminate.
  - rewrite K, Hf in Eb. cbn in Eb. inversion Eb; subst. exact Hc.
Qed.
Definition log_of (c : context) := (log_is_open c, quiet c, logfile c, stdout c).
Definition keeps {A} (m : M context A) : Prop := forall c, log_of (fst (m c)) = log_of c.
Lemma keeps_bind {A B} (m : M context A) (f : A -> M context B) : keeps m -> (forall a, keeps (f a)) -> keeps (bind m f).
Proof. intros H1 H2 c. unfold bind. specialize (H1 c). destruct (m c) as [c1 [a|e|u]]; cbn in *; auto. now rewrite H2. Qed.
Lemma keeps_get {B} (f : context -> M context B) : (forall c, log_of (fst (f c c)) = log_of c) -> keeps (bind get f).
Proof. intros H c. apply H. Qed.
Lemma keeps_pure {A} (r : res A) : keeps (fun c => (c, r)).
Proof. intros c. reflexivity. Qed.
Lemma keeps_throw_if b e : keeps (throw_if b e).
Proof. destruct b; apply keeps_pure. Qed.
Lemma keeps_arg args i : keeps (arg args i).
Proof. unfold arg. intros c. now destruct (nth_error args i). Qed.
Ltac keep1 :=
  lazymatch goal with
  | |- keeps (bind get _) => fail
  | |- keeps (bind _ _) => apply keeps_bind; [|intros ?]
  | |- keeps (check_nargs _ _) => apply keeps_throw_if
  | |- keeps (throw_if _ _) => apply keeps_throw_if
  | |- keeps (arg _ _) => apply keeps_arg
  | |- keeps (if ?b then _ else _) => destruct b
  | |- keeps (match ?x with _ => _ end) => destruct x
  | |- keeps _ => apply keeps_pure
  end.
Ltac keep := repeat keep1.
Lemma keeps_creates m args : keeps (boolean_create m args) /\ keeps (character_create m args) /\ keeps (integer_create m args) /\
  keeps (float_create m args) /\ keeps (string_create m args) /\ forall i, keeps (container_create i m args).
Proof.
  unfold boolean_create, character_create, integer_create, float_create, string_create, container_create. repeat split; intros; keep.
Qed.
Lemma keeps_dict_loop m args rest : forall before acc, keeps (dict_type_loop rest before m args acc).
Proof.
  induction rest as [|c r IH]; intros before acc; cbn [dict_type_loop]; [apply keeps_pure|].
  destruct (ceq c c_comma); auto. apply keeps_bind; auto. apply keeps_creates.
Qed.
Lemma keeps_type p : keeps (execute_in_type p).
Proof.
  unfold execute_in_type. apply keeps_bind.
  - unfold construct. destruct (keeps_creates (p_message p) (p_args p)) as (H1 & H2 & H3 & H4 & H5 & H6).
    repeat match goal with |- keeps (if ?b then _ else _) => destruct b end; auto.
    + apply keeps_bind; [apply keeps_pure|auto].
    + apply keeps_bind; [apply keeps_pure|auto].
    + apply keeps_bind; [apply keeps_pure|]. intros ts. apply keeps_bind; [apply keeps_dict_loop|]. intros x. destruct x; apply keeps_pure.
    + apply keeps_pure.
  - intros i. apply keeps_get. intros c. destruct (smap_find _ _); [|reflexivity]. now destruct (starts_with _ _).
Qed.
Lemma keeps_context p : keeps (execute_in_context p).
Proof.
  unfold execute_in_context. apply (dispatch_cases (fun mo => keeps mo)); [apply keeps_pure|].
  repeat apply Forall_cons; try apply Forall_nil; cbn [fst snd]; intros _;
    unfold op_listNamespaces, op_listVariables, op_listVariablesOfNamespace, op_deleteVariable, op_deleteVariablesOfNamespace,
      op_getFloatPrecision, op_setFloatPrecision, op_getFloatComparisonTolerance, op_setFloatComparisonTolerance; keep;
    apply keeps_get; intros c; try reflexivity. now destruct (erase_name _ _).
Qed.
Lemma keeps_variable srt p : keeps (execute_in_variable srt p).
Proof. intros c. unfold execute_in_variable. destruct (smap_find _ _); reflexivity. Qed.
Lemma run_statement_log srt pw line c s : log_of (w_ctx (fst (run_statement srt pw line {| w_ctx := c; w_session := s |}))) = log_of c.
Proof.
  unfold run_statement, bind, lift. destruct (parse line) as [p|e|u]; [|reflexivity|reflexivity].
  destruct (is_type _); [apply keeps_type|]. destruct (is_context _); [apply keeps_context|]. destruct (is_variable _); [apply keeps_variable|].
  destruct (is_connection _); [|reflexivity]. unfold in_session. cbn [w_session w_ctx]. destruct s; reflexivity.
Qed.
Lemma runs_logs srt pw c s line c' s' ans : runs srt pw c s line c' s' ans -> exists t, trimmed line t /\ logs c [(t, ans)] c'.
Proof.
  intros R. destruct (runs_statement _ _ _ _ _ _ _ _ R) as (w1 & r & E & _ & Ea & _ & ->). assert (L := run_statement_log srt pw line c s).
  rewrite E in L. cbn [fst] in L. exists (trim line). split; [apply trim_trimmed|]. unfold log_of in L. inversion L as [[L1 L2 L3 L4]]. clear L.
  unfold logs, write_log. rewrite L1, L2. destruct (log_is_open c) eqn:O; cbn [log_file log_is_open quiet logfile stdout].
  - rewrite L1, L2, L3, L4. auto.
  - destruct (quiet c) eqn:Q; cbn [negb log_stdout log_is_open quiet logfile stdout]; rewrite ?L1, ?L2, ?L3, ?L4; auto.
Qed.
Lemma logs_refl c : logs c [] c.
Proof. unfold logs. rewrite !app_nil_r. repeat split. destruct (log_is_open c), (quiet c); auto. Qed.
Lemma logs_trans c1 l1 c2 l2 c3 : logs c1 l1 c2 -> logs c2 l2 c3 -> logs c1 (l1 ++ l2) c3.
Proof.
  unfold logs. intros (A1 & A2 & A3) (B1 & B2 & B3). rewrite A1, A2 in *. rewrite B1, B2. split; auto. split; auto.
  destruct (log_is_open c1), (quiet c1); destruct A3 as [A3 A4], B3 as [-> ->]; rewrite ?A3, ?A4, ?app_assoc; auto.
Qed.
Lemma serial_logs srt pw c ss h c' ss' : serial srt pw c ss h c' ss' -> exists l, records h l /\ logs c l c'.
Proof.
  induction 1 as [|h c1 ss1 sid line c2 s2 o H (l & R & L) P]; [exists []; split; [constructor|apply logs_refl]|].
  inversion P as [|? ? ans G X|? ? ans G X]; subst.
  - exists l. split; [now constructor|exact L].
  - destruct (runs_logs _ _ _ _ _ _ _ _ X) as (t & T & Lg). exists (l ++ [(t, ans)]). split; [|eapply logs_trans; eauto].
    eapply records_executed; eauto.
  - destruct (runs_logs _ _ _ _ _ _ _ _ X) as (t & T & Lg). exists (l ++ [(t, ans)]). split; [|eapply logs_trans; eauto].
    eapply records_executed; eauto.
Qed.
Lemma trimmed_unique line t t' : trimmed line t -> trimmed line t' -> t = t'.
Proof.
  assert (U : forall line t, trimmed line t -> t = trim line).
  { clear. intros line t (a & b & -> & Ha & Hb & H1 & H2). unfold trim. rewrite ltrim_spaces_app by exact Ha.
    destruct t as [|x t]; [rewrite app_nil_l, (ltrim_all_spaces b Hb); reflexivity|].
    cbn [app]. rewrite ltrim_cons_nonspace by (eapply H1; reflexivity). change (x :: t ++ b) with ((x :: t) ++ b).
    rewrite rtrim_app_spaces by exact Hb. destruct (snoc_split (x :: t)) as [K|(r & y & K)]; [discriminate|].
    rewrite K. symmetry. apply rtrim_snoc_nonspace. eapply H2. exact K. }
  intros H1 H2. now rewrite (U _ _ H1), (U _ _ H2).
Qed.

(** ** single events *)
Lemma getline_newline line rest : ~ In NEWLINE line -> getline (with_newline line ++ rest) = (line, rest).
Proof.
  induction line as [|x l IH]; intros N; [reflexivity|]. unfold with_newline in *. cbn [app getline].
  destruct (ceq x c_nl) eqn:E; [apply ceq_eq in E; subst x; exfalso; apply N; now left|].
  rewrite IH; [reflexivity|]. intros K. apply N. now right.
Qed.
Lemma next_line_getline cn line : next_line cn line -> fst (getline (c_streambuf cn)) = line /\ has_newline (c_streambuf cn) = true /\
  c_streambuf cn = with_newline line ++ snd (getline (c_streambuf cn)).
Proof.
  intros (rest & E & N). rewrite E, getline_newline by exact N. split; [reflexivity|]. split; [|reflexivity].
  apply has_newline_iff. unfold with_newline. rewrite !in_app_iff. left. right. now left.
Qed.
Lemma has_next_line cn : In NEWLINE (c_streambuf cn) -> exists line, next_line cn line.
Proof. intros H. apply getline_spec in H as [E N]. eexists _, _. split; eauto. Qed.
Definition after_handle (sv : server) (sid : nat) (cn : conn) (c' : context) (s' : session) (ph : phase) (rest sent : str) : server :=
  {| sv_password := sv_password sv; sv_ctx := c'; sv_conns := set_conn (sv_conns sv) sid
       {| c_session := s'; c_phase := ph; c_socket := c_socket cn; c_streambuf := rest; c_sent := sent |};
     sv_accepting := sv_accepting sv; sv_crash := sv_crash sv |}.
Section Handle.
Context (srt : sorter) (sv : server) (sid k : nat) (cn : conn) (line : bytes).
Context (Hc : sv_crash sv = None) (Hn : nth_error (sv_conns sv) sid = Some cn) (Hp : c_phase cn = Reading) (Hl : next_line cn line).
Lemma handle_answer c' s' o a : processes srt (sv_password sv) (sv_ctx sv) (c_session cn) line c' s' o -> answer_to o = [a] ->
  step srt sv (Handle sid k) =
  if Nat.min k 65536 <? length (with_newline a) then crashed sv DanglingBuffer
  else after_handle sv sid cn c' s' Writing (snd (getline (c_streambuf cn))) (c_sent cn ++ with_newline a).
Proof using Hc Hn Hp Hl.
  intros P A. destruct (next_line_getline _ _ Hl) as (E1 & E2 & _). unfold step. rewrite Hc, Hn, Hp, E2. unfold handle. rewrite E1.
  destruct (handle_line_spec srt (sv_password sv) line (sv_ctx sv) (c_session cn)) as [(u & _ & U & G)|(c1 & s1 & o1 & -> & P1)].
  - exfalso. inversion P as [N1 N2|? ? ? G1 R|? ? ? G1 R]; subst; try solve [eapply runs_ub; eauto]. destruct G; congruence.
  - destruct (processes_unique _ _ _ _ _ _ _ _ _ _ _ P P1) as (<- & <- & <-).
    assert (W : written o = Some a) by (destruct o; cbn in *; inversion A; reflexivity). rewrite W.
    unfold do_write. change (a ++ [c_nl]) with (with_newline a). change max_transfer with 65536.
    destruct (_ <? _); reflexivity.
Qed.
Lemma handle_close c' s' ans : processes srt (sv_password sv) (sv_ctx sv) (c_session cn) line c' s' (Closed ans) ->
  step srt sv (Handle sid k) = after_handle sv sid cn c' s' Gone (snd (getline (c_streambuf cn))) (c_sent cn).
Proof using Hc Hn Hp Hl.
  intros P. destruct (next_line_getline _ _ Hl) as (E1 & E2 & _). unfold step. rewrite Hc, Hn, Hp, E2. unfold handle. rewrite E1.
  destruct (handle_line_spec srt (sv_password sv) line (sv_ctx sv) (c_session cn)) as [(u & _ & U & G)|(c1 & s1 & o1 & -> & P1)].
  - exfalso. inversion P; subst; eapply runs_ub; eauto.
  - destruct (processes_unique _ _ _ _ _ _ _ _ _ _ _ P P1) as (<- & <- & <-). reflexivity.
Qed.
Lemma handle_cases :
  (exists u, undefined_behaviour srt (sv_password sv) (sv_ctx sv) (Some (c_session cn)) line u /\
     (is_authenticated (c_session cn) = true \/ connection_line line) /\ step srt sv (Handle sid k) = crashed sv u) \/
  exists c' s' o, processes srt (sv_password sv) (sv_ctx sv) (c_session cn) line c' s' o.
Proof using Hc Hn Hp Hl.
  destruct (handle_line_spec srt (sv_password sv) line (sv_ctx sv) (c_session cn)) as [(u & E & U & G)|(c1 & s1 & o1 & _ & P1)]; [left|eauto].
  exists u. split; auto. split; auto.
  destruct (next_line_getline _ _ Hl) as (E1 & E2 & _). unfold step. rewrite Hc, Hn, Hp, E2. unfold handle. rewrite E1, E. reflexivity.
Qed.
End Handle.
(** An event of one session leaves the others alone, and only handlers touch the data. *)
Lemma handle_others srt sv sid k cn j : nth_error (sv_conns sv) sid = Some cn -> j <> sid ->
  nth_error (sv_conns (handle srt sv sid k cn)) j = nth_error (sv_conns sv) j.
Proof.
  intros Hn Hj. unfold handle. destruct (handle_line _ _ _ _ _) as [[[c' s'] [r|]]|e|u]; cbn [crashed sv_conns]; auto.
  - destruct (do_write r k) as [t|e|u]; cbn [crashed sv_conns]; auto. now apply (set_conn_other _ _ _ _ _ Hn).
  - now apply (set_conn_other _ _ _ _ _ Hn).
Qed.
Lemma step_others srt sv e sid j : concerns e sid -> j <> sid -> nth_error (sv_conns (step srt sv e)) j = nth_error (sv_conns sv) j.
Proof.
  intros C Hj. unfold step. destruct (sv_crash sv); auto. destruct e as [| |k b|k n|k w|k|k]; cbn in C; try contradiction; subst k;
    (destruct (nth_error (sv_conns sv) sid) as [cn|] eqn:Hn; [|reflexivity]); try (cbn; now apply (set_conn_other _ _ _ _ _ Hn)).
  - destruct (c_phase cn); auto. destruct (has_newline _); auto. cbn. now apply (set_conn_other _ _ _ _ _ Hn).
  - destruct (c_phase cn); auto. destruct (has_newline _); auto. now apply handle_others.
  - destruct (c_phase cn); auto. cbn. now apply (set_conn_other _ _ _ _ _ Hn).
Qed.
Lemma step_password srt sv e : sv_password (step srt sv e) = sv_password sv.
Proof.
  unfold step. destruct (sv_crash sv); auto. destruct e as [| |sid b|sid n|sid w|sid|sid]; auto; [destruct (sv_accepting sv); auto|..];
    (destruct (nth_error (sv_conns sv) sid) as [cn|]; auto); try (destruct (c_phase cn); auto); try (destruct (has_newline _); auto).
  unfold handle. destruct (handle_line _ _ _ _ _) as [[[c' s'] [r|]]|e|u]; auto. destruct (do_write r w); auto.
Qed.
(** Without a handler the data stay. *)
Lemma step_ctx srt sv e : (forall sid k, e <> Handle sid k) -> sv_ctx (step srt sv e) = sv_ctx sv /\ sv_crash (step srt sv e) = sv_crash sv.
Proof.
  intros H. unfold step. destruct (sv_crash sv) eqn:Ec; auto. destruct e as [| |sid b|sid n|sid w|sid|sid]; auto; [destruct (sv_accepting sv); auto|..];
    (destruct (nth_error (sv_conns sv) sid) as [cn|]; auto); try (destruct (c_phase cn); auto); try (destruct (has_newline _); auto).
  exfalso. eapply H; reflexivity.
Qed.
(** A session that is gone does nothing any more. *)
Lemma step_gone srt sv e sid cn : nth_error (sv_conns sv) sid = Some cn -> c_phase cn = Gone ->
  exists cn', nth_error (sv_conns (step srt sv e)) sid = Some cn' /\ c_phase cn' = Gone /\ c_sent cn' = c_sent cn /\ c_session cn' = c_session cn.
Proof.
  intros Hn Hp. unfold step. destruct (sv_crash sv); [eauto|]. destruct e as [| |k b|k n|k w|k|k]; [..|].
  - destruct (sv_accepting sv); cbn; [|eauto]. exists cn. split; auto. rewrite nth_error_app1; auto. apply nth_error_Some. congruence.
  - eauto.
  - destruct (nth_error (sv_conns sv) k) as [ck|] eqn:Hk; [|eauto]. destruct (Nat.eq_dec sid k) as [->|Hne].
    + rewrite Hn in Hk. inversion Hk; subst ck. eexists. split; [cbn; eapply set_conn_same; eauto|]. auto.
    + exists cn. cbn. rewrite (set_conn_other _ _ _ _ _ Hk Hne). auto.
  - destruct (nth_error (sv_conns sv) k) as [ck|] eqn:Hk; [|eauto]. destruct (Nat.eq_dec sid k) as [->|Hne].
    + rewrite Hn in Hk. inversion Hk; subst ck. rewrite Hp. eauto.
    + destruct (c_phase ck); [|eauto|eauto]. destruct (has_newline _); [eauto|]. exists cn. cbn. rewrite (set_conn_other _ _ _ _ _ Hk Hne). auto.
  - destruct (nth_error (sv_conns sv) k) as [ck|] eqn:Hk; [|eauto]. destruct (Nat.eq_dec sid k) as [->|Hne].
    + rewrite Hn in Hk. inversion Hk; subst ck. rewrite Hp. eauto.
    + destruct (c_phase ck); [|eauto|eauto]. destruct (has_newline _); [|eauto]. exists cn. rewrite (handle_others _ _ _ _ _ _ Hk Hne). auto.
  - destruct (nth_error (sv_conns sv) k) as [ck|] eqn:Hk; [|eauto]. destruct (Nat.eq_dec sid k) as [->|Hne].
    + rewrite Hn in Hk. inversion Hk; subst ck. rewrite Hp. eauto.
    + destruct (c_phase ck); [eauto| |eauto]. exists cn. cbn. rewrite (set_conn_other _ _ _ _ _ Hk Hne). auto.
  - destruct (nth_error (sv_conns sv) k) as [ck|] eqn:Hk; [|eauto]. destruct (Nat.eq_dec sid k) as [->|Hne].
    + rewrite Hn in Hk. inversion Hk; subst ck. eexists. split; [cbn; eapply set_conn_same; eauto|]. auto.
    + exists cn. cbn. rewrite (set_conn_other _ _ _ _ _ Hk Hne). auto.
Qed.
Lemma run_gone srt es : forall sv sid cn, nth_error (sv_conns sv) sid = Some cn -> c_phase cn = Gone ->
  exists cn', nth_error (sv_conns (run srt sv es)) sid = Some cn' /\ c_phase cn' = Gone /\ c_sent cn' = c_sent cn /\ c_session cn' = c_session cn.
Proof.
  induction es as [|e es IH]; intros sv sid cn Hn Hp; [eauto|]. change (run srt sv (e :: es)) with (run srt (step srt sv e) es). destruct (step_gone srt sv e sid cn Hn Hp) as (c1 & A & B & C & D).
  destruct (IH _ _ _ A B) as (c2 & A2 & B2 & C2 & D2). exists c2. repeat split; congruence.
Qed.

(** ** crashes *)
Lemma reading_of {A} (p : phase) (x y : A) : match p with Reading => x | _ => y end = x \/ p <> Reading /\ match p with Reading => x | _ => y end = y.
Proof. destruct p; auto; right; split; auto; discriminate. Qed.
Lemma crash_cause srt sv e u : sv_crash sv = None -> sv_crash (step srt sv e) = Some u ->
  exists sid k cn line, e = Handle sid k /\ nth_error (sv_conns sv) sid = Some cn /\ c_phase cn = Reading /\ next_line cn line /\
    ((undefined_behaviour srt (sv_password sv) (sv_ctx sv) (Some (c_session cn)) line u /\ (is_authenticated (c_session cn) = true \/ connection_line line)) \/
     (u = DanglingBuffer /\ exists c' s' o a, processes srt (sv_password sv) (sv_ctx sv) (c_session cn) line c' s' o /\ answer_to o = [a] /\
        Nat.min k 65536 <= length a)).
Proof.
  intros Hc H. assert (Hh : exists sid k, e = Handle sid k).
  { assert (D : (exists sid k, e = Handle sid k) \/ forall sid k, e <> Handle sid k) by (destruct e; eauto; right; intros; discriminate).
    destruct D as [D|D]; auto. rewrite (proj2 (step_ctx srt sv e D)) in H. congruence. }
  destruct Hh as (sid & k & ->). exists sid, k.
  destruct (nth_error (sv_conns sv) sid) as [cn|] eqn:Hn; [|unfold step in H; rewrite Hc, Hn in H; congruence].
  destruct (c_phase cn) eqn:Hp; try (unfold step in H; rewrite Hc, Hn, Hp in H; congruence).
  destruct (has_newline (c_streambuf cn)) eqn:Hl; [|unfold step in H; rewrite Hc, Hn, Hp, Hl in H; congruence].
  apply has_newline_iff in Hl. destruct (has_next_line _ Hl) as (line & N). exists cn, line. repeat (split; [auto; fail|]).
  destruct (handle_cases srt sv sid k cn line Hc Hn Hp N) as [(v & U & G & E)|(c' & s' & o & P)].
  - left. rewrite E in H. cbn in H. inversion H; subst. auto.
  - destruct o as [|a|a].
    + rewrite (handle_answer srt sv sid k cn line Hc Hn Hp N _ _ _ _ P eq_refl) in H.
      destruct (Nat.min k 65536 <? length (with_newline ERR_NOT_AUTH)) eqn:E; cbn [crashed after_handle sv_crash] in H; [|congruence]. inversion H; subst u.
      right. split; auto. exists c', s', Refused, ERR_NOT_AUTH. split; auto. split; auto. apply Nat.ltb_lt in E.
      unfold with_newline in E. rewrite app_length in E. cbn [length] in E. lia.
    + rewrite (handle_answer srt sv sid k cn line Hc Hn Hp N _ _ _ _ P eq_refl) in H.
      destruct (Nat.min k 65536 <? length (with_newline a)) eqn:E; cbn [crashed after_handle sv_crash] in H; [|congruence]. inversion H; subst u.
      right. split; auto. exists c', s', (Answered a), a. split; auto. split; auto. apply Nat.ltb_lt in E.
      unfold with_newline in E. rewrite app_length in E. cbn [length] in E. lia.
    + rewrite (handle_close srt sv sid k cn line Hc Hn Hp N _ _ _ P) in H. cbn in H. congruence.
Qed.
Lemma first_crash srt es : forall sv u, sv_crash sv = None -> sv_crash (run srt sv es) = Some u ->
  exists es1 e es2, es = es1 ++ e :: es2 /\ sv_crash (run srt sv es1) = None /\ sv_crash (step srt (run srt sv es1) e) = Some u.
Proof.
  induction es as [|e es IH] using rev_ind; intros sv u Hc H; [cbn in H; congruence|].
  destruct (sv_crash (run srt sv es)) as [v|] eqn:E.
  - rewrite run_snoc in H. rewrite crash_sticky in H by congruence. destruct (IH sv u Hc H) as (a & x & b & -> & K).
    exists a, x, (b ++ [e]). split; [now rewrite <- app_assoc|exact K].
  - rewrite run_snoc in H. exists es, e, []. auto.
Qed.

(** ** progress *)
Definition pending (cn : conn) : nat :=
  2 * length (c_streambuf cn ++ c_socket cn) + (match c_phase cn with Writing => 1 | _ => 0 end) + (match c_socket cn with [] => 0 | _ => 1 end).
Lemma progress_lemma srt sid : forall n sv cn, pending cn < n -> sv_crash sv = None -> nth_error (sv_conns sv) sid = Some cn -> c_phase cn <> Gone ->
  exists es, Forall (progress_of sid) es /\ sv_crash (run srt sv es) = None /\
    exists cn', nth_error (sv_conns (run srt sv es)) sid = Some cn' /\
      (idle cn' \/ (c_phase cn' = Gone /\ hung_up cn') \/ unserviceable srt (run srt sv es) sid).
Proof.
  induction n as [|n IH]; intros sv cn Hm Hc Hn Hp; [lia|].
  assert (Next : forall e cn', progress_of sid e -> sv_crash (step srt sv e) = None -> nth_error (sv_conns (step srt sv e)) sid = Some cn' ->
    c_phase cn' <> Gone -> pending cn' < n -> exists es, Forall (progress_of sid) es /\ sv_crash (run srt sv es) = None /\
    exists cn', nth_error (sv_conns (run srt sv es)) sid = Some cn' /\
      (idle cn' \/ (c_phase cn' = Gone /\ hung_up cn') \/ unserviceable srt (run srt sv es) sid)).
  { intros e cn' H1 H2 H3 H4 H5. destruct (IH (step srt sv e) cn' H5 H2 H3 H4) as (es & A & B). exists (e :: es). split; [now constructor|exact B]. }
  destruct (c_phase cn) eqn:Ep; [..|congruence].
  - destruct (has_newline (c_streambuf cn)) eqn:Hl.
    + assert (Hl' := Hl). apply has_newline_iff in Hl'. destruct (has_next_line _ Hl') as (line & N).
      assert (Stay : unserviceable srt sv sid -> exists es, Forall (progress_of sid) es /\ sv_crash (run srt sv es) = None /\
        exists cn', nth_error (sv_conns (run srt sv es)) sid = Some cn' /\
          (idle cn' \/ (c_phase cn' = Gone /\ hung_up cn') \/ unserviceable srt (run srt sv es) sid)).
      { intros K. exists []. split; [constructor|]. split; [exact Hc|]. exists cn. split; [exact Hn|]. auto. }
      destruct (next_line_getline _ _ N) as (_ & _ & Eb).
      assert (Less : length (snd (getline (c_streambuf cn))) < length (c_streambuf cn)).
      { rewrite Eb at 2. unfold with_newline. rewrite !app_length. cbn [length]. lia. }
      destruct (handle_cases srt sv sid 65536 cn line Hc Hn Ep N) as [(v & U & G & E)|(c' & s' & o & P)].
      * apply Stay. exists cn, line. split; auto. split; auto. left. eauto.
      * assert (Ans : forall a, answer_to o = [a] -> Nat.min 65536 65536 <? length (with_newline a) = false -> exists es, Forall (progress_of sid) es /\ sv_crash (run srt sv es) = None /\
          exists cn', nth_error (sv_conns (run srt sv es)) sid = Some cn' /\
            (idle cn' \/ (c_phase cn' = Gone /\ hung_up cn') \/ unserviceable srt (run srt sv es) sid)).
        { intros a Ea El. assert (X := handle_answer srt sv sid 65536 cn line Hc Hn Ep N _ _ _ _ P Ea). rewrite El in X.
          eapply (Next (Handle sid 65536)); [reflexivity|rewrite X; exact Hc|rewrite X; cbn; eapply set_conn_same; eauto|discriminate|].
          unfold pending in *. rewrite Ep in Hm. cbn [c_streambuf c_socket c_phase]. rewrite app_length in *. lia. }
        destruct o as [|a|a].
        -- apply (Ans ERR_NOT_AUTH eq_refl). vm_compute. reflexivity.
        -- destruct (Nat.min 65536 65536 <? length (with_newline a)) eqn:El; [|now apply (Ans a eq_refl)].
           apply Stay. exists cn, line. split; auto. split; auto. right. exists c', s', a. split; auto. apply Nat.ltb_lt in El.
           unfold with_newline in El. rewrite app_length in El. cbn [length] in El. lia.
        -- assert (X := handle_close srt sv sid 65536 cn line Hc Hn Ep N _ _ _ P). exists [Handle sid 65536]. split; [repeat constructor|].
           change (run srt sv [Handle sid 65536]) with (step srt sv (Handle sid 65536)). rewrite X. split; [exact Hc|].
           eexists. split; [cbn; eapply set_conn_same; eauto|]. right. left. split; [reflexivity|]. unfold hung_up. cbn. now inversion P.
    + destruct (c_socket cn) as [|x b] eqn:Es.
      * exists []. split; [constructor|]. split; [exact Hc|]. exists cn. split; [exact Hn|]. left. split; auto. split; auto. now apply has_newline_false.
      * assert (X : step srt sv (ReadSome sid (length (c_socket cn))) = with_conn sv sid
            {| c_session := c_session cn; c_phase := Reading; c_socket := []; c_streambuf := c_streambuf cn ++ c_socket cn; c_sent := c_sent cn |}).
        { unfold step. rewrite Hc, Hn, Ep, Hl. now rewrite skipn_all, firstn_all. }
        eapply (Next (ReadSome sid (length (c_socket cn)))); [reflexivity|rewrite X; exact Hc|rewrite X; cbn; eapply set_conn_same; eauto|discriminate|].
        unfold pending in *. rewrite Ep, Es in Hm. cbn [c_streambuf c_socket c_phase]. rewrite Es, app_nil_r. lia.
  - assert (X : step srt sv (WriteDone sid) = with_conn sv sid
        {| c_session := c_session cn; c_phase := Reading; c_socket := c_socket cn; c_streambuf := c_streambuf cn; c_sent := c_sent cn |}).
    { unfold step. now rewrite Hc, Hn, Ep. }
    eapply (Next (WriteDone sid)); [reflexivity|rewrite X; exact Hc|rewrite X; cbn; eapply set_conn_same; eauto|discriminate|].
    unfold pending in *. rewrite Ep in Hm. cbn [c_streambuf c_socket c_phase]. lia.
Qed.
Lemma arrived_progress es sid es' : Forall (progress_of sid) es' -> forall k, arrived (es ++ es') k = arrived es k.
Proof.
  intros F k. unfold arrived. rewrite arrives_app. generalize (opened true 0 es). intros [a n]. cbn [fst snd].
  assert (X : arrives a n es' k = []); [|rewrite X; apply app_nil_r].
  induction F as [|e l H F IH]; [reflexivity|]. destruct e; cbn in H; try contradiction; exact IH.
Qed.
