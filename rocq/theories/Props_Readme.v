(** Property C64: the sessions in the user documentation.  Specification: [Spec_Readme], [Spec_Alone]; model: [Context], [Server]. *)
From Coq Require Import ZArith Lia.
From Verif Require Import Bytes StrUtils Grammar Outcome Parser Num Containers Instance Context Server Platform.
From Verif Require Import Lemmas StringLit Proof_Grammar Proof_Parser Proof_Exec Proof_Inv Proof_Literal Proof_Receive Proof_Context Proof_Names Api Proof_Text Proof_Server Proof_Set Proof_Order Props_State Props_Local Props_Server Props_Sorter Props_Clients Props_Alone.
From Verif Require Import Spec_Grammar Spec_State Spec_Names Spec_Text Spec_Order Spec_Local Spec_Server Spec_Clients Spec_Alone Spec_Readme.
Local Open Scope list_scope.

(** ** A line other than to Connection is run without looking at the password *)
Lemma password_irrelevant srt pw1 pw2 line w : (forall m args, ~ statement line (B "Connection") m args) ->
  run_statement srt pw1 line w = run_statement srt pw2 line w.
Proof.
  intros N. destruct (statement_dec line) as [(a & m & args & S)|X].
  - assert (A := statement_actor _ _ _ _ S). destruct A as [->|[->|[T|T]]].
    + destruct (N _ _ S).
    + now rewrite !(run_context _ _ _ _ _ _ S).
    + now rewrite !(run_type _ _ _ _ _ _ _ S T).
    + now rewrite !(run_variable _ _ _ _ _ _ _ S T).
  - unfold run_statement, bind, lift. now rewrite (parse_not_statement _ X).
Qed.

(** ** Replaying a transcript *)
Definition pwd : bytes := B "password".
Definition granted : session := {| is_connected := true; is_authenticated := true |}.
Definition line_check (password : bool) (c : context) (line : bytes) : bool :=
  match parse line with
  | Ok p => (password || negb (seq_eqb (p_actor p) (B "Connection"))) &&
            negb (seq_eqb (p_message p) (B "sort") && match lookup c (p_actor p) with Some (IVector t _) => seq_eqb t (B "Float") | _ => false end)
  | _ => true
  end.
Fixpoint replay (password : bool) (c : context) (l : list (bytes * bytes)) : bool :=
  match l with
  | [] => true
  | (line, expected) :: l =>
    line_check password c line &&
    match execute insertion_sort pwd line {| w_ctx := c; w_session := Some granted |} with
    | ({| w_ctx := c'; w_session := Some {| is_connected := true; is_authenticated := true |} |}, Ok ans) => seq_eqb ans expected && replay password c' l
    | _ => false
    end
  end.
Lemma line_check_run password srt pw c s line : sort_contract srt -> reachable insertion_sort pw c -> (password = true -> pw = pwd) -> line_check password c line = true ->
  execute srt pw line {| w_ctx := c; w_session := s |} = execute insertion_sort pwd line {| w_ctx := c; w_session := s |} /\
  execute insertion_sort pw line {| w_ctx := c; w_session := s |} = execute insertion_sort pwd line {| w_ctx := c; w_session := s |}.
Proof.
  intros H1 Hr Hp E. unfold line_check in E.
  assert (NF : ~ sorts_floats c line).
  { intros (n & args & v & S & L). rewrite (parse_statement _ _ _ _ S) in E. cbn [p_actor p_message p_args] in E. rewrite L in E.
    apply andb_prop in E as [_ E]. rewrite !seq_eqb_refl in E. discriminate E. }
  assert (S1 := same_statement insertion_sort srt pw c s line insertion_sort_contract H1 Hr NF).
  assert (S2 : run_statement insertion_sort pw line {| w_ctx := c; w_session := s |} = run_statement insertion_sort pwd line {| w_ctx := c; w_session := s |}).
  { destruct password; [now rewrite Hp|]. apply password_irrelevant. intros m args S. rewrite (parse_statement _ _ _ _ S) in E. cbn [p_actor] in E. apply andb_prop in E as [E _]. rewrite seq_eqb_refl in E. discriminate E. }
  unfold execute. rewrite <- S1, S2. auto.
Qed.
Lemma replay_serial password srt pw k : sort_contract srt -> (password = true -> pw = pwd) -> forall l c ss, reachable insertion_sort pw c -> replay password c l = true ->
  ss k = granted -> exists c' ss', serial srt pw c ss (map (told k) l) c' ss' /\ ss' k = granted.
Proof.
  intros H1 Hp. induction l as [|[line expected] l IH]; intros c ss Hr E G; cbn [replay] in E.
  - exists c, ss. split; auto. constructor.
  - apply andb_prop in E as [E1 E2]. destruct (line_check_run password srt pw c (Some granted) line H1 Hr Hp E1) as [X1 X2].
    destruct (execute insertion_sort pwd line _) as [[c1 s1] r] eqn:X. destruct s1 as [[[|] [|]]|]; try discriminate. destruct r as [ans| |]; try discriminate.
    apply andb_prop in E2 as [Ea E2]. apply seq_eqb_eq in Ea. subst expected.
    destruct (IH c1 (fun j => if (j =? k)%nat then granted else ss j)) as (c2 & ss2 & S2 & G2); auto.
    + eapply reach_step; [exact Hr|exact X2].
    + cbn beta. now rewrite Nat.eqb_refl.
    + exists c2, ss2. split; auto. cbn [map]. change (told k (line, ans) :: map (told k) l) with ([told k (line, ans)] ++ map (told k) l).
      eapply serial_app; [|exact S2]. apply (serial_more srt pw c ss [] c ss k line c1 granted (Answered ans)); [constructor|].
      rewrite G. apply processes_answered; [now left|exact X1|reflexivity].
Qed.

(** ** Which names the lines are about *)
Definition listed (n : bytes) (l : list bytes) : bool := existsb (seq_eqb n) l.
Definition covered (t : transcript) (n : bytes) : bool := t_everything t || listed n (t_names t).
Definition private_check (t : transcript) (line : bytes) : bool :=
  match parse line with
  | Ok p =>
    (negb (is_variable (p_actor p)) || covered t (p_actor p)) &&
    (negb (is_type (p_actor p)) || match p_args p with n :: _ => covered t n | [] => true end) &&
    (negb (seq_eqb (p_actor p) (B "Context")) ||
     ((negb (listed (p_message p) [B "listNamespaces"; B "listVariables"]) || t_everything t) &&
      (negb (seq_eqb (p_message p) (B "deleteVariable:")) || forallb (covered t) (p_args p)) &&
      (negb (listed (p_message p) [B "listVariablesOfNamespace:"; B "deleteVariablesOfNamespace:"]) ||
       forallb (fun ns => t_everything t || listed ns (t_spaces t)) (p_args p))))
  | _ => true
  end.
Lemma listed_in n l : listed n l = true <-> In n l.
Proof.
  unfold listed. rewrite existsb_exists. split.
  - intros (x & Hx & E). apply seq_eqb_eq in E. now subst.
  - intros H. exists n. split; auto. apply seq_eqb_refl.
Qed.
Lemma covered_uses t n : covered t n = true -> uses t n.
Proof. unfold covered, uses. intros H. apply orb_prop in H as [H|H]; auto. right. left. now apply listed_in. Qed.
Lemma nimp a b : negb a || b = true -> a = true -> b = true.
Proof. destruct a, b; auto. Qed.
Lemma private_check_ok t line : private_check t line = true -> private (uses t) line.
Proof.
  intros H a m args Hs. unfold private_check in H. rewrite (parse_statement _ _ _ _ Hs) in H. cbn [p_actor p_message p_args] in H.
  apply andb_prop in H as [H H3]. apply andb_prop in H as [H1 H2]. split; [|split].
  - intros V. apply covered_uses, (nimp _ _ H1). now apply is_variable_iff.
  - intros n i C. destruct (creates_head _ _ _ _ _ C) as [r ->]. apply covered_uses, (nimp _ _ H2). apply is_type_iff. eapply creates_type; eauto.
  - intros ->. assert (H := nimp _ _ H3 (seq_eqb_refl _)). apply andb_prop in H as [H H6]. apply andb_prop in H as [H4 H5]. split; [|split].
    + intros Hm n. left. apply (nimp _ _ H4). now apply listed_in.
    + intros ->. assert (F := nimp _ _ H5 (seq_eqb_refl _)). rewrite forallb_forall in F. apply Forall_forall. intros x Hx. apply covered_uses. now apply F.
    + intros Hm. assert (F := nimp _ _ H6 (proj2 (listed_in _ _) Hm)). rewrite forallb_forall in F. apply Forall_forall. intros ns Hx i.
      specialize (F ns Hx). apply orb_prop in F as [F|F]; [now left|]. right. right. exists ns, i. split; auto. now apply listed_in.
Qed.

(** ** The documentation *)
Definition plain_server : context := new_context false 3 (to_float (atof (B "0.0000001"))) true.
Definition transcript_check (t : transcript) : bool := replay (t_password t) plain_server (t_lines t) && forallb (fun p => private_check t (fst p)) (t_lines t).
Lemma readme_checked : forallb transcript_check readme = true.
Proof. vm_compute. reflexivity. Qed.
Lemma checked t : In t readme -> replay (t_password t) plain_server (t_lines t) = true /\ forall p, In p (t_lines t) -> private (uses t) (fst p).
Proof.
  intros H. assert (C := readme_checked). rewrite forallb_forall in C. specialize (C t H). apply andb_prop in C as [C1 C2]. split; auto.
  rewrite forallb_forall in C2. intros p Hp. now apply private_check_ok, C2.
Qed.
Lemma plain_reachable srt pw : reachable srt pw plain_server.
Proof. apply reach_start. vm_compute. reflexivity. Qed.
Lemma plain_agree t c : default_settings c -> (forall n, uses t n -> ~ live c n) -> agree (uses t) plain_server c.
Proof.
  intros [P T] F. split; [|split; [exact P|exact T]]. intros n Hn. specialize (F n Hn). unfold live in F. destruct (lookup c n); [destruct F; discriminate|reflexivity].
Qed.

Theorem C64_documented_sessions : forall t srt pw c ss k, In t readme -> sort_contract srt -> reachable srt pw c -> default_settings c ->
  (forall n, uses t n -> ~ live c n) -> (t_password t = true -> pw = B "password") ->
  ss k = {| is_connected := true; is_authenticated := true |} ->
  exists c' ss', serial srt pw c ss (map (told k) (t_lines t)) c' ss' /\ ss' k = ss k.
Proof.
  intros t srt pw c ss k Ht H1 Hc D F Hp G. destruct (checked t Ht) as [R Pr].
  destruct (replay_serial (t_password t) srt pw k H1 Hp (t_lines t) plain_server ss (plain_reachable _ _) R G) as (c1 & ss1 & S & G1).
  destruct (C63_alone srt pw (uses t) (fun _ => true) plain_server c ss ss _ _ _ H1 (plain_reachable _ _) Hc (plain_agree t c D F) (fun k _ => eq_refl) S) as (d & st & S' & _ & E').
  { intros e He _. apply in_map_iff in He as (p & <- & Hin). now apply Pr. }
  assert (X : forall l, part (fun _ => true) l = l) by (unfold part; induction l as [|e l IHl]; [reflexivity|]; cbn [filter]; now rewrite IHl).
  rewrite X in S'. exists d, st. split; auto. rewrite (E' k eq_refl), G1. now symmetry.
Qed.

Lemma told_named k l : map named (map (told k) l) = map (fun x => (k, x)) (map fst l).
Proof. rewrite !map_map. reflexivity. Qed.
Lemma told_prefix srt pw c ss l k c1 s1 h c2 s2 rest : serial srt pw c ss (map (told k) l) c1 s1 -> serial srt pw c ss h c2 s2 ->
  (forall e, In e h -> e_sid e = k) -> map e_line h ++ rest = map fst l -> exists l2, map (told k) l = h ++ l2 /\ length l2 = length rest.
Proof.
  intros S1 S2 K E. assert (N := same_sid h k K). assert (Z : exists p q, map (told k) l = p ++ q /\ map named p = map named h /\ length q = length rest).
  { exists (map (told k) (firstn (length h) l)), (map (told k) (skipn (length h) l)). split; [rewrite <- map_app, firstn_skipn; reflexivity|]. split.
    - rewrite told_named, N. f_equal. rewrite <- firstn_map, <- E. rewrite <- (map_length e_line h), firstn_app, Nat.sub_diag, firstn_all, firstn_O. apply app_nil_r.
    - rewrite map_length, skipn_length. assert (L := f_equal (@length _) E). rewrite app_length, !map_length in L. lia. }
  destruct Z as (p & q & Z & Zp & Zq). rewrite Z in S1. destruct (serial_prefix _ _ _ _ _ _ _ _ S1) as (cp & sp & Sp).
  destruct (serial_unique _ _ _ _ _ _ _ _ _ _ Sp S2 Zp) as (-> & _). exists q. auto.
Qed.
(** A client that follows the transcript, on a server that other clients use as well, gets the answers of the transcript, as far as it has come. *)
Theorem C64_whatever_the_others_do : forall t srt pw c ss k h c' ss' rest, In t readme -> sort_contract srt -> reachable srt pw c -> default_settings c ->
  (forall n, uses t n -> ~ live c n) -> (t_password t = true -> pw = B "password") ->
  ss k = {| is_connected := true; is_authenticated := true |} ->
  serial srt pw c ss h c' ss' -> (forall e, In e h -> e_sid e <> k -> e_outcome e <> Refused -> foreign (uses t) (e_line e)) ->
  lines_in k h ++ rest = map fst (t_lines t) ->
  exists l, map (told k) (t_lines t) = entries_of k h ++ l /\ length l = length rest.
Proof.
  intros t srt pw c ss k h c' ss' rest Ht H1 Hc D F Hp G S Fo E. destruct (checked t Ht) as [R Pr].
  destruct (replay_serial (t_password t) srt pw k H1 Hp (t_lines t) plain_server ss (plain_reachable _ _) R G) as (c1 & ss1 & S1 & G1).
  destruct (C63_alone srt pw (uses t) (fun j => Nat.eqb j k) c plain_server ss ss _ _ _ H1 Hc (plain_reachable _ _) (agree_sym _ _ _ (plain_agree t c D F)) (fun k _ => eq_refl) S) as (d & st & S' & _ & E').
  { intros e He Nr. destruct (Nat.eqb_spec (e_sid e) k) as [Hk|Hk]; [|now apply Fo].
    assert (L : In (e_line e) (map fst (t_lines t))). { rewrite <- E. apply in_or_app. left. unfold lines_in. apply in_map. rewrite <- Hk. now apply entry_in. }
    apply in_map_iff in L as (p & <- & Hin). now apply Pr. }
  change (part (fun j => Nat.eqb j k) h) with (entries_of k h) in S'. eapply told_prefix; [exact S1|exact S'| |exact E].
  intros e He. apply filter_In in He as [_ He]. now apply Nat.eqb_eq.
Qed.

Definition one_line (p : bytes * bytes) : bool := negb (existsb (fun x => Ascii.eqb x NEWLINE) (fst p)).
Lemma one_lines : forallb (fun t => forallb one_line (t_lines t)) readme = true. Proof. vm_compute. reflexivity. Qed.
Lemma one_line_ok p : one_line p = true -> ~ In NEWLINE (fst p).
Proof.
  unfold one_line. intros C H. assert (X : existsb (fun x => Ascii.eqb x NEWLINE) (fst p) = true) by (apply existsb_exists; exists NEWLINE; split; auto; apply Ascii.eqb_refl).
  rewrite X in C. discriminate C.
Qed.
Lemma no_newlines : forall t, In t readme -> Forall (fun l => ~ In NEWLINE l) (map fst (t_lines t)).
Proof.
  intros t Ht. assert (C := one_lines). rewrite forallb_forall in C. specialize (C t Ht). rewrite forallb_forall in C. apply Forall_forall. intros l Hl. apply in_map_iff in Hl as (p & <- & Hp).
  apply one_line_ok. now apply C.
Qed.
Lemma password_private N pw line : password_line pw line -> private N line.
Proof.
  intros (a & Hs & _) a' m' args' Hs'. destruct (statement_unique _ _ _ _ _ _ _ Hs Hs') as (<- & <- & <-). repeat split.
  - intros V. apply is_variable_iff in V. discriminate V.
  - intros n i C. apply creates_type in C. apply is_type_iff in C. discriminate C.
  - discriminate.
  - discriminate.
  - discriminate.
Qed.
Definition greeting (k : nat) (line : bytes) : entry := told k (line, B "null").
Lemma opening_serial srt pw c k pre : opening pw pre ->
  exists c' ss', serial srt pw c (fun _ => fresh pw) (map (greeting k) pre) c' ss' /\ ss' k = granted /\ same_data c c'.
Proof.
  intros [[-> ->]|(line & -> & _ & a & Hs & Hd)]; cbn [map].
  - exists c, (fun _ => fresh []). split; [constructor|]. split; [reflexivity|]. split; [auto|split; reflexivity].
  - destruct (connection_runs srt pw c (fresh pw) line _ _ Hs) as (r & R & _). set (s1 := fst (session_receive pw (B "authenticateWithPassword:") [a] (fresh pw))) in R.
    assert (C : connection_line line) by (eexists _, _; exact Hs).
    assert (P : exists o, processes srt pw c (fresh pw) line (write_log line r c) s1 o).
    { destruct (is_connected s1) eqn:E; [exists (Answered r)|exists (Closed r)]; constructor; auto. }
    destruct P as [o P]. destruct (right_password _ _ _ _ _ _ _ _ _ P Hs Hd) as (A & Cn & O). rewrite (O eq_refl) in P.
    exists (write_log line r c). eexists. split; [exact (serial_more srt pw c (fun _ => fresh pw) [] c (fun _ => fresh pw) k line _ _ _ (serial_none _ _ _ _) P)|].
    split; [|apply same_data_log]. cbn beta. rewrite Nat.eqb_refl. destruct s1 as [x y]. cbn in A, Cn. now subst.
Qed.
(** The same for a schedule of a server: if the client has sent its lines and the server has nothing left to do for it, the client has got the
    documented answers, and no byte else. *)
Theorem C64_under_any_schedule : forall t srt pw c es k cn pre, let sv := run srt (start pw c) es in
  In t readme -> sort_contract srt -> reachable srt pw c -> default_settings c ->
  (forall n, uses t n -> ~ live c n) -> (t_password t = true -> pw = B "password") -> opening pw pre ->
  sv_crash sv = None -> nth_error (sv_conns sv) k = Some cn -> finished cn ->
  arrived es k = flat_map with_newline (pre ++ map fst (t_lines t)) ->
  (forall j line, j <> k -> sends es j line -> foreign (uses t) line) ->
  c_sent cn = flat_map with_newline (map (fun _ => B "null") pre ++ map snd (t_lines t)).
Proof.
  intros t srt pw c es k cn pre sv Ht H1 Hc D F Hp Op Cr Hn Fi Ar Fo. destruct (checked t Ht) as [_ Pr].
  assert (NL : Forall (fun l => ~ In NEWLINE l) (pre ++ map fst (t_lines t))).
  { apply Forall_app. split; [|now apply no_newlines]. destruct Op as [[_ ->]|(line & -> & Nn & _)]; auto. }
  assert (L : lines_of (arrived es k) (pre ++ map fst (t_lines t)) []). { split; [now rewrite app_nil_r|]. split; auto. }
  destruct (C63_group_under_any_schedule srt pw (uses t) (fun j => Nat.eqb j k) c plain_server es H1 Hc (plain_reachable _ _) (agree_sym _ _ _ (plain_agree t c D F)) Cr) as (h & d' & st & X & S & A & E).
  { intros j line Sd. destruct (Nat.eqb_spec j k) as [->|Hj]; [|eapply Fo; eauto]. destruct Sd as (ls & rest & L' & Hl).
    destruct (lines_of_unique _ _ _ _ _ L' L) as [-> _]. apply in_app_or in Hl as [Hl|Hl].
    - destruct Op as [[_ ->]|(ln & -> & _ & P)]; [destruct Hl|]. destruct Hl as [<-|[]]. eapply password_private; eauto.
    - apply in_map_iff in Hl as (p & <- & Hin). now apply Pr. }
  change (part (fun j => Nat.eqb j k) h) with (entries_of k h) in S.
  destruct (opening_serial srt pw plain_server k pre Op) as (c1 & ss1 & S1 & G1 & Sd).
  assert (Hc1 := serial_reach _ _ _ _ _ _ _ (plain_reachable srt pw) S1). destruct Sd as [Ld [Pd Td]].
  destruct (C64_documented_sessions t srt pw c1 ss1 k Ht H1 Hc1) as (c2 & ss2 & S2 & G2); auto.
  { split; [rewrite Pd; reflexivity|rewrite Td; reflexivity]. }
  { intros n _ Lv. unfold live in Lv. rewrite Ld in Lv. apply Lv. reflexivity. }
  assert (S3 := serial_app _ _ _ _ _ _ _ _ _ _ S1 S2).
  assert (Open : forall e, In e (map (greeting k) pre ++ map (told k) (t_lines t)) -> e_sid e = k /\ ~ closes e).
  { intros e He. apply in_app_or in He as [He|He]; apply in_map_iff in He as (x & <- & _); (split; [reflexivity|intros [ans K]; discriminate K]). }
  destruct (C33_executed_lines_are_the_lines_of_the_stream _ _ _ _ _ _ _ _ _ X Hn L) as (w & W & _).
  assert (G := finished_lines _ _ _ _ _ _ _ _ _ X Hn L Fi).
  destruct X as (ss & _ & _ & Y). destruct (Y _ _ Hn) as [_ Acc].
  assert (Eq : entries_of k h = map (greeting k) pre ++ map (told k) (t_lines t)).
  { eapply (one_stream srt pw plain_server (fun _ => fresh pw) _ _ _ _ _ _ k w [] S S3).
    - intros e He. apply filter_In in He as [_ He]. now apply Nat.eqb_eq.
    - intros e He. now apply Open.
    - change (lines_in k h ++ w = map e_line (map (greeting k) pre ++ map (told k) (t_lines t)) ++ []). rewrite <- W, app_nil_r, map_app, !map_map, <- (map_id pre) at 1. reflexivity.
    - destruct G as [G|G]; [left|now right]. rewrite G in W. apply (app_inv_head (pre ++ map fst (t_lines t))). now rewrite app_nil_r.
    - now left.
    - intros e a b Z K. eapply (acc_close _ _ _ _ Acc); eauto.
    - intros e a b Z K. exfalso. apply (proj2 (Open e ltac:(rewrite Z; apply in_or_app; right; now left))). exact K. }
  rewrite (acc_output _ _ _ _ Acc). unfold answers_in. rewrite Eq. f_equal. clear. rewrite flat_map_concat_map, map_app, concat_app, !map_map. f_equal.
  - induction pre; cbn; [reflexivity|]. now f_equal.
  - induction (t_lines t); cbn; [reflexivity|]. now f_equal.
Qed.

(** ** Non-vacuity: the first session of the documentation (README.md:54-61) while another client is working *)
Definition first_session : transcript := {| t_at := 54; t_names := [B "i"]; t_spaces := []; t_everything := false; t_password := false; t_lines := [
    (B "Integer create: i withValue: 42;", B "null"); (B "i add: 8;", B "null"); (B "i get;", B "50")] |}.
Definition with_other_client : list event := [Accept; Accept] ++ concat (map (fun p => talk (fst p) (snd p))
  [(1%nat, B "Connection authenticateWithPassword: ""secret"";"); (0%nat, B "Connection authenticateWithPassword: ""secret"";");
   (0%nat, B "Integer create: i withValue: 42;"); (1%nat, B "Integer create: x withValue: 1;"); (0%nat, B "i add: 8;"); (1%nat, B "i get;"); (0%nat, B "i get;"); (1%nat, B "Context listVariables;")]).
Example C64_ex : In first_session readme /\ reachable insertion_sort (B "secret") plain_server /\ default_settings plain_server /\
  (forall n, uses first_session n -> ~ live plain_server n) /\ opening (B "secret") [B "Connection authenticateWithPassword: ""secret"";"] /\
  let sv := run insertion_sort (start (B "secret") plain_server) with_other_client in
  sv_crash sv = None /\ map c_sent (sv_conns sv) = [flat_map with_newline [B "null"; B "null"; B "null"; B "50"]; flat_map with_newline [B "null"; B "null"; B "50"; B "[i,x]"]] /\
  arrived with_other_client 0 = flat_map with_newline ([B "Connection authenticateWithPassword: ""secret"";"] ++ map fst (t_lines first_session)).
Proof.
  split; [left; reflexivity|]. split; [apply plain_reachable|]. split; [split; reflexivity|]. split; [intros n _ H; apply H; reflexivity|]. split.
  - right. eexists. split; [reflexivity|]. split; [|exists (B """secret"""); split; [stmt|]].
    + intros H. vm_compute in H. repeat (destruct H as [H|H]; [discriminate H|]). exact H.
    + apply string_of_iff. vm_compute. reflexivity.
  - split; [vm_compute; reflexivity|]. split; vm_compute; reflexivity.
Qed.
Lemma uses_first n : uses first_session n -> n = B "i".
Proof. intros [H|[[H|[]]|(ns & i & [] & _)]]; [discriminate H|now symmetry]. Qed.
Example C64_foreign_ex : foreign (uses first_session) (B "Integer create: x withValue: 1;") /\ foreign (uses first_session) (B "i get;") /\ foreign (uses first_session) (B "Context listVariables;").
Proof.
  split; [|split].
  - eapply (foreign_of (uses first_session) _ (B "Integer") (B "create:withValue:") [B "x"; B "1"]); [stmt|..].
    + intros V. apply uses_first in V. discriminate V.
    + intros _ n r E V. assert (B "x" = n) as <- by congruence. apply uses_first in V. discriminate V.
    + discriminate.
  - eapply (foreign_of (uses first_session) _ (B "i") (B "get") []); [stmt|..].
    + intros _. exact get_changes_nothing.
    + intros V. exfalso. revert V. apply not_type_of. reflexivity.
    + discriminate.
  - eapply (foreign_of (uses first_session) _ (B "Context") (B "listVariables") []); [stmt|..].
    + intros V. apply uses_first in V. discriminate V.
    + intros V. exfalso. revert V. apply not_type_of. reflexivity.
    + intros _. repeat split; intros; try discriminate. intros [X|[X|[]]]; discriminate.
Qed.
Example C64_count : length readme = 143%nat /\ length (flat_map t_lines readme) = 541%nat. Proof. vm_compute. split; reflexivity. Qed.
Print Assumptions C64_documented_sessions.
Print Assumptions C64_whatever_the_others_do.
Print Assumptions C64_under_any_schedule.
