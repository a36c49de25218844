(** Proofs for string literals (C06, C07, C32). *)
From Verif Require Export Proof_TextLit.
From Verif Require Import Bytes StrUtils Grammar Outcome Parser Num Containers Instance Context.
From Verif Require Import Lemmas StringLit Proof_Grammar Proof_Parser Proof_Exec WP Proof_Inv Proof_TextLit Proof_Receive Proof_Context Proof_Names Api.
From Verif Require Import Spec_Grammar Spec_State Spec_Names Spec_Text.

(** ** get and set: on a String variable *)
Section S.
Context (srt : sorter) (pw : str) (c : context) (s : option session).
Context (Hsrt : sort_contract srt) (Hc : reachable srt pw c).
Lemma string_get_answers line n v args : statement line n (B "get") args -> lookup c n = Some (IObj (OStr v)) ->
  only_answers srt pw c s line (printed_string v).
Proof using Hsrt Hc.
  intros Hs Hl. assert (args = []) by (apply len0; eapply args_len; eauto; reflexivity). subst args.
  rewrite <- quoted_printed. apply (var_answers srt pw c s line n _ _ _ Hsrt Hc Hs Hl (Ok (quoted v))); auto.
Qed.
Lemma string_set_becomes line n v a w : statement line n (B "set:") [a] -> lookup c n = Some (IObj (OStr v)) ->
  denotes_string a w -> becomes srt pw c s line n (B "null") (IObj (OStr w)).
Proof using Hsrt Hc.
  intros Hs Hl Hd. apply unquote_denotes in Hd as [H1 H2].
  apply (var_becomes srt pw c s line n _ _ _ Hsrt Hc Hs Hl (IObj (OStr w)) (Ok null)); auto.
  change (on (fun s => IObj (OStr s)) (string_set [a] v) = (IObj (OStr w), Ok null)).
  unfold string_set, bind, check_nargs, arg, throw_if, ret, put, lift. cbn [length Nat.eqb negb nth_error].
  rewrite H1. cbn [negb]. rewrite H2. reflexivity.
Qed.
End S.
Lemma reachable_runs srt pw c s line c' s' ans : reachable srt pw c -> runs srt pw c s line c' s' ans -> reachable srt pw c'.
Proof. intros. eapply reach_step; eauto. Qed.
Lemma becomes_reachable srt pw c s line n ans i : reachable srt pw c -> becomes srt pw c s line n ans i ->
  exists c', runs srt pw c s line c' s ans /\ reachable srt pw c' /\ lookup c' n = Some i.
Proof. intros H (c' & R & L & _). exists c'. split; auto. split; auto. eapply reach_step; eauto. Qed.

(** ** authentication *)
Lemma auth_run srt pw c s line m args c' s' ans :
  statement line (B "Connection") m args -> runs srt pw c (Some s) line c' s' ans ->
  exists s1, s' = Some s1 /\ session_receive pw m args s = (s1, snd (session_receive pw m args s)).
Proof.
  intros Hs Hr. destruct (runs_statement _ _ _ _ _ _ _ _ Hr) as (w1 & r & E & Hu & -> & -> & ->).
  rewrite (run_connection srt pw line m args _ Hs) in E. unfold in_session in E. cbn [w_ctx w_session] in E.
  inversion E; subst. cbn [w_session]. eexists. split; [reflexivity|]. now destruct (session_receive pw m args s).
Qed.
Lemma session_receive_auth pw m args s : is_authenticated s = false ->
  is_authenticated (fst (session_receive pw m args s)) = true ->
  m = B "authenticateWithPassword:" /\ exists a, args = [a] /\ denotes_string a pw.
Proof.
  intros H0. unfold session_receive.
  apply (dispatch_cases (fun mo => is_authenticated (fst (mo s)) = true -> m = B "authenticateWithPassword:" /\ exists a, args = [a] /\ denotes_string a pw)); [cbn; congruence|].
  repeat apply Forall_cons; try apply Forall_nil; cbn [fst snd]; intros Hm.
  - cbn. congruence.
  - unfold session_authenticate, bind, check_nargs, arg, throw_if, throw, ret, get, put, lift, undefined.
    destruct args as [|a [|]]; cbn [length Nat.eqb negb nth_error fst snd]; try congruence.
    destruct (is_string_value a) eqn:Ea; cbn [negb fst snd]; [|congruence].
    destruct (string_of a) as [v|e|u] eqn:Ev; cbn [fst]; try congruence.
    destruct (seq_eqb v pw) eqn:E; cbn [fst]; [|congruence]. intros _. split; auto. exists a. split; auto.
    apply seq_eqb_eq in E. subst v. now apply string_of_iff.
Qed.
Lemma session_receive_right pw a s : denotes_string a pw ->
  session_receive pw (B "authenticateWithPassword:") [a] s = ({| is_connected := is_connected s; is_authenticated := true |}, Ok null).
Proof.
  intros H. destruct (unquote_denotes a pw H) as [H1 _]. apply string_of_iff in H.
  change (session_receive pw (B "authenticateWithPassword:") [a] s) with (session_authenticate pw [a] s).
  unfold session_authenticate, bind, check_nargs, arg, throw_if, throw, ret, get, put, lift. cbn [length Nat.eqb negb nth_error].
  rewrite H1. cbn [negb]. rewrite H. now rewrite seq_eqb_refl.
Qed.
(** The statement that sends a string literal. *)
Lemma auth_statement a : string_value a ->
  statement (B "Connection authenticateWithPassword: " ++ a ++ B ";") (B "Connection") (B "authenticateWithPassword:") [a].
Proof.
  intros H. exists [], " "%char, [], (B "authenticateWithPassword: " ++ a), [], [].
  split; [cbn; now rewrite <- ?app_assoc|]. split; [constructor|]. split; [now left|]. split; [unfold space; cbn; lia|].
  split; [constructor|]. split; [|split; constructor]. right.
  apply (kw_last (B "authenticateWithPassword:") (B " ") a).
  - exists (B "authenticateWithPassword"). split; [now left|]. apply is_identifier_iff. reflexivity.
  - apply is_spaces_iff. reflexivity.
  - left. now do 4 right.
Qed.
