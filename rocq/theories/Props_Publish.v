(** C90: handing data over with a flag; and what does not work. *)
From Coq Require Import String List Ascii ZArith Lia.
From Verif Require Import Bytes StrUtils Outcome Num Instance Context Server Platform.
From Verif Require Import Spec_Grammar Spec_State Spec_Names Spec_Text Spec_Number Spec_Literal Spec_Order Spec_Set Spec_Server Spec_Clients.
From Verif Require Import Proof_Parser Proof_Exec Proof_Literal Proof_Names Proof_Context Proof_Set Proof_Server.
From Verif Require Import Props_State Props_Set Props_Server Props_Clients Props_Linear Props_Trace Props_LastWrite Props_Observe.
From Verif Require Import Spec_Set Spec_Clients Spec_Possible Spec_Secret Spec_LastWrite Spec_Publish.
Import ListNotations.
Open Scope list_scope.

Lemma lines_split A h : forall P l Q, lines_in A h = P ++ l :: Q ->
  exists a e b, h = a ++ e :: b /\ e_sid e = A /\ e_line e = l /\ lines_in A a = P /\ lines_in A b = Q.
Proof.
  induction h as [|g h IH]; intros P l Q E; [destruct P; discriminate E|]. unfold lines_in, entries_of in E. cbn [filter] in E. destruct (e_sid g =? A)%nat eqn:S.
  - cbn [map] in E. destruct P as [|p P]; cbn [app] in E; injection E as E1 E2.
    + exists [], g, h. apply Nat.eqb_eq in S. repeat split; auto.
    + destruct (IH P l Q E2) as (a & e & b & -> & S1 & L1 & A1 & B1). exists (g :: a), e, b. repeat split; auto. unfold lines_in, entries_of. cbn [filter]. rewrite S. cbn [map]. f_equal; auto.
  - destruct (IH P l Q E) as (a & e & b & -> & S1 & L1 & A1 & B1). exists (g :: a), e, b. repeat split; auto. unfold lines_in, entries_of. cbn [filter]. rewrite S. exact A1.
Qed.
Lemma lines_in_app A a b : lines_in A (a ++ b) = lines_in A a ++ lines_in A b.
Proof. unfold lines_in, entries_of. now rewrite filter_app, map_app. Qed.
Lemma only_one {X} (P : X -> Prop) u x w p y q : u ++ x :: w = p ++ y :: q -> P x -> (forall z, In z p \/ In z q -> ~ P z) -> u = p /\ x = y /\ w = q.
Proof.
  revert p. induction u as [|a u IH]; intros p E H N.
  - destruct p as [|b p]; cbn [app] in E; injection E as E1 E2; [auto|]. subst b. exfalso. apply (N x); auto. left. now left.
  - destruct p as [|b p]; cbn [app] in E; injection E as E1 E2.
    + exfalso. apply (N x); auto. right. rewrite <- E2. apply in_elt.
    + destruct (IH p E2 H) as (-> & -> & ->); [|subst; auto]. intros z Hz. apply N. destruct Hz; [left; now right|now right].
Qed.
Lemma leaves_no_set line n args : leaves line n -> ~ statement line n (B "set:") args.
Proof. intros [_ S]. apply S. now left. Qed.

(** The data that the flag announces are there. *)
Theorem C90_publication : forall srt pw c ss h1 e1 h2 e c' ss' A d t f x v rest args args1,
  sort_contract srt -> reachable srt pw c -> d <> f -> lookup c f = Some (IObj (OBool false)) -> lookup c d = Some (IObj x) -> has_type t x ->
  serial srt pw c ss ((h1 ++ e1 :: h2) ++ [e]) c' ss' ->
  only_set f (h1 ++ e1 :: h2) -> only_set d (h1 ++ e1 :: h2) ->
  (forall g, In g (h1 ++ e1 :: h2) -> e_sid g <> A -> leaves (e_line g) d /\ leaves (e_line g) f) ->
  (forall g, In g (h1 ++ e1 :: h2) -> e_sid g = A -> e_outcome g <> Refused) ->
  publishes d t f v (lines_in A (h1 ++ e1 :: h2) ++ rest) ->
  statement (e_line e1) f (B "get") args1 -> e_outcome e1 = Answered (B "true") ->
  statement (e_line e) d (B "get") args -> e_outcome e <> Refused ->
  exists ans c1 ss1, executed e ans /\ serial srt pw c ss (h1 ++ e1 :: h2) c1 ss1 /\ shows (float_precision c1) v ans.
Proof.
  intros srt pw c ss h1 e1 h2 e c' ss' A d t f x v rest args args1 K R N Lf Ld T H Of Od Others Mine Pub S1 O1 Se Oe.
  destruct (C86_reading_an_object srt pw c ss _ e c' ss' d t x args K R Ld T H Od Se Oe) as (ans & c1 & ss1 & X & H1 & Y).
  exists ans, c1, ss1. split; auto. split; auto. apply Y. left. clear Y X H Se Oe.
  (* the flag was set before it was read *)
  assert (F : exists ef w, In ef h1 /\ line_sets f (B "Boolean") (e_line ef) w).
  { assert (Hp : exists c2 ss2, serial srt pw c ss (h1 ++ [e1]) c2 ss2).
    { replace (h1 ++ e1 :: h2) with ((h1 ++ [e1]) ++ h2) in H1 by (now rewrite <- app_assoc). exact (serial_prefix _ _ _ _ _ _ _ _ H1). }
    destruct Hp as (c2 & ss2 & Hp). assert (Of1 : only_set f h1) by (unfold only_set in *; apply Forall_app in Of; apply Of).
    destruct (C86_reading_an_object srt pw c ss h1 e1 c2 ss2 f (B "Boolean") (OBool false) args1 K R Lf ltac:(constructor) Hp Of1 S1 ltac:(rewrite O1; discriminate)) as (a1 & c3 & ss3 & X & H3 & Y).
    assert (Ea : a1 = B "true") by (destruct X as [X|X]; rewrite O1 in X; [now injection X|discriminate X]). subst a1.
    destruct (C86_the_last_value_set srt pw c ss h1 c3 ss3 f (B "Boolean") (OBool false) K R Lf ltac:(constructor) H3 Of1) as (y & _ & _ & [Z|[Z ->]]).
    - destruct Z as (b1 & ef & a1 & -> & _ & W & _). exists ef, y. split; [apply in_elt|exact W].
    - exfalso. specialize (Y (OBool false) (or_intror (conj Z eq_refl))). inversion Y. }
  destruct F as (ef & w & If & Wf).
  assert (If2 : In ef (h1 ++ e1 :: h2)) by (apply in_or_app; now left).
  assert (Af : e_sid ef = A).
  { destruct (Nat.eq_dec (e_sid ef) A) as [|Ne]; auto. exfalso. destruct (Others ef If2 Ne) as [_ Lv]. destruct Wf as [a y Hs _]. exact (leaves_no_set _ _ _ Lv Hs). }
  remember (h1 ++ e1 :: h2) as h eqn:Eh. clear Eh If.
  destruct Pub as (pre & ld & mid & lf & post & E & Wd & Wl & Nf & Nd).
  (* where it was set *)
  assert (Il : In (e_line ef) (lines_in A h)) by (unfold lines_in; apply in_map, filter_In; split; auto; now apply Nat.eqb_eq).
  apply in_split in Il as (u & w2 & El).
  assert (Q : u = pre ++ ld :: mid /\ e_line ef = lf /\ w2 ++ rest = post).
  { apply (only_one (fun l => exists args, statement l f (B "set:") args)).
    - rewrite El, <- app_assoc in E. cbn [app] in E. rewrite E, <- app_assoc. reflexivity.
    - destruct Wf as [a y Hs _]. eauto.
    - intros z Hz (args2 & Hs). destruct Hz as [Hz|Hz].
      + apply in_app_or in Hz as [Hz|[Hz|Hz]]; [apply (Nf z args2); auto; apply in_or_app; now left| |apply (Nf z args2); auto; apply in_or_app; right; apply in_or_app; now left].
        subst z. destruct Wd as [a y Hs2 _]. destruct (statement_unique _ _ _ _ _ _ _ Hs Hs2) as (Q & _). congruence.
      + apply (Nf z args2); auto. apply in_or_app. right. apply in_or_app. now right. }
  destruct Q as (-> & Q & Q2). rewrite <- app_assoc in El. cbn [app] in El.
  destruct (lines_split A h pre ld (mid ++ e_line ef :: w2) El) as (a & ed & b & -> & Sd & Ld2 & _ & Lb).
  exists a, ed, b. split; auto. split; [apply Mine; auto; apply in_elt|]. split; [now rewrite Ld2|].
  intros e' w' I' _ [a' y' Hs' _]. assert (I2 : In e' (a ++ ed :: b)) by (apply in_or_app; right; now right).
  assert (A' : e_sid e' = A).
  { destruct (Nat.eq_dec (e_sid e') A) as [|Ne]; auto. exfalso. destruct (Others e' I2 Ne) as [Lv _]. exact (leaves_no_set _ _ _ Lv Hs'). }
  assert (Ib : In (e_line e') (mid ++ e_line ef :: w2)) by (rewrite <- Lb; unfold lines_in; apply in_map, filter_In; split; auto; now apply Nat.eqb_eq).
  apply in_app_or in Ib as [Ib|[Ib|Ib]].
  - apply (Nd (e_line e') [a']); auto. apply in_or_app. now left.
  - rewrite <- Ib, Q in Hs'. destruct Wl as [a2 y2 Hs2 _]. destruct (statement_unique _ _ _ _ _ _ _ Hs' Hs2) as (Q3 & _). congruence.
  - apply (Nd (e_line e') [a']); auto. apply in_or_app. right. rewrite <- Q2. apply in_or_app. now left.
Qed.

(** Without a password nobody is refused. *)
Lemma nobody_refused srt pw c ss h c' ss' : (forall k, is_authenticated (ss k) = true) -> serial srt pw c ss h c' ss' ->
  (forall k, is_authenticated (ss' k) = true) /\ forall e, In e h -> e_outcome e <> Refused.
Proof.
  intros A H. induction H as [|h c1 ss1 sid line c2 s2 o H IH P]; [split; [auto|intros e []]|]. destruct IH as [I1 I2]. split.
  - intros k. destruct (k =? sid)%nat; auto. exact (proj1 (processes_authenticated _ _ _ _ _ _ _ _ P) (I1 sid)).
  - intros e Hi. apply in_app_or in Hi as [Hi|[<-|[]]]; auto. cbn [e_outcome]. intros ->. inversion P as [Q| |]. rewrite I1 in Q. discriminate Q.
Qed.
(** What was executed of a client are the first of its lines. *)
Lemma first_lines srt pw c0 es h sid ls rest : explains srt pw c0 es h -> lines_of (arrived es sid) ls rest -> exists more, ls = lines_in sid h ++ more.
Proof.
  intros (ss & _ & Who & Conn) (L1 & L2 & L3). destruct (nth_error (sv_conns (run srt (start pw c0) es)) sid) as [cn|] eqn:E.
  - destruct (Conn sid cn E) as [_ Ac]. destruct (acc_input _ _ _ _ Ac) as (w & W & _). rewrite W in L1.
    destruct (lines_unique _ _ _ _ (acc_lines _ _ _ _ Ac) L2 L1) as [(k & -> & _)|(k & Ek & Ez)]; [eauto|].
    destruct k as [|l k]; [exists []; rewrite app_nil_r in *; auto|]. exfalso. apply L3. rewrite Ez. apply in_flat_newline. intros Q; discriminate Q.
  - exists ls. assert (Fl : entries_of sid h = []); [|unfold lines_in; now rewrite Fl].
    unfold entries_of. destruct (filter (fun e => (e_sid e =? sid)%nat) h) as [|e l] eqn:Q; auto. exfalso.
    assert (I : In e (filter (fun e => (e_sid e =? sid)%nat) h)) by (rewrite Q; now left). apply filter_In in I as [I S]. apply Nat.eqb_eq in S. subst sid.
    destruct (Who e I) as [cn Hc]. congruence.
Qed.
Theorem C90_on_every_schedule : forall srt c0 es A d t f x v ls rest, sort_contract srt -> reachable srt [] c0 -> sv_crash (run srt (start [] c0) es) = None ->
  d <> f -> lookup c0 f = Some (IObj (OBool false)) -> lookup c0 d = Some (IObj x) -> has_type t x ->
  lines_of (arrived es A) ls rest -> publishes d t f v ls ->
  (forall line n, In line ls -> n = d \/ n = f -> leaves line n \/ exists args, statement line n (B "set:") args) ->
  (forall sid line, sid <> A -> complete_line (arrived es sid) line -> leaves line d /\ leaves line f) ->
  exists h, explains srt [] c0 es h /\
    forall h1 e1 h2 e h3 args1 args, h = h1 ++ e1 :: h2 ++ e :: h3 ->
      statement (e_line e1) f (B "get") args1 -> e_outcome e1 = Answered (B "true") -> statement (e_line e) d (B "get") args ->
      exists ans p, executed e ans /\ shows p v ans.
Proof.
  intros srt c0 es A d t f x v ls rest K R C N Lf Ld T Ls Pub Own Oth. destruct (C35_every_schedule_is_serialisable srt [] c0 es C) as (h & X). exists h. split; [exact X|].
  intros h1 e1 h2 e h3 args1 args E S1 O1 Se. assert (X2 := X). destruct X2 as (ss & S & Who & Conn).
  destruct (nobody_refused srt [] c0 (fun _ => fresh []) h _ ss (fun k => eq_refl) S) as [_ NR].
  assert (Of : forall g, In g h -> (forall n, n = d \/ n = f -> leaves (e_line g) n \/ exists args, statement (e_line g) n (B "set:") args) /\ (e_sid g <> A -> leaves (e_line g) d /\ leaves (e_line g) f)).
  { intros g Hg. assert (Il : In (e_line g) (lines_in (e_sid g) h)) by (unfold lines_in; apply in_map, filter_In; split; auto; apply Nat.eqb_refl).
    destruct (Nat.eq_dec (e_sid g) A) as [Ea|Ne].
    - split; [|contradiction]. rewrite Ea in Il. destruct (first_lines _ _ _ _ _ _ _ _ X Ls) as (more & ->). intros n Hn. apply Own; auto. apply in_or_app. now left.
    - assert (Y : leaves (e_line g) d /\ leaves (e_line g) f).
      { apply (Oth (e_sid g)); auto. destruct (lines_of_exists (arrived es (e_sid g))) as (l2 & r2 & L2). destruct (first_lines _ _ _ _ _ _ _ _ X L2) as (more & E2).
        exists l2, r2. split; auto. rewrite E2. apply in_or_app. now left. }
      split; auto. intros n [->| ->]; left; apply Y. }
  rewrite E in S. assert (Ein : forall g, In g (h1 ++ e1 :: h2) -> In g h).
  { intros g Hg. rewrite E. replace (h1 ++ e1 :: h2 ++ e :: h3) with ((h1 ++ e1 :: h2) ++ e :: h3) by (rewrite <- app_assoc; reflexivity). apply in_or_app. now left. }
  replace (h1 ++ e1 :: h2 ++ e :: h3) with (((h1 ++ e1 :: h2) ++ [e]) ++ h3) in S by (rewrite <- !app_assoc; reflexivity).
  destruct (serial_prefix _ _ _ _ _ _ _ _ S) as (c1 & ss1 & S2).
  destruct (first_lines _ _ _ _ _ _ _ _ X Ls) as (more & El).
  assert (El2 : ls = lines_in A (h1 ++ e1 :: h2) ++ (lines_in A (e :: h3) ++ more)).
  { rewrite El, E. replace (h1 ++ e1 :: h2 ++ e :: h3) with ((h1 ++ e1 :: h2) ++ e :: h3) by (rewrite <- app_assoc; reflexivity). rewrite lines_in_app, <- app_assoc. reflexivity. }
  destruct (C90_publication srt [] c0 (fun _ => fresh []) h1 e1 h2 e c1 ss1 A d t f x v (lines_in A (e :: h3) ++ more) args args1 K R N Lf Ld T S2) as (ans & c2 & ss2 & Ex & _ & Sh); auto.
  - apply Forall_forall. intros g Hg. apply (proj1 (Of g (Ein g Hg))). now right.
  - apply Forall_forall. intros g Hg. apply (proj1 (Of g (Ein g Hg))). now left.
  - intros g Hg. exact (proj2 (Of g (Ein g Hg))).
  - rewrite <- El2. exact Pub.
  - apply NR. rewrite E. apply in_or_app. right. right. apply in_elt.
  - exists ans, (float_precision c2). auto.
Qed.

(** A client hands over 42; another looks at the flag, sees false, looks again, sees true, and reads 42. *)
Definition handing_data : context := data_after [B "Integer create: d withValue: 0;"; B "Boolean create: f withValue: false;"].
Definition handing_over : list event :=
  [Accept; Accept] ++ talk 1 (B "f get;") ++ talk 0 (B "d set: 42;") ++ talk 1 (B "f get;") ++ talk 0 (B "f set: true;") ++ talk 1 (B "f get;") ++ talk 1 (B "d get;").
Example C90_ex : let sv := run insertion_sort (start [] handing_data) handing_over in
  reachable insertion_sort [] handing_data /\ sv_crash sv = None /\
  lookup handing_data (B "f") = Some (IObj (OBool false)) /\ lookup handing_data (B "d") = Some (IObj (OInt 0)) /\
  lines_of (arrived handing_over 0) [B "d set: 42;"; B "f set: true;"] [] /\ publishes (B "d") (B "Integer") (B "f") (OInt 42) [B "d set: 42;"; B "f set: true;"] /\
  (forall line, complete_line (arrived handing_over 1) line -> leaves line (B "d") /\ leaves line (B "f")) /\
  map c_sent (sv_conns sv) = [flat_map with_newline [B "null"; B "null"]; flat_map with_newline [B "false"; B "false"; B "true"; B "42"]].
Proof.
  cbv zeta. split; [apply data_after_reachable|]. split; [vm_compute; reflexivity|]. split; [vm_compute; reflexivity|]. split; [vm_compute; reflexivity|].
  assert (L : forall k ls, arrived handing_over k = flat_map with_newline ls -> forallb (fun l => negb (existsb (Ascii.eqb NEWLINE) l)) ls = true -> lines_of (arrived handing_over k) ls []).
  { intros k ls E F. split; [now rewrite app_nil_r|]. split; [|intros []]. rewrite forallb_forall in F. apply Forall_forall. intros l Hl I. apply F in Hl.
    apply Bool.negb_true_iff in Hl. rewrite <- Bool.not_true_iff_false, existsb_exists in Hl. apply Hl. exists NEWLINE. split; [exact I|apply Ascii.eqb_refl]. }
  split; [apply L; vm_compute; reflexivity|]. split.
  { exists [], (B "d set: 42;"), [], (B "f set: true;"), []. split; [reflexivity|]. split; [apply (sets_value _ _ _ (B "42")); [stmt|ex_lit]|].
    split; [apply (sets_value _ _ _ (B "true")); [stmt|ex_lit]|]. split; intros l args I; destruct I. }
  split; [|vm_compute; reflexivity].
  intros line (ls & rest & Ls & I). destruct (lines_of_unique _ _ _ _ _ Ls (L 1%nat [B "f get;"; B "f get;"; B "f get;"; B "d get;"] eq_refl eq_refl)) as [-> _].
  cbn [In] in I. destruct I as [<-|[<-|[<-|[<-|[]]]]]; (split; leaf).
Qed.

(** What does not work: reading a value and sending back a changed one loses changes when two clients do it at a time, while [add:] does not (C59). *)
Definition counter_data : context := data_after [B "Integer create: x withValue: 0;"].
Definition read_then_write : list event :=
  [Accept; Accept] ++ talk 0 (B "x get;") ++ talk 1 (B "x get;") ++ talk 0 (B "x set: 1;") ++ talk 1 (B "x set: 1;").
Definition add_instead : list event := [Accept; Accept] ++ talk 0 (B "x add: 1;") ++ talk 1 (B "x add: 1;").
Example C90_reading_and_writing_back_loses_changes :
  let a := run insertion_sort (start [] counter_data) read_then_write in let b := run insertion_sort (start [] counter_data) add_instead in
  reachable insertion_sort [] counter_data /\ sv_crash a = None /\ sv_crash b = None /\
  map c_sent (sv_conns a) = [flat_map with_newline [B "0"; B "null"]; flat_map with_newline [B "0"; B "null"]] /\
  lookup (sv_ctx a) (B "x") = Some (IObj (OInt 1)) /\ lookup (sv_ctx b) (B "x") = Some (IObj (OInt 2)).
Proof. cbv zeta. split; [apply data_after_reachable|]. repeat split; vm_compute; reflexivity. Qed.
Print Assumptions C90_publication.
Print Assumptions C90_on_every_schedule.
