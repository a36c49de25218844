(** C91: what a lock protects. *)
From Coq Require Import String List Ascii ZArith Lia Classical.
From Verif Require Import Bytes StrUtils Outcome Num Instance Context Server Platform.
From Verif Require Import Spec_Grammar Spec_State Spec_Names Spec_Text Spec_Number Spec_Literal Spec_Order Spec_Set Spec_Object Spec_Server Spec_Clients.
From Verif Require Import Proof_Parser Proof_Exec Proof_Literal Proof_Names Proof_Context Proof_Number Proof_Set Proof_Server.
From Verif Require Import Props_State Props_Object Props_Set Props_Server Props_Clients Props_Linear Props_Trace Props_LastWrite Props_Observe.
From Verif Require Import Spec_Set Spec_Clients Spec_LastWrite Spec_Lock.
Import ListNotations.
Open Scope list_scope.

Lemma harmless_lookup srt pw c s c' s' e d : sort_contract srt -> reachable srt pw c -> processes srt pw c s (e_line e) c' s' (e_outcome e) ->
  harmless d e -> lookup c' d = lookup c d.
Proof.
  intros K R P [N A]. destruct (processes_cases _ _ _ _ _ _ _ _ P) as [(_ & -> & _)|(ans & X & O)]; [auto|]. destruct N as [N|[(a & Ea & Er)|[Kp Si]]].
  - destruct O; congruence.
  - assert (a = ans) by (eapply executed_answer; [exact Ea|exact O]). subst a. destruct (C27_errors_change_nothing _ _ _ _ _ _ _ _ K R X Er) as (_ & [E _] & _). apply E.
  - destruct (step_cases srt pw c (Some s) (e_line e) c' (Some s') ans d K R X) as [E|[(m & args & i & Hs & Hm & _)|[(T & m & args & i & Hs & C & _)|[_ N]]]]; auto.
    + destruct (Si m args Hm Hs).
    + exfalso. apply A. exists T, m, args, i. auto.
    + contradiction.
Qed.
Lemma harmless_serial srt pw c ss h c' ss' d : sort_contract srt -> reachable srt pw c -> serial srt pw c ss h c' ss' ->
  (forall e, In e h -> harmless d e) -> lookup c' d = lookup c d.
Proof.
  intros K R H. induction H as [|h c1 ss1 sid line c2 s2 o H IH P]; intros F; [auto|].
  transitivity (lookup c1 d); [|apply IH; intros e He; apply F, in_or_app; now left].
  apply (harmless_lookup srt pw c1 (ss1 sid) c2 s2 {| e_sid := sid; e_line := line; e_outcome := o |} d K (serial_reach _ _ _ _ _ _ _ R H) P).
  apply F, in_or_app. right. now left.
Qed.
Lemma obtained_free srt pw c s c' s' e n : sort_contract srt -> reachable srt pw c -> processes srt pw c s (e_line e) c' s' (e_outcome e) -> obtains n e -> ~ live c n /\ live c' n.
Proof.
  intros K R P [(T & m & args & i & Hs & C & M) X]. split.
  - intros L. destruct (processes_cases _ _ _ _ _ _ _ _ P) as [(Q & _)|(ans & Y & O)]; [exact (refused_not_executed _ _ Q X)|].
    destruct (C24_create_on_a_used_name srt pw c (Some s) (e_line e) T m args n i Hs C L M) as (c3 & R3 & _).
    destruct (runs_unique _ _ _ _ _ _ _ _ _ _ _ Y R3) as (_ & _ & ->). assert (Q := executed_answer e _ _ X O). vm_compute in Q. discriminate Q.
  - apply (step_live srt pw c s c' s' e n K R P). left. split; [exists T, m, args, i|]; auto.
Qed.
Lemma inside_snoc n k h e : inside n k (h ++ [e]) <-> (e_sid e = k /\ obtains n e) \/ (inside n k h /\ (e_sid e = k -> ~ gives_back n e)).
Proof.
  split.
  - intros (h1 & e1 & h2 & E & S & O & F). destruct (snoc_split h2) as [->|(h3 & y & ->)].
    + apply app_inj_tail in E as [_ <-]. auto.
    + rewrite app_comm_cons, app_assoc in E. apply app_inj_tail in E as [-> <-]. right. split.
      * exists h1, e1, h3. split; [reflexivity|]. split; [exact S|]. split; [exact O|]. intros e' I. apply F, in_or_app. now left.
      * apply F, in_or_app. right. now left.
  - intros [[S O]|[(h1 & e1 & h2 & -> & S & O & F) N]].
    + exists h, e, []. split; [reflexivity|]. split; [exact S|]. split; [exact O|]. intros e' [].
    + exists h1, e1, (h2 ++ [e]). rewrite <- app_assoc. split; [reflexivity|]. split; [exact S|]. split; [exact O|]. intros e' I. apply in_app_or in I as [I|[<-|[]]]; auto.
Qed.
Lemma disciplined_prefix n d h1 h2 : disciplined n d (h1 ++ h2) -> disciplined n d h1.
Proof. intros D a e b E. apply (D a e (b ++ h2)). rewrite E, <- app_assoc. reflexivity. Qed.
(** At most one client has the lock; and then the name is in use. *)
Lemma inside_one srt pw c ss h c' ss' n d : sort_contract srt -> reachable srt pw c -> serial srt pw c ss h c' ss' -> disciplined n d h ->
  (forall k, inside n k h -> live c' n) /\ (forall j k, inside n j h -> inside n k h -> j = k).
Proof.
  intros K R H. induction H as [|h c1 ss1 sid line c2 s2 o H IH P]; intros D.
  - assert (Z : forall k, ~ inside n k []) by (intros k (h1 & e & h2 & E & _); destruct h1; discriminate E). split; [intros k Y|intros j k Y]; destruct (Z _ Y).
  - destruct (IH (disciplined_prefix _ _ _ _ D)) as [Lv One]. clear IH. set (e := {| e_sid := sid; e_line := line; e_outcome := o |}) in *. assert (R1 := serial_reach _ _ _ _ _ _ _ R H).
    change line with (e_line e) in P. change o with (e_outcome e) in P. assert (D1 := D h e [] eq_refl).
    assert (Keep : forall k, inside n k h -> (sid = k -> ~ gives_back n e) -> live c2 n).
    { intros k I N. apply (step_live srt pw c1 (ss1 sid) c2 s2 e n K R1 P). right. split; [eauto|]. intros G. apply N; [|exact G]. apply (One sid k); [|exact I]. apply D1. now left. }
    split.
    + intros k I. apply inside_snoc in I as [[_ O]|[I N]]; [apply (obtained_free srt pw c1 (ss1 sid) c2 s2 e n K R1 P O)|]. eapply Keep; eauto.
    + intros j k I J. apply inside_snoc in I, J. destruct I as [[S O]|[I N]], J as [[S' O']|[J N']]; [congruence| | |eauto]; exfalso.
      * destruct (obtained_free srt pw c1 (ss1 sid) c2 s2 e n K R1 P O) as [F _]. apply F. eauto.
      * destruct (obtained_free srt pw c1 (ss1 sid) c2 s2 e n K R1 P O') as [F _]. apply F. eauto.
Qed.
(** At every time at most one client is in its critical section, although each of them only knows what it did itself. *)
Theorem C91_at_most_one_inside : forall srt pw c ss h c' ss' n d j k, sort_contract srt -> reachable srt pw c -> serial srt pw c ss h c' ss' -> disciplined n d h ->
  inside n j h -> inside n k h -> j = k.
Proof. intros srt pw c ss h c' ss' n d j k K R H D. apply (inside_one srt pw c ss h c' ss' n d K R H D). Qed.
Lemma stays_inside n k h1 h2 : inside n k h1 -> stays n k h2 -> inside n k (h1 ++ h2).
Proof.
  intros (a & e & b & -> & S & O & F) St. exists a, e, (b ++ h2). rewrite <- app_assoc. split; [reflexivity|]. split; [exact S|]. split; [exact O|].
  intros e' I. apply in_app_or in I as [I|I]; auto.
Qed.
(** While a client has the lock nobody else does anything that can change what the lock protects. *)
Theorem C91_nobody_else : forall srt pw c ss h1 h2 c' ss' n d k, sort_contract srt -> reachable srt pw c -> serial srt pw c ss (h1 ++ h2) c' ss' -> disciplined n d (h1 ++ h2) ->
  inside n k h1 -> stays n k h2 -> forall e, In e h2 -> e_sid e <> k -> harmless d e.
Proof.
  intros srt pw c ss h1 h2 c' ss' n d k K R H D I St e He Ne. apply NNPP. intros N. apply in_split in He as (a & b & ->).
  assert (Ie : inside n (e_sid e) (h1 ++ a)) by (apply (D (h1 ++ a) e b); [now rewrite <- app_assoc|now right]).
  assert (Ik : inside n k (h1 ++ a)) by (apply stays_inside; auto; intros e' He'; apply St, in_or_app; now left).
  rewrite app_assoc in H, D. destruct (serial_prefix _ _ _ _ _ _ _ _ H) as (c1 & ss1 & H1).
  apply Ne. exact (C91_at_most_one_inside srt pw c ss (h1 ++ a) c1 ss1 n d _ _ K R H1 (disciplined_prefix _ _ _ _ D) Ie Ik).
Qed.
(** So what the client found there stays there until the client itself changes it. *)
Theorem C91_nothing_changes : forall srt pw c ss h1 h2 c1 ss1 c2 ss2 n d k, sort_contract srt -> reachable srt pw c ->
  serial srt pw c ss h1 c1 ss1 -> serial srt pw c1 ss1 h2 c2 ss2 -> disciplined n d (h1 ++ h2) ->
  inside n k h1 -> stays n k h2 -> (forall e, In e h2 -> e_sid e = k -> harmless d e) -> lookup c2 d = lookup c1 d.
Proof.
  intros srt pw c ss h1 h2 c1 ss1 c2 ss2 n d k K R H1 H2 D I St Own. apply (harmless_serial srt pw c1 ss1 h2 c2 ss2 d K (serial_reach _ _ _ _ _ _ _ R H1) H2).
  intros e He. destruct (Nat.eq_dec (e_sid e) k) as [E|Ne]; [auto|].
  exact (C91_nobody_else srt pw c ss h1 h2 c2 ss2 n d k K R (serial_app _ _ _ _ _ _ _ _ _ _ H1 H2) D I St e He Ne).
Qed.
(** Reading, computing and writing back under the lock loses no change. *)
Theorem C91_no_change_is_lost : forall srt pw c ss h c' ss' n d v z, sort_contract srt -> reachable srt pw c -> serial srt pw c ss h c' ss' ->
  disciplined n d h -> lookup c d = Some (IObj (OInt v)) ->
  (forall h1 e h2, h = h1 ++ e :: h2 -> (harmless d e /\ z e = 0%Z) \/ raises n d h1 e (z e)) ->
  lookup c' d = Some (IObj (OInt (v + fold_right Z.add 0 (map z h)))).
Proof.
  intros srt pw c ss h c' ss' n d v z K R H. induction H as [|h c1 ss1 sid line c2 s2 o H IH P]; intros D L F.
  - cbn. rewrite Z.add_0_r. exact L.
  - assert (D1 := disciplined_prefix _ _ _ _ D). assert (Q : lookup c1 d = Some (IObj (OInt (v + fold_right Z.add 0 (map z h))))%Z).
    { apply IH; auto. intros h1 e h2 E. apply (F h1 e (h2 ++ [{| e_sid := sid; e_line := line; e_outcome := o |}])). rewrite E, <- app_assoc. reflexivity. }
    clear IH. set (e := {| e_sid := sid; e_line := line; e_outcome := o |}) in *. assert (R1 := serial_reach _ _ _ _ _ _ _ R H).
    change line with (e_line e) in P. change o with (e_outcome e) in P.
    assert (Sm : fold_right Z.add 0%Z (map z (h ++ [e])) = (fold_right Z.add 0 (map z h) + z e)%Z).
    { clear. induction h as [|x h IH]; cbn [app map fold_right]; [lia|]. rewrite IH. lia. }
    rewrite Sm. clear Sm. set (s := fold_right Z.add 0%Z (map z h)) in *. destruct (F h e [] eq_refl) as [[Hl ->]|Ra].
    + rewrite (harmless_lookup _ _ _ _ _ _ _ _ K R1 P Hl), Q. rewrite Z.add_0_r. reflexivity.
    + destruct Ra as (h1 & g & h2 & args & ans & w & E & Sg & I & St & Own & Hg & Xg & Pr & Nr & Se). rewrite E in H, D1.
      destruct (serial_split _ _ _ _ _ _ _ _ H) as (ca & sa & Ha & Hb).
      (* the get *)
      assert (Hg1 : harmless d g).
      { split; [right; right; split|].
        - split; [intros X|intros ns i _ X]; destruct (statement_unique _ _ _ _ _ _ _ Hg X) as (_ & Q2 & _); discriminate Q2.
        - intros m a Hm X. destruct (statement_unique _ _ _ _ _ _ _ Hg X) as (_ & <- & _). clear - Hm. cbn in Hm. repeat destruct Hm as [Hm|Hm]; try discriminate Hm. exact Hm.
        - intros (T & m & a & i & X & C). destruct (statement_unique _ _ _ _ _ _ _ Hg X) as (_ & <- & _). clear - C. inversion C; subst; match goal with W : with_value _ |- _ => destruct W as [W|W]; discriminate W | W : without_value _ |- _ => destruct W as [W|W]; discriminate W end. }
      assert (La : lookup ca d = lookup c1 d).
      { symmetry. apply (C91_nothing_changes srt pw c ss h1 (g :: h2) ca sa c1 ss1 n d (e_sid e) K R Ha Hb D1 I St). intros e' [<-|He'] Se'; auto. }
      rewrite Q in La. change (g :: h2) with ([g] ++ h2) in Hb. destruct (serial_split _ _ _ _ _ _ _ _ Hb) as (cb & sb & Hc & _).
      assert (Ra := serial_reach _ _ _ _ _ _ _ R Ha).
      assert (W : w = (v + s)%Z).
      { destruct (C86_reading_an_object srt pw ca sa [] g cb sb d (B "Integer") (OInt (v + s)) args K Ra La eq_refl Hc ltac:(constructor) Hg) as (a & cx & sx & Xa & Hx & Sh).
        - intros X. exact (refused_not_executed _ _ X Xg).
        - assert (a = ans) by (exact (executed_answer _ _ _ Xa Xg)). subst a.
          assert (Y : shows (float_precision cx) (OInt (v + s)) ans) by (apply Sh; right; split; auto; intros ? ? []). inversion Y; subst. eapply prints_int_inj; eauto. }
      subst w.
      assert (Hs : serial srt pw c1 ss1 [e] c2 (fun k => if (k =? sid)%nat then s2 else ss1 k)).
      { apply (serial_more srt pw c1 ss1 [] c1 ss1 sid line c2 s2 o); [constructor|exact P]. }
      destruct (C86_the_last_value_set srt pw c1 ss1 [e] c2 _ d (B "Integer") (OInt (v + s)) K R1 Q eq_refl Hs) as (y & Ly & _ & Y).
      { constructor; [|constructor]. right. destruct Se as [a x Ha' _]. eauto. }
      rewrite Ly. f_equal. f_equal. destruct Y as [(b & e1 & a & E1 & _ & W1 & _)|[N _]].
      * destruct b as [|x b]; [injection E1 as <- _|destruct b; discriminate E1]. assert (Y2 := sets_unique _ _ _ _ _ W1 Se). rewrite Y2. f_equal. lia.
      * exfalso. apply (N e (OInt (v + s + z e))); [now left|exact Nr|exact Se].
Qed.
(** For every schedule of the threads. *)
Theorem C91_on_every_schedule : forall srt pw c0 es, sort_contract srt -> reachable srt pw c0 -> sv_crash (run srt (start pw c0) es) = None ->
  exists h, explains srt pw c0 es h /\
    forall n d v z, disciplined n d h -> lookup c0 d = Some (IObj (OInt v)) ->
      (forall h1 e h2, h = h1 ++ e :: h2 -> (harmless d e /\ z e = 0%Z) \/ raises n d h1 e (z e)) ->
      lookup (sv_ctx (run srt (start pw c0) es)) d = Some (IObj (OInt (v + fold_right Z.add 0 (map z h)))).
Proof.
  intros srt pw c0 es K R C. destruct (C35_every_schedule_is_serialisable srt pw c0 es C) as (h & X). exists h. split; [exact X|].
  intros n d v z D L F. destruct X as (ss & S & _). exact (C91_no_change_is_lost srt pw c0 _ h _ ss n d v z K R S D L F).
Qed.

(** Two clients raise x by 1 and by 2 under the lock; the second has to try twice. *)
Definition locked_lines : list (nat * bytes) :=
  [(0%nat, B "Boolean create: lock withValue: true;"); (1%nat, B "Boolean create: lock withValue: true;"); (0%nat, B "x get;"); (0%nat, B "x set: 6;");
   (0%nat, B "Context deleteVariable: lock;"); (1%nat, B "Boolean create: lock withValue: true;"); (1%nat, B "x get;"); (1%nat, B "x set: 8;"); (1%nat, B "Context deleteVariable: lock;")].
Definition locked_answers : list bytes := [B "null"; ERR_USED; B "5"; B "null"; B "null"; B "null"; B "6"; B "null"; B "null"].
Definition raised_by (e : entry) : Z := if bytes_dec (e_line e) (B "x set: 6;") then 1%Z else if bytes_dec (e_line e) (B "x set: 8;") then 2%Z else 0%Z.
Lemma lock_splits P (l : list entry) : (forall k, (k < length l)%nat -> forall e, nth_error l k = Some e -> P (firstn k l) e) -> forall h1 e h2, l = h1 ++ e :: h2 -> P h1 e.
Proof.
  intros F h1 e h2 ->. assert (Y := F (length h1)). rewrite firstn_app, Nat.sub_diag, firstn_all in Y. cbn [firstn] in Y. rewrite app_nil_r in Y. apply Y.
  - rewrite app_length. cbn. lia.
  - rewrite nth_error_app2, Nat.sub_diag by lia. reflexivity.
Qed.
Definition locked_history : list entry :=
  map (fun p => {| e_sid := fst (fst p); e_line := snd (fst p); e_outcome := Answered (snd p) |}) (combine locked_lines locked_answers).
Lemma tries_lock : tries (B "Boolean create: lock withValue: true;") (B "lock").
Proof.
  exists (B "Boolean"), (B "create:withValue:"), [B "lock"; B "true"], (IObj (OBool true)). split; [stmt|]. split; [|now right].
  apply creates_object; [now left|left; reflexivity|apply Proof_Grammar.is_variable_iff; vm_compute; reflexivity|ex_lit].
Qed.
Example C91_ex : exists c ss, reachable insertion_sort [] one_integer /\ serial insertion_sort [] one_integer (fun _ => fresh []) locked_history c ss /\
  disciplined (B "lock") (B "x") locked_history /\ lookup one_integer (B "x") = Some (IObj (OInt 5)) /\
  (forall h1 e h2, locked_history = h1 ++ e :: h2 -> (harmless (B "x") e /\ raised_by e = 0%Z) \/ raises (B "lock") (B "x") h1 e (raised_by e)) /\
  lookup c (B "x") = Some (IObj (OInt 8)).
Proof.
  destruct (play one_integer [] locked_lines) as [[c h]|] eqn:E; [|vm_compute in E; discriminate E].
  destruct (plays _ _ _ _ E) as (ss & S). exists c, ss.
  assert (Eh : h = locked_history) by (vm_compute in E; inversion E; subst; vm_compute; reflexivity).
  assert (Lc : lookup c (B "x") = Some (IObj (OInt 8))) by (vm_compute in E; inversion E; subst; vm_compute; reflexivity).
  clear E. subst h. split; [exact one_integer_reachable|]. split; [exact S|]. clear S.
  (* who is inside *)
  assert (I0 : forall l, (forall e, In e l -> e_sid e = 0%nat -> ~ gives_back (B "lock") e) -> inside (B "lock") 0 (firstn 1 locked_history ++ l)).
  { intros l F. eexists [], _, l. split; [reflexivity|]. split; [reflexivity|]. split; [|exact F]. split; [exact tries_lock|left; reflexivity]. }
  assert (I1 : forall l, (forall e, In e l -> e_sid e = 1%nat -> ~ gives_back (B "lock") e) -> inside (B "lock") 1 (firstn 6 locked_history ++ l)).
  { intros l F. eexists (firstn 5 locked_history), _, l. split; [reflexivity|]. split; [reflexivity|]. split; [|exact F]. split; [exact tries_lock|left; reflexivity]. }
  assert (KL : forall line, (forall args, ~ statement line (B "Context") (B "deleteVariable:") args) -> (forall args, ~ statement line (B "Context") (B "deleteVariablesOfNamespace:") args) -> forall s o, ~ gives_back (B "lock") {| e_sid := s; e_line := line; e_outcome := o |}).
  { intros line A1 A2 s o [N _]. apply N. split; [apply A1|intros ns i _; apply A2]. }
  assert (Hx : forall line s o, leaves line (B "x") -> (forall T m args i, statement line T m args -> ~ creates T m args (B "x") i) -> harmless (B "x") {| e_sid := s; e_line := line; e_outcome := o |}).
  { intros line s o A1 A2. split; [right; now right|]. intros (T & m & args & i & Hs & C). exact (A2 T m args i Hs C). }
  assert (Hc : forall s o, harmless (B "x") {| e_sid := s; e_line := B "Boolean create: lock withValue: true;"; e_outcome := o |}).
  { intros s o. apply Hx; [leaf|]. intros T m args i Hs C. apply parse_iff in Hs. vm_compute in Hs. injection Hs as <- <- <-. inversion C. }
  assert (Hg : forall s o, harmless (B "x") {| e_sid := s; e_line := B "x get;"; e_outcome := o |}).
  { intros s o. apply Hx; [leaf|]. intros T m args i Hs C. apply parse_iff in Hs. vm_compute in Hs. injection Hs as <- <- <-. inversion C. }
  assert (Hd : forall s o, harmless (B "x") {| e_sid := s; e_line := B "Context deleteVariable: lock;"; e_outcome := o |}).
  { intros s o. apply Hx; [leaf|]. intros T m args i Hs C. apply parse_iff in Hs. vm_compute in Hs. injection Hs as <- <- <-. inversion C; subst;
      match goal with W : with_value _ |- _ => destruct W as [W|W]; discriminate W | W : without_value _ |- _ => destruct W as [W|W]; discriminate W end. }
  split; [|split; [vm_compute; reflexivity|split; [|exact Lc]]].
  - refine (lock_splits (fun h1 e => gives_back (B "lock") e \/ ~ harmless (B "x") e -> inside (B "lock") (e_sid e) h1) locked_history _). intros k Hk e He.
    destruct k as [|[|[|[|[|[|[|[|[|k]]]]]]]]]; [..|exfalso; vm_compute in Hk; lia]; unfold locked_history, locked_lines, locked_answers in He; cbn [combine map nth_error fst snd] in He; injection He as <-; cbn [e_sid].
    + intros [G|N]; exfalso; [revert G; apply KL; intros args; nostmt|apply N, Hc].
    + intros [G|N]; exfalso; [revert G; apply KL; intros args; nostmt|apply N, Hc].
    + intros [G|N]; exfalso; [revert G; apply KL; intros args; nostmt|apply N, Hg].
    + intros _. apply (I0 (skipn 1 (firstn 3 locked_history))). intros e [<-|[<-|[]]] _; apply KL; intros args; nostmt.
    + intros _. apply (I0 (skipn 1 (firstn 4 locked_history))). intros e [<-|[<-|[<-|[]]]] _; apply KL; intros args; nostmt.
    + intros [G|N]; exfalso; [revert G; apply KL; intros args; nostmt|apply N, Hc].
    + intros [G|N]; exfalso; [revert G; apply KL; intros args; nostmt|apply N, Hg].
    + intros _. apply (I1 (skipn 6 (firstn 7 locked_history))). intros e [<-|[]] _; apply KL; intros args; nostmt.
    + intros _. apply (I1 (skipn 6 (firstn 8 locked_history))). intros e [<-|[<-|[]]] _; apply KL; intros args; nostmt.
  - refine (lock_splits (fun h1 e => (harmless (B "x") e /\ raised_by e = 0%Z) \/ raises (B "lock") (B "x") h1 e (raised_by e)) locked_history _). intros k Hk e He.
    destruct k as [|[|[|[|[|[|[|[|[|k]]]]]]]]]; [..|exfalso; vm_compute in Hk; lia]; unfold locked_history, locked_lines, locked_answers in He; cbn [combine map nth_error fst snd] in He; injection He as <-; cbn [e_sid].
    + left. split; [apply Hc|vm_compute; reflexivity].
    + left. split; [apply Hc|vm_compute; reflexivity].
    + left. split; [apply Hg|vm_compute; reflexivity].
    + right. eexists (firstn 2 locked_history), _, [], [], (B "5"), 5%Z. split; [reflexivity|]. split; [reflexivity|]. split; [|split; [|split; [|split; [|split; [|split; [|split]]]]]].
      * apply (I0 (skipn 1 (firstn 2 locked_history))). intros e [<-|[]] _; apply KL; intros args; nostmt.
      * intros e [<-|[]] _; apply KL; intros args; nostmt.
      * intros e [].
      * cbn [e_line]. stmt.
      * left. reflexivity.
      * apply to_string_prints.
      * discriminate.
      * cbn [e_line]. apply (sets_value _ _ _ (B "6")); [stmt|ex_lit].
    + left. split; [apply Hd|vm_compute; reflexivity].
    + left. split; [apply Hc|vm_compute; reflexivity].
    + left. split; [apply Hg|vm_compute; reflexivity].
    + right. eexists (firstn 6 locked_history), _, [], [], (B "6"), 6%Z. split; [reflexivity|]. split; [reflexivity|]. split; [|split; [|split; [|split; [|split; [|split; [|split]]]]]].
      * apply (I1 []). intros e [].
      * intros e [<-|[]] _; apply KL; intros args; nostmt.
      * intros e [].
      * cbn [e_line]. stmt.
      * left. reflexivity.
      * apply to_string_prints.
      * discriminate.
      * cbn [e_line]. apply (sets_value _ _ _ (B "8")); [stmt|ex_lit].
    + left. split; [apply Hd|vm_compute; reflexivity].
Qed.
Print Assumptions C91_no_change_is_lost.
Print Assumptions C91_on_every_schedule.
