(** C86: the last writer wins: shared dictionaries and shared objects are registers. *)
From Coq Require Import String List Ascii ZArith Lia.
From Verif Require Import Bytes StrUtils Outcome Num Instance Context Server Platform.
From Verif Require Import Spec_Grammar Spec_State Spec_Names Spec_Text Spec_Number Spec_Literal Spec_Order Spec_Set Spec_Server Spec_Clients.
From Verif Require Import Proof_Parser Proof_Exec Proof_Literal Proof_Names Proof_Context Proof_Set Proof_Server.
From Verif Require Import Props_State Props_Set Props_Server Props_Clients Props_Linear Props_Trace Spec_Set Spec_Clients Spec_LastWrite.
From Verif Require Import Spec_Object Spec_Undefined Spec_Possible Props_Object Props_Undefined Props_Observe.
Import ListNotations.
Open Scope list_scope.

Lemma last_write_snoc {A} h e (W : bytes -> A -> Prop) w : (forall line w w', W line w -> W line w' -> w = w') ->
  last_write (h ++ [e]) W w <-> (e_outcome e <> Refused /\ W (e_line e) w) \/ ((e_outcome e = Refused \/ forall w', ~ W (e_line e) w') /\ last_write h W w).
Proof.
  intros U. split.
  - intros (b & x & a & E & O & Wx & N). destruct a as [|y a _] using rev_ind.
    + apply app_inj_tail in E as [-> ->]. left. now split.
    + rewrite app_comm_cons, app_assoc in E. apply app_inj_tail in E as [-> ->]. right. split.
      * destruct (Classical_Prop.classic (e_outcome y = Refused)) as [Q|Q]; [now left|right; intros w' Y; apply (N y w'); auto; apply in_or_app; right; now left].
      * exists b, x, a. split; auto. split; auto. split; auto. intros e' w' I. apply N. apply in_or_app. now left.
  - intros [[O Wx]|[Q (b & x & a & -> & O & Wx & N)]].
    + exists h, e, []. repeat (split; auto).
    + exists b, x, (a ++ [e]). split; [now rewrite <- app_assoc|]. split; auto. split; auto. intros e' w' I O' Y. apply in_app_or in I as [I|[<-|[]]]; [now apply (N e' w')|].
      destruct Q as [Q|Q]; [contradiction|now apply (Q w')].
Qed.
Lemma last_write_unique {A} h (W : bytes -> A -> Prop) w w' : (forall line w w', W line w -> W line w' -> w = w') -> last_write h W w -> last_write h W w' -> w = w'.
Proof.
  intros U. induction h as [|e h IH] using rev_ind; [intros (b & x & a & E & _); destruct b; discriminate E|]. rewrite !last_write_snoc by exact U.
  intros [[O X]|[Q X]] [[O' X']|[Q' X']]; [exact (U _ _ _ X X')| | |now apply IH].
  - destruct Q' as [Q'|Q']; [contradiction|destruct (Q' _ X)].
  - destruct Q as [Q|Q]; [contradiction|destruct (Q _ X')].
Qed.
Lemma no_write_snoc {A} h e (W : bytes -> A -> Prop) : no_write (h ++ [e]) W <-> (e_outcome e = Refused \/ forall w', ~ W (e_line e) w') /\ no_write h W.
Proof.
  split.
  - intros N. split; [|intros x w I; apply N; apply in_or_app; now left].
    destruct (Classical_Prop.classic (e_outcome e = Refused)) as [Q|Q]; [now left|right; intros w' Y; apply (N e w'); auto; apply in_or_app; right; now left].
  - intros [Q N] x w I O Y. apply in_app_or in I as [I|[<-|[]]]; [now apply (N x w)|]. destruct Q as [Q|Q]; [contradiction|now apply (Q w)].
Qed.
Lemma writes_unique n kt vt k line w w' : line_writes n kt vt line k w -> line_writes n kt vt line k w' -> w = w'.
Proof.
  intros [a b v Hs Hv Hk|b Hs Hk|Hs] [a' b' v' Hs' Hv' Hk'|b' Hs' Hk'|Hs']; destruct (statement_unique _ _ _ _ _ _ _ Hs Hs') as (_ & M & Ea); try discriminate M; auto.
  injection Ea as <- <-. now rewrite (literal_unique _ _ _ _ Hv Hv').
Qed.

Lemma dictionary_step srt pw c s line c' s' ans n kt vt d : sort_contract srt -> kt <> B "Float" -> reachable srt pw c -> lookup c n = Some (IDict kt vt d) ->
  runs srt pw c s line c' s' ans -> keeps line n ->
  exists d', lookup c' n = Some (IDict kt vt d') /\
    forall k v, In (k, v) d' <-> line_writes n kt vt line k (Some v) \/ ((forall w, ~ line_writes n kt vt line k w) /\ In (k, v) d).
Proof.
  intros K N R L X Kp. destruct (dictionary_has_history srt pw c n kt vt d K R L) as [f H].
  destruct (dictionary_history_inv _ _ _ _ _ _ _ K N H) as (_ & d0 & L0 & _ & E0). rewrite L in L0. injection L0 as <-.
  assert (G : forall f' (D : forall k, (exists w, line_writes n kt vt line k w) \/ (forall w, ~ line_writes n kt vt line k w)),
     dictionary_history srt pw n kt vt c' f' -> (forall k w, line_writes n kt vt line k w -> f' k = w) -> (forall k, (forall w, ~ line_writes n kt vt line k w) -> f' k = f k) ->
     exists d', lookup c' n = Some (IDict kt vt d') /\
    forall k v, In (k, v) d' <-> line_writes n kt vt line k (Some v) \/ ((forall w, ~ line_writes n kt vt line k w) /\ In (k, v) d)).
  { intros f' D H' A1 A2. destruct (dictionary_history_inv _ _ _ _ _ _ _ K N H') as (_ & d1 & L1 & _ & E1). exists d1. split; auto. intros k v.
    rewrite E1, E0. destruct (D k) as [(w & Hw)|Nw].
    - rewrite (A1 _ _ Hw). split; [intros ->; now left|]. intros [Y|[Y _]]; [now apply (writes_unique _ _ _ _ _ _ _ Hw)|destruct (Y _ Hw)].
    - rewrite (A2 _ Nw). split; [auto|]. intros [Y|[_ Y]]; [destruct (Nw _ Y)|exact Y]. }
  assert (D : forall k, (exists w, line_writes n kt vt line k w) \/ (forall w, ~ line_writes n kt vt line k w)).
  { intros k. destruct (Classical_Prop.classic (exists w, line_writes n kt vt line k w)) as [Y|Y]; [now left|right; intros w Hw; apply Y; eauto]. }
  destruct (Classical_Prop.classic (exists k w, line_writes n kt vt line k w)) as [(k & w & Hw)|No].
  - destruct Hw as [a b v Hs Hv Hk|b Hs Hk|Hs].
    + apply (G (with_association f k v)); auto; [eapply dictionary_associated; eauto| |]; unfold with_association.
      * intros k' w [a' b' v' Hs' Hv' Hk'|b' Hs' Hk'|Hs']; destruct (statement_unique _ _ _ _ _ _ _ Hs Hs') as (_ & M & Ea); try discriminate M.
        injection Ea as <- <-. rewrite (literal_unique _ _ _ _ Hk' Hk), (literal_unique _ _ _ _ Hv' Hv). now destruct (obj_dec k k).
      * intros k' Q. destruct (obj_dec k' k) as [->|]; auto. destruct (Q (Some v)). now apply writes_value with a b.
    + apply (G (without_key f k)); auto; [eapply dictionary_removed; eauto| |]; unfold without_key.
      * intros k' w [a' b' v' Hs' Hv' Hk'|b' Hs' Hk'|Hs']; destruct (statement_unique _ _ _ _ _ _ _ Hs Hs') as (_ & M & Ea); try discriminate M.
        injection Ea as <-. rewrite (literal_unique _ _ _ _ Hk' Hk). now destruct (obj_dec k k).
      * intros k' Q. destruct (obj_dec k' k) as [->|]; auto. destruct (Q None). now apply writes_removal with b.
    + apply (G no_association); auto; [eapply dictionary_cleared; eauto| |].
      * intros k' w [a' b' v' Hs' Hv' Hk'|b' Hs' Hk'|Hs']; destruct (statement_unique _ _ _ _ _ _ _ Hs Hs') as (_ & M & Ea); try discriminate M. reflexivity.
      * intros k' Q. destruct (Q None). now apply writes_nothing.
  - exists d. split.
    2:{ intros k v. split; [intros Y; right; split; auto; intros w Hw; apply No; eauto|]. intros [Y|[_ Y]]; [destruct No; eauto|exact Y]. }
    destruct (step_cases srt pw c s line c' s' ans n K R X) as [E|[(m & args & i & Hs & _ & E)|[(T & m & args & i & _ & _ & E & _)|[_ E]]]]; [congruence| |congruence|contradiction].
    destruct (step_variable srt pw c s line n m args _ c' s' ans K R Hs L X) as (E1 & _). rewrite E1. f_equal. rewrite dict_message. unfold on.
    destruct (dict_stored srt pw c n kt vt d K R L) as (Hk & Hv & _).
    destruct (dict_changes (env_of srt c) kt vt m args d Hk Hv) as [Q|[(a & b & x & k & -> & Hx & Hy & ->)|[(b & k & -> & Hy & ->)|[-> ->]]]].
    + destruct (dict_receive _ kt vt m args d) as [v1 r]. cbn [fst] in *. now subst.
    + destruct No. exists k, (Some x). now apply writes_value with a b.
    + destruct No. exists k, None. now apply writes_removal with b.
    + destruct No. exists (OBool true), None. now apply writes_nothing.
Qed.

(** After any history of any clients, a key of a dictionary that was not deleted has the value of the last line that was executed and that gave it a value or removed
    it; if there is no such line, the value it had before. *)
Theorem C86_last_writer_wins : forall srt pw c ss h c' ss' n kt vt d, sort_contract srt -> reachable srt pw c -> kt <> B "Float" ->
  lookup c n = Some (IDict kt vt d) -> serial srt pw c ss h c' ss' -> kept n h ->
  exists d', lookup c' n = Some (IDict kt vt d') /\
    forall k v, In (k, v) d' <->
      last_write h (fun line => line_writes n kt vt line k) (Some v) \/ (no_write h (fun line => line_writes n kt vt line k) /\ In (k, v) d).
Proof.
  intros srt pw c ss h c' ss' n kt vt d K R N L H. induction H as [|h c1 ss1 sid line c2 s2 o H IH P]; intros F.
  - exists d. split; [exact L|]. intros k v. split; [intros Y; right; split; auto; intros e w []|]. intros [(b & e & a & E & _)|[_ Y]]; [destruct b; discriminate E|exact Y].
  - apply Forall_app in F as [F Fe]. apply Forall_inv in Fe. cbn [e_line] in Fe. destruct (IH F) as (d1 & L1 & E1). assert (R1 := serial_reach _ _ _ _ _ _ _ R H).
    assert (Q : exists d2, lookup c2 n = Some (IDict kt vt d2) /\ forall k v, In (k, v) d2 <->
      (o <> Refused /\ line_writes n kt vt line k (Some v)) \/ ((o = Refused \/ forall w, ~ line_writes n kt vt line k w) /\ In (k, v) d1)).
    { destruct (processes_cases _ _ _ _ _ _ _ _ P) as [(-> & -> & _)|(ans & X & O)].
      - exists d1. split; auto. intros k v. split; [auto|]. intros [[Y _]|[_ Y]]; [now destruct Y|exact Y].
      - destruct (dictionary_step srt pw c1 _ line c2 _ ans n kt vt d1 K N R1 L1 X Fe) as (d2 & L2 & E2). exists d2. split; auto. intros k v. rewrite E2.
        assert (Z : o <> Refused) by (destruct O as [->| ->]; discriminate). tauto. }
    destruct Q as (d2 & L2 & E2). exists d2. split; auto. intros k v. rewrite E2, E1, no_write_snoc, last_write_snoc by (intros; eapply writes_unique; eauto). cbn [e_outcome e_line]. tauto.
Qed.

(** ** Objects *)
Lemma sets_unique n t line w w' : line_sets n t line w -> line_sets n t line w' -> w = w'.
Proof.
  intros [a x Hs Hx] [b y Hs' Hy]. destruct (statement_unique _ _ _ _ _ _ _ Hs Hs') as (_ & _ & E). injection E as <-. exact (literal_unique _ _ _ _ Hx Hy).
Qed.
Lemma object_step srt pw c s line c' s' ans n t x : sort_contract srt -> reachable srt pw c -> lookup c n = Some (IObj x) -> has_type t x ->
  runs srt pw c (Some s) line c' s' ans -> leaves line n \/ (exists args, statement line n (B "set:") args) ->
  exists y, lookup c' n = Some (IObj y) /\ has_type t y /\ (line_sets n t line y \/ ((forall w, ~ line_sets n t line w) /\ y = x)).
Proof.
  intros K R L T X [Lv|(args & Hs)].
  - exists x. rewrite (leaves_lookup srt pw c (Some s) line c' s' ans n K R X Lv ltac:(unfold live; congruence)). split; auto. split; auto. right. split; auto.
    intros w [a y Hs _]. destruct Lv as [_ Si]. apply (Si (B "set:") [a]); [|exact Hs]. unfold mutators. cbn. tauto.
  - assert (La : length args = 1%nat) by (eapply args_len; eauto). destruct args as [|a [|]]; try discriminate La.
    destruct (Classical_Prop.classic (exists y, literal_of t a y)) as [[y Hy]|No].
    + destruct (C47_effect srt pw c (Some s) line n _ _ x y _ K R Hs L (val_set (float_precision c) t a x y T Hy)) as (c1 & X1 & L1 & _).
      destruct (runs_unique _ _ _ _ _ _ _ _ _ _ _ X X1) as (-> & _ & _). exists y. split; auto. destruct (C46_of_the_type _ _ _ Hy) as (_ & Ty & _). split; auto.
      left. now apply sets_value with a.
    + exists x. assert (E : lookup c' n = Some (IObj x)).
      { destruct (Classical_Prop.classic (literal_text t a)) as [Lt|Nl].
        - destruct (C46_every_literal_has_a_value t a Lt) as [Y|[-> O]]; [contradiction|exfalso]. destruct x; cbn in T; try discriminate T.
          assert (U : exists u, undefined_behaviour srt pw c (Some s) line u).
          { apply (C69_undefined_iff srt pw c s line K R). exists n, (B "set:"), [a]. split; auto. apply (und_variable _ _ _ _ _ L). eapply und_read; [apply reads_set_integer|].
            exists [], a, []. split; [reflexivity|]. split; auto. }
          destruct U as [u U]. eapply runs_ub; eauto.
        - destruct (C47_set_refuses_other_texts srt pw c (Some s) line n t a x K R Hs L T Nl) as (c1 & X1 & L1 & _).
          destruct (runs_unique _ _ _ _ _ _ _ _ _ _ _ X X1) as (-> & _ & _). now rewrite L1. }
      split; auto. split; auto. right. split; auto. intros w [b y Hs' Hy]. destruct (statement_unique _ _ _ _ _ _ _ Hs Hs') as (_ & _ & Q). injection Q as <-. apply No. eauto.
Qed.
(** The same for an object that nothing but set: changes: it has the last value that was set. *)
Theorem C86_the_last_value_set : forall srt pw c ss h c' ss' n t x, sort_contract srt -> reachable srt pw c ->
  lookup c n = Some (IObj x) -> has_type t x -> serial srt pw c ss h c' ss' -> only_set n h ->
  exists y, lookup c' n = Some (IObj y) /\ has_type t y /\
    (last_write h (line_sets n t) y \/ (no_write h (line_sets n t) /\ y = x)).
Proof.
  intros srt pw c ss h c' ss' n t x K R L T H. induction H as [|h c1 ss1 sid line c2 s2 o H IH P]; intros F.
  - exists x. split; auto. split; auto. right. split; auto. intros e w [].
  - apply Forall_app in F as [F Fe]. apply Forall_inv in Fe. cbn [e_line] in Fe. destruct (IH F) as (y & L1 & T1 & E1). assert (R1 := serial_reach _ _ _ _ _ _ _ R H).
    assert (Q : exists z, lookup c2 n = Some (IObj z) /\ has_type t z /\
      ((o <> Refused /\ line_sets n t line z) \/ ((o = Refused \/ forall w, ~ line_sets n t line w) /\ z = y))).
    { destruct (processes_cases _ _ _ _ _ _ _ _ P) as [(-> & -> & _)|(ans & X & O)].
      - exists y. repeat (split; auto).
      - destruct (object_step srt pw c1 _ line c2 _ ans n t y K R1 L1 T1 X Fe) as (z & L2 & T2 & E2). exists z. split; auto. split; auto.
        assert (Z : o <> Refused) by (destruct O as [->| ->]; discriminate). tauto. }
    destruct Q as (z & L2 & T2 & E2). exists z. split; auto. split; auto. rewrite no_write_snoc, last_write_snoc by (intros; eapply sets_unique; eauto). cbn [e_outcome e_line].
    destruct E2 as [Q|[Q ->]]; [left; now left|]. destruct E1 as [E1|[E1 ->]]; [left; right; now split|right; auto].
Qed.

(** ** Reading *)
(** What is read is what was written last: the answer to getValueForKey: shows the value of the last line before it that wrote the key, and is null if that line removed
    the key. *)
Theorem C86_reading_a_key : forall srt pw c ss h e c' ss' n kt vt d b k, sort_contract srt -> reachable srt pw c -> kt <> B "Float" ->
  lookup c n = Some (IDict kt vt d) -> serial srt pw c ss (h ++ [e]) c' ss' -> kept n h ->
  statement (e_line e) n (B "getValueForKey:") [b] -> literal_of kt b k -> e_outcome e <> Refused ->
  exists ans c1 ss1, executed e ans /\ serial srt pw c ss h c1 ss1 /\
    let W := fun line => line_writes n kt vt line k in
    (forall v, last_write h W (Some v) \/ (no_write h W /\ In (k, v) d) -> shows (float_precision c1) v ans) /\
    (last_write h W None \/ (no_write h W /\ forall v, ~ In (k, v) d) -> ans = B "null").
Proof.
  intros srt pw c ss h e c' ss' n kt vt d b k K R N L H F Hs Hk O. apply serial_snoc_inv in H as (c1 & ss1 & s2 & H & P & _).
  destruct (C86_last_writer_wins srt pw c ss h c1 ss1 n kt vt d K R N L H F) as (d1 & L1 & E1). assert (R1 := serial_reach _ _ _ _ _ _ _ R H).
  destruct (processes_cases _ _ _ _ _ _ _ _ P) as [(Q & _)|(ans & X & Q)]; [contradiction|]. exists ans, c1, ss1. split; [exact Q|]. split; auto. cbv zeta.
  destruct (dictionary_has_history srt pw c1 n kt vt d1 K R1 L1) as [f Hf]. destruct (dictionary_history_inv _ _ _ _ _ _ _ K N Hf) as (_ & d0 & L0 & _ & E0). rewrite L1 in L0. injection L0 as <-.
  destruct (C22_getValueForKey srt pw n kt vt c1 f (Some (ss1 (e_sid e))) (e_line e) b k K N Hf Hs Hk) as (a & (c3 & X3 & _) & A).
  destruct (runs_unique _ _ _ _ _ _ _ _ _ _ _ X X3) as (_ & _ & <-). split.
  - intros v Y. apply E1, E0 in Y. rewrite Y in A. exact A.
  - intros Y. destruct (f k) as [v|] eqn:Ef; [exfalso|exact A]. apply E0, E1 in Ef. destruct Y as [Y|[Y Z]], Ef as [Ef|[Ef I]]; try (now apply (Z v)).
    + assert (Q' := last_write_unique _ _ _ _ (fun line w w' => writes_unique n kt vt k line w w') Y Ef). discriminate Q'.
    + destruct Y as (b1 & e1 & a1 & -> & O1 & W1 & N1). apply (Ef e1 None); auto. apply in_elt.
    + destruct Ef as (b1 & e1 & a1 & -> & O1 & W1 & N1). apply (Y e1 (Some v)); auto. apply in_elt.
Qed.

(** The answer to get shows the last value set. *)
Theorem C86_reading_an_object : forall srt pw c ss h e c' ss' n t x args, sort_contract srt -> reachable srt pw c ->
  lookup c n = Some (IObj x) -> has_type t x -> serial srt pw c ss (h ++ [e]) c' ss' -> only_set n h ->
  statement (e_line e) n (B "get") args -> e_outcome e <> Refused ->
  exists ans c1 ss1, executed e ans /\ serial srt pw c ss h c1 ss1 /\
    forall y, last_write h (line_sets n t) y \/ (no_write h (line_sets n t) /\ y = x) -> shows (float_precision c1) y ans.
Proof.
  intros srt pw c ss h e c' ss' n t x args K R L T H F Hs O. apply serial_snoc_inv in H as (c1 & ss1 & s2 & H & P & _).
  destruct (C86_the_last_value_set srt pw c ss h c1 ss1 n t x K R L T H F) as (y & L1 & T1 & E1). assert (R1 := serial_reach _ _ _ _ _ _ _ R H).
  destruct (processes_cases _ _ _ _ _ _ _ _ P) as [(Q & _)|(ans & X & Q)]; [contradiction|]. exists ans, c1, ss1. split; [exact Q|]. split; auto.
  assert (La : length args = 0%nat) by (eapply args_len; eauto). apply len0 in La. subst args.
  assert (Z : exists a, shows (float_precision c1) y a) by apply Props_Undo.shown. destruct Z as [a Ha].
  destruct (C47_effect srt pw c1 (Some (ss1 (e_sid e))) (e_line e) n _ _ y y a K R1 Hs L1 (val_get (float_precision c1) y a Ha)) as (c3 & X3 & _).
  destruct (runs_unique _ _ _ _ _ _ _ _ _ _ _ X X3) as (_ & _ & <-). intros z Y. replace z with y; [exact Ha|].
  destruct E1 as [E1|[E1 ->]], Y as [Y|[Y ->]]; auto.
  - exact (last_write_unique _ _ _ _ (sets_unique n t) E1 Y).
  - destruct E1 as (b1 & e1 & a1 & -> & O1 & W1 & N1). destruct (Y e1 y); auto. apply in_elt.
  - destruct Y as (b1 & e1 & a1 & -> & O1 & W1 & N1). destruct (E1 e1 z); auto. apply in_elt.
Qed.
(** For every schedule of the threads. *)
Theorem C86_on_every_schedule : forall srt pw c0 es, sort_contract srt -> reachable srt pw c0 -> sv_crash (run srt (start pw c0) es) = None ->
  exists h, explains srt pw c0 es h /\
    (forall n kt vt d, kt <> B "Float" -> lookup c0 n = Some (IDict kt vt d) -> kept n h ->
      exists d', lookup (sv_ctx (run srt (start pw c0) es)) n = Some (IDict kt vt d') /\ forall k v, In (k, v) d' <->
        last_write h (fun line => line_writes n kt vt line k) (Some v) \/ (no_write h (fun line => line_writes n kt vt line k) /\ In (k, v) d)) /\
    (forall n t x, lookup c0 n = Some (IObj x) -> has_type t x -> only_set n h ->
      exists y, lookup (sv_ctx (run srt (start pw c0) es)) n = Some (IObj y) /\ has_type t y /\
        (last_write h (line_sets n t) y \/ (no_write h (line_sets n t) /\ y = x))).
Proof.
  intros srt pw c0 es K R C. destruct (C35_every_schedule_is_serialisable srt pw c0 es C) as (h & X). exists h. split; [exact X|]. destruct X as (ss & S & _). split.
  - intros n kt vt d N L F. exact (C86_last_writer_wins srt pw c0 _ h _ ss n kt vt d K R N L S F).
  - intros n t x L T F. exact (C86_the_last_value_set srt pw c0 _ h _ ss n t x K R L T S F).
Qed.

Definition register_data : context := data_after [B "Dictionary<String,Integer> create: d;"; B "d associateValue: 1 withKey: ""a"";"; B "Integer create: x withValue: 7;"].
Definition register_lines : list (nat * bytes) :=
  [(0%nat, B "d associateValue: 5 withKey: ""a"";"); (1%nat, B "d associateValue: 6 withKey: ""a"";"); (0%nat, B "x set: 9;"); (1%nat, B "x set: 2.5;")].
Example C86_ex : exists c h ss, reachable insertion_sort [] register_data /\ serial insertion_sort [] register_data (fun _ => fresh []) h c ss /\
  map (fun e => (e_sid e, e_line e)) h = register_lines /\ kept (B "d") h /\ only_set (B "x") h /\
  lookup c (B "d") = Some (IDict (B "String") (B "Integer") [(OStr (B "a"), OInt 6)]) /\ lookup c (B "x") = Some (IObj (OInt 2)) /\
  last_write h (fun line => line_writes (B "d") (B "String") (B "Integer") line (OStr (B "a"))) (Some (OInt 6)) /\
  last_write h (line_sets (B "x") (B "Integer")) (OInt 2).
Proof.
  destruct (play register_data [] register_lines) as [[c h]|] eqn:E; [|vm_compute in E; discriminate E].
  destruct (plays _ _ _ _ E) as (ss & S). exists c, h, ss.
  assert (Eh : h = map (fun p => {| e_sid := fst p; e_line := snd p; e_outcome := Answered (B "null") |}) register_lines).
  { vm_compute in E. inversion E; subst. reflexivity. }
  assert (Lc : lookup c (B "d") = Some (IDict (B "String") (B "Integer") [(OStr (B "a"), OInt 6)]) /\ lookup c (B "x") = Some (IObj (OInt 2))).
  { vm_compute in E. inversion E; subst. split; vm_compute; reflexivity. }
  clear E. split; [apply data_after_reachable|]. split; [exact S|]. clear S. subst h. split; [reflexivity|]. unfold register_lines. cbn [map fst snd]. split; [|split; [|split; [apply Lc|split; [apply Lc|split]]]].
  - repeat apply Forall_cons; try apply Forall_nil; cbn [e_line]; (split; [nostmt|intros ? ? _; nostmt]).
  - repeat apply Forall_cons; try apply Forall_nil; cbn [e_line]; try (left; leaf); (right; eexists; stmt).
  - eexists [_], _, [_; _]. split; [reflexivity|]. split; [discriminate|]. split.
    + cbn [e_line]. apply (writes_value _ _ _ _ _ (B "6") (B """a""")); [stmt|ex_lit|ex_lit].
    + intros e' w' [<-|[<-|[]]] _ [a b v Hs _ _|b Hs _|Hs]; cbn [e_line] in Hs; apply parse_iff in Hs; vm_compute in Hs; discriminate Hs.
  - eexists [_; _; _], _, []. split; [reflexivity|]. split; [discriminate|]. split; [|intros e' w' []]. cbn [e_line]. apply (sets_value _ _ _ (B "2.5")); [stmt|ex_lit].
Qed.
Print Assumptions C86_last_writer_wins.
Print Assumptions C86_the_last_value_set.
Print Assumptions C86_reading_a_key.
Print Assumptions C86_reading_an_object.
Print Assumptions C86_on_every_schedule.
