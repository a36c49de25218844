(** Lemmas for C82: exchanging two lines. *)
From Coq Require Import ZArith Reals QArith Sorting.Sorted Sorting.Permutation.
From Verif Require Import Bytes StrUtils Grammar Outcome Parser Num Containers Instance Context Server Platform.
From Verif Require Import Lemmas StringLit Proof_Grammar Proof_Parser Proof_Exec WP Proof_Inv Proof_Literal Proof_Receive Proof_Context Proof_Names Api Proof_Local Proof_Order Proof_Set.
From Verif Require Import Proof_Server Props_State Props_Number Props_Order Props_Set Props_Local Props_Clients Props_Alone Props_Linear Props_Coherent.
From Verif Require Import Spec_Grammar Spec_State Spec_Names Spec_Text Spec_Number Spec_Float Spec_Order Spec_Vector Spec_String Spec_Set Spec_Server Spec_Alone Spec_Local Spec_Trace.
Local Open Scope list_scope.

(** The result of exchanging. *)
Definition exchanges (srt : sorter) (pw : bytes) (c : context) (s t : option session) (l1 l2 : bytes) (c2 : context) (s' t' : option session) (a1 a2 : bytes) : Prop :=
  exists d1 d2, runs srt pw c t l2 d1 t' a2 /\ runs srt pw d1 s l1 d2 s' a1 /\ same_data c2 d2.
Lemma within_step srt pw N c s l c' s' a : sort_contract srt -> reachable srt pw c -> within N l -> runs srt pw c s l c' s' a ->
  (forall n, ~ N n -> lookup c' n = lookup c n) /\ same_settings c c'.
Proof. intros K R [_ F] X. exact (foreign_step srt pw (fun n => ~ N n) c s l c' s' a K R F X). Qed.
Lemma exchange_apart srt pw N M c s t l1 l2 c1 c2 s' t' a1 a2 : sort_contract srt -> reachable srt pw c -> disjoint N M -> within N l1 -> within M l2 ->
  runs srt pw c s l1 c1 s' a1 -> runs srt pw c1 t l2 c2 t' a2 -> exchanges srt pw c s t l1 l2 c2 s' t' a1 a2.
Proof.
  intros K R (DN & DM & D) W1 W2 X1 X2. assert (R1 : reachable srt pw c1) by exact (reach_step _ _ _ _ _ _ _ _ R X1).
  destruct (within_step srt pw N c s l1 c1 s' a1 K R W1 X1) as [L1 [P1 T1]].
  destruct (within_step srt pw M c1 t l2 c2 t' a2 K R1 W2 X2) as [L2 [P2 T2]].
  assert (A : agree M c1 c). { split; [intros n Hn; symmetry; apply L1; intros Y; exact (D n Y Hn)|split; congruence]. }
  destruct (private_step srt pw M c1 c t l2 c2 t' a2 K R1 R A (proj1 W2) X2) as (d1 & Y2 & A2).
  assert (Rd : reachable srt pw d1) by exact (reach_step _ _ _ _ _ _ _ _ R Y2).
  destruct (within_step srt pw M c t l2 d1 t' a2 K R W2 Y2) as [L3 S3].
  assert (A' : agree N c d1). { split; [intros n Hn; apply L3; exact (D n Hn)|exact S3]. }
  destruct (private_step srt pw N c d1 s l1 c1 s' a1 K R Rd A' (proj1 W1) X1) as (d2 & Y1 & A1).
  destruct (within_step srt pw N d1 s l1 d2 s' a1 K Rd W1 Y1) as [L4 [P4 T4]]. destruct S3 as [P3 T3].
  exists d1, d2. split; [exact Y2|]. split; [exact Y1|]. split; [|split; congruence]. intros n. destruct (DN n) as [Hn|Hn].
  - rewrite (proj1 A1 n Hn). symmetry. apply L2. exact (D n Hn).
  - rewrite (L4 n Hn). destruct (DM n) as [Hm|Hm]; [exact (proj1 A2 n Hm)|]. now rewrite (L3 n Hm), (L2 n Hm), (L1 n Hn).
Qed.
(** Two lines to the same variable: only that variable has to be looked at. *)
Lemma exchange_variable srt pw c s t l1 l2 n m1 m2 args1 args2 c1 c2 s' t' a1 a2 d1 d2 t2 s2 : sort_contract srt -> reachable srt pw c ->
  statement l1 n m1 args1 -> statement l2 n m2 args2 -> variable n -> runs srt pw c s l1 c1 s' a1 -> runs srt pw c1 t l2 c2 t' a2 ->
  runs srt pw c t l2 d1 t2 a2 -> runs srt pw d1 s l1 d2 s2 a1 -> lookup d2 n = lookup c2 n -> exchanges srt pw c s t l1 l2 c2 s' t' a1 a2.
Proof.
  intros K R S1 S2 V X1 X2 Y2 Y1 L. assert (R1 : reachable srt pw c1) by exact (reach_step _ _ _ _ _ _ _ _ R X1).
  assert (Rd : reachable srt pw d1) by exact (reach_step _ _ _ _ _ _ _ _ R Y2).
  destruct (C26_message_to_a_variable _ _ _ _ _ _ _ _ _ _ _ K R S1 V X1) as (-> & [P1 T1] & O1 & _).
  destruct (C26_message_to_a_variable _ _ _ _ _ _ _ _ _ _ _ K R1 S2 V X2) as (-> & [P2 T2] & O2 & _).
  destruct (C26_message_to_a_variable _ _ _ _ _ _ _ _ _ _ _ K R S2 V Y2) as (-> & [P3 T3] & O3 & _).
  destruct (C26_message_to_a_variable _ _ _ _ _ _ _ _ _ _ _ K Rd S1 V Y1) as (-> & [P4 T4] & O4 & _).
  exists d1, d2. split; [exact Y2|]. split; [exact Y1|]. split; [|split; congruence]. intros x. destruct (bytes_dec x n) as [->|N]; [exact L|].
  now rewrite (O4 x N), (O3 x N), (O2 x N), (O1 x N).
Qed.
Lemma exchange_reads srt pw c s t l1 l2 n c1 c2 s' t' a1 a2 : sort_contract srt -> reachable srt pw c -> reads l1 n -> reads l2 n ->
  runs srt pw c s l1 c1 s' a1 -> runs srt pw c1 t l2 c2 t' a2 -> exchanges srt pw c s t l1 l2 c2 s' t' a1 a2.
Proof.
  intros K R (m1 & args1 & S1 & V & N1) (m2 & args2 & S2 & _ & N2) X1 X2. assert (R1 : reachable srt pw c1) by exact (reach_step _ _ _ _ _ _ _ _ R X1).
  destruct (C26_message_to_a_variable _ _ _ _ _ _ _ _ _ _ _ K R S1 V X1) as (E1 & [P1 T1] & O1 & L1 & _). specialize (L1 N1).
  destruct (C26_message_to_a_variable _ _ _ _ _ _ _ _ _ _ _ K R1 S2 V X2) as (E2 & [P2 T2] & O2 & L2 & _). specialize (L2 N2).
  destruct (C52_locality srt pw pw pw c1 c t t l2 l2 n m2 args2 c2 t' a2 K R1 R S2 S2 V (eq_sym L1)) as (d1 & Y2 & M2); [split; congruence|exact X2|].
  assert (Rd : reachable srt pw d1) by exact (reach_step _ _ _ _ _ _ _ _ R Y2).
  destruct (C26_message_to_a_variable _ _ _ _ _ _ _ _ _ _ _ K R S2 V Y2) as (_ & S3 & O3 & L3 & _). specialize (L3 N2).
  destruct (C52_locality srt pw pw pw c d1 s s l1 l1 n m1 args1 c1 s' a1 K R Rd S1 S1 V L3 S3 X1) as (d2 & Y1 & M1).
  eapply exchange_variable; try eassumption. congruence.
Qed.

(** ** sets *)
Definition after_use (u : set_use) (S : obj -> Prop) (x : obj) : obj -> Prop :=
  match u with AddElement => with_element S x | RemoveElement => without_element S x | FindElement => S end.
Definition use_answer (u : set_use) (b : bool) : bytes := match u with FindElement => truth b | _ => B "null" end.
Lemma not_in_3 (x a b c : bytes) : x <> a -> x <> b -> x <> c -> ~ In x [a; b; c].
Proof. cbn. intuition congruence. Qed.
Lemma use_effect srt pw c s l n t u x S : sort_contract srt -> t <> B "Float" -> set_history srt pw n t c S -> uses_element l n t u x ->
  exists b c', runs srt pw c s l c' s (use_answer u b) /\ (u = FindElement -> (b = true <-> S x)) /\ set_history srt pw n t c' (after_use u S x).
Proof.
  intros K N H (a & Hs & Hx). destruct u; cbn [set_message_of] in Hs.
  - destruct (C21_add srt pw n t c S s l a x K N H Hs Hx) as (c' & R & H'). exists true, c'. split; [exact R|]. split; [discriminate|exact H'].
  - destruct (C21_remove srt pw n t c S s l a x K N H Hs Hx) as (c' & R & H'). exists true, c'. split; [exact R|]. split; [discriminate|exact H'].
  - destruct (C21_contains srt pw n t c S s l a x K N H Hs Hx) as (b & (c' & R & _) & E). exists b, c'. split; [exact R|]. split; [intros _; exact E|].
    refine (set_other srt pw n t c S s l c' s _ H R _). left.
    assert (Q : forall a' m args, statement l a' m args -> a' = n /\ m = B "contains?").
    { intros a' m args Y. destruct (statement_unique _ _ _ _ _ _ _ Hs Y) as (-> & -> & _). now split. }
    assert (V : lookup c n <> None). { destruct (set_history_inv srt pw n t c S K N H) as (_ & v & L & _). rewrite L. discriminate. }
    assert (W : variable n). { destruct (set_history_inv srt pw n t c S K N H) as (R0 & v & L & _). exact (proj1 (ctx_good_lookup _ _ _ _ (reachable_good srt pw c K R0) L)). }
    split; [split|].
    + intros Y. destruct (Q _ _ _ Y) as [_ Z]. discriminate Z.
    + intros ns i _ Y. destruct (Q _ _ _ Y) as [_ Z]. discriminate Z.
    + intros m args Hm Y. destruct (Q _ _ _ Y) as [_ ->]. revert Hm. apply not_in_3; discriminate.
Qed.
Lemma history_lookup srt pw n t c d S S' : sort_contract srt -> t <> B "Float" -> set_history srt pw n t c S -> set_history srt pw n t d S' ->
  (forall x, S x <-> S' x) -> tolerance d = tolerance c -> lookup d n = lookup c n.
Proof.
  intros K N H H' E T. destruct (set_history_inv srt pw n t c S K N H) as (R & v & L & Hv). destruct (set_history_inv srt pw n t d S' K N H') as (R' & v' & L' & Hv').
  rewrite L, L'. f_equal. f_equal. rewrite T in Hv'. destruct (set_stored srt pw c n t v K R L) as [_ F].
  symmetry. apply (C21_listing_unique t (tolerance c) S v v' N); [now apply fine_types|exact Hv|]. destruct Hv' as [A B]. split; [exact A|]. intros x. now rewrite B, <- E.
Qed.
Lemma stored_variable srt pw c n i : sort_contract srt -> reachable srt pw c -> lookup c n = Some i -> variable n.
Proof. intros K R L. exact (proj1 (ctx_good_lookup _ _ _ _ (reachable_good srt pw c K R) L)). Qed.
Lemma exchange_elements srt pw c s t' l1 l2 n t v u1 u2 x1 x2 c1 c2 s1 t1 a1 a2 : sort_contract srt -> reachable srt pw c -> lookup c n = Some (ISet t v) -> t <> B "Float" ->
  uses_element l1 n t u1 x1 -> uses_element l2 n t u2 x2 -> x1 <> x2 \/ u1 = u2 ->
  runs srt pw c s l1 c1 s1 a1 -> runs srt pw c1 t' l2 c2 t1 a2 -> exchanges srt pw c s t' l1 l2 c2 s1 t1 a1 a2.
Proof.
  intros K R L N U1 U2 D X1 X2. assert (V := stored_variable srt pw c n _ K R L). destruct (set_has_history srt pw c n t v K R L) as [S H].
  destruct (use_effect srt pw c s l1 n t u1 x1 S K N H U1) as (b1 & c1' & Z1 & E1 & H1). destruct (runs_unique _ _ _ _ _ _ _ _ _ _ _ X1 Z1) as (<- & -> & ->).
  destruct (use_effect srt pw c1 t' l2 n t u2 x2 _ K N H1 U2) as (b2 & c2' & Z2 & E2 & H2). destruct (runs_unique _ _ _ _ _ _ _ _ _ _ _ X2 Z2) as (<- & -> & ->).
  destruct (use_effect srt pw c t' l2 n t u2 x2 S K N H U2) as (b3 & d1 & Y2 & E3 & H3).
  destruct (use_effect srt pw d1 s l1 n t u1 x1 _ K N H3 U1) as (b4 & d2 & Y1 & E4 & H4).
  assert (A2 : use_answer u2 b3 = use_answer u2 b2).
  { destruct u2; try reflexivity. cbn [use_answer]. f_equal. specialize (E2 eq_refl). specialize (E3 eq_refl).
    assert (Q : after_use u1 S x1 x2 <-> S x2). { destruct u1; cbn [after_use]; unfold with_element, without_element; [| |tauto]; destruct D as [D|D]; [intuition congruence|discriminate D|intuition congruence|discriminate D]. }
    destruct b2, b3; try reflexivity; intuition congruence. }
  assert (A1 : use_answer u1 b4 = use_answer u1 b1).
  { destruct u1; try reflexivity. cbn [use_answer]. f_equal. specialize (E1 eq_refl). specialize (E4 eq_refl).
    assert (Q : after_use u2 S x2 x1 <-> S x1). { destruct u2; cbn [after_use]; unfold with_element, without_element; [| |tauto]; destruct D as [D|D]; [intuition congruence|discriminate D|intuition congruence|discriminate D]. }
    destruct b1, b4; try reflexivity; intuition congruence. }
  rewrite A2 in Y2. rewrite A1 in Y1. destruct U1 as (y1 & S1 & _). destruct U2 as (y2 & S2 & _).
  refine (exchange_variable srt pw c s t' l1 l2 n _ _ _ _ c1 c2 s t' _ _ d1 d2 t' s K R S1 S2 V X1 X2 Y2 Y1 _).
  apply (history_lookup srt pw n t c2 d2 _ _ K N H2 H4).
  - intros x. clear - D. destruct u1, u2; cbn [after_use]; unfold with_element, without_element; destruct D as [D|D]; try discriminate D; try tauto;
      destruct (obj_dec x x1), (obj_dec x x2); subst; intuition congruence.
  - assert (R1 : reachable srt pw c1) by exact (reach_step _ _ _ _ _ _ _ _ R X1). assert (Rd : reachable srt pw d1) by exact (reach_step _ _ _ _ _ _ _ _ R Y2).
    destruct (C26_message_to_a_variable _ _ _ _ _ _ _ _ _ _ _ K R S1 V X1) as (_ & [_ T1] & _). destruct (C26_message_to_a_variable _ _ _ _ _ _ _ _ _ _ _ K R1 S2 V X2) as (_ & [_ T2] & _).
    destruct (C26_message_to_a_variable _ _ _ _ _ _ _ _ _ _ _ K R S2 V Y2) as (_ & [_ T3] & _). destruct (C26_message_to_a_variable _ _ _ _ _ _ _ _ _ _ _ K Rd S1 V Y1) as (_ & [_ T4] & _). congruence.
Qed.

(** ** dictionaries *)
Definition after_key (u : key_use) (f : obj -> option obj) (k : obj) : obj -> option obj :=
  match u with Associate v => with_association f k v | RemoveKey => without_key f k | _ => f end.
Definition key_answer (p : Z) (u : key_use) (o : option obj) (ans : bytes) : Prop :=
  match u with
  | Associate _ | RemoveKey => ans = B "null"
  | ContainsKey => exists r, ans = truth r /\ (r = true <-> o <> None)
  | GetValue => match o with Some v => shows p v ans | None => ans = B "null" end
  end.
Lemma key_answer_unique p u o a b : key_answer p u o a -> key_answer p u o b -> a = b.
Proof.
  destruct u; cbn [key_answer].
  - congruence.
  - congruence.
  - intros (r & -> & E) (r' & -> & E'). f_equal. destruct r, r'; try reflexivity; intuition congruence.
  - destruct o; [apply shows_unique|congruence].
Qed.
Lemma uses_key_statement l n kt vt k u : uses_key l n kt vt k u -> exists m args, statement l n m args.
Proof. intros H. destruct H; eauto. Qed.
Lemma key_effect srt pw c s l n kt vt u k f : sort_contract srt -> kt <> B "Float" -> dictionary_history srt pw n kt vt c f -> uses_key l n kt vt k u ->
  exists ans c', runs srt pw c s l c' s ans /\ key_answer (float_precision c) u (f k) ans /\ dictionary_history srt pw n kt vt c' (after_key u f k).
Proof.
  intros K N H U.
  assert (O : forall m args c' ans, statement l n m args -> ~ In m [B "associateValue:withKey:"; B "removeKey:"; B "clear"; B "deleteVariable:"; B "deleteVariablesOfNamespace:"] -> runs srt pw c s l c' s ans -> dictionary_history srt pw n kt vt c' f).
  { intros m args c' ans Hs Nm R. refine (dictionary_other srt pw n kt vt c f s l c' s ans H R _). left.
    assert (Q : forall a' m' args', statement l a' m' args' -> m' = m). { intros a' m' args' Y. now destruct (statement_unique _ _ _ _ _ _ _ Hs Y) as (_ & -> & _). }
    cbn [In] in Nm. split; [split|].
    - intros Y. apply Q in Y. subst m. tauto.
    - intros ns i _ Y. apply Q in Y. subst m. tauto.
    - intros m' args' Hm Y. apply Q in Y. subst m'. cbn [In] in Hm. tauto. }
  destruct U as [a b v Hs Hv Hk|b Hs Hk|b Hs Hk|b Hs Hk].
  - destruct (C22_associate srt pw n kt vt c f s l a b v k K N H Hs Hv Hk) as (c' & R & H'). exists (B "null"), c'. now repeat split.
  - destruct (C22_removeKey srt pw n kt vt c f s l b k K N H Hs Hk) as (c' & R & H'). exists (B "null"), c'. now repeat split.
  - destruct (C22_containsKey srt pw n kt vt c f s l b k K N H Hs Hk) as (r & (c' & R & _) & E). exists (truth r), c'. split; [exact R|]. split; [exists r; now split|].
    refine (O _ _ _ _ Hs _ R). cbn [In]. intros Y. repeat destruct Y as [Y|Y]; try discriminate Y; exact Y.
  - destruct (C22_getValueForKey srt pw n kt vt c f s l b k K N H Hs Hk) as (ans & (c' & R & _) & E). exists ans, c'. split; [exact R|]. split; [exact E|].
    refine (O _ _ _ _ Hs _ R). cbn [In]. intros Y. repeat destruct Y as [Y|Y]; try discriminate Y; exact Y.
Qed.
Lemma pairs_unique (f : obj -> option obj) : forall d d' : list (obj * obj), map fst d = map fst d' -> (forall k v, In (k, v) d -> f k = Some v) -> (forall k v, In (k, v) d' -> f k = Some v) -> d = d'.
Proof.
  induction d as [|[k v] d IH]; intros [|[k' v'] d'] E A A'; try discriminate E; [reflexivity|]. injection E as -> E. f_equal.
  - f_equal. assert (X := A k' v (or_introl eq_refl)). assert (Y := A' k' v' (or_introl eq_refl)). congruence.
  - apply IH; [exact E| |]; intros a b I; [apply A|apply A']; now right.
Qed.
Lemma map_lookup srt pw n kt vt c d f f' : sort_contract srt -> kt <> B "Float" -> dictionary_history srt pw n kt vt c f -> dictionary_history srt pw n kt vt d f' ->
  (forall x, f x = f' x) -> tolerance d = tolerance c -> lookup d n = lookup c n.
Proof.
  intros K N H H' E T. destruct (dictionary_history_inv srt pw n kt vt c f K N H) as (R & v & L & Hv). destruct (dictionary_history_inv srt pw n kt vt d f' K N H') as (R' & v' & L' & Hv').
  rewrite L, L'. f_equal. f_equal. rewrite T in Hv'. destruct (dict_stored srt pw c n kt vt v K R L) as (_ & _ & F & _). destruct Hv as [A B]. destruct Hv' as [A' B'].
  symmetry. apply (pairs_unique f).
  - apply (C21_listing_unique kt (tolerance c) (fun k => f k <> None)); [exact N|now apply fine_types| |].
    + split; [exact A|]. intros x. split.
      * intros I. apply in_map_iff in I as ([a b] & <- & I). apply B in I. cbn [fst]. congruence.
      * intros X. destruct (f x) as [y|] eqn:Q; [|contradiction]. apply B in Q. apply in_map_iff. now exists (x, y).
    + split; [exact A'|]. intros x. split.
      * intros I. apply in_map_iff in I as ([a b] & <- & I). apply B' in I. rewrite E. cbn [fst]. congruence.
      * intros X. rewrite E in X. destruct (f' x) as [y|] eqn:Q; [|contradiction]. apply B' in Q. apply in_map_iff. now exists (x, y).
  - intros k y I. now apply B.
  - intros k y I. rewrite E. now apply B'.
Qed.
Lemma exchange_keys srt pw c s t' l1 l2 n kt vt d u1 u2 k1 k2 c1 c2 s1 t1 a1 a2 : sort_contract srt -> reachable srt pw c -> lookup c n = Some (IDict kt vt d) -> kt <> B "Float" ->
  uses_key l1 n kt vt k1 u1 -> uses_key l2 n kt vt k2 u2 -> k1 <> k2 \/ u1 = u2 ->
  runs srt pw c s l1 c1 s1 a1 -> runs srt pw c1 t' l2 c2 t1 a2 -> exchanges srt pw c s t' l1 l2 c2 s1 t1 a1 a2.
Proof.
  intros K R L N U1 U2 D X1 X2. assert (V := stored_variable srt pw c n _ K R L). destruct (dictionary_has_history srt pw c n kt vt d K R L) as [f H].
  destruct (uses_key_statement _ _ _ _ _ _ U1) as (m1 & args1 & S1). destruct (uses_key_statement _ _ _ _ _ _ U2) as (m2 & args2 & S2).
  destruct (key_effect srt pw c s l1 n kt vt u1 k1 f K N H U1) as (b1 & c1' & Z1 & E1 & H1). destruct (runs_unique _ _ _ _ _ _ _ _ _ _ _ X1 Z1) as (<- & -> & ->).
  destruct (key_effect srt pw c1 t' l2 n kt vt u2 k2 _ K N H1 U2) as (b2 & c2' & Z2 & E2 & H2). destruct (runs_unique _ _ _ _ _ _ _ _ _ _ _ X2 Z2) as (<- & -> & ->).
  destruct (key_effect srt pw c t' l2 n kt vt u2 k2 f K N H U2) as (b3 & d1 & Y2 & E3 & H3).
  destruct (key_effect srt pw d1 s l1 n kt vt u1 k1 _ K N H3 U1) as (b4 & d2 & Y1 & E4 & H4).
  assert (R1 : reachable srt pw c1) by exact (reach_step _ _ _ _ _ _ _ _ R X1). assert (Rd : reachable srt pw d1) by exact (reach_step _ _ _ _ _ _ _ _ R Y2).
  destruct (C26_message_to_a_variable _ _ _ _ _ _ _ _ _ _ _ K R S1 V X1) as (_ & [P1 T1] & _). destruct (C26_message_to_a_variable _ _ _ _ _ _ _ _ _ _ _ K R1 S2 V X2) as (_ & [P2 T2] & _).
  destruct (C26_message_to_a_variable _ _ _ _ _ _ _ _ _ _ _ K R S2 V Y2) as (_ & [P3 T3] & _). destruct (C26_message_to_a_variable _ _ _ _ _ _ _ _ _ _ _ K Rd S1 V Y1) as (_ & [P4 T4] & _).
  assert (Q : forall u f k k', k <> k' -> after_key u f k k' = f k').
  { clear. intros u f k k' X. destruct u; cbn [after_key]; unfold with_association, without_key; try reflexivity; destruct (obj_dec k' k); congruence. }
  assert (A2 : b3 = b2).
  { rewrite P1 in E2. destruct D as [D|D]; [rewrite (Q _ _ _ _ D) in E2; exact (key_answer_unique _ _ _ _ _ E3 E2)|].
    subst u1. destruct u2; cbn [after_key] in E2; [cbn [key_answer] in E2, E3; congruence|cbn [key_answer] in E2, E3; congruence| |]; exact (key_answer_unique _ _ _ _ _ E3 E2). }
  assert (A1 : b4 = b1).
  { rewrite P3 in E4. destruct D as [D|D]; [rewrite (Q _ _ _ _ (not_eq_sym D)) in E4; exact (key_answer_unique _ _ _ _ _ E4 E1)|].
    subst u2. destruct u1; cbn [after_key] in E4; [cbn [key_answer] in E4, E1; congruence|cbn [key_answer] in E4, E1; congruence| |]; exact (key_answer_unique _ _ _ _ _ E4 E1). }
  subst b3 b4. refine (exchange_variable srt pw c s t' l1 l2 n _ _ _ _ c1 c2 s t' _ _ d1 d2 t' s K R S1 S2 V X1 X2 Y2 Y1 _).
  apply (map_lookup srt pw n kt vt c2 d2 _ _ K N H2 H4); [|congruence].
  intros x. clear - D. destruct u1, u2; cbn [after_key]; unfold with_association, without_key; destruct D as [D|D]; try discriminate D; try reflexivity;
    destruct (obj_dec x k1), (obj_dec x k2); subst; congruence.
Qed.

(** ** counters *)
Lemma counts_effect srt pw c s l n z d : sort_contract srt -> reachable srt pw c -> lookup c n = Some (IObj (OInt z)) -> counts l n d -> fits (z + d) ->
  becomes srt pw c s l n (B "null") (IObj (OInt (z + d))).
Proof.
  intros K R L C F. destruct C as [a d Hs Ha Hd|a d Hs Ha Hd].
  - exact (C09_exact_arithmetic srt pw c s l n z Spec_Float.Add a d _ K R Hs L Ha Hd eq_refl F).
  - exact (C09_exact_arithmetic srt pw c s l n z Spec_Float.Subtract a d _ K R Hs L Ha Hd eq_refl F).
Qed.
Lemma counts_fit srt pw c s l n z d c' s' ans : sort_contract srt -> reachable srt pw c -> lookup c n = Some (IObj (OInt z)) -> counts l n d -> runs srt pw c s l c' s' ans -> fits (z + d).
Proof.
  intros K R L C X. assert (D : (exists u, undefined_behaviour srt pw c s l u) -> False) by (intros [u U]; exact (runs_ub _ _ _ _ _ _ _ _ _ X U)).
  destruct C as [a d Hs Ha Hd|a d Hs Ha Hd].
  - assert (E := C10_arithmetic_undefined_iff srt pw c s l n z Spec_Float.Add a d K R Hs L Ha). destruct (Z_le_dec (-2147483648) (z + d)), (Z_le_dec (z + d) 2147483647); [split; lia| | |]; exfalso; apply D, E; intros (_ & r & Er & [F1 F2]); cbn in Er; lia.
  - assert (E := C10_arithmetic_undefined_iff srt pw c s l n z Spec_Float.Subtract a d K R Hs L Ha). destruct (Z_le_dec (-2147483648) (z + - d)), (Z_le_dec (z + - d) 2147483647); [split; lia| | |]; exfalso; apply D, E; intros (_ & r & Er & [F1 F2]); cbn in Er; lia.
Qed.
Lemma counts_statement l n d : counts l n d -> exists m args, statement l n m args.
Proof. intros H. destruct H; eauto. Qed.
Lemma exchange_counts srt pw c s t' l1 l2 n z e1 e2 c1 c2 s1 t1 a1 a2 : sort_contract srt -> reachable srt pw c -> lookup c n = Some (IObj (OInt z)) ->
  counts l1 n e1 -> counts l2 n e2 -> fits (z + e2) ->
  runs srt pw c s l1 c1 s1 a1 -> runs srt pw c1 t' l2 c2 t1 a2 -> exchanges srt pw c s t' l1 l2 c2 s1 t1 a1 a2.
Proof.
  intros K R L C1 C2 F X1 X2. assert (V := stored_variable srt pw c n _ K R L).
  destruct (counts_statement _ _ _ C1) as (m1 & args1 & S1). destruct (counts_statement _ _ _ C2) as (m2 & args2 & S2).
  assert (F1 := counts_fit _ _ _ _ _ _ _ _ _ _ _ K R L C1 X1). assert (R1 : reachable srt pw c1) by exact (reach_step _ _ _ _ _ _ _ _ R X1).
  destruct (counts_effect srt pw c s l1 n z e1 K R L C1 F1) as (c1' & Z1 & L1 & _). destruct (runs_unique _ _ _ _ _ _ _ _ _ _ _ X1 Z1) as (<- & -> & ->).
  assert (F2 := counts_fit _ _ _ _ _ _ _ _ _ _ _ K R1 L1 C2 X2).
  destruct (counts_effect srt pw c1 t' l2 n _ e2 K R1 L1 C2 F2) as (c2' & Z2 & L2 & _). destruct (runs_unique _ _ _ _ _ _ _ _ _ _ _ X2 Z2) as (<- & -> & ->).
  destruct (counts_effect srt pw c t' l2 n z e2 K R L C2 F) as (d1 & Y2 & L3 & _). assert (Rd : reachable srt pw d1) by exact (reach_step _ _ _ _ _ _ _ _ R Y2).
  assert (F3 : fits (z + e2 + e1)) by (replace (z + e2 + e1)%Z with (z + e1 + e2)%Z by lia; exact F2).
  destruct (counts_effect srt pw d1 s l1 n _ e1 K Rd L3 C1 F3) as (d2 & Y1 & L4 & _).
  refine (exchange_variable srt pw c s t' l1 l2 n _ _ _ _ c1 c2 s t' _ _ d1 d2 t' s K R S1 S2 V X1 X2 Y2 Y1 _).
  rewrite L2, L4. do 3 f_equal. lia.
Qed.
Lemma exchange_independent srt pw c s t l1 l2 c1 c2 s' t' a1 a2 : sort_contract srt -> reachable srt pw c -> independent c l1 l2 ->
  runs srt pw c s l1 c1 s' a1 -> runs srt pw c1 t l2 c2 t' a2 -> exchanges srt pw c s t l1 l2 c2 s' t' a1 a2.
Proof.
  intros K R I X1 X2. destruct I as [N M D W1 W2|n H1 H2|n ty v u1 u2 x1 x2 L N U1 U2 D|n kt vt d u1 u2 k1 k2 L N U1 U2 D|n z d1 d2 L C1 C2 F].
  - eapply exchange_apart; eassumption.
  - eapply exchange_reads; eassumption.
  - eapply exchange_elements; eassumption.
  - eapply exchange_keys; eassumption.
  - eapply exchange_counts; eassumption.
Qed.

(** ** histories *)
Lemma processes_exchange srt pw c s t l1 l2 c1 c2 s' t' o1 o2 : sort_contract srt -> reachable srt pw c -> independent c l1 l2 ->
  processes srt pw c s l1 c1 s' o1 -> processes srt pw c1 t l2 c2 t' o2 ->
  exists d1 d2, processes srt pw c t l2 d1 t' o2 /\ processes srt pw d1 s l1 d2 s' o1 /\ same_data c2 d2.
Proof.
  intros K R I P1 P2. assert (Z : forall x, same_data x x) by (intros x; split; [reflexivity|now split]).
  inversion P1 as [A1 B1|c1' s1' b1 A1 X1 B1|c1' s1' b1 A1 X1 B1]; subst.
  - exists c2, c2. split; [exact P2|]. split; [now constructor|apply Z].
  - inversion P2 as [A2 B2|c2' s2' b2 A2 X2 B2|c2' s2' b2 A2 X2 B2]; subst.
    + exists c, c2. split; [now constructor|]. split; [exact P1|apply Z].
    + destruct (exchange_independent srt pw c _ _ l1 l2 c1 c2 _ _ b1 b2 K R I X1 X2) as (d1 & d2 & Y2 & Y1 & E). exists d1, d2. split; [now constructor|]. split; [now constructor|exact E].
    + destruct (exchange_independent srt pw c _ _ l1 l2 c1 c2 _ _ b1 b2 K R I X1 X2) as (d1 & d2 & Y2 & Y1 & E). exists d1, d2. split; [now constructor|]. split; [now constructor|exact E].
  - inversion P2 as [A2 B2|c2' s2' b2 A2 X2 B2|c2' s2' b2 A2 X2 B2]; subst.
    + exists c, c2. split; [now constructor|]. split; [exact P1|apply Z].
    + destruct (exchange_independent srt pw c _ _ l1 l2 c1 c2 _ _ b1 b2 K R I X1 X2) as (d1 & d2 & Y2 & Y1 & E). exists d1, d2. split; [now constructor|]. split; [now constructor|exact E].
    + destruct (exchange_independent srt pw c _ _ l1 l2 c1 c2 _ _ b1 b2 K R I X1 X2) as (d1 & d2 & Y2 & Y1 & E). exists d1, d2. split; [now constructor|]. split; [now constructor|exact E].
Qed.
Lemma processes_data srt pw c d s l c' s' o : sort_contract srt -> reachable srt pw c -> reachable srt pw d -> same_data c d ->
  processes srt pw c s l c' s' o -> exists d', processes srt pw d s l d' s' o /\ same_data c' d'.
Proof.
  intros K Rc Rd E P. assert (S : same_reading l l) by (intros a m args; reflexivity). inversion P as [A B|c1 s1 b A X B|c1 s1 b A X B]; subst.
  - exists d. split; [now constructor|exact E].
  - destruct (C52_effect_depends_on_pieces_and_data srt pw pw pw c d _ l l _ _ _ K Rc Rd E S X) as (d' & Y & E'). exists d'. split; [now constructor|exact E'].
  - destruct (C52_effect_depends_on_pieces_and_data srt pw pw pw c d _ l l _ _ _ K Rc Rd E S X) as (d' & Y & E'). exists d'. split; [now constructor|exact E'].
Qed.
Lemma serial_data srt pw c d ss st h c' ss' : sort_contract srt -> reachable srt pw c -> reachable srt pw d -> same_data c d -> (forall k, st k = ss k) ->
  serial srt pw c ss h c' ss' -> exists d' st', serial srt pw d st h d' st' /\ same_data c' d' /\ forall k, st' k = ss' k.
Proof.
  intros K Rc Rd E Q H. induction H as [|h c1 ss1 sid line c2 s2 o H IH P].
  - exists d, st. split; [constructor|]. now split.
  - destruct IH as (d1 & st1 & H1 & E1 & Q1).
    assert (R1 := serial_reach srt pw c ss h c1 ss1 Rc H). assert (R2 := serial_reach srt pw d st h d1 st1 Rd H1).
    destruct (processes_data srt pw c1 d1 _ line c2 s2 o K R1 R2 E1 P) as (d2 & P2 & E2). rewrite <- Q1 in P2.
    exists d2, (fun k => if (k =? sid)%nat then s2 else st1 k). split; [now apply (serial_more srt pw d st h d1 st1 sid line d2 s2 o)|]. split; [exact E2|].
    intros k. destruct (k =? sid)%nat; [reflexivity|apply Q1].
Qed.
