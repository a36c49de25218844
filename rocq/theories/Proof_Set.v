(** Proofs about sets and dictionaries (C21-C23). *)
From Coq Require Import ZArith Reals Psatz Sorting.Sorted Sorting.Permutation.
From Verif Require Import Bytes StrUtils Grammar Outcome Parser Num Containers Instance Context Platform.
From Verif Require Import Lemmas StringLit Proof_Grammar Proof_Parser Proof_Exec WP Proof_Inv Proof_Literal Proof_Receive Proof_Context Proof_Names Api Proof_Text.
From Verif Require Import Proof_Number Proof_Float Proof_Arith Proof_Order Props_Text Props_State Props_Number Props_Float Props_Order Proof_Vector.
From Verif Require Import Spec_Grammar Spec_State Spec_Names Spec_Text Spec_Number Spec_Float Spec_Order Spec_Vector Spec_String Spec_Set.
Open Scope Z_scope.
Open Scope list_scope.

Definition fine (t : bytes) (x : obj) : Prop := has_type t x /\ sound x.

Section Tree.
Context (tol : f32) (t : bytes) (V : V32 tol).
Notation lt := (less_opt tol).
Lemma ltb_before a b : fine t a -> fine t b -> (ltb lt a b = true <-> before tol a b).
Proof using V. intros [A1 A2] [B1 B2]. rewrite ltb_true. now apply (less_opt_iff tol t). Qed.
Lemma ltb_not_before a b : fine t a -> fine t b -> (ltb lt a b = false <-> ~ before tol a b).
Proof using V. intros A B. rewrite <- ltb_before by auto. now destruct (ltb lt a b). Qed.
Lemma incomparable_equals a b : fine t a -> fine t b -> (incomparable lt a b = true <-> equals tol a b).
Proof using V.
  intros A B. unfold incomparable, equals, relates. rewrite andb_true_iff, !negb_true_iff, !ltb_not_before by auto. tauto.
Qed.
Lemma sorted_iff l : Forall (fine t) l -> (strictly_sorted lt l = true <-> strictly_increasing tol l).
Proof using V.
  induction l as [|a l IH]; intros H; [split; constructor|]. inversion H; subst. cbn [strictly_sorted]. rewrite andb_true_iff, IH by auto.
  assert (K : forallb (ltb lt a) l = true <-> Forall (before tol a) l).
  { rewrite forallb_forall, Forall_forall. rewrite Forall_forall in H3. split; intros X b Hb; apply ltb_before; auto. }
  rewrite K. split; [intros [X Y]; now constructor|intros X; inversion X; subst; auto].
Qed.
Lemma tree_iff x l : Forall (fine t) (x :: l) -> (tree_ok lt x l = true <-> weak_order tol (x :: l) /\ strictly_increasing tol l).
Proof using V.
  intros H. unfold tree_ok. rewrite andb_true_iff, swo_iff. rewrite sorted_iff by now inversion H.
  rewrite (swo_weak' tol t) by (auto; (eapply Forall_impl; [|exact H]; now intros y [? ?])). tauto.
Qed.
Section One.
Context (x : obj) (l : list obj) (F : Forall (fine t) (x :: l)) (W : weak_order tol (x :: l)) (S : strictly_increasing tol l).
Lemma Fx : fine t x. Proof using F. now inversion F. Qed.
Lemma Fl y : In y l -> fine t y. Proof using F. inversion F; subst. rewrite Forall_forall in H2. auto. Qed.
Lemma find_spec : match find (fun y => incomparable lt y x) l with
  | Some y => In y l /\ equals tol y x | None => forall y, In y l -> ~ equals tol y x end.
Proof using V F.
  destruct (find _ l) as [y|] eqn:E.
  - apply find_some in E as [E1 E2]. split; auto. apply incomparable_equals in E2; auto using Fx, Fl.
  - intros y Hy Q. assert (X := find_none _ _ E y Hy). cbn in X. apply incomparable_equals in Q; auto using Fx, Fl. congruence.
Qed.
End One.
Lemma fine_in x l y : Forall (fine t) (x :: l) -> In y l -> fine t y.
Proof using Type. intros F. inversion F; subst. rewrite Forall_forall in H2. auto. Qed.
Lemma weak_sub x y l : weak_order tol (x :: y :: l) -> weak_order tol (x :: l).
Proof using Type.
  intros (W1 & W2 & W3).
  assert (I : forall z, In z (x :: l) -> In z (x :: y :: l)) by (intros z [?|?]; [now left|right; now right]).
  split; [eauto|]. split; intros a b c Ha Hb Hc; [apply W2|apply W3]; auto.
Qed.
Lemma insert_spec x l : Forall (fine t) (x :: l) -> weak_order tol (x :: l) -> strictly_increasing tol l ->
  strictly_increasing tol (insert_sorted lt l x) /\
  (((exists y, In y l /\ equals tol y x) /\ insert_sorted lt l x = l) \/
   ((forall y, In y l -> ~ equals tol y x) /\ forall z, In z (insert_sorted lt l x) <-> In z l \/ z = x)).
Proof using V.
  induction l as [|y l IH]; intros F W S.
  - cbn. split; [repeat constructor|]. right. split; [tauto|]. intros z. intuition.
  - inversion F as [|? ? Fx Fyl]; subst. inversion Fyl as [|? ? Fy Fl]; subst. inversion S as [|? ? S' Sy]; subst.
    cbn [insert_sorted]. destruct (ltb lt y x) eqn:E1; [|destruct (ltb lt x y) eqn:E2].
    + apply ltb_before in E1; auto. destruct IH as [I1 I2]; auto; [eapply weak_sub; eauto|].
      split.
      * constructor; auto. rewrite Forall_forall in *. intros z Hz. destruct I2 as [[_ Q]|[_ Q]]; [rewrite Q in Hz; auto|].
        apply Q in Hz as [Hz| ->]; auto.
      * destruct I2 as [[(z & Hz & Q1) Q2]|[Q1 Q2]].
        -- left. split; [exists z; split; auto; now right|]. now rewrite Q2.
        -- right. split; [intros z [<-|Hz]; [intros [X _]; contradiction|auto]|]. intros z. split.
           ++ intros [<-|Hz]; [left; now left|]. apply Q2 in Hz as [Hz| ->]; [left; now right|now right].
           ++ intros [[<-|Hz]| ->]; [now left|right; apply Q2; now left|right; apply Q2; now right].
    + apply ltb_before in E2; auto.
      assert (B : forall z, In z (y :: l) -> before tol x z).
      { intros z [<-|Hz]; auto. destruct W as (_ & W2 & _). apply (W2 x y z); auto; [now left|right; now left|right; now right|].
        rewrite Forall_forall in Sy. auto. }
      split; [constructor; auto; now apply Forall_forall|]. right. split.
      * intros z Hz [_ X]. apply X. apply B. exact Hz.
      * intros z. split; [intros [<-|Hz]; auto|intros [Hz| ->]; [now right|now left]].
    + apply ltb_not_before in E1, E2; auto. split; [exact S|]. left. split; [exists y; split; [now left|split; auto]|reflexivity].
Qed.
Lemma filter_sorted (p : obj -> bool) l : strictly_increasing tol l -> strictly_increasing tol (filter p l).
Proof using Type.
  induction 1 as [|a l S IH H]; [constructor|]. cbn. destruct (p a); auto. constructor; auto.
  rewrite Forall_forall in H |- *. intros z Hz. apply filter_In in Hz as [Hz _]. exact (H z Hz).
Qed.
Lemma erase_spec x l : Forall (fine t) (x :: l) -> forall z, In z (filter (fun y => negb (incomparable lt y x)) l) <-> In z l /\ ~ equals tol z x.
Proof using V.
  intros F z. rewrite filter_In. split; intros [H1 H2]; split; auto.
  - intros Q. apply incomparable_equals in Q; [|eapply fine_in; eauto|now inversion F]. now rewrite Q in H2.
  - destruct (incomparable lt z x) eqn:E; auto. apply incomparable_equals in E; [contradiction|eapply fine_in; eauto|now inversion F].
Qed.
(** *** maps *)
Lemma assign_keys (d : list (obj * obj)) k v : map fst (assign_sorted lt d k v) = insert_sorted lt (map fst d) k.
Proof using Type.
  induction d as [|[x w] d IH]; auto. cbn. destruct (ltb lt x k); [cbn; now rewrite IH|]. destruct (ltb lt k x); reflexivity.
Qed.
Lemma erase_keys (d : list (obj * obj)) k : map fst (filter (fun p => negb (incomparable lt (fst p) k)) d) = filter (fun y => negb (incomparable lt y k)) (map fst d).
Proof using Type. induction d as [|[x w] d IH]; auto. cbn. destruct (incomparable lt x k); cbn; now rewrite IH. Qed.
Lemma assign_spec (d : list (obj * obj)) k v : Forall (fine t) (k :: map fst d) -> weak_order tol (k :: map fst d) -> strictly_increasing tol (map fst d) ->
  forall a b, In (a, b) (assign_sorted lt d k v) <->
    (In (a, b) d /\ ~ equals tol a k) \/
    (b = v /\ ((a = k /\ forall y, In y (map fst d) -> ~ equals tol y k) \/ (In a (map fst d) /\ equals tol a k))).
Proof using V.
  induction d as [|[x w] d IH]; intros F W S a b.
  - cbn. split; [intros [H|[]]; inversion H; subst; right; split; auto|intros [[[] _]|[-> [[-> _]|[[] _]]]]; now left].
  - cbn [map fst] in *. inversion F as [|? ? Fx Fyl]; subst. inversion Fyl as [|? ? Fy Fl]; subst. inversion S as [|? ? S' Sy]; subst.
    rewrite Forall_forall in Sy, Fl.
    assert (M : forall a b, In (a, b) d -> In a (map fst d)) by (intros a' b' H; apply (in_map fst) in H; exact H).
    cbn [assign_sorted]. destruct (ltb lt x k) eqn:E1; [|destruct (ltb lt k x) eqn:E2].
    + apply ltb_before in E1; auto. assert (NE : ~ equals tol x k) by (intros [X _]; contradiction).
      assert (I := IH ltac:(constructor; auto; now apply Forall_forall) (weak_sub _ _ _ W) S' a b). clear IH. cbn [In]. rewrite I. clear I. split.
      * intros [H|[[H1 H2]|[-> [[-> H]|[H1 H2]]]]].
        -- inversion H; subst. left. split; auto.
        -- left. split; auto.
        -- right. split; auto. left. split; auto. intros y [<-|Hy]; auto.
        -- right. split; auto.
      * intros [[[H1|H1] H2]|[-> [[-> H]|[[H1|H1] H2]]]].
        -- now left.
        -- right. left. auto.
        -- right. right. split; auto.
        -- subst. contradiction.
        -- right. right. auto.
    + apply ltb_before in E2; auto.
      assert (B : forall z, In z (x :: map fst d) -> before tol k z).
      { intros z [<-|Hz]; auto. destruct W as (_ & W2 & _). apply (W2 k x z); auto; [now left|right; now left|right; now right]. }
      assert (Q : forall z, In z (x :: map fst d) -> ~ equals tol z k) by (intros z Hz [_ X]; apply X, B, Hz).
      cbn [In]. split.
      * intros [H|H]; [inversion H; subst; right; split; auto|]. left. split; auto. apply Q. destruct H as [H|H]; [inversion H; now left|right; eauto].
      * intros [[H _]|[-> [[-> _]|[H1 H2]]]]; auto. exfalso. eapply Q; eauto.
    + apply ltb_not_before in E1, E2; auto. assert (Q : equals tol x k) by (split; auto).
      assert (R : forall z, In z (map fst d) -> ~ equals tol z k).
      { intros z Hz X. destruct W as (_ & _ & W3). assert (Y : equals tol x z).
        { apply (W3 x k z); auto; [right; now left|now left|right; now right|]. destruct X; split; auto. }
        destruct Y as [Y _]. apply Y. auto. }
      cbn [In]. split.
      * intros [H|H]; [inversion H; subst; right; split; auto; right; split; auto|]. left. split; auto. apply R. eauto.
      * intros [[[H|H] H2]|[-> [[-> H]|[[H1|H1] H2]]]]; subst; auto.
        -- inversion H; subst. contradiction.
        -- exfalso. apply (H x); auto.
        -- exfalso. eapply R; eauto.
Qed.
End Tree.

(** ** What one statement does to one name *)
Lemma step_variable srt pw c s line n m args i c' s' ans : sort_contract srt -> reachable srt pw c ->
  statement line n m args -> lookup c n = Some i -> runs srt pw c s line c' s' ans ->
  lookup c' n = Some (fst (receive (env_of srt c) i m args)) /\ ans = text_of (snd (receive (env_of srt c) i m args)) /\
  ~ is_ub (snd (receive (env_of srt c) i m args)) /\ tolerance c' = tolerance c.
Proof.
  intros H1 H2 Hs Hl R. destruct (receive (env_of srt c) i m args) as [i' r] eqn:E. cbn [fst snd].
  assert (U : ~ is_ub r).
  { destruct r; cbn; auto. intros _. eapply runs_ub; [exact R|]. eapply (var_undefined srt pw c s line n m args i); eauto. }
  destruct (var_becomes srt pw c s line n m args i H1 H2 Hs Hl i' r E U) as (c1 & R1 & L & _ & [_ T]).
  destruct (runs_unique _ _ _ _ _ _ _ _ _ _ _ R R1) as (-> & _ & ->). auto.
Qed.
Lemma only_answers_lookup srt pw c s line a c' s' ans n : only_answers srt pw c s line a -> runs srt pw c s line c' s' ans -> lookup c' n = lookup c n.
Proof. intros (c1 & R1 & L & _) R. destruct (runs_unique _ _ _ _ _ _ _ _ _ _ _ R R1) as (-> & _). apply L. Qed.
Lemma creates_dec t m args : (exists n i, creates t m args n i) \/ forall n i, ~ creates t m args n i.
Proof. destruct (Classical_Prop.classic (exists n i, creates t m args n i)) as [H|H]; [now left|right]. intros n i X. eauto. Qed.
Lemma step_cases srt pw c s line c' s' ans n : sort_contract srt -> reachable srt pw c -> runs srt pw c s line c' s' ans ->
  lookup c' n = lookup c n \/
  (exists m args i, statement line n m args /\ In m mutators /\ lookup c n = Some i) \/
  (exists T m args i, statement line T m args /\ creates T m args n i /\ lookup c n = None /\ lookup c' n = Some i) \/
  (lookup c' n = None /\ ~ keeps line n).
Proof.
  intros H1 H2 R. destruct (statement_dec line) as [(a & m & args & Hs)|Hn].
  2:{ left. destruct (C26_not_a_statement _ _ _ _ _ _ _ _ Hn R) as [[L _] _]. apply L. }
  destruct (statement_actor _ _ _ _ Hs) as [->|[->|[Ht|Hv]]].
  - left. destruct (connection_statement _ _ _ _ _ _ _ _ _ _ Hs R) as [L _]. apply L.
  - destruct (C26_message_to_Context _ _ _ _ _ _ _ _ _ _ H1 H2 Hs R) as (_ & _ & D1 & D2 & D3 & D4).
    destruct (D2 n) as [L|L]; [now left|]. destruct (lookup c n) as [i|] eqn:E; [|left; congruence]. right. right. right. split; auto. intros [K1 K2].
    destruct (in_dec bytes_dec m deleters) as [Hm|Hm]; [|rewrite (D1 Hm n), E in L; discriminate].
    destruct Hm as [<-|[<-|[]]].
    + rewrite (D3 eq_refl n) in Hs by congruence. contradiction.
    + destruct (D4 eq_refl n) as (ns & j & -> & Q); [congruence|]. eapply K2; eauto.
  - destruct (C26_message_to_a_type _ _ _ _ _ _ _ _ _ _ _ H1 H2 Hs Ht R) as (_ & _ & A1 & A2).
    destruct (lookup c n) as [i|] eqn:E; [left; rewrite A1; auto; unfold live; congruence|].
    destruct (lookup c' n) as [i|] eqn:E'; [|now left].
    destruct (creates_dec a m args) as [(n1 & i1 & Hc)|Hc].
    + destruct (lookup c n1) as [j|] eqn:Ej.
      * left. assert (X := create_used srt pw c s line a m args n1 i1 j Hs Hc Ej).
        assert (Y : lookup c' n = lookup c n) by (eapply only_answers_lookup; eauto).
        congruence.
      * destruct (create_free srt pw c s line a m args n1 i1 (reachable_keys _ _ _ H1 H2) Hs Hc Ej) as (c1 & R1 & L1 & O1 & _).
        destruct (runs_unique _ _ _ _ _ _ _ _ _ _ _ R R1) as (-> & _).
        destruct (bytes_dec n n1) as [->|Nn]; [|rewrite O1, E in E' by auto; discriminate].
        right. right. left. exists a, m, args, i1. rewrite L1 in E'. injection E' as <-. auto.
    + exfalso. destruct (Classical_Prop.classic (understands a m)) as [U|U].
      * destruct (C24_bad_creation srt pw c s line a m args Hs Ht U Hc) as [X|(_ & _ & u & X)]; [|eapply runs_ub; eauto].
        rewrite (only_answers_lookup _ _ _ _ _ _ _ _ _ n X R) in E'. congruence.
      * rewrite (only_answers_lookup _ _ _ _ _ _ _ _ _ n (C24_other_messages_to_a_type srt pw c s line a m args Hs Ht U) R) in E'. congruence.
  - destruct (C26_message_to_a_variable _ _ _ _ _ _ _ _ _ _ _ H1 H2 Hs Hv R) as (_ & _ & A1 & A2 & A3).
    destruct (bytes_dec n a) as [->|Nn]; [|left; auto]. destruct (lookup c a) as [i|] eqn:E; [|left; destruct A3; congruence].
    destruct (in_dec bytes_dec m mutators) as [Hm|Hm]; [right; left; eauto 10|left; auto].
Qed.

(** ** The messages on values *)
Section Receive.
Context (E : env) (t kt vt : bytes).
Notation lt := (less_opt (e_tolerance E)).
Lemma set_add_eq (a : str) x v : literal_of t a x ->
  set_receive E t (B "add:") [a] v = if tree_ok lt x v then (insert_sorted lt v x, Ok (B "null")) else (v, UB BadOrder).
Proof. intros H%literal_get. change (set_receive E t (B "add:") [a] v) with (set_add E t [a] v). unfold set_add. mon. rewrite H. unfold set_insert. now destruct (tree_ok _ _ _). Qed.
Lemma set_remove_eq (a : str) x v : literal_of t a x ->
  set_receive E t (B "remove:") [a] v = if tree_ok lt x v then (filter (fun y => negb (incomparable lt y x)) v, Ok (B "null")) else (v, UB BadOrder).
Proof. intros H%literal_get. change (set_receive E t (B "remove:") [a] v) with (set_remove E t [a] v). unfold set_remove. mon. rewrite H. unfold set_erase. now destruct (tree_ok _ _ _). Qed.
Lemma set_contains_eq (a : str) x v : literal_of t a x ->
  set_receive E t (B "contains?") [a] v =
  if tree_ok lt x v then (v, Ok (truth (match find (fun y => incomparable lt y x) v with Some _ => true | None => false end))) else (v, UB BadOrder).
Proof. intros H%literal_get. change (set_receive E t (B "contains?") [a] v) with (set_contains E t [a] v). unfold set_contains. mon. rewrite H. unfold set_find. now destruct (tree_ok _ _ _). Qed.
Lemma dict_assoc_eq (a b : str) x k d : literal_of vt a x -> literal_of kt b k ->
  dict_receive E kt vt (B "associateValue:withKey:") [a; b] d =
  if tree_ok lt k (map fst d) then (assign_sorted lt d k x, Ok (B "null")) else (d, UB BadOrder).
Proof.
  intros H%literal_get H'%literal_get. change (dict_receive E kt vt (B "associateValue:withKey:") [a; b] d) with (dict_associateValue_withKey E kt vt [a; b] d).
  unfold dict_associateValue_withKey. mon. rewrite H, H'. unfold map_assign. now destruct (tree_ok _ _ _).
Qed.
Lemma dict_removeKey_eq (b : str) k d : literal_of kt b k ->
  dict_receive E kt vt (B "removeKey:") [b] d =
  if tree_ok lt k (map fst d) then (filter (fun p => negb (incomparable lt (fst p) k)) d, Ok (B "null")) else (d, UB BadOrder).
Proof.
  intros H%literal_get. change (dict_receive E kt vt (B "removeKey:") [b] d) with (dict_removeKey E kt [b] d).
  unfold dict_removeKey. mon. rewrite H. unfold map_erase. now destruct (tree_ok _ _ _).
Qed.
Lemma dict_containsKey_eq (b : str) k d : literal_of kt b k ->
  dict_receive E kt vt (B "containsKey?") [b] d =
  if tree_ok lt k (map fst d) then (d, Ok (truth (match find (fun p => incomparable lt (fst p) k) d with Some _ => true | None => false end)))
  else (d, UB BadOrder).
Proof.
  intros H%literal_get. change (dict_receive E kt vt (B "containsKey?") [b] d) with (dict_containsKey E kt [b] d).
  unfold dict_containsKey. mon. rewrite H. unfold map_find. now destruct (tree_ok _ _ _).
Qed.
Lemma dict_getValue_eq (b : str) k d : literal_of kt b k ->
  dict_receive E kt vt (B "getValueForKey:") [b] d =
  if tree_ok lt k (map fst d) then
    (d, Ok (match find (fun p => incomparable lt (fst p) k) d with Some p => obj_repr E (snd p) | None => B "null" end))
  else (d, UB BadOrder).
Proof.
  intros H%literal_get. change (dict_receive E kt vt (B "getValueForKey:") [b] d) with (dict_getValueForKey E kt [b] d).
  unfold dict_getValueForKey. mon. rewrite H. unfold map_find. destruct (tree_ok _ _ _); auto. now destruct (find _ _).
Qed.
(** A message to a Set / Dictionary that changes it is one of these. *)
Lemma set_changes m args v : object_type t ->
  fst (set_receive E t m args v) = v \/
  (exists a x, args = [a] /\ literal_of t a x /\ (m = B "add:" \/ m = B "remove:")) \/ (args = [] /\ m = B "clear").
Proof.
  intros Ot. unfold set_receive. pattern (dispatch [($"get", set_get E); ($"isEmpty?", set_isEmpty); ($"contains?", set_contains E t); ($"size", set_size);
            ($"add:", set_add E t); ($"remove:", set_remove E t); ($"clear", set_clear)] m args).
  apply dispatch_cases; [now left|]. repeat apply Forall_cons; try apply Forall_nil; cbn [fst snd]; intros Hm; try (left; match goal with |- fst (?f _) = _ => let C := fresh in assert (C : const f) by const_op; apply C end).
  - unfold set_add. mon. destruct args as [|a [|]]; cbn [length Nat.eqb negb nth_error fst]; auto.
    destruct (get_shared_instance t a) eqn:G; cbn [fst]; auto. right. left. eauto 12 using get_literal.
  - unfold set_remove. mon. destruct args as [|a [|]]; cbn [length Nat.eqb negb nth_error fst]; auto.
    destruct (get_shared_instance t a) eqn:G; cbn [fst]; auto. right. left. eauto 12 using get_literal.
  - unfold set_clear. mon. destruct args as [|a [|]]; cbn [length Nat.eqb negb nth_error fst]; auto.
Qed.
Lemma dict_changes m args d : object_type kt -> object_type vt ->
  fst (dict_receive E kt vt m args d) = d \/
  (exists a b x k, args = [a; b] /\ literal_of vt a x /\ literal_of kt b k /\ m = B "associateValue:withKey:") \/
  (exists b k, args = [b] /\ literal_of kt b k /\ m = B "removeKey:") \/ (args = [] /\ m = B "clear").
Proof.
  intros Hk Hv. unfold dict_receive. pattern (dispatch [($"get", dict_get E); ($"isEmpty?", dict_isEmpty); ($"containsKey?", dict_containsKey E kt);
            ($"size", dict_size); ($"keys", dict_keys E); ($"values", dict_values E);
            ($"getValueForKey:", dict_getValueForKey E kt); ($"associateValue:withKey:", dict_associateValue_withKey E kt vt);
            ($"removeKey:", dict_removeKey E kt); ($"clear", dict_clear)] m args).
  apply dispatch_cases; [now left|]. repeat apply Forall_cons; try apply Forall_nil; cbn [fst snd]; intros Hm; try (left; match goal with |- fst (?f _) = _ => let C := fresh in assert (C : const f) by const_op; apply C end).
  - unfold dict_associateValue_withKey. mon. destruct args as [|a [|b [|]]]; cbn [length Nat.eqb negb nth_error fst]; auto.
    destruct (get_shared_instance vt a) eqn:G; cbn [fst]; auto. destruct (get_shared_instance kt b) eqn:G'; cbn [fst]; auto. right. left. eauto 12 using get_literal.
  - unfold dict_removeKey. mon. destruct args as [|b [|]]; cbn [length Nat.eqb negb nth_error fst]; auto.
    destruct (get_shared_instance kt b) eqn:G; cbn [fst]; auto. right. right. left. eauto 12 using get_literal.
  - unfold dict_clear. mon. destruct args as [|a [|]]; cbn [length Nat.eqb negb nth_error fst]; auto.
Qed.
End Receive.

(** ** Contents stay in order *)
Definition ordered_inst (tol : f32) (i : inst) : Prop :=
  match i with
  | ISet _ v => strictly_increasing tol v
  | IDict _ _ d => strictly_increasing tol (map fst d)
  | _ => True
  end.
Lemma set_fine nl t v : Forall (good nl t) v -> Forall (fine t) v.
Proof. apply Forall_impl. intros x (A & B & _). split; auto. eapply obj_clean_sound; eauto. Qed.
Lemma dict_fine nl kt vt d : Forall (goodp nl kt vt) d -> Forall (fine kt) (map fst d).
Proof. rewrite Forall_map. apply Forall_impl. intros [k v] ((A & B & _) & _). split; auto. eapply obj_clean_sound; eauto. Qed.
Lemma reads_fine t a x : object_type t -> literal_of t a x -> fine t x.
Proof. intros Ho H. destruct (reads_sound _ _ _ Ho H) as (A & B & _). now split. Qed.
Lemma receive_ordered E i m args : V32 (e_tolerance E) -> inst_good false i ->
  ordered_inst (e_tolerance E) i -> ~ is_ub (snd (receive E i m args)) -> ordered_inst (e_tolerance E) (fst (receive E i m args)).
Proof.
  intros V G O U. destruct i as [[]|t v|t v|kt vt d]; cbn [receive on fst snd ordered_inst] in *; try exact I.
  - destruct G as [Ho Gv]. apply set_fine in Gv. destruct (set_changes E t m args v) as [->|[(a & x & -> & Hx & Hm)|[-> ->]]]; auto.
    2:{ change (set_receive E t (B "clear") [] v) with (@nil obj, Ok null). constructor. }
    assert (Fx := reads_fine _ _ _ Ho Hx). assert (F : Forall (fine t) (x :: v)) by now constructor.
    destruct Hm as [->| ->]; [rewrite (set_add_eq E t a x v Hx) in U |- *|rewrite (set_remove_eq E t a x v Hx) in U |- *];
      destruct (tree_ok _ _ _) eqn:T; cbn [fst snd] in *; auto.
    + apply (tree_iff _ t V x v F) in T as [W S]. now apply (insert_spec _ t V).
    + now apply filter_sorted.
  - destruct G as (Hk & Hv & Gd). assert (Fd := dict_fine _ _ _ _ Gd).
    destruct (dict_changes E kt vt m args d) as [->|[(a & b & x & k & -> & Hx & Hy & ->)|[(b & k & -> & Hy & ->)|[-> ->]]]]; auto.
    + assert (Fx := reads_fine _ _ _ Hk Hy). assert (F : Forall (fine kt) (k :: map fst d)) by now constructor.
      rewrite (dict_assoc_eq E kt vt a b x k d Hx Hy) in U |- *. destruct (tree_ok _ _ _) eqn:T; cbn [fst snd] in *; auto.
      apply (tree_iff _ kt V k (map fst d) F) in T as [W S]. rewrite assign_keys. now apply (insert_spec _ kt V).
    + rewrite (dict_removeKey_eq E kt vt b k d Hy) in U |- *. destruct (tree_ok _ _ _) eqn:T; cbn [fst snd] in *; auto.
      rewrite erase_keys. now apply filter_sorted.
    + change (dict_receive E kt vt (B "clear") [] d) with (@nil (obj * obj), Ok null). constructor.
Qed.
Lemma increasing_weaken tol tol' l : (forall a b, In a l -> In b l -> before tol a b -> before tol' a b) -> strictly_increasing tol l -> strictly_increasing tol' l.
Proof.
  intros H S. unfold strictly_increasing in *. revert H. induction S as [|a l S IH Ha]; intros H; constructor.
  - apply IH. intros x y Hx Hy. apply H; now right.
  - rewrite Forall_forall in *. intros b Hb. apply H; auto; [now left|now right].
Qed.
Lemma increasing_plain tol tol' t l : t <> B "Float" -> Forall (has_type t) l -> strictly_increasing tol l -> strictly_increasing tol' l.
Proof.
  intros N F. rewrite Forall_forall in F. apply increasing_weaken. intros a b Ha Hb. apply before_plain; eapply type_plain; eauto.
Qed.
Lemma not_raised_before tol tol' a b : not_raised tol tol' -> before tol a b -> before tol' a b.
Proof.
  intros [->|(F & F' & L)]; auto. destruct a, b; cbn [before]; auto; rewrite (finite_extended tol F), (finite_extended tol' F').
  all: intros X; repeat match goal with X : context [extended_of ?f] |- _ => destruct (extended_of f) end; cbn [below] in *; auto; lra.
Qed.
Lemma created_ordered T m args n i tol : creates T m args n i -> ordered_inst tol i.
Proof. intros H. destruct H; cbn; auto; constructor. Qed.
Lemma never_reachable srt pw c : reachable_never_raising srt pw c -> reachable srt pw c.
Proof. induction 1; [now constructor|eapply reach_step; eauto]. Qed.
Lemma never_ordered srt pw c n i : sort_contract srt -> reachable_never_raising srt pw c ->
  lookup c n = Some i -> ordered_inst (tolerance c) i.
Proof.
  intros H1 H2. revert i. induction H2 as [o p d q|c s line c' s' ans Hc IH R NR]; intros i Hl; [discriminate Hl|].
  assert (Hr := never_reachable _ _ _ Hc).
  assert (W : forall j, ordered_inst (tolerance c) j -> ordered_inst (tolerance c') j).
  { intros [|t v|t v|k v d]; cbn; auto; apply increasing_weaken; intros; eapply not_raised_before; eauto. }
  destruct (step_cases srt pw c s line c' s' ans n H1 Hr R) as [L|[(m & args & j & Hs & Hm & Hj)|[(T & m & args & j & Hs & Hcr & _ & Hj)|[L _]]]].
  - apply W. apply IH; congruence.
  - destruct (step_variable srt pw c s line n m args j c' s' ans H1 Hr Hs Hj R) as (L & _ & U & Tt). rewrite Hl in L. injection L as ->.
    rewrite Tt. apply (receive_ordered (env_of srt c) j m args); auto.
    + now apply (reachable_tolerance srt pw).
    + apply (ctx_good_lookup false c n j (reachable_good srt pw c H1 Hr) Hj).
  - rewrite Hl in Hj. injection Hj as ->. eapply created_ordered; eauto.
  - congruence.
Qed.

(** ** Histories of sets whose elements are no Floats *)
Lemma equals_plain tol t a b : t <> B "Float" -> fine t a -> fine t b -> (equals tol a b <-> a = b).
Proof.
  intros N [A1 A2] [B1 B2]. unfold equals, relates. split.
  - intros [X Y]. eapply before_total; eauto.
  - intros <-. assert (P := type_plain _ _ N A1). assert (~ before tol a a); [|tauto].
    intros X. apply (before_irrefl zero32 a nonneg_zero). revert X. now apply before_plain.
Qed.
Lemma set_stored srt pw c n t v : sort_contract srt -> reachable srt pw c -> lookup c n = Some (ISet t v) -> object_type t /\ Forall (fine t) v.
Proof.
  intros H1 H2 Hl. destruct (ctx_good_lookup false c n _ (reachable_good srt pw c H1 H2) Hl) as [_ [Ho G]]. split; auto. eapply set_fine; eauto.
Qed.
Lemma dict_stored srt pw c n kt vt d : sort_contract srt -> reachable srt pw c -> lookup c n = Some (IDict kt vt d) ->
  object_type kt /\ object_type vt /\ Forall (fine kt) (map fst d) /\ Forall (fine vt) (map snd d).
Proof.
  intros H1 H2 Hl. destruct (ctx_good_lookup false c n _ (reachable_good srt pw c H1 H2) Hl) as [_ (Hk & Hv & G)]. split; auto. split; auto.
  split; [eapply dict_fine; eauto|]. rewrite Forall_map. eapply Forall_impl; [|exact G]. intros [k v] (_ & A & B & _). split; auto. eapply obj_clean_sound; eauto.
Qed.
Lemma fine_types t l : Forall (fine t) l -> Forall (has_type t) l.
Proof. apply Forall_impl. now intros x [? _]. Qed.
Lemma lists_any tol tol' t S v : t <> B "Float" -> Forall (fine t) v -> lists tol S v -> lists tol' S v.
Proof. intros N F [A B]. split; auto. eapply increasing_plain; eauto using fine_types. Qed.
Lemma plain_tree tol t x v : V32 tol -> t <> B "Float" -> Forall (fine t) (x :: v) -> strictly_increasing tol v ->
  tree_ok (less_opt tol) x v = true /\ weak_order tol (x :: v).
Proof.
  intros V N F S. assert (W := weak_order_plain tol t (x :: v) N (fine_types _ _ F)). split; auto. apply (tree_iff tol t V); auto.
Qed.
Section Plain.
Context (E : env) (t : bytes) (V : V32 (e_tolerance E)) (N : t <> B "Float").
Notation tol := (e_tolerance E).
Lemma plain_add (a : str) x v S : object_type t -> Forall (fine t) v -> literal_of t a x -> lists tol S v ->
  exists v', set_receive E t (B "add:") [a] v = (v', Ok (B "null")) /\ lists tol (with_element S x) v'.
Proof using V N.
  intros Ho F Hx [A C]. assert (Fx := reads_fine _ _ _ Ho Hx). assert (F' : Forall (fine t) (x :: v)) by now constructor.
  destruct (plain_tree tol t x v V N F' A) as [T W]. rewrite (set_add_eq E t a x v Hx), T. eexists. split; [reflexivity|].
  destruct (insert_spec tol t V x v F' W A) as [I1 I2]. split; auto. intros z. unfold with_element. rewrite <- C.
  destruct I2 as [[(y & Hy & Q) ->]|[_ Q]]; [|apply Q]. split; auto. intros [Hz| ->]; auto.
  apply (equals_plain tol t) in Q; auto; [now subst|]. rewrite Forall_forall in F. auto.
Qed.
Lemma plain_remove (a : str) x v S : object_type t -> Forall (fine t) v -> literal_of t a x -> lists tol S v ->
  exists v', set_receive E t (B "remove:") [a] v = (v', Ok (B "null")) /\ lists tol (without_element S x) v'.
Proof using V N.
  intros Ho F Hx [A C]. assert (Fx := reads_fine _ _ _ Ho Hx). assert (F' : Forall (fine t) (x :: v)) by now constructor.
  destruct (plain_tree tol t x v V N F' A) as [T W]. rewrite (set_remove_eq E t a x v Hx), T. eexists. split; [reflexivity|].
  split; [now apply filter_sorted|]. intros z. rewrite (erase_spec tol t V x v F'). unfold without_element. rewrite <- C.
  split; intros [Hz Q]; split; auto; intros R; apply Q; apply (equals_plain tol t); auto; rewrite Forall_forall in F; auto.
Qed.
Lemma plain_contains (a : str) x v S : object_type t -> Forall (fine t) v -> literal_of t a x -> lists tol S v ->
  exists b, set_receive E t (B "contains?") [a] v = (v, Ok (truth b)) /\ (b = true <-> S x).
Proof using V N.
  intros Ho F Hx [A C]. assert (Fx := reads_fine _ _ _ Ho Hx). assert (F' : Forall (fine t) (x :: v)) by now constructor.
  destruct (plain_tree tol t x v V N F' A) as [T W]. rewrite (set_contains_eq E t a x v Hx), T. eexists. split; [reflexivity|].
  assert (Q := find_spec tol t V x v F'). rewrite <- C. destruct (find _ v) as [y|].
  - destruct Q as [Q1 Q2]. apply (equals_plain tol t) in Q2; auto; [|rewrite Forall_forall in F; auto]. subst y. tauto.
  - split; [discriminate|]. intros Hin. exfalso. apply (Q x Hin). now apply (equals_plain tol t).
Qed.
End Plain.
Lemma set_history_inv srt pw n t c S : sort_contract srt -> t <> B "Float" -> set_history srt pw n t c S ->
  reachable srt pw c /\ exists v, lookup c n = Some (ISet t v) /\ lists (tolerance c) S v.
Proof.
  intros H1 N H. induction H as [c s line T m args c' s' ans Hr Hn HT Hs Hc R|c S s line a x c' s' ans H IH Hs Hx R|c S s line a x c' s' ans H IH Hs Hx R|
     c S s line c' s' ans H IH Hs R|c S s line c' s' ans H IH R Q].
  - split; [eapply reach_step; eauto|]. destruct (C24_create_on_a_free_name srt pw c s line T m args n _ H1 Hr Hs Hc Hn) as (c1 & R1 & L & _).
    destruct (runs_unique _ _ _ _ _ _ _ _ _ _ _ R R1) as (-> & _). exists []. split; auto. split; [constructor|]. intros x. cbn. unfold nothing. tauto.
  - destruct IH as (Hr & v & Hl & Hv). split; [eapply reach_step; eauto|].
    destruct (set_stored _ _ _ _ _ _ H1 Hr Hl) as [Ho F]. assert (V := reachable_tolerance srt pw c H1 Hr).
    destruct (plain_add (env_of srt c) t V N a x v S Ho F Hx Hv) as (v' & E & Hv').
    destruct (step_variable srt pw c s line n _ _ _ c' s' ans H1 Hr Hs Hl R) as (L & _ & _ & Tt). exists v'.
    split; [rewrite L; exact (f_equal (fun p => Some (ISet t (fst p))) E)|now rewrite Tt].
  - destruct IH as (Hr & v & Hl & Hv). split; [eapply reach_step; eauto|].
    destruct (set_stored _ _ _ _ _ _ H1 Hr Hl) as [Ho F]. assert (V := reachable_tolerance srt pw c H1 Hr).
    destruct (plain_remove (env_of srt c) t V N a x v S Ho F Hx Hv) as (v' & E & Hv').
    destruct (step_variable srt pw c s line n _ _ _ c' s' ans H1 Hr Hs Hl R) as (L & _ & _ & Tt). exists v'.
    split; [rewrite L; exact (f_equal (fun p => Some (ISet t (fst p))) E)|now rewrite Tt].
  - destruct IH as (Hr & v & Hl & Hv). split; [eapply reach_step; eauto|].
    destruct (step_variable srt pw c s line n _ _ _ c' s' ans H1 Hr Hs Hl R) as (L & _ & _ & Tt). exists []. split; [exact L|].
    split; [constructor|]. intros x. cbn. unfold nothing. tauto.
  - destruct IH as (Hr & v & Hl & Hv). split; [eapply reach_step; eauto|]. exists v.
    destruct (set_stored _ _ _ _ _ _ H1 Hr Hl) as [Ho F]. split; [|eapply lists_any; eauto]. rewrite <- Hl.
    destruct Q as [[K Q]|Q]; [|destruct (C27_errors_change_nothing _ _ _ _ _ _ _ _ H1 Hr R Q) as (_ & [L _] & _); apply L].
    destruct (step_cases srt pw c s line c' s' ans n H1 Hr R) as [L|[(m & args & j & Hs & Hm & Hj)|[(T & m & args & j & _ & _ & L & _)|[_ L]]]]; auto; try congruence; try contradiction.
    rewrite Hl in Hj. injection Hj as <-. destruct (step_variable srt pw c s line n _ _ _ c' s' ans H1 Hr Hs Hl R) as (L & _). rewrite Hl, L.
    cbn [receive on fst]. destruct (set_changes (env_of srt c) t m args v) as [->|[(a & x & -> & _ & [->| ->])|[-> ->]]]; auto; exfalso; eapply Q; eauto; cbn; auto.
Qed.
(** Every set has a history. *)
Lemma not_keeps srt pw c s line c' s' ans n : sort_contract srt -> reachable srt pw c -> runs srt pw c s line c' s' ans -> live c n ->
  keeps line n \/ lookup c' n = None \/ looks_like_error ans.
Proof.
  intros H1 H2 R Hl.
  destruct (Classical_Prop.classic (statement line (B "Context") (B "deleteVariable:") [n])) as [D|D].
  { right. left. destruct (C25_deleteVariable srt pw c s line n H1 H2 D Hl) as (c1 & R1 & L & _).
    destruct (runs_unique _ _ _ _ _ _ _ _ _ _ _ R R1) as (-> & _). exact L. }
  destruct (Classical_Prop.classic (exists ns i, n = qualified ns i /\ statement line (B "Context") (B "deleteVariablesOfNamespace:") [ns])) as [(ns & i & -> & D')|D'].
  - right. destruct (Classical_Prop.classic (namespace ns)) as [Hn|Hn].
    + left. destruct (C25_deleteVariablesOfNamespace srt pw c s line ns D' Hn) as (c1 & R1 & _ & L & _).
      destruct (runs_unique _ _ _ _ _ _ _ _ _ _ _ R R1) as (-> & _). apply L.
    + right. destruct (C25_bad_names srt pw c s line _ ns D') as (c1 & R1 & _); [auto|].
      destruct (runs_unique _ _ _ _ _ _ _ _ _ _ _ R R1) as (_ & _ & ->). apply error_answer_looks. unfold error_answer. cbn. auto.
  - left. split; auto. intros ns i Q1 Q2. apply D'. eauto.
Qed.
Lemma step_error srt pw c s line n m args i c' s' ans e : sort_contract srt -> reachable srt pw c -> statement line n m args -> lookup c n = Some i ->
  runs srt pw c s line c' s' ans -> snd (receive (env_of srt c) i m args) = Throw e -> looks_like_error ans.
Proof.
  intros H1 H2 Hs Hl R X. destruct (step_variable srt pw c s line n m args i c' s' ans H1 H2 Hs Hl R) as (_ & -> & _). rewrite X.
  apply error_answer_looks, error_answer_exc.
Qed.
Lemma set_class E i m args t v : fst (receive E i m args) = ISet t v -> exists v0, i = ISet t v0.
Proof. destruct i as [[]|t0 v0|t0 v0|k0 v0 d0]; cbn [receive on fst]; intros H; try discriminate. injection H as -> _. eauto. Qed.
Lemma dict_class E i m args kt vt d : fst (receive E i m args) = IDict kt vt d -> exists d0, i = IDict kt vt d0.
Proof. destruct i as [[]|t0 v0|t0 v0|k0 v0 d0]; cbn [receive on fst]; intros H; try discriminate. injection H as -> -> _. eauto. Qed.
Lemma silent_dec line n ms : silent line n ms \/ exists m args, In m ms /\ statement line n m args.
Proof.
  destruct (statement_dec line) as [(a & m & args & Hs)|Hn]; [|left; intros m args _; apply Hn].
  destruct (bytes_dec a n) as [->|Na].
  - destruct (in_dec bytes_dec m ms) as [I|I]; [right; eauto|left]. intros m' args' I' Hs'. destruct (statement_unique _ _ _ _ _ _ _ Hs Hs') as (_ & -> & _). contradiction.
  - left. intros m' args' _ Hs'. destruct (statement_unique _ _ _ _ _ _ _ Hs Hs') as (-> & _). contradiction.
Qed.
Lemma set_has_history srt pw c n t v : sort_contract srt -> reachable srt pw c -> lookup c n = Some (ISet t v) -> exists S, set_history srt pw n t c S.
Proof.
  intros H1 H2. revert v. induction H2 as [o p d q|c s line c' s' ans Hr IH R]; intros v Hl; [discriminate Hl|].
  destruct (lookup c n) as [i|] eqn:E.
  - assert (X : exists v0, i = ISet t v0).
    { destruct (step_cases srt pw c s line c' s' ans n H1 Hr R) as [L|[(m & args & j & Hs & Hm & Hj)|[(T & m & args & j & _ & _ & L & _)|[L _]]]]; try congruence.
      - exists v. congruence.
      - destruct (step_variable srt pw c s line n _ _ _ c' s' ans H1 Hr Hs Hj R) as (L & _). rewrite Hl in L. injection L as L. symmetry in L.
        apply set_class in L as [v0 L]. exists v0. congruence. }
    destruct X as [v0 ->]. destruct (IH v0 eq_refl) as [S HS]. destruct (set_stored _ _ _ _ _ _ H1 Hr E) as [Ho _].
    destruct (silent_dec line n [B "add:"; B "remove:"; B "clear"]) as [Q|(m & args & Hm & Hs)].
    + exists S. eapply set_other; eauto. destruct (not_keeps srt pw c s line c' s' ans n H1 Hr R) as [K|[K|K]]; auto; [unfold live|]; congruence.
    + assert (Ub : forall u, snd (receive (env_of srt c) (ISet t v0) m args) <> UB u).
      { intros u X. destruct (step_variable srt pw c s line n _ _ _ c' s' ans H1 Hr Hs E R) as (_ & _ & U & _). rewrite X in U. apply U. exact I. }
      destruct Hm as [<-|[<-|[<-|[]]]].
      * assert (L : length args = 1%nat) by (eapply args_len; eauto). apply len1 in L as [a ->].
        destruct (reads_or_error t a Ho) as [[x Hx]|[[e He]|[u Hu]]].
        -- eexists. eapply set_added; eauto.
        -- exists S. eapply set_other; eauto. right. eapply (step_error _ _ _ _ _ _ _ _ _ _ _ _ e H1 Hr Hs E R). cbn [receive on snd].
           change (snd (set_add (env_of srt c) t [a] v0) = Throw e). unfold set_add. mon. now rewrite He.
        -- exfalso. apply (Ub u). cbn [receive on snd]. change (snd (set_add (env_of srt c) t [a] v0) = UB u). unfold set_add. mon. now rewrite Hu.
      * assert (L : length args = 1%nat) by (eapply args_len; eauto). apply len1 in L as [a ->].
        destruct (reads_or_error t a Ho) as [[x Hx]|[[e He]|[u Hu]]].
        -- eexists. eapply set_removed; eauto.
        -- exists S. eapply set_other; eauto. right. eapply (step_error _ _ _ _ _ _ _ _ _ _ _ _ e H1 Hr Hs E R). cbn [receive on snd].
           change (snd (set_remove (env_of srt c) t [a] v0) = Throw e). unfold set_remove. mon. now rewrite He.
        -- exfalso. apply (Ub u). cbn [receive on snd]. change (snd (set_remove (env_of srt c) t [a] v0) = UB u). unfold set_remove. mon. now rewrite Hu.
      * assert (L : length args = 0%nat) by (eapply args_len; eauto). apply len0 in L as ->. eexists. eapply set_cleared; eauto.
  - destruct (step_cases srt pw c s line c' s' ans n H1 Hr R) as [L|[(m & args & j & Hs & Hm & Hj)|[(T & m & args & j & Hs & Hc & _ & L)|[L _]]]]; try congruence.
    rewrite Hl in L. injection L as <-. exists nothing. assert (v = [] /\ set_type T t) as [-> HT] by (inversion Hc; subst; auto).
    eapply set_created; eauto.
Qed.

(** ** Histories of dictionaries whose keys are no Floats *)
Lemma lists_map_any tol tol' t f d : t <> B "Float" -> Forall (fine t) (map fst d) -> lists_map tol f d -> lists_map tol' f d.
Proof. intros N F [A B]. split; auto. eapply increasing_plain; eauto using fine_types. Qed.
Section PlainDict.
Context (E : env) (kt vt : bytes) (V : V32 (e_tolerance E)) (N : kt <> B "Float").
Notation tol := (e_tolerance E).
Lemma plain_assoc (a b : str) x k d f : object_type kt -> Forall (fine kt) (map fst d) -> literal_of vt a x -> literal_of kt b k -> lists_map tol f d ->
  exists d', dict_receive E kt vt (B "associateValue:withKey:") [a; b] d = (d', Ok (B "null")) /\ lists_map tol (with_association f k x) d'.
Proof using V N.
  intros Ho F Hx Hk [A C]. assert (Fk := reads_fine _ _ _ Ho Hk). assert (F' : Forall (fine kt) (k :: map fst d)) by now constructor.
  destruct (plain_tree tol kt k (map fst d) V N F' A) as [T W]. rewrite (dict_assoc_eq E kt vt a b x k d Hx Hk), T. eexists. split; [reflexivity|].
  assert (Fin : forall y, In y (map fst d) -> fine kt y) by (rewrite Forall_forall in F; auto).
  split; [rewrite assign_keys; now apply (insert_spec tol kt V k (map fst d) F' W A)|].
  intros p q. rewrite (assign_spec tol kt V d k x F' W A). unfold with_association. destruct (obj_dec p k) as [->|Np].
  - split.
    + intros [[H Q]|[-> _]]; auto. exfalso. apply Q, (equals_plain tol kt); auto.
    + intros H. injection H as <-. right. split; auto.
      destruct (in_dec obj_dec k (map fst d)) as [I|I]; [right; split; auto; now apply (equals_plain tol kt)|left]. split; auto.
      intros y Hy Q. apply (equals_plain tol kt) in Q; auto. now subst.
  - split.
    + intros [[H Q]|[-> [[Q _]|[H Q]]]]; [now apply C|contradiction|]. apply (equals_plain tol kt) in Q; auto. contradiction.
    + intros H. apply C in H. left. split; auto. intros Q. apply (equals_plain tol kt) in Q; auto. apply Fin. apply (in_map fst) in H. exact H.
Qed.
Lemma plain_removeKey (b : str) k d f : object_type kt -> Forall (fine kt) (map fst d) -> literal_of kt b k -> lists_map tol f d ->
  exists d', dict_receive E kt vt (B "removeKey:") [b] d = (d', Ok (B "null")) /\ lists_map tol (without_key f k) d'.
Proof using V N.
  intros Ho F Hk [A C]. assert (Fk := reads_fine _ _ _ Ho Hk). assert (F' : Forall (fine kt) (k :: map fst d)) by now constructor.
  destruct (plain_tree tol kt k (map fst d) V N F' A) as [T W]. rewrite (dict_removeKey_eq E kt vt b k d Hk), T. eexists. split; [reflexivity|].
  assert (Fin : forall p, In p d -> fine kt (fst p)) by (intros p Hp; apply (in_map fst) in Hp; rewrite Forall_forall in F; auto).
  split; [rewrite erase_keys; now apply filter_sorted|].
  intros p q. rewrite filter_In, negb_true_iff. cbn [fst]. unfold without_key. rewrite C.
  assert (X : In (p, q) d -> (incomparable (less_opt tol) p k = true <-> p = k)).
  { intros H. apply Fin in H. cbn in H. rewrite (incomparable_equals tol kt V), (equals_plain tol kt); auto. tauto. }
  rewrite C in X. destruct (obj_dec p k) as [->|Np].
  - split; [intros [H Q]|discriminate]. apply X in H. destruct H as [_ H]. rewrite H in Q by auto. discriminate.
  - split; [tauto|]. intros H. split; auto. apply not_true_is_false. intros Q. apply X in Q; auto.
Qed.
Lemma plain_find (b : str) k d f : object_type kt -> Forall (fine kt) (map fst d) -> literal_of kt b k -> lists_map tol f d ->
  tree_ok (less_opt tol) k (map fst d) = true /\
  match find (fun p => incomparable (less_opt tol) (fst p) k) d with Some p => f k = Some (snd p) | None => f k = None end.
Proof using V N.
  intros Ho F Hk [A C]. assert (Fk := reads_fine _ _ _ Ho Hk). assert (F' : Forall (fine kt) (k :: map fst d)) by now constructor.
  destruct (plain_tree tol kt k (map fst d) V N F' A) as [T W]. split; auto.
  assert (Fin : forall p, In p d -> fine kt (fst p)) by (intros p Hp; apply (in_map fst) in Hp; rewrite Forall_forall in F; auto).
  destruct (find _ d) as [[p q]|] eqn:Q.
  - apply find_some in Q as [Q1 Q2]. cbn [fst snd] in *. apply (incomparable_equals tol kt V) in Q2; auto; [|now apply (Fin (p, q))].
    apply (equals_plain tol kt) in Q2; auto; [|now apply (Fin (p, q))]. subst p. now apply C.
  - destruct (f k) as [q|] eqn:Fk'; auto. exfalso. apply C in Fk'. assert (X := find_none _ _ Q _ Fk'). cbn [fst] in X.
    assert (Y : incomparable (less_opt tol) k k = true); [|congruence].
    apply (incomparable_equals tol kt V); auto. now apply (equals_plain tol kt).
Qed.
End PlainDict.
Lemma dictionary_history_inv srt pw n kt vt c f : sort_contract srt -> kt <> B "Float" -> dictionary_history srt pw n kt vt c f ->
  reachable srt pw c /\ exists d, lookup c n = Some (IDict kt vt d) /\ lists_map (tolerance c) f d.
Proof.
  intros H1 N H. induction H as [c s line T m args c' s' ans Hr Hn HT Hs Hc R|c f s line a b x k c' s' ans H IH Hs Hx Hk R|c f s line b k c' s' ans H IH Hs Hk R|
     c f s line c' s' ans H IH Hs R|c f s line c' s' ans H IH R Q].
  - split; [eapply reach_step; eauto|]. destruct (C24_create_on_a_free_name srt pw c s line T m args n _ H1 Hr Hs Hc Hn) as (c1 & R1 & L & _).
    destruct (runs_unique _ _ _ _ _ _ _ _ _ _ _ R R1) as (-> & _). exists []. split; auto. split; [constructor|]. intros x y. cbn. unfold no_association. split; [tauto|discriminate].
  - destruct IH as (Hr & d & Hl & Hd). split; [eapply reach_step; eauto|].
    destruct (dict_stored _ _ _ _ _ _ _ H1 Hr Hl) as (Ho & _ & F & _). assert (V := reachable_tolerance srt pw c H1 Hr).
    destruct (plain_assoc (env_of srt c) kt vt V N a b x k d f Ho F Hx Hk Hd) as (d' & E & Hd').
    destruct (step_variable srt pw c s line n _ _ _ c' s' ans H1 Hr Hs Hl R) as (L & _ & _ & Tt). exists d'.
    split; [rewrite L; exact (f_equal (fun p => Some (IDict kt vt (fst p))) E)|now rewrite Tt].
  - destruct IH as (Hr & d & Hl & Hd). split; [eapply reach_step; eauto|].
    destruct (dict_stored _ _ _ _ _ _ _ H1 Hr Hl) as (Ho & _ & F & _). assert (V := reachable_tolerance srt pw c H1 Hr).
    destruct (plain_removeKey (env_of srt c) kt vt V N b k d f Ho F Hk Hd) as (d' & E & Hd').
    destruct (step_variable srt pw c s line n _ _ _ c' s' ans H1 Hr Hs Hl R) as (L & _ & _ & Tt). exists d'.
    split; [rewrite L; exact (f_equal (fun p => Some (IDict kt vt (fst p))) E)|now rewrite Tt].
  - destruct IH as (Hr & d & Hl & Hd). split; [eapply reach_step; eauto|].
    destruct (step_variable srt pw c s line n _ _ _ c' s' ans H1 Hr Hs Hl R) as (L & _ & _ & Tt). exists []. split; [exact L|].
    split; [constructor|]. intros x y. cbn. unfold no_association. split; [tauto|discriminate].
  - destruct IH as (Hr & d & Hl & Hd). split; [eapply reach_step; eauto|]. exists d.
    destruct (dict_stored _ _ _ _ _ _ _ H1 Hr Hl) as (Ho & Ho' & F & _). split; [|eapply lists_map_any; eauto]. rewrite <- Hl.
    destruct Q as [[K Q]|Q]; [|destruct (C27_errors_change_nothing _ _ _ _ _ _ _ _ H1 Hr R Q) as (_ & [L _] & _); apply L].
    destruct (step_cases srt pw c s line c' s' ans n H1 Hr R) as [L|[(m & args & j & Hs & Hm & Hj)|[(T & m & args & j & _ & _ & L & _)|[_ L]]]]; auto; try congruence; try contradiction.
    rewrite Hl in Hj. injection Hj as <-. destruct (step_variable srt pw c s line n _ _ _ c' s' ans H1 Hr Hs Hl R) as (L & _). rewrite Hl, L.
    cbn [receive on fst]. destruct (dict_changes (env_of srt c) kt vt m args d) as [->|[(a & b & x & k & -> & _ & _ & ->)|[(b & k & -> & _ & ->)|[-> ->]]]]; auto; exfalso; eapply Q; eauto; cbn; auto.
Qed.
Lemma dictionary_has_history srt pw c n kt vt d : sort_contract srt -> reachable srt pw c -> lookup c n = Some (IDict kt vt d) -> exists f, dictionary_history srt pw n kt vt c f.
Proof.
  intros H1 H2. revert d. induction H2 as [o p d' q|c s line c' s' ans Hr IH R]; intros d Hl; [discriminate Hl|].
  destruct (lookup c n) as [i|] eqn:E.
  - assert (X : exists d0, i = IDict kt vt d0).
    { destruct (step_cases srt pw c s line c' s' ans n H1 Hr R) as [L|[(m & args & j & Hs & Hm & Hj)|[(T & m & args & j & _ & _ & L & _)|[L _]]]]; try congruence.
      - exists d. congruence.
      - destruct (step_variable srt pw c s line n _ _ _ c' s' ans H1 Hr Hs Hj R) as (L & _). rewrite Hl in L. injection L as L. symmetry in L.
        apply dict_class in L as [d0 L]. exists d0. congruence. }
    destruct X as [d0 ->]. destruct (IH d0 eq_refl) as [f HS]. destruct (dict_stored _ _ _ _ _ _ _ H1 Hr E) as (Hk & Hv & _).
    destruct (silent_dec line n [B "associateValue:withKey:"; B "removeKey:"; B "clear"]) as [Q|(m & args & Hm & Hs)].
    + exists f. eapply dictionary_other; eauto. destruct (not_keeps srt pw c s line c' s' ans n H1 Hr R) as [K|[K|K]]; auto; [unfold live|]; congruence.
    + assert (Ub : forall u, snd (receive (env_of srt c) (IDict kt vt d0) m args) <> UB u).
      { intros u X. destruct (step_variable srt pw c s line n _ _ _ c' s' ans H1 Hr Hs E R) as (_ & _ & U & _). rewrite X in U. apply U. exact I. }
      destruct Hm as [<-|[<-|[<-|[]]]].
      * assert (L : length args = 2%nat) by (eapply args_len; eauto). apply len2 in L as (a & b & ->).
        assert (G : forall A (r : res A), (exists y, r = Ok y) \/ (exists e, r = Throw e) \/ exists u, r = UB u) by (intros A []; eauto).
        destruct (G _ (get_shared_instance vt a)) as [[x Hx]|[[e He]|[u Hu]]].
        -- destruct (G _ (get_shared_instance kt b)) as [[k Hk']|[[e He]|[u Hu]]].
           ++ eexists. eapply dictionary_associated; eauto using get_literal.
           ++ exists f. eapply dictionary_other; eauto. right. eapply (step_error _ _ _ _ _ _ _ _ _ _ _ _ e H1 Hr Hs E R). cbn [receive on snd].
              change (snd (dict_associateValue_withKey (env_of srt c) kt vt [a; b] d0) = Throw e). unfold dict_associateValue_withKey. mon. now rewrite Hx, He.
           ++ exfalso. apply (Ub u). cbn [receive on snd]. change (snd (dict_associateValue_withKey (env_of srt c) kt vt [a; b] d0) = UB u).
              unfold dict_associateValue_withKey. mon. now rewrite Hx, Hu.
        -- exists f. eapply dictionary_other; eauto. right. eapply (step_error _ _ _ _ _ _ _ _ _ _ _ _ e H1 Hr Hs E R). cbn [receive on snd].
           change (snd (dict_associateValue_withKey (env_of srt c) kt vt [a; b] d0) = Throw e). unfold dict_associateValue_withKey. mon. now rewrite He.
        -- exfalso. apply (Ub u). cbn [receive on snd]. change (snd (dict_associateValue_withKey (env_of srt c) kt vt [a; b] d0) = UB u).
           unfold dict_associateValue_withKey. mon. now rewrite Hu.
      * assert (L : length args = 1%nat) by (eapply args_len; eauto). apply len1 in L as [b ->].
        destruct (reads_or_error kt b Hk) as [[k Hk']|[[e He]|[u Hu]]].
        -- eexists. eapply dictionary_removed; eauto.
        -- exists f. eapply dictionary_other; eauto. right. eapply (step_error _ _ _ _ _ _ _ _ _ _ _ _ e H1 Hr Hs E R). cbn [receive on snd].
           change (snd (dict_removeKey (env_of srt c) kt [b] d0) = Throw e). unfold dict_removeKey. mon. now rewrite He.
        -- exfalso. apply (Ub u). cbn [receive on snd]. change (snd (dict_removeKey (env_of srt c) kt [b] d0) = UB u). unfold dict_removeKey. mon. now rewrite Hu.
      * assert (L : length args = 0%nat) by (eapply args_len; eauto). apply len0 in L as ->. eexists. eapply dictionary_cleared; eauto.
  - destruct (step_cases srt pw c s line c' s' ans n H1 Hr R) as [L|[(m & args & j & Hs & Hm & Hj)|[(T & m & args & j & Hs & Hc & _ & L)|[L _]]]]; try congruence.
    rewrite Hl in L. injection L as <-. exists no_association. assert (d = [] /\ dictionary_type T kt vt) as [-> HT] by (inversion Hc; subst; auto).
    eapply dictionary_created; eauto.
Qed.
