(** Properties C21-C23: sets and dictionaries.  Specification: [Spec_Set]. *)
From Coq Require Import ZArith Reals Psatz Sorting.Sorted Sorting.Permutation.
From Verif Require Import Bytes StrUtils Grammar Outcome Parser Num Containers Instance Context Platform.
From Verif Require Import Lemmas StringLit Proof_Grammar Proof_Parser Proof_Exec WP Proof_Inv Proof_Literal Proof_Receive Proof_Context Proof_Names Api Proof_Text.
From Verif Require Import Proof_Number Proof_Float Proof_Arith Proof_Order Props_Text Props_State Props_Number Props_Float Props_Order Proof_Vector.
From Verif Require Import Props_Vector Proof_Set Proof_Exact.
From Verif Require Import Spec_Grammar Spec_State Spec_Names Spec_Text Spec_Number Spec_Float Spec_Order Spec_Vector Spec_String Spec_Set.
Open Scope Z_scope.
Open Scope list_scope.

Lemma set_message E t v m args : receive E (ISet t v) m args = on (ISet t) (set_receive E t m args v).
Proof. reflexivity. Qed.
Lemma dict_message E kt vt d m args : receive E (IDict kt vt d) m args = on (IDict kt vt) (dict_receive E kt vt m args d).
Proof. reflexivity. Qed.
Lemma truth_btext b : truth b = btext b. Proof. reflexivity. Qed.
Lemma shows_set_iff E v ans : shows_set (e_precision E) v ans <-> ans = set_representation E v.
Proof.
  unfold shows_set, set_representation, braces. split.
  - intros (ts & H & ->). replace (map (obj_repr E) v) with ts; [now rewrite joined_comma_sep|].
    clear -H. induction H as [|x t v ts Hx H IH]; [reflexivity|]. cbn. rewrite IH. f_equal. now apply shows_iff.
  - intros ->. exists (map (obj_repr E) v). rewrite joined_comma_sep. split; [|reflexivity].
    induction v as [|x v IH]; constructor; auto. now apply shows_iff.
Qed.
Lemma shows_dictionary_iff E d ans : shows_dictionary (e_precision E) d ans <-> ans = dict_representation E d.
Proof.
  unfold shows_dictionary, dict_representation. split.
  - intros (ts & H & ->). rewrite joined_comma_sep. f_equal. f_equal. f_equal.
    induction H as [|[k x] [a b] d ts [Ha Hb] H IH]; [reflexivity|]. cbn [map]. rewrite IH. f_equal.
    cbn [fst snd] in *. apply shows_iff in Ha, Hb. subst. reflexivity.
  - intros ->. exists (map (fun p => (obj_repr E (fst p), obj_repr E (snd p))) d). split.
    + induction d as [|[k x] d IH]; constructor; auto. cbn [fst snd]. split; now apply shows_iff.
    + rewrite joined_comma_sep, map_map. reflexivity.
Qed.

(** ** C21 *)
Theorem C21_contains : forall srt pw n t c S s line a x, sort_contract srt -> t <> B "Float" -> set_history srt pw n t c S ->
  statement line n (B "contains?") [a] -> literal_of t a x ->
  exists b, only_answers srt pw c s line (truth b) /\ (b = true <-> S x).
Proof.
  intros srt pw n t c S s line a x H1 N H Hs Hx. destruct (set_history_inv _ _ _ _ _ _ H1 N H) as (H2 & v & Hl & Hv).
  destruct (set_stored _ _ _ _ _ _ H1 H2 Hl) as [Ho F]. assert (V := reachable_tolerance srt pw c H1 H2).
  destruct (plain_contains (env_of srt c) t V N a x v S Ho F Hx Hv) as (b & E & Hb). exists b. split; auto.
  apply (var_answers srt pw c s line n _ _ _ H1 H2 Hs Hl (Ok (truth b))); [|exact (fun x => x)]. exact (f_equal (on (ISet t)) E).
Qed.
Theorem C21_get : forall srt pw n t c S s line, sort_contract srt -> t <> B "Float" -> set_history srt pw n t c S ->
  statement line n (B "get") [] ->
  exists l ans, lists (tolerance c) S l /\ shows_set (float_precision c) l ans /\ only_answers srt pw c s line ans.
Proof.
  intros srt pw n t c S s line H1 N H Hs. destruct (set_history_inv _ _ _ _ _ _ H1 N H) as (H2 & v & Hl & Hv).
  exists v, (set_representation (env_of srt c) v). split; auto. split; [now apply (shows_set_iff (env_of srt c))|].
  apply (var_answers srt pw c s line n _ _ _ H1 H2 Hs Hl (Ok _)); [|exact (fun x => x)]. reflexivity.
Qed.
Theorem C21_size : forall srt pw n t c S s line, sort_contract srt -> t <> B "Float" -> set_history srt pw n t c S ->
  statement line n (B "size") [] ->
  exists l ans, lists (tolerance c) S l /\ prints_int (size l) ans /\ only_answers srt pw c s line ans.
Proof.
  intros srt pw n t c S s line H1 N H Hs. destruct (set_history_inv _ _ _ _ _ _ H1 N H) as (H2 & v & Hl & Hv).
  exists v, (to_string (zlen v)). split; auto. split; [now apply prints_int_iff|].
  apply (var_answers srt pw c s line n _ _ _ H1 H2 Hs Hl (Ok _)); [|exact (fun x => x)]. reflexivity.
Qed.
Theorem C21_isEmpty : forall srt pw n t c S s line, sort_contract srt -> t <> B "Float" -> set_history srt pw n t c S ->
  statement line n (B "isEmpty?") [] ->
  exists b, only_answers srt pw c s line (truth b) /\ (b = true <-> forall x, ~ S x).
Proof.
  intros srt pw n t c S s line H1 N H Hs. destruct (set_history_inv _ _ _ _ _ _ H1 N H) as (H2 & v & Hl & Hv).
  exists (match v with [] => true | _ => false end). split.
  - apply (var_answers srt pw c s line n _ _ _ H1 H2 Hs Hl (Ok _)); [|exact (fun x => x)]. reflexivity.
  - destruct Hv as [_ Hv]. destruct v as [|y v]; split; auto; [intros _ x X; apply Hv in X; exact X|discriminate|].
    intros X. exfalso. apply (X y), Hv. now left.
Qed.
(** The listing is determined by the set. *)
Theorem C21_listing_unique : forall t tol S l l', t <> B "Float" -> Forall (has_type t) l ->
  lists tol S l -> lists tol S l' -> l = l'.
Proof.
  intros t tol S l l' N F [A B] [A' B']. assert (I : forall x, In x l <-> In x l') by (intros; now rewrite B, B'). clear B B'.
  revert l' A' I. induction A as [|a l A IH Ha]; intros [|b l'] A' I; auto.
  - exfalso. apply (I b). now left.
  - exfalso. apply (I a). now left.
  - inversion A' as [|? ? A1 Hb]; subst. inversion F as [|? ? Fa Fl]; subst.
    assert (Irr : forall x, has_type t x -> ~ before tol x x) by (intros x Hx; destruct (C14_strict_total_order tol t N) as (R & _); now apply R).
    assert (As : forall x y, has_type t x -> has_type t y -> before tol x y -> ~ before tol y x).
    { intros x y Hx Hy X Y. destruct (C14_strict_total_order tol t N) as (_ & T & _). apply (Irr x); auto. eapply T; eauto. }
    rewrite Forall_forall in Ha, Hb, Fl.
    assert (a = b).
    { destruct (proj1 (I a)) as [|X]; [now left|auto|]. destruct (proj2 (I b)) as [|Y]; [now left|auto|].
      exfalso. apply (As a b); auto. }
    subst b. f_equal. apply IH; auto; [now apply Forall_forall|]. intros x. split; intros Hx.
    + destruct (proj1 (I x)) as [<-|?]; [now right| |auto]. exfalso. apply (Irr a); auto.
    + destruct (proj2 (I x)) as [<-|?]; [now right| |auto]. exfalso. apply (Irr a); auto.
Qed.
Theorem C21_add : forall srt pw n t c S s line a x, sort_contract srt -> t <> B "Float" -> set_history srt pw n t c S ->
  statement line n (B "add:") [a] -> literal_of t a x ->
  exists c', runs srt pw c s line c' s (B "null") /\ set_history srt pw n t c' (with_element S x).
Proof.
  intros srt pw n t c S s line a x H1 N H Hs Hx. destruct (set_history_inv _ _ _ _ _ _ H1 N H) as (H2 & v & Hl & Hv).
  destruct (set_stored _ _ _ _ _ _ H1 H2 Hl) as [Ho F]. assert (V := reachable_tolerance srt pw c H1 H2).
  destruct (plain_add (env_of srt c) t V N a x v S Ho F Hx Hv) as (v' & E & Hv').
  destruct (var_becomes srt pw c s line n _ _ _ H1 H2 Hs Hl (ISet t v') (Ok (B "null"))) as (c' & R & _); [exact (f_equal (on (ISet t)) E)|exact (fun x => x)|].
  exists c'. split; auto. eapply set_added; eauto.
Qed.
Theorem C21_remove : forall srt pw n t c S s line a x, sort_contract srt -> t <> B "Float" -> set_history srt pw n t c S ->
  statement line n (B "remove:") [a] -> literal_of t a x ->
  exists c', runs srt pw c s line c' s (B "null") /\ set_history srt pw n t c' (without_element S x).
Proof.
  intros srt pw n t c S s line a x H1 N H Hs Hx. destruct (set_history_inv _ _ _ _ _ _ H1 N H) as (H2 & v & Hl & Hv).
  destruct (set_stored _ _ _ _ _ _ H1 H2 Hl) as [Ho F]. assert (V := reachable_tolerance srt pw c H1 H2).
  destruct (plain_remove (env_of srt c) t V N a x v S Ho F Hx Hv) as (v' & E & Hv').
  destruct (var_becomes srt pw c s line n _ _ _ H1 H2 Hs Hl (ISet t v') (Ok (B "null"))) as (c' & R & _); [exact (f_equal (on (ISet t)) E)|exact (fun x => x)|].
  exists c'. split; auto. eapply set_removed; eauto.
Qed.
Theorem C21_clear : forall srt pw n t c S s line, sort_contract srt -> t <> B "Float" -> set_history srt pw n t c S ->
  statement line n (B "clear") [] -> exists c', runs srt pw c s line c' s (B "null") /\ set_history srt pw n t c' nothing.
Proof.
  intros srt pw n t c S s line H1 N H Hs. destruct (set_history_inv _ _ _ _ _ _ H1 N H) as (H2 & v & Hl & Hv).
  destruct (var_becomes srt pw c s line n _ _ _ H1 H2 Hs Hl (ISet t []) (Ok (B "null"))) as (c' & R & _); [reflexivity|exact (fun x => x)|].
  exists c'. split; auto. eapply set_cleared; eauto.
Qed.
(** Every set, of whatever type, has such a history, and its contents are determined by the history. *)
Theorem C21_every_set_has_a_history : forall srt pw c n t v, sort_contract srt -> reachable srt pw c ->
  lookup c n = Some (ISet t v) -> exists S, set_history srt pw n t c S.
Proof. apply set_has_history. Qed.
Theorem C21_history_determines_the_set : forall srt pw n t c S S', sort_contract srt -> t <> B "Float" ->
  set_history srt pw n t c S -> set_history srt pw n t c S' -> forall x, S x <-> S' x.
Proof.
  intros srt pw n t c S S' H1 N H H' x. destruct (set_history_inv _ _ _ _ _ _ H1 N H) as (_ & v & Hl & _ & Hv).
  destruct (set_history_inv _ _ _ _ _ _ H1 N H') as (_ & v' & Hl' & _ & Hv'). rewrite Hl in Hl'. injection Hl' as <-. now rewrite <- Hv, <- Hv'.
Qed.
Theorem C21_otherwise_refused : forall srt pw c s line n m k args t v, sort_contract srt -> reachable srt pw c ->
  statement line n m args -> lookup c n = Some (ISet t v) -> In (m, k) set_messages -> in_range t [] args ->
  length args <> k \/ (exists a, args = [a] /\ forall x, ~ literal_of t a x) -> only_answers srt pw c s line (refusal k args).
Proof.
  intros srt pw c s line n m k args t v H1 H2 Hs Hl Hm Hr Hb. destruct (set_stored _ _ _ _ _ _ H1 H2 Hl) as [Ho F].
  rewrite <- refusal_text. apply (var_answers srt pw c s line n _ _ _ H1 H2 Hs Hl); [|destruct (Nat.eqb _ _); exact (fun x => x)].
  rewrite set_message.
  assert (G : k = 1%nat -> length args = k -> exists a, args = [a] /\ get_shared_instance t a = Throw InvalidArgument).
  { intros -> L. destruct Hb as [Hb|(a & -> & Hb)]; [contradiction|]. exists a. split; auto. assert (X := shared_range t a Ho). 
    destruct (get_shared_instance t a) as [o|e|u] eqn:G; [destruct (Hb o (get_literal _ _ _ Ho G))|now subst|]. exfalso. destruct X as [X1 X2]. apply (Hr 0%nat a eq_refl); auto. }
  assert (G0 : k = 0%nat -> length args <> 0%nat) by (intros ->; destruct Hb as [Hb|(a & -> & _)]; auto; discriminate).
  cbn [set_messages In] in Hm. repeat (destruct Hm as [Hm|Hm]; [injection Hm as <- <-|]); [..|contradiction].
  1: match goal with |- on _ ?x = _ => change x with (set_get (env_of srt c) args v) end.
  2: match goal with |- on _ ?x = _ => change x with (set_isEmpty args v) end.
  3: match goal with |- on _ ?x = _ => change x with (set_contains (env_of srt c) t args v) end.
  4: match goal with |- on _ ?x = _ => change x with (set_size args v) end.
  5: match goal with |- on _ ?x = _ => change x with (set_add (env_of srt c) t args v) end.
  6: match goal with |- on _ ?x = _ => change x with (set_remove (env_of srt c) t args v) end.
  7: match goal with |- on _ ?x = _ => change x with (set_clear args v) end.
  all: unfold set_get, set_isEmpty, set_contains, set_size, set_add, set_remove, set_clear; mon.
  all: first [ solve [specialize (G0 eq_refl); destruct args as [|a args]; [now elim G0|reflexivity]]
             | destruct args as [|a [|b args]]; try reflexivity; destruct (G eq_refl eq_refl) as (a' & Ea & G'); injection Ea as <-; cbn; rewrite G'; reflexivity ].
Qed.
Theorem C21_other_messages_are_refused : forall srt pw c s line n m args t v, sort_contract srt -> reachable srt pw c ->
  statement line n m args -> lookup c n = Some (ISet t v) -> (forall k, ~ In (m, k) set_messages) -> only_answers srt pw c s line ERR_MESSAGE.
Proof.
  intros srt pw c s line n m args t v H1 H2 Hs Hl N2.
  apply (var_answers srt pw c s line n _ _ _ H1 H2 Hs Hl (Throw InvalidMessage)); [|exact (fun x => x)].
  rewrite set_message. unfold set_receive.
  assert (A : forall x k, In (x, k) set_messages -> seq_eqb m x = false).
  { intros x k Hx. apply not_true_is_false. intros Ex. apply seq_eqb_eq in Ex. subst x. eapply N2; eauto. }
  unfold dispatch.
  repeat match goal with |- context [seq_eqb m ?x] =>
    let H := fresh in assert (H : seq_eqb m x = false);
      [ solve [eapply A; cbn [set_messages In]; repeat (first [left; reflexivity | right])] | rewrite H; clear H ] end.
  reflexivity.
Qed.
(** Integers beyond 32 bits: the server's conversion is undefined. *)
Theorem C21_element_beyond_32_bits : forall srt pw c s line n m a v, sort_contract srt -> reachable srt pw c ->
  statement line n m [a] -> lookup c n = Some (ISet (B "Integer") v) -> In (m, 1%nat) set_messages -> out_of_range a ->
  exists u, undefined_behaviour srt pw c s line u.
Proof.
  intros srt pw c s line n m a v H1 H2 Hs Hl Hm Ha. destruct (out_of_range_ub a Ha) as [u U].
  exists u. apply (var_undefined srt pw c s line n _ _ _ H1 H2 Hs Hl (ISet (B "Integer") v)). rewrite set_message.
  assert (G : get_shared_instance (B "Integer") a = UB u) by (change (get_shared_instance (B "Integer") a) with (let! z := integer_of a in Ok (OInt z)); now rewrite U).
  cbn [set_messages In] in Hm. repeat (destruct Hm as [Hm|Hm]; [try discriminate Hm; injection Hm as <-|]); [..|contradiction].
  1: match goal with |- on _ ?x = _ => change x with (set_contains (env_of srt c) (B "Integer") [a] v) end.
  2: match goal with |- on _ ?x = _ => change x with (set_add (env_of srt c) (B "Integer") [a] v) end.
  3: match goal with |- on _ ?x = _ => change x with (set_remove (env_of srt c) (B "Integer") [a] v) end.
  all: unfold set_contains, set_add, set_remove; mon; rewrite G; reflexivity.
Qed.

(** ** C22 *)
Theorem C22_getValueForKey : forall srt pw n kt vt c f s line b k, sort_contract srt -> kt <> B "Float" -> dictionary_history srt pw n kt vt c f ->
  statement line n (B "getValueForKey:") [b] -> literal_of kt b k ->
  exists ans, only_answers srt pw c s line ans /\ match f k with Some v => shows (float_precision c) v ans | None => ans = B "null" end.
Proof.
  intros srt pw n kt vt c f s line b k H1 N H Hs Hk. destruct (dictionary_history_inv _ _ _ _ _ _ _ H1 N H) as (H2 & d & Hl & Hd).
  destruct (dict_stored _ _ _ _ _ _ _ H1 H2 Hl) as (Ho & _ & F & _). assert (V := reachable_tolerance srt pw c H1 H2).
  destruct (plain_find (env_of srt c) kt V N b k d f Ho F Hk Hd) as [T Q]. assert (E := dict_getValue_eq (env_of srt c) kt vt b k d Hk). rewrite T in E.
  match type of E with _ = (_, Ok (truth ?r)) => exists r | _ = (_, Ok ?r) => exists r end. split.
  - apply (var_answers srt pw c s line n _ _ _ H1 H2 Hs Hl (Ok _)); [|exact (fun x => x)]. exact (f_equal (on (IDict kt vt)) E).
  - destruct (find _ d) as [p|]; rewrite Q; auto. apply (obj_repr_shows (env_of srt c)).
Qed.
Theorem C22_containsKey : forall srt pw n kt vt c f s line b k, sort_contract srt -> kt <> B "Float" -> dictionary_history srt pw n kt vt c f ->
  statement line n (B "containsKey?") [b] -> literal_of kt b k ->
  exists r, only_answers srt pw c s line (truth r) /\ (r = true <-> f k <> None).
Proof.
  intros srt pw n kt vt c f s line b k H1 N H Hs Hk. destruct (dictionary_history_inv _ _ _ _ _ _ _ H1 N H) as (H2 & d & Hl & Hd).
  destruct (dict_stored _ _ _ _ _ _ _ H1 H2 Hl) as (Ho & _ & F & _). assert (V := reachable_tolerance srt pw c H1 H2).
  destruct (plain_find (env_of srt c) kt V N b k d f Ho F Hk Hd) as [T Q]. assert (E := dict_containsKey_eq (env_of srt c) kt vt b k d Hk). rewrite T in E.
  match type of E with _ = (_, Ok (truth ?r)) => exists r | _ = (_, Ok ?r) => exists r end. split.
  - apply (var_answers srt pw c s line n _ _ _ H1 H2 Hs Hl (Ok _)); [|exact (fun x => x)]. exact (f_equal (on (IDict kt vt)) E).
  - destruct (find _ d) as [p|]; rewrite Q; split; auto; try discriminate.
Qed.
Theorem C22_get : forall srt pw n kt vt c f s line, sort_contract srt -> kt <> B "Float" -> dictionary_history srt pw n kt vt c f ->
  statement line n (B "get") [] ->
  exists d ans, lists_map (tolerance c) f d /\ shows_dictionary (float_precision c) d ans /\ only_answers srt pw c s line ans.
Proof.
  intros srt pw n kt vt c f s line H1 N H Hs. destruct (dictionary_history_inv _ _ _ _ _ _ _ H1 N H) as (H2 & d & Hl & Hd).
  exists d, (dict_representation (env_of srt c) d). split; auto. split; [now apply (shows_dictionary_iff (env_of srt c))|].
  apply (var_answers srt pw c s line n _ _ _ H1 H2 Hs Hl (Ok _)); [|exact (fun x => x)]. reflexivity.
Qed.
Theorem C22_keys : forall srt pw n kt vt c f s line, sort_contract srt -> kt <> B "Float" -> dictionary_history srt pw n kt vt c f ->
  statement line n (B "keys") [] ->
  exists d ans, lists_map (tolerance c) f d /\ shows_list (float_precision c) (map fst d) ans /\ only_answers srt pw c s line ans.
Proof.
  intros srt pw n kt vt c f s line H1 N H Hs. destruct (dictionary_history_inv _ _ _ _ _ _ _ H1 N H) as (H2 & d & Hl & Hd).
  exists d, (vector_representation (env_of srt c) (map fst d)). split; auto. split; [now apply (shows_list_iff (env_of srt c))|].
  apply (var_answers srt pw c s line n _ _ _ H1 H2 Hs Hl (Ok _)); [|exact (fun x => x)]. reflexivity.
Qed.
(** The values, in the order of their keys. *)
Theorem C22_values : forall srt pw n kt vt c f s line, sort_contract srt -> kt <> B "Float" -> dictionary_history srt pw n kt vt c f ->
  statement line n (B "values") [] ->
  exists d ans, lists_map (tolerance c) f d /\ shows_list (float_precision c) (map snd d) ans /\ only_answers srt pw c s line ans.
Proof.
  intros srt pw n kt vt c f s line H1 N H Hs. destruct (dictionary_history_inv _ _ _ _ _ _ _ H1 N H) as (H2 & d & Hl & Hd).
  exists d, (vector_representation (env_of srt c) (map snd d)). split; auto. split; [now apply (shows_list_iff (env_of srt c))|].
  apply (var_answers srt pw c s line n _ _ _ H1 H2 Hs Hl (Ok _)); [|exact (fun x => x)]. reflexivity.
Qed.
Theorem C22_size : forall srt pw n kt vt c f s line, sort_contract srt -> kt <> B "Float" -> dictionary_history srt pw n kt vt c f ->
  statement line n (B "size") [] ->
  exists d ans, lists_map (tolerance c) f d /\ prints_int (size d) ans /\ only_answers srt pw c s line ans.
Proof.
  intros srt pw n kt vt c f s line H1 N H Hs. destruct (dictionary_history_inv _ _ _ _ _ _ _ H1 N H) as (H2 & d & Hl & Hd).
  exists d, (to_string (zlen d)). split; auto. split; [now apply prints_int_iff|].
  apply (var_answers srt pw c s line n _ _ _ H1 H2 Hs Hl (Ok _)); [|exact (fun x => x)]. reflexivity.
Qed.
Theorem C22_isEmpty : forall srt pw n kt vt c f s line, sort_contract srt -> kt <> B "Float" -> dictionary_history srt pw n kt vt c f ->
  statement line n (B "isEmpty?") [] ->
  exists b, only_answers srt pw c s line (truth b) /\ (b = true <-> forall k, f k = None).
Proof.
  intros srt pw n kt vt c f s line H1 N H Hs. destruct (dictionary_history_inv _ _ _ _ _ _ _ H1 N H) as (H2 & d & Hl & Hd).
  exists (match d with [] => true | _ => false end). split.
  - apply (var_answers srt pw c s line n _ _ _ H1 H2 Hs Hl (Ok _)); [|exact (fun x => x)]. reflexivity.
  - destruct Hd as [_ Hd]. destruct d as [|[k v] d]; split; auto; [|discriminate|].
    + intros _ k. destruct (f k) eqn:E; auto. apply Hd in E. destruct E.
    + intros X. assert (Y : f k = Some v) by (apply Hd; now left). now rewrite X in Y.
Qed.
Theorem C22_associate : forall srt pw n kt vt c f s line a b v k, sort_contract srt -> kt <> B "Float" -> dictionary_history srt pw n kt vt c f ->
  statement line n (B "associateValue:withKey:") [a; b] -> literal_of vt a v -> literal_of kt b k ->
  exists c', runs srt pw c s line c' s (B "null") /\ dictionary_history srt pw n kt vt c' (with_association f k v).
Proof.
  intros srt pw n kt vt c f s line a b v k H1 N H Hs Hv Hk. destruct (dictionary_history_inv _ _ _ _ _ _ _ H1 N H) as (H2 & d & Hl & Hd).
  destruct (dict_stored _ _ _ _ _ _ _ H1 H2 Hl) as (Ho & _ & F & _). assert (V := reachable_tolerance srt pw c H1 H2).
  destruct (plain_assoc (env_of srt c) kt vt V N a b v k d f Ho F Hv Hk Hd) as (d' & E & Hd').
  destruct (var_becomes srt pw c s line n _ _ _ H1 H2 Hs Hl (IDict kt vt d') (Ok (B "null"))) as (c' & R & _); [exact (f_equal (on (IDict kt vt)) E)|exact (fun x => x)|].
  exists c'. split; auto. eapply dictionary_associated; eauto.
Qed.
Theorem C22_removeKey : forall srt pw n kt vt c f s line b k, sort_contract srt -> kt <> B "Float" -> dictionary_history srt pw n kt vt c f ->
  statement line n (B "removeKey:") [b] -> literal_of kt b k ->
  exists c', runs srt pw c s line c' s (B "null") /\ dictionary_history srt pw n kt vt c' (without_key f k).
Proof.
  intros srt pw n kt vt c f s line b k H1 N H Hs Hk. destruct (dictionary_history_inv _ _ _ _ _ _ _ H1 N H) as (H2 & d & Hl & Hd).
  destruct (dict_stored _ _ _ _ _ _ _ H1 H2 Hl) as (Ho & _ & F & _). assert (V := reachable_tolerance srt pw c H1 H2).
  destruct (plain_removeKey (env_of srt c) kt vt V N b k d f Ho F Hk Hd) as (d' & E & Hd').
  destruct (var_becomes srt pw c s line n _ _ _ H1 H2 Hs Hl (IDict kt vt d') (Ok (B "null"))) as (c' & R & _); [exact (f_equal (on (IDict kt vt)) E)|exact (fun x => x)|].
  exists c'. split; auto. eapply dictionary_removed; eauto.
Qed.
Theorem C22_clear : forall srt pw n kt vt c f s line, sort_contract srt -> kt <> B "Float" -> dictionary_history srt pw n kt vt c f ->
  statement line n (B "clear") [] -> exists c', runs srt pw c s line c' s (B "null") /\ dictionary_history srt pw n kt vt c' no_association.
Proof.
  intros srt pw n kt vt c f s line H1 N H Hs. destruct (dictionary_history_inv _ _ _ _ _ _ _ H1 N H) as (H2 & d & Hl & Hd).
  destruct (var_becomes srt pw c s line n _ _ _ H1 H2 Hs Hl (IDict kt vt []) (Ok (B "null"))) as (c' & R & _); [reflexivity|exact (fun x => x)|].
  exists c'. split; auto. eapply dictionary_cleared; eauto.
Qed.
Theorem C22_every_dictionary_has_a_history : forall srt pw c n kt vt d, sort_contract srt -> reachable srt pw c ->
  lookup c n = Some (IDict kt vt d) -> exists f, dictionary_history srt pw n kt vt c f.
Proof. apply dictionary_has_history. Qed.
Theorem C22_history_determines_the_map : forall srt pw n kt vt c f f', sort_contract srt -> kt <> B "Float" ->
  dictionary_history srt pw n kt vt c f -> dictionary_history srt pw n kt vt c f' -> forall k, f k = f' k.
Proof.
  intros srt pw n kt vt c f f' H1 N H H' k. destruct (dictionary_history_inv _ _ _ _ _ _ _ H1 N H) as (_ & d & Hl & _ & Hd).
  destruct (dictionary_history_inv _ _ _ _ _ _ _ H1 N H') as (_ & d' & Hl' & _ & Hd'). rewrite Hl in Hl'. injection Hl' as <-.
  assert (X : forall v, f k = Some v <-> f' k = Some v) by (intros v; now rewrite <- Hd, <- Hd').
  destruct (f k) as [v|]; [symmetry; now apply X|]. destruct (f' k) as [v|]; auto. now apply X.
Qed.
(** Refusals. *)
Lemma bad_read t a : object_type t -> (forall x, ~ literal_of t a x) -> (t = B "Integer" -> ~ out_of_range a) -> get_shared_instance t a = Throw InvalidArgument.
Proof.
  intros Ho Hb Hr. assert (X := shared_range t a Ho). 
  destruct (get_shared_instance t a) as [o|e|u] eqn:G; [destruct (Hb o (get_literal _ _ _ Ho G))|now subst|]. exfalso. destruct X as [X1 X2]. now apply Hr.
Qed.
Theorem C22_wrong_number_of_arguments : forall srt pw c s line n m k args kt vt d, sort_contract srt -> reachable srt pw c ->
  statement line n m args -> lookup c n = Some (IDict kt vt d) -> In (m, k) dictionary_messages -> length args <> k ->
  only_answers srt pw c s line ERR_NARGS.
Proof.
  intros srt pw c s line n m k args kt vt d H1 H2 Hs Hl Hm Hb.
  apply (var_answers srt pw c s line n _ _ _ H1 H2 Hs Hl (Throw WrongNumberOfArguments)); [|exact (fun x => x)].
  apply Nat.eqb_neq in Hb.
  rewrite dict_message. cbn [dictionary_messages In] in Hm. repeat (destruct Hm as [Hm|Hm]; [injection Hm as <- <-|]); [..|contradiction].
  1: match goal with |- on _ ?x = _ => change x with (dict_get (env_of srt c) args d) end.
  2: match goal with |- on _ ?x = _ => change x with (dict_isEmpty args d) end.
  3: match goal with |- on _ ?x = _ => change x with (dict_containsKey (env_of srt c) kt args d) end.
  4: match goal with |- on _ ?x = _ => change x with (dict_size args d) end.
  5: match goal with |- on _ ?x = _ => change x with (dict_keys (env_of srt c) args d) end.
  6: match goal with |- on _ ?x = _ => change x with (dict_values (env_of srt c) args d) end.
  7: match goal with |- on _ ?x = _ => change x with (dict_getValueForKey (env_of srt c) kt args d) end.
  8: match goal with |- on _ ?x = _ => change x with (dict_associateValue_withKey (env_of srt c) kt vt args d) end.
  9: match goal with |- on _ ?x = _ => change x with (dict_removeKey (env_of srt c) kt args d) end.
  10: match goal with |- on _ ?x = _ => change x with (dict_clear args d) end.
  all: unfold dict_get, dict_isEmpty, dict_containsKey, dict_size, dict_keys, dict_values, dict_getValueForKey, dict_associateValue_withKey, dict_removeKey, dict_clear; mon; destruct args as [|x1 [|x2 [|x3 args]]]; first [discriminate Hb|reflexivity].
Qed.
Theorem C22_bad_key : forall srt pw c s line n m b kt vt d, sort_contract srt -> reachable srt pw c ->
  statement line n m [b] -> lookup c n = Some (IDict kt vt d) -> In (m, 1%nat) dictionary_messages ->
  (forall k, ~ literal_of kt b k) -> (kt = B "Integer" -> ~ out_of_range b) -> only_answers srt pw c s line ERR_ARGUMENT.
Proof.
  intros srt pw c s line n m b kt vt d H1 H2 Hs Hl Hm Hb Hr. destruct (dict_stored _ _ _ _ _ _ _ H1 H2 Hl) as (Ho & _).
  assert (G := bad_read kt b Ho Hb Hr).
  apply (var_answers srt pw c s line n _ _ _ H1 H2 Hs Hl (Throw InvalidArgument)); [|exact (fun x => x)].
  rewrite dict_message. cbn [dictionary_messages In] in Hm. repeat (destruct Hm as [Hm|Hm]; [try discriminate Hm; injection Hm as <-|]); [..|contradiction].
  1: match goal with |- on _ ?x = _ => change x with (dict_containsKey (env_of srt c) kt [b] d) end.
  2: match goal with |- on _ ?x = _ => change x with (dict_getValueForKey (env_of srt c) kt [b] d) end.
  3: match goal with |- on _ ?x = _ => change x with (dict_removeKey (env_of srt c) kt [b] d) end.
  all: unfold dict_containsKey, dict_getValueForKey, dict_removeKey; mon; rewrite G; reflexivity.
Qed.
Theorem C22_bad_association : forall srt pw c s line n a b kt vt d, sort_contract srt -> reachable srt pw c ->
  statement line n (B "associateValue:withKey:") [a; b] -> lookup c n = Some (IDict kt vt d) ->
  (forall v, ~ literal_of vt a v) \/ (forall k, ~ literal_of kt b k) ->
  (vt = B "Integer" -> ~ out_of_range a) -> (kt = B "Integer" -> ~ out_of_range b) -> only_answers srt pw c s line ERR_ARGUMENT.
Proof.
  intros srt pw c s line n a b kt vt d H1 H2 Hs Hl Hb Ra Rb. destruct (dict_stored _ _ _ _ _ _ _ H1 H2 Hl) as (Ho & Ho' & _).
  apply (var_answers srt pw c s line n _ _ _ H1 H2 Hs Hl (Throw InvalidArgument)); [|exact (fun x => x)].
  rewrite dict_message. match goal with |- on _ ?x = _ => change x with (dict_associateValue_withKey (env_of srt c) kt vt [a; b] d) end.
  unfold dict_associateValue_withKey. mon. assert (X := shared_range vt a Ho'). destruct (get_shared_instance vt a) as [x|e|u] eqn:G.
  - destruct Hb as [Hb|Hb]; [destruct (Hb x (get_literal _ _ _ Ho' G))|]. rewrite (bad_read kt b Ho Hb Rb). reflexivity.
  - subst e. reflexivity.
  - exfalso. destruct X. now apply Ra.
Qed.
Theorem C22_other_messages_are_refused : forall srt pw c s line n m args kt vt d, sort_contract srt -> reachable srt pw c ->
  statement line n m args -> lookup c n = Some (IDict kt vt d) -> (forall k, ~ In (m, k) dictionary_messages) -> only_answers srt pw c s line ERR_MESSAGE.
Proof.
  intros srt pw c s line n m args kt vt d H1 H2 Hs Hl N2.
  apply (var_answers srt pw c s line n _ _ _ H1 H2 Hs Hl (Throw InvalidMessage)); [|exact (fun x => x)].
  rewrite dict_message. unfold dict_receive.
  assert (A : forall x k, In (x, k) dictionary_messages -> seq_eqb m x = false).
  { intros x k Hx. apply not_true_is_false. intros Ex. apply seq_eqb_eq in Ex. subst x. eapply N2; eauto. }
  unfold dispatch.
  repeat match goal with |- context [seq_eqb m ?x] =>
    let H := fresh in assert (H : seq_eqb m x = false);
      [ solve [eapply A; cbn [dictionary_messages In]; repeat (first [left; reflexivity | right])] | rewrite H; clear H ] end.
  reflexivity.
Qed.

(** ** C23 *)
Section C23.
Context (srt : sorter) (pw : bytes) (c : context) (n : bytes) (H1 : sort_contract srt) (H2 : reachable srt pw c).
Notation tol := (tolerance c).
Lemma tol_valid : V32 tol. Proof using H1 H2. now apply (reachable_tolerance srt pw). Qed.
Lemma set_tree t v x a : lookup c n = Some (ISet t v) -> literal_of t a x ->
  Forall (fine t) (x :: v) /\ (tree_ok (less_opt (e_tolerance (env_of srt c))) x v = true <-> usable tol x v).
Proof using H1 H2.
  intros Hl Hx. destruct (set_stored _ _ _ _ _ _ H1 H2 Hl) as [Ho F]. assert (Fx := reads_fine _ _ _ Ho Hx).
  assert (F' : Forall (fine t) (x :: v)) by now constructor. split; auto. exact (tree_iff tol t tol_valid x v F').
Qed.
Lemma dict_tree kt vt d k b : lookup c n = Some (IDict kt vt d) -> literal_of kt b k ->
  Forall (fine kt) (k :: map fst d) /\ (tree_ok (less_opt (e_tolerance (env_of srt c))) k (map fst d) = true <-> usable tol k (map fst d)).
Proof using H1 H2.
  intros Hl Hx. destruct (dict_stored _ _ _ _ _ _ _ H1 H2 Hl) as (Ho & _ & F & _). assert (Fx := reads_fine _ _ _ Ho Hx).
  assert (F' : Forall (fine kt) (k :: map fst d)) by now constructor. split; auto. exact (tree_iff tol kt tol_valid k (map fst d) F').
Qed.
End C23.
(** Exactly when a message to a set is undefined. *)
Theorem C23_set_undefined_iff : forall srt pw c s line n m a x t v, sort_contract srt -> reachable srt pw c ->
  In m set_lookups -> statement line n m [a] -> lookup c n = Some (ISet t v) -> literal_of t a x ->
  ((exists u, undefined_behaviour srt pw c s line u) <-> ~ usable (tolerance c) x v).
Proof.
  intros srt pw c s line n m a x t v H1 H2 Hm Hs Hl Hx. destruct (set_tree srt pw c n H1 H2 t v x a Hl Hx) as [F T].
  assert (K : exists v' ans, set_receive (env_of srt c) t m [a] v = if tree_ok (less_opt (e_tolerance (env_of srt c))) x v then (v', Ok ans) else (v, UB BadOrder)).
  { destruct Hm as [<-|[<-|[<-|[]]]]; eexists _, _; [exact (set_contains_eq _ _ a x v Hx)|exact (set_add_eq _ _ a x v Hx)|exact (set_remove_eq _ _ a x v Hx)]. }
  destruct K as (v' & ans & K). rewrite <- T. destruct (tree_ok _ x v).
  - split; [|now intros []]. intros [u U]. exfalso.
    destruct (var_becomes srt pw c s line n _ _ _ H1 H2 Hs Hl (ISet t v') (Ok ans)) as (c' & R & _); [exact (f_equal (on (ISet t)) K)|exact (fun x => x)|].
    eapply runs_ub; eauto.
  - split; [intros _; discriminate|]. intros _. exists BadOrder. apply (var_undefined srt pw c s line n _ _ _ H1 H2 Hs Hl (ISet t v)). exact (f_equal (on (ISet t)) K).
Qed.
Theorem C23_contains : forall srt pw c s line n a x t v, sort_contract srt -> reachable srt pw c ->
  statement line n (B "contains?") [a] -> lookup c n = Some (ISet t v) -> literal_of t a x ->
  usable (tolerance c) x v ->
  exists b, only_answers srt pw c s line (truth b) /\ (b = true <-> Exists (fun y => equals (tolerance c) y x) v).
Proof.
  intros srt pw c s line n a x t v H1 H2 Hs Hl Hx U. destruct (set_tree srt pw c n H1 H2 t v x a Hl Hx) as [F T].
  assert (E := set_contains_eq (env_of srt c) t a x v Hx). rewrite (proj2 T U) in E.
  match type of E with _ = (_, Ok (truth ?r)) => exists r end. split.
  - apply (var_answers srt pw c s line n _ _ _ H1 H2 Hs Hl (Ok _)); [|exact (fun x => x)]. exact (f_equal (on (ISet t)) E).
  - assert (Q := find_spec (tolerance c) t (tol_valid srt pw c H1 H2) x v F). rewrite Exists_exists. cbn [e_tolerance env_of].
    destruct (find _ v) as [y|]; split; auto; try discriminate.
    + intros _. exists y. exact Q.
    + intros (y & Hy & Qy). exfalso. exact (Q y Hy Qy).
Qed.
Theorem C23_add : forall srt pw c s line n a x t v, sort_contract srt -> reachable srt pw c ->
  statement line n (B "add:") [a] -> lookup c n = Some (ISet t v) -> literal_of t a x ->
  usable (tolerance c) x v ->
  exists v', becomes srt pw c s line n (B "null") (ISet t v') /\ added (tolerance c) x v v'.
Proof.
  intros srt pw c s line n a x t v H1 H2 Hs Hl Hx U. destruct (set_tree srt pw c n H1 H2 t v x a Hl Hx) as [F T].
  assert (E := set_add_eq (env_of srt c) t a x v Hx). rewrite (proj2 T U) in E.
  match type of E with _ = (?r, _) => exists r end. split.
  - apply (var_becomes srt pw c s line n _ _ _ H1 H2 Hs Hl _ (Ok (B "null"))); [|exact (fun x => x)]. exact (f_equal (on (ISet t)) E).
  - destruct U as [W S]. destruct (insert_spec (tolerance c) t (tol_valid srt pw c H1 H2) x v F W S) as [I1 I2]. split; auto. cbn [e_tolerance env_of].
    rewrite Exists_exists, Forall_forall. destruct I2 as [I2|[Q I2]]; [left; exact I2|right; split; auto]. intros z. rewrite I2. tauto.
Qed.
Theorem C23_remove : forall srt pw c s line n a x t v, sort_contract srt -> reachable srt pw c ->
  statement line n (B "remove:") [a] -> lookup c n = Some (ISet t v) -> literal_of t a x ->
  usable (tolerance c) x v ->
  exists v', becomes srt pw c s line n (B "null") (ISet t v') /\ removed (tolerance c) x v v'.
Proof.
  intros srt pw c s line n a x t v H1 H2 Hs Hl Hx U. destruct (set_tree srt pw c n H1 H2 t v x a Hl Hx) as [F T].
  assert (E := set_remove_eq (env_of srt c) t a x v Hx). rewrite (proj2 T U) in E.
  match type of E with _ = (?r, _) => exists r end. split.
  - apply (var_becomes srt pw c s line n _ _ _ H1 H2 Hs Hl _ (Ok (B "null"))); [|exact (fun x => x)]. exact (f_equal (on (ISet t)) E).
  - destruct U as [W S]. split; [now apply filter_sorted|]. exact (erase_spec (tolerance c) t (tol_valid srt pw c H1 H2) x v F).
Qed.
Theorem C23_dictionary_undefined_iff : forall srt pw c s line n m b k kt vt d, sort_contract srt -> reachable srt pw c ->
  In m dictionary_lookups -> statement line n m [b] -> lookup c n = Some (IDict kt vt d) -> literal_of kt b k ->
  ((exists u, undefined_behaviour srt pw c s line u) <-> ~ usable (tolerance c) k (map fst d)).
Proof.
  intros srt pw c s line n m b k kt vt d H1 H2 Hm Hs Hl Hx. destruct (dict_tree srt pw c n H1 H2 kt vt d k b Hl Hx) as [F T].
  assert (K : exists d' ans, dict_receive (env_of srt c) kt vt m [b] d = if tree_ok (less_opt (e_tolerance (env_of srt c))) k (map fst d) then (d', Ok ans) else (d, UB BadOrder)).
  { destruct Hm as [<-|[<-|[<-|[]]]]; eexists _, _; [exact (dict_containsKey_eq _ _ _ b k d Hx)|exact (dict_getValue_eq _ _ _ b k d Hx)|exact (dict_removeKey_eq _ _ _ b k d Hx)]. }
  destruct K as (d' & ans & K). rewrite <- T. destruct (tree_ok _ k (map fst d)).
  - split; [|now intros []]. intros [u U]. exfalso.
    destruct (var_becomes srt pw c s line n _ _ _ H1 H2 Hs Hl (IDict kt vt d') (Ok ans)) as (c' & R & _); [exact (f_equal (on (IDict kt vt)) K)|exact (fun x => x)|].
    eapply runs_ub; eauto.
  - split; [intros _; discriminate|]. intros _. exists BadOrder. apply (var_undefined srt pw c s line n _ _ _ H1 H2 Hs Hl (IDict kt vt d)). exact (f_equal (on (IDict kt vt)) K).
Qed.
Theorem C23_associate_undefined_iff : forall srt pw c s line n a b x k kt vt d, sort_contract srt -> reachable srt pw c ->
  statement line n (B "associateValue:withKey:") [a; b] -> lookup c n = Some (IDict kt vt d) -> literal_of vt a x -> literal_of kt b k ->
  ((exists u, undefined_behaviour srt pw c s line u) <-> ~ usable (tolerance c) k (map fst d)).
Proof.
  intros srt pw c s line n a b x k kt vt d H1 H2 Hs Hl Hx Hk. destruct (dict_tree srt pw c n H1 H2 kt vt d k b Hl Hk) as [F T].
  assert (K := dict_assoc_eq (env_of srt c) kt vt a b x k d Hx Hk). rewrite <- T. destruct (tree_ok _ k (map fst d)).
  - split; [|now intros []]. intros [u U]. exfalso.
    destruct (var_becomes srt pw c s line n _ _ _ H1 H2 Hs Hl (IDict kt vt (assign_sorted (less_opt (e_tolerance (env_of srt c))) d k x)) (Ok (B "null"))) as (c' & R & _); [exact (f_equal (on (IDict kt vt)) K)|exact (fun x => x)|].
    eapply runs_ub; eauto.
  - split; [intros _; discriminate|]. intros _. exists BadOrder. apply (var_undefined srt pw c s line n _ _ _ H1 H2 Hs Hl (IDict kt vt d)). exact (f_equal (on (IDict kt vt)) K).
Qed.
Theorem C23_getValueForKey : forall srt pw c s line n b k kt vt d, sort_contract srt -> reachable srt pw c ->
  statement line n (B "getValueForKey:") [b] -> lookup c n = Some (IDict kt vt d) -> literal_of kt b k ->
  usable (tolerance c) k (map fst d) ->
  exists ans, only_answers srt pw c s line ans /\
    ((exists k' v, In (k', v) d /\ equals (tolerance c) k' k /\ shows (float_precision c) v ans) \/
     (Forall (fun k' => ~ equals (tolerance c) k' k) (map fst d) /\ ans = B "null")).
Proof.
  intros srt pw c s line n b k kt vt d H1 H2 Hs Hl Hx U. destruct (dict_tree srt pw c n H1 H2 kt vt d k b Hl Hx) as [F T].
  assert (E := dict_getValue_eq (env_of srt c) kt vt b k d Hx). rewrite (proj2 T U) in E.
  match type of E with _ = (_, Ok ?r) => exists r end. split.
  - apply (var_answers srt pw c s line n _ _ _ H1 H2 Hs Hl (Ok _)); [|exact (fun x => x)]. exact (f_equal (on (IDict kt vt)) E).
  - assert (Fin : forall p, In p d -> fine kt (fst p)) by (intros p Hp; inversion F as [|? ? _ F']; subst; apply (in_map fst) in Hp; rewrite Forall_forall in F'; auto).
    assert (Fk : fine kt k) by now inversion F.
    destruct (find _ d) as [[k' v]|] eqn:Q; [left|right].
    + apply find_some in Q as [Q1 Q2]. exists k', v. split; auto. split; [|apply (obj_repr_shows (env_of srt c))].
      apply (incomparable_equals _ kt (tol_valid srt pw c H1 H2)) in Q2; auto; exact (Fin _ Q1).
    + split; auto. rewrite Forall_map, Forall_forall. intros p Hp X. assert (Y := find_none _ _ Q p Hp). cbn beta in Y.
      apply (incomparable_equals _ kt (tol_valid srt pw c H1 H2)) in X; auto. cbn [e_tolerance env_of] in Y. congruence.
Qed.
Theorem C23_containsKey : forall srt pw c s line n b k kt vt d, sort_contract srt -> reachable srt pw c ->
  statement line n (B "containsKey?") [b] -> lookup c n = Some (IDict kt vt d) -> literal_of kt b k ->
  usable (tolerance c) k (map fst d) ->
  exists r, only_answers srt pw c s line (truth r) /\ (r = true <-> Exists (fun k' => equals (tolerance c) k' k) (map fst d)).
Proof.
  intros srt pw c s line n b k kt vt d H1 H2 Hs Hl Hx U. destruct (dict_tree srt pw c n H1 H2 kt vt d k b Hl Hx) as [F T].
  assert (E := dict_containsKey_eq (env_of srt c) kt vt b k d Hx). rewrite (proj2 T U) in E.
  match type of E with _ = (_, Ok (truth ?r)) => exists r end. split.
  - apply (var_answers srt pw c s line n _ _ _ H1 H2 Hs Hl (Ok _)); [|exact (fun x => x)]. exact (f_equal (on (IDict kt vt)) E).
  - assert (Fin : forall p, In p d -> fine kt (fst p)) by (intros p Hp; inversion F as [|? ? _ F']; subst; apply (in_map fst) in Hp; rewrite Forall_forall in F'; auto).
    assert (Fk : fine kt k) by now inversion F. rewrite Exists_exists.
    destruct (find _ d) as [[k' v]|] eqn:Q; split; auto; try discriminate.
    + intros _. apply find_some in Q as [Q1 Q2]. exists k'. split; [apply (in_map fst) in Q1; exact Q1|].
      apply (incomparable_equals _ kt (tol_valid srt pw c H1 H2)) in Q2; auto; exact (Fin _ Q1).
    + intros (k' & Hk & X). apply in_map_iff in Hk as (p & <- & Hp). assert (Y := find_none _ _ Q p Hp). cbn beta in Y.
      apply (incomparable_equals _ kt (tol_valid srt pw c H1 H2)) in X; auto. cbn [e_tolerance env_of] in Y. congruence.
Qed.
Theorem C23_associate : forall srt pw c s line n a b x k kt vt d, sort_contract srt -> reachable srt pw c ->
  statement line n (B "associateValue:withKey:") [a; b] -> lookup c n = Some (IDict kt vt d) -> literal_of vt a x -> literal_of kt b k ->
  usable (tolerance c) k (map fst d) ->
  exists d', becomes srt pw c s line n (B "null") (IDict kt vt d') /\ associated (tolerance c) k x d d'.
Proof.
  intros srt pw c s line n a b x k kt vt d H1 H2 Hs Hl Hv Hx U. destruct (dict_tree srt pw c n H1 H2 kt vt d k b Hl Hx) as [F T].
  assert (E := dict_assoc_eq (env_of srt c) kt vt a b x k d Hv Hx). rewrite (proj2 T U) in E.
  match type of E with _ = (?r, _) => exists r end. split.
  - apply (var_becomes srt pw c s line n _ _ _ H1 H2 Hs Hl _ (Ok (B "null"))); [|exact (fun x => x)]. exact (f_equal (on (IDict kt vt)) E).
  - destruct U as [W S]. assert (V := tol_valid srt pw c H1 H2). split.
    + rewrite assign_keys. now apply (insert_spec (tolerance c) kt V k (map fst d) F W S).
    + assert (A := assign_spec (tolerance c) kt V d k x F W S). cbn [e_tolerance env_of] in *.
      assert (M : forall p q, In (p, q) d -> In p (map fst d)) by (intros p q H; apply (in_map fst) in H; exact H).
      destruct (Classical_Prop.classic (exists k', In k' (map fst d) /\ equals (tolerance c) k' k)) as [(k' & I' & Q)|Q].
      * left. exists k'. split; auto. split; auto. intros p q. rewrite A.
        assert (Un : forall z, In z (map fst d) -> (equals (tolerance c) z k <-> z = k')).
        { intros z Hz. split; [|now intros ->]. intros X. destruct (Classical_Prop.classic (z = k')) as [|Nz]; auto. exfalso.
          assert (Y : equals (tolerance c) z k'). { destruct W as (_ & _ & W3). apply (W3 z k k'); [now right|now left|now right|exact X|]. destruct Q; split; auto. }
          destruct Y as [Y1 Y2]. clear -S Hz I' Nz Y1 Y2. induction S as [|y l S IH Hy]; [destruct Hz|]. rewrite Forall_forall in Hy.
          destruct Hz as [<-|Hz], I' as [<-|I']; auto. }
        split.
        -- intros [[X Y]|[-> [[-> Y]|[X Y]]]].
           ++ right. split; auto. intros ->. apply Y, Q.
           ++ exfalso. now apply (Y k').
           ++ left. split; auto. now apply Un.
        -- intros [[-> ->]|[X Y]]; [right; split; auto|left; split; auto]. intros Z. apply X. apply Un; eauto.
      * right. assert (Q' : forall y, In y (map fst d) -> ~ equals (tolerance c) y k) by (intros y Hy X; apply Q; eauto).
        split; [now apply Forall_forall|]. intros p q. rewrite A. split.
        -- intros [[X Y]|[-> [[-> Y]|[X Y]]]]; auto. exfalso. now apply (Q' p).
        -- intros [[-> ->]|X]; [right; split; auto|left; split; auto]. apply Q'. eauto.
Qed.
Theorem C23_removeKey : forall srt pw c s line n b k kt vt d, sort_contract srt -> reachable srt pw c ->
  statement line n (B "removeKey:") [b] -> lookup c n = Some (IDict kt vt d) -> literal_of kt b k ->
  usable (tolerance c) k (map fst d) ->
  exists d', becomes srt pw c s line n (B "null") (IDict kt vt d') /\ dissociated (tolerance c) k d d'.
Proof.
  intros srt pw c s line n b k kt vt d H1 H2 Hs Hl Hx U. destruct (dict_tree srt pw c n H1 H2 kt vt d k b Hl Hx) as [F T].
  assert (E := dict_removeKey_eq (env_of srt c) kt vt b k d Hx). rewrite (proj2 T U) in E.
  match type of E with _ = (?r, _) => exists r end. split.
  - apply (var_becomes srt pw c s line n _ _ _ H1 H2 Hs Hl _ (Ok (B "null"))); [|exact (fun x => x)]. exact (f_equal (on (IDict kt vt)) E).
  - destruct U as [W S]. assert (V := tol_valid srt pw c H1 H2). split; [rewrite erase_keys; now apply filter_sorted|].
    assert (Fin : forall p, In p d -> fine kt (fst p)) by (intros p Hp; inversion F as [|? ? _ F']; subst; apply (in_map fst) in Hp; rewrite Forall_forall in F'; auto).
    assert (Fk : fine kt k) by now inversion F.
    intros p q. rewrite filter_In, negb_true_iff. cbn [fst e_tolerance env_of]. split; intros [X Y]; split; auto.
    + intros Z. apply (incomparable_equals _ kt V) in Z; auto; [congruence|exact (Fin _ X)].
    + apply not_true_is_false. intros Z. apply Y. apply (incomparable_equals _ kt V) in Z; auto. exact (Fin _ X).
Qed.
(** While the tolerance is never raised, no two elements or keys are equal. *)
Theorem C23_no_two_equal_elements : forall srt pw c n t v, sort_contract srt -> reachable_never_raising srt pw c ->
  lookup c n = Some (ISet t v) -> strictly_increasing (tolerance c) v.
Proof. intros srt pw c n t v H1 H2 Hl. exact (never_ordered srt pw c n _ H1 H2 Hl). Qed.
Theorem C23_no_two_equal_keys : forall srt pw c n kt vt d, sort_contract srt -> reachable_never_raising srt pw c ->
  lookup c n = Some (IDict kt vt d) -> strictly_increasing (tolerance c) (map fst d).
Proof. intros srt pw c n kt vt d H1 H2 Hl. exact (never_ordered srt pw c n _ H1 H2 Hl). Qed.
(** Whatever the tolerance did, no value is held twice. *)
Theorem C23_never_the_same_element_twice : forall srt pw c n t v, sort_contract srt -> reachable srt pw c ->
  lookup c n = Some (ISet t v) -> strictly_increasing zero32 v.
Proof. intros srt pw c n t v H1 H2 Hl. exact (exactly_ordered srt pw c n _ H1 H2 Hl). Qed.
Theorem C23_never_the_same_key_twice : forall srt pw c n kt vt d, sort_contract srt -> reachable srt pw c ->
  lookup c n = Some (IDict kt vt d) -> strictly_increasing zero32 (map fst d).
Proof. intros srt pw c n kt vt d H1 H2 Hl. exact (exactly_ordered srt pw c n _ H1 H2 Hl). Qed.
(** Separated values are unproblematic; and with tolerance zero, whatever it was before, everything is. *)
Theorem C23_separated_is_usable : forall srt pw c n a x t v, sort_contract srt -> reachable_never_raising srt pw c ->
  ~ below_zero (tolerance c) -> lookup c n = Some (ISet t v) -> literal_of t a x -> separated (tolerance c) (x :: v) -> usable (tolerance c) x v.
Proof.
  intros srt pw c n a x t v H1 H2 N Hl Hx S. assert (H2' := never_reachable _ _ _ H2). destruct (set_tree srt pw c n H1 H2' t v x a Hl Hx) as [F _].
  split; [apply (separated_weak _ t); auto; now apply fine_types|]. eapply C23_no_two_equal_elements; eauto.
Qed.
Theorem C23_separated_keys_are_usable : forall srt pw c n b k kt vt d, sort_contract srt -> reachable_never_raising srt pw c ->
  ~ below_zero (tolerance c) -> lookup c n = Some (IDict kt vt d) -> literal_of kt b k -> separated (tolerance c) (k :: map fst d) ->
  usable (tolerance c) k (map fst d).
Proof.
  intros srt pw c n b k kt vt d H1 H2 N Hl Hx S. assert (H2' := never_reachable _ _ _ H2). destruct (dict_tree srt pw c n H1 H2' kt vt d k b Hl Hx) as [F _].
  split; [apply (separated_weak _ kt); auto; now apply fine_types|]. eapply C23_no_two_equal_keys; eauto.
Qed.
Lemma increasing_zero tol t l : finite tol -> value tol = 0%R -> Forall (fine t) l -> strictly_increasing zero32 l -> strictly_increasing tol l.
Proof.
  intros F Z Fl. apply increasing_weaken. intros a b Ha Hb. rewrite Forall_forall in Fl.
  assert (Ez : extended_of tol = extended_of zero32) by (rewrite (finite_extended tol F), Z; reflexivity).
  destruct a, b; cbn [before]; rewrite ?Ez; auto.
Qed.
Theorem C23_usable_at_zero : forall srt pw c n a x t v, sort_contract srt -> reachable srt pw c ->
  finite (tolerance c) -> value (tolerance c) = 0%R -> lookup c n = Some (ISet t v) -> literal_of t a x -> usable (tolerance c) x v.
Proof.
  intros srt pw c n a x t v H1 H2 Ft Z Hl Hx.
  destruct (set_tree srt pw c n H1 H2 t v x a Hl Hx) as [F _].
  destruct (ctx_good_lookup false c n _ (reachable_good srt pw c H1 H2) Hl) as [_ [Ho G]].
  split; [|apply (increasing_zero _ t); auto; [now inversion F|eapply C23_never_the_same_element_twice; eauto]].
  apply (weak_order_zero (tolerance c) t); auto; try (eapply Forall_impl; [|exact F]; now intros y [? ?]).
  destruct (reads_sound _ _ _ Ho Hx) as (_ & _ & X). constructor; auto. eapply Forall_impl; [|exact G]. now intros y (_ & _ & ?).
Qed.
Theorem C23_keys_usable_at_zero : forall srt pw c n b k kt vt d, sort_contract srt -> reachable srt pw c ->
  finite (tolerance c) -> value (tolerance c) = 0%R -> lookup c n = Some (IDict kt vt d) -> literal_of kt b k -> usable (tolerance c) k (map fst d).
Proof.
  intros srt pw c n b k kt vt d H1 H2 Ft Z Hl Hx.
  destruct (dict_tree srt pw c n H1 H2 kt vt d k b Hl Hx) as [F _].
  destruct (ctx_good_lookup false c n _ (reachable_good srt pw c H1 H2) Hl) as [_ (Ho & _ & G)].
  split; [|apply (increasing_zero _ kt); auto; [now inversion F|eapply C23_never_the_same_key_twice; eauto]].
  apply (weak_order_zero (tolerance c) kt); auto; try (eapply Forall_impl; [|exact F]; now intros y [? ?]).
  destruct (reads_sound _ _ _ Ho Hx) as (_ & _ & X). constructor; auto. rewrite Forall_map. eapply Forall_impl; [|exact G]. now intros y ((_ & _ & ?) & _).
Qed.
(** With a negative tolerance every lookup of an ordinary number is undefined. *)
Theorem C23_negative_tolerance_refuted : forall srt pw c s line n m a f v, sort_contract srt -> reachable srt pw c ->
  In m set_lookups -> statement line n m [a] -> lookup c n = Some (ISet (B "Float") v) -> literal_of (B "Float") a (OFloat f) ->
  finite f -> below_zero (tolerance c) -> undefined_behaviour srt pw c s line BadOrder.
Proof.
  intros srt pw c s line n m a f v H1 H2 Hm Hs Hl Hx Ff N. assert (V := tol_valid srt pw c H1 H2).
  destruct (set_stored _ _ _ _ _ _ H1 H2 Hl) as [Ho _]. destruct (reads_fine _ _ _ Ho Hx) as [Tx Sx].
  assert (L : less_opt (tolerance c) (OFloat f) (OFloat f) = Some true).
  { destruct N as [[Fz Nz]|Em].
    - apply less_opt_before; auto. cbn [before]. rewrite (finite_extended _ Fz), (finite_extended _ Ff). cbn [below].
      replace (value f - value f)%R with 0%R by ring. change (rounded 24 128 0) with (rnd32 0). rewrite rnd32_0. lra.
    - rewrite Em. unfold less_opt. cbn [is_less_than]. unfold float_less. destruct f as [[]|[]| |]; cbn in Ff; try contradiction; try reflexivity. now rewrite sub_self. }
  assert (T : tree_ok (less_opt (e_tolerance (env_of srt c))) (OFloat f) v = false).
  { apply not_true_is_false. intros T. unfold tree_ok in T. apply andb_true_iff in T as [T _]. apply swo_iff in T as (_ & Irr & _). apply (Irr (OFloat f)); [now left|exact L]. }
  apply (var_undefined srt pw c s line n _ _ _ H1 H2 Hs Hl (ISet (B "Float") v)).
  assert (K : set_receive (env_of srt c) (B "Float") m [a] v = (v, UB BadOrder)); [|exact (f_equal (on (ISet (B "Float"))) K)].
  destruct Hm as [<-|[<-|[<-|[]]]]; [etransitivity; [exact (set_contains_eq _ _ a _ v Hx)|now rewrite T]|etransitivity; [exact (set_add_eq _ _ a _ v Hx)|now rewrite T]|etransitivity; [exact (set_remove_eq _ _ a _ v Hx)|now rewrite T]].
Qed.
(** The English claim is false: with the default tolerance and three values close to each other ... *)
Definition float_dec : forall a b : f32, {a = b} + {a <> b}.
Proof. repeat decide equality. Defined.
Fixpoint after_same (srt : sorter) (pw : str) (c : context) (lines : list str) : option context :=
  match lines with
  | [] => Some c
  | l :: r => match execute srt pw l {| w_ctx := c; w_session := None |} with
              | (w, Ok _) => if float_dec (tolerance (w_ctx w)) (tolerance c) then after_same srt pw (w_ctx w) r else None
              | _ => None
              end
  end.
Lemma after_never srt pw lines c c' : reachable_never_raising srt pw c -> after_same srt pw c lines = Some c' -> reachable_never_raising srt pw c'.
Proof.
  revert c. induction lines as [|l r IH]; cbn [after_same]; intros c Hc H; [now inversion H; subst|].
  destruct (execute srt pw l {| w_ctx := c; w_session := None |}) as [[c1 s1] [a|e|u]] eqn:E; try discriminate. cbn [w_ctx] in H.
  destruct (float_dec (tolerance c1) (tolerance c)) as [Q|]; [|discriminate].
  eapply IH; [|exact H]. eapply never_step; [exact Hc|unfold runs; exact E|]. left. exact Q.
Qed.
Definition default_server : context := new_context false 3 (to_float (atof (B "0.0000001"))) true.
Definition close_set : context :=
  set_instances default_server [(B "s", ISet (B "Float") [OFloat zero32; OFloat (to_float (atof (B "1.2e-7")))])].
Lemma close_set_never : reachable_never_raising insertion_sort [] close_set.
Proof.
  apply (after_never _ _ [B "Set<Float> create: s;"; B "s add: 0;"; B "s add: 1.2e-7;"] default_server); [constructor; vm_compute; reflexivity|vm_compute; reflexivity].
Qed.
Theorem C23_close_values_refuted : exists c v, reachable_never_raising insertion_sort [] c /\ literal_of (B "Float") (B "0.0000001") (OFloat (tolerance c)) /\
  lookup c (B "s") = Some (ISet (B "Float") v) /\ length v = 2%nat /\
  statement (B "s add: 0.6e-7;") (B "s") (B "add:") [B "0.6e-7"] /\ undefined_behaviour insertion_sort [] c None (B "s add: 0.6e-7;") BadOrder.
Proof.
  exists close_set. eexists. split; [apply close_set_never|]. split; [ex_lit|]. split; [reflexivity|]. split; [reflexivity|]. split; [stmt|].
  unfold undefined_behaviour. vm_compute. reflexivity.
Qed.
(** ... and, for any tolerance other than zero, when it is raised over existing contents: two elements become equal, and the next
    lookup is undefined. *)
Definition raised_set : context :=
  match after insertion_sort [] default_server [B "Set<Float> create: s;"; B "s add: 1;"; B "s add: 2;"; B "Context setFloatComparisonTolerance: 5;"] with
  | Some c => c | None => default_server end.
Theorem C23_raising_the_tolerance_refuted : exists c x y, reachable insertion_sort [] c /\ ~ below_zero (tolerance c) /\
  lookup c (B "s") = Some (ISet (B "Float") [x; y]) /\ x <> y /\ equals (tolerance c) x y /\
  statement (B "s contains? 1;") (B "s") (B "contains?") [B "1"] /\ undefined_behaviour insertion_sort [] c None (B "s contains? 1;") BadOrder.
Proof.
  exists raised_set, (OFloat (to_float (atof (B "1")))), (OFloat (to_float (atof (B "2")))).
  assert (R : reachable insertion_sort [] raised_set).
  { apply (after_reachable _ _ [B "Set<Float> create: s;"; B "s add: 1;"; B "s add: 2;"; B "Context setFloatComparisonTolerance: 5;"] default_server); [constructor; vm_compute; reflexivity|vm_compute; reflexivity]. }
  assert (T : tolerance raised_set = to_float (atof (B "5"))) by (vm_compute; reflexivity).
  assert (N : nonneg (tolerance raised_set)).
  { rewrite T. assert (E : to_float (atof (B "5")) = S754_finite false 10485760 (-21)) by (vm_compute; reflexivity). rewrite E.
    intros [[_ X]|X]; [|discriminate]. apply (Rlt_not_le _ _ X). apply Rlt_le. cbn [value]. apply Rmult_lt_0_compat; [apply IZR_lt; lia|apply powerRZ_lt; lra]. }
  split; [exact R|]. split; [exact N|]. split; [vm_compute; reflexivity|]. split; [vm_compute; discriminate|]. split.
  - assert (V := reachable_tolerance insertion_sort [] raised_set insertion_sort_contract R).
    unfold equals. cbn [relates]. rewrite <- !(less_opt_before (tolerance raised_set)); auto; try (vm_compute; reflexivity).
    split; vm_compute; discriminate.
  - split; [stmt|]. unfold undefined_behaviour. vm_compute. reflexivity.
Qed.

(** ** Examples *)
Lemma made_set (t : bytes) line T : reachable insertion_sort [] empty_server -> statement line T (B "create:") [B "s"] -> set_type T t -> variable (B "s") ->
  exists c, set_history insertion_sort [] (B "s") t c nothing.
Proof.
  intros R Hs HT Hv. assert (Hc : creates T (B "create:") [B "s"] (B "s") (ISet t [])) by (constructor; auto; now left).
  assert (Nl : ~ live empty_server (B "s")) by (intros X; apply X; reflexivity).
  destruct (C24_create_on_a_free_name insertion_sort [] empty_server None line T (B "create:") [B "s"] (B "s") _ insertion_sort_contract R Hs Hc Nl) as (c & Rn & _).
  exists c. eapply set_created; eauto.
Qed.
Lemma name_s : variable (B "s").
Proof. apply is_variable_iff. reflexivity. Qed.
Definition set_of_1_3 : obj -> Prop := without_element (with_element (with_element (with_element nothing (OInt 3)) (OInt 2)) (OInt 1)) (OInt 2).
Example C21_ex : exists c, set_history insertion_sort [] (B "s") (B "Integer") c set_of_1_3 /\ (forall x, set_of_1_3 x <-> x = OInt 1 \/ x = OInt 3) /\
  B "Integer" <> B "Float" /\ statement (B "s contains? 2;") (B "s") (B "contains?") [B "2"] /\ literal_of (B "Integer") (B "2") (OInt 2).
Proof.
  assert (N : B "Integer" <> B "Float") by discriminate. assert (K := insertion_sort_contract).
  destruct (made_set (B "Integer") (B "Set<Integer> create: s;") (B "Set<Integer>")) as [c0 H0];
    [constructor; reflexivity|stmt|exists [], []; repeat split; auto; try constructor; unfold object_type; tauto|exact name_s|].
  destruct (C21_add _ _ _ _ _ _ None (B "s add: 3;") (B "3") (OInt 3) K N H0 ltac:(stmt) ltac:(ex_lit)) as (c1 & _ & Ha).
  destruct (C21_add _ _ _ _ _ _ None (B "s add: 2;") (B "2") (OInt 2) K N Ha ltac:(stmt) ltac:(ex_lit)) as (c2 & _ & Hb).
  destruct (C21_add _ _ _ _ _ _ None (B "s add: 1;") (B "1") (OInt 1) K N Hb ltac:(stmt) ltac:(ex_lit)) as (c3 & _ & Hc).
  destruct (C21_remove _ _ _ _ _ _ None (B "s remove: 2;") (B "2") (OInt 2) K N Hc ltac:(stmt) ltac:(ex_lit)) as (c4 & _ & Hd).
  exists c4. split; [exact Hd|]. split; [|split; [exact N|split; [stmt|ex_lit]]].
  intros x. unfold set_of_1_3, without_element, with_element, nothing. split.
  - intros [[[[[]|X]|X]|X] Y]; subst; auto. now elim Y.
  - intros [->| ->]; (split; [tauto|discriminate]).
Qed.
(** A history that ends with 'a' associated with 2 only. *)
Definition map_example : obj -> option obj :=
  without_key (with_association (with_association (with_association no_association (OChar "x") (OInt 1)) (OChar "a") (OInt 1)) (OChar "a") (OInt 2)) (OChar "x").
Example C22_ex : exists c, dictionary_history insertion_sort [] (B "s") (B "Character") (B "Integer") c map_example /\
  map_example (OChar "a") = Some (OInt 2) /\ map_example (OChar "x") = None /\ B "Character" <> B "Float" /\
  statement (B "s getValueForKey: 'a';") (B "s") (B "getValueForKey:") [B "'a'"] /\ literal_of (B "Character") (B "'a'") (OChar "a").
Proof.
  assert (N : B "Character" <> B "Float") by discriminate. assert (K := insertion_sort_contract).
  assert (R0 : reachable insertion_sort [] empty_server) by (constructor; reflexivity).
  assert (T0 : dictionary_type (B "Dictionary<Character,Integer>") (B "Character") (B "Integer"))
    by (exists [], [], [], []; repeat split; auto; try constructor; unfold object_type; tauto).
  assert (Cr : creates (B "Dictionary<Character,Integer>") (B "create:") [B "s"] (B "s") (IDict (B "Character") (B "Integer") [])) by (constructor; auto; [now left|exact name_s]).
  assert (Nl : ~ live empty_server (B "s")) by (intros X; apply X; reflexivity).
  assert (S0 : statement (B "Dictionary<Character,Integer> create: s;") (B "Dictionary<Character,Integer>") (B "create:") [B "s"]) by stmt.
  destruct (C24_create_on_a_free_name insertion_sort [] empty_server None _ _ _ _ _ _ K R0 S0 Cr Nl) as (c & Rn & _).
  assert (H0 : dictionary_history insertion_sort [] (B "s") (B "Character") (B "Integer") c no_association) by (eapply dictionary_created; eauto).
  destruct (C22_associate _ _ _ _ _ _ _ None (B "s associateValue: 1 withKey: 'x';") (B "1") (B "'x'") (OInt 1) (OChar "x") K N H0 ltac:(stmt) ltac:(ex_lit) ltac:(ex_lit)) as (c1 & _ & Ha).
  destruct (C22_associate _ _ _ _ _ _ _ None (B "s associateValue: 1 withKey: 'a';") (B "1") (B "'a'") (OInt 1) (OChar "a") K N Ha ltac:(stmt) ltac:(ex_lit) ltac:(ex_lit)) as (c2 & _ & Hb).
  destruct (C22_associate _ _ _ _ _ _ _ None (B "s associateValue: 2 withKey: 'a';") (B "2") (B "'a'") (OInt 2) (OChar "a") K N Hb ltac:(stmt) ltac:(ex_lit) ltac:(ex_lit)) as (c3 & _ & Hc).
  destruct (C22_removeKey _ _ _ _ _ _ _ None (B "s removeKey: 'x';") (B "'x'") (OChar "x") K N Hc ltac:(stmt) ltac:(ex_lit)) as (c4 & _ & Hd).
  exists c4. split; [exact Hd|]. split; [reflexivity|]. split; [reflexivity|]. split; [exact N|]. split; [stmt|ex_lit].
Qed.
(** A refused element. *)
Example C21_ex_refused : In (B "add:", 1%nat) set_messages /\ in_range (B "Character") [] [B "5"] /\ forall x, ~ literal_of (B "Character") (B "5") x.
Proof.
  split; [cbn [set_messages In]; tauto|]. split; [intros k a _ [X|[]]; discriminate X|]. intros x X. apply literal_get in X. vm_compute in X. discriminate.
Qed.
(** Two Floats far enough apart: defined. *)
Example C23_ex : exists v, lookup close_set (B "s") = Some (ISet (B "Float") v) /\ reachable_never_raising insertion_sort [] close_set /\
  ~ below_zero (tolerance close_set) /\ literal_of (B "Float") (B "7") (OFloat (to_float (atof (B "7")))) /\
  usable (tolerance close_set) (OFloat (to_float (atof (B "7")))) v.
Proof.
  eexists. split; [reflexivity|]. split; [apply close_set_never|].
  assert (E : tolerance close_set = S754_finite false 14073749 (-47)) by (vm_compute; reflexivity).
  assert (N : nonneg (tolerance close_set)).
  { rewrite E. intros [[_ X]|X]; [|discriminate]. apply (Rlt_not_le _ _ X). apply Rlt_le. cbn [value]. apply Rmult_lt_0_compat; [apply IZR_lt; lia|apply powerRZ_lt; lra]. }
  split; [exact N|]. split; [ex_lit|].
  destruct (set_tree insertion_sort [] close_set (B "s") insertion_sort_contract (never_reachable _ _ _ close_set_never) (B "Float")
    [OFloat zero32; OFloat (to_float (atof (B "1.2e-7")))] (OFloat (to_float (atof (B "7")))) (B "7") eq_refl ltac:(ex_lit)) as [_ T].
  apply T. vm_compute. reflexivity.
Qed.

Print Assumptions C21_contains.
Print Assumptions C21_get.
Print Assumptions C21_every_set_has_a_history.
Print Assumptions C22_getValueForKey.
Print Assumptions C22_get.
Print Assumptions C22_every_dictionary_has_a_history.
Print Assumptions C23_set_undefined_iff.
Print Assumptions C23_never_the_same_element_twice.
Print Assumptions C23_usable_at_zero.
Print Assumptions C23_close_values_refuted.
Print Assumptions C23_raising_the_tolerance_refuted.
