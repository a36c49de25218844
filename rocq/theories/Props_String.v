(** Properties C20 (strings as sequences of bytes) and C41 (printed lists are unambiguous).  Specification: [Spec_String]. *)
From Coq Require Import ZArith Reals Psatz Sorting.Sorted Sorting.Permutation.
From Verif Require Import Bytes StrUtils Grammar Outcome Parser Num Containers Instance Context Platform.
From Verif Require Import Lemmas StringLit Proof_Grammar Proof_Parser Proof_Exec WP Proof_Inv Proof_Literal Proof_Receive Proof_Context Proof_Names Api Proof_Text.
From Verif Require Import Proof_Number Proof_Float Proof_Arith Proof_Order Props_Text Props_State Props_Number Props_Float Props_Order Proof_Vector.
From Verif Require Import Props_Vector Proof_String Proof_Print.
From Verif Require Import Spec_Grammar Spec_State Spec_Names Spec_Text Spec_Number Spec_Float Spec_Order Spec_Vector Spec_String.
Open Scope Z_scope.
Open Scope list_scope.

Lemma string_message E v m args : receive E (IObj (OStr v)) m args = on (fun s => IObj (OStr s)) (string_receive E m args v).
Proof. reflexivity. Qed.

(** ** C20 *)
Theorem C20_effect : forall srt pw c s line n m args v v' ans, sort_contract srt -> reachable srt pw c ->
  statement line n m args -> lookup c n = Some (IObj (OStr v)) -> string_effect m args v v' ans ->
  becomes srt pw c s line n ans (IObj (OStr v')).
Proof.
  intros srt pw c s line n m args v v' ans H1 H2 Hs Hl He.
  apply (var_becomes srt pw c s line n _ _ _ H1 H2 Hs Hl _ (Ok ans)); [|exact (fun x => x)].
  rewrite string_message, (string_forward (env_of srt c) m args v v' ans He). reflexivity.
Qed.
Theorem C20_otherwise_refused : forall srt pw c s line n m k indexes args v, sort_contract srt -> reachable srt pw c ->
  statement line n m args -> lookup c n = Some (IObj (OStr v)) -> In (m, k, indexes) string_messages ->
  in_range (B "String") indexes args ->
  (forall v' ans, ~ string_effect m args v v' ans) -> only_answers srt pw c s line (refusal k args).
Proof.
  intros srt pw c s line n m k idx args v H1 H2 Hs Hl Hm Hr Hn.
  destruct (string_otherwise (env_of srt c) m k idx args v Hm Hr) as [(v' & ans & X)|X]; [exfalso; eapply Hn; eauto|].
  rewrite <- refusal_text. apply (var_answers srt pw c s line n _ _ _ H1 H2 Hs Hl); [|exact (fun x => x)].
  rewrite string_message, X. reflexivity.
Qed.
(** The effect of a message is determined by the string and the arguments. *)
Theorem C20_effect_unique : forall m args v v1 ans1 v2 ans2,
  string_effect m args v v1 ans1 -> string_effect m args v v2 ans2 -> v1 = v2 /\ ans1 = ans2.
Proof.
  intros m args v v1 a1 v2 a2 X1 X2. pose (E := {| e_precision := 3; e_tolerance := S754_nan; e_sort := insertion_sort |}).
  apply (string_forward E) in X1, X2. rewrite X1 in X2. now inversion X2.
Qed.
Theorem C20_index_beyond_32_bits : forall srt pw c s line n m a v, sort_contract srt -> reachable srt pw c ->
  statement line n m [a] -> lookup c n = Some (IObj (OStr v)) -> In (m, 1%nat, [0%nat]) string_messages -> out_of_range a ->
  exists u, undefined_behaviour srt pw c s line u.
Proof.
  intros srt pw c s line n m a v H1 H2 Hs Hl Hm Ha. destruct (out_of_range_ub a Ha) as [u U].
  exists u. apply (var_undefined srt pw c s line n _ _ _ H1 H2 Hs Hl (IObj (OStr v))). rewrite string_message.
  cbn [string_messages In] in Hm. repeat (destruct Hm as [Hm|Hm]; [try discriminate Hm; injection Hm as <-|]); [..|contradiction].
  1: match goal with |- on _ ?x = _ => change x with (string_atIndex [a] v) end.
  2: match goal with |- on _ ?x = _ => change x with (string_first [a] v) end.
  3: match goal with |- on _ ?x = _ => change x with (string_last [a] v) end.
  4: match goal with |- on _ ?x = _ => change x with (string_substringFromIndex [a] v) end.
  5: match goal with |- on _ ?x = _ => change x with (string_popAtIndex [a] v) end.
  6: match goal with |- on _ ?x = _ => change x with (string_eraseFromIndex [a] v) end.
  all: unfold string_atIndex, string_first, string_last, string_substringFromIndex, string_popAtIndex, string_eraseFromIndex; mon; rewrite U; reflexivity.
Qed.
Theorem C20_other_messages_are_refused : forall srt pw c s line n m args v, sort_contract srt -> reachable srt pw c ->
  statement line n m args -> lookup c n = Some (IObj (OStr v)) ->
  ~ In m string_comparisons -> (forall k indexes, ~ In (m, k, indexes) string_messages) ->
  only_answers srt pw c s line ERR_MESSAGE.
Proof.
  intros srt pw c s line n m args v H1 H2 Hs Hl N1 N2.
  apply (var_answers srt pw c s line n _ _ _ H1 H2 Hs Hl (Throw InvalidMessage)); [|exact (fun x => x)].
  rewrite string_message. unfold string_receive.
  assert (A : forall x k idx, In (x, k, idx) string_messages -> seq_eqb m x = false).
  { intros x k idx Hx. apply not_true_is_false. intros Ex. apply seq_eqb_eq in Ex. subst x. eapply N2; eauto. }
  assert (A0 : forall x, In x string_comparisons -> seq_eqb m x = false).
  { intros x Hx. apply not_true_is_false. intros Ex. apply seq_eqb_eq in Ex. subst x. contradiction. }
  unfold dispatch.
  repeat match goal with |- context [seq_eqb m ?x] =>
    let H := fresh in assert (H : seq_eqb m x = false);
      [ first [ solve [eapply A; cbn [string_messages In]; repeat (first [left; reflexivity | right])]
              | solve [apply A0; cbn [string_comparisons In]; repeat (first [left; reflexivity | right])] ] | rewrite H; clear H ] end.
  reflexivity.
Qed.

(** ** C41 *)
Theorem C41_lists_are_unambiguous : forall p p' t v v' ans, object_type t -> t <> B "Float" ->
  Forall (has_type t) v -> Forall (has_type t) v' -> shows_list p v ans -> shows_list p' v' ans -> v = v'.
Proof.
  intros p p' t v v' ans Ho N Hv Hv' S S'. pose (E q := {| e_precision := q; e_tolerance := S754_nan; e_sort := insertion_sort |}).
  apply (shows_list_iff (E p)) in S. apply (shows_list_iff (E p')) in S'. subst ans. unfold vector_representation in S'.
  rewrite !joined_comma_sep in S'. apply app_inv_head in S'.
  assert (X : map (obj_repr (E p')) v' = map (obj_repr (E p)) v').
  { apply map_ext_in. intros x Hx. rewrite Forall_forall in Hv'. eapply repr_plain; eauto. }
  rewrite X in S'. eapply (obj_list_inj (E p) (ascii_of_nat 93)); eauto.
Qed.
Theorem C41_sets_are_unambiguous : forall p p' t v v' ans, object_type t -> t <> B "Float" ->
  Forall (has_type t) v -> Forall (has_type t) v' -> shows_set p v ans -> shows_set p' v' ans -> v = v'.
Proof.
  intros p p' t v v' ans Ho N Hv Hv' (ts & S & ->) (ts' & S' & Eq). pose (E q := {| e_precision := q; e_tolerance := S754_nan; e_sort := insertion_sort |}).
  apply (C41_lists_are_unambiguous p p' t v v' (listing ts)); auto; [now exists ts|]. exists ts'. split; auto.
  unfold braces, listing in *. apply app_inv_head in Eq. apply app_inv_tail in Eq. now rewrite Eq.
Qed.
(** Through the interface: two vectors, possibly of two different servers with other settings, that answer [get] alike. *)
Theorem C41_vector_answers_are_unambiguous : forall srt srt' pw pw' c c' s s' line line' n n' t v v' d d' z z' ans,
  sort_contract srt -> sort_contract srt' -> reachable srt pw c -> reachable srt' pw' c' -> t <> B "Float" ->
  lookup c n = Some (IVector t v) -> lookup c' n' = Some (IVector t v') ->
  statement line n (B "get") [] -> statement line' n' (B "get") [] ->
  runs srt pw c s line d z ans -> runs srt' pw' c' s' line' d' z' ans -> v = v'.
Proof.
  intros srt srt' pw pw' c c' s s' line line' n n' t v v' d d' z z' ans H1 H1' H2 H2' N Hl Hl' Hs Hs' R R'.
  destruct (vector_good _ _ _ _ _ _ H1 H2 Hl) as (Ho & Ht & _). destruct (vector_good _ _ _ _ _ _ H1' H2' Hl') as (_ & Ht' & _).
  assert (G : forall srt pw c s line n v d z, sort_contract srt -> reachable srt pw c -> lookup c n = Some (IVector t v) ->
    statement line n (B "get") [] -> runs srt pw c s line d z ans -> shows_list (float_precision c) v ans).
  { clear. intros srt pw c s line n v d z H1 H2 Hl Hs R.
    assert (X : shows_list (float_precision c) v (vector_representation (env_of srt c) v)) by now apply (shows_list_iff (env_of srt c)).
    destruct (C18_effect srt pw c s line n _ _ t v v _ H1 H2 Hs Hl (eff_get _ _ _ _ X)) as (c1 & R1 & _).
    destruct (runs_unique _ _ _ _ _ _ _ _ _ _ _ R R1) as (_ & _ & ->). exact X. }
  eapply (C41_lists_are_unambiguous (float_precision c) (float_precision c') t); eauto.
Qed.

(** ** Examples *)
Definition text_server : context := set_instances empty_server [(B "s", IObj (OStr (B "hello")))].
Lemma text_reachable : reachable insertion_sort [] text_server.
Proof. apply (after_reachable _ _ [B "String create: s withValue: ""hello"";"] empty_server); [constructor; vm_compute; reflexivity|vm_compute; reflexivity]. Qed.
Example C20_ex : reachable insertion_sort [] text_server /\
  statement (B "s substringFromIndex: 1 toIndex: 3;") (B "s") (B "substringFromIndex:toIndex:") [B "1"; B "3"] /\
  string_effect (B "substringFromIndex:toIndex:") [B "1"; B "3"] (B "hello") (B "hello") (printed_string (B "el")).
Proof.
  split; [exact text_reachable|]. split; [stmt|]. apply (txt_substring_to (B "1") (B "3") (B "h") (B "el") (B "lo")); ex_lit.
Qed.
Example C20_ex_refused : In (B "atIndex:", 1%nat, [0%nat]) string_messages /\
  statement (B "s atIndex: 5;") (B "s") (B "atIndex:") [B "5"] /\ in_range (B "String") [0%nat] [B "5"] /\
  (forall v' ans, ~ string_effect (B "atIndex:") [B "5"] (B "hello") v' ans).
Proof.
  split; [cbn [string_messages In]; tauto|]. split; [stmt|]. split.
  - intros k a Hk _ X. assert (D : denotes_int (B "5") 5) by (apply (int_plain (B "5")); [repeat constructor; cbn; lia|discriminate]).
    assert (a = B "5") by (destruct k as [|[|k]]; [now inversion Hk|discriminate Hk..]). subst a. destruct X as [(d & Hd & Hf)|[X _]].
    + assert (d = 5) by (eapply denotes_int_unique; eauto). subst. apply Hf. split; [discriminate|reflexivity].
    + apply X. apply integer_value_denotes. eauto.
  - intros v' ans H. apply (string_forward (env_of insertion_sort text_server)) in H. vm_compute in H. discriminate.
Qed.
(** Two different vectors whose texts differ only in where the quotes belong. *)
Example C41_ex : Forall (has_type (B "String")) [OStr (B "a"",""b")] /\ Forall (has_type (B "String")) [OStr (B "a"); OStr (B "b")] /\
  shows_list 3 [OStr (B "a"",""b")] (B "[""a\"",\""b""]") /\ shows_list 3 [OStr (B "a"); OStr (B "b")] (B "[""a"",""b""]").
Proof.
  split; [repeat constructor|]. split; [repeat constructor|]. split.
  - exists [B """a\"",\""b"""]. split; [repeat constructor|reflexivity].
  - exists [B """a"""; B """b"""]. split; [repeat constructor|reflexivity].
Qed.
(** For Float vectors the claim would be false: two different numbers print alike. *)
Example C41_ex_float : exists f g, f <> g /\ shows_list 3 [OFloat f] (B "[0.000]") /\ shows_list 3 [OFloat g] (B "[0.000]").
Proof.
  exists (S754_zero false), (S754_finite false 8388608 (-40)). split; [discriminate|].
  split; apply (shows_list_iff {| e_precision := 3; e_tolerance := S754_nan; e_sort := insertion_sort |}); vm_compute; reflexivity.
Qed.

Print Assumptions C20_effect.
Print Assumptions C20_otherwise_refused.
Print Assumptions C20_effect_unique.
Print Assumptions C20_index_beyond_32_bits.
Print Assumptions C20_other_messages_are_refused.
Print Assumptions C41_lists_are_unambiguous.
Print Assumptions C41_sets_are_unambiguous.
Print Assumptions C41_vector_answers_are_unambiguous.
