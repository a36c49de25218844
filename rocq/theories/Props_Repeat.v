(** Property C61: which lines may safely be sent twice.  Specification: [Spec_Repeat]; model: [Instance], [Context], [Server]. *)
From Coq Require Import ZArith.
From Verif Require Import Bytes StrUtils Grammar Outcome Parser Num Containers Instance Context Server Platform.
From Verif Require Import Lemmas StringLit Proof_Grammar Proof_Parser Proof_Exec Proof_Inv Proof_Literal Proof_Receive Proof_Context Proof_Names Api Proof_Local Proof_Order Proof_Repeat Props_State Props_Order Props_Local Props_Sorter.
From Verif Require Import Spec_Grammar Spec_State Spec_Names Spec_Local Spec_Repeat.
Local Open Scope Z_scope.
Local Open Scope list_scope.

(** A repeatable line that was executed can be executed again: it is defined, changes neither the data nor the session, and its answer is
    the first one (but for creations and deletions, which report that they have been done). *)
Theorem C61_repetition_changes_nothing : forall srt pw c s line c1 s1 a1, sort_contract srt -> reachable srt pw c -> repeatable c line ->
  runs srt pw c s line c1 s1 a1 -> exists c2 a2, runs srt pw c1 s1 line c2 s1 a2 /\ same_data c1 c2 /\ answered_again line a1 a2.
Proof.
  intros srt pw c s line c1 s1 a1 K Q R H. destruct (runs_statement _ _ _ _ _ _ _ _ H) as (w1 & r & E & U & -> & -> & ->).
  destruct (statement_again srt pw line c s w1 r K Q R E U) as (r2 & E2 & A). assert (U2 := again_ub _ _ _ A U).
  destruct w1 as [c' s']. cbn [w_ctx w_session] in *.
  assert (R2 : runs srt pw c' s' line (write_log line (text_of r2) c') s' (text_of r2)) by (unfold runs; exact (execute_ok srt pw line _ _ _ E2 U2)).
  assert (T : twin c' (write_log line (text_of r) c')) by apply twin_sym, twin_log, twin_refl.
  destruct (runs_twin srt pw line line c' _ s' _ _ _ (fun a m args => iff_refl _) T R2) as (c2 & R3 & T2).
  exists c2, (text_of r2). split; [exact R3|]. split.
  - apply twin_same_data. apply twin_log. destruct T2 as (I & P & Z). rewrite write_log_instances in I. rewrite write_log_precision in P. rewrite write_log_tolerance in Z.
    now repeat split.
  - destruct A as [->|[(-> & -> & X)|(-> & -> & X)]]; [now left|right; left|right; right]; auto.
Qed.

(** The list of accumulating messages is not too long: every one of them adds up, for every type of variable. *)
Lemma twice T srt lines c n i m args line c1 c2 a1 a2 : sort_contract srt -> after srt [] empty_server lines = Some c -> lookup c n = Some i ->
  parse line = Ok {| p_actor := n; p_message := m; p_args := args |} -> runs srt [] c None line c1 None a1 -> runs srt [] c1 None line c2 None a2 ->
  ~ looks_like_error a1 -> ~ looks_like_error a2 -> lookup c1 n <> lookup c n -> lookup c2 n <> lookup c1 n -> type_name i = T -> adds_up T m.
Proof.
  intros K A L P R1 R2 N1 N2 D1 D2 <-. exists srt, c, n, i, args, line, c1, c2, a1, a2. split; [exact K|]. split.
  - eapply after_reachable; [|exact A]. constructor. reflexivity.
  - repeat (split; auto). now apply parse_iff.
Qed.
Ltac twice srt lines line :=
  eapply (twice _ srt lines _ (B "v") _ _ _ line);
    [first [apply insertion_sort_contract|apply other_sort_contract]|vm_compute; reflexivity|vm_compute; reflexivity|vm_compute; reflexivity
    |unfold runs; vm_compute; reflexivity|unfold runs; vm_compute; reflexivity
    |let r := fresh in let X := fresh in intros (r & [X|[X|X]]); discriminate|let r := fresh in let X := fresh in intros (r & [X|[X|X]]); discriminate
    |vm_compute; discriminate|vm_compute; discriminate|vm_compute; reflexivity].
Definition vector_setup (t a b : bytes) : list bytes :=
  [B "Vector<" ++ t ++ B "> create: v;"; B "v pushBack: " ++ a ++ B ";"; B "v pushBack: " ++ a ++ B ";"; B "v pushBack: " ++ b ++ B ";"].
Ltac vectors t a b :=
  repeat match goal with H : In _ (_ :: _) |- _ => destruct H as [<-|H] end;
  [let l := eval vm_compute in (B "v pushBack: " ++ b ++ B ";") in twice insertion_sort (vector_setup t a b) l
  |let l := eval vm_compute in (B "v pushFront: " ++ b ++ B ";") in twice insertion_sort (vector_setup t a b) l
  |twice insertion_sort (vector_setup t a b) (B "v popBack;")
  |twice insertion_sort (vector_setup t a b) (B "v popFront;")
  |twice insertion_sort (vector_setup t a b) (B "v popAtIndex: 0;")
  |let l := eval vm_compute in (B "v insert: " ++ a ++ B " beforeIndex: 0;") in twice insertion_sort (vector_setup t a b) l
  |twice insertion_sort (vector_setup t a b) (B "v eraseFromIndex: 0 toIndex: 1;")
  |let l := eval vm_compute in (B "v removeFirst: " ++ a ++ B ";") in twice insertion_sort (vector_setup t a b) l
  |let l := eval vm_compute in (B "v removeFirst: " ++ a ++ B " fromIndex: 0;") in twice insertion_sort (vector_setup t a b) l
  |let l := eval vm_compute in (B "v replaceFirst: " ++ a ++ B " with: " ++ b ++ B ";") in twice insertion_sort (vector_setup t a b) l
  |let l := eval vm_compute in (B "v replaceFirst: " ++ a ++ B " fromIndex: 0 with: " ++ b ++ B ";") in twice insertion_sort (vector_setup t a b) l
  |twice insertion_sort (vector_setup t a b) (B "v reverse;")
  |..].
Lemma vectors_add_up t m v : object_type t -> In m (accumulating (IVector t v)) -> adds_up (B "Vector<" ++ t ++ B ">") m.
Proof.
  intros Ho H. cbn [accumulating] in H. destruct Ho as [->|[->|[->|[->| ->]]]]; cbn [app] in H.
  - vectors (B "Boolean") (B "true") (B "false"). contradiction.
  - vectors (B "Character") (B "'a'") (B "'b'"). contradiction.
  - vectors (B "Integer") (B "1") (B "2"). contradiction.
  - vectors (B "Float") (B "1.0") (B "2.0"). destruct H as [<-|[]].
    twice other_sort [B "Vector<Float> create: v;"; B "v pushBack: 0.0;"; B "v pushBack: -0.0;"] (B "v sort;").
  - vectors (B "String") (B """a""") (B """b"""). contradiction.
Qed.
Theorem C61_accumulating_messages_add_up : forall srt pw c n i m, sort_contract srt -> reachable srt pw c -> lookup c n = Some i ->
  In m (accumulating i) -> adds_up (type_name i) m.
Proof.
  intros srt pw c n i m K Q L H. destruct (ctx_good_lookup _ _ _ _ (reachable_good srt pw c K Q) L) as [_ G].
  destruct i as [[b|ch|z|f|s]|t v|t v|kt vt d]; try contradiction H.
  - cbn [accumulating] in H. repeat match goal with H : In _ (_ :: _) |- _ => destruct H as [<-|H] end; try contradiction.
    + twice insertion_sort [B "Integer create: v withValue: 7;"] (B "v add: 2;").
    + twice insertion_sort [B "Integer create: v withValue: 7;"] (B "v subtract: 2;").
    + twice insertion_sort [B "Integer create: v withValue: 7;"] (B "v multiplyBy: 2;").
    + twice insertion_sort [B "Integer create: v withValue: 7;"] (B "v divideBy: 2;").
  - cbn [accumulating] in H. repeat match goal with H : In _ (_ :: _) |- _ => destruct H as [<-|H] end; try contradiction.
    + twice insertion_sort [B "Float create: v withValue: 7;"] (B "v add: 2;").
    + twice insertion_sort [B "Float create: v withValue: 7;"] (B "v subtract: 2;").
    + twice insertion_sort [B "Float create: v withValue: 7;"] (B "v multiplyBy: 2;").
    + twice insertion_sort [B "Float create: v withValue: 7;"] (B "v divideBy: 2;").
  - cbn [accumulating] in H. repeat match goal with H : In _ (_ :: _) |- _ => destruct H as [<-|H] end; try contradiction.
    + twice insertion_sort [B "String create: v withValue: ""abc"";"] (B "v pushBack: 'd';").
    + twice insertion_sort [B "String create: v withValue: ""abc"";"] (B "v pushFront: 'd';").
    + twice insertion_sort [B "String create: v withValue: ""abc"";"] (B "v popBack;").
    + twice insertion_sort [B "String create: v withValue: ""abc"";"] (B "v popFront;").
    + twice insertion_sort [B "String create: v withValue: ""abc"";"] (B "v popAtIndex: 0;").
    + twice insertion_sort [B "String create: v withValue: ""abc"";"] (B "v concatenate: ""d"";").
    + twice insertion_sort [B "String create: v withValue: ""abc"";"] (B "v insert: ""d"" beforeIndex: 1;").
    + twice insertion_sort [B "String create: v withValue: ""abc"";"] (B "v eraseFromIndex: 0 toIndex: 1;").
  - destruct G as [Ho _]. eapply vectors_add_up; eauto.
Qed.
(** Any number of repetitions is as good as one. *)
Theorem C61_any_number_of_repetitions : forall srt pw c s line c1 s1 a1 k, sort_contract srt -> reachable srt pw c -> repeatable c line ->
  runs srt pw c s line c1 s1 a1 -> exists c2 answers, executes srt pw c1 s1 (repeat line k) c2 s1 answers /\ same_data c1 c2.
Proof.
  intros srt pw c s line c1 s1 a1 k K Q R H. destruct (C61_repetition_changes_nothing _ _ _ _ _ _ _ _ K Q R H) as (c2 & a2 & H2 & D & _).
  assert (Q1 := reach_step _ _ _ _ _ _ _ _ Q H).
  assert (X : forall d, reachable srt pw d -> same_data c1 d -> exists d2 answers, executes srt pw d s1 (repeat line k) d2 s1 answers /\ same_data c1 d2).
  { induction k as [|k IH]; intros d Qd Dd; [exists d, []; split; [constructor|exact Dd]|].
    destruct (C52_effect_depends_on_pieces_and_data srt pw pw pw c1 d s1 line line c2 s1 a2 K Q1 Qd Dd (fun a m args => iff_refl _) H2) as (d2 & Hd & D2).
    destruct (IH d2 (reach_step _ _ _ _ _ _ _ _ Qd Hd)) as (d3 & answers & E & D3).
    - destruct D as (L & P & T), D2 as (L' & P' & T'). split; [|split]; [intros x; now rewrite L', L|congruence|congruence].
    - exists d3, (a2 :: answers). split; [econstructor; eauto|exact D3]. }
  apply X; auto. repeat split.
Qed.
Example C61_ex : exists c c1, reachable insertion_sort [] c /\ repeatable c (B "v removeAll: 1;") /\
  lookup c (B "v") = Some (IVector (B "Integer") [OInt 1; OInt 2; OInt 1]) /\
  runs insertion_sort [] c None (B "v removeAll: 1;") c1 None (B "null") /\ lookup c1 (B "v") = Some (IVector (B "Integer") [OInt 2]).
Proof.
  eexists. eexists. split; [|split; [|split; [|split]]].
  - apply (after_reachable _ _ [B "Vector<Integer> create: v;"; B "v pushBack: 1;"; B "v pushBack: 2;"; B "v pushBack: 1;"] empty_server); [constructor; vm_compute; reflexivity|vm_compute; reflexivity].
  - intros n m args i H L. apply parse_iff in H. vm_compute in H. injection H as <- <- <-. vm_compute in L. injection L as <-. vm_compute. intuition discriminate.
  - reflexivity.
  - unfold runs. vm_compute. reflexivity.
  - reflexivity.
Qed.

Print Assumptions C61_repetition_changes_nothing.
Print Assumptions C61_accumulating_messages_add_up.
Print Assumptions C61_any_number_of_repetitions.
