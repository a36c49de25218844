(** C87: how long answers can be. *)
From Coq Require Import String List Ascii ZArith Lia Sorting.Sorted Classical.
From Verif Require Import Bytes StrUtils Outcome Num Instance Context Server Platform.
From Verif Require Import Spec_Grammar Spec_State Spec_Names Spec_Text Spec_Number Spec_Float Spec_Literal Spec_Order Spec_Vector Spec_String Spec_Set Spec_Object Spec_Server.
From Verif Require Import Proof_Grammar Proof_Parser Proof_Exec Proof_Literal Proof_Names Proof_Context Proof_Set Proof_Server Proof_Number Proof_Order Proof_Origin.
From Verif Require Import Props_State Props_Set Props_Server Props_Clients Props_Whole Props_Observe Props_Coherent Api Proof_Length.
From Verif Require Import Spec_Number Spec_Whole Spec_Length.
Import ListNotations.
Open Scope list_scope.

Lemma exists_text p x : exists a, shows p x a.
Proof. pose (E := {| e_precision := p; e_tolerance := SpecFloat.S754_nan; e_sort := insertion_sort |}). exists (obj_repr E x). apply (shows_iff E). reflexivity. Qed.
Lemma exist_texts p v : exists l, Forall2 (shows p) v l.
Proof. induction v as [|x v [l IH]]; [exists []; constructor|]. destruct (exists_text p x) as [a H]. exists (a :: l). now constructor. Qed.
Lemma text_exists p i : exists g, variable_text p i g.
Proof.
  destruct i as [x|t v|t v|k t d]; cbn [variable_text].
  - apply exists_text.
  - destruct (exist_texts p v) as [l H]. exists (listing l), l. auto.
  - destruct (exist_texts p v) as [l H]. exists (braces l), l. auto.
  - assert (X : exists l, Forall2 (fun x q => shows p (fst x) (fst q) /\ shows p (snd x) (snd q)) d l).
    { induction d as [|[k1 v1] d [l IH]]; [exists []; constructor|]. destruct (exists_text p k1) as [a A1], (exists_text p v1) as [b B1]. exists ((a, b) :: l). constructor; auto. }
    destruct X as [l X]. eexists. exists l. split; eauto.
Qed.
Lemma get_effect p tol i g : variable_text p i g -> message_effect p tol i (B "get") [] i g.
Proof.
  destruct i as [x|t v|t v|k t d]; cbn [variable_text]; intros H.
  - apply msg_value. now constructor.
  - apply msg_sequence. now constructor.
  - now apply msg_set_get.
  - now apply msg_dict_get.
Qed.
Lemma live_variable srt pw c n : sort_contract srt -> reachable srt pw c -> live c n -> variable n.
Proof. intros K R L. unfold live in L. destruct (lookup c n) as [i|] eqn:E; [|congruence]. exact (proj1 (ctx_good_lookup false c n i (reachable_good srt pw c K R) E)). Qed.

(** What get is answered. *)
Theorem C87_get_shows_the_variable : forall srt pw c s line n i c' s' g, sort_contract srt -> reachable srt pw c ->
  lookup c n = Some i -> statement line n (B "get") [] -> runs srt pw c s line c' s' g -> variable_text (float_precision c) i g.
Proof.
  intros srt pw c s line n i c' s' g K R L St X. destruct (text_exists (float_precision c) i) as [h H].
  destruct (C66_every_effect_happens srt pw c s line n (B "get") [] c s h K R St) as (c2 & X2 & _).
  - apply (eff_message pw c s n (B "get") [] i i h c L (get_effect _ _ _ _ H)). repeat split; auto.
  - intros v _ E. discriminate E.
  - destruct (runs_unique _ _ _ _ _ _ _ _ _ _ _ X X2) as (_ & _ & ->). exact H.
Qed.

(** No answer of a variable is longer than the answer to get, or than the longest error. *)
Theorem C87_no_answer_is_longer_than_get : forall srt pw c s t line lineg n i m args c' s' ans cg tg g, sort_contract srt -> reachable srt pw c ->
  lookup c n = Some i -> statement line n m args -> m <> B "allIndexesOf:" -> runs srt pw c s line c' s' ans ->
  statement lineg n (B "get") [] -> runs srt pw c t lineg cg tg g ->
  (length ans <= Nat.max (length g) LONGEST_ERROR)%nat.
Proof.
  intros srt pw c s t line lineg n i m args c' s' ans cg tg g K R L St N X Sg Xg.
  assert (G := C87_get_shows_the_variable _ _ _ _ _ _ _ _ _ _ K R L Sg Xg).
  assert (V := live_variable srt pw c n K R ltac:(unfold live; congruence)).
  assert (L5 : (5 <= LONGEST_ERROR)%nat) by (apply Nat.leb_le; vm_compute; reflexivity).
  destruct (classic (error_answer ans)) as [E|E]; [assert (Z := error_length _ E); lia|].
  assert (F := C66_every_success_is_an_effect _ _ _ _ _ _ _ _ _ _ _ K R St X E).
  assert (NC : n <> B "Context") by (intros ->; apply is_variable_iff in V; vm_compute in V; discriminate V).
  inversion F; subst; try (change (length (B "null")) with 4%nat; lia); try congruence.
  match goal with H : lookup c n = Some ?j, ME : message_effect _ _ ?j _ _ _ _ |- _ => rewrite L in H; injection H as <-; assert (Z := message_effect_length _ _ _ _ _ _ _ _ ME G (fun Q => False_ind _ (N Q))) end.
  lia.
Qed.
(** allIndexesOf: can be answered longer, but not much longer: at most one index for every element. *)
Theorem C87_allIndexesOf : forall srt pw c s t line lines n ty v args c' s' ans cz tz z, sort_contract srt -> reachable srt pw c ->
  lookup c n = Some (IVector ty v) -> statement line n (B "allIndexesOf:") args -> runs srt pw c s line c' s' ans ->
  statement lines n (B "size") [] -> runs srt pw c t lines cz tz z ->
  (length ans <= Nat.max (2 + length v * (length z + 1)) LONGEST_ERROR)%nat.
Proof.
  intros srt pw c s t line lines n ty v args c' s' ans cz tz z K R L St X Sz Xz.
  assert (V := live_variable srt pw c n K R ltac:(unfold live; congruence)).
  destruct (classic (error_answer ans)) as [E|E]; [assert (Z := error_length _ E); lia|].
  assert (NC : n <> B "Context") by (intros ->; apply is_variable_iff in V; vm_compute in V; discriminate V).
  assert (L5 : (5 <= LONGEST_ERROR)%nat) by (apply Nat.leb_le; vm_compute; reflexivity).
  assert (PZ : prints_int (size v) z).
  { destruct (C66_every_effect_happens srt pw c t lines n (B "size") [] c t (to_string (size v)) K R Sz) as (c2 & X2 & _).
    - apply (eff_message pw c t n (B "size") [] (IVector ty v) (IVector ty v) _ c L); [|repeat split; auto].
      apply msg_sequence. constructor. apply prints_int_iff. reflexivity.
    - intros w _ Q. discriminate Q.
    - destruct (runs_unique _ _ _ _ _ _ _ _ _ _ _ Xz X2) as (_ & _ & ->). apply prints_int_iff. reflexivity. }
  assert (F := C66_every_success_is_an_effect _ _ _ _ _ _ _ _ _ _ _ K R St X E).
  inversion F; subst; try (change (length (B "null")) with 4%nat; lia); try congruence.
  rewrite L in *. match goal with H : Some _ = Some ?j |- _ => injection H as <- end.
  match goal with ME : message_effect _ _ _ _ _ _ _ |- _ => inversion ME; subst end.
  - match goal with SE : seq_effect _ _ _ _ _ _ _ |- _ => inversion SE end.
  - match goal with SE : search_effect _ _ _ _ _ _ _ |- _ => inversion SE; subst end.
    match goal with PO : positions _ _ _ _ _, FO : Forall2 prints_int _ _ |- _ => assert (Z := indexes_length _ _ _ _ _ _ PO FO PZ) end. lia.
Qed.

Lemma precedes_irreflexive x : ~ precedes x x.
Proof.
  intros H. inversion H as [p a r E1 E2|p a r b r' Hc E1 E2].
  - assert (Z : length x = length (x ++ a :: r)) by congruence. rewrite app_length in Z. cbn in Z. lia.
  - assert (Q : p ++ a :: r = p ++ b :: r') by congruence. apply app_inv_head in Q. injection Q as -> _. lia.
Qed.
Lemma increasing_NoDup names : increasing names -> NoDup names.
Proof.
  induction 1 as [|a l H IH F]; constructor; auto. intros I. rewrite Forall_forall in F. exact (precedes_irreflexive a (F a I)).
Qed.
Lemma lens_incl a b : NoDup a -> incl a b -> (lens a <= lens b)%nat.
Proof.
  intros N. revert b. induction N as [|x a NI N IH]; intros b H; [cbn; lia|]. destruct (in_split x b (H x (or_introl eq_refl))) as (b1 & b2 & ->).
  assert (I : incl a (b1 ++ b2)).
  { intros y Hy. specialize (H y (or_intror Hy)). rewrite in_app_iff in *. cbn in H. destruct H as [H|[H|H]]; auto. subst y. contradiction. }
  specialize (IH _ I). rewrite lens_app in *. cbn [lens]. lia.
Qed.
Lemma part_of_names a b : NoDup a -> incl a b -> (length (listing a) <= length (listing b))%nat.
Proof. intros N H. rewrite !len_listing. assert (X := len_joined_le a b (lens_incl a b N H) (NoDup_incl_length N H)). lia. Qed.
Lemma colon_split ns1 i1 ns2 i2 : namespace ns1 -> namespace ns2 -> qualified ns1 i1 = qualified ns2 i2 -> ns1 = ns2.
Proof.
  intros N1 N2 E. apply identifier_no_colon in N1, N2. unfold qualified in E. change (B "::") with (c_colon :: [c_colon]) in E. cbn [app] in E.
  revert ns2 N2 E. induction N1 as [|x l Hx N1 IH]; intros ns2 N2 E.
  - destruct N2 as [|y l2 Hy N2]; auto. injection E as E1 _. congruence.
  - destruct N2 as [|y l2 Hy N2]; [injection E as E1 _; congruence|]. injection E as -> E. f_equal. eauto.
Qed.
Lemma namespaces_shorter names all : increasing names -> (forall ns, In ns names -> namespace ns /\ exists i, In (qualified ns i) all) ->
  (length (listing names) <= length (listing all))%nat.
Proof.
  intros I H.
  assert (X : exists l, Forall2 (fun ns n => exists i, n = qualified ns i /\ In n all /\ namespace ns) names l).
  { clear I. induction names as [|ns names IH]; [exists []; constructor|]. destruct IH as [l IH]; [intros y Hy; apply H; now right|].
    destruct (H ns (or_introl eq_refl)) as (N & i & A). exists (qualified ns i :: l). constructor; eauto. }
  destruct X as [l X]. transitivity (length (listing l)).
  - rewrite !len_listing. enough (length (joined names) <= length (joined l))%nat by lia. apply len_joined_le; [|now rewrite (Forall2_length _ _ _ X)].
    clear - X. induction X as [|ns n names l (i & -> & _) X IH]; cbn [lens]; [lia|]. unfold qualified. rewrite !app_length. lia.
  - apply part_of_names.
    + apply increasing_NoDup in I. clear H. induction X as [|ns n names l (i & -> & A & N) X IH]; constructor.
      * apply NoDup_cons_iff in I as [I1 I2]. intros J. apply I1. clear IH I1 I2 A. induction X as [|ns2 n2 names l (i2 & -> & A2 & N2) X IH]; [destruct J|].
        destruct J as [J|J]; [left; exact (colon_split _ _ _ _ N2 N J)|right; auto].
      * apply IH. now apply NoDup_cons_iff in I.
    + clear - X. induction X as [|ns n names l (i & -> & A & N) X IH]; [intros y []|]. intros y [<-|Hy]; auto.
Qed.

(** Listings of namespaces and of parts of the variables are no longer than the listing of all variables, or than the longest error. *)
Theorem C87_no_listing_is_longer_than_listVariables : forall srt pw c s t line linea m args c' s' ans ca ta all, sort_contract srt -> reachable srt pw c ->
  statement line (B "Context") m args -> In m [B "listVariables"; B "listNamespaces"; B "listVariablesOfNamespace:"] -> runs srt pw c s line c' s' ans ->
  statement linea (B "Context") (B "listVariables") [] -> runs srt pw c t linea ca ta all ->
  (length ans <= Nat.max (length all) LONGEST_ERROR)%nat.
Proof.
  intros srt pw c s t line linea m args c' s' ans ca ta all K R St M X Sa Xa.
  assert (NV : forall i, lookup c (B "Context") <> Some i).
  { intros i L. assert (V := live_variable srt pw c (B "Context") K R ltac:(unfold live; congruence)). apply is_variable_iff in V; vm_compute in V; discriminate V. }
  destruct (classic (error_answer ans)) as [E|E]; [assert (Z := error_length _ E); lia|].
  assert (L5 : (5 <= LONGEST_ERROR)%nat) by (apply Nat.leb_le; vm_compute; reflexivity).
  assert (A : exists names, all = listing names /\ increasing names /\ forall n, In n names <-> live c n).
  { destruct (C25_listVariables srt pw c t linea [] K R Sa) as (names & I & W & c2 & X2 & _).
    destruct (runs_unique _ _ _ _ _ _ _ _ _ _ _ Xa X2) as (_ & _ & ->). eauto. }
  destruct A as (allv & -> & IA & WA).
  assert (F := C66_every_success_is_an_effect _ _ _ _ _ _ _ _ _ _ _ K R St X E).
  inversion F; subst; try (change (length (B "null")) with 4%nat; lia); try (exfalso; eapply NV; eassumption).
  - enough (length (listing names) <= length (listing allv))%nat by lia. apply part_of_names; [now apply increasing_NoDup|]. intros n Hn. apply WA.
    match goal with W : forall n, In n names <-> _ |- _ => now apply W in Hn end.
  - enough (length (listing names) <= length (listing allv))%nat by lia. apply namespaces_shorter; auto. intros ns Hn.
    match goal with W : forall ns, In ns names <-> _ |- _ => apply W in Hn as [i Hi] end. split.
    + apply (qualified_namespace ns i). exact (live_variable srt pw c _ K R Hi).
    + exists i. now apply WA.
  - enough (length (listing names) <= length (listing allv))%nat by lia. apply part_of_names; [now apply increasing_NoDup|]. intros n Hn. apply WA.
    match goal with W : forall n, In n names <-> _ |- _ => apply W in Hn; exact (proj1 Hn) end.
  - exfalso. destruct M as [M|[M|[M|[]]]]; discriminate M.
  - exfalso. destruct M as [M|[M|[M|[]]]]; discriminate M.
Qed.

(** So an answer with at least [N] bytes, [N] greater than the length of every error, comes from a variable whose get is answered with at least [N] bytes, from
    allIndexesOf: on a vector with many elements, from a listing when the listing of all variables has at least [N] bytes, or from a question about the settings. *)
Theorem C87_where_long_answers_come_from : forall srt pw c s line c' s' ans N, sort_contract srt -> reachable srt pw c ->
  runs srt pw c s line c' s' ans -> (LONGEST_ERROR < N <= length ans)%nat -> exists a m args, statement line a m args /\
  ((exists i g, lookup c a = Some i /\ variable_text (float_precision c) i g /\ N <= length g)%nat \/
   (exists t v z, m = B "allIndexesOf:" /\ lookup c a = Some (IVector t v) /\ prints_int (size v) z /\ N <= 2 + length v * (length z + 1))%nat \/
   (exists names, a = B "Context" /\ In m [B "listVariables"; B "listNamespaces"; B "listVariablesOfNamespace:"] /\
      increasing names /\ (forall n, In n names <-> live c n) /\ N <= length (listing names))%nat \/
   (a = B "Context" /\ In m [B "getFloatPrecision"; B "getFloatComparisonTolerance"])).
Proof.
  intros srt pw c s line c' s' ans N K R X [N1 N2].
  assert (NE : ~ error_answer ans) by (intros E; assert (Z := error_length _ E); lia).
  destruct (statement_dec line) as [(a & m & args & St)|Ns].
  2:{ exfalso. apply NE. unfold runs, execute, run_statement, bind, lift in X. rewrite parse_not_statement in X by auto. cbn in X. inversion X; subst.
      unfold error_answer. cbn [In]. auto 20. }
  exists a, m, args. split; auto. assert (L5 : (5 <= LONGEST_ERROR)%nat) by (apply Nat.leb_le; vm_compute; reflexivity).
  assert (F := C66_every_success_is_an_effect _ _ _ _ _ _ _ _ _ _ _ K R St X NE).
  assert (NV : forall i, lookup c (B "Context") <> Some i).
  { intros i L. assert (V := live_variable srt pw c (B "Context") K R ltac:(unfold live; congruence)). apply is_variable_iff in V; vm_compute in V; discriminate V. }
  destruct F as [n m args i i' ans c' L ME O|t m args n i c'|t m args n i c'|names c' I W D|names c' I W D|ns names c' Hn I W D|n c'|ns c'|c' ans|a z c'|c' ans|a f c'|z c'|a z c'];
    try (exfalso; change (length (B "null")) with 4%nat in N2; lia).
  - destruct (text_exists (float_precision c) i) as [g G].
    destruct (classic (m = B "allIndexesOf:" /\ exists t v, i = IVector t v)) as [(-> & t & v & ->)|H].
    + right. left. exists t, v, (to_string (size v)). split; auto. split; auto. assert (PZ : prints_int (size v) (to_string (size v))) by (now apply prints_int_iff). split; auto.
      inversion ME; subst.
      * match goal with SE : seq_effect _ _ _ _ _ _ _ |- _ => inversion SE end.
      * match goal with SE : search_effect _ _ _ _ _ _ _ |- _ => inversion SE; subst end.
        match goal with PO : positions _ _ _ _ _, FO : Forall2 prints_int _ _ |- _ => assert (Z := indexes_length _ _ _ _ _ _ PO FO PZ) end. lia.
    + left. exists i, g. split; auto. split; auto.
      assert (Z := message_effect_length _ _ _ _ _ _ _ _ ME G (fun Q t v E => H (conj Q (ex_intro _ t (ex_intro _ v E))))). lia.
  - right. right. left. exists names. split; auto. split; [now left|]. auto.
  - right. right. left. destruct (C25_listVariables srt pw c None (B "Context listVariables;") [] K R ltac:(stmt)) as (all & IA & WA & _).
    exists all. split; auto. split; [now (right; left)|]. split; auto. split; auto.
    transitivity (length (listing names)); auto. apply namespaces_shorter; auto. intros ns Hn. apply W in Hn as [i Hi]. split.
    + apply (qualified_namespace ns i). exact (live_variable srt pw c _ K R Hi).
    + exists i. now apply WA.
  - right. right. left. destruct (C25_listVariables srt pw c None (B "Context listVariables;") [] K R ltac:(stmt)) as (all & IA & WA & _).
    exists all. split; auto. split; [now (right; right; left)|]. split; auto. split; auto.
    transitivity (length (listing names)); auto. apply part_of_names; [now apply increasing_NoDup|]. intros n Hi. apply WA. apply W in Hi. exact (proj1 Hi).
  - right. right. right. split; auto. now left.
  - right. right. right. split; auto. right; now left.
Qed.

(** A vector of eleven elements; allIndexesOf: is answered longer than get; a sublist, and the listing. *)
Definition eleven : list bytes := B "Vector<Integer> create: v;" :: B "Integer create: ns::x withValue: 1;" :: repeat (B "v pushBack: 7;") 11.
Example C87_ex : exists c c1 c2 c3 c4 c5, reachable insertion_sort [] c /\
  lookup c (B "v") = Some (IVector (B "Integer") (repeat (OInt 7) 11)) /\ LONGEST_ERROR = 52%nat /\
  statement (B "v get;") (B "v") (B "get") [] /\ runs insertion_sort [] c None (B "v get;") c1 None (B "[7,7,7,7,7,7,7,7,7,7,7]") /\
  statement (B "v allIndexesOf: 7;") (B "v") (B "allIndexesOf:") [B "7"] /\ runs insertion_sort [] c None (B "v allIndexesOf: 7;") c2 None (B "[0,1,2,3,4,5,6,7,8,9,10]") /\
  statement (B "v first: 2;") (B "v") (B "first:") [B "2"] /\ runs insertion_sort [] c None (B "v first: 2;") c3 None (B "[7,7]") /\
  statement (B "Context listVariables;") (B "Context") (B "listVariables") [] /\ runs insertion_sort [] c None (B "Context listVariables;") c4 None (B "[ns::x,v]") /\
  statement (B "Context listNamespaces;") (B "Context") (B "listNamespaces") [] /\ runs insertion_sort [] c None (B "Context listNamespaces;") c5 None (B "[ns]").
Proof.
  eexists _, _, _, _, _, _. split; [apply (after_reachable _ _ eleven empty_server); [constructor; vm_compute; reflexivity|vm_compute; reflexivity]|].
  split; [vm_compute; reflexivity|]. split; [reflexivity|]. split; [stmt|]. split; [unfold runs; vm_compute; reflexivity|].
  split; [stmt|]. split; [unfold runs; vm_compute; reflexivity|].
  split; [stmt|]. split; [unfold runs; vm_compute; reflexivity|].
  split; [stmt|]. split; [unfold runs; vm_compute; reflexivity|].
  split; [stmt|]. unfold runs; vm_compute; reflexivity.
Qed.
