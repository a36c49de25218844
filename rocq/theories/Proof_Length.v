(** Lengths of texts. *)
From Coq Require Import String List Ascii ZArith Lia Sorting.Sorted.
From Verif Require Import Bytes StrUtils Outcome Num Instance Context.
From Verif Require Import Spec_Grammar Spec_State Spec_Names Spec_Text Spec_Number Spec_Float Spec_Literal Spec_Order Spec_Vector Spec_String Spec_Set Spec_Object Spec_Whole.
From Verif Require Import Props_Coherent Spec_Length.
Import ListNotations.
Open Scope list_scope.

Notation len := List.length.
Fixpoint lens (l : list bytes) : nat := match l with [] => 0 | x :: r => List.length x + lens r end.
Lemma joined_cons x r : r <> [] -> joined (x :: r) = x ++ B "," ++ joined r.
Proof. destruct r; [congruence|reflexivity]. Qed.
Lemma len_joined l : (len (joined l) + 1 = lens l + len l)%nat \/ l = [].
Proof.
  induction l as [|x [|y r] IH]; [now right|left; cbn; lia|left]. rewrite joined_cons by discriminate. destruct IH as [IH|IH]; [|discriminate IH].
  rewrite !app_length. change (len (B ",")) with 1%nat. change (lens (x :: y :: r)) with (len x + lens (y :: r))%nat. change (len (x :: y :: r)) with (S (len (y :: r))). lia.
Qed.
Lemma lens_app a b : lens (a ++ b) = (lens a + lens b)%nat.
Proof. induction a as [|x a IH]; cbn [app lens]; lia. Qed.
Lemma len_joined_le a b : (lens a <= lens b)%nat -> (len a <= len b)%nat -> (len (joined a) <= len (joined b))%nat.
Proof. intros H1 H2. destruct (len_joined a) as [A| ->], (len_joined b) as [E| ->]; cbn in *; lia. Qed.
Lemma len_listing a : len (listing a) = (2 + len (joined a))%nat.
Proof. unfold listing. rewrite !app_length. cbn. lia. Qed.
Lemma len_in x l : In x l -> (len x <= len (joined l))%nat.
Proof.
  intros H. apply in_split in H as (a & b & ->). destruct (len_joined (a ++ x :: b)) as [E|E]; [|destruct a; discriminate E].
  rewrite lens_app, app_length in E. cbn [lens len] in E. change (List.length (x :: b)) with (S (len b)) in E. lia.
Qed.
Lemma len_part a b c : (len (joined b) <= len (joined (a ++ b ++ c)))%nat.
Proof. apply len_joined_le; [rewrite !lens_app|rewrite !app_length]; lia. Qed.

(** Numerals *)
Lemma digits_value_snoc t c : digits_value (t ++ [c]) = (10 * digits_value t + digit_value c)%Z.
Proof. unfold digits_value. now rewrite fold_left_app. Qed.
Lemma digits_bounds t : Forall digit t -> (0 <= digits_value t < 10 ^ Z.of_nat (len t))%Z.
Proof.
  induction t as [|c t IH] using rev_ind; intros H; [cbn; lia|]. apply Forall_app in H as [H Hc]. apply Forall_inv in Hc. specialize (IH H).
  rewrite digits_value_snoc, app_length. cbn [len]. replace (Z.of_nat (len t + 1)) with (Z.succ (Z.of_nat (len t))) by lia. rewrite Z.pow_succ_r by lia.
  unfold digit, digit_value in *. lia.
Qed.
Lemma numeral_low t : Forall digit t -> t <> [] -> (forall r, t <> B "0" ++ r) -> (10 ^ (Z.of_nat (len t) - 1) <= digits_value t)%Z.
Proof.
  induction t as [|c t IH] using rev_ind; intros H N Z0; [congruence|]. apply Forall_app in H as [H Hc]. apply Forall_inv in Hc.
  rewrite digits_value_snoc, app_length. cbn [len]. destruct t as [|d t].
  - cbn. unfold digit, digit_value in *. assert (code c <> 48)%nat; [|lia]. intros E. apply (Z0 []). cbn [app].
    replace c with "0"%char; [reflexivity|]. unfold code in E. rewrite <- (ascii_nat_embedding c), E. reflexivity.
  - assert (N2 : d :: t <> []) by discriminate. assert (Z2 : forall r, d :: t <> B "0" ++ r) by (intros r E; apply (Z0 (r ++ [c])); rewrite E, <- app_assoc; reflexivity).
    specialize (IH H N2 Z2). replace (Z.of_nat (len (d :: t) + 1) - 1)%Z with (Z.succ (Z.of_nat (len (d :: t)) - 1))%Z by (cbn [len]; lia).
    rewrite Z.pow_succ_r by (cbn [len]; lia). unfold digit, digit_value in *. lia.
Qed.
Lemma numeral_length a s b t : numeral a s -> numeral b t -> (a <= b)%Z -> (len s <= len t)%nat.
Proof.
  intros (D1 & N1 & V1 & Z1) (D2 & N2 & V2 & Z2) H. unfold digits in *.
  destruct Z1 as [->|Z1]; [destruct t; [congruence|cbn; lia]|]. assert (A := numeral_low s D1 N1 Z1). assert (C := digits_bounds t D2).
  destruct (Nat.le_gt_cases (len s) (len t)) as [L|L]; auto. exfalso.
  assert (X : (10 ^ Z.of_nat (len t) <= 10 ^ (Z.of_nat (len s) - 1))%Z) by (apply Z.pow_le_mono_r; lia). lia.
Qed.
Lemma pow_gt k : (0 <= k -> k < 10 ^ k)%Z.
Proof. intros H. apply Z.pow_gt_lin_r; lia. Qed.
Lemma numeral_small n t : numeral n t -> (1 <= n)%Z -> (Z.of_nat (len t) <= n)%Z.
Proof.
  intros (D & N & V & Z0) H. destruct Z0 as [->|Z0]; [cbn; lia|]. assert (A := numeral_low t D N Z0).
  assert (1 <= Z.of_nat (len t))%Z by (destruct t; [congruence|cbn; lia]). assert (C := pow_gt (Z.of_nat (len t) - 1) ltac:(lia)). lia.
Qed.
(** The numeral of a number of elements. *)
Lemma count_length n z t : (0 <= n)%Z -> prints_int n t -> (n <= z)%Z -> (1 <= z)%Z -> (Z.of_nat (len t) <= z)%Z.
Proof.
  intros H [[_ P]|[P _]] L L1; [|lia]. destruct (Z.le_gt_cases 1 n) as [G|G]; [assert (X := numeral_small _ _ P G); lia|].
  assert (n = 0)%Z by lia. subst n. assert (X := numeral_length 0 t 1 (B "1") P). enough (len t <= 1)%nat by lia. apply X; [|lia].
  split; [repeat constructor; cbn; lia|]. split; [discriminate|]. split; [reflexivity|]. right. intros r E. discriminate E.
Qed.

(** Texts of values *)
Lemma shows_all p v texts texts' : Forall2 (shows p) v texts -> Forall2 (shows p) v texts' -> texts = texts'.
Proof.
  intros H. revert texts'. induction H as [|x t v texts Hx H IH]; intros texts' H'; inversion H' as [|? t' ? ? Hx' Hr]; subst; auto. f_equal; [exact (shows_unique _ _ _ _ Hx Hx')|auto].
Qed.
Lemma Forall2_length {A C} (R : A -> C -> Prop) l l' : Forall2 R l l' -> List.length l = List.length l'.
Proof. induction 1; cbn; congruence. Qed.
Lemma list_at_least p v texts : Forall2 (shows p) v texts -> (2 + len (joined texts) >= S (len v))%nat.
Proof.
  intros H. assert (L := Forall2_length _ _ _ H). destruct (len_joined texts) as [E| ->]; [|cbn in *; lia].
  assert (X : (len texts <= lens texts)%nat).
  { clear E L. induction H as [|x t v texts Hx H IH]; cbn [lens len]; [lia|]. assert (1 <= len t)%nat; [|cbn [len] in *; change (len (t :: texts)) with (S (len texts)); lia].
    destruct Hx as [[]| |z t [[_ (_ & N & _)]|[_ (t' & -> & _)]]|f t Hf|w]; cbn; try lia.
    - destruct t; [congruence|cbn; lia].
    - destruct f as [s|s| |s m e]; cbn [prints_float] in Hf.
      + destruct Hf as (body & -> & Hb). rewrite app_length. destruct (places p); cbn in Hb; [destruct Hb as (_ & N & _); destruct body; [congruence|cbn; lia]|].
        destruct Hb as (ip & fp & -> & _). rewrite !app_length. cbn. lia.
      + subst t. rewrite app_length. cbn. lia.
      + subst t. cbn. lia.
      + destruct Hf as (k & body & -> & Hb & _). rewrite app_length. destruct (places p); cbn in Hb; [destruct Hb as (_ & N & _); destruct body; [congruence|cbn; lia]|].
        destruct Hb as (ip & fp & -> & _). rewrite !app_length. cbn. lia. }
  lia.
Qed.
Lemma part_of_list p pre mid post g ans : shows_list p (pre ++ mid ++ post) g -> shows_list p mid ans -> (len ans <= len g)%nat.
Proof.
  intros (T & F & ->) (T' & F' & ->). apply Forall2_app_inv_l in F as (t1 & t23 & F1 & F23 & ->). apply Forall2_app_inv_l in F23 as (t2 & t3 & F2 & F3 & ->).
  rewrite (shows_all _ _ _ _ F' F2), !len_listing. assert (X := len_part t1 t2 t3). lia.
Qed.
Lemma element_of_list p pre x post g ans : shows_list p (pre ++ x :: post) g -> shows p x ans -> (len ans <= len g)%nat.
Proof.
  intros (T & F & ->) H. apply Forall2_app_inv_l in F as (t1 & t23 & F1 & F23 & ->). inversion F23 as [|? t ? t3 F2 F3]; subst.
  rewrite (shows_unique _ _ _ _ H F2), len_listing. assert (X := len_in t (t1 ++ t :: t3) (in_elt _ _ _)). lia.
Qed.
Lemma number_of_list p v g n ans : shows_list p v g -> prints_int n ans -> (-1 <= n <= size v)%Z -> (len ans <= len g)%nat.
Proof.
  intros (T & F & ->) P R. rewrite len_listing. assert (L := list_at_least p v T F). destruct (Z.eq_dec n (-1)) as [->|N].
  - destruct P as [[P _]|(_ & t' & -> & P)]; [lia|]. rewrite app_length. cbn [len]. assert (X := numeral_small _ _ P ltac:(lia)). change (len (B "-")) with 1%nat. lia.
  - assert (X := count_length n (Z.max 1 (size v)) ans ltac:(lia) P ltac:(lia) ltac:(lia)). unfold size in *. lia.
Qed.
Lemma escapes_app a b : with_escapes (a ++ b) = with_escapes a ++ with_escapes b.
Proof. apply flat_map_app. Qed.
Lemma part_of_string a b c : (len (printed_string b) <= len (printed_string (a ++ b ++ c)))%nat.
Proof. unfold printed_string. rewrite !escapes_app, !app_length. cbn [len]. lia. Qed.
Lemma string_at_least v : (len v + 2 <= len (printed_string v))%nat.
Proof.
  unfold printed_string. rewrite !app_length. cbn [len]. enough (len v <= len (with_escapes v))%nat by lia. unfold with_escapes.
  induction v as [|x v IH]; cbn [flat_map]; [lia|]. rewrite app_length. cbn [len]. destruct (ascii_dec x QUOTE); cbn [len]; lia.
Qed.
Lemma truth_length b : (len (truth b) <= 5)%nat.
Proof. destruct b; cbn; lia. Qed.

Lemma seq_effect_length p t m args v v' ans g : seq_effect p t m args v v' ans -> shows_list p v g -> (len ans <= Nat.max (len g) 5)%nat.
Proof.
  intros H G. destruct H; try (assert (T := truth_length true); assert (T' := truth_length false); lia); try (cbn [B]; change (len (B "null")) with 4%nat; lia).
  - rewrite (shows_list_unique _ _ _ _ G H). lia.
  - assert (X := number_of_list _ _ _ _ _ G H ltac:(unfold size; lia)). lia.
  - assert (X := element_of_list _ _ _ _ _ _ G H0). lia.
  - assert (X := part_of_list p [] pre post g ans G H1). lia.
  - assert (X := part_of_list p pre post [] g ans ltac:(rewrite app_nil_r; exact G) H1). lia.
  - assert (X := part_of_list p pre post [] g ans ltac:(rewrite app_nil_r; exact G) H0). lia.
  - assert (X := part_of_list p pre mid post g ans G H1). lia.
  - assert (X := element_of_list p v x [] g ans G H). lia.
  - assert (X := element_of_list p [] x v g ans G H). lia.
  - assert (X := element_of_list p pre x post g ans G H0). lia.
Qed.
Lemma positions_length tol x v l : positions tol x 0 v l -> (len l <= len v)%nat.
Proof.
  intros [S I]. transitivity (len (map Z.of_nat (seq 0 (len v)))); [|rewrite map_length, seq_length; lia].
  apply NoDup_incl_length.
  - clear I. induction S as [|a l S IH F]; constructor; auto. intros X. rewrite Forall_forall in F. specialize (F a X). lia.
  - intros i Hi. apply I in Hi as (k & y & -> & E & _). cbn. apply in_map, in_seq. assert (nth_error v k <> None) by congruence. apply nth_error_Some in H. lia.
Qed.
Lemma first_range tol x base v i : first_match tol x base v i -> (0 <= base)%Z -> (-1 <= i <= base + size v)%Z.
Proof. unfold size. intros [[-> _]|(pre & y & post & -> & _ & _ & ->)] H; [lia|]. unfold size. rewrite app_length. cbn [List.length]. lia. Qed.
Lemma search_effect_length p tol t m args v v' ans g : search_effect tol t m args v v' ans -> shows_list p v g -> m <> B "allIndexesOf:" -> (len ans <= Nat.max (len g) 5)%nat.
Proof.
  intros H G N. destruct H; try (assert (T := truth_length true); assert (T' := truth_length false); lia); try (change (len (B "null")) with 4%nat; lia); try congruence.
  - assert (P := positions_length _ _ _ _ H0). assert (X := number_of_list _ _ _ _ _ G H1 ltac:(unfold size; lia)). lia.
  - assert (P := first_range _ _ _ _ _ H0 ltac:(lia)). assert (X := number_of_list _ _ _ _ _ G H1 ltac:(lia)). lia.
  - assert (P := first_range _ _ _ _ _ H1 ltac:(unfold size; lia)). assert (X := number_of_list _ _ _ _ _ G H2 ltac:(unfold size in *; rewrite app_length; lia)). lia.
Qed.
Lemma string_effect_length m args v v' ans : string_effect m args v v' ans -> (len ans <= Nat.max (len (printed_string v)) 5)%nat.
Proof.
  intros H. destruct H; try (assert (T := truth_length true); assert (T' := truth_length false); lia); try (change (len (B "null")) with 4%nat; lia);
    try (change (len (printed_character x)) with 3%nat; lia); try lia.
  - assert (L := string_at_least v). assert (X := count_length (size v) (Z.max 1 (size v)) ans ltac:(unfold size; lia) H ltac:(lia) ltac:(lia)). unfold size in *. lia.
  - assert (X := part_of_string [] pre post). cbn [app] in X. lia.
  - assert (X := part_of_string pre post []). rewrite app_nil_r in X. lia.
  - assert (X := part_of_string pre post []). rewrite app_nil_r in X. lia.
  - assert (X := part_of_string pre mid post). lia.
Qed.

Lemma pair_parts (texts : list (bytes * bytes)) : (lens (map fst texts) <= lens (map pair_text texts) /\ lens (map snd texts) <= lens (map pair_text texts))%nat.
Proof.
  induction texts as [|[a b] l IH]; cbn [map lens fst snd]; [lia|]. replace (len (pair_text (a, b))) with (3 + len a + len b)%nat; [lia|].
  unfold pair_text. cbn [fst snd]. rewrite !app_length. change (len (B "(")) with 1%nat. change (len (B ",")) with 1%nat. change (len (B ")")) with 1%nat. lia.
Qed.
Lemma pairs_split p d texts : Forall2 (fun x q => shows p (fst x) (fst q) /\ shows p (snd x) (snd q)) d texts ->
  Forall2 (shows p) (map fst d) (map fst texts) /\ Forall2 (shows p) (map snd d) (map snd texts).
Proof. induction 1 as [|x q d l [A1 A2] H [I1 I2]]; cbn [map]; split; constructor; auto. Qed.
Lemma dictionary_length p d g : shows_dictionary p d g -> exists tk tv, Forall2 (shows p) (map fst d) tk /\ Forall2 (shows p) (map snd d) tv /\
  (2 + len (joined tk) <= len g)%nat /\ (2 + len (joined tv) <= len g)%nat.
Proof.
  intros (T & F & ->). destruct (pairs_split _ _ _ F) as [F1 F2]. exists (map fst T), (map snd T). split; auto. split; auto. destruct (pair_parts T) as [P1 P2].
  assert (X := len_joined_le (map fst T) (map pair_text T) P1 ltac:(rewrite !map_length; lia)). assert (Y := len_joined_le (map snd T) (map pair_text T) P2 ltac:(rewrite !map_length; lia)).
  rewrite !app_length. change (len (B "(")) with 1%nat. change (len (B ")")) with 1%nat. lia.
Qed.
Lemma message_effect_length p tol i m args i' ans g : message_effect p tol i m args i' ans -> variable_text p i g ->
  (m = B "allIndexesOf:" -> forall t v, i <> IVector t v) -> (len ans <= Nat.max (len g) 5)%nat.
Proof.
  intros H G N. destruct H; cbn [variable_text] in G; try (match goal with |- context [truth ?b] => assert (T := truth_length b); lia end); try (change (len (B "null")) with 4%nat; lia).
  - destruct H; try (match goal with |- context [truth ?b] => assert (T := truth_length b); lia end); try (change (len (B "null")) with 4%nat; lia).
    rewrite (shows_unique _ _ _ _ G H). lia.
  - assert (X := string_effect_length _ _ _ _ _ H). inversion G; subst. exact X.
  - exact (seq_effect_length _ _ _ _ _ _ _ _ H G).
  - refine (search_effect_length _ _ _ _ _ _ _ _ _ H G _). intros Q. exact (N Q t v eq_refl).
  - destruct G as (T & F & ->), H as (T' & F' & ->). rewrite (shows_all _ _ _ _ F F'). lia.
  - destruct G as (T & F & ->). assert (X := number_of_list p v _ _ _ (ex_intro _ T (conj F eq_refl)) H ltac:(unfold size; lia)). rewrite len_listing in X.
    unfold braces. rewrite !app_length. change (len (B "{")) with 1%nat. change (len (B "}")) with 1%nat. lia.
  - destruct G as (T & F & ->), H as (T' & F' & ->). replace T' with T; [lia|]. clear -F F'. revert T' F'. induction F as [|x q d l [A1 A2] H IH]; intros T' F'; inversion F' as [|? q' ? ? [B1 B2] Hr]; subst; auto.
    f_equal; auto. destruct q, q'. cbn [fst snd] in *. now rewrite (shows_unique _ _ _ _ A1 B1), (shows_unique _ _ _ _ A2 B2).
  - destruct (dictionary_length _ _ _ G) as (tk & tv & F1 & F2 & L1 & L2). assert (X := number_of_list p (map fst d) _ _ _ (ex_intro _ tk (conj F1 eq_refl)) H ltac:(unfold size; rewrite map_length; lia)).
    rewrite len_listing in X. lia.
  - destruct (dictionary_length _ _ _ G) as (tk & tv & F1 & F2 & L1 & L2). destruct H as (T & F & ->). rewrite (shows_all _ _ _ _ F F1), len_listing. lia.
  - destruct (dictionary_length _ _ _ G) as (tk & tv & F1 & F2 & L1 & L2). destruct H as (T & F & ->). rewrite (shows_all _ _ _ _ F F2), len_listing. lia.
  - destruct (dictionary_length _ _ _ G) as (tk & tv & F1 & F2 & L1 & L2). apply (in_map snd) in H1. cbn [snd] in H1. apply in_split in H1 as (a1 & a2 & E). rewrite E in F2.
    assert (X := element_of_list p a1 v a2 (listing tv) ans (ex_intro _ tv (conj F2 eq_refl)) H3). rewrite len_listing in X. lia.
Qed.
Lemma error_length ans : error_answer ans -> (len ans <= LONGEST_ERROR)%nat.
Proof. unfold error_answer. cbn [In]. intros H. repeat destruct H as [<-|H]; try (apply Nat.leb_le; vm_compute; reflexivity). destruct H. Qed.
(** The answer to allIndexesOf:. *)
Lemma indexes_length tol x v l texts z : positions tol x 0 v l -> Forall2 prints_int l texts -> prints_int (size v) z ->
  (len (listing texts) <= 2 + len v * (len z + 1))%nat.
Proof.
  intros P F Z. rewrite len_listing. assert (L := positions_length _ _ _ _ P). assert (E := Forall2_length _ _ _ F).
  assert (X : (lens texts <= len texts * len z)%nat).
  { destruct P as [_ P]. assert (Q : forall i, In i l -> (0 <= i <= size v)%Z).
    { intros i Hi. apply P in Hi as (k & y & -> & Hk & _). assert (nth_error v k <> None) by congruence. apply nth_error_Some in H. unfold size. lia. }
    clear -F Q Z. induction F as [|i t l texts Hi F IH]; cbn [lens]; [lia|]. change (len (t :: texts)) with (S (len texts)).
    assert (len t <= len z)%nat; [|specialize (IH (fun j Hj => Q j (or_intror Hj))); lia]. destruct (Q i (or_introl eq_refl)) as [Q1 Q2].
    destruct Hi as [[_ Hi]|[Hi _]]; [|lia]. destruct Z as [[_ Z]|[Z _]]; [|unfold size in Z; lia]. exact (numeral_length _ _ _ _ Hi Z Q2). }
  assert (Y : (len texts * len z + len texts <= len v * (len z + 1))%nat) by nia.
  destruct (len_joined texts) as [J| ->]; [lia|cbn; lia].
Qed.
