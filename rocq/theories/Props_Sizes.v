(** C93: no size becomes too great for an [int] before 2147483648 bytes were sent. *)
From Coq Require Import String List Ascii ZArith Lia.
From Verif Require Import Bytes StrUtils Outcome Num Instance Context Server Platform.
From Verif Require Import Spec_Grammar Spec_State Spec_Names Spec_Text Spec_Number Spec_Server Spec_Clients Spec_Secret Spec_Origin Spec_Sizes.
From Verif Require Import Proof_Server Props_State Props_Server Props_Clients Props_Observe Props_Origin Props_Publish.
From Verif Require Import Spec_Sizes.
Import ListNotations.
Open Scope list_scope.
Open Scope nat_scope.

Definition with_nl (ls : list bytes) : nat := list_sum (map (fun l => S (length l)) ls).
Lemma with_nl_app a b : with_nl (a ++ b) = with_nl a + with_nl b.
Proof. unfold with_nl. now rewrite map_app, list_sum_app. Qed.
Lemma with_nl_flat ls : length (flat_map with_newline ls) = with_nl ls.
Proof. induction ls as [|l ls IH]; [reflexivity|]. cbn [flat_map]. rewrite app_length, IH. unfold with_newline at 1. rewrite app_length. unfold with_nl. cbn [length map list_sum fold_right]. change (fold_right Nat.add 0) with list_sum. lia. Qed.
Lemma sum_plus {A} (f g : A -> nat) l : list_sum (map (fun x => f x + g x) l) = list_sum (map f l) + list_sum (map g l).
Proof. induction l as [|x l IH]; [reflexivity|]. cbn [map list_sum fold_right] in *. change (fold_right Nat.add 0) with list_sum in *. lia. Qed.
Lemma sum_mono {A} (f g : A -> nat) l : (forall x, In x l -> f x <= g x) -> list_sum (map f l) <= list_sum (map g l).
Proof.
  induction l as [|x l IH]; intros H; [auto|]. cbn [map list_sum fold_right]. change (fold_right Nat.add 0) with list_sum.
  assert (A1 := H x (or_introl eq_refl)). assert (A2 := IH (fun y Hy => H y (or_intror Hy))). lia.
Qed.
Lemma sum_only (k v : nat) ps : NoDup ps -> list_sum (map (fun p => if k =? p then v else 0) ps) = if in_dec Nat.eq_dec k ps then v else 0.
Proof.
  intros N. induction N as [|p ps Np N IH]; [reflexivity|]. cbn [map list_sum fold_right]. change (fold_right Nat.add 0) with list_sum. rewrite IH.
  destruct (Nat.eqb_spec k p) as [->|Ne].
  - destruct (in_dec Nat.eq_dec p ps); [contradiction|]. destruct (in_dec Nat.eq_dec p (p :: ps)) as [_|X]; [lia|destruct X; now left].
  - destruct (in_dec Nat.eq_dec k ps) as [I|I]; destruct (in_dec Nat.eq_dec k (p :: ps)) as [J|J]; auto; [destruct J; now right|destruct J as [->|J]; [congruence|contradiction]].
Qed.
Lemma all_arrived ps : NoDup ps -> forall es acc n, list_sum (map (fun p => length (arrives acc n es p)) ps) <= sent es.
Proof.
  intros N es. induction es as [|e es IH]; intros acc n.
  - unfold sent. cbn [map arrives length list_sum fold_right]. clear. induction ps; auto.
  - unfold sent. cbn [map list_sum fold_right]. change (fold_right Nat.add 0) with list_sum. fold (sent es).
    destruct e as [| |k b|k m|k m|k|k]; cbn [arrives]; try (specialize (IH acc n); lia); try (specialize (IH false n); lia); [specialize (IH acc (if acc then S n else n)); lia|].
    assert (A : list_sum (map (fun p => length ((if k =? p then if k <? n then b else [] else []) ++ arrives acc n es p)) ps) <=
                list_sum (map (fun p => (if k =? p then length b else 0) + length (arrives acc n es p)) ps)).
    { apply sum_mono. intros p _. rewrite app_length. destruct (k =? p), (k <? n); cbn [length]; lia. }
    rewrite sum_plus, sum_only in A by auto. specialize (IH acc n). destruct (in_dec Nat.eq_dec k ps); lia.
Qed.
Lemma by_session ps h : NoDup ps -> (forall e, In e h -> In (e_sid e) ps) -> list_sum (map (fun p => with_nl (lines_in p h)) ps) = with_nl (map e_line h).
Proof.
  intros N. induction h as [|e h IH]; intros F.
  - unfold with_nl. cbn. clear. induction ps; auto.
  - assert (A : list_sum (map (fun p => with_nl (lines_in p (e :: h))) ps) = list_sum (map (fun p => (if e_sid e =? p then S (length (e_line e)) else 0) + with_nl (lines_in p h)) ps)).
    { f_equal. apply map_ext. intros p. unfold lines_in, entries_of. cbn [filter]. destruct (e_sid e =? p); [|reflexivity]. reflexivity. }
    rewrite A, sum_plus, sum_only, IH by (auto; intros g Hg; apply F; now right). destruct (in_dec Nat.eq_dec (e_sid e) ps) as [_|X]; [reflexivity|]. destruct X. apply F. now left.
Qed.
Lemma lines_paid srt pw c0 es h : explains srt pw c0 es h -> with_nl (map e_line h) <= sent es.
Proof.
  intros X. set (ps := nodup Nat.eq_dec (map e_sid h)). assert (N : NoDup ps) by apply NoDup_nodup.
  rewrite <- (by_session ps h N) by (intros e He; apply nodup_In, in_map; auto).
  refine (Nat.le_trans _ _ _ _ (all_arrived ps N es true 0)). apply sum_mono. intros p _. fold (arrived es p).
  destruct (lines_of_exists (arrived es p)) as (ls & rest & L). destruct (first_lines _ _ _ _ _ _ _ _ X L) as (more & E). destruct L as (L & _).
  rewrite L, app_length, with_nl_flat, E, with_nl_app. lia.
Qed.
Lemma executed_fewer h : with_nl (executed_lines h) <= with_nl (map e_line h).
Proof.
  induction h as [|e h IH]; [auto|]. unfold executed_lines. cbn [flat_map map]. fold (executed_lines h). rewrite with_nl_app. cbn [map]. unfold with_nl at 3. cbn [map list_sum fold_right].
  change (fold_right Nat.add 0 (map (fun l => S (length l)) (map e_line h))) with (with_nl (map e_line h)). destruct (e_outcome e); unfold with_nl at 1; cbn; lia.
Qed.
Lemma one_of_them l ls : In l ls -> S (length l) <= with_nl ls.
Proof. intros I. apply in_split in I as (a & b & ->). rewrite with_nl_app. unfold with_nl at 2. cbn [map list_sum fold_right]. lia. Qed.
Lemma count_them ls : length ls <= with_nl ls.
Proof. induction ls as [|l ls IH]; [auto|]. unfold with_nl in *. cbn [map list_sum fold_right length] in *. change (fold_right Nat.add 0) with list_sum in *. lia. Qed.
Lemma total_at_most P w l k : total P w l k -> k <= list_sum (map w l).
Proof. intros H. induction H; [auto| |]; rewrite map_app, list_sum_app; cbn [map list_sum fold_right]; lia. Qed.
Lemma lengths_at_most ls : list_sum (map (@length ascii) ls) <= with_nl ls.
Proof. unfold with_nl. apply sum_mono. auto. Qed.

(** Every size that occurs is at most the number of bytes sent. *)
Theorem C93_sizes_are_paid_for : forall srt pw opened precision tol is_quiet es, sort_contract srt -> single_precision tol ->
  let sv := run srt (start pw (new_context opened precision tol is_quiet)) es in sv_crash sv = None ->
  (forall sid line, complete_line (arrived es sid) line -> length line < sent es) /\
  (forall n i, lookup (sv_ctx sv) n = Some i -> length n < sent es /\ forall k, occurs k i -> k < sent es) /\
  (forall names, NoDup names -> list_sum (map (weight (sv_ctx sv)) names) <= sent es).
Proof.
  intros srt pw opened precision tol is_quiet es K T sv C. destruct (C62_of_a_server srt pw opened precision tol is_quiet es T C) as (h & X & R). fold sv in R.
  assert (Paid := lines_paid _ _ _ _ _ X). assert (Fewer := executed_fewer h). set (ls := executed_lines h) in *. split; [|split].
  - intros sid line (l2 & rest & L & I). assert (A := all_arrived [sid] ltac:(constructor; [intros []|constructor]) es true 0). cbn [map list_sum fold_right] in A. fold (arrived es sid) in A.
    destruct L as (L & _). rewrite L, app_length, with_nl_flat in A. assert (B1 := one_of_them _ _ I). lia.
  - intros n i L. destruct (C62_length_of_texts _ _ _ _ _ _ K R L) as ((l1 & I1 & N1) & Tx & Str). split; [assert (A := one_of_them _ _ I1); lia|].
    intros k [->|[(v & -> & ->)|(v & I & ->)]].
    + destruct (C62_elements_were_inserted _ _ _ _ _ _ K R L) as (bf & l & af & k & E & _ & _ & Tt & Le). apply total_at_most in Tt.
      assert (Q0 : list_sum (map one af) <= with_nl af) by (apply sum_mono; intros; unfold one; lia).
      assert (Q : with_nl ls = with_nl bf + (S (length l) + with_nl af)) by (rewrite E, with_nl_app; reflexivity). lia.
    + destruct (Str v eq_refl) as (bf & l & af & k & E & _ & Tt & Lt). apply total_at_most in Tt. assert (Q0 : k <= with_nl af) by (eapply Nat.le_trans; [exact Tt|apply lengths_at_most]).
      assert (Q : with_nl ls = with_nl bf + (S (length l) + with_nl af)) by (rewrite E, with_nl_app; reflexivity). lia.
    + destruct (Tx v I) as (l & Il & Lt). assert (A := one_of_them _ _ Il). lia.
  - intros names N. assert (A := C62_size_of_the_data _ _ _ _ names K R N). assert (B1 := count_them ls). lia.
Qed.
(** So as long as at most 2147483647 bytes were sent, converting a size to [int] does not change it. *)
Theorem C93_no_size_overflows : forall srt pw opened precision tol is_quiet es, sort_contract srt -> single_precision tol ->
  let sv := run srt (start pw (new_context opened precision tol is_quiet)) es in sv_crash sv = None -> (Z.of_nat (sent es) <= 2147483647)%Z ->
  (forall sid line, complete_line (arrived es sid) line -> as_int (length line) = Z.of_nat (length line)) /\
  (forall n i, lookup (sv_ctx sv) n = Some i -> as_int (length n) = Z.of_nat (length n) /\ forall k, occurs k i -> as_int k = Z.of_nat k) /\
  (forall names, NoDup names -> (forall n, In n names -> live (sv_ctx sv) n) -> as_int (length names) = Z.of_nat (length names)).
Proof.
  intros srt pw opened precision tol is_quiet es K T sv C Sz.
  assert (F : forall k, k <= sent es -> as_int k = Z.of_nat k) by (intros k Hk; unfold as_int; rewrite Z.mod_small; lia).
  destruct (C93_sizes_are_paid_for srt pw opened precision tol is_quiet es K T C) as (A & B1 & C1). fold sv in B1, C1. split; [|split].
  - intros sid line H. apply F, Nat.lt_le_incl. eauto.
  - intros n i L. destruct (B1 n i L) as [X Y]. split; [apply F; lia|]. intros k Hk. apply F, Nat.lt_le_incl. auto.
  - intros names N H. apply F. specialize (C1 names N). clear - C1 H. assert (length names <= list_sum (map (weight (sv_ctx sv)) names)); [|lia]. clear C1.
    induction names as [|n names IH]; [auto|]. cbn [length map list_sum fold_right]. change (fold_right Nat.add 0) with list_sum.
    assert (Q : 1 <= weight (sv_ctx sv) n). { assert (Lv := H n (or_introl eq_refl)). unfold live in Lv. unfold weight. destruct (lookup (sv_ctx sv) n); [lia|congruence]. }
    assert (Q2 := IH (fun m Hm => H m (or_intror Hm))). lia.
Qed.

(** Two clients send 57 bytes in all; the greatest size that comes of it is 9. *)
Definition some_sizes : list event :=
  [Accept; Accept] ++ talk 0 (B "String create: s withValue: ""abcdefgh"";") ++ talk 1 (B "s pushBack: 'i';").
Example C93_ex : let sv := run insertion_sort (start [] empty_server) some_sizes in single_precision (to_float (SpecFloat.S754_zero false)) /\
  sv_crash sv = None /\ sent some_sizes = 57 /\ lookup (sv_ctx sv) (B "s") = Some (IObj (OStr (B "abcdefghi"))) /\ occurs 9 (IObj (OStr (B "abcdefghi"))) /\
  as_int 9 = 9%Z.
Proof. cbv zeta. split; [reflexivity|]. split; [vm_compute; reflexivity|]. split; [vm_compute; reflexivity|]. split; [vm_compute; reflexivity|]. split; [right; left; eexists; split; reflexivity|reflexivity]. Qed.
(** The conversion does change greater numbers: a size of 2147483648 would become negative. *)
Example C93_as_int : forall n, Z.of_nat n = 2147483648%Z -> as_int n = (-2147483648)%Z.
Proof. intros n E. unfold as_int. rewrite E. reflexivity. Qed.
Print Assumptions C93_sizes_are_paid_for.
Print Assumptions C93_no_size_overflows.
