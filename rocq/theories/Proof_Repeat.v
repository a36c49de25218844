(** Lemmas for C61: which operations are idempotent. *)
From Coq Require Import ZArith Permutation.
From Verif Require Import Bytes StrUtils Grammar Outcome Parser Num Containers Instance Context Platform.
From Verif Require Import Lemmas StringLit Proof_Grammar Proof_Parser Proof_Exec Proof_Inv Proof_Literal Proof_Receive Proof_Context Proof_Names Api Proof_Vector Proof_Order Props_Number Props_Order Props_Sorter.
From Verif Require Import Spec_Grammar Spec_State Spec_Names Spec_Order Spec_Vector Spec_Repeat.
Local Open Scope Z_scope.
Local Open Scope list_scope.

(** Run again from where it ended, the computation ends there again, in the same way. *)
Definition idem {S} (m : M S str) (s : S) : Prop := forall s1 r, m s = (s1, r) -> ~ is_ub r -> m s1 = (s1, r).
Lemma const_idem {S} (m : M S str) s : const m -> idem m s.
Proof. intros C s1 r E _. assert (X := C s). rewrite E in X. cbn in X. now subst. Qed.
Lemma dispatch_idem {S} (table : list (str * (list str -> M S str))) bad msg args s : ~ In msg bad ->
  Forall (fun p => In (fst p) bad \/ idem (snd p args) s) table -> idem (dispatch table msg args) s.
Proof.
  intros Hm H. apply (dispatch_cases (fun m => idem m s)); [apply const_idem, const_throw|]. eapply Forall_impl; [|exact H]. cbn beta. intros p [Hp|Hp] E; auto.
  exfalso. apply Hm. now rewrite E.
Qed.
(** Tests that do not depend on the state come first. *)
Lemma idem_bind_pure {S A} (p : M S A) (f : A -> M S str) s : (forall s1 s2, fst (p s1) = s1 /\ snd (p s1) = snd (p s2)) -> (forall a, idem (f a) s) -> idem (bind p f) s.
Proof.
  intros P F s1 r E U. unfold bind in *. destruct (P s s1) as [A1 A2]. destruct (P s1 s) as [B1 _].
  destruct (p s) as [s' q]. destruct (p s1) as [s1' q1]. cbn in A1, A2, B1. subst s' s1' q1.
  destruct q as [a|e|u].
  - exact (F a s1 r E U).
  - inversion E; subst. reflexivity.
  - inversion E; subst. destruct U. exact I.
Qed.
Lemma pure_check {S} args n (s1 s2 : S) : fst (check_nargs args n s1) = s1 /\ snd (check_nargs args n s1) = snd (check_nargs args n s2).
Proof. unfold check_nargs, throw_if. destruct (_ : bool); split; reflexivity. Qed.
Lemma pure_arg {S} args n (s1 s2 : S) : fst (arg args n s1) = s1 /\ snd (arg args n s1) = snd (arg args n s2).
Proof. unfold arg. destruct (nth_error args n); split; reflexivity. Qed.
Lemma pure_lift {S A} (q : res A) (s1 s2 : S) : fst (lift q s1) = s1 /\ snd (lift q s1) = snd (lift q s2).
Proof. split; reflexivity. Qed.
Lemma pure_throw_if {S} b e (s1 s2 : S) : fst (throw_if b e s1) = s1 /\ snd (throw_if b e s1) = snd (throw_if b e s2).
Proof. unfold throw_if. destruct b; split; reflexivity. Qed.
Lemma idem_put {S} (x : S) s : idem (put x ;;; ret null) s.
Proof. intros s1 r E U. cbn in E |- *. now inversion E. Qed.
Ltac pure := repeat (apply idem_bind_pure; [intros ? ?; first [apply pure_check|apply pure_arg|apply pure_lift|apply pure_throw_if]|intros ?]).
Ltac pure_op := lazymatch goal with |- idem ?t _ => let f := head t in unfold f end; pure; try apply idem_put.
(** A read, then a total rewriting that is idempotent. *)
Lemma idem_rewrite {S} (f : S -> res S) s : (forall s1, f s = Ok s1 -> f s1 = Ok s1) -> idem (v <- get ;; r <- lift (f v) ;; put r ;;; ret null) s.
Proof.
  intros H s1 r E U. unfold bind, Outcome.get, lift, put, ret in *. destruct (f s) as [x|e|u] eqn:F; inversion E; subst.
  - now rewrite (H _ eq_refl).
  - now rewrite F.
  - destruct U. exact I.
Qed.

(** Erasing a tail. *)
Lemma zlen_nat {A} (l : list A) : zlen l = Z.of_nat (length l). Proof. reflexivity. Qed.
Lemma firstn_twice {A} (l : list A) k : firstn k (firstn k l) = firstn k l.
Proof. rewrite firstn_firstn. f_equal. lia. Qed.
Lemma firstn_zlen {A} (l : list A) z : 0 <= z -> z <= zlen l -> zlen (firstn (Z.to_nat z) l) = z.
Proof. intros H1 H2. rewrite zlen_nat in *. rewrite firstn_length. lia. Qed.
Lemma string_erase_idem args s : idem (string_eraseFromIndex args) s.
Proof.
  unfold string_eraseFromIndex. pure. rename a1 into i. intros s1 r E U. unfold bind, Outcome.get, throw_if, lift, put, ret, throw in *.
  destruct (_ || _) eqn:B; [inversion E; subst; now rewrite B|]. assert (C := B).
  apply Bool.orb_false_iff in B as [B1 B2]. apply Z.ltb_ge in B1, B2.
  unfold str_erase_from in *. rewrite C in E. inversion E; subst. rewrite (firstn_zlen s i) by auto.
  destruct (i <? 0) eqn:X; [apply Z.ltb_lt in X; lia|]. rewrite Z.ltb_irrefl. cbn [orb]. now rewrite firstn_twice.
Qed.
Lemma vector_erase_idem args v : idem (vector_eraseFromIndex args) v.
Proof.
  unfold vector_eraseFromIndex. pure. rename a1 into i. intros s1 r E U. unfold bind, Outcome.get, throw_if, lift, put, ret, throw in *.
  destruct (_ || _) eqn:B; [inversion E; subst; now rewrite B|].
  apply Bool.orb_false_iff in B as [B1 B2].
  unfold vec_erase_range in *. rewrite B1, B2, Z.ltb_irrefl in E. cbn [orb] in E. inversion E; subst. apply Z.ltb_ge in B1, B2.
  assert (K : skipn (Z.to_nat (zlen v)) v = []) by (rewrite zlen_nat, Nat2Z.id; apply skipn_all). rewrite K, app_nil_r, (firstn_zlen v i) by auto.
  destruct (i <? 0) eqn:X; [apply Z.ltb_lt in X; lia|]. rewrite Z.ltb_irrefl. cbn [orb]. do 2 f_equal.
  rewrite firstn_twice. rewrite skipn_all2; [apply app_nil_r|]. rewrite firstn_length. lia.
Qed.

(** removeAll: and replaceAll:with:, when comparisons do not fail. *)
Section Loops.
Context (E : env) (t : str) (x : obj) (e : obj -> bool).
Notation decided v := (Forall (fun y => is_equal_to (e_tolerance E) y x = Ok (e y)) v).
Ltac sizes := repeat match goal with
  | |- context [?a <? ?b] => first [replace (a <? b) with true by (symmetry; apply Z.ltb_lt; unfold size; rewrite ?app_length; cbn [length]; lia)
                                   |replace (a <? b) with false by (symmetry; apply Z.ltb_ge; unfold size; rewrite ?app_length; cbn [length]; lia)] end.
Lemma remove_all_run fuel : forall pre rest, decided rest -> (length rest <= fuel)%nat ->
  remove_all_loop E fuel (size pre) x (pre ++ rest) = (pre ++ filter (fun y => negb (e y)) rest, Ok tt).
Proof.
  induction fuel as [|f IH]; intros pre rest H L.
  - destruct rest; [|cbn in L; lia]. cbn [remove_all_loop filter]. unfold bind, Outcome.get. change (zlen (pre ++ [])) with (size (pre ++ [])). sizes. reflexivity.
  - cbn [remove_all_loop]. unfold bind, Outcome.get, lift, put. change (zlen (pre ++ rest)) with (size (pre ++ rest)).
    destruct rest as [|y rest]; [rewrite app_nil_r; sizes; cbn [filter]; now rewrite app_nil_r|].
    inversion H as [|? ? Hy H']; subst. sizes. rewrite vec_at_mid, Hy. cbn [filter].
    destruct (e y); cbn [negb].
    + rewrite vec_erase_at_mid. apply IH; auto. cbn in L. lia.
    + replace (size pre + 1) with (size (pre ++ [y])) by (rewrite size_app; reflexivity).
      change (y :: rest) with ([y] ++ rest). rewrite app_assoc. rewrite IH by (auto; cbn in L; lia). now rewrite <- app_assoc.
Qed.
Context (w : str) (z : obj) (Hw : get_shared_instance t w = Ok z).
Lemma replace_all_run fuel : forall pre rest, decided rest -> (length rest <= fuel)%nat ->
  replace_loop E t fuel false (size pre) x w (pre ++ rest) = (pre ++ map (fun y => if e y then z else y) rest, Ok tt).
Proof using Hw.
  induction fuel as [|f IH]; intros pre rest H L.
  - destruct rest; [|cbn in L; lia]. cbn [replace_loop map]. unfold bind, Outcome.get. change (zlen (pre ++ [])) with (size (pre ++ [])). sizes. reflexivity.
  - cbn [replace_loop]. unfold bind, Outcome.get, lift, put. change (zlen (pre ++ rest)) with (size (pre ++ rest)).
    destruct rest as [|y rest]; [rewrite app_nil_r; sizes; cbn [map]; now rewrite app_nil_r|].
    inversion H as [|? ? Hy H']; subst. sizes. rewrite vec_at_mid, Hy. cbn [map].
    destruct (e y).
    + rewrite Hw, vec_set_mid. replace (size pre + 1) with (size (pre ++ [z])) by (rewrite size_app; reflexivity).
      change (z :: rest) with ([z] ++ rest). rewrite app_assoc. rewrite IH by (auto; cbn in L; lia). now rewrite <- app_assoc.
    + replace (size pre + 1) with (size (pre ++ [y])) by (rewrite size_app; reflexivity).
      change (y :: rest) with ([y] ++ rest). rewrite app_assoc. rewrite IH by (auto; cbn in L; lia). now rewrite <- app_assoc.
Qed.
End Loops.
Definition eqb_to (E : env) (x y : obj) : bool := match is_equal_to (e_tolerance E) y x with Ok b => b | _ => false end.
Section Vector.
Context (E : env) (t : str) (Ht : object_type t).
Notation G := (Forall (good false t)).
Lemma read_good a x : get_shared_instance t a = Ok x -> good false t x.
Proof using Ht. intros H. assert (X := get_shared_instance_cases false t a Ht (clean_false a)). rewrite H in X. exact X. Qed.
Lemma decided v x : G v -> good false t x -> Forall (fun y => is_equal_to (e_tolerance E) y x = Ok (eqb_to E x y)) v.
Proof using Type. intros H Hx. eapply Forall_impl; [|exact H]. intros y Hy. unfold eqb_to. destruct (good_equal false E t y x Hy Hx) as [r ->]. reflexivity. Qed.
Lemma filter_twice {A} (f : A -> bool) l : filter f (filter f l) = filter f l.
Proof. induction l as [|a l IH]; cbn; auto. destruct (f a) eqn:X; cbn; rewrite ?X, ?IH; auto. Qed.
Lemma vector_removeAll_idem args v : G v -> idem (vector_removeAll E t args) v.
Proof using Ht.
  intros Hv. unfold vector_removeAll. apply idem_bind_pure; [intros ? ?; apply pure_check|intros _]. apply idem_bind_pure; [intros ? ?; apply pure_arg|intros a].
  intros s1 r. unfold bind, lift. destruct (get_shared_instance t a) as [x|ex|u] eqn:X; [|intros Q _; inversion Q; subst; reflexivity|intros Q U; inversion Q; subst; destruct U; exact I].
  assert (Hx := read_good _ _ X). assert (Run : forall v, G v -> remove_all_loop E (length v) 0 x v = (filter (fun y => negb (eqb_to E x y)) v, Ok tt)).
  { intros l Hl. exact (remove_all_run E x (eqb_to E x) (length l) [] l (decided l x Hl Hx) (le_n _)). }
  unfold Outcome.get. rewrite (Run v Hv). intros Q _. inversion Q; subst. clear Q. rewrite Run by now apply Forall_filter. now rewrite filter_twice.
Qed.
Lemma vector_replaceAll_idem args v : G v -> idem (vector_replaceAll_with E t args) v.
Proof using Ht.
  intros Hv. unfold vector_replaceAll_with. apply idem_bind_pure; [intros ? ?; apply pure_check|intros _]. apply idem_bind_pure; [intros ? ?; apply pure_arg|intros a].
  intros s1 r. unfold bind, lift. destruct (get_shared_instance t a) as [x|ex|u] eqn:X; [|intros Q _; inversion Q; subst; reflexivity|intros Q U; inversion Q; subst; destruct U; exact I].
  unfold arg. destruct (nth_error args 1) as [w|]; [|intros Q U; inversion Q; subst; destruct U; exact I].
  cbn [ret]. unfold ret. destruct (get_shared_instance t w) as [z|ex|u] eqn:Z; [|intros Q _; inversion Q; subst; reflexivity|intros Q U; inversion Q; subst; destruct U; exact I].
  assert (Hx := read_good _ _ X). assert (Hz := read_good _ _ Z).
  assert (Run : forall v, G v -> replace_loop E t (length v) false 0 x w v = (map (fun y => if eqb_to E x y then z else y) v, Ok tt)).
  { intros l Hl. exact (replace_all_run E t x (eqb_to E x) w z Z (length l) [] l (decided l x Hl Hx) (le_n _)). }
  unfold Outcome.get. rewrite (Run v Hv). intros Q _. inversion Q; subst. clear Q. rewrite Run.
  - rewrite map_map. f_equal. apply map_ext. intros y. destruct (eqb_to E x y) eqn:Y; [now destruct (eqb_to E x z)|now rewrite Y].
  - clear Run. induction Hv; cbn; constructor; auto. now destruct (eqb_to E x x0).
Qed.
End Vector.

(** Sets and dictionaries. *)
Section Trees.
Context {A : Type} (lt : A -> A -> option bool).
Lemma swo_incl l l' : (forall x, In x l' -> In x l) -> strict_weak_order_on lt l = true -> strict_weak_order_on lt l' = true.
Proof.
  intros I. unfold strict_weak_order_on, defined_on. rewrite !andb_true_iff. intros ((H1 & H2) & H3). rewrite forallb_forall in H1, H2, H3.
  split; [split|]; apply forallb_forall; intros a Ha.
  - specialize (H1 a (I _ Ha)). rewrite forallb_forall in H1. apply forallb_forall. auto.
  - auto.
  - specialize (H3 a (I _ Ha)). rewrite forallb_forall in H3. apply forallb_forall. intros b Hb. specialize (H3 b (I _ Hb)). rewrite forallb_forall in H3. apply forallb_forall. auto.
Qed.
Lemma swo_trans l a b c : strict_weak_order_on lt l = true -> In a l -> In b l -> In c l -> ltb lt a b = true -> ltb lt b c = true -> ltb lt a c = true.
Proof.
  unfold strict_weak_order_on. rewrite !andb_true_iff. intros (_ & H) Ha Hb Hc X Y. rewrite forallb_forall in H. specialize (H a Ha).
  rewrite forallb_forall in H. specialize (H b Hb). rewrite forallb_forall in H. specialize (H c Hc). rewrite X, Y in H. cbn in H.
  apply andb_true_iff in H as [H _]. exact H.
Qed.
Lemma swo_irrefl l a : strict_weak_order_on lt l = true -> In a l -> ltb lt a a = false.
Proof.
  unfold strict_weak_order_on. rewrite !andb_true_iff. intros ((_ & H) & _) Ha. rewrite forallb_forall in H. specialize (H a Ha). now apply Bool.negb_true_iff in H.
Qed.
Lemma insert_incl l k x : In x (insert_sorted lt l k) -> In x (k :: l).
Proof.
  induction l as [|y l IH]; cbn [insert_sorted]; [auto|]. destruct (ltb lt y k); [|destruct (ltb lt k y); auto; now right].
  intros [->|H]; [right; now left|]. destruct (IH H) as [->|H']; [now left|right; now right].
Qed.
Lemma insert_strict l k : strict_weak_order_on lt (k :: l) = true -> strictly_sorted lt l = true -> strictly_sorted lt (insert_sorted lt l k) = true.
Proof.
  induction l as [|y l IH]; intros W S; cbn [insert_sorted]; [reflexivity|].
  cbn [strictly_sorted] in S. apply andb_true_iff in S as [S1 S2]. rewrite forallb_forall in S1.
  destruct (ltb lt y k) eqn:Y; [|destruct (ltb lt k y) eqn:K].
  - cbn [strictly_sorted]. apply andb_true_iff. split.
    + apply forallb_forall. intros x Hx. apply insert_incl in Hx as [<-|Hx]; auto.
    + apply IH; auto. eapply swo_incl; [|exact W]. intros x [->|Hx]; [now left|right; now right].
  - cbn [strictly_sorted]. rewrite !andb_true_iff. split; [|split; auto; now apply forallb_forall].
    apply forallb_forall. intros x [<-|Hx]; auto. eapply (swo_trans _ k y x W); auto; [now left|right; now left|right; now right].
  - cbn [strictly_sorted]. rewrite andb_true_iff. split; auto. now apply forallb_forall.
Qed.
Lemma filter_strict l f : strictly_sorted lt l = true -> strictly_sorted lt (filter f l) = true.
Proof.
  induction l as [|y l IH]; cbn [strictly_sorted filter]; auto. rewrite andb_true_iff, forallb_forall. intros [S1 S2]. destruct (f y); auto.
  cbn [strictly_sorted]. rewrite andb_true_iff, forallb_forall. split; auto. intros x Hx. apply filter_In in Hx as [Hx _]. auto.
Qed.
Lemma insert_twice l k : ltb lt k k = false -> insert_sorted lt (insert_sorted lt l k) k = insert_sorted lt l k.
Proof.
  intros K. induction l as [|y l IH]; cbn [insert_sorted]; [now rewrite K|].
  destruct (ltb lt y k) eqn:Y; [cbn [insert_sorted]; now rewrite Y, IH|]. destruct (ltb lt k y) eqn:Z; cbn [insert_sorted]; [now rewrite K|now rewrite Y, Z].
Qed.
Lemma set_insert_twice l k l1 : set_insert lt l k = Ok l1 -> set_insert lt l1 k = Ok l1.
Proof.
  unfold set_insert, tree_ok. destruct (_ && _) eqn:T; [|discriminate]. intros Q. inversion Q; subst. clear Q. apply andb_true_iff in T as [W S].
  rewrite (insert_strict l k W S), (swo_incl (k :: l) (k :: insert_sorted lt l k)); auto.
  - cbn [andb]. now rewrite (insert_twice l k (swo_irrefl _ k W (or_introl eq_refl))).
  - intros x [->|Hx]; [now left|now apply insert_incl].
Qed.
Lemma set_erase_twice l k l1 : set_erase lt l k = Ok l1 -> set_erase lt l1 k = Ok l1.
Proof.
  unfold set_erase, tree_ok. destruct (_ && _) eqn:T; [|discriminate]. intros Q. inversion Q; subst. clear Q. apply andb_true_iff in T as [W S].
  rewrite (filter_strict l _ S), (swo_incl (k :: l) (k :: filter (fun x => negb (incomparable lt x k)) l)); auto.
  - cbn [andb]. now rewrite filter_twice.
  - intros x [->|Hx]; [now left|]. apply filter_In in Hx as [Hx _]. now right.
Qed.
Context {V : Type}.
Lemma assign_keys' (d : list (A * V)) k v : map fst (assign_sorted lt d k v) = insert_sorted lt (map fst d) k.
Proof.
  induction d as [|[x w] d IH]; auto. cbn. destruct (ltb lt x k); [cbn; now rewrite IH|]. destruct (ltb lt k x); reflexivity.
Qed.
Lemma assign_twice (d : list (A * V)) k v : ltb lt k k = false -> assign_sorted lt (assign_sorted lt d k v) k v = assign_sorted lt d k v.
Proof.
  intros K. induction d as [|[y w] d IH]; cbn [assign_sorted]; [now rewrite K|].
  destruct (ltb lt y k) eqn:Y; [cbn [assign_sorted]; now rewrite Y, IH|]. destruct (ltb lt k y) eqn:Z; cbn [assign_sorted]; [now rewrite K|now rewrite Y, Z].
Qed.
Lemma map_assign_twice (d d1 : list (A * V)) k v : map_assign lt d k v = Ok d1 -> map_assign lt d1 k v = Ok d1.
Proof.
  unfold map_assign, tree_ok. destruct (_ && _) eqn:T; [|discriminate]. intros Q. inversion Q; subst. clear Q. apply andb_true_iff in T as [W S].
  rewrite assign_keys', (insert_strict _ k W S), (swo_incl (k :: map fst d) (k :: insert_sorted lt (map fst d) k)); auto.
  - cbn [andb]. now rewrite (assign_twice d k v (swo_irrefl _ k W (or_introl eq_refl))).
  - intros x [->|Hx]; [now left|now apply insert_incl].
Qed.
Lemma map_filter_fst (d : list (A * V)) f : map fst (filter (fun p => f (fst p)) d) = filter f (map fst d).
Proof. induction d as [|[x w] d IH]; cbn; auto. destruct (f x); cbn; now rewrite IH. Qed.
Lemma map_erase_twice (d d1 : list (A * V)) k : map_erase lt d k = Ok d1 -> map_erase lt d1 k = Ok d1.
Proof.
  unfold map_erase, tree_ok. destruct (_ && _) eqn:T; [|discriminate]. intros Q. inversion Q; subst. clear Q. apply andb_true_iff in T as [W S].
  rewrite (map_filter_fst d (fun x => negb (incomparable lt x k))).
  rewrite (filter_strict (map fst d) _ S), (swo_incl (k :: map fst d) (k :: filter (fun x => negb (incomparable lt x k)) (map fst d))); auto.
  - cbn [andb]. now rewrite filter_twice.
  - intros x [->|Hx]; [now left|]. apply filter_In in Hx as [Hx _]. now right.
Qed.
End Trees.

(** All classes. *)
Lemma bool_idem m args b : idem (boolean_receive m args) b.
Proof.
  apply (dispatch_idem _ [] m args b); [tauto|]. repeat apply Forall_cons; try apply Forall_nil; cbn [fst snd]; right;
    first [now (apply const_idem; const_op)|pure_op].
Qed.
Lemma char_idem E m args b : idem (character_receive E m args) b.
Proof.
  apply (dispatch_idem _ [] m args b); [tauto|]. repeat apply Forall_cons; try apply Forall_nil; cbn [fst snd]; right;
    first [now (apply const_idem; const_op)|pure_op].
Qed.
Ltac idem_table := repeat apply Forall_cons; try apply Forall_nil; cbn [fst snd];
  first [left; apply in_by_bool; vm_compute; reflexivity|right; first [now (apply const_idem; const_op)|pure_op]].
Lemma int_idem E m args z : ~ In m (accumulating (IObj (OInt z))) -> idem (integer_receive E m args) z.
Proof. intros H. eapply dispatch_idem; [exact H|]. idem_table. Qed.
Lemma float_idem E m args z : ~ In m (accumulating (IObj (OFloat z))) -> idem (float_receive E m args) z.
Proof. intros H. eapply dispatch_idem; [exact H|]. idem_table. Qed.
Lemma str_idem E m args z : ~ In m (accumulating (IObj (OStr z))) -> idem (string_receive E m args) z.
Proof.
  intros H. eapply dispatch_idem; [exact H|]. repeat apply Forall_cons; try apply Forall_nil; cbn [fst snd];
  first [left; apply in_by_bool; vm_compute; reflexivity|right; first [now (apply const_idem; const_op)|apply string_erase_idem|pure_op]].
Qed.
Lemma set_idem E t m args v : idem (set_receive E t m args) v.
Proof.
  apply (dispatch_idem _ [] m args v); [tauto|]. repeat apply Forall_cons; try apply Forall_nil; cbn [fst snd]; right;
    first [now (apply const_idem; const_op)|pure_op].
  - apply (idem_rewrite (fun v => set_insert _ v _)). intros s1. apply set_insert_twice.
  - apply (idem_rewrite (fun v => set_erase _ v _)). intros s1. apply set_erase_twice.
Qed.
Lemma dict_idem E k t m args v : idem (dict_receive E k t m args) v.
Proof.
  apply (dispatch_idem _ [] m args v); [tauto|]. repeat apply Forall_cons; try apply Forall_nil; cbn [fst snd]; right;
    first [now (apply const_idem; const_op)|pure_op].
  - apply (idem_rewrite (fun v => map_assign _ v _ _)). intros s1. apply map_assign_twice.
  - apply (idem_rewrite (fun v => map_erase _ v _)). intros s1. apply map_erase_twice.
Qed.
Lemma vec_idem E t m args v : object_type t -> Forall (good false t) v -> (t <> B "Float" -> idem (vector_sort E args) v) ->
  ~ In m (accumulating (IVector t v)) -> idem (vector_receive E t m args) v.
Proof.
  intros Ho Hv HS H. eapply dispatch_idem; [exact H|]. cbn [accumulating].
  repeat apply Forall_cons; try apply Forall_nil; cbn [fst snd];
  first [left; apply in_or_app; left; apply in_by_bool; vm_compute; reflexivity
        |lazymatch goal with |- _ \/ idem (vector_sort _ _) _ =>
           destruct (bytes_dec t (B "Float")) as [->|N]; [left; apply in_or_app; right; now left|right; auto] end
        |right; first [now (apply const_idem; const_op)|apply vector_erase_idem|now apply vector_removeAll_idem|now apply vector_replaceAll_idem|pure_op]].
Qed.
Lemma sort_idem srt pw c n t v args : sort_contract srt -> reachable srt pw c -> lookup c n = Some (IVector t v) -> t <> B "Float" ->
  idem (vector_sort (env_of srt c) args) v.
Proof.
  intros K Q L N. assert (V := reachable_tolerance srt pw c K Q). destruct (Props_Order.vector_good _ _ _ _ _ _ K Q L) as (_ & Ht & Hs & _).
  assert (W := proj2 (swo_weak' _ t v V Ht Hs) (weak_order_plain _ t v N Ht)).
  destruct (K _ _ W) as [P1 S1]. set (v1 := srt (less_opt (tolerance c)) v) in *.
  assert (Ht1 := Permutation_Forall P1 Ht). assert (Hs1 := Permutation_Forall P1 Hs).
  assert (W1 := proj2 (swo_weak' _ t v1 V Ht1 Hs1) (weak_order_plain _ t v1 N Ht1)).
  destruct (K _ _ W1) as [P2 S2].
  assert (E : srt (less_opt (tolerance c)) v1 = v1).
  { apply (in_order_unique (tolerance c) t); auto.
    - now apply (Permutation_Forall P2).
    - now symmetry.
    - apply (contract_in_order _ t v1); auto.
    - apply (contract_in_order _ t v); auto. }
  unfold vector_sort. apply idem_bind_pure; [intros ? ?; apply pure_check|intros _].
  intros s1 r. unfold bind, Outcome.get. cbn [e_tolerance e_sort env_of]. apply swo_iff in W, W1. rewrite W. intros X _. inversion X; subst. fold v1. rewrite W1. unfold put, ret. now rewrite E.
Qed.
Lemma receive_idem srt pw c n i m args : sort_contract srt -> reachable srt pw c -> lookup c n = Some i -> ~ In m (accumulating i) ->
  forall i1 r, receive (env_of srt c) i m args = (i1, r) -> ~ is_ub r -> receive (env_of srt c) i1 m args = (i1, r).
Proof.
  intros K Q L N i1 r E U. destruct (ctx_good_lookup _ _ _ _ (reachable_good srt pw c K Q) L) as [_ G].
  assert (On : forall S (wrap : S -> inst) (f : M S str) s, idem f s -> on wrap (f s) = (i1, r) -> exists s1, i1 = wrap s1 /\ on wrap (f s1) = (i1, r)).
  { intros S wrap f s H X. unfold on in X. destruct (f s) as [s1 q] eqn:Y. cbn in X. inversion X; subst. exists s1. split; auto. unfold on. now rewrite (H _ _ Y U). }
  destruct i as [[b|ch|z|f|s]|t v|t v|kt vt d]; cbn [receive] in E.
  - destruct (On _ _ _ _ (bool_idem _ _ _) E) as (s1 & -> & X). exact X.
  - destruct (On _ _ _ _ (char_idem _ _ _ _) E) as (s1 & -> & X). exact X.
  - destruct (On _ _ _ _ (int_idem _ _ _ _ N) E) as (s1 & -> & X). exact X.
  - destruct (On _ _ _ _ (float_idem _ _ _ _ N) E) as (s1 & -> & X). exact X.
  - destruct (On _ _ _ _ (str_idem _ _ _ _ N) E) as (s1 & -> & X). exact X.
  - destruct G as [Ho Hg]. destruct (On _ _ _ _ (vec_idem (env_of srt c) t m args v Ho Hg (fun F => sort_idem srt pw c n t v args K Q L F) N) E) as (s1 & -> & X). exact X.
  - destruct (On _ _ _ _ (set_idem _ _ _ _ _) E) as (s1 & -> & X). exact X.
  - destruct (On _ _ _ _ (dict_idem _ _ _ _ _ _) E) as (s1 & -> & X). exact X.
Qed.

(** The answer, as an outcome. *)
Definition again (line : bytes) (r1 r2 : res str) : Prop :=
  r2 = r1 \/ (r1 = Ok null /\ r2 = Throw NameAlreadyUsed /\ exists T m args n i, statement line T m args /\ creates T m args n i) \/
  (r1 = Ok null /\ r2 = Throw UnexistentVariable /\ exists n, statement line (B "Context") (B "deleteVariable:") [n]).
Lemma again_ub line r1 r2 : again line r1 r2 -> ~ is_ub r1 -> ~ is_ub r2.
Proof. intros [->|[(_ & -> & _)|(_ & -> & _)]]; auto. Qed.
Lemma idem_update {S} (f : S -> S) s : f (f s) = f s -> idem (c <- get ;; put (f c) ;;; ret null) s.
Proof. intros H s1 r E _. unfold bind, Outcome.get, put, ret in *. inversion E; subst. now rewrite H. Qed.
Lemma erase_none l a : ~ In a (map fst l) -> erase_name l a = None.
Proof.
  induction l as [|[k i] l IH]; cbn; auto. intros H. destruct (seq_eqb k a) eqn:X; [apply seq_eqb_eq in X; tauto|]. now rewrite IH by tauto.
Qed.
Lemma context_idem m args c : m <> B "deleteVariable:" -> idem (execute_in_context {| p_actor := B "Context"; p_message := m; p_args := args |}) c.
Proof.
  intros N. unfold execute_in_context. apply (dispatch_idem _ [B "deleteVariable:"]); [intros [X|[]]; cbn [p_message] in X; congruence|].
  cbn [p_message p_args]. repeat apply Forall_cons; try apply Forall_nil; cbn [fst snd];
  first [left; apply in_by_bool; vm_compute; reflexivity|right; first [now (apply const_idem; const_op)|pure_op]].
  - apply (idem_update (fun c => set_instances c (filter _ (instances c)))). unfold set_instances. cbn. now rewrite filter_twice.
  - apply (idem_update (fun c => set_precision c _)). reflexivity.
  - apply (idem_update (fun c => set_tolerance c _)). reflexivity.
Qed.
Lemma context_again line c m args c1 r : statement line (B "Context") m args -> keys_sorted (instances c) ->
  execute_in_context {| p_actor := B "Context"; p_message := m; p_args := args |} c = (c1, r) -> ~ is_ub r ->
  exists r2, execute_in_context {| p_actor := B "Context"; p_message := m; p_args := args |} c1 = (c1, r2) /\ again line r r2.
Proof.
  intros Hs Hk E U.
  destruct (bytes_dec m (B "deleteVariable:")) as [->|N].
  - change (execute_in_context {| p_actor := B "Context"; p_message := B "deleteVariable:"; p_args := args |}) with (op_deleteVariable args) in *.
    assert (Same : c1 = c -> exists r2, op_deleteVariable args c1 = (c1, r2) /\ again line r r2) by (intros ->; exists r; split; [exact E|now left]).
    unfold op_deleteVariable, bind, check_nargs, throw_if in E. destruct (negb _) eqn:L; [inversion E; subst; auto|].
    destruct args as [|a [|b args]]; try discriminate L. cbn [arg nth_error] in E. unfold ret, throw, Outcome.get, put in E.
    destruct (is_variable a) eqn:V; cbn [negb] in E; [|inversion E; subst; auto].
    destruct (erase_name (instances c) a) as [l|] eqn:X; inversion E; subst; [|auto]. clear Same E.
    exists (Throw UnexistentVariable). split; [|right; right; eauto].
    apply (erase_name_filter _ _ _ Hk) in X. subst l. unfold op_deleteVariable, bind, check_nargs, throw_if. cbn [negb length Nat.eqb arg nth_error].
    unfold ret, throw, Outcome.get, put. rewrite V. cbn [negb set_instances instances]. rewrite erase_none; [reflexivity|].
    intros H. apply in_map_iff in H as ([k i] & Y & H). cbn in Y. subst k. apply filter_In in H as [_ H]. cbn in H. now rewrite (proj2 (seq_eqb_eq a a) eq_refl) in H.
  - exists r. split; [|now left]. exact (context_idem m args c N c1 r E U).
Qed.
Lemma session_idem pw m args s : idem (session_receive pw m args) s.
Proof.
  apply (dispatch_idem _ [] m args s); [tauto|]. repeat apply Forall_cons; try apply Forall_nil; cbn [fst snd]; right.
  - apply (idem_update (fun s => {| is_connected := false; is_authenticated := is_authenticated s |})). reflexivity.
  - unfold session_authenticate. pure. intros s1 r E U. unfold bind, Outcome.get, put, ret, throw in *. destruct (seq_eqb a2 pw); inversion E; subst; reflexivity.
Qed.
Lemma statement_again srt pw line c s w1 r : sort_contract srt -> reachable srt pw c -> repeatable c line ->
  run_statement srt pw line {| w_ctx := c; w_session := s |} = (w1, r) -> ~ is_ub r ->
  exists r2, run_statement srt pw line w1 = (w1, r2) /\ again line r r2.
Proof.
  intros K Q R E U. assert (Hk := reachable_keys srt pw c K Q).
  assert (Same : w1 = {| w_ctx := c; w_session := s |} -> exists r2, run_statement srt pw line w1 = (w1, r2) /\ again line r r2)
    by (intros ->; exists r; split; [exact E|now left]).
  destruct (statement_dec line) as [(a & m & args & Hs)|N].
  2:{ apply Same. unfold run_statement, bind, lift in E. rewrite (parse_not_statement _ N) in E. now inversion E. }
  destruct (statement_actor line a m args Hs) as [->|[->|[Ht|Hv]]]; cycle 2.
  - destruct (run_type_made srt pw c s line a m args Hs Ht) as (q & Hm & E'). rewrite E' in E. clear E'.
    destruct q as [[n i]|e|u]; cbn [made] in Hm; [|inversion E; subst; auto|inversion E; subst; auto].
    destruct (lookup c n) eqn:L; [inversion E; subst; auto|]. inversion E; subst. clear E Same.
    rewrite (run_creation srt pw _ s line a m args n i Hs Hm). rewrite lookup_set_instances, smap_assign_assoc by auto.
    destruct (bytes_dec n n); [|congruence].
    destruct (starts_with m $"createIfNotExists:"); [exists (Ok null); split; [reflexivity|now left]|].
    exists (Throw NameAlreadyUsed). split; [reflexivity|]. right. left. split; auto. split; auto. exists a, m, args, n, i. auto.
  - rewrite (run_variable srt pw line a m args {| w_ctx := c; w_session := s |} Hs Hv) in E; setoid_rewrite (run_variable srt pw line a m args w1 Hs Hv). unfold in_ctx, execute_in_variable in *. cbn [w_ctx w_session p_actor p_message p_args] in E |- *.
    rewrite <- assoc_smap_find in E. change (assoc (instances c) a) with (lookup c a) in E.
    destruct (lookup c a) as [i|] eqn:L; inversion E; subst; [|].
    + destruct (receive (env_of srt c) i m args) as [i1 r1] eqn:X. cbn [fst snd] in *. clear Same E.
      exists r1. split; [|now left]. cbn [w_ctx w_session]. rewrite <- assoc_smap_find.
      cbn [set_instances instances]. rewrite smap_assign_assoc by auto. destruct (bytes_dec a a); [|congruence].
      change (env_of srt (set_instances c (smap_assign (instances c) a i1))) with (env_of srt c).
      rewrite (receive_idem srt pw c a i m args K Q L (R _ _ _ _ Hs L) i1 r1 X U). cbn [fst snd].
      rewrite (smap_assign_same (smap_assign (instances c) a i1) a i1); [reflexivity|now apply smap_assign_sorted|].
      rewrite smap_assign_assoc by auto. destruct (bytes_dec a a); congruence.
    + exists (Throw UnexistentVariable). split; [|now left]. cbn [w_ctx w_session]. rewrite <- assoc_smap_find. change (assoc (instances c) a) with (lookup c a). now rewrite L.
  - rewrite (run_connection srt pw line m args {| w_ctx := c; w_session := s |} Hs) in E; setoid_rewrite (run_connection srt pw line m args w1 Hs). unfold in_session in *. cbn [w_ctx w_session] in *.
    destruct s as [s|]; [|inversion E; subst; destruct U; exact I].
    destruct (session_receive pw m args s) as [s1 r1] eqn:X. cbn [fst snd] in E. inversion E; subst. cbn [w_ctx w_session].
    rewrite (session_idem pw m args s s1 r X U). exists r. split; [reflexivity|now left].
  - rewrite (run_context srt pw line m args {| w_ctx := c; w_session := s |} Hs) in E; setoid_rewrite (run_context srt pw line m args w1 Hs). unfold in_ctx in *. cbn [w_ctx w_session] in *.
    destruct (execute_in_context _ c) as [c1 r1] eqn:X. cbn [fst snd] in E. inversion E; subst.
    destruct (context_again line c m args c1 r Hs Hk X U) as (r2 & X2 & A). exists r2. cbn [w_ctx w_session]. now rewrite X2.
Qed.
