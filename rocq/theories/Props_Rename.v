(** Property C81: names do not matter.  Specification: [Spec_Rename]. *)
From Coq Require Import ZArith Reals QArith Sorting.Sorted Sorting.Permutation.
From Verif Require Import Bytes StrUtils Grammar Outcome Parser Num Containers Instance Context Server Platform.
From Verif Require Import Lemmas StringLit Proof_Grammar Proof_Parser Proof_Exec WP Proof_Inv Proof_Literal Proof_Receive Proof_Context Proof_Names Api Proof_Local Props_State Props_Local Props_Observe Proof_Rename.
From Verif Require Import Spec_Grammar Spec_State Spec_Names Spec_Local Spec_Observe Spec_Rename.
Local Open Scope list_scope.

Lemma correspond_log f l l' o c d : correspond f c d -> correspond f (write_log l o c) (write_log l' o d).
Proof.
  intros [L [P T]]. split; [intros n V; rewrite !write_log_lookup; now apply L|]. split; [now rewrite !write_log_precision|now rewrite !write_log_tolerance].
Qed.
Theorem C81_names_do_not_matter : forall srt pw pwc pwd f c d s l l' c' s' ans, sort_contract srt -> reachable srt pwc c -> reachable srt pwd d ->
  renaming f -> correspond f c d -> renamed f l l' ->
  runs srt pw c s l c' s' ans -> exists d', runs srt pw d s l' d' s' ans /\ correspond f c' d'.
Proof.
  intros srt pw pwc pwd f c d s l l' c' s' ans K Rc Rd Hf C R X.
  assert (Kc := reachable_keys srt pwc c K Rc). assert (Kd := reachable_keys srt pwd d K Rd).
  destruct (statement_alike srt pw f l l' c d s Hf Kc Kd C R) as (A & Q & E). unfold runs, execute in *.
  destruct (run_statement srt pw l {| w_ctx := c; w_session := s |}) as [w r]. destruct (run_statement srt pw l' {| w_ctx := d; w_session := s |}) as [w' r']. cbn [fst snd] in *. subst r'.
  destruct (catch_text r) as [o|e|u]; inversion X; subst; clear X. rewrite <- Q. eexists. split; [reflexivity|]. now apply correspond_log.
Qed.
Theorem C81_undefined_behaviour_and_names : forall srt pw pwc pwd f c d s l l' u, sort_contract srt -> reachable srt pwc c -> reachable srt pwd d ->
  renaming f -> correspond f c d -> renamed f l l' -> (undefined_behaviour srt pw c s l u <-> undefined_behaviour srt pw d s l' u).
Proof.
  intros srt pw pwc pwd f c d s l l' u K Rc Rd Hf C R.
  assert (Kc := reachable_keys srt pwc c K Rc). assert (Kd := reachable_keys srt pwd d K Rd).
  destruct (statement_alike srt pw f l l' c d s Hf Kc Kd C R) as (A & Q & E). unfold undefined_behaviour, execute.
  destruct (run_statement srt pw l {| w_ctx := c; w_session := s |}) as [w r]. destruct (run_statement srt pw l' {| w_ctx := d; w_session := s |}) as [w' r']. cbn [fst snd] in *. subst r'.
  destruct (catch_text r); cbn [snd]; split; intros X; exact X.
Qed.
(** Any number of lines. *)
Theorem C81_names_do_not_matter_ever : forall srt pw f c d s lines lines' c' s' answers, sort_contract srt -> reachable srt pw c -> reachable srt pw d ->
  renaming f -> correspond f c d -> Forall2 (renamed f) lines lines' ->
  executes srt pw c s lines c' s' answers -> exists d', executes srt pw d s lines' d' s' answers /\ correspond f c' d'.
Proof.
  intros srt pw f c d s lines lines' c' s' answers K Rc Rd Hf C F X. revert d lines' Rd C F.
  induction X as [c s|c s l c1 s1 ans lines c2 s2 answers H X IH]; intros d lines' Rd C F; inversion F as [|? l' ? rest Hl Hr]; subst.
  - exists d. split; [constructor|exact C].
  - destruct (C81_names_do_not_matter srt pw pw pw f c d s l l' c1 s1 ans K Rc Rd Hf C Hl H) as (d1 & Hd & C1).
    destruct (IH (reach_step _ _ _ _ _ _ _ _ Rc H) d1 rest (reach_step _ _ _ _ _ _ _ _ Rd Hd) C1 Hr) as (d2 & Xd & C2).
    exists d2. split; [econstructor; eassumption|exact C2].
Qed.
(** A fresh server corresponds to any server with the same settings under every renaming to names that are free there. *)
Theorem C81_fresh_servers_correspond : forall f opened is_quiet precision tol d, same_settings (new_context opened precision tol is_quiet) d ->
  (forall n, variable n -> lookup d (f n) = None) -> correspond f (new_context opened precision tol is_quiet) d.
Proof. intros f opened is_quiet precision tol d S N. split; [|exact S]. intros n V. now apply N. Qed.

(** Every line that is about at most one name has a renamed line. *)
Lemma keyword_first f (line m : bytes) (x : bytes) (args : list bytes) x' : keyword_message line m (x :: args) -> new_name f x x' -> renaming f -> exists line', keyword_message line' m (x' :: args).
Proof.
  intros H X Hf. assert (A : keyword_message_argument x -> keyword_message_argument x').
  { intros A. destruct X as [n V|]; [|exact A]. right. right. now apply Hf. }
  inversion H; subst; eexists; econstructor; eauto.
Qed.
Lemma new_name_exists f x : exists x', new_name f x x'.
Proof.
  destruct (is_variable x) eqn:E; [exists (f x); constructor; now apply is_variable_iff|].
  exists x. constructor. intros V. apply is_variable_iff in V. congruence.
Qed.
Lemma statement_first f l a m x args x' : statement l a m (x :: args) -> new_name f x x' -> renaming f -> exists l', statement l' a m (x' :: args).
Proof.
  intros (sp0 & sp & sp1 & msg & sp2 & sp3 & -> & H0 & Ha & H1 & H2 & Hm & H4 & H5) X Hf. inversion Hm as [|? ? ? Hk]; subst.
  destruct (keyword_first f _ _ _ _ _ Hk X Hf) as [msg' Hk']. eexists. exists sp0, sp, sp1, msg', sp2, sp3. split; [reflexivity|]. repeat (split; [assumption|]). split; [now constructor|]. now split.
Qed.
Theorem C81_every_line_can_be_renamed : forall f l, renaming f -> (forall m args, statement l (B "Context") m args -> ~ In m many_names) ->
  exists l', renamed f l l'.
Proof.
  intros f l Hf N. destruct (statement_dec l) as [(a & m & args & S)|X]; [|exists l; now apply renamed_unreadable].
  assert (Ha : actor a) by (destruct S as (? & ? & ? & ? & ? & ? & _ & _ & Ha & _); exact Ha).
  destruct Ha as [->|[->|[Ht|V]]].
  - exists l. eapply renamed_no_name; [exact S|exact S|]. now right; right.
  - destruct (bytes_dec m (B "deleteVariable:")) as [->|Nm].
    + destruct args as [|x args].
      * destruct S as (sp0 & sp & sp1 & msg & sp2 & sp3 & -> & H0 & Ha & H1 & H2 & Hm & H4 & H5). exfalso. inversion Hm as [? Hu|? ? ? Hk]; subst; [|inversion Hk].
        apply is_unary_message_iff in Hu. vm_compute in Hu. discriminate Hu.
      * destruct (new_name_exists f x) as [x' X]. destruct (statement_first f _ _ _ _ _ _ S X Hf) as [l' S']. exists l'. eapply renamed_deletion; eassumption.
    + exists l. eapply renamed_no_name; [exact S|exact S|]. right; left. split; [reflexivity|]. specialize (N _ _ S). unfold naming_messages, many_names in *. cbn [In] in *. intuition congruence.
  - destruct args as [|x args]; [exists l; eapply renamed_no_name; [exact S|exact S|]; now left|].
    destruct (new_name_exists f x) as [x' X]. destruct (statement_first f _ _ _ _ _ _ S X Hf) as [l' S']. exists l'. eapply renamed_creation; eassumption.
  - assert (V' : variable (f a)) by now apply Hf. destruct S as (sp0 & sp & sp1 & msg & sp2 & sp3 & -> & H0 & _ & H1 & H2 & Hm & H4 & H5).
    eexists. eapply (renamed_message f _ _ a m args V); exists sp0, sp, sp1, msg, sp2, sp3; (split; [reflexivity|]); repeat (split; [assumption|]); (split; [right; right; now right|]); now repeat split.
Qed.

Definition rename_x (n : bytes) : bytes := if bytes_dec n (B "x") then B "shop::total" else if bytes_dec n (B "shop::total") then B "x" else n.
Lemma rename_x_renaming : renaming rename_x.
Proof.
  split.
  - intros n V. unfold rename_x. destruct (bytes_dec n _); [apply is_variable_iff; reflexivity|]. destruct (bytes_dec n _); [apply is_variable_iff; reflexivity|exact V].
  - intros n m _ _. unfold rename_x. repeat destruct (bytes_dec _ _); congruence.
Qed.
Definition x_lines : list bytes := [B "Integer create: x withValue: 5;"; B "x add: 2;"; B "x get;"; B "Context getFloatPrecision;"; B "Context deleteVariable: x;"].
Definition total_lines : list bytes := [B "Integer create: shop::total withValue: 5;"; B "shop::total add: 2;"; B " shop::total  get ;"; B "Context getFloatPrecision;"; B "Context deleteVariable: shop::total;"].
Example C81_ex : let c := new_context false 3 (to_float (S754_zero false)) true in
  renaming rename_x /\ reachable insertion_sort [] c /\ correspond rename_x c c /\ Forall2 (renamed rename_x) x_lines total_lines /\
  answered insertion_sort [] c None x_lines [B "null"; B "null"; B "7"; B "3"; B "null"] /\
  answered insertion_sort [] c None total_lines [B "null"; B "null"; B "7"; B "3"; B "null"].
Proof.
  cbv zeta. split; [exact rename_x_renaming|]. split; [constructor; vm_compute; reflexivity|]. split; [now split|].
  assert (V : variable (B "x")) by (apply is_variable_iff; reflexivity). assert (Nx := new_variable rename_x _ V). change (rename_x (B "x")) with (B "shop::total") in Nx.
  split; [|split].
  - repeat apply Forall2_cons; [| | | | |apply Forall2_nil].
    + eapply (renamed_creation rename_x _ _ (B "Integer") (B "create:withValue:") (B "x") (B "shop::total") [B "5"]); [apply is_type_iff; reflexivity|exact Nx|stmt|stmt].
    + eapply (renamed_message rename_x _ _ (B "x") (B "add:") [B "2"] V); change (rename_x (B "x")) with (B "shop::total"); stmt.
    + eapply (renamed_message rename_x _ _ (B "x") (B "get") [] V); change (rename_x (B "x")) with (B "shop::total"); stmt.
    + eapply (renamed_no_name rename_x _ _ (B "Context") (B "getFloatPrecision") []); [stmt|stmt|]. right; left. split; [reflexivity|]. intros X. cbn [naming_messages In] in X. repeat destruct X as [X|X]; vm_compute in X; try discriminate X; exact X.
    + eapply (renamed_deletion rename_x _ _ (B "x") (B "shop::total") []); [exact Nx|stmt|stmt].
  - eexists _, _. do 5 (econstructor; [unfold runs; vm_compute; reflexivity|]). constructor.
  - eexists _, _. do 5 (econstructor; [unfold runs; vm_compute; reflexivity|]). constructor.
Qed.
