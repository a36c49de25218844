(** Facts about every value read and every text printed: which failures and undefined behaviours are possible, the shape
    of answers, and that no newline appears from nowhere. *)
From Verif Require Import Bytes StrUtils Grammar Outcome Parser Num Containers Instance Context.
From Verif Require Import Lemmas StringLit Proof_Grammar Proof_Parser Proof_Exec.
From Verif Require Import Spec_Grammar Spec_State.
From Coq Require Import Sorting.Sorted Permutation.
Open Scope Z_scope.

(** ** bytes and newlines; [nl = true] switches the newline tracking on *)
Section NL.
Context (nl : bool).
Definition cln (c : ascii) : Prop := nl = true -> c <> c_nl.
Definition clean (s : str) : Prop := Forall cln s.
Definition obj_clean (o : obj) : Prop :=
  match o with
  | OBool _ => True | OChar c => cln c | OStr s => clean s
  | OInt z => in_int z = true                    (* fits 32 bits *)
  | OFloat f => exists x, f = to_float x         (* is a single-precision number *)
  end.

Lemma clean_lit s : existsb (ceq c_nl) s = false -> clean s.
Proof.
  intros H. apply Forall_forall. intros c Hc _ ->. assert (existsb (ceq c_nl) s = true); [|congruence].
  apply existsb_exists. exists c_nl. split; auto.
Qed.
Lemma clean_app a b : clean (a ++ b)%list <-> clean a /\ clean b.
Proof. apply Forall_app. Qed.
Lemma clean_cons c b : clean (c :: b) <-> cln c /\ clean b.
Proof. split; [intros H; inversion H; auto|intros [? ?]; constructor; auto]. Qed.
Lemma cln_lit c : ceq c_nl c = false -> cln c.
Proof. intros H _ ->. discriminate. Qed.
Lemma Forall_firstn {A} (P : A -> Prop) n l : Forall P l -> Forall P (firstn n l).
Proof. intros H. rewrite <- (firstn_skipn n l) in H. now apply Forall_app in H. Qed.
Lemma Forall_skipn {A} (P : A -> Prop) n l : Forall P l -> Forall P (skipn n l).
Proof. intros H. rewrite <- (firstn_skipn n l) in H. now apply Forall_app in H. Qed.
Lemma clean_firstn n s : clean s -> clean (firstn n s). Proof. apply Forall_firstn. Qed.
Lemma clean_skipn n s : clean s -> clean (skipn n s). Proof. apply Forall_skipn. Qed.
Lemma clean_nth s i : clean s -> cln (nth i s zero).
Proof.
  intros H. destruct (Nat.lt_ge_cases i (length s)) as [L|L].
  - unfold clean in H. rewrite Forall_forall in H. apply H. now apply nth_In.
  - rewrite nth_overflow by auto. apply cln_lit. reflexivity.
Qed.
Lemma clean_unescape s q : clean s -> clean (unescape s q).
Proof.
  induction s as [|x r IH]; intros H; [constructor|]. apply clean_cons in H as [Hx Hr]. specialize (IH Hr).
  cbn [unescape]. destruct r as [|y r']; [now constructor|]. destruct (ceq x c_bslash && ceq y q); [exact IH|now constructor].
Qed.
Lemma clean_escape s q : clean s -> clean (escape s q).
Proof.
  induction s as [|x r IH]; intros H; [constructor|]. apply clean_cons in H as [Hx Hr]. cbn [escape].
  apply clean_app. split; [|apply clean_cons; auto]. destruct (ceq x q); [|constructor]. apply clean_lit. reflexivity.
Qed.
Lemma clean_quoted s : clean s -> clean (quoted s).
Proof.
  intros H. unfold quoted. rewrite !clean_app. repeat split; try (apply clean_lit; reflexivity). now apply clean_escape.
Qed.
Lemma clean_apos c : cln c -> clean (apos c).
Proof. intros H. repeat constructor; auto; apply cln_lit; reflexivity. Qed.
Lemma clean_btext b : clean (btext b).
Proof. destruct b; apply clean_lit; reflexivity. Qed.

(** *** printed numbers *)
Definition isdig (c : ascii) : bool := is_numeric c.
Lemma digit_char_isdig n : 0 <= n < 10 -> isdig (digit_char n) = true.
Proof.
  intros H. assert (D : n = 0 \/ n = 1 \/ n = 2 \/ n = 3 \/ n = 4 \/ n = 5 \/ n = 6 \/ n = 7 \/ n = 8 \/ n = 9) by lia.
  destruct D as [->|[->|[->|[->|[->|[->|[->|[->|[->| ->]]]]]]]]]; reflexivity.
Qed.
Lemma dec_loop_digits fuel : forall n acc, 0 <= n -> forallb isdig acc = true -> forallb isdig (dec_loop fuel n acc) = true.
Proof.
  induction fuel as [|f IH]; intros n acc Hn Ha; cbn [dec_loop]; [exact Ha|].
  assert (Hd : forallb isdig (digit_char (n mod 10) :: acc) = true).
  { cbn [forallb]. rewrite digit_char_isdig, Ha; [reflexivity|]. apply Z.mod_pos_bound. lia. }
  destruct (n <? 10); [exact Hd|]. apply IH; auto. apply Z.div_pos; lia.
Qed.
Lemma dec_loop_nonempty fuel : forall n acc, (0 < fuel)%nat \/ acc <> [] -> dec_loop fuel n acc <> [].
Proof.
  induction fuel as [|f IH]; intros n acc H; cbn [dec_loop]; [destruct H; [lia|auto]|].
  destruct (n <? 10); [discriminate|]. apply IH. right. discriminate.
Qed.
Lemma dec_digits n : 0 <= n -> forallb isdig (dec n) = true.
Proof. intros H. unfold dec. apply dec_loop_digits; auto. Qed.
Lemma dec_nonempty n : dec n <> [].
Proof. unfold dec. apply dec_loop_nonempty. left. lia. Qed.
Lemma isdig_clean s : forallb isdig s = true -> clean s.
Proof.
  intros H. rewrite forallb_forall in H. apply Forall_forall. intros c Hc _ ->. specialize (H _ Hc). discriminate.
Qed.
Lemma clean_to_string z : clean (to_string z).
Proof.
  unfold to_string. destruct (Z.ltb_spec z 0).
  - constructor; [apply cln_lit; reflexivity|]. apply isdig_clean, dec_digits. lia.
  - now apply isdig_clean, dec_digits.
Qed.
Lemma repeat0_digits n : forallb isdig (repeat "0"%char n) = true.
Proof. induction n; auto. Qed.
Lemma clean_fixed_digits n p : 0 <= n -> clean (fixed_digits n p).
Proof.
  intros H. unfold fixed_digits.
  assert (D : clean (repeat "0"%char (S p - length (dec n)) ++ dec n)%list).
  { apply isdig_clean. rewrite forallb_app, repeat0_digits, dec_digits; auto. }
  destruct p; [exact D|]. apply clean_app. split; [now apply clean_firstn|].
  constructor; [apply cln_lit; reflexivity|now apply clean_skipn].
Qed.
Lemma round_half_even_nonneg n d : 0 <= n -> 0 < d -> 0 <= round_half_even n d.
Proof.
  intros H1 H2. unfold round_half_even. assert (0 <= n / d) by now apply Z.div_pos.
  destruct (_ ?= _); [destruct (Z.even _)| |]; lia.
Qed.
Lemma scaled_nonneg m e p : 0 <= scaled m e p.
Proof.
  unfold scaled. destruct (0 <=? e) eqn:E.
  - apply Z.mul_nonneg_nonneg; [|apply Z.pow_nonneg; lia]. apply Z.mul_nonneg_nonneg; [lia|apply Z.pow_nonneg; lia].
  - apply round_half_even_nonneg; [apply Z.mul_nonneg_nonneg; [lia|apply Z.pow_nonneg; lia]|]. apply Z.pow_pos_nonneg; lia.
Qed.
Lemma clean_fixed_repr p f : clean (fixed_repr p f).
Proof.
  unfold fixed_repr. destruct f as [s|s| |s m e]; cbv zeta.
  - apply clean_app. split; [destruct s; apply clean_lit; reflexivity|]. apply clean_fixed_digits. lia.
  - destruct s; apply clean_lit; reflexivity.
  - apply clean_lit; reflexivity.
  - apply clean_app. split; [destruct s; apply clean_lit; reflexivity|]. apply clean_fixed_digits. apply scaled_nonneg.
Qed.
Lemma clean_obj_repr E o : obj_clean o -> clean (obj_repr E o).
Proof.
  destruct o; cbn [obj_clean obj_repr]; intros H;
    auto using clean_btext, clean_apos, clean_to_string, clean_fixed_repr, clean_quoted.
Qed.
Lemma clean_comma_loop l : forall b, Forall clean l -> clean (comma_loop b l).
Proof.
  induction l as [|x l IH]; intros b H; [constructor|]. inversion H; subst. cbn [comma_loop].
  rewrite !clean_app. split; [destruct b; [constructor|apply clean_lit; reflexivity]|]. split; [assumption|now apply IH].
Qed.
Lemma clean_comma_sep l : Forall clean l -> clean (comma_sep l).
Proof. apply clean_comma_loop. Qed.
Lemma clean_vector_representation E v : Forall obj_clean v -> clean (vector_representation E v).
Proof.
  intros H. unfold vector_representation. rewrite !clean_app. repeat split; try (apply clean_lit; reflexivity).
  apply clean_comma_sep. apply Forall_map. eapply Forall_impl; [|exact H]. intros o; apply clean_obj_repr.
Qed.
Lemma clean_set_representation E v : Forall obj_clean v -> clean (set_representation E v).
Proof.
  intros H. unfold set_representation. rewrite !clean_app. repeat split; try (apply clean_lit; reflexivity).
  apply clean_comma_sep. apply Forall_map. eapply Forall_impl; [|exact H]. intros o; apply clean_obj_repr.
Qed.
Lemma clean_dict_representation E d : Forall (fun p => obj_clean (fst p) /\ obj_clean (snd p)) d -> clean (dict_representation E d).
Proof.
  intros H. unfold dict_representation. rewrite !clean_app. repeat split; try (apply clean_lit; reflexivity).
  apply clean_comma_sep. apply Forall_map. eapply Forall_impl; [|exact H]. intros p [H1 H2].
  rewrite !clean_app. repeat split; try (apply clean_lit; reflexivity); auto using clean_obj_repr.
Qed.

(** ** answers of successful messages do not begin like error messages, and do not end like them *)
Definition full_stop : ascii := "."%char.
Definition ends_safely (a : str) : Prop := last a " "%char <> full_stop.
Definition success_text (a : str) : Prop :=
  match a with [] => True | c :: _ => ~ In c ["S"; "R"; "A"]%char end /\ ends_safely a.
Lemma ends_snoc a c : c <> full_stop -> ends_safely (a ++ [c])%list.
Proof. intros H. unfold ends_safely. now rewrite last_last. Qed.
Lemma ends_app a b : b <> [] -> ends_safely b -> ends_safely (a ++ b)%list.
Proof.
  intros N H. destruct b as [|c b _] using rev_ind; [congruence|]. unfold ends_safely in *. rewrite app_assoc, last_last in *. exact H.
Qed.
Lemma ends_digits s : forallb isdig s = true -> ends_safely s.
Proof.
  destruct s as [|c s _] using rev_ind; [discriminate|]. rewrite forallb_app. intros H. apply andb_prop in H as [_ H].
  apply ends_snoc. intros ->. discriminate.
Qed.
Lemma success_btext b : success_text (btext b).
Proof. split; destruct b; cbn; intuition discriminate. Qed.
Lemma success_null : success_text null.
Proof. split; cbn; intuition discriminate. Qed.
Lemma isdig_success s : forallb isdig s = true -> success_text s.
Proof.
  intros H. split; [|now apply ends_digits]. revert H.
  destruct s as [|c r]; cbn [forallb success_text]; auto. intros H. apply andb_prop in H as [H _].
  intros [<-|[<-|[<-|[]]]]; discriminate.
Qed.
Lemma success_cons c r : forallb (fun x => negb (ceq c x)) ["S"; "R"; "A"]%char = true -> ends_safely (c :: r) -> success_text (c :: r).
Proof.
  intros H He. split; [|exact He]. rewrite forallb_forall in H. intros Hin. specialize (H _ Hin).
  rewrite ceq_refl in H. discriminate.
Qed.
Lemma success_wrap c x d : forallb (fun y => negb (ceq c y)) ["S"; "R"; "A"]%char = true -> d <> full_stop -> success_text ([c] ++ x ++ [d])%list.
Proof. intros H1 H2. apply success_cons; [exact H1|]. exact (ends_snoc (c :: x) d H2). Qed.
Lemma success_to_string z : success_text (to_string z).
Proof.
  unfold to_string. destruct (Z.ltb_spec z 0).
  - apply success_cons; [reflexivity|]. apply (ends_app [_]); [apply dec_nonempty|apply ends_digits, dec_digits; lia].
  - now apply isdig_success, dec_digits.
Qed.
Lemma ends_fixed_digits n p : 0 <= n -> fixed_digits n p <> [] /\ ends_safely (fixed_digits n p).
Proof.
  intros H. unfold fixed_digits.
  assert (D : forallb isdig (repeat "0"%char (S p - length (dec n)) ++ dec n)%list = true)
    by (rewrite forallb_app, repeat0_digits, dec_digits; auto).
  assert (L : (S p <= length (repeat "0"%char (S p - length (dec n)) ++ dec n)%list)%nat) by (rewrite app_length, repeat_length; lia).
  set (d := (repeat "0"%char (S p - length (dec n)) ++ dec n)%list) in *.
  destruct p as [|p]; [split; [intros E; rewrite E in L; cbn in L; lia|now apply ends_digits]|].
  split; [destruct (firstn _ _); discriminate|]. change (c_dot :: ?x) with ([c_dot] ++ x)%list. rewrite app_assoc. apply ends_app.
  - intros E. apply (f_equal (@length ascii)) in E. rewrite skipn_length in E. cbn [length] in E. lia.
  - apply ends_digits. rewrite forallb_forall in *. intros x Hx. apply D. rewrite <- (firstn_skipn (length d - S p) d). apply in_app_iff. now right.
Qed.
Lemma success_fixed_digits n p : 0 <= n -> success_text (fixed_digits n p).
Proof.
  intros H. split; [|now apply ends_fixed_digits]. unfold fixed_digits.
  assert (D : forallb isdig (repeat "0"%char (S p - length (dec n)) ++ dec n)%list = true)
    by (rewrite forallb_app, repeat0_digits, dec_digits; auto).
  set (d := (repeat "0"%char (S p - length (dec n)) ++ dec n)%list) in *.
  destruct p; [now apply isdig_success|].
  destruct (firstn (length d - S p) d) as [|c r] eqn:Ef; [cbn; intuition discriminate|].
  assert (Hc : isdig c = true).
  { rewrite forallb_forall in D. apply D. rewrite <- (firstn_skipn (length d - S p) d), Ef. now left. }
  cbn [app]. intros [<-|[<-|[<-|[]]]]; discriminate.
Qed.
Lemma success_fixed_repr p f : success_text (fixed_repr p f).
Proof.
  unfold fixed_repr. destruct f as [s|s| |s m e]; cbv zeta.
  - destruct s; [|apply success_fixed_digits; lia]. destruct (ends_fixed_digits 0 (if p <? 0 then 6%nat else Z.to_nat p)); [lia|].
    apply success_cons; [reflexivity|]. now apply (ends_app [_]).
  - destruct s; (apply success_cons; [reflexivity|discriminate]).
  - apply success_cons; [reflexivity|discriminate].
  - destruct s; [|apply success_fixed_digits, scaled_nonneg].
    destruct (ends_fixed_digits (scaled m e (if p <? 0 then 6%nat else Z.to_nat p)) (if p <? 0 then 6%nat else Z.to_nat p)); [apply scaled_nonneg|].
    apply success_cons; [reflexivity|]. now apply (ends_app [_]).
Qed.
Lemma success_quoted s : success_text (quoted s). Proof. apply success_wrap; [reflexivity|discriminate]. Qed.
Lemma success_apos c : success_text (apos c). Proof. apply success_cons; [reflexivity|discriminate]. Qed.
Lemma success_obj_repr E o : success_text (obj_repr E o).
Proof.
  destruct o; cbn [obj_repr]; auto using success_btext, success_apos, success_to_string, success_fixed_repr, success_quoted.
Qed.
Lemma success_vector_representation E v : success_text (vector_representation E v).
Proof. apply success_wrap; [reflexivity|discriminate]. Qed.
Lemma success_set_representation E v : success_text (set_representation E v).
Proof. apply success_wrap; [reflexivity|discriminate]. Qed.
Lemma success_dict_representation E v : success_text (dict_representation E v).
Proof. apply success_wrap; [reflexivity|discriminate]. Qed.
Lemma success_bracket t : success_text ($"[" ++ t ++ $"]")%list.
Proof. apply success_wrap; [reflexivity|discriminate]. Qed.

Definition answer_ok (a : str) : Prop := success_text a /\ clean a.

(** ** which undefined behaviours remain possible *)
Definition num_ub (u : ub) : Prop := u = AtoiRange \/ u = IntConversion.
Definition ok_ub (u : ub) : Prop := num_ub u \/ u = BadOrder.

(** ** reading literals *)
Lemma character_literal a : is_character_value a = true -> exists c, a = [c_apos; c; c_apos].
Proof. intros H. apply is_character_value_iff in H as [c ->]. now exists c. Qed.
Lemma str_at_character a : is_character_value a = true -> exists c, str_at a 1 = Ok c /\ a = [c_apos; c; c_apos].
Proof. intros H. destruct (character_literal a H) as [c ->]. now exists c. Qed.
Lemma number_of_ub v : match number_of v with Ok _ => True | Throw _ => False | UB u => num_ub u end.
Proof.
  unfold number_of, num_ub. destruct (is_integer_value v); [|exact I]. unfold atoi.
  destruct (read_sign v) as [neg r]. destruct (read_digits r 0 0) as [[x y] z]. destruct (in_int _); cbn; auto.
Qed.
Lemma double_to_int_ub d : match double_to_int d with Ok z => in_int z = true | Throw _ => False | UB u => num_ub u end.
Proof. unfold double_to_int, num_ub. destruct d; auto. destruct (in_int _) eqn:?; auto. Qed.
Lemma number_int_ub v : match (let! d := number_of v in double_to_int d) with Ok z => in_int z = true | Throw _ => False | UB u => num_ub u end.
Proof. assert (H := number_of_ub v). destruct (number_of v); cbn; auto. apply double_to_int_ub. Qed.
Lemma integer_of_cases v : match integer_of v with Ok z => in_int z = true | Throw e => e = InvalidArgument | UB u => num_ub u end.
Proof.
  unfold integer_of. destruct (_ && _); auto. assert (H := number_int_ub v). destruct (let! d := _ in _); auto. contradiction.
Qed.
Lemma unquote_ok a : is_string_value a = true ->
  exists body, a = (c_quote :: body ++ [c_quote])%list /\ unquote a = Ok (unescape body c_quote).
Proof.
  intros H. apply is_string_value_lit in H as (body & -> & _). exists body. split; [reflexivity|].
  unfold unquote, str_substr, zlen. cbn [length]. rewrite app_length. cbn [length].
  replace (Z.of_nat (S (length body + 1)) <? 1) with false by (symmetry; apply Z.ltb_ge; lia).
  replace (Z.of_nat (S (length body + 1)) - 2 <? 0) with false by (symmetry; apply Z.ltb_ge; lia).
  cbn [orb rbind Z.ltb Z.compare skipn]. change (Z.to_nat 1) with 1%nat. cbn [skipn].
  replace (Z.to_nat (Z.of_nat (S (length body + 1)) - 2)) with (length body) by lia.
  rewrite firstn_app, Nat.sub_diag, firstn_all. cbn [firstn]. now rewrite app_nil_r.
Qed.
Lemma string_of_cases a : clean a ->
  match string_of a with Ok s => clean s | Throw e => e = InvalidArgument | UB _ => False end.
Proof.
  intros H. unfold string_of. destruct (is_string_value a) eqn:E; cbn [negb]; [|reflexivity].
  destruct (unquote_ok a E) as (body & -> & ->). apply clean_unescape. apply clean_cons in H as [_ H].
  now apply clean_app in H.
Qed.

(** Elements of containers come from literals. *)
Definition from_literal (o : obj) : Prop := match o with OFloat f => exists a, f = to_float (atof a) | OStr s => exists a, string_of a = Ok s | _ => True end.
Lemma get_shared_instance_cases et a : object_type et -> clean a ->
  match get_shared_instance et a with
  | Ok x => has_type et x /\ obj_clean x /\ from_literal x
  | Throw e => e = InvalidArgument
  | UB u => num_ub u
  end.
Proof.
  intros Ht Hc. unfold get_shared_instance.
  destruct Ht as [->|[->|[->|[->| ->]]]].
  - change (match (let! b := boolean_of a in Ok (OBool b)) with Ok x => has_type (B "Boolean") x /\ obj_clean x /\ from_literal x | Throw e => e = InvalidArgument | UB u => num_ub u end).
    unfold boolean_of. destruct (is_boolean_value a); cbn; auto.
  - change (match (let! c := character_of a in Ok (OChar c)) with Ok x => has_type (B "Character") x /\ obj_clean x /\ from_literal x | Throw e => e = InvalidArgument | UB u => num_ub u end).
    unfold character_of. destruct (is_character_value a) eqn:E; cbn [negb rbind]; auto.
    destruct (str_at_character a E) as (c & -> & ->). cbn. split; auto. apply clean_cons in Hc as [_ Hc].
    now apply clean_cons in Hc.
  - change (match (let! z := integer_of a in Ok (OInt z)) with Ok x => has_type (B "Integer") x /\ obj_clean x /\ from_literal x | Throw e => e = InvalidArgument | UB u => num_ub u end).
    assert (H := integer_of_cases a). destruct (integer_of a); cbn; auto.
  - change (match (let! z := float_of a in Ok (OFloat z)) with Ok x => has_type (B "Float") x /\ obj_clean x /\ from_literal x | Throw e => e = InvalidArgument | UB u => num_ub u end).
    unfold float_of. destruct (is_float_value a); cbn; eauto 6.
  - change (match (let! s := string_of a in Ok (OStr s)) with Ok x => has_type (B "String") x /\ obj_clean x /\ from_literal x | Throw e => e = InvalidArgument | UB u => num_ub u end).
    assert (H := string_of_cases a Hc). destruct (string_of a) eqn:E; cbn; eauto. contradiction.
Qed.
End NL.
