(** From the outcome of a message on the value a variable holds to the effect of a statement. *)
From Verif Require Import Bytes StrUtils Grammar Outcome Parser Num Containers Instance Context.
From Verif Require Import Lemmas Proof_Grammar Proof_Parser Proof_Exec WP Proof_Inv Proof_Literal Proof_Receive Proof_Context Proof_Names.
From Verif Require Import Spec_Grammar Spec_State Spec_Names.

Section Api.
Context (srt : sorter) (pw : str) (c : context) (s : option session) (line n m : str) (args : list str) (i : inst).
Context (Hsrt : sort_contract srt) (Hc : reachable srt pw c) (Hs : statement line n m args) (Hl : lookup c n = Some i).
Lemma holder_variable : variable n.
Proof using Hsrt Hc Hl. eapply ctx_good_lookup; eauto. eapply reachable_good; eauto. Qed.
Lemma holder_typed : well_typed i.
Proof using Hsrt Hc Hl. eapply inst_good_typed, ctx_good_lookup; eauto. eapply reachable_good; eauto. Qed.
Lemma var_becomes i' r : receive (env_of srt c) i m args = (i', r) -> ~ is_ub r -> becomes srt pw c s line n (text_of r) i'.
Proof using Hsrt Hc Hs Hl. intros. eapply exec_variable; eauto using holder_variable. eapply reachable_keys; eauto. Qed.
Lemma var_answers r : receive (env_of srt c) i m args = (i, r) -> ~ is_ub r -> only_answers srt pw c s line (text_of r).
Proof using Hsrt Hc Hs Hl.
  intros H1 H2. destruct (var_becomes _ _ H1 H2) as (c' & R & L & O & S). exists c'. split; [exact R|]. split; [|exact S].
  intros x. destruct (bytes_dec x n) as [->|Hn]; auto. now rewrite L, Hl.
Qed.
Lemma var_undefined i' u : receive (env_of srt c) i m args = (i', UB u) -> undefined_behaviour srt pw c s line u.
Proof using Hsrt Hc Hs Hl. intros. eapply exec_variable_ub; eauto using holder_variable. Qed.
End Api.
Lemma nargs_bool {S} args n (s : S) : length args = n -> check_nargs args n s = (s, Ok tt).
Proof. intros <-. unfold check_nargs. now rewrite Nat.eqb_refl. Qed.

(** For examples: the data after executing [lines] on an empty quiet server. *)
Fixpoint after (srt : sorter) (pw : str) (c : context) (lines : list str) : option context :=
  match lines with
  | [] => Some c
  | l :: r => match execute srt pw l {| w_ctx := c; w_session := None |} with
              | (w, Ok _) => after srt pw (w_ctx w) r
              | _ => None
              end
  end.
Lemma after_reachable srt pw lines c c' : reachable srt pw c -> after srt pw c lines = Some c' -> reachable srt pw c'.
Proof.
  revert c. induction lines as [|l r IH]; cbn [after]; intros c Hc H; [now inversion H; subst|].
  destruct (execute srt pw l {| w_ctx := c; w_session := None |}) as [[c1 s1] [a|e|u]] eqn:E; try discriminate.
  eapply IH; [|exact H]. eapply reach_step; [exact Hc|]. unfold runs. exact E.
Qed.
