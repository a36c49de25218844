(** Property C48: printed dictionaries are unambiguous. *)
From Coq Require Import ZArith Reals Psatz.
From Verif Require Import Bytes StrUtils Grammar Outcome Parser Num Containers Instance Context Platform.
From Verif Require Import Lemmas StringLit Proof_Grammar Proof_Parser Proof_Exec WP Proof_Inv Proof_Literal Proof_Receive Proof_Context Proof_Names Api Proof_Text.
From Verif Require Import Proof_Number Proof_Float Proof_Arith Proof_Order Props_Text Props_State Props_Number Props_Float Props_Order Proof_Vector.
From Verif Require Import Proof_String Proof_Print Proof_Set Props_Set Proof_PrintDict.
From Verif Require Import Spec_Grammar Spec_State Spec_Names Spec_Text Spec_Number Spec_Float Spec_Order Spec_Vector Spec_String Spec_Set.
Open Scope Z_scope.
Open Scope list_scope.

Lemma entry_text E d : dict_representation E d = B "(" ++ joined (map (entry E) d) ++ [ascii_of_nat 41].
Proof. unfold dict_representation. now rewrite <- joined_comma_sep. Qed.
Theorem C48_dictionaries_are_unambiguous : forall p p' kt vt d d' ans, kt <> B "Float" -> vt <> B "Float" ->
  Forall (fun q => has_type kt (fst q) /\ has_type vt (snd q)) d -> Forall (fun q => has_type kt (fst q) /\ has_type vt (snd q)) d' ->
  shows_dictionary p d ans -> shows_dictionary p' d' ans -> d = d'.
Proof.
  intros p p' kt vt d d' ans Nk Nv Hd Hd' S S'. pose (E q := {| e_precision := q; e_tolerance := S754_nan; e_sort := insertion_sort |}).
  apply (shows_dictionary_iff (E p)) in S. apply (shows_dictionary_iff (E p')) in S'. subst ans. rewrite !entry_text in S'.
  assert (X : map (entry (E p')) d' = map (entry (E p)) d').
  { apply map_ext_in. intros [k v] Hx. rewrite Forall_forall in Hd'. destruct (Hd' _ Hx) as [Hk Hv]. unfold entry. cbn [fst snd] in *.
    now rewrite (repr_plain (E p') (E p) kt k Nk Hk), (repr_plain (E p') (E p) vt v Nv Hv). }
  rewrite X in S'. apply app_inv_head in S'. eapply (dictionary_inj (E p) kt vt Nk Nv); eauto.
Qed.
(** Through the interface: two dictionaries, possibly of two different servers with other settings, that answer [get] alike. *)
Theorem C48_dictionary_answers_are_unambiguous : forall srt srt' pw pw' c c' s s' line line' n n' kt vt d d' e e' z z' ans,
  sort_contract srt -> sort_contract srt' -> reachable srt pw c -> reachable srt' pw' c' -> kt <> B "Float" -> vt <> B "Float" ->
  lookup c n = Some (IDict kt vt d) -> lookup c' n' = Some (IDict kt vt d') ->
  statement line n (B "get") [] -> statement line' n' (B "get") [] ->
  runs srt pw c s line e z ans -> runs srt' pw' c' s' line' e' z' ans -> d = d'.
Proof.
  intros srt srt' pw pw' c c' s s' line line' n n' kt vt d d' e e' z z' ans H1 H1' H2 H2' Nk Nv Hl Hl' Hs Hs' R R'.
  destruct (holder_typed srt pw c n _ H1 H2 Hl) as (_ & _ & Ht). destruct (holder_typed srt' pw' c' n' _ H1' H2' Hl') as (_ & _ & Ht').
  assert (G : forall srt pw c s line n d e z, sort_contract srt -> reachable srt pw c -> lookup c n = Some (IDict kt vt d) ->
    statement line n (B "get") [] -> runs srt pw c s line e z ans -> shows_dictionary (float_precision c) d ans).
  { clear. intros srt pw c s line n d e z H1 H2 Hl Hs R.
    apply (shows_dictionary_iff (env_of srt c)).
    destruct (var_answers srt pw c s line n _ _ _ H1 H2 Hs Hl (Ok (dict_representation (env_of srt c) d)) eq_refl (fun x => x)) as (c1 & R1 & _).
    destruct (runs_unique _ _ _ _ _ _ _ _ _ _ _ R R1) as (_ & _ & ->). reflexivity. }
  eapply (C48_dictionaries_are_unambiguous (float_precision c) (float_precision c') kt vt); eauto.
Qed.
(** Two different dictionaries whose texts differ only in where the quotes belong. *)
Example C48_ex : Forall (fun q => has_type (B "String") (fst q) /\ has_type (B "String") (snd q)) [(OStr (B "a\"), OStr (B "b"))] /\
  shows_dictionary 3 [(OStr (B "a\"), OStr (B "b"))] (B "((""a\"",""b""))") /\
  shows_dictionary 3 [(OStr (B "a"",""b"), OStr [])] (B "((""a\"",\""b"",""""))").
Proof.
  split; [repeat constructor|]. split.
  - exists [(B """a\""", B """b""")]. split; [repeat constructor|reflexivity].
  - exists [(B """a\"",\""b""", B """""")]. split; [repeat constructor|reflexivity].
Qed.
Print Assumptions C48_dictionaries_are_unambiguous.
Print Assumptions C48_dictionary_answers_are_unambiguous.
