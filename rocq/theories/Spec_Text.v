(** Specification vocabulary for string literals (C06, C07, C32, C41). *)
From Verif Require Import Spec_Grammar.
From Coq Require Import String List Ascii Arith.
Import ListNotations.
Open Scope list_scope.

(** A backslash is put before every quote. *)
Definition with_escapes (v : bytes) : bytes :=
  flat_map (fun x => if Ascii.ascii_dec x QUOTE then [BACKSLASH; QUOTE] else [x]) v.
(** The text in which the string [v] is printed. *)
Definition printed_string (v : bytes) : bytes := [QUOTE] ++ with_escapes v ++ [QUOTE].
(** The literal [l] stands for the string [v]. *)
Definition denotes_string (l v : bytes) : Prop := string_value l /\ l = printed_string v.
(** Every run of backslashes just before a quote or at the end has even length. *)
Definition even_backslashes (v : bytes) : Prop :=
  (forall before after n, v = before ++ [QUOTE] ++ after -> backslash_run before n -> Nat.Even n) /\
  (forall n, backslash_run v n -> Nat.Even n).
