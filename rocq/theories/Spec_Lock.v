(** Specification for C91: what a lock protects. *)
From Coq Require Import String List Ascii ZArith.
From Verif Require Import Num Instance Context Server.
From Verif Require Import Spec_Grammar Spec_State Spec_Names Spec_Text Spec_Number Spec_Server Spec_Clients Spec_LastWrite.
Import ListNotations.
Open Scope list_scope.

(** What client [k] knows itself: in the history [h] it obtained the lock [n] (C60: it created the name) and since then it has not given it back. *)
Definition inside (n : bytes) (k : nat) (h : list entry) : Prop :=
  exists h1 e h2, h = h1 ++ e :: h2 /\ e_sid e = k /\ obtains n e /\ forall e', In e' h2 -> e_sid e' = k -> ~ gives_back n e'.
(** The entry can not change what the server has under the name [d]. *)
Definition harmless (d : bytes) (e : entry) : Prop := no_effect d e /\ ~ asks_for (e_line e) d.
(** Every client keeps to the rules, as far as it can tell: it gives the lock [n] back only if it has it, and changes [d] only while it has the lock. *)
Definition disciplined (n d : bytes) (h : list entry) : Prop :=
  forall h1 e h2, h = h1 ++ e :: h2 -> gives_back n e \/ ~ harmless d e -> inside n (e_sid e) h1.
(** Between the entries the client [k] did not give the lock back. *)
Definition stays (n : bytes) (k : nat) (h : list entry) : Prop := forall e, In e h -> e_sid e = k -> ~ gives_back n e.

(** The entry [e] of the history [h ++ [e]] sets the Integer [d] to what the same client was answered by its last get in the same critical section, plus [z]; in between it
    did not change [d]. *)
Definition raises (n d : bytes) (h : list entry) (e : entry) (z : Z) : Prop :=
  exists h1 g h2 args ans v, h = h1 ++ g :: h2 /\ e_sid g = e_sid e /\ inside n (e_sid e) h1 /\ stays n (e_sid e) (g :: h2) /\
    (forall e', In e' h2 -> e_sid e' = e_sid e -> harmless d e') /\
    statement (e_line g) d (B "get") args /\ executed g ans /\ prints_int v ans /\
    e_outcome e <> Refused /\ line_sets d (B "Integer") (e_line e) (OInt (v + z)).
