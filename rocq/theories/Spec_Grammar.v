(** Specification of the command language: the rules documented in /repo/src/grammar.h:33-64, written as predicates on
    byte strings, independent of the recognisers and of the parser. *)
From Coq Require Import String Ascii List Arith.
Import ListNotations.
Open Scope list_scope.

Definition bytes := list ascii.
Definition B (s : string) : bytes := list_ascii_of_string s.

Definition code (c : ascii) : nat := nat_of_ascii c.
(** \s : tab, newline, vertical tab, form feed, carriage return, blank *)
Definition space (c : ascii) : Prop := (9 <= code c <= 13) \/ code c = 32.
Definition letter (c : ascii) : Prop := (65 <= code c <= 90) \/ (97 <= code c <= 122).
Definition digit (c : ascii) : Prop := 48 <= code c <= 57.
Definition QUOTE : ascii := ascii_of_nat 34.
Definition BACKSLASH : ascii := ascii_of_nat 92.
Definition APOSTROPHE : ascii := ascii_of_nat 39.

(** <spaces> *)
Definition spaces (s : bytes) : Prop := Forall space s.

(** <boolean-value>, <character-value>, <integer-value>, <float-value> *)
Definition boolean_value (s : bytes) : Prop := s = B "true" \/ s = B "false".
Definition character_value (s : bytes) : Prop := exists c, s = [APOSTROPHE; c; APOSTROPHE].
Definition sign (s : bytes) : Prop := s = [] \/ s = B "+" \/ s = B "-".
Definition digits (s : bytes) : Prop := Forall digit s.
Definition integer_value (s : bytes) : Prop :=
  exists sg ds, s = sg ++ ds /\ sign sg /\ digits ds /\ ds <> [].
Definition mantissa (s : bytes) : Prop :=
  (digits s /\ s <> []) \/
  (exists a b, s = a ++ B "." ++ b /\ digits a /\ digits b /\ b <> []) \/
  (exists a b, s = a ++ B "." ++ b /\ digits a /\ digits b /\ a <> []).
Definition float_value (s : bytes) : Prop :=
  exists sg m ex, s = sg ++ m ++ ex /\ sign sg /\ mantissa m /\
                  (ex = [] \/ exists i, ex = B "e" ++ i /\ integer_value i).

(** <string-value>: the documented ".*" is made precise as: the length of the run of backslashes just before every
    inner quote is odd, just before the closing quote it is even. *)
Inductive backslash_run : bytes -> nat -> Prop :=      (* [s] ends with exactly [n] backslashes *)
| run_none : backslash_run [] 0
| run_stop s c : c <> BACKSLASH -> backslash_run (s ++ [c]) 0
| run_more s n : backslash_run s n -> backslash_run (s ++ [BACKSLASH]) (S n).
Definition string_value (s : bytes) : Prop :=
  exists body, s = [QUOTE] ++ body ++ [QUOTE] /\
    (forall before after n, body = before ++ [QUOTE] ++ after -> backslash_run before n -> Nat.Odd n) /\
    (forall n, backslash_run body n -> Nat.Even n).

(** types *)
Definition object_type (s : bytes) : Prop :=
  s = B "Boolean" \/ s = B "Character" \/ s = B "Integer" \/ s = B "Float" \/ s = B "String".
Definition object_value (s : bytes) : Prop :=
  boolean_value s \/ character_value s \/ integer_value s \/ float_value s \/ string_value s.
Definition vector_type (s : bytes) (t : bytes) : Prop :=
  exists s1 s2, s = B "Vector<" ++ s1 ++ t ++ s2 ++ B ">" /\ spaces s1 /\ spaces s2 /\ object_type t.
Definition set_type (s : bytes) (t : bytes) : Prop :=
  exists s1 s2, s = B "Set<" ++ s1 ++ t ++ s2 ++ B ">" /\ spaces s1 /\ spaces s2 /\ object_type t.
Definition dictionary_type (s : bytes) (k v : bytes) : Prop :=
  exists s1 s2 s3 s4, s = B "Dictionary<" ++ s1 ++ k ++ s2 ++ B "," ++ s3 ++ v ++ s4 ++ B ">" /\
    spaces s1 /\ spaces s2 /\ spaces s3 /\ spaces s4 /\ object_type k /\ object_type v.
Definition container_type (s : bytes) : Prop :=
  (exists t, vector_type s t) \/ (exists t, set_type s t) \/ (exists k v, dictionary_type s k v).
Definition type (s : bytes) : Prop := object_type s \/ container_type s.

(** names *)
Definition reserved_word (s : bytes) : Prop :=
  In s [B "null"; B "true"; B "false"; B "Connection"; B "Context"; B "Boolean"; B "Character"; B "Integer";
        B "Float"; B "String"; B "Vector"; B "Set"; B "Dictionary"].
Definition name_char (c : ascii) : Prop := letter c \/ digit c \/ [c] = B "_".
Definition identifier (s : bytes) : Prop :=
  exists c r, s = c :: r /\ letter c /\ Forall name_char r /\ ~ reserved_word s.
Definition namespace (s : bytes) : Prop := identifier s.
Definition variable (s : bytes) : Prop :=
  identifier s \/ exists n i, s = n ++ B "::" ++ i /\ namespace n /\ identifier i.
Definition actor (s : bytes) : Prop := s = B "Connection" \/ s = B "Context" \/ type s \/ variable s.

(** messages; [name] and [args] are what the message stands for *)
Definition unary_message (s : bytes) : Prop := identifier s \/ exists i, s = i ++ B "?" /\ identifier i.
Definition keyword_message_token (s : bytes) : Prop :=
  exists i, (s = i ++ B ":" \/ s = i ++ B "?") /\ identifier i.
Definition keyword_message_argument (s : bytes) : Prop := object_value s \/ namespace s \/ variable s.
Inductive keyword_message : bytes -> bytes -> list bytes -> Prop :=
| kw_last tok sp a :
    keyword_message_token tok -> spaces sp -> keyword_message_argument a ->
    keyword_message (tok ++ sp ++ a) tok [a]
| kw_more tok sp a s sp' msg name args :
    keyword_message_token tok -> spaces sp -> keyword_message_argument a -> space s -> spaces sp' ->
    keyword_message msg name args ->
    keyword_message (tok ++ sp ++ a ++ [s] ++ sp' ++ msg) (tok ++ name) (a :: args).
Inductive message : bytes -> bytes -> list bytes -> Prop :=
| msg_unary s : unary_message s -> message s s []
| msg_keyword s name args : keyword_message s name args -> message s name args.

(** <statement>: [line] is a command for actor [a] with message [name] and arguments [args]. *)
Definition statement (line a name : bytes) (args : list bytes) : Prop :=
  exists sp0 s sp1 msg sp2 sp3,
    line = sp0 ++ a ++ [s] ++ sp1 ++ msg ++ sp2 ++ B ";" ++ sp3 /\
    spaces sp0 /\ actor a /\ space s /\ spaces sp1 /\ message msg name args /\ spaces sp2 /\ spaces sp3.
