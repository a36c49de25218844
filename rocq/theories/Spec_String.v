(** Specification of the String messages: their effect on a sequence of bytes (C20). *)
From Coq Require Import String List Ascii ZArith.
From Verif Require Import Num Instance.
From Verif Require Import Spec_Grammar Spec_State Spec_Names Spec_Text Spec_Number Spec_Float Spec_Vector.
Import ListNotations.
Open Scope list_scope.
Open Scope Z_scope.

(** The text in which a character is printed; every such text is a character literal and there are no others. *)
Definition printed_character (c : ascii) : bytes := [APOSTROPHE; c; APOSTROPHE].

(** [string_effect m args v v' ans]: sent to a String holding [v], the message [m] with arguments [args] is answered [ans] and
    leaves [v'].  No rule applies when an index is out of range or an argument is no literal of the right type.
    (The five comparisons are the subject of C13.) *)
Inductive string_effect : bytes -> list bytes -> bytes -> bytes -> bytes -> Prop :=
| txt_get v : string_effect (B "get") [] v v (printed_string v)
| txt_set a u v : denotes_string a u -> string_effect (B "set:") [a] v u (B "null")
| txt_isEmpty_true : string_effect (B "isEmpty?") [] [] [] (truth true)
| txt_isEmpty_false x v : string_effect (B "isEmpty?") [] (x :: v) (x :: v) (truth false)
| txt_startsWith_true a u r : denotes_string a u -> string_effect (B "startsWith?") [a] (u ++ r) (u ++ r) (truth true)
| txt_startsWith_false a u v : denotes_string a u -> (forall r, v <> u ++ r) -> string_effect (B "startsWith?") [a] v v (truth false)
| txt_endsWith_true a u r : denotes_string a u -> string_effect (B "endsWith?") [a] (r ++ u) (r ++ u) (truth true)
| txt_endsWith_false a u v : denotes_string a u -> (forall r, v <> r ++ u) -> string_effect (B "endsWith?") [a] v v (truth false)
| txt_length v ans : prints_int (size v) ans -> string_effect (B "length") [] v v ans
| txt_atIndex a pre x post : index_of a (size pre) ->
    string_effect (B "atIndex:") [a] (pre ++ x :: post) (pre ++ x :: post) (printed_character x)
| txt_first a n pre post : index_of a n -> n = size pre \/ (n > size pre /\ post = []) ->
    string_effect (B "first:") [a] (pre ++ post) (pre ++ post) (printed_string pre)
| txt_last a n pre post : index_of a n -> n = size post \/ (n > size post /\ pre = []) ->
    string_effect (B "last:") [a] (pre ++ post) (pre ++ post) (printed_string post)
| txt_substring a pre post : index_of a (size pre) ->
    string_effect (B "substringFromIndex:") [a] (pre ++ post) (pre ++ post) (printed_string post)
| txt_substring_to a b pre mid post : index_of a (size pre) -> index_of b (size pre + size mid) ->
    string_effect (B "substringFromIndex:toIndex:") [a; b] (pre ++ mid ++ post) (pre ++ mid ++ post) (printed_string mid)
| txt_pushBack x v : string_effect (B "pushBack:") [printed_character x] v (v ++ [x]) (B "null")
| txt_pushFront x v : string_effect (B "pushFront:") [printed_character x] v (x :: v) (B "null")
| txt_popBack_empty : string_effect (B "popBack") [] [] [] (B "null")
| txt_popBack v x : string_effect (B "popBack") [] (v ++ [x]) v (printed_character x)
| txt_popFront_empty : string_effect (B "popFront") [] [] [] (B "null")
| txt_popFront v x : string_effect (B "popFront") [] (x :: v) v (printed_character x)
| txt_popAtIndex a pre x post : index_of a (size pre) ->
    string_effect (B "popAtIndex:") [a] (pre ++ x :: post) (pre ++ post) (printed_character x)
| txt_concatenate a u v : denotes_string a u -> string_effect (B "concatenate:") [a] v (v ++ u) (B "null")
| txt_insert a b u pre post : denotes_string a u -> index_of b (size pre) ->
    string_effect (B "insert:beforeIndex:") [a; b] (pre ++ post) (pre ++ u ++ post) (B "null")
| txt_erase a pre post : index_of a (size pre) -> string_effect (B "eraseFromIndex:") [a] (pre ++ post) pre (B "null")
| txt_erase_to a b pre mid post : index_of a (size pre) -> index_of b (size pre + size mid) ->
    string_effect (B "eraseFromIndex:toIndex:") [a; b] (pre ++ mid ++ post) (pre ++ post) (B "null")
| txt_clear v : string_effect (B "clear") [] v [] (B "null").

(** The messages above, their number of arguments and which of these are indexes or counts (0 is the first argument). *)
Definition string_messages : list (bytes * nat * list nat) :=
  [(B "get", 0, []); (B "set:", 1, []); (B "isEmpty?", 0, []); (B "startsWith?", 1, []); (B "endsWith?", 1, []); (B "length", 0, []);
   (B "atIndex:", 1, [0]); (B "first:", 1, [0]); (B "last:", 1, [0]); (B "substringFromIndex:", 1, [0]);
   (B "substringFromIndex:toIndex:", 2, [0; 1]); (B "pushBack:", 1, []); (B "pushFront:", 1, []); (B "popBack", 0, []);
   (B "popFront", 0, []); (B "popAtIndex:", 1, [0]); (B "concatenate:", 1, []); (B "insert:beforeIndex:", 2, [1]);
   (B "eraseFromIndex:", 1, [0]); (B "eraseFromIndex:toIndex:", 2, [0; 1]); (B "clear", 0, [])]%nat.

(** C41: the text of the elements of a Set. *)
Definition braces (texts : list bytes) : bytes := B "{" ++ joined texts ++ B "}".
Definition shows_set (precision : Z) (v : list obj) (ans : bytes) : Prop :=
  exists texts, Forall2 (shows precision) v texts /\ ans = braces texts.
(** The comparisons of strings (C13). *)
Definition string_comparisons : list bytes :=
  [B "isLexicographicallyEqualTo?"; B "isLexicographicallyLessThan?"; B "isLexicographicallyLessThanOrEqualTo?";
   B "isLexicographicallyGreaterThan?"; B "isLexicographicallyGreaterThanOrEqualTo?"].
