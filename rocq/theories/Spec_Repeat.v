(** Specification vocabulary for C61: which lines may safely be sent twice. *)
From Verif Require Import Num Instance Context.
From Verif Require Import Spec_Grammar Spec_State Spec_Names.
From Coq Require Import String List.
Import ListNotations.

(** The messages whose effect adds up when they are sent again, by the value they are sent to. *)
Definition accumulating (i : inst) : list bytes :=
  match i with
  | IObj (OInt _) | IObj (OFloat _) => [B "add:"; B "subtract:"; B "multiplyBy:"; B "divideBy:"]
  | IObj (OStr _) => [B "pushBack:"; B "pushFront:"; B "popBack"; B "popFront"; B "popAtIndex:"; B "concatenate:"; B "insert:beforeIndex:";
                      B "eraseFromIndex:toIndex:"]
  | IVector t _ => [B "pushBack:"; B "pushFront:"; B "popBack"; B "popFront"; B "popAtIndex:"; B "insert:beforeIndex:";
                    B "eraseFromIndex:toIndex:"; B "removeFirst:"; B "removeFirst:fromIndex:"; B "replaceFirst:with:";
                    B "replaceFirst:fromIndex:with:"; B "reverse"] ++
                   (if bytes_dec t (B "Float") then [B "sort"] else [])
  | IObj (OBool _) | IObj (OChar _) | ISet _ _ | IDict _ _ _ => []
  end.
(** The line sends no such message to a variable. *)
Definition repeatable (c : context) (line : bytes) : Prop :=
  forall n m args i, statement line n m args -> lookup c n = Some i -> ~ In m (accumulating i).
(** The answer to the repeated line is the first answer, but a variable just created exists already and one just deleted exists no more. *)
Definition answered_again (line first second : bytes) : Prop :=
  second = first \/
  (first = B "null" /\ second = ERR_USED /\ exists T m args n i, statement line T m args /\ creates T m args n i) \/
  (first = B "null" /\ second = ERR_UNKNOWN_NAME /\ exists n, statement line (B "Context") (B "deleteVariable:") [n]).

(** The message [m] to variables of type [T] is not repeatable: there is a case in which it is understood twice and does something both times. *)
Definition adds_up (T m : bytes) : Prop :=
  exists srt c n i args line c1 c2 a1 a2, sort_contract srt /\ reachable srt [] c /\ lookup c n = Some i /\ type_name i = T /\
    statement line n m args /\ runs srt [] c None line c1 None a1 /\ runs srt [] c1 None line c2 None a2 /\
    ~ looks_like_error a1 /\ ~ looks_like_error a2 /\ lookup c1 n <> lookup c n /\ lookup c2 n <> lookup c1 n.
