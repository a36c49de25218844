(** Specification vocabulary for C58-C60: what clients that work together through one server can rely on.  All of it speaks about
    histories of lines of any number of sessions ([serial], [explains] of Spec_Server; C35: every schedule has one). *)
From Verif Require Import Num Instance Context Server.
From Verif Require Import Spec_Grammar Spec_State Spec_Names Spec_Text Spec_Number Spec_Set Spec_Server.
From Coq Require Import String List Ascii ZArith.
Import ListNotations.
Open Scope list_scope.
Open Scope Z_scope.

(** The line of this entry was executed and its result was [ans]. *)
Definition executed (e : entry) (ans : bytes) : Prop := e_outcome e = Answered ans \/ e_outcome e = Closed ans.
(** The line can not change the variable [n]: it sends it no changing message and does not ask for its deletion. *)
Definition leaves (line n : bytes) : Prop := keeps line n /\ silent line n mutators.
(** The entry has no effect on [n]: refused, answered with an error, or a line that leaves [n] alone. *)
Definition no_effect (n : bytes) (e : entry) : Prop :=
  e_outcome e = Refused \/ (exists ans, executed e ans /\ looks_like_error ans) \/ leaves (e_line e) n.

(** C58.  A vector used as a queue: all that is done to it is adding at the back and taking from the front. *)
Definition as_queue (n : bytes) (e : entry) : Prop :=
  (exists a, statement (e_line e) n (B "pushBack:") [a]) \/ statement (e_line e) n (B "popFront") [] \/ leaves (e_line e) n.
(** [queue_use n t v h put taken]: in the history [h] the values [put] were added to the Vector<t> [n], which held [v] before, and the
    values [taken] were answered to popFront, each in this order and by any sessions; popFront only answered null when all there ever was
    had been taken. *)
Inductive queue_use (n t : bytes) (v : list obj) : list entry -> list obj -> list obj -> Prop :=
| queue_start : queue_use n t v [] [] []
| queue_put h put taken e a x : queue_use n t v h put taken -> statement (e_line e) n (B "pushBack:") [a] -> literal_of t a x ->
    executed e (B "null") -> queue_use n t v (h ++ [e]) (put ++ [x]) taken
| queue_take h put taken e x p ans : queue_use n t v h put taken -> statement (e_line e) n (B "popFront") [] -> shows p x ans ->
    executed e ans -> queue_use n t v (h ++ [e]) put (taken ++ [x])
| queue_take_nothing h put taken e : queue_use n t v h put taken -> v ++ put = taken -> statement (e_line e) n (B "popFront") [] ->
    executed e (B "null") -> queue_use n t v (h ++ [e]) put taken
| queue_other h put taken e : queue_use n t v h put taken -> no_effect n e -> queue_use n t v (h ++ [e]) put taken.
(** The same for a stack. *)
Definition as_stack (n : bytes) (e : entry) : Prop :=
  (exists a, statement (e_line e) n (B "pushBack:") [a]) \/ statement (e_line e) n (B "popBack") [] \/ leaves (e_line e) n.
(** [stack_use n t h v w]: a stack that held [v] (top last) holds [w] after the pushes and pops in [h]; every pop answered the value
    that was on top, or null if there was none. *)
Inductive stack_use (n t : bytes) (v : list obj) : list entry -> list obj -> Prop :=
| stack_start : stack_use n t v [] v
| stack_push h w e a x : stack_use n t v h w -> statement (e_line e) n (B "pushBack:") [a] -> literal_of t a x ->
    executed e (B "null") -> stack_use n t v (h ++ [e]) (w ++ [x])
| stack_pop h w e x p ans : stack_use n t v h (w ++ [x]) -> statement (e_line e) n (B "popBack") [] -> shows p x ans ->
    executed e ans -> stack_use n t v (h ++ [e]) w
| stack_pop_nothing h e : stack_use n t v h [] -> statement (e_line e) n (B "popBack") [] ->
    executed e (B "null") -> stack_use n t v (h ++ [e]) []
| stack_other h w e : stack_use n t v h w -> no_effect n e -> stack_use n t v (h ++ [e]) w.

(** C59.  An Integer used as a counter. *)
Definition as_counter (n : bytes) (e : entry) : Prop :=
  (exists a, (statement (e_line e) n (B "add:") [a] \/ statement (e_line e) n (B "subtract:") [a]) /\ (integer_value a \/ ~ float_value a)) \/
  leaves (e_line e) n.
(** [counted n h k]: the additions to and subtractions from [n] in [h] sum up to [k]. *)
Inductive counted (n : bytes) : list entry -> Z -> Prop :=
| counted_start : counted n [] 0
| counted_add h k e a d : counted n h k -> statement (e_line e) n (B "add:") [a] -> denotes_int a d -> executed e (B "null") ->
    counted n (h ++ [e]) (k + d)
| counted_subtract h k e a d : counted n h k -> statement (e_line e) n (B "subtract:") [a] -> denotes_int a d -> executed e (B "null") ->
    counted n (h ++ [e]) (k - d)
| counted_other h k e : counted n h k -> no_effect n e -> counted n (h ++ [e]) k.

(** C60.  A name used as a lock. *)
(** The line asks for the creation of [n], with an error if it exists ([tries]), or in either way ([asks_for]). *)
Definition tries (line n : bytes) : Prop :=
  exists T m args i, statement line T m args /\ creates T m args n i /\ (m = B "create:" \/ m = B "create:withValue:").
Definition asks_for (line n : bytes) : Prop := exists T m args i, statement line T m args /\ creates T m args n i.
(** The lock was obtained. *)
Definition obtains (n : bytes) (e : entry) : Prop := tries (e_line e) n /\ executed e (B "null").
(** The lock was given back: a line that asks for the deletion of [n] was executed, without an error. *)
Definition gives_back (n : bytes) (e : entry) : Prop := ~ keeps (e_line e) n /\ executed e (B "null").
(** After the history [h] the name [n] is in use: it was created, and since then not deleted. *)
Definition held (n : bytes) (h : list entry) : Prop :=
  exists h1 e h2, h = h1 ++ e :: h2 /\ asks_for (e_line e) n /\ executed e (B "null") /\ Forall (fun e' => ~ gives_back n e') h2.
