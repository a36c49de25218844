(** Outcomes: normal result, C++ exception, undefined behaviour. *)
From Verif Require Import Bytes.

(** src/exceptions.h:29-38; [EUnknown] stands for the [catch (...)] branch of src/context.cpp:162-164, i.e. any
    exception that is not one of the program's own [const char*] ones (here: [std::out_of_range]). *)
Inductive exc :=
| InvalidStatement | InvalidArgument | InvalidMessage | NameAlreadyUsed | UnexistentVariable | WrongNumberOfArguments
| InvalidComparison | NotAuthenticated | WrongPassword | EUnknown.

(** src/exceptions.h:29-38 *)
Definition exc_text (e : exc) : str :=
  match e with
  | InvalidStatement => $"SyntaxError: invalid statement."
  | InvalidArgument => $"RuntimeError: invalid argument."
  | InvalidMessage => $"RuntimeError: invalid message."
  | NameAlreadyUsed => $"RuntimeError: variable name already used."
  | UnexistentVariable => $"RuntimeError: name cannot be resolved to a variable."
  | WrongNumberOfArguments => $"RuntimeError: wrong number of arguments."
  | InvalidComparison => $"RuntimeError: cannot compare these two types."
  | NotAuthenticated => $"AuthenticationError: not authenticated."
  | WrongPassword => $"AuthenticationError: wrong password."
  | EUnknown => $"RuntimeError: unknown error."
  end.

(** Kinds of undefined behaviour the model makes visible. *)
Inductive ub :=
| OutOfBounds          (* operator[] / iterator outside the container *)
| IntConversion        (* NaN or out-of-range double converted to int *)
| AtoiRange            (* atoi on a number that does not fit int *)
| BadOrder             (* std::sort/set/map used with a comparator that is no strict weak order on the values *)
| Diverges             (* a loop that does not end (only the fuel of Parser.v can report it; proved unreachable) *)
| NullDeref            (* null Session or null element *)
| DanglingBuffer.      (* asynchronous write reads a destroyed temporary *)

Inductive res (A : Type) :=
| Ok (a : A)
| Throw (e : exc)
| UB (u : ub).
Arguments Ok {A} a.
Arguments Throw {A} e.
Arguments UB {A} u.

Definition rbind {A B} (m : res A) (f : A -> res B) : res B :=
  match m with Ok a => f a | Throw e => Throw e | UB u => UB u end.

(** State + exceptions: the state reached is kept when an exception is thrown, as in C++ (no rollback). *)
Definition M (S A : Type) := S -> S * res A.
Definition ret {S A} (a : A) : M S A := fun s => (s, Ok a).
Definition throw {S A} (e : exc) : M S A := fun s => (s, Throw e).
Definition undefined {S A} (u : ub) : M S A := fun s => (s, UB u).
Definition bind {S A B} (m : M S A) (f : A -> M S B) : M S B :=
  fun s => match m s with
           | (s', Ok a) => f a s'
           | (s', Throw e) => (s', Throw e)
           | (s', UB u) => (s', UB u)
           end.
Definition get {S} : M S S := fun s => (s, Ok s).
Definition put {S} (s : S) : M S unit := fun _ => (s, Ok tt).
Definition lift {S A} (r : res A) : M S A := fun s => (s, r).
Definition throw_if {S} (b : bool) (e : exc) : M S unit := if b then throw e else ret tt.

Notation "x <- m ;; f" := (bind m (fun x => f)) (at level 61, m at next level, right associativity).
Notation "m ;;; f" := (bind m (fun _ => f)) (at level 61, right associativity).
Notation "'let!' x := m 'in' f" := (rbind m (fun x => f)) (at level 200, x name, m at level 100, f at level 200).
