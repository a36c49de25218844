(** Specification vocabulary for the data held by the server and for the effect of one statement.

    A client can see a context only through answers; what the answers depend on is: which names exist, what each holds,
    and the two float settings. *)
From Verif Require Import Outcome Num Instance Context.
From Verif Require Import Spec_Grammar.
From Verif Require Export Spec_Literal.
From Coq Require Import String List Ascii ZArith Sorting.Sorted Sorting.Permutation.
Import ListNotations.
Open Scope list_scope.

Definition bytes_dec : forall a b : bytes, {a = b} + {a <> b} := list_eq_dec Ascii.ascii_dec.

(** What the name [n] holds. *)
Fixpoint assoc {V} (l : list (bytes * V)) (n : bytes) : option V :=
  match l with
  | [] => None
  | (k, v) :: r => if bytes_dec k n then Some v else assoc r n
  end.
Definition lookup (c : context) (n : bytes) : option inst := assoc (instances c) n.

(** Lexicographic order of byte strings by unsigned byte value. *)
Inductive precedes : bytes -> bytes -> Prop :=
| pre_prefix p x r : precedes p (p ++ x :: r)
| pre_differ p x r y r' : (code x < code y)%nat -> precedes (p ++ x :: r) (p ++ y :: r').

(** One statement [line] of a client with session [s], executed on data [c], is answered [ans] and leaves [c'], [s']. *)
Definition runs (srt : sorter) (pw : bytes) (c : context) (s : option session) (line : bytes)
                (c' : context) (s' : option session) (ans : bytes) : Prop :=
  execute srt pw line {| w_ctx := c; w_session := s |} = ({| w_ctx := c'; w_session := s' |}, Ok ans).

(** The statement has undefined behaviour of kind [u]. *)
Definition undefined_behaviour (srt : sorter) (pw : bytes) (c : context) (s : option session) (line : bytes) (u : ub) : Prop :=
  snd (execute srt pw line {| w_ctx := c; w_session := s |}) = UB u.

(** The data reachable from an empty server by executing lines of any sessions.  The initial tolerance is any
    single-precision number. *)
Inductive reachable (srt : sorter) (pw : bytes) : context -> Prop :=
| reach_start opened precision tol is_quiet : single_precision tol -> reachable srt pw (new_context opened precision tol is_quiet)
| reach_step c s line c' s' ans :
    reachable srt pw c -> runs srt pw c s line c' s' ans -> reachable srt pw c'.

Definition same_settings (c c' : context) : Prop :=
  float_precision c' = float_precision c /\ tolerance c' = tolerance c.

(** The statement is answered [ans]; afterwards [n] holds [i'], everything else is as before. *)
Definition becomes (srt : sorter) (pw : bytes) (c : context) (s : option session) (line n ans : bytes) (i' : inst) : Prop :=
  exists c', runs srt pw c s line c' s ans /\ lookup c' n = Some i' /\
             (forall m, m <> n -> lookup c' m = lookup c m) /\ same_settings c c'.

(** The statement is answered [ans] and changes no data. *)
Definition only_answers (srt : sorter) (pw : bytes) (c : context) (s : option session) (line ans : bytes) : Prop :=
  exists c', runs srt pw c s line c' s ans /\ (forall m, lookup c' m = lookup c m) /\ same_settings c c'.

(** The error answers (src/exceptions.h:29-38). *)
Definition ERR_SYNTAX : bytes := B "SyntaxError: invalid statement.".
Definition ERR_ARGUMENT : bytes := B "RuntimeError: invalid argument.".
Definition ERR_MESSAGE : bytes := B "RuntimeError: invalid message.".
Definition ERR_USED : bytes := B "RuntimeError: variable name already used.".
Definition ERR_UNKNOWN_NAME : bytes := B "RuntimeError: name cannot be resolved to a variable.".
Definition ERR_NARGS : bytes := B "RuntimeError: wrong number of arguments.".
Definition ERR_COMPARE : bytes := B "RuntimeError: cannot compare these two types.".
Definition ERR_NOT_AUTH : bytes := B "AuthenticationError: not authenticated.".
Definition ERR_PASSWORD : bytes := B "AuthenticationError: wrong password.".
Definition ERR_UNKNOWN : bytes := B "RuntimeError: unknown error.".
Definition error_answer (ans : bytes) : Prop :=
  In ans [ERR_SYNTAX; ERR_ARGUMENT; ERR_MESSAGE; ERR_USED; ERR_UNKNOWN_NAME; ERR_NARGS; ERR_COMPARE; ERR_NOT_AUTH;
          ERR_PASSWORD; ERR_UNKNOWN].

(** Types of values. *)
Definition has_type (t : bytes) (o : obj) : Prop :=
  match o with
  | OBool _ => t = B "Boolean" | OChar _ => t = B "Character" | OInt _ => t = B "Integer"
  | OFloat _ => t = B "Float" | OStr _ => t = B "String"
  end.
Definition well_typed (i : inst) : Prop :=
  match i with
  | IObj _ => True
  | IVector t v | ISet t v => object_type t /\ Forall (has_type t) v
  | IDict k v d => object_type k /\ object_type v /\ Forall (fun p => has_type k (fst p) /\ has_type v (snd p)) d
  end.

(** The ISO contract of std::sort: given a comparator that is a strict weak order on the elements, the result is a
    permutation in which no element is less than an earlier one. *)
Definition strict_weak_order (lt : obj -> obj -> option bool) (l : list obj) : Prop :=
  (forall a b, In a l -> In b l -> lt a b <> None) /\
  (forall a, In a l -> lt a a <> Some true) /\
  (forall a b c, In a l -> In b l -> In c l -> lt a b = Some true -> lt b c = Some true -> lt a c = Some true) /\
  (forall a b c, In a l -> In b l -> In c l ->
     lt a b <> Some true -> lt b a <> Some true -> lt b c <> Some true -> lt c b <> Some true ->
     lt a c <> Some true /\ lt c a <> Some true).
Definition sort_contract (srt : sorter) : Prop :=
  forall lt l, strict_weak_order lt l ->
    Permutation l (srt lt l) /\ StronglySorted (fun a b => lt b a <> Some true) (srt lt l).

(** Creation statements: [creates t m args n i]: the message [m] with [args], sent to the type [t], asks for a new variable
    [n] with initial value [i]. *)
Definition with_value (m : bytes) : Prop := m = B "create:withValue:" \/ m = B "createIfNotExists:withValue:".
Definition without_value (m : bytes) : Prop := m = B "create:" \/ m = B "createIfNotExists:".
Inductive creates (t m : bytes) : list bytes -> bytes -> inst -> Prop :=
| creates_object n l x : object_type t -> with_value m -> variable n -> literal_of t l x -> creates t m [n; l] n (IObj x)
| creates_string n : t = B "String" -> without_value m -> variable n -> creates t m [n] n (IObj (OStr []))
| creates_vector n e : vector_type t e -> without_value m -> variable n -> creates t m [n] n (IVector e [])
| creates_set n e : set_type t e -> without_value m -> variable n -> creates t m [n] n (ISet e [])
| creates_dictionary n k v : dictionary_type t k v -> without_value m -> variable n -> creates t m [n] n (IDict k v []).
(** Which creation messages a type understands. *)
Definition understands (t m : bytes) : Prop :=
  (object_type t /\ with_value m) \/ ((t = B "String" \/ container_type t) /\ without_value m).
