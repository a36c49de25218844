(** Model of src/context.cpp, and of the part of src/server.cpp that [Context::execute] calls ([Session::receive]). *)
From Verif Require Import Bytes StrUtils Grammar Outcome Parser Num Containers Instance.
Open Scope Z_scope.

(** src/context.h: attributes of the Context singleton.  [_instances] is a std::map<std::string, ...>: entries in key
    order.  The log is the list of (trimmed input, output) pairs written, newest last; their time stamps are modelled in Clock.v. *)
Record context := {
  instances : list (str * inst);
  float_precision : Z;
  tolerance : f32;
  log_is_open : bool;        (* _logfile.is_open() *)
  quiet : bool;              (* _is_quiet_mode *)
  logfile : list (str * str);
  stdout : list (str * str)
}.

(** src/server.h, src/server.cpp:87-89: attributes of a Session that messages can see or change. *)
Record session := { is_connected : bool; is_authenticated : bool }.

(** Everything a statement can read or change.  [w_session] is [None] for a null session pointer. *)
Record world := { w_ctx : context; w_session : option session }.

Definition set_instances (c : context) (l : list (str * inst)) : context :=
  {| instances := l; float_precision := float_precision c; tolerance := tolerance c; log_is_open := log_is_open c;
     quiet := quiet c; logfile := logfile c; stdout := stdout c |}.
Definition set_precision (c : context) (p : Z) : context :=
  {| instances := instances c; float_precision := p; tolerance := tolerance c; log_is_open := log_is_open c;
     quiet := quiet c; logfile := logfile c; stdout := stdout c |}.
Definition set_tolerance (c : context) (t : f32) : context :=
  {| instances := instances c; float_precision := float_precision c; tolerance := t; log_is_open := log_is_open c;
     quiet := quiet c; logfile := logfile c; stdout := stdout c |}.
Definition log_file (c : context) (e : str * str) : context :=
  {| instances := instances c; float_precision := float_precision c; tolerance := tolerance c;
     log_is_open := log_is_open c; quiet := quiet c; logfile := (logfile c ++ [e])%list; stdout := stdout c |}.
Definition log_stdout (c : context) (e : str * str) : context :=
  {| instances := instances c; float_precision := float_precision c; tolerance := tolerance c;
     log_is_open := log_is_open c; quiet := quiet c; logfile := logfile c; stdout := (stdout c ++ [e])%list |}.

(** src/context.cpp:48-54: construction; [opened]: whether the log file was named and could be opened. *)
Definition new_context (opened : bool) (precision : Z) (tol : f32) (is_quiet : bool) : context :=
  {| instances := []; float_precision := precision; tolerance := tol; log_is_open := opened; quiet := is_quiet;
     logfile := []; stdout := [] |}.

Definition sorter := (obj -> obj -> option bool) -> list obj -> list obj.
Definition env_of (srt : sorter) (c : context) : env :=
  {| e_precision := float_precision c; e_tolerance := tolerance c; e_sort := srt |}.

(** src/context.cpp:101-106: the loop over the commas of a dictionary type; the last comma wins. *)
Fixpoint dict_type_loop (rest before : str) (m : str) (args : list str) (acc : option creation)
  : M context (option creation) :=
  match rest with
  | [] => ret acc
  | c :: r =>
      if ceq c c_comma
      then i <- container_create (IDict (rev before) r []) m args ;; dict_type_loop r (c :: before) m args (Some i)
      else dict_type_loop r (c :: before) m args acc
  end.

(** src/context.cpp:79-107: the constructor selected by the type name; null pointer when none is. *)
Definition construct (type m : str) (args : list str) : M context creation :=
  if seq_eqb type $"Boolean" then boolean_create m args
  else if seq_eqb type $"Character" then character_create m args
  else if seq_eqb type $"Integer" then integer_create m args
  else if seq_eqb type $"Float" then float_create m args
  else if seq_eqb type $"String" then string_create m args
  else if starts_with type $"Vector" then
    et <- lift (str_substr type 7 (zlen type - 8)) ;; container_create (IVector et []) m args
  else if starts_with type $"Set" then
    et <- lift (str_substr type 4 (zlen type - 5)) ;; container_create (ISet et []) m args
  else if starts_with type $"Dictionary" then
    ts <- lift (str_substr type 11 (zlen type - 12)) ;;
    i <- dict_type_loop ts [] m args None ;;
    match i with Some i => ret i | None => undefined NullDeref end
  else undefined NullDeref.

(** src/context.cpp:78-113 *)
Definition execute_in_type (p : parsed) : M context str :=
  let type := remove_spaces (p_actor p) in
  i <- construct type (p_message p) (p_args p) ;;
  c <- get ;;
  match smap_find (instances c) (fst i) with
  | None => put (set_instances c (smap_assign (instances c) (fst i) (snd i))) ;;; ret null
  | Some _ => if starts_with (p_message p) $"createIfNotExists:" then ret null else throw NameAlreadyUsed
  end.

(** src/context.cpp:180-182: all prefixes of [name] that end just before a "::", inserted into the set. *)
Fixpoint namespaces_of (rest before : str) (acc : list str) : list str :=
  match rest with
  | [] => acc
  | c :: r =>
      match r with
      | d :: _ => namespaces_of r (c :: before)
                    (if ceq c c_colon && ceq d c_colon then sset_insert acc (rev before) else acc)
      | [] => acc
      end
  end.
(** src/context.cpp:175-190 *)
Definition op_listNamespaces (args : list str) : M context str :=
  check_nargs args 0 ;;; c <- get ;;
  let ns := fold_left (fun acc e => namespaces_of (fst e) [] acc) (instances c) [] in
  ret ($"[" ++ comma_sep ns ++ $"]")%list.
(** src/context.cpp:192-202 *)
Definition op_listVariables (args : list str) : M context str :=
  check_nargs args 0 ;;; c <- get ;; ret ($"[" ++ comma_sep (map fst (instances c)) ++ $"]")%list.
(** src/context.cpp:210-216: the separator is added when the text built so far ([acc]) is not empty. *)
Fixpoint names_loop (ns : str) (l : list (str * inst)) (acc : str) : str :=
  match l with
  | [] => acc
  | (k, _) :: r =>
      names_loop ns r (if starts_with k (ns ++ $"::")%list
                       then (if (0 <? zlen acc) then acc ++ [c_comma] ++ k else acc ++ k)%list else acc)
  end.
(** src/context.cpp:204-218 *)
Definition op_listVariablesOfNamespace (args : list str) : M context str :=
  check_nargs args 1 ;;; a <- arg args 0 ;; throw_if (negb (is_namespace a)) InvalidArgument ;;;
  c <- get ;; ret ($"[" ++ names_loop a (instances c) [] ++ $"]")%list.
(** src/context.cpp:225-229: erase the first entry with that name. *)
Fixpoint erase_name (l : list (str * inst)) (a : str) : option (list (str * inst)) :=
  match l with
  | [] => None
  | (k, i) :: r => if seq_eqb k a then Some r else option_map (cons (k, i)) (erase_name r a)
  end.
(** src/context.cpp:220-231 *)
Definition op_deleteVariable (args : list str) : M context str :=
  check_nargs args 1 ;;; a <- arg args 0 ;; throw_if (negb (is_variable a)) InvalidArgument ;;;
  c <- get ;;
  match erase_name (instances c) a with
  | Some l => put (set_instances c l) ;;; ret null
  | None => throw UnexistentVariable
  end.
(** src/context.cpp:233-245 *)
Definition op_deleteVariablesOfNamespace (args : list str) : M context str :=
  check_nargs args 1 ;;; a <- arg args 0 ;; throw_if (negb (is_namespace a)) InvalidArgument ;;;
  c <- get ;;
  put (set_instances c (filter (fun e => negb (starts_with (fst e) (a ++ $"::")%list)) (instances c))) ;;; ret null.
(** src/context.cpp:247-249 *)
Definition op_getFloatPrecision (args : list str) : M context str :=
  c <- get ;; ret (to_string (float_precision c)).
(** src/context.cpp:251-259 *)
Definition op_setFloatPrecision (args : list str) : M context str :=
  check_nargs args 1 ;;; a <- arg args 0 ;; p <- lift (integer_of a) ;;
  throw_if (p <=? 0) InvalidArgument ;;;
  c <- get ;; put (set_precision c p) ;;; ret null.
(** src/context.cpp:261-263 *)
Definition op_getFloatComparisonTolerance (args : list str) : M context str :=
  c <- get ;; ret (fixed_repr (float_precision c) (tolerance c)).
(** src/context.cpp:265-273 *)
Definition op_setFloatComparisonTolerance (args : list str) : M context str :=
  check_nargs args 1 ;;; a <- arg args 0 ;; t <- lift (float_of a) ;;
  throw_if (f_lt t (S754_zero false)) InvalidArgument ;;;
  c <- get ;; put (set_tolerance c t) ;;; ret null.

(** src/context.cpp:115-136 *)
Definition execute_in_context (p : parsed) : M context str :=
  dispatch [($"listNamespaces", op_listNamespaces); ($"listVariables", op_listVariables);
            ($"listVariablesOfNamespace:", op_listVariablesOfNamespace); ($"deleteVariable:", op_deleteVariable);
            ($"deleteVariablesOfNamespace:", op_deleteVariablesOfNamespace);
            ($"getFloatPrecision", op_getFloatPrecision); ($"setFloatPrecision:", op_setFloatPrecision);
            ($"getFloatComparisonTolerance", op_getFloatComparisonTolerance);
            ($"setFloatComparisonTolerance:", op_setFloatComparisonTolerance)] (p_message p) (p_args p).

(** src/context.cpp:138-143; the instance is changed in place, whatever the outcome. *)
Definition execute_in_variable (srt : sorter) (p : parsed) : M context str := fun c =>
  match smap_find (instances c) (p_actor p) with
  | None => (c, Throw UnexistentVariable)
  | Some i => let r := receive (env_of srt c) i (p_message p) (p_args p) in
              (set_instances c (smap_assign (instances c) (p_actor p) (fst r)), snd r)
  end.

(** src/server.cpp:95-105 *)
Definition session_authenticate (password : str) (args : list str) : M session str :=
  check_nargs args 1 ;;; a <- arg args 0 ;; throw_if (negb (is_string_value a)) InvalidArgument ;;;
  v <- lift (string_of a) ;; s <- get ;;
  if seq_eqb v password then put {| is_connected := is_connected s; is_authenticated := true |} ;;; ret null
  else throw WrongPassword.
(** src/server.cpp:92-94: [close] ignores its arguments. *)
Definition session_close (args : list str) : M session str :=
  s <- get ;; put {| is_connected := false; is_authenticated := is_authenticated s |} ;;; ret null.
(** src/server.cpp:91-108 *)
Definition session_receive (password : str) : str -> list str -> M session str :=
  dispatch [($"close", session_close); ($"authenticateWithPassword:", session_authenticate password)].

(** Lifting to the whole world. *)
Definition in_ctx {A} (m : M context A) : M world A := fun w =>
  let r := m (w_ctx w) in ({| w_ctx := fst r; w_session := w_session w |}, snd r).
(** [session->...] on a possibly null session pointer. *)
Definition in_session {A} (m : M session A) : M world A := fun w =>
  match w_session w with
  | None => (w, UB NullDeref)
  | Some s => let r := m s in ({| w_ctx := w_ctx w; w_session := Some (fst r) |}, snd r)
  end.

(** src/context.cpp:147-158: the body of the [try].  When the actor is none of the four kinds the output stays
    empty (unreachable: the parser only yields actors). *)
Definition run_statement (srt : sorter) (password input : str) : M world str :=
  p <- lift (parse input) ;;
  let actor := p_actor p in
  if is_type actor then in_ctx (execute_in_type p)
  else if is_context actor then in_ctx (execute_in_context p)
  else if is_variable actor then in_ctx (execute_in_variable srt p)
  else if is_connection actor then in_session (session_receive password (p_message p) (p_args p))
  else ret [].

(** src/context.cpp:159-164: [catch]: the outcome as text. *)
Definition catch_text (r : res str) : res str :=
  match r with Ok o => Ok o | Throw e => Ok (exc_text e) | UB u => UB u end.

(** src/context.cpp:165-171 *)
Definition write_log (input output : str) (c : context) : context :=
  if log_is_open c then log_file c (trim input, output)
  else if negb (quiet c) then log_stdout c (trim input, output)
  else c.

(** src/context.cpp:145-173.  The result is never [Throw]; after undefined behaviour nothing is claimed. *)
Definition execute (srt : sorter) (password input : str) : M world str := fun w =>
  let r := run_statement srt password input w in
  match catch_text (snd r) with
  | Ok output => ({| w_ctx := write_log input output (w_ctx (fst r)); w_session := w_session (fst r) |}, Ok output)
  | other => (fst r, other)
  end.
