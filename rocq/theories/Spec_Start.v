(** Specification vocabulary for messages to Connection and Context (C49) and for starting the server (C50). *)
From Verif Require Import Outcome Num Instance Context Server Main.
From Verif Require Import Spec_Grammar Spec_State Spec_Names Spec_Text Spec_Number Spec_Server.
From Coq Require Import String List Ascii ZArith.
Import ListNotations.
Open Scope list_scope.

(** [connection_effect pw m args s s' ans]: the session [s] of a server with password [pw] answers [ans] to the message [m] to
    Connection and becomes [s']. *)
Inductive connection_effect (pw : bytes) : bytes -> list bytes -> session -> session -> bytes -> Prop :=
| con_close s : connection_effect pw (B "close") [] s {| is_connected := false; is_authenticated := is_authenticated s |} (B "null")
| con_right a s : denotes_string a pw ->
    connection_effect pw (B "authenticateWithPassword:") [a] s {| is_connected := is_connected s; is_authenticated := true |} (B "null")
| con_wrong a v s : denotes_string a v -> v <> pw -> connection_effect pw (B "authenticateWithPassword:") [a] s s ERR_PASSWORD
| con_no_string a s : ~ string_value a -> connection_effect pw (B "authenticateWithPassword:") [a] s s ERR_ARGUMENT
| con_other m args s : m <> B "close" -> m <> B "authenticateWithPassword:" -> connection_effect pw m args s s ERR_MESSAGE.

(** The messages Context understands. *)
Definition context_messages : list bytes :=
  [B "listNamespaces"; B "listVariables"; B "listVariablesOfNamespace:"; B "deleteVariable:"; B "deleteVariablesOfNamespace:";
   B "getFloatPrecision"; B "setFloatPrecision:"; B "getFloatComparisonTolerance"; B "setFloatComparisonTolerance:"].

(** The server a command line asks for: no variable, no session, nothing logged, the settings given. *)
Record started_with (sys : system) (o : options) (sv : server) : Prop := {
  sw_password : sv_password sv = o_password o;
  sw_no_sessions : sv_conns sv = [];
  sw_accepting : sv_accepting sv = true;
  sw_no_crash : sv_crash sv = None;
  sw_no_variables : forall n, lookup (sv_ctx sv) n = None;
  sw_precision : float_precision (sv_ctx sv) = o_precision o;
  sw_tolerance : tolerance (sv_ctx sv) = o_tolerance o;
  sw_quiet : quiet (sv_ctx sv) = o_quiet o;
  sw_log : log_is_open (sv_ctx sv) = true <-> (o_logfile o <> [] /\ opens sys (o_logfile o) = true);
  sw_nothing_logged : logfile (sv_ctx sv) = [] /\ stdout (sv_ctx sv) = []
}.
(** All handlers of the server are over: accepting has failed and every session has ended. *)
Definition at_rest (sv : server) : Prop := sv_accepting sv = false /\ forall cn, In cn (sv_conns sv) -> c_phase cn = Gone.
