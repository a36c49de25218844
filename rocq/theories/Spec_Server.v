(** Specification vocabulary for the server as a whole (C30, C31, C33-C35, C37, C40, C43-C45): what clients send, what they get, and
    the one-line-at-a-time server that every schedule must be indistinguishable from. *)
From Verif Require Import Outcome Num Instance Context Server.
From Verif Require Import Spec_Grammar Spec_State Spec_Names Spec_Text.
From Coq Require Import String List Ascii ZArith.
Import ListNotations.
Open Scope list_scope.

(** *** bytes and lines *)
Definition with_newline (l : bytes) : bytes := l ++ [NEWLINE].
(** [b] is the lines [ls], each ended by a newline, and then [rest], which has no newline. *)
Definition lines_of (b : bytes) (ls : list bytes) (rest : bytes) : Prop :=
  b = flat_map with_newline ls ++ rest /\ Forall (fun l => ~ In NEWLINE l) ls /\ ~ In NEWLINE rest.

(** The bytes that the client of session [sid] sends in a schedule; sessions are numbered in the order of acceptance, [n] of them exist
    at first; an error of accept ends the acceptance of new ones (C43). *)
Fixpoint arrives (accepting : bool) (n : nat) (es : list event) (sid : nat) : bytes :=
  match es with
  | [] => []
  | Accept :: r => arrives accepting (if accepting then S n else n) r sid
  | AcceptError :: r => arrives false n r sid
  | Arrive k b :: r => (if Nat.eqb k sid then if Nat.ltb k n then b else [] else []) ++ arrives accepting n r sid
  | _ :: r => arrives accepting n r sid
  end.
Definition arrived (es : list event) (sid : nat) : bytes := arrives true 0 es sid.

(** *** one line at a time *)
Definition fresh (pw : bytes) : session :=
  {| is_connected := true; is_authenticated := if bytes_dec pw [] then true else false |}.
Definition connection_line (line : bytes) : Prop := exists m args, statement line (B "Connection") m args.

(** The line sends the password. *)
Definition password_line (pw line : bytes) : Prop :=
  exists a, statement line (B "Connection") (B "authenticateWithPassword:") [a] /\ denotes_string a pw.

Inductive outcome := Refused | Answered (ans : bytes) | Closed (ans : bytes).
(** What becomes of one line of a session. *)
Inductive processes (srt : sorter) (pw : bytes) (c : context) (s : session) (line : bytes) : context -> session -> outcome -> Prop :=
| processes_refused : is_authenticated s = false -> ~ connection_line line -> processes srt pw c s line c s Refused
| processes_answered c' s' ans : is_authenticated s = true \/ connection_line line ->
    runs srt pw c (Some s) line c' (Some s') ans -> is_connected s' = true -> processes srt pw c s line c' s' (Answered ans)
| processes_closed c' s' ans : is_authenticated s = true \/ connection_line line ->
    runs srt pw c (Some s) line c' (Some s') ans -> is_connected s' = false -> processes srt pw c s line c' s' (Closed ans).

Record entry := { e_sid : nat; e_line : bytes; e_outcome : outcome }.
(** A history: lines of any sessions, one after the other.  A line touches the common data and its own session only. *)
Inductive serial (srt : sorter) (pw : bytes) (c : context) (ss : nat -> session) : list entry -> context -> (nat -> session) -> Prop :=
| serial_none : serial srt pw c ss [] c ss
| serial_more h c1 ss1 sid line c2 s2 o :
    serial srt pw c ss h c1 ss1 -> processes srt pw c1 (ss1 sid) line c2 s2 o ->
    serial srt pw c ss (h ++ [{| e_sid := sid; e_line := line; e_outcome := o |}]) c2 (fun k => if (k =? sid)%nat then s2 else ss1 k).

(** The part of a history that belongs to one session. *)
Definition entries_of (sid : nat) (h : list entry) : list entry := filter (fun e => (e_sid e =? sid)%nat) h.
Definition lines_in (sid : nat) (h : list entry) : list bytes := map e_line (entries_of sid h).
(** The answers a client gets: one per line, none for the line that closes. *)
Definition answer_to (o : outcome) : list bytes :=
  match o with Refused => [ERR_NOT_AUTH] | Answered a => [a] | Closed _ => [] end.
Definition answers_in (sid : nat) (h : list entry) : list bytes := flat_map (fun e => answer_to (e_outcome e)) (entries_of sid h).
Definition closes (e : entry) : Prop := exists ans, e_outcome e = Closed ans.

(** *** what a schedule does *)
(** The connection has nothing left to do: all that has arrived was read and no complete line is waiting. *)
Definition idle (cn : conn) : Prop := c_phase cn = Reading /\ c_socket cn = [] /\ ~ In NEWLINE (c_streambuf cn).
(** The client closed the connection. *)
Definition hung_up (cn : conn) : Prop := is_connected (c_session cn) = false.

(** The history [h] accounts for connection [cn], numbered [sid], whose client has sent [sent_by_client]. *)
Record accounts (h : list entry) (sid : nat) (sent_by_client : bytes) (cn : conn) : Prop := {
  (** the lines processed are the first lines that arrived, in order; on an idle connection they are all the complete lines *)
  acc_input : exists waiting, sent_by_client = flat_map with_newline (lines_in sid h) ++ waiting /\ (idle cn -> ~ In NEWLINE waiting);
  acc_lines : Forall (fun l => ~ In NEWLINE l) (lines_in sid h);
  (** the bytes sent to the client are the answers, in order, each followed by a newline *)
  acc_output : c_sent cn = flat_map with_newline (answers_in sid h);
  (** closing is the last thing that happens *)
  acc_close : forall before e after, entries_of sid h = before ++ e :: after -> closes e -> after = [];
  acc_hung_up : hung_up cn <-> exists before e, entries_of sid h = before ++ [e] /\ closes e
}.
(** The history [h] accounts for everything the schedule [es] has done to a server started on data [c0]. *)
Definition explains (srt : sorter) (pw : bytes) (c0 : context) (es : list event) (h : list entry) : Prop :=
  let sv := run srt (start pw c0) es in
  exists ss,
    serial srt pw c0 (fun _ => fresh pw) h (sv_ctx sv) ss /\
    (forall e, In e h -> exists cn, nth_error (sv_conns sv) (e_sid e) = Some cn) /\
    forall sid cn, nth_error (sv_conns sv) sid = Some cn -> c_session cn = ss sid /\ accounts h sid (arrived es sid) cn.

(** The events of one session. *)
Definition concerns (e : event) (sid : nat) : Prop :=
  match e with
  | Accept | AcceptError => False
  | Arrive k _ | ReadSome k _ | Handle k _ | WriteDone k | Fail k => k = sid
  end.
(** Events that the server itself produces for a session, when the network lets it make progress. *)
Definition progress_of (sid : nat) (e : event) : Prop :=
  match e with ReadSome k _ | Handle k _ | WriteDone k => k = sid | _ => False end.

(** *** the log *)
Definition trimmed (line t : bytes) : Prop :=
  exists a b, line = a ++ t ++ b /\ spaces a /\ spaces b /\
    (forall x r, t = x :: r -> ~ space x) /\ (forall r x, t = r ++ [x] -> ~ space x).
(** The records of a history: line and answer of every line that was executed. *)
Inductive records : list entry -> list (bytes * bytes) -> Prop :=
| records_none : records [] []
| records_refused e h l : records h l -> e_outcome e = Refused -> records (h ++ [e]) l
| records_executed e h l t ans : records h l -> e_outcome e = Answered ans \/ e_outcome e = Closed ans -> trimmed (e_line e) t ->
    records (h ++ [e]) (l ++ [(t, ans)]).
(** Where the records go: to the log file if there is one, else to the standard output unless the server is quiet. *)
Definition logs (c : context) (l : list (bytes * bytes)) (c' : context) : Prop :=
  log_is_open c' = log_is_open c /\ quiet c' = quiet c /\
  if log_is_open c then logfile c' = logfile c ++ l /\ stdout c' = stdout c
  else if quiet c then logfile c' = logfile c /\ stdout c' = stdout c
  else logfile c' = logfile c /\ stdout c' = stdout c ++ l.

(** *** answering *)
(** The next complete line that session [sid] has sent and the server has not processed. *)
Definition next_line (cn : conn) (line : bytes) : Prop :=
  exists rest, c_streambuf cn = with_newline line ++ rest /\ ~ In NEWLINE line.
(** The next line of session [sid] has undefined behaviour or an answer of 65536 bytes or more (C40). *)
Definition unserviceable (srt : sorter) (sv : server) (sid : nat) : Prop :=
  exists cn line, nth_error (sv_conns sv) sid = Some cn /\ next_line cn line /\
    ((exists u, undefined_behaviour srt (sv_password sv) (sv_ctx sv) (Some (c_session cn)) line u) \/
     (exists c' s' ans, processes srt (sv_password sv) (sv_ctx sv) (c_session cn) line c' s' (Answered ans) /\ (65536 <= List.length ans)%nat)).
Definition finished (cn : conn) : Prop := idle cn \/ hung_up cn.
