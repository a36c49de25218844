(** Model of src/server.cpp: the acceptor and the sessions as a state machine driven by an arbitrary schedule of
    network events.

    Boost.Asio is modelled by its contract: one thread runs the handlers (src/server.cpp:82 [_io_service.run()] from
    src/knuckleball.cpp), bytes of one connection arrive in order, [async_read_until(.., '\n', ..)] moves arbitrary
    non-empty pieces of what has arrived to the streambuf and completes once the streambuf holds a newline. *)
From Verif Require Import Bytes StrUtils Grammar Outcome Parser Num Containers Instance Context.

(** What a session is waiting for. [Gone]: its handlers are over and the object is destroyed. *)
Inductive phase := Reading | Writing | Gone.

(** One connection: src/server.h Session, plus the two ends of its socket. *)
Record conn := {
  c_session : session;
  c_phase : phase;
  c_socket : str;      (* bytes received by the kernel, not yet read *)
  c_streambuf : str;   (* _streambuf *)
  c_sent : str         (* bytes handed to the kernel for the client, in order *)
}.

(** src/server.h Server and the Context singleton.  [crash]: undefined behaviour has happened; no claim after it. *)
Record server := {
  sv_password : str;
  sv_ctx : context;
  sv_conns : list conn;        (* session identifiers are positions *)
  sv_accepting : bool;         (* an async_accept is pending *)
  sv_crash : option ub
}.

Inductive event :=
| Accept                          (* async_accept completes with a new connection *)
| AcceptError                     (* async_accept completes with an error *)
| Arrive (sid : nat) (bytes : str)  (* bytes arrive from the client of session [sid] *)
| ReadSome (sid n : nat)          (* async_read_until reads [n] more bytes into the streambuf *)
| Handle (sid k : nat)            (* the read handler runs; the kernel accepts [k] bytes of the answer at once *)
| WriteDone (sid : nat)           (* the write handler runs without error *)
| Fail (sid : nat).               (* a read or write completes with an error (end of file, reset) *)

Definition has_newline (s : str) : bool := existsb (ceq c_nl) s.
(** [std::getline]: the bytes before the first newline, and what remains after it. *)
Fixpoint getline (s : str) : str * str :=
  match s with
  | [] => ([], [])
  | c :: r => if ceq c c_nl then ([], r) else let lr := getline r in (c :: fst lr, snd lr)
  end.

(** src/server.cpp:87-89 *)
Definition new_session (password : str) : session :=
  {| is_connected := true; is_authenticated := seq_eqb password [] |}.
Definition new_conn (password : str) : conn :=
  {| c_session := new_session password; c_phase := Reading; c_socket := []; c_streambuf := []; c_sent := [] |}.

(** The largest piece boost::asio::async_write hands over in one [send] (detail/default_max_transfer_size). *)
Definition max_transfer : nat := 65536.

(** src/server.cpp:137-145 [do_write]: the buffer is a temporary [response + "\n"] that dies when [do_write] returns.
    Only what the first, immediate [send] accepts is read while it is alive; if that is not everything, the rest is
    read from freed memory later. *)
Definition do_write (response : str) (k : nat) : res str :=
  let text := (response ++ [c_nl])%list in
  if (min k max_transfer <? length text)%nat then UB DanglingBuffer else Ok text.

(** src/server.cpp:117-123: the actor of the line, empty when it does not parse.  [parse] may have undefined behaviour
    in the model; it is never reached (C03). *)
Definition actor_of (input : str) : res str :=
  match parse input with Ok p => Ok (p_actor p) | Throw _ => Ok [] | UB u => UB u end.

(** src/server.cpp:114-133: the read handler on one line: new context, new session, and the answer to write, if any. *)
Definition handle_line (srt : sorter) (password input : str) (ctx : context) (s : session)
  : res (context * session * option str) :=
  let! actor := actor_of input in
  if is_authenticated s || is_connection actor then
    let r := execute srt password input {| w_ctx := ctx; w_session := Some s |} in
    let! output := snd r in
    let s' := match w_session (fst r) with Some s' => s' | None => s end in
    Ok (w_ctx (fst r), s', if is_connected s' then Some output else None)
  else Ok (ctx, s, Some (exc_text NotAuthenticated)).

Definition set_conn (l : list conn) (sid : nat) (c : conn) : list conn := firstn sid l ++ c :: skipn (S sid) l.
Definition with_conn (sv : server) (sid : nat) (c : conn) : server :=
  {| sv_password := sv_password sv; sv_ctx := sv_ctx sv; sv_conns := set_conn (sv_conns sv) sid c;
     sv_accepting := sv_accepting sv; sv_crash := sv_crash sv |}.
Definition crashed (sv : server) (u : ub) : server :=
  {| sv_password := sv_password sv; sv_ctx := sv_ctx sv; sv_conns := sv_conns sv; sv_accepting := sv_accepting sv;
     sv_crash := Some u |}.

(** The read handler on connection [sid] (src/server.cpp:113-134), its write included. *)
Definition handle (srt : sorter) (sv : server) (sid k : nat) (c : conn) : server :=
  let lr := getline (c_streambuf c) in
  match handle_line srt (sv_password sv) (fst lr) (sv_ctx sv) (c_session c) with
  | UB u => crashed sv u
  | Throw _ => crashed sv NullDeref     (* not reached: execute catches everything *)
  | Ok (ctx', s', None) =>              (* closed: no write and no further read; the session is destroyed *)
      {| sv_password := sv_password sv; sv_ctx := ctx';
         sv_conns := set_conn (sv_conns sv) sid
           {| c_session := s'; c_phase := Gone; c_socket := c_socket c; c_streambuf := snd lr; c_sent := c_sent c |};
         sv_accepting := sv_accepting sv; sv_crash := sv_crash sv |}
  | Ok (ctx', s', Some response) =>
      match do_write response k with
      | UB u => crashed sv u
      | Throw _ => crashed sv NullDeref  (* not reached *)
      | Ok text =>
          {| sv_password := sv_password sv; sv_ctx := ctx';
             sv_conns := set_conn (sv_conns sv) sid
               {| c_session := s'; c_phase := Writing; c_socket := c_socket c; c_streambuf := snd lr;
                  c_sent := (c_sent c ++ text)%list |};
             sv_accepting := sv_accepting sv; sv_crash := sv_crash sv |}
      end
  end.

(** One event.  An event that is not possible in the current state changes nothing. *)
Definition step (srt : sorter) (sv : server) (e : event) : server :=
  match sv_crash sv with
  | Some _ => sv
  | None =>
      match e with
      | Accept =>                       (* src/server.cpp:66-78 *)
          if sv_accepting sv then
            {| sv_password := sv_password sv; sv_ctx := sv_ctx sv;
               sv_conns := (sv_conns sv ++ [new_conn (sv_password sv)])%list;
               sv_accepting := true; sv_crash := None |}
          else sv
      | AcceptError =>                  (* src/server.cpp:69-70: nothing is done, so do_accept is not called again *)
          {| sv_password := sv_password sv; sv_ctx := sv_ctx sv; sv_conns := sv_conns sv; sv_accepting := false;
             sv_crash := None |}
      | Arrive sid bytes =>
          match nth_error (sv_conns sv) sid with
          | Some c => with_conn sv sid
              {| c_session := c_session c; c_phase := c_phase c; c_socket := (c_socket c ++ bytes)%list;
                 c_streambuf := c_streambuf c; c_sent := c_sent c |}
          | None => sv
          end
      | ReadSome sid n =>               (* src/server.cpp:112 *)
          match nth_error (sv_conns sv) sid with
          | Some c =>
              match c_phase c with
              | Reading =>
                  if has_newline (c_streambuf c) then sv
                  else with_conn sv sid
                    {| c_session := c_session c; c_phase := Reading; c_socket := skipn n (c_socket c);
                       c_streambuf := (c_streambuf c ++ firstn n (c_socket c))%list; c_sent := c_sent c |}
              | _ => sv
              end
          | None => sv
          end
      | Handle sid k =>                 (* src/server.cpp:113-134 *)
          match nth_error (sv_conns sv) sid with
          | Some c =>
              match c_phase c with
              | Reading => if has_newline (c_streambuf c) then handle srt sv sid k c else sv
              | _ => sv
              end
          | None => sv
          end
      | WriteDone sid =>                (* src/server.cpp:140-143 *)
          match nth_error (sv_conns sv) sid with
          | Some c =>
              match c_phase c with
              | Writing => with_conn sv sid
                  {| c_session := c_session c; c_phase := Reading; c_socket := c_socket c;
                     c_streambuf := c_streambuf c; c_sent := c_sent c |}
              | _ => sv
              end
          | None => sv
          end
      | Fail sid =>                     (* src/server.cpp:114, 141: on error the handler does nothing *)
          match nth_error (sv_conns sv) sid with
          | Some c => with_conn sv sid
              {| c_session := c_session c; c_phase := Gone; c_socket := c_socket c; c_streambuf := c_streambuf c;
                 c_sent := c_sent c |}
          | None => sv
          end
      end
  end.

(** src/server.cpp:51-56, 80-83: a server that has just called [do_accept]. *)
Definition start (password : str) (ctx : context) : server :=
  {| sv_password := password; sv_ctx := ctx; sv_conns := []; sv_accepting := true; sv_crash := None |}.
Definition run (srt : sorter) (sv : server) (es : list event) : server := fold_left (step srt) es sv.
