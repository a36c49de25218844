(** Model of src/knuckleball.cpp: from the command line to the running server.

    Boost.Program_options is modelled by its result: either it threw (unknown option, value missing or of the wrong form),
    or it delivers the values below, defaults filled in.  The operating system decides whether a file opens and whether
    an address can be listened on. *)
From Verif Require Import Bytes StrUtils Grammar Outcome Parser Num Containers Instance Context Server.
Open Scope Z_scope.

(** src/knuckleball.cpp:41-53: the options; [o_port] is required and may be missing.  [o_tolerance] is a [float]. *)
Record options := {
  o_help : bool;
  o_quiet : bool;
  o_bind : str;
  o_port : option Z;
  o_password : str;
  o_logfile : str;
  o_precision : Z;
  o_tolerance : f32
}.
(** src/knuckleball.cpp:41-53: the command line with nothing but --port.  The default tolerance is the [double] literal
    0.0000001 converted to [float]. *)
Definition default_options (port : Z) : options :=
  {| o_help := false; o_quiet := false; o_bind := $"0.0.0.0"; o_port := Some port; o_password := []; o_logfile := [];
     o_precision := 3; o_tolerance := to_float (atof $"0.0000001") |}.

Record system := {
  opens : str -> bool;          (* std::ofstream::open(name, out | app) succeeds *)
  listens : str -> Z -> bool    (* the address is well formed and binding and listening on it and the port succeed *)
}.

(** How the process is after [main]'s start-up code. *)
Inductive startup :=
| Exits (code : Z)                       (* main returned *)
| Terminates                             (* an exception left main: std::terminate *)
| Serves (address : str) (port : Z) (sv : server).

(** src/server.cpp:51-56: the port is an [int] passed where an [unsigned short] is expected. *)
Definition port_number (port : Z) : Z := port mod 2 ^ 16.

(** src/context.cpp:48-54 *)
Definition first_context (sys : system) (o : options) : context :=
  new_context (if seq_eqb (o_logfile o) [] then false else opens sys (o_logfile o)) (o_precision o) (o_tolerance o) (o_quiet o).

(** src/knuckleball.cpp:40-75; what is printed is in Process.v. *)
Definition main (sys : system) (command_line : option options) : startup :=
  match command_line with
  | None => Exits 1
  | Some o =>
      if o_help o then Exits 0
      else match o_port o with
           | None => Exits 1
           | Some port =>
               let ctx := first_context sys o in
               if listens sys (o_bind o) (port_number port)
               then Serves (o_bind o) (port_number port) (start (o_password o) ctx)
               else Terminates
           end
  end.

(** src/server.cpp:80-83: [_io_service.run()] returns when no handler is pending; [main] then returns EXIT_FAILURE. *)
Definition pending (c : conn) : bool := match c_phase c with Gone => false | _ => true end.
Definition io_service_stopped (sv : server) : bool := negb (sv_accepting sv) && negb (existsb pending (sv_conns sv)).
