(** Model of one run of the program as the operating system sees it: src/knuckleball.cpp:40-75 with the writes of src/context.cpp:163-172.

    The file system is a map from names to contents.  The log file is opened with [std::ofstream::app] (src/context.cpp:52): it is created
    if it does not exist and never shortened; every record ends with [std::endl], so it is in the file when the handler goes on.  The text
    Boost.Program_options prints for --help is a parameter. *)
From Verif Require Import Bytes StrUtils Grammar Outcome Parser Num Containers Instance Context Clock Server Main.
Open Scope Z_scope.

Definition disk := str -> option str.
Definition contents (d : disk) (name : str) : str := match d name with Some text => text | None => [] end.
Definition write_file (d : disk) (name text : str) : disk := fun x => if seq_eqb x name then Some text else d x.

(** src/context.cpp:48-54: [_logfile.open(logfile, std::ofstream::out | std::ofstream::app)] *)
Definition opened_disk (sys : system) (o : options) (d : disk) : disk :=
  if seq_eqb (o_logfile o) [] then d
  else if opens sys (o_logfile o) then write_file d (o_logfile o) (contents d (o_logfile o)) else d.

(** src/knuckleball.cpp:37, 61-64 *)
Definition banner (pid : Z) : str :=
  ($"Running Knuckleball " ++ $"0.1.0" ++ [c_nl] ++ $"PID: " ++ to_string pid ++ [c_nl] ++ [c_nl])%list.

(** What happens during one run: the command line, the process number, the events, the times at which records are written. *)
Record execution := { x_command : option options; x_pid : Z; x_events : list event; x_times : list Z }.

(** How the run stands after these events. *)
Record standing := { st_disk : disk; st_output : str; st_server : option server }.

(** src/knuckleball.cpp:40-75; [None]: a time stamp is undefined (Clock.v). *)
Definition program (srt : sorter) (sys : system) (zone : Z -> Z) (usage : str) (x : execution) (d : disk) : option standing :=
  match x_command x, main sys (x_command x) with
  | Some o, Serves _ _ sv =>
      let sv' := run srt sv (x_events x) in
      match log_text zone (x_times x) (logfile (sv_ctx sv')), log_text zone (x_times x) (stdout (sv_ctx sv')) with
      | Some file, Some out =>
          let d' := opened_disk sys o d in
          Some {| st_disk := if log_is_open (sv_ctx sv') then write_file d' (o_logfile o) (contents d' (o_logfile o) ++ file)%list else d';
                  st_output := (banner (x_pid x) ++ out)%list; st_server := Some sv' |}
      | _, _ => None
      end
  | Some o, Terminates => Some {| st_disk := opened_disk sys o d; st_output := banner (x_pid x); st_server := None |}
  | Some o, Exits code => Some {| st_disk := d; st_output := if code =? 0 then (usage ++ [c_nl])%list else []; st_server := None |}
  | None, _ => Some {| st_disk := d; st_output := []; st_server := None |}
  end.
