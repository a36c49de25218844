(** Model of src/parser.cpp. *)
From Verif Require Import Bytes StrUtils Grammar Outcome.

(** src/parser.h:32-48: the three attributes of a [Parser]. *)
Record parsed := { p_actor : str; p_message : str; p_args : list str }.

(** src/parser.cpp:37-38: [while (!is_space(t[i]) || !is_actor(t.substr(0, i))) i++].
    [rest] is the suffix of [t] from position [i].  At [i = size()] the read gives NUL, which is not a space, so [i] is
    incremented and the next read is out of bounds: undefined behaviour. *)
Fixpoint actor_loop (t rest : str) (i : nat) : res nat :=
  match rest with
  | [] => UB OutOfBounds
  | c :: r => if negb (is_space c) || negb (is_actor (substr t 0 i)) then actor_loop t r (S i) else Ok i
  end.

(** src/parser.cpp:46-47: [while (message[k] != ':' && message[k] != '?') k++], on the suffix from [j = k].
    Reaching the end means reading NUL (neither ':' nor '?') and then out of bounds. The result is the token including
    its delimiter (line 48: [message.substr(j, ++k - j)]) and the suffix after it. *)
Fixpoint token_loop (rest : str) : res (str * str) :=
  match rest with
  | [] => UB OutOfBounds
  | c :: r => if is_kw_delim c then Ok ([c], r)
              else let! tr := token_loop r in Ok (c :: fst tr, snd tr)
  end.

(** src/parser.cpp:49-50 and 56-57: skip spaces; stops at the end (line 49 reads NUL there, which is not a space). *)
Fixpoint skip_spaces (rest : str) : str :=
  match rest with
  | [] => []
  | c :: r => if is_space c then skip_spaces r else rest
  end.

(** src/parser.cpp:52-55: extend the argument until a space is met at a point where what was read is an argument.
    [acc] is [message.substr(j, k - j)] reversed. *)
Fixpoint arg_loop (rest acc : str) : str * str :=
  match rest with
  | [] => (rev acc, [])
  | c :: r => if negb (is_space c) || negb (is_keyword_message_argument (rev acc)) then arg_loop r (c :: acc)
              else (rev acc, rest)
  end.

(** src/parser.cpp:45-59: the outer loop.  Every round consumes at least the delimiter, so [fuel = size + 1] rounds
    are never exhausted (proved: C03); exhaustion is the distinct outcome [UB Diverges]. *)
Fixpoint keyword_loop (fuel : nat) (rest : str) (name : str) (args : list str) : res (str * list str) :=
  match rest with
  | [] => Ok (name, args)
  | _ :: _ =>
      match fuel with
      | O => UB Diverges
      | S f =>
          let! tr := token_loop rest in
          let name' := name ++ fst tr in
          let after := skip_spaces (snd tr) in
          let ar := arg_loop after [] in
          keyword_loop f (skip_spaces (snd ar)) name' (args ++ [fst ar])
      end
  end.

(** src/parser.cpp:31-61 *)
Definition parse (input : str) : res parsed :=
  if negb (is_statement input) then Throw InvalidStatement
  else
    let trimmed := trim input in
    let trimmed := rtrim (substr trimmed 0 (length trimmed - 1)) in
    let! i := actor_loop trimmed trimmed 0 in
    let actor := substr trimmed 0 i in
    let message := ltrim (substr_from trimmed (i + 1)) in
    if is_unary_message message then Ok {| p_actor := actor; p_message := message; p_args := [] |}
    else
      let! na := keyword_loop (S (length message)) message [] [] in
      Ok {| p_actor := actor; p_message := fst na; p_args := snd na |}.
