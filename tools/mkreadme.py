#!/usr/bin/env python3
"""Write rocq/theories/Spec_Readme.v: the example sessions of /repo/README.md as data."""
import re, os
root = os.path.dirname(os.path.dirname(os.path.abspath(__file__)))
CORRECTED = {(657, '42.000;'): '42.000', (1748, '(("Ed Walsh",1.82))'): '(("Ed Walsh",1.820))'}
SKIP = {1905}   # Connection close: see the comment in the generated file
q = lambda x: 'B "' + x.replace('"', '""') + '"'
blocks, blk, start, inb = [], [], 0, False
for no, l in enumerate(open('/repo/README.md').read().split('\n'), 1):
    if l.strip() == '```':
        if inb and any(x.startswith('>') for _, x in blk): blocks.append((start, blk))
        inb, blk, start = not inb, [], no
    elif inb and l.strip() and not l.startswith('$'): blk.append((no, l))
out = []
for start, b in blocks:
    if start in SKIP: continue
    ex, k = [], 0
    while k < len(b):
        line, (no, ans) = b[k][1], b[k + 1]
        ans = ans[2:] if ans.startswith('> ') else ans
        ans = CORRECTED.get((no, ans), ans)
        ex.append((line, ans)); k += 2
    names, spaces, everything, password = [], [], False, False
    for line, _ in ex:
        actor = line.split(' ')[0].rstrip(';')
        m = re.match(r'.*?create(?:IfNotExists)?: ([\w:]+)', line)
        if actor == 'Context':
            if 'listNamespaces' in line or 'listVariables;' in line: everything = True
            m = re.match(r'Context deleteVariable: ([\w:]+)', line)
            if m and m.group(1) not in names: names.append(m.group(1))
            m = re.match(r'Context \w+OfNamespace: (\w+)', line)
            if m and m.group(1) not in spaces: spaces.append(m.group(1))
        elif actor == 'Connection': password = True
        elif m:
            if m.group(1) not in names: names.append(m.group(1))
        elif actor not in names: names.append(actor)
    f = lambda l: '[' + '; '.join(map(q, l)) + ']'
    out.append('{| t_at := %d; t_names := %s; t_spaces := %s; t_everything := %s; t_password := %s; t_lines := [\n    %s] |}' % (
        start, f(names), f(spaces), str(everything).lower(), str(password).lower(), ';\n    '.join('(%s, %s)' % (q(a), q(c)) for a, c in ex)))
head = '''(** The example sessions in the user documentation (README.md), for C64.  Written by tools/mkreadme.py from /repo/README.md: every code block
    that shows lines and answers, with the line number of its beginning.
    Two answers are corrected (the documentation is wrong, the code gives what is written here): line 657 of README.md reads "42.000;" and lacks
    the prompt; line 1748 shows 1.82 where line 1738 and the code show 1.820.  One block is left out: README.md:1905-1908 shows the answer
    "null" to "Connection close;", which the server logs but does not send (C34). *)
From Verif Require Import Platform Num Instance Context Server.
From Verif Require Import Spec_Grammar Spec_State Spec_Names Spec_Server Spec_Alone.
From Coq Require Import String List Ascii ZArith.
Import ListNotations.
Open Scope list_scope.

Record transcript := {
  t_at : nat;                        (** line of README.md *)
  t_names : list bytes;              (** the variables it uses *)
  t_spaces : list bytes;             (** the namespaces it lists or deletes *)
  t_everything : bool;               (** it lists all variables or namespaces *)
  t_password : bool;                 (** it sends the password, which is "password" *)
  t_lines : list (bytes * bytes)     (** lines and answers *)
}.
(** The names that matter for the transcript. *)
Definition uses (t : transcript) (n : bytes) : Prop :=
  t_everything t = true \\/ In n (t_names t) \\/ exists ns i, In ns (t_spaces t) /\\ n = qualified ns i.
(** The settings of a server that is started without options (README.md:38-42, src/knuckleball.cpp:51-53; the tolerance is a [float]). *)
Definition default_settings (c : context) : Prop := float_precision c = 3%Z /\\ tolerance c = to_float (atof (B "0.0000001")).

(** What a session did: the lines and answers of the transcript [l], nothing else. *)
Definition told (k : nat) (p : bytes * bytes) : entry := {| e_sid := k; e_line := fst p; e_outcome := Answered (snd p) |}.
(** What a client sends first: nothing if the server has no password, else (or also then) the password. *)
Definition opening (pw : bytes) (pre : list bytes) : Prop := (pw = [] /\\ pre = []) \\/ exists line, pre = [line] /\\ ~ In NEWLINE line /\\ password_line pw line.

Definition readme : list transcript := [
  '''
open(os.path.join(root, 'rocq/theories/Spec_Readme.v'), 'w').write(head + ';\n  '.join(out) + '\n].\n')
print(len(out), 'transcripts')
