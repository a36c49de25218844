(** The example sessions in the user documentation (README.md), for C64.  Written by tools/mkreadme.py from /repo/README.md: every code block
    that shows lines and answers, with the line number of its beginning.
    Two answers are corrected (the documentation is wrong, the code gives what is written here): line 657 of README.md reads "42.000;" and lacks
    the prompt; line 1748 shows 1.82 where line 1738 and the code show 1.820.  One block is left out: README.md:1905-1908 shows the answer
    "null" to "Connection close;", which the server logs but does not send (C34). *)
From Verif Require Import Platform Num Instance Context Server.
From Verif Require Import Spec_Grammar Spec_State Spec_Names Spec_Server Spec_Alone.
From Coq Require Import String List Ascii ZArith.
Import ListNotations.
Open Scope list_scope.

Record transcript := {
  t_at : nat;                        (** line of README.md *)
  t_names : list bytes;              (** the variables it uses *)
  t_spaces : list bytes;             (** the namespaces it lists or deletes *)
  t_everything : bool;               (** it lists all variables or namespaces *)
  t_password : bool;                 (** it sends the password, which is "password" *)
  t_lines : list (bytes * bytes)     (** lines and answers *)
}.
(** The names that matter for the transcript. *)
Definition uses (t : transcript) (n : bytes) : Prop :=
  t_everything t = true \/ In n (t_names t) \/ exists ns i, In ns (t_spaces t) /\ n = qualified ns i.
(** The settings of a server that is started without options (README.md:38-42, src/knuckleball.cpp:51-53; the tolerance is a [float]). *)
Definition default_settings (c : context) : Prop := float_precision c = 3%Z /\ tolerance c = to_float (atof (B "0.0000001")).

(** What a session did: the lines and answers of the transcript [l], nothing else. *)
Definition told (k : nat) (p : bytes * bytes) : entry := {| e_sid := k; e_line := fst p; e_outcome := Answered (snd p) |}.
(** What a client sends first: nothing if the server has no password, else (or also then) the password. *)
Definition opening (pw : bytes) (pre : list bytes) : Prop := (pw = [] /\ pre = []) \/ exists line, pre = [line] /\ ~ In NEWLINE line /\ password_line pw line.

Definition readme : list transcript := [
  {| t_at := 54; t_names := [B "i"]; t_spaces := []; t_everything := false; t_password := false; t_lines := [
    (B "Integer create: i withValue: 42;", B "null");
    (B "i add: 8;", B "null");
    (B "i get;", B "50")] |};
  {| t_at := 65; t_names := [B "mynamespace::points"]; t_spaces := []; t_everything := false; t_password := false; t_lines := [
    (B "Vector<Integer> create: mynamespace::points;", B "null");
    (B "mynamespace::points pushBack: 3;", B "null");
    (B "mynamespace::points pushBack: 7;", B "null");
    (B "mynamespace::points pushBack: 5;", B "null");
    (B "mynamespace::points popFront;", B "3");
    (B "mynamespace::points get;", B "[7,5]")] |};
  {| t_at := 82; t_names := [B "players"]; t_spaces := []; t_everything := false; t_password := false; t_lines := [
    (B "Set<String> create: players;", B "null");
    (B "players add: ""Babe Ruth"";", B "null");
    (B "players add: ""David Ortiz"";", B "null");
    (B "players add: ""Paulo Orlando"";", B "null");
    (B "players contains? ""Jake Arrieta"";", B "false");
    (B "players get;", B "{""Babe Ruth"",""David Ortiz"",""Paulo Orlando""}")] |};
  {| t_at := 99; t_names := [B "ERAs"]; t_spaces := []; t_everything := false; t_password := false; t_lines := [
    (B "Dictionary<String, Float> create: ERAs;", B "null");
    (B "ERAs associateValue: 1.82 withKey: ""Ed Walsh"";", B "null");
    (B "ERAs associateValue: 2.21 withKey: ""Mariano Rivera"";", B "null");
    (B "ERAs associateValue: 2.39 withKey: ""Clayton Kershaw"";", B "null");
    (B "ERAs getValueForKey: ""Mariano Rivera"";", B "2.210");
    (B "ERAs get;", B "((""Clayton Kershaw"",2.390),(""Ed Walsh"",1.820),(""Mariano Rivera"",2.210))")] |};
  {| t_at := 126; t_names := [B "t"; B "f"]; t_spaces := []; t_everything := false; t_password := false; t_lines := [
    (B "Boolean create: t withValue: true;", B "null");
    (B "Boolean create: f withValue: false;", B "null");
    (B "t get;", B "true");
    (B "f get;", B "false")] |};
  {| t_at := 139; t_names := [B "t"; B "f"]; t_spaces := []; t_everything := false; t_password := false; t_lines := [
    (B "Boolean createIfNotExists: t withValue: true;", B "null");
    (B "Boolean createIfNotExists: f withValue: false;", B "null");
    (B "t get;", B "true");
    (B "f get;", B "false")] |};
  {| t_at := 153; t_names := [B "t"]; t_spaces := []; t_everything := false; t_password := false; t_lines := [
    (B "Boolean create: t withValue: true;", B "null");
    (B "t get;", B "true")] |};
  {| t_at := 162; t_names := [B "t"]; t_spaces := []; t_everything := false; t_password := false; t_lines := [
    (B "Boolean create: t withValue: true;", B "null");
    (B "t set: false;", B "null");
    (B "t get;", B "false")] |};
  {| t_at := 173; t_names := [B "t"; B "f"]; t_spaces := []; t_everything := false; t_password := false; t_lines := [
    (B "Boolean create: t withValue: true;", B "null");
    (B "Boolean create: f withValue: false;", B "null");
    (B "t isTrue?;", B "true");
    (B "f isTrue?;", B "false")] |};
  {| t_at := 186; t_names := [B "t"; B "f"]; t_spaces := []; t_everything := false; t_password := false; t_lines := [
    (B "Boolean create: t withValue: true;", B "null");
    (B "Boolean create: f withValue: false;", B "null");
    (B "t isFalse?;", B "false");
    (B "f isFalse?;", B "true")] |};
  {| t_at := 203; t_names := [B "alphabetic"; B "numeric"; B "space"]; t_spaces := []; t_everything := false; t_password := false; t_lines := [
    (B "Character create: alphabetic withValue: 'a';", B "null");
    (B "Character create: numeric withValue: '0';", B "null");
    (B "Character create: space withValue: ' ';", B "null");
    (B "alphabetic get;", B "'a'");
    (B "numeric get;", B "'0'");
    (B "space get;", B "' '")] |};
  {| t_at := 220; t_names := [B "alphabetic"; B "numeric"; B "space"]; t_spaces := []; t_everything := false; t_password := false; t_lines := [
    (B "Character createIfNotExists: alphabetic withValue: 'a';", B "null");
    (B "Character createIfNotExists: numeric withValue: '0';", B "null");
    (B "Character createIfNotExists: space withValue: ' ';", B "null");
    (B "alphabetic get;", B "'a'");
    (B "numeric get;", B "'0'");
    (B "space get;", B "' '")] |};
  {| t_at := 238; t_names := [B "alphabetic"]; t_spaces := []; t_everything := false; t_password := false; t_lines := [
    (B "Character create: alphabetic withValue: 'a';", B "null");
    (B "alphabetic get;", B "'a'")] |};
  {| t_at := 247; t_names := [B "alphabetic"]; t_spaces := []; t_everything := false; t_password := false; t_lines := [
    (B "Character create: alphabetic withValue: 'a';", B "null");
    (B "alphabetic set: 'z';", B "null");
    (B "alphabetic get;", B "'z'")] |};
  {| t_at := 258; t_names := [B "alphabetic"; B "numeric"; B "space"]; t_spaces := []; t_everything := false; t_password := false; t_lines := [
    (B "Character create: alphabetic withValue: 'a';", B "null");
    (B "Character create: numeric withValue: '0';", B "null");
    (B "Character create: space withValue: ' ';", B "null");
    (B "alphabetic isAlphabetic?;", B "true");
    (B "numeric isAlphabetic?;", B "false");
    (B "space isAlphabetic?;", B "false")] |};
  {| t_at := 275; t_names := [B "alphabetic"; B "numeric"; B "space"]; t_spaces := []; t_everything := false; t_password := false; t_lines := [
    (B "Character create: alphabetic withValue: 'a';", B "null");
    (B "Character create: numeric withValue: '0';", B "null");
    (B "Character create: space withValue: ' ';", B "null");
    (B "alphabetic isNumeric?;", B "false");
    (B "numeric isNumeric?;", B "true");
    (B "space isNumeric?;", B "false")] |};
  {| t_at := 292; t_names := [B "alphabetic"; B "numeric"; B "space"]; t_spaces := []; t_everything := false; t_password := false; t_lines := [
    (B "Character create: alphabetic withValue: 'a';", B "null");
    (B "Character create: numeric withValue: '0';", B "null");
    (B "Character create: space withValue: ' ';", B "null");
    (B "alphabetic isAlphanumeric?;", B "true");
    (B "numeric isAlphanumeric?;", B "true");
    (B "space isAlphanumeric?;", B "false")] |};
  {| t_at := 309; t_names := [B "alphabetic"; B "numeric"; B "space"]; t_spaces := []; t_everything := false; t_password := false; t_lines := [
    (B "Character create: alphabetic withValue: 'a';", B "null");
    (B "Character create: numeric withValue: '0';", B "null");
    (B "Character create: space withValue: ' ';", B "null");
    (B "alphabetic isSpace?;", B "false");
    (B "numeric isSpace?;", B "false");
    (B "space isSpace?;", B "true")] |};
  {| t_at := 326; t_names := [B "alphabetic"]; t_spaces := []; t_everything := false; t_password := false; t_lines := [
    (B "Character create: alphabetic withValue: 'a';", B "null");
    (B "alphabetic isEqualTo? 'a';", B "true");
    (B "alphabetic isEqualTo? 'z';", B "false")] |};
  {| t_at := 337; t_names := [B "alphabetic"]; t_spaces := []; t_everything := false; t_password := false; t_lines := [
    (B "Character create: alphabetic withValue: 'a';", B "null");
    (B "alphabetic isLessThan? 'z';", B "true");
    (B "alphabetic isLessThan? 'a';", B "false")] |};
  {| t_at := 348; t_names := [B "alphabetic"]; t_spaces := []; t_everything := false; t_password := false; t_lines := [
    (B "Character create: alphabetic withValue: 'z';", B "null");
    (B "alphabetic isLessThanOrEqualTo? 'z';", B "true");
    (B "alphabetic isLessThanOrEqualTo? 'a';", B "false")] |};
  {| t_at := 359; t_names := [B "alphabetic"]; t_spaces := []; t_everything := false; t_password := false; t_lines := [
    (B "Character create: alphabetic withValue: 'z';", B "null");
    (B "alphabetic isGreaterThan? 'a';", B "true");
    (B "alphabetic isGreaterThan? 'z';", B "false")] |};
  {| t_at := 370; t_names := [B "alphabetic"]; t_spaces := []; t_everything := false; t_password := false; t_lines := [
    (B "Character create: alphabetic withValue: 'a';", B "null");
    (B "alphabetic isGreaterThanOrEqualTo? 'a';", B "true");
    (B "alphabetic isGreaterThanOrEqualTo? 'z';", B "false")] |};
  {| t_at := 385; t_names := [B "i"]; t_spaces := []; t_everything := false; t_password := false; t_lines := [
    (B "Integer create: i withValue: 42;", B "null");
    (B "i get;", B "42")] |};
  {| t_at := 394; t_names := [B "i"]; t_spaces := []; t_everything := false; t_password := false; t_lines := [
    (B "Integer createIfNotExists: i withValue: 42;", B "null");
    (B "i get;", B "42")] |};
  {| t_at := 404; t_names := [B "i"]; t_spaces := []; t_everything := false; t_password := false; t_lines := [
    (B "Integer create: i withValue: 42;", B "null");
    (B "i get;", B "42")] |};
  {| t_at := 413; t_names := [B "i"]; t_spaces := []; t_everything := false; t_password := false; t_lines := [
    (B "Integer create: i withValue: 42;", B "null");
    (B "i set: -42;", B "null");
    (B "i get;", B "-42")] |};
  {| t_at := 424; t_names := [B "i"]; t_spaces := []; t_everything := false; t_password := false; t_lines := [
    (B "Integer create: i withValue: 42;", B "null");
    (B "i isEqualTo? 42;", B "true");
    (B "i isEqualTo? 0;", B "false")] |};
  {| t_at := 435; t_names := [B "i"]; t_spaces := []; t_everything := false; t_password := false; t_lines := [
    (B "Integer create: i withValue: 0;", B "null");
    (B "i isLessThan? 42;", B "true");
    (B "i isLessThan? 0;", B "false")] |};
  {| t_at := 446; t_names := [B "i"]; t_spaces := []; t_everything := false; t_password := false; t_lines := [
    (B "Integer create: i withValue: 42;", B "null");
    (B "i isLessThanOrEqualTo? 42;", B "true");
    (B "i isLessThanOrEqualTo? 0;", B "false")] |};
  {| t_at := 457; t_names := [B "i"]; t_spaces := []; t_everything := false; t_password := false; t_lines := [
    (B "Integer create: i withValue: 42;", B "null");
    (B "i isGreaterThan? 0;", B "true");
    (B "i isGreaterThan? 42;", B "false")] |};
  {| t_at := 468; t_names := [B "i"]; t_spaces := []; t_everything := false; t_password := false; t_lines := [
    (B "Integer create: i withValue: 0;", B "null");
    (B "i isGreaterThanOrEqualTo? 0;", B "true");
    (B "i isGreaterThanOrEqualTo? 42;", B "false")] |};
  {| t_at := 479; t_names := [B "i"]; t_spaces := []; t_everything := false; t_password := false; t_lines := [
    (B "Integer create: i withValue: 42;", B "null");
    (B "i add: 10;", B "null");
    (B "i get;", B "52")] |};
  {| t_at := 490; t_names := [B "i"]; t_spaces := []; t_everything := false; t_password := false; t_lines := [
    (B "Integer create: i withValue: 52;", B "null");
    (B "i subtract: 10;", B "null");
    (B "i get;", B "42")] |};
  {| t_at := 501; t_names := [B "i"]; t_spaces := []; t_everything := false; t_password := false; t_lines := [
    (B "Integer create: i withValue: 10;", B "null");
    (B "i multiplyBy: 4.2;", B "null");
    (B "i get;", B "42")] |};
  {| t_at := 512; t_names := [B "i"]; t_spaces := []; t_everything := false; t_password := false; t_lines := [
    (B "Integer create: i withValue: 42;", B "null");
    (B "i divideBy: 4.2;", B "null");
    (B "i get;", B "10")] |};
  {| t_at := 527; t_names := [B "f"; B "e"]; t_spaces := []; t_everything := false; t_password := false; t_lines := [
    (B "Float create: f withValue: 42.0;", B "null");
    (B "Float create: e withValue: 1e-2;", B "null");
    (B "f get;", B "42.000");
    (B "e get;", B "0.010")] |};
  {| t_at := 540; t_names := [B "f"; B "e"]; t_spaces := []; t_everything := false; t_password := false; t_lines := [
    (B "Float createIfNotExists: f withValue: 42.0;", B "null");
    (B "Float createIfNotExists: e withValue: 1e-2;", B "null");
    (B "f get;", B "42.000");
    (B "e get;", B "0.010")] |};
  {| t_at := 554; t_names := [B "f"]; t_spaces := []; t_everything := false; t_password := false; t_lines := [
    (B "Float create: f withValue: 42.0;", B "null");
    (B "f get;", B "42.000")] |};
  {| t_at := 563; t_names := [B "f"]; t_spaces := []; t_everything := false; t_password := false; t_lines := [
    (B "Float create: f withValue: 42.0;", B "null");
    (B "f set: -42.0;", B "null");
    (B "f get;", B "-42.000")] |};
  {| t_at := 574; t_names := [B "f"]; t_spaces := []; t_everything := false; t_password := false; t_lines := [
    (B "Float create: f withValue: 42.0;", B "null");
    (B "f isEqualTo? 42.0;", B "true");
    (B "f isEqualTo? 0.0;", B "false")] |};
  {| t_at := 585; t_names := [B "f"]; t_spaces := []; t_everything := false; t_password := false; t_lines := [
    (B "Float create: f withValue: 0.0;", B "null");
    (B "f isLessThan? 42.0;", B "true");
    (B "f isLessThan? 0.0;", B "false")] |};
  {| t_at := 596; t_names := [B "f"]; t_spaces := []; t_everything := false; t_password := false; t_lines := [
    (B "Float create: f withValue: 42.0;", B "null");
    (B "f isLessThanOrEqualTo? 42.0;", B "true");
    (B "f isLessThanOrEqualTo? 0.0;", B "false")] |};
  {| t_at := 607; t_names := [B "f"]; t_spaces := []; t_everything := false; t_password := false; t_lines := [
    (B "Float create: f withValue: 42.0;", B "null");
    (B "f isGreaterThan? 0.0;", B "true");
    (B "f isGreaterThan? 42.0;", B "false")] |};
  {| t_at := 618; t_names := [B "f"]; t_spaces := []; t_everything := false; t_password := false; t_lines := [
    (B "Float create: f withValue: 0.0;", B "null");
    (B "f isGreaterThanOrEqualTo? 0.0;", B "true");
    (B "f isGreaterThanOrEqualTo? 42.0;", B "false")] |};
  {| t_at := 629; t_names := [B "f"]; t_spaces := []; t_everything := false; t_password := false; t_lines := [
    (B "Float create: f withValue: 42.0;", B "null");
    (B "f add: 10.0;", B "null");
    (B "f get;", B "52.000")] |};
  {| t_at := 640; t_names := [B "f"]; t_spaces := []; t_everything := false; t_password := false; t_lines := [
    (B "Float create: f withValue: 52.0;", B "null");
    (B "f subtract: 10.0;", B "null");
    (B "f get;", B "42.000")] |};
  {| t_at := 651; t_names := [B "f"]; t_spaces := []; t_everything := false; t_password := false; t_lines := [
    (B "Float create: f withValue: 4.2;", B "null");
    (B "f multiplyBy: 10.0;", B "null");
    (B "f get;", B "42.000")] |};
  {| t_at := 662; t_names := [B "f"]; t_spaces := []; t_everything := false; t_password := false; t_lines := [
    (B "Float create: f withValue: 42.0;", B "null");
    (B "f divideBy: 4.2;", B "null");
    (B "f get;", B "10.000")] |};
  {| t_at := 677; t_names := [B "str"]; t_spaces := []; t_everything := false; t_password := false; t_lines := [
    (B "String create: str;", B "null");
    (B "str get;", B """""")] |};
  {| t_at := 686; t_names := [B "str"]; t_spaces := []; t_everything := false; t_password := false; t_lines := [
    (B "String createIfNotExists: str;", B "null");
    (B "str get;", B """""")] |};
  {| t_at := 695; t_names := [B "str"]; t_spaces := []; t_everything := false; t_password := false; t_lines := [
    (B "String create: str withValue: ""knuckleball"";", B "null");
    (B "str get;", B """knuckleball""")] |};
  {| t_at := 704; t_names := [B "str"]; t_spaces := []; t_everything := false; t_password := false; t_lines := [
    (B "String createIfNotExists: str withValue: ""knuckleball"";", B "null");
    (B "str get;", B """knuckleball""")] |};
  {| t_at := 714; t_names := [B "str"]; t_spaces := []; t_everything := false; t_password := false; t_lines := [
    (B "String create: str withValue: ""knuckleball"";", B "null");
    (B "str get;", B """knuckleball""")] |};
  {| t_at := 723; t_names := [B "str"]; t_spaces := []; t_everything := false; t_password := false; t_lines := [
    (B "String create: str withValue: """";", B "null");
    (B "str set: ""knuckleball"";", B "null");
    (B "str get;", B """knuckleball""")] |};
  {| t_at := 734; t_names := [B "str"]; t_spaces := []; t_everything := false; t_password := false; t_lines := [
    (B "String create: str withValue: """";", B "null");
    (B "str isEmpty?;", B "true");
    (B "str concatenate: ""knuckleball"";", B "null");
    (B "str isEmpty?;", B "false")] |};
  {| t_at := 747; t_names := [B "str"]; t_spaces := []; t_everything := false; t_password := false; t_lines := [
    (B "String create: str withValue: ""knuckleball"";", B "null");
    (B "str startsWith? ""knuckle"";", B "true");
    (B "str startsWith? ""ball"";", B "false")] |};
  {| t_at := 758; t_names := [B "str"]; t_spaces := []; t_everything := false; t_password := false; t_lines := [
    (B "String create: str withValue: ""knuckleball"";", B "null");
    (B "str endsWith? ""ball"";", B "true");
    (B "str endsWith? ""knuckle"";", B "false")] |};
  {| t_at := 769; t_names := [B "str"]; t_spaces := []; t_everything := false; t_password := false; t_lines := [
    (B "String create: str withValue: ""knuckleball"";", B "null");
    (B "str isLexicographicallyEqualTo? ""knuckleball"";", B "true");
    (B "str isLexicographicallyEqualTo? """";", B "false")] |};
  {| t_at := 780; t_names := [B "str"]; t_spaces := []; t_everything := false; t_password := false; t_lines := [
    (B "String create: str withValue: """";", B "null");
    (B "str isLexicographicallyLessThan? ""knuckleball"";", B "true");
    (B "str isLexicographicallyLessThan? """";", B "false")] |};
  {| t_at := 791; t_names := [B "str"]; t_spaces := []; t_everything := false; t_password := false; t_lines := [
    (B "String create: str withValue: ""knuckleball"";", B "null");
    (B "str isLexicographicallyLessThanOrEqualTo? ""knuckleball"";", B "true");
    (B "str isLexicographicallyLessThanOrEqualTo? """";", B "false")] |};
  {| t_at := 802; t_names := [B "str"]; t_spaces := []; t_everything := false; t_password := false; t_lines := [
    (B "String create: str withValue: ""knuckleball"";", B "null");
    (B "str isLexicographicallyGreaterThan? """";", B "true");
    (B "str isLexicographicallyGreaterThan? ""knuckleball"";", B "false")] |};
  {| t_at := 813; t_names := [B "str"]; t_spaces := []; t_everything := false; t_password := false; t_lines := [
    (B "String create: str withValue: """";", B "null");
    (B "str isLexicographicallyGreaterThanOrEqualTo? """";", B "true");
    (B "str isLexicographicallyGreaterThanOrEqualTo? ""knuckleball"";", B "false")] |};
  {| t_at := 824; t_names := [B "str"]; t_spaces := []; t_everything := false; t_password := false; t_lines := [
    (B "String create: str withValue: ""knuckleball"";", B "null");
    (B "str length;", B "11")] |};
  {| t_at := 833; t_names := [B "str"]; t_spaces := []; t_everything := false; t_password := false; t_lines := [
    (B "String create: str withValue: ""knuckleball"";", B "null");
    (B "str atIndex: 0;", B "'k'")] |};
  {| t_at := 842; t_names := [B "str"]; t_spaces := []; t_everything := false; t_password := false; t_lines := [
    (B "String create: str withValue: ""knuckleball"";", B "null");
    (B "str first: 7;", B """knuckle""")] |};
  {| t_at := 851; t_names := [B "str"]; t_spaces := []; t_everything := false; t_password := false; t_lines := [
    (B "String create: str withValue: ""knuckleball"";", B "null");
    (B "str last: 4;", B """ball""")] |};
  {| t_at := 860; t_names := [B "str"]; t_spaces := []; t_everything := false; t_password := false; t_lines := [
    (B "String create: str withValue: ""knuckleball"";", B "null");
    (B "str substringFromIndex: 7;", B """ball""")] |};
  {| t_at := 869; t_names := [B "str"]; t_spaces := []; t_everything := false; t_password := false; t_lines := [
    (B "String create: str withValue: ""knuckleball"";", B "null");
    (B "str substringFromIndex: 0 toIndex: 7;", B """knuckle""")] |};
  {| t_at := 878; t_names := [B "str"]; t_spaces := []; t_everything := false; t_password := false; t_lines := [
    (B "String create: str withValue: ""knucklebal"";", B "null");
    (B "str pushBack: 'l';", B "null");
    (B "str get;", B """knuckleball""")] |};
  {| t_at := 889; t_names := [B "str"]; t_spaces := []; t_everything := false; t_password := false; t_lines := [
    (B "String create: str withValue: ""nuckleball"";", B "null");
    (B "str pushFront: 'k';", B "null");
    (B "str get;", B """knuckleball""")] |};
  {| t_at := 900; t_names := [B "str"]; t_spaces := []; t_everything := false; t_password := false; t_lines := [
    (B "String create: str withValue: ""knuckleball"";", B "null");
    (B "str popBack;", B "'l'");
    (B "str get;", B """knucklebal""")] |};
  {| t_at := 911; t_names := [B "str"]; t_spaces := []; t_everything := false; t_password := false; t_lines := [
    (B "String create: str withValue: ""knuckleball"";", B "null");
    (B "str popFront;", B "'k'");
    (B "str get;", B """nuckleball""")] |};
  {| t_at := 922; t_names := [B "str"]; t_spaces := []; t_everything := false; t_password := false; t_lines := [
    (B "String create: str withValue: ""knuckleball"";", B "null");
    (B "str popAtIndex: 2;", B "'u'");
    (B "str get;", B """knckleball""")] |};
  {| t_at := 933; t_names := [B "str"]; t_spaces := []; t_everything := false; t_password := false; t_lines := [
    (B "String create: str withValue: ""knuckle"";", B "null");
    (B "str concatenate: ""ball"";", B "null");
    (B "str get;", B """knuckleball""")] |};
  {| t_at := 944; t_names := [B "str"]; t_spaces := []; t_everything := false; t_password := false; t_lines := [
    (B "String create: str withValue: ""knkleball"";", B "null");
    (B "str insert: ""uc"" beforeIndex: 2;", B "null");
    (B "str get;", B """knuckleball""")] |};
  {| t_at := 955; t_names := [B "str"]; t_spaces := []; t_everything := false; t_password := false; t_lines := [
    (B "String create: str withValue: ""knuckleball"";", B "null");
    (B "str eraseFromIndex: 7;", B "null");
    (B "str get;", B """knuckle""")] |};
  {| t_at := 966; t_names := [B "str"]; t_spaces := []; t_everything := false; t_password := false; t_lines := [
    (B "String create: str withValue: ""knuckleball"";", B "null");
    (B "str eraseFromIndex: 7 toIndex: 9;", B "null");
    (B "str get;", B """knucklell""")] |};
  {| t_at := 977; t_names := [B "str"]; t_spaces := []; t_everything := false; t_password := false; t_lines := [
    (B "String create: str withValue: ""knuckleball"";", B "null");
    (B "str clear;", B "null");
    (B "str get;", B """""")] |};
  {| t_at := 992; t_names := [B "points"]; t_spaces := []; t_everything := false; t_password := false; t_lines := [
    (B "Vector<Integer> create: points;", B "null");
    (B "points get;", B "[]")] |};
  {| t_at := 1001; t_names := [B "points"]; t_spaces := []; t_everything := false; t_password := false; t_lines := [
    (B "Vector<Integer> createIfNotExists: points;", B "null");
    (B "points get;", B "[]")] |};
  {| t_at := 1011; t_names := [B "points"]; t_spaces := []; t_everything := false; t_password := false; t_lines := [
    (B "Vector<Integer> create: points;", B "null");
    (B "points get;", B "[]")] |};
  {| t_at := 1020; t_names := [B "points"]; t_spaces := []; t_everything := false; t_password := false; t_lines := [
    (B "Vector<Integer> create: points;", B "null");
    (B "points isEmpty?;", B "true");
    (B "points pushBack: 42;", B "null");
    (B "points isEmpty?;", B "false")] |};
  {| t_at := 1033; t_names := [B "points"]; t_spaces := []; t_everything := false; t_password := false; t_lines := [
    (B "Vector<Integer> create: points;", B "null");
    (B "points contains? 42;", B "false");
    (B "points pushBack: 42;", B "null");
    (B "points contains? 42;", B "true")] |};
  {| t_at := 1046; t_names := [B "points"]; t_spaces := []; t_everything := false; t_password := false; t_lines := [
    (B "Vector<Integer> create: points;", B "null");
    (B "points pushBack: 3;", B "null");
    (B "points pushBack: 7;", B "null");
    (B "points pushBack: 5;", B "null");
    (B "points contains? 7 fromIndex: 0;", B "true");
    (B "points contains? 7 fromIndex: 2;", B "false")] |};
  {| t_at := 1063; t_names := [B "points"]; t_spaces := []; t_everything := false; t_password := false; t_lines := [
    (B "Vector<Integer> create: points;", B "null");
    (B "points pushBack: 3;", B "null");
    (B "points pushBack: 7;", B "null");
    (B "points pushBack: 7;", B "null");
    (B "points count: 7;", B "2")] |};
  {| t_at := 1078; t_names := [B "points"]; t_spaces := []; t_everything := false; t_password := false; t_lines := [
    (B "Vector<Integer> create: points;", B "null");
    (B "points pushBack: 3;", B "null");
    (B "points pushBack: 5;", B "null");
    (B "points pushBack: 7;", B "null");
    (B "points atIndex: 0;", B "3")] |};
  {| t_at := 1093; t_names := [B "points"]; t_spaces := []; t_everything := false; t_password := false; t_lines := [
    (B "Vector<Integer> create: points;", B "null");
    (B "points pushBack: 3;", B "null");
    (B "points pushBack: 5;", B "null");
    (B "points pushBack: 3;", B "null");
    (B "points pushBack: 5;", B "null");
    (B "points firstIndexOf: 5;", B "1")] |};
  {| t_at := 1110; t_names := [B "points"]; t_spaces := []; t_everything := false; t_password := false; t_lines := [
    (B "Vector<Integer> create: points;", B "null");
    (B "points pushBack: 3;", B "null");
    (B "points pushBack: 5;", B "null");
    (B "points pushBack: 3;", B "null");
    (B "points pushBack: 5;", B "null");
    (B "points firstIndexOf: 3 fromIndex: 1;", B "2")] |};
  {| t_at := 1127; t_names := [B "points"]; t_spaces := []; t_everything := false; t_password := false; t_lines := [
    (B "Vector<Integer> create: points;", B "null");
    (B "points pushBack: 3;", B "null");
    (B "points pushBack: 5;", B "null");
    (B "points pushBack: 3;", B "null");
    (B "points allIndexesOf: 3;", B "[0,2]")] |};
  {| t_at := 1142; t_names := [B "points"]; t_spaces := []; t_everything := false; t_password := false; t_lines := [
    (B "Vector<Integer> create: points;", B "null");
    (B "points pushBack: 3;", B "null");
    (B "points pushBack: 5;", B "null");
    (B "points pushBack: 7;", B "null");
    (B "points size;", B "3")] |};
  {| t_at := 1157; t_names := [B "points"]; t_spaces := []; t_everything := false; t_password := false; t_lines := [
    (B "Vector<Integer> create: points;", B "null");
    (B "points pushBack: 3;", B "null");
    (B "points pushBack: 5;", B "null");
    (B "points pushBack: 7;", B "null");
    (B "points first: 2;", B "[3,5]")] |};
  {| t_at := 1172; t_names := [B "points"]; t_spaces := []; t_everything := false; t_password := false; t_lines := [
    (B "Vector<Integer> create: points;", B "null");
    (B "points pushBack: 3;", B "null");
    (B "points pushBack: 5;", B "null");
    (B "points pushBack: 7;", B "null");
    (B "points last: 2;", B "[5,7]")] |};
  {| t_at := 1187; t_names := [B "points"]; t_spaces := []; t_everything := false; t_password := false; t_lines := [
    (B "Vector<Integer> create: points;", B "null");
    (B "points pushBack: 3;", B "null");
    (B "points pushBack: 5;", B "null");
    (B "points pushBack: 7;", B "null");
    (B "points pushBack: 9;", B "null");
    (B "points sliceFromIndex: 2;", B "[7,9]")] |};
  {| t_at := 1204; t_names := [B "points"]; t_spaces := []; t_everything := false; t_password := false; t_lines := [
    (B "Vector<Integer> create: points;", B "null");
    (B "points pushBack: 3;", B "null");
    (B "points pushBack: 5;", B "null");
    (B "points pushBack: 7;", B "null");
    (B "points pushBack: 9;", B "null");
    (B "points sliceFromIndex: 1 toIndex: 3;", B "[5,7]")] |};
  {| t_at := 1221; t_names := [B "points"]; t_spaces := []; t_everything := false; t_password := false; t_lines := [
    (B "Vector<Integer> create: points;", B "null");
    (B "points pushBack: 3;", B "null");
    (B "points pushBack: 5;", B "null");
    (B "points pushBack: 7;", B "null");
    (B "points get;", B "[3,5,7]")] |};
  {| t_at := 1236; t_names := [B "points"]; t_spaces := []; t_everything := false; t_password := false; t_lines := [
    (B "Vector<Integer> create: points;", B "null");
    (B "points pushFront: 3;", B "null");
    (B "points pushFront: 5;", B "null");
    (B "points pushFront: 7;", B "null");
    (B "points get;", B "[7,5,3]")] |};
  {| t_at := 1251; t_names := [B "points"]; t_spaces := []; t_everything := false; t_password := false; t_lines := [
    (B "Vector<Integer> create: points;", B "null");
    (B "points pushBack: 3;", B "null");
    (B "points pushBack: 5;", B "null");
    (B "points pushBack: 7;", B "null");
    (B "points popBack;", B "7");
    (B "points get;", B "[3,5]")] |};
  {| t_at := 1268; t_names := [B "points"]; t_spaces := []; t_everything := false; t_password := false; t_lines := [
    (B "Vector<Integer> create: points;", B "null");
    (B "points pushBack: 3;", B "null");
    (B "points pushBack: 5;", B "null");
    (B "points pushBack: 7;", B "null");
    (B "points popFront;", B "3");
    (B "points get;", B "[5,7]")] |};
  {| t_at := 1285; t_names := [B "points"]; t_spaces := []; t_everything := false; t_password := false; t_lines := [
    (B "Vector<Integer> create: points;", B "null");
    (B "points pushBack: 3;", B "null");
    (B "points pushBack: 5;", B "null");
    (B "points pushBack: 7;", B "null");
    (B "points popAtIndex: 1;", B "5");
    (B "points get;", B "[3,7]")] |};
  {| t_at := 1302; t_names := [B "points"]; t_spaces := []; t_everything := false; t_password := false; t_lines := [
    (B "Vector<Integer> create: points;", B "null");
    (B "points pushBack: 3;", B "null");
    (B "points pushBack: 7;", B "null");
    (B "points insert: 5 beforeIndex: 1;", B "null");
    (B "points get;", B "[3,5,7]")] |};
  {| t_at := 1317; t_names := [B "points"]; t_spaces := []; t_everything := false; t_password := false; t_lines := [
    (B "Vector<Integer> create: points;", B "null");
    (B "points pushBack: 3;", B "null");
    (B "points pushBack: 5;", B "null");
    (B "points pushBack: 7;", B "null");
    (B "points eraseFromIndex: 1;", B "null");
    (B "points get;", B "[3]")] |};
  {| t_at := 1334; t_names := [B "points"]; t_spaces := []; t_everything := false; t_password := false; t_lines := [
    (B "Vector<Integer> create: points;", B "null");
    (B "points pushBack: 3;", B "null");
    (B "points pushBack: 5;", B "null");
    (B "points pushBack: 7;", B "null");
    (B "points eraseFromIndex: 1 toIndex: 2;", B "null");
    (B "points get;", B "[3,7]")] |};
  {| t_at := 1351; t_names := [B "points"]; t_spaces := []; t_everything := false; t_password := false; t_lines := [
    (B "Vector<Integer> create: points;", B "null");
    (B "points pushBack: 3;", B "null");
    (B "points pushBack: 5;", B "null");
    (B "points pushBack: 3;", B "null");
    (B "points pushBack: 5;", B "null");
    (B "points removeFirst: 5;", B "null");
    (B "points get;", B "[3,3,5]")] |};
  {| t_at := 1370; t_names := [B "points"]; t_spaces := []; t_everything := false; t_password := false; t_lines := [
    (B "Vector<Integer> create: points;", B "null");
    (B "points pushBack: 3;", B "null");
    (B "points pushBack: 5;", B "null");
    (B "points pushBack: 3;", B "null");
    (B "points pushBack: 5;", B "null");
    (B "points removeFirst: 5 fromIndex: 2;", B "null");
    (B "points get;", B "[3,5,3]")] |};
  {| t_at := 1389; t_names := [B "points"]; t_spaces := []; t_everything := false; t_password := false; t_lines := [
    (B "Vector<Integer> create: points;", B "null");
    (B "points pushBack: 3;", B "null");
    (B "points pushBack: 5;", B "null");
    (B "points pushBack: 3;", B "null");
    (B "points pushBack: 5;", B "null");
    (B "points removeAll: 3;", B "null");
    (B "points get;", B "[5,5]")] |};
  {| t_at := 1408; t_names := [B "points"]; t_spaces := []; t_everything := false; t_password := false; t_lines := [
    (B "Vector<Integer> create: points;", B "null");
    (B "points pushBack: 3;", B "null");
    (B "points pushBack: 5;", B "null");
    (B "points pushBack: 3;", B "null");
    (B "points pushBack: 5;", B "null");
    (B "points replaceFirst: 5 with: 7; ", B "null");
    (B "points get;", B "[3,7,3,5]")] |};
  {| t_at := 1427; t_names := [B "points"]; t_spaces := []; t_everything := false; t_password := false; t_lines := [
    (B "Vector<Integer> create: points;", B "null");
    (B "points pushBack: 3;", B "null");
    (B "points pushBack: 5;", B "null");
    (B "points pushBack: 3;", B "null");
    (B "points pushBack: 5;", B "null");
    (B "points replaceFirst: 5 fromIndex: 2 with: 7; ", B "null");
    (B "points get;", B "[3,5,3,7]")] |};
  {| t_at := 1446; t_names := [B "points"]; t_spaces := []; t_everything := false; t_password := false; t_lines := [
    (B "Vector<Integer> create: points;", B "null");
    (B "points pushBack: 3;", B "null");
    (B "points pushBack: 5;", B "null");
    (B "points pushBack: 3;", B "null");
    (B "points pushBack: 5;", B "null");
    (B "points replaceAll: 5 with: 7; ", B "null");
    (B "points get;", B "[3,7,3,7]")] |};
  {| t_at := 1465; t_names := [B "points"]; t_spaces := []; t_everything := false; t_password := false; t_lines := [
    (B "Vector<Integer> create: points;", B "null");
    (B "points pushBack: 7;", B "null");
    (B "points pushBack: 3;", B "null");
    (B "points pushBack: 5;", B "null");
    (B "points sort;", B "null");
    (B "points get;", B "[3,5,7]")] |};
  {| t_at := 1482; t_names := [B "points"]; t_spaces := []; t_everything := false; t_password := false; t_lines := [
    (B "Vector<Integer> create: points;", B "null");
    (B "points pushBack: 3;", B "null");
    (B "points pushBack: 5;", B "null");
    (B "points pushBack: 7;", B "null");
    (B "points reverse;", B "null");
    (B "points get;", B "[7,5,3]")] |};
  {| t_at := 1499; t_names := [B "points"]; t_spaces := []; t_everything := false; t_password := false; t_lines := [
    (B "Vector<Integer> create: points;", B "null");
    (B "points pushBack: 3;", B "null");
    (B "points pushBack: 5;", B "null");
    (B "points pushBack: 7;", B "null");
    (B "points clear;", B "null");
    (B "points get;", B "[]")] |};
  {| t_at := 1520; t_names := [B "players"]; t_spaces := []; t_everything := false; t_password := false; t_lines := [
    (B "Set<String> create: players;", B "null");
    (B "players get;", B "{}")] |};
  {| t_at := 1529; t_names := [B "players"]; t_spaces := []; t_everything := false; t_password := false; t_lines := [
    (B "Set<String> createIfNotExists: players;", B "null");
    (B "players get;", B "{}")] |};
  {| t_at := 1539; t_names := [B "players"]; t_spaces := []; t_everything := false; t_password := false; t_lines := [
    (B "Set<String> create: players;", B "null");
    (B "players get;", B "{}")] |};
  {| t_at := 1548; t_names := [B "players"]; t_spaces := []; t_everything := false; t_password := false; t_lines := [
    (B "Set<String> create: players;", B "null");
    (B "players isEmpty?;", B "true");
    (B "players add: ""Babe Ruth"";", B "null");
    (B "players isEmpty?;", B "false")] |};
  {| t_at := 1561; t_names := [B "players"]; t_spaces := []; t_everything := false; t_password := false; t_lines := [
    (B "Set<String> create: players;", B "null");
    (B "players contains? ""Babe Ruth"";", B "false");
    (B "players add: ""Babe Ruth"";", B "null");
    (B "players contains? ""Babe Ruth"";", B "true")] |};
  {| t_at := 1574; t_names := [B "players"]; t_spaces := []; t_everything := false; t_password := false; t_lines := [
    (B "Set<String> create: players;", B "null");
    (B "players add: ""Babe Ruth"";", B "null");
    (B "players add: ""David Ortiz"";", B "null");
    (B "players add: ""Paulo Orlando"";", B "null");
    (B "players size;", B "3")] |};
  {| t_at := 1589; t_names := [B "players"]; t_spaces := []; t_everything := false; t_password := false; t_lines := [
    (B "Set<String> create: players;", B "null");
    (B "players add: ""Babe Ruth"";", B "null");
    (B "players get;", B "{""Babe Ruth""}")] |};
  {| t_at := 1600; t_names := [B "players"]; t_spaces := []; t_everything := false; t_password := false; t_lines := [
    (B "Set<String> create: players;", B "null");
    (B "players add: ""Babe Ruth"";", B "null");
    (B "players remove: ""Babe Ruth"";", B "null");
    (B "players get;", B "{}")] |};
  {| t_at := 1613; t_names := [B "players"]; t_spaces := []; t_everything := false; t_password := false; t_lines := [
    (B "Set<String> create: players;", B "null");
    (B "players add: ""Babe Ruth"";", B "null");
    (B "players add: ""David Ortiz"";", B "null");
    (B "players add: ""Paulo Orlando"";", B "null");
    (B "players clear;", B "null");
    (B "players get;", B "{}")] |};
  {| t_at := 1634; t_names := [B "ERAs"]; t_spaces := []; t_everything := false; t_password := false; t_lines := [
    (B "Dictionary<String, Float> create: ERAs;", B "null");
    (B "ERAs get;", B "()")] |};
  {| t_at := 1643; t_names := [B "ERAs"]; t_spaces := []; t_everything := false; t_password := false; t_lines := [
    (B "Dictionary<String, Float> createIfNotExists: ERAs;", B "null");
    (B "ERAs get;", B "()")] |};
  {| t_at := 1653; t_names := [B "ERAs"]; t_spaces := []; t_everything := false; t_password := false; t_lines := [
    (B "Dictionary<String, Float> create: ERAs;", B "null");
    (B "ERAs get;", B "()")] |};
  {| t_at := 1662; t_names := [B "ERAs"]; t_spaces := []; t_everything := false; t_password := false; t_lines := [
    (B "Dictionary<String, Float> create: ERAs;", B "null");
    (B "ERAs isEmpty?;", B "true");
    (B "ERAs associateValue: 1.82 withKey: ""Ed Walsh"";", B "null");
    (B "ERAs isEmpty?;", B "false")] |};
  {| t_at := 1675; t_names := [B "ERAs"]; t_spaces := []; t_everything := false; t_password := false; t_lines := [
    (B "Dictionary<String, Float> create: ERAs;", B "null");
    (B "ERAs containsKey? ""Ed Walsh"";", B "false");
    (B "ERAs associateValue: 1.82 withKey: ""Ed Walsh"";", B "null");
    (B "ERAs containsKey? ""Ed Walsh"";", B "true")] |};
  {| t_at := 1688; t_names := [B "ERAs"]; t_spaces := []; t_everything := false; t_password := false; t_lines := [
    (B "Dictionary<String, Float> create: ERAs;", B "null");
    (B "ERAs size;", B "0");
    (B "ERAs associateValue: 1.82 withKey: ""Ed Walsh"";", B "null");
    (B "ERAs size;", B "1")] |};
  {| t_at := 1701; t_names := [B "ERAs"]; t_spaces := []; t_everything := false; t_password := false; t_lines := [
    (B "Dictionary<String, Float> create: ERAs;", B "null");
    (B "ERAs associateValue: 1.82 withKey: ""Ed Walsh"";", B "null");
    (B "ERAs associateValue: 2.21 withKey: ""Mariano Rivera"";", B "null");
    (B "ERAs associateValue: 2.39 withKey: ""Clayton Kershaw"";", B "null");
    (B "ERAs keys;", B "[""Clayton Kershaw"",""Ed Walsh"",""Mariano Rivera""]")] |};
  {| t_at := 1716; t_names := [B "ERAs"]; t_spaces := []; t_everything := false; t_password := false; t_lines := [
    (B "Dictionary<String, Float> create: ERAs;", B "null");
    (B "ERAs associateValue: 1.82 withKey: ""Ed Walsh"";", B "null");
    (B "ERAs associateValue: 2.21 withKey: ""Mariano Rivera"";", B "null");
    (B "ERAs associateValue: 2.39 withKey: ""Clayton Kershaw"";", B "null");
    (B "ERAs values;", B "[2.390,1.820,2.210]")] |};
  {| t_at := 1731; t_names := [B "ERAs"]; t_spaces := []; t_everything := false; t_password := false; t_lines := [
    (B "Dictionary<String, Float> create: ERAs;", B "null");
    (B "ERAs associateValue: 1.82 withKey: ""Ed Walsh"";", B "null");
    (B "ERAs getValueForKey: ""Ed Walsh"";", B "1.820")] |};
  {| t_at := 1742; t_names := [B "ERAs"]; t_spaces := []; t_everything := false; t_password := false; t_lines := [
    (B "Dictionary<String, Float> create: ERAs;", B "null");
    (B "ERAs associateValue: 1.82 withKey: ""Ed Walsh"";", B "null");
    (B "ERAs get;", B "((""Ed Walsh"",1.820))")] |};
  {| t_at := 1753; t_names := [B "ERAs"]; t_spaces := []; t_everything := false; t_password := false; t_lines := [
    (B "Dictionary<String, Float> create: ERAs;", B "null");
    (B "ERAs associateValue: 1.82 withKey: ""Ed Walsh"";", B "null");
    (B "ERAs removeKey: ""Ed Walsh"";", B "null");
    (B "ERAs get;", B "()")] |};
  {| t_at := 1766; t_names := [B "ERAs"]; t_spaces := []; t_everything := false; t_password := false; t_lines := [
    (B "Dictionary<String, Float> create: ERAs;", B "null");
    (B "ERAs associateValue: 1.82 withKey: ""Ed Walsh"";", B "null");
    (B "ERAs associateValue: 2.21 withKey: ""Mariano Rivera"";", B "null");
    (B "ERAs associateValue: 2.39 withKey: ""Clayton Kershaw"";", B "null");
    (B "ERAs clear;", B "null");
    (B "ERAs get;", B "()")] |};
  {| t_at := 1787; t_names := [B "std::bool"; B "mynamespace::i"]; t_spaces := []; t_everything := true; t_password := false; t_lines := [
    (B "Boolean create: std::bool withValue: true;", B "null");
    (B "Integer create: mynamespace::i withValue: 42;", B "null");
    (B "Context listNamespaces;", B "[mynamespace,std]")] |};
  {| t_at := 1798; t_names := [B "std::bool"; B "i"]; t_spaces := []; t_everything := true; t_password := false; t_lines := [
    (B "Boolean create: std::bool withValue: true;", B "null");
    (B "Integer create: i withValue: 42;", B "null");
    (B "Context listVariables;", B "[i,std::bool]")] |};
  {| t_at := 1809; t_names := [B "std::bool"; B "std::char"; B "mynamespace::i"]; t_spaces := [B "std"]; t_everything := false; t_password := false; t_lines := [
    (B "Boolean create: std::bool withValue: true;", B "null");
    (B "Character create: std::char withValue: 'a';", B "null");
    (B "Integer create: mynamespace::i withValue: 42;", B "null");
    (B "Context listVariablesOfNamespace: std;", B "[std::bool,std::char]")] |};
  {| t_at := 1822; t_names := [B "bool"; B "i"]; t_spaces := []; t_everything := true; t_password := false; t_lines := [
    (B "Boolean create: bool withValue: true;", B "null");
    (B "Integer create: i withValue: 42;", B "null");
    (B "Context deleteVariable: bool;", B "null");
    (B "Context listVariables;", B "[i]")] |};
  {| t_at := 1835; t_names := [B "std::bool"; B "std::char"; B "i"]; t_spaces := [B "std"]; t_everything := true; t_password := false; t_lines := [
    (B "Boolean create: std::bool withValue: true;", B "null");
    (B "Character create: std::char withValue: 'a';", B "null");
    (B "Integer create: i withValue: 42;", B "null");
    (B "Context deleteVariablesOfNamespace: std;", B "null");
    (B "Context listVariables;", B "[i]")] |};
  {| t_at := 1850; t_names := []; t_spaces := []; t_everything := false; t_password := false; t_lines := [
    (B "Context setFloatPrecision: 5;", B "null");
    (B "Context getFloatPrecision;", B "5")] |};
  {| t_at := 1859; t_names := [B "f"]; t_spaces := []; t_everything := false; t_password := false; t_lines := [
    (B "Float create: f withValue: 0.1;", B "null");
    (B "Context setFloatPrecision: 5;", B "null");
    (B "f get;", B "0.10000")] |};
  {| t_at := 1870; t_names := []; t_spaces := []; t_everything := false; t_password := false; t_lines := [
    (B "Context setFloatComparisonTolerance: 1e-3;", B "null");
    (B "Context getFloatComparisonTolerance;", B "0.001")] |};
  {| t_at := 1879; t_names := [B "f"]; t_spaces := []; t_everything := false; t_password := false; t_lines := [
    (B "Float create: f withValue: 0.0;", B "null");
    (B "Context setFloatComparisonTolerance: 1.0;", B "null");
    (B "f isEqualTo? 0.9;", B "true");
    (B "Context setFloatComparisonTolerance: 1e-3;", B "null");
    (B "f isEqualTo? 0.9;", B "false")] |};
  {| t_at := 1898; t_names := []; t_spaces := []; t_everything := false; t_password := true; t_lines := [
    (B "Connection authenticateWithPassword: ""password"";", B "null")] |}
].
