(** Properties C01-C05: the command language.  Specification: [Spec_Grammar] (the documented grammar); model: [Grammar],
    [Parser], [Context]. *)
From Verif Require Import Bytes StrUtils Grammar Outcome Parser Num Containers Instance Context Platform.
From Verif Require Import Lemmas StringLit Proof_Grammar Proof_Parser.
From Verif Require Import Spec_Grammar.

(** ** C01: a well-formed statement is accepted and parsed to exactly its pieces. *)
Theorem C01_parse_recovers_the_pieces : forall line a name args,
  statement line a name args -> parse line = Ok {| p_actor := a; p_message := name; p_args := args |}.
Proof. exact parse_statement. Qed.

(** Non-vacuity: a statement with a container type containing blanks, and one whose string argument contains blanks,
    a colon, a question mark and an escaped quote. *)
Ltac stmt := apply parse_iff; vm_compute; reflexivity.
Example C01_ex1 : statement (B "  Vector< Integer > create: ns::v ; ") (B "Vector< Integer >") (B "create:") [B "ns::v"].
Proof.
  exists (B "  "), " "%char, [], (B "create: ns::v"), (B " "), (B " ").
  assert (I : identifier (B "create")) by (apply is_identifier_iff; reflexivity).
  assert (A : keyword_message_argument (B "ns::v")) by (apply is_keyword_message_argument_iff; reflexivity).
  assert (S : spaces (B " ")) by (apply is_spaces_iff; reflexivity).
  split; [reflexivity|]. split; [apply is_spaces_iff; reflexivity|]. split; [apply is_actor_iff; reflexivity|].
  split; [unfold space; cbn; lia|]. split; [constructor|]. split; [|auto].
  right. apply (kw_last (B "create:") (B " ") (B "ns::v")); auto. exists (B "create"). auto.
Qed.
Definition C01_line2 : bytes := B "s replaceAll: ""a: b? \"" c"" with:'x';".
Example C01_ex2 : statement C01_line2 (B "s") (B "replaceAll:with:") [B """a: b? \"" c"""; B "'x'"].
Proof. stmt. Qed.

(** ** C02: only well-formed statements are accepted, and they can be read in one way only. *)
Theorem C02_only_statements_are_accepted : forall line p,
  parse line = Ok p -> statement line (p_actor p) (p_message p) (p_args p).
Proof. intros line [a n r] H. now apply parse_iff. Qed.
Theorem C02_reading_is_unique : forall line a name args a' name' args',
  statement line a name args -> statement line a' name' args' -> a = a' /\ name = name' /\ args = args'.
Proof.
  intros line a n r a' n' r' H H'. apply parse_statement in H, H'. rewrite H in H'. inversion H'; auto.
Qed.
Theorem C02_other_lines_are_syntax_errors : forall srt password line w,
  (forall a name args, ~ statement line a name args) ->
  snd (execute srt password line w) = Ok (B "SyntaxError: invalid statement.").
Proof.
  intros srt pw line w H. unfold execute, run_statement, bind, lift. rewrite parse_not_statement by auto. reflexivity.
Qed.
Example C02_ex : forall a name args, ~ statement (B "s set: ""a\"";") a name args.
Proof. intros a n r H. apply parse_iff in H. vm_compute in H. discriminate. Qed.

(** ** C03: the parser ends on every input without reading out of bounds. *)
Theorem C03_parser_is_safe_and_total : forall line,
  parse line = Throw InvalidStatement \/ exists p, parse line = Ok p.
Proof.
  intros line. destruct (statement_dec line) as [(a & n & r & H)|H].
  - right. eexists. eapply parse_statement; eauto.
  - left. now apply parse_not_statement.
Qed.
Example C03_ex : parse (B "foo bar") = Throw InvalidStatement /\ parse [] = Throw InvalidStatement /\ exists p, parse (B " x add: 1 ; ") = Ok p.
Proof. split; [vm_compute; reflexivity|]. split; [vm_compute; reflexivity|]. eexists. vm_compute. reflexivity. Qed.

(** ** C04: the recognisers accept exactly the documented languages. *)
Theorem C04_recognisers_agree_with_grammar : forall s,
  (is_spaces s = true <-> spaces s) /\
  (is_boolean_value s = true <-> boolean_value s) /\
  (is_character_value s = true <-> character_value s) /\
  (is_integer_value s = true <-> integer_value s) /\
  (is_float_value s = true <-> float_value s) /\
  (is_object_type s = true <-> object_type s) /\
  (is_object_value s = true <-> object_value s) /\
  (is_vector_type s = true <-> exists t, vector_type s t) /\
  (is_set_type s = true <-> exists t, set_type s t) /\
  (is_dictionary_type s = true <-> exists k v, dictionary_type s k v) /\
  (is_container_type s = true <-> container_type s) /\
  (is_type s = true <-> type s) /\
  (is_reserved_word s = true <-> reserved_word s) /\
  (is_identifier s = true <-> identifier s) /\
  (is_variable s = true <-> variable s) /\
  (is_actor s = true <-> actor s) /\
  (is_unary_message s = true <-> unary_message s) /\
  (is_keyword_message_token s = true <-> keyword_message_token s) /\
  (is_keyword_message_argument s = true <-> keyword_message_argument s) /\
  (is_keyword_message s = true <-> exists name args, keyword_message s name args) /\
  (is_statement s = true <-> exists a name args, statement s a name args).
Proof.
  intros s.
  repeat split; try apply is_spaces_iff; try apply is_boolean_value_iff; try apply is_character_value_iff;
    try apply is_integer_value_iff; try apply is_float_value_iff; try apply is_object_type_iff;
    try apply is_object_value_iff; try apply is_vector_type_iff; try apply is_set_type_iff;
    try apply is_dictionary_type_iff; try apply is_container_type_iff; try apply is_type_iff;
    try apply is_reserved_word_iff; try apply is_identifier_iff; try apply is_variable_iff; try apply is_actor_iff;
    try apply is_unary_message_iff; try apply is_keyword_message_token_iff;
    try apply is_keyword_message_argument_iff; try apply is_keyword_message_iff; try apply is_statement_iff.
Qed.
Example C04_ex : integer_value (B "-007") /\ float_value (B "+1.5") /\ ~ float_value (B "1e") /\ ~ integer_value (B "1.0") /\ object_type (B "Float").
Proof.
  destruct (C04_recognisers_agree_with_grammar (B "-007")) as (_ & _ & _ & I1 & _). destruct (C04_recognisers_agree_with_grammar (B "+1.5")) as (_ & _ & _ & _ & F1 & _).
  destruct (C04_recognisers_agree_with_grammar (B "1e")) as (_ & _ & _ & _ & F2 & _). destruct (C04_recognisers_agree_with_grammar (B "1.0")) as (_ & _ & _ & I2 & _).
  destruct (C04_recognisers_agree_with_grammar (B "Float")) as (_ & _ & _ & _ & _ & O & _).
  split; [apply I1; reflexivity|]. split; [apply F1; reflexivity|]. split; [intros X; apply F2 in X; vm_compute in X; discriminate X|].
  split; [intros X; apply I2 in X; vm_compute in X; discriminate X|apply O; reflexivity].
Qed.

(** ** C05: the acceptance condition of string literals. *)
Theorem C05_string_literals : forall s, is_string_value s = true <-> string_value s.
Proof. exact is_string_value_iff. Qed.
Example C05_ex_yes : string_value (B """a\\\""b\\""").
Proof. apply C05_string_literals. reflexivity. Qed.
Example C05_ex_no : ~ string_value (B """a\\""b""").
Proof. rewrite <- C05_string_literals. vm_compute. discriminate. Qed.

Print Assumptions C01_parse_recovers_the_pieces.
Print Assumptions C02_only_statements_are_accepted.
Print Assumptions C02_reading_is_unique.
Print Assumptions C02_other_lines_are_syntax_errors.
Print Assumptions C03_parser_is_safe_and_total.
Print Assumptions C04_recognisers_agree_with_grammar.
Print Assumptions C05_string_literals.
