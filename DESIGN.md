# Formal model of knuckleball in Coq: design

Knuckleball (`/repo`) is a single-threaded, in-memory data-structure server.  All of its logic is modelled:
`str_utils.cpp`, `grammar.cpp`, `parser.cpp`, `instance.cpp`, `context.cpp` and `server.cpp` (the session
state machine and event loop) and `knuckleball.cpp` (`main`: options, start and end of the process).

## Model (files `rocq/theories/*.v`)

| file | models |
|---|---|
| `Bytes.v` | bytes, `std::string` as `list ascii` |
| `StrUtils.v` | `src/str_utils.cpp` |
| `Grammar.v` | `src/grammar.cpp` |
| `Outcome.v` | exceptions of `exceptions.h`, undefined behaviour as a distinct outcome, state+exception monad |
| `Parser.v` | `src/parser.cpp`; every unguarded read is a checked read |
| `Num.v` | `int`, `float`, `double`, `atoi`, `atof`, `std::to_string`, `std::fixed` printing |
| `Containers.v` | the used operations of `std::string`, `std::vector`, `std::set`, `std::map`, `std::sort` |
| `Instance.v` | `src/instance.cpp` |
| `Context.v` | `src/context.cpp` |
| `Clock.v` | the time stamps of `src/context.cpp` (`localtime`, `strftime` by their contracts) and the text of the log |
| `Server.v` | `src/server.cpp` |
| `Main.v` | `src/knuckleball.cpp`, constructors of Context and Server |
| `Process.v` | one run of the program: standard output, the log file, `src/knuckleball.cpp` and the writes of `src/context.cpp` |
| `Platform.v` | a concrete `std::sort` for the examples |
| `UnitTests.v` | the repository's own unit tests, transcribed and run on the model (tests, not proofs) |

Every function is executable Gallina.  Outcomes are `Ok`, `Throw e` (a C++ exception) or `UB u`.

### Undefined behaviour that is a distinct outcome
* conversion of a `double` that is NaN or out of range to `int`; `atoi` of a literal out of `int` range;
* a comparator that is not a strict weak order on the values handed to `std::sort`, `std::set`, `std::map`, or a
  container whose contents are not sorted for the comparator in force;
* out-of-range `operator[]`, iterator arithmetic, `arguments[i]`; reading past the NUL in the parser;
* dereferencing a null `Session` or null element pointer;
* the asynchronous write continuing on a destroyed buffer.

### Platform choices (not flagged as UB; x86-64, glibc, libstdc++, "C" locale)
* `char` is signed; `isspace` of a negative `char` is false (ISO C calls this undefined; glibc defines it);
* IEEE-754 `float`/`double` with round-to-nearest-even; overflow of `atof` and of `double -> float` gives an infinity;
  floating division by zero gives infinity/NaN; a NaN prints as `-nan` (the x86 default NaN has its sign bit set and no
  operation of the program can produce another NaN);
* `std::sort` is an arbitrary function (a parameter), theorems assume only its ISO contract.

### Simplifications
* sizes are unbounded (`int(size())` never wraps: strings and containers shorter than 2^31; C93 proves that this holds
  until 2^31 bytes were sent to the server);
* memory exhaustion, stack depth and time are not modelled; the times at which records are written are an arbitrary list (Clock.v, Process.v);
* sockets are byte queues; the event loop is an arbitrary schedule of completion events.

## Properties: what is modelled and how it is proved

| id | model parts | proof |
|---|---|---|
| C01, C02, C03 | Parser, Grammar | inductive grammar specification; prefix-freeness of arguments; induction on the message |
| C04, C05 | Grammar | equivalence of each recogniser with an independent inductive/regular specification |
| C06, C07 | StrUtils, Instance | induction on strings; parity of backslash runs; refutation by a reachable witness |
| C08 | Num | induction on digits |
| C09, C10 | Num | Flocq: exactness of double arithmetic on 32-bit integers; truncation of a rounded quotient |
| C11, C12, C42 | Num | Flocq correctness theorems of `SpecFloat` operations; integer rounding argument |
| C13, C14, C15 | Instance comparators | case analysis; symmetry of IEEE subtraction; refutation by a witness |
| C16, C17 | Instance `op_sort` | ISO contract of `std::sort` + comparator laws; refutation by a witness |
| C18, C19, C20 | Instance vector/string messages | list lemmas, through `execute` on the statement text |
| C21, C22, C23 | Instance set/dictionary | refinement to predicates/finite maps by induction over histories; refutations |
| C24, C25, C26, C27 | Context | sorted association list refines a finite map; case analysis over every message |
| C28, C29, C36, C38 | whole | invariants by induction over histories |
| C30-C35, C37, C40 | Server | invariants and simulation over arbitrary event schedules |
| C39 | Instance | case analysis / finite sweep over bytes |
| C41, C48 | Instance | phase argument on the printed text, induction |
| C43, C44, C45 | Server | invariants over schedules; for C45, a case analysis of every source of undefined behaviour |
| C46, C47 | Num, Instance | equivalence of reading with the literal specifications; effect relations, complete and functional |
| C49 | Server, Context | effect relation for Connection, complete and functional; exhaustive dispatch for Context |
| C50 | Main, Server | equivalence of `main` with the record `started_with`; invariants over schedules; refutations |
| C51 | StrUtils | induction on the text; a witness for the refutation of escape/unescape |
| C52 | Context, Instance | simulation between two servers with the same data (`twin`), one lemma per state-reading operation |
| C53 | Context | locality (C52) twice, and the frame property (C26) |
| C54 | Server, Context | C35 gives a serial history; the simulation of C52 carries it over to a fresh server |
| C55 | Parser grammar, Context, Server | statements are prefix-free (first stop character after each piece); success answers never end like an error; induction on the log |
| C56 | Instance, Context | the sorter occurs in one row of one dispatch table only; uniqueness of sorted permutations for total orders; a second sorter as witness |
| C57 | Instance, Context, Parser | a literal for every value (exact decimal expansions m·5^k·10^-k of floats, infinities by overflow), one message per element; converse from the invariant that container elements were read from literals |
| C58 | Context, Server, Instance | inductive description of the puts and takes of a history; induction over `serial` histories with the step lemmas of C18; schedules through C35 |
| C59 | Context, Server, Instance | inductive sum of the additions in a history; induction with C09/C10 for the step |
| C60 | Context, Server | one lemma: after a line the name is in use iff the line created it or it was in use and was not deleted (C24, C25); induction over the history |
| C61 | Instance, Context, Server | every operation outside the list is idempotent as a state transformer (lemma per class; tree invariants for sets and maps, uniqueness of the sorted list for sort); one computed witness per message and type for the converse |
| C62 | Instance, Context, Server | relation "adds" between a variable before and after a message: only old contents and literals of the arguments, at most one more element (one lemma per class, induction for the loops, the sort contract for sort); induction over the lines executed with the creation line as witness; C35 carries it to schedules |
| C63 | Context, Server | two contexts that agree on the names: a step lemma per kind of actor (message to a variable by C52, creation by the unique creation relation, Context messages case by case, listing by uniqueness of increasing lists), foreign lines leave the names alone (C26); induction over the history; C35 and C33 carry it to schedules |
| C64 | Context, Server | README.md transcribed as data (tools/mkreadme.py); each session evaluated once on an empty server by the kernel; carried to every sort by C56, to every password by a lemma, to every server content and interleaving by C63, to schedules by C33 and C35. The documented answer of "Connection close;" is not sent (C34) |
| C65 | Instance, Context | the reference part of README.md transcribed as data (tools/mkmanual.py, Spec_Manual); each dispatch table of the model compared with it by the kernel, each operation shown to obey its entry by the weakest preconditions of WP; constructors by C24, texts of answers by C10-C12, texts of arguments by C46. Runs with undefined behaviour (C26) have no answer and are not meant |
| C66 | Context, Server | Spec_Whole joins the effects of C08-C25, C38, C39, C42, C46-C47 and C49 into one relation; that every run without an error is an effect is proved from the operations of the model (Proof_Whole), that every effect happens from the theorems about each message; servers through the histories of C35. A negative tolerance (C13, C50), for which comparisons are no trichotomy, is included: comparisons are specified by the order itself |
| C67 | Instance, Context, Server | Spec_Errors gives the error of a refused statement from the documentation of C65 (class, messages, number of arguments) and the three refusals about names and passwords; each receive function of the model is shown to count its arguments before it reads them (Proof_Errors), and C65/C66 give the rest |
| C68 | Clock | the calendar is specified day by day (Spec_Clock); the model of `localtime` finds year and month by subtraction; both agree by induction over months and years; order and injectivity by induction over days and digits; with C55 for the text of the log |
| C69 | Undefined | Spec_Undefined lists, per message, the literals it reads and their order, and the undefined statements; forward: every operation of the model reads only these (structural lemmas about the monad), with C10, C17, C23, C28; backward: reading is undefined at the first literal that does not fit; with C66, C67 the three outcomes; with C35, C45 for servers |
| C70 | Observe | printing is injective at 45 places (the grid of single-precision numbers is 2^-149 > 10^-45) across all types, texts of lists with the closing bracket are injective; same data gives the same answers by C52; conversely an experiment: ask the precision, set it to 45, ask the tolerance, set it to 0, ask `get`, `keys`, `values` of every name, and put a literal into a container to find its element type |
| C71 | Process | one run as a function from the file system and the events to the file system and standard output; logs of a run extend step by step (`runs_logs`, `log_text` of an extended list); C37, C50, C55, C68 for what a record is; C54 for the data; induction over runs; refutation: a restart without events |
| C72 | Linear | histories grow event by event (`step_inv`, `history_of`), answers and lines are counted on both sides (`acc_input`, `acc_output`); C33, C34; C63's foreign and private lines for what is seen; refutation: a schedule where the second client's line is handled first |
| C73 | Undo | the effect relation of C66 applied to both statements (`undo_effect`), index and split uniqueness; C52 for the rollback by induction over the sequence; refutations: concrete floats, integers, sets |
| C74 | Live | one event's effect on one connection (`conn_step`); a state kept until a recurring event (`waits`); three stages writing, reading (induction on the bytes before the newline), handling; induction on the answers still due, counted by newlines; C34; refutation: a schedule without finished writes |
| C75 | Coherent | by C66 both answers come from the effect relation on the same value; case analysis over the table; uniqueness of positions, first matches, splits and literals (`fit_message`) |
| C76 | Possible | the schedule is built: all connections, all bytes, then per line read, handler, write (`sending`, `serving`); invariant over the lines served (`state_step`); the other direction from C35 and the size of what was written (`run_short`) |
| C77 | Secret | the one place where the password is read (`session_same`) lifted to lines, sessions (`trace_same` with C30) and, event by event, to two servers run side by side |
| C78 | Backup | C57 (every state can be made, exactly the storable values occur) applied to the table of all variables; two servers run side by side, event by event, on contexts that differ in the log only (`runs_twin`, `ub_twin`) |
| C79 | Display | a relation between two runs of every message handler (same state, same kind of result), carried through dispatch, parsing and the catch clauses; for values without floating-point numbers the handlers are equal |
| C80 | Tolerance | handlers outside the list are equal functions of the two environments; for the listed messages the comparisons of elements that are no floating-point numbers do not read the tolerance; `Props_Calm`: step by step for histories and for the runs of two servers |
| C81 | Rename | a relation between two runs: construction is the same function of the other arguments under every name (`construct_named`), handlers do not see the name, assignment and erasure in the table commute with a one-to-one renaming |
| C82 | Trace | an independence relation on lines, commutation of two steps by cases over the kinds of lines, lifted to histories by splitting and rejoining them; the shared set by induction over the history with the effect of add: on the set as the invariant |
| C83 | Safe | an invariant (`tame`) preserved by every line of the discipline; C69 characterises undefined behaviour exactly, and under the invariant each of its cases contradicts the discipline; for counters, the distance from the first value is bounded by the sum of the amounts processed, which is part of what was sent |
| C84 | Recover | undefined behaviour keeps the data as they were (`before_the_crash`), so the history of C35 and the records of C54 apply to the schedule cut before it; the records are then sent as a history of one session, whose Connection lines do not touch the data (C26) |
| C85 | Anyone | induction over the history: a line that is no message to Connection neither reads nor changes its session beyond being admitted; together with C76 (every possible history is some schedule's) this gives the schedule of the one client |
| C86 | LastWrite | induction over the history with the effect of C23 and C47 for each line that was executed, C26 for all others; schedules through the histories of C35 |
| C87 | Length | case analysis over the effects of C66: what is read is part of what get shows, a count has no more digits than elements, namespaces are parts of different names |
| C88 | Described | C66, C67 and C69 put together for one line; the specification speaks about the data only (`described_same`), so histories follow by induction; C76 turns them into schedules |
| C89 | Small | C87 with the length of numerals and of correctly rounded single-precision numbers (at most 39 digits before the point), C57 for what can be stored, C83 for everything but the answers; C62 bounds the data by the lines sent, hence few short lines keep the data small (`C89_few_short_lines`) |
| C90 | Publish | C35 gives one history; the Boolean was false, so the answer true means that its last write (C86) was the client's; the client's lines are executed in its order (C33), so the last write to the variable is the one before |
| C91 | Lock | Induction over the history with the invariant that a client that is inside implies that the name is in use and that no other one is; C24/C60 for creation, C26 and C27 for what can not change a variable, C86 for reading and writing |
| C92 | Barrier | Induction over the history: the counter is the number of those whose executed lines are more than those before the arrival (C09 for the step, C26 for the other lines); C86 for the reader; C35 for schedules |
| C93 | Sizes | C62 for the data in terms of executed lines; double counting of the executed lines by session against the bytes that arrived (C35) |
| C94 | Follow | Induction over the history as for C58; C18 for the two requests; C35 for schedules |
| C95 | Grow | C59 for the sum of what was added, which is not negative; C82 and C21 for sets; C86 for the readings; C35 for schedules |

All properties can be expressed in the model; those that the code violates get a `_refuted` theorem plus the exact
condition under which they hold.

## Specifications

The statements of the theorems use `Spec_*.v` only, besides the data types of the model (bytes, values, contexts, events) and
one entry point each: `execute` (one line of one session, `runs` in `Spec_State.v`), `run`/`start` (a schedule of server
events) and `main`.  No other function of the model occurs in a specification: what a line says is given by the grammar in
`Spec_Grammar.v`, what a literal or an index stands for by `Spec_Literal.v` (real numbers and correct rounding), what is
printed by `Spec_Number.v` and `Spec_Text.v`.  Since literals are specified with real numbers, statements with arguments
mention Coq's real numbers and inherit their axioms even where the proof is elementary.

## Which code is modelled

Modelled, function by function (each definition cites its lines):
* `str_utils.cpp`: all functions (`ltrim`, `rtrim`, `trim`, `escape`, `unescape`, the character classes, `starts_with`,
  `ends_with`, `remove_spaces`);
* `grammar.cpp`: every recogniser; `parser.cpp`: `parse` and all its helpers, with every character access checked;
* `instance.cpp`: every class, every message of every type, the comparators, printing, reading of literals, creation;
* `context.cpp`: `execute`, `write_log`, all nine messages, creation and dispatch, the constructor;
* `server.cpp`: `Server` (accept loop, constructor, run) and `Session` (start, read, write, the two messages);
* `knuckleball.cpp`: `main` from the parsed options on.

Not modelled:
* Boost.Program_options' parsing of `argv` (only its result), the usage text it prints (a parameter of Process.v);
* Boost.Asio beyond its contract (stated in `Server.v`): one thread, in-order bytes, completion events in any order;
* local times before 1970 and leap seconds in time stamps, failures to write the log or standard output after a successful open, disk space;
* memory exhaustion (`std::bad_alloc`), stack depth, sizes of 2^31 and more (`int(size())`), run time;
* the sign of NaN beyond the platform choice above; `isspace` of negative characters in other C libraries; locales;
* `tests/` (transcribed as `UnitTests.v` and run on the model), the build system; `README.md` is the documentation that C64 is about.

## Trusted base

* Coq 8.16.1's kernel, including its `vm_compute` reduction machine for closed computations;
* the reading of the C++ source into the model (above), with the platform choices and simplifications listed;
* the ISO C++ contracts of the standard-library operations in `Containers.v`, of `localtime` and `strftime` in `Clock.v`, and the Asio contract in `Server.v`;
* the axioms below, all of Coq's standard library (real numbers and classical logic, used through Flocq by theorems
  on floating point).  No axiom is added here.

### `Print Assumptions`, per theorem (regenerate with `tools/assumptions.py`)

<!-- assumptions -->
No axioms ("Closed under the global context") — 118 theorems:

`C01_parse_recovers_the_pieces`, `C02_only_statements_are_accepted`, `C02_reading_is_unique`, `C02_other_lines_are_syntax_errors`, `C03_parser_is_safe_and_total`, `C04_recognisers_agree_with_grammar`, `C05_string_literals`, `C06_every_literal_denotes_one_string`, `C06_different_strings_print_differently`, `C07_printed_strings_are_literals_refuted`, `C07_stored_literals_are_resendable`, `C08_every_literal_denotes_one_integer`, `C08_different_integers_print_differently`, `C10_overflow_is_reachable`, `C11_printed_text_is_unique`, `C13_negative_tolerance_refuted`, `C16_a_sort_exists`, `C17_sort_is_defined_refuted`, `C25_listNamespaces`, `C25_deleteVariable_of_an_unused_name`, `C25_deleteVariablesOfNamespace`, `C25_bad_names`, `C26_message_to_Connection`, `C26_not_a_statement`, `C29_otherwise_the_name_fixes_the_number`, `C30_refusal`, `C30_unauthenticated_sessions_change_no_data`, `C30_unauthenticated_sessions_learn_nothing`, `C30_unauthenticated_sessions_do_no_harm`, `C31_authenticated_only_by_the_password`, `C31_the_password_authenticates`, `C32_usable_passwords`, `C32_every_password_is_usable_refuted`, `C33_every_stream_has_one_division_into_lines`, `C33_executed_lines_are_the_lines_of_the_stream`, `C33_segmentation_is_irrelevant`, `C33_every_complete_line_can_be_processed`, `C34_nothing_after_close`, `C35_every_schedule_is_serialisable`, `C35_histories_only_grow`, `C35_the_order_determines_everything`, `C35_server_data_are_reachable`, `C37_every_statement_is_logged`, `C37_the_log_is_the_history`, `C37_what_is_written_is_determined`, `C38_getFloatPrecision`, `C38_getFloatComparisonTolerance`, `C40_delivered_iff_sent_at_once`, `C40_every_answer_is_delivered_refuted`, `C41_lists_are_unambiguous`, `C41_sets_are_unambiguous`, `C43_accept_errors_are_final`, `C43_otherwise_every_connection_is_accepted`, `C44_other_sessions_are_untouched`, `C44_only_processing_a_line_touches_data`, `C44_nothing_after_failure`, `C45_undefined_behaviour_has_a_cause`, `C48_dictionaries_are_unambiguous`, `C49_connection_messages`, `C49_connection_messages_are_complete`, `C49_connection_effect_is_unique`, `C49_only_close_disconnects`, `C49_other_messages_to_Context_are_refused`, `C50_help`, `C50_bad_command_line`, `C50_start`, `C50_server_data_are_reachable`, `C50_port_is_the_one_given_refuted`, `C50_stops_iff_at_rest`, `C50_runs_until_accept_fails`, `C50_rest_is_final`, `C51_ltrim`, `C51_rtrim`, `C51_trim`, `C51_escape`, `C51_unescape`, `C51_escape_round_trip`, `C51_escape_round_trip_refuted`, `C51_character_classes`, `C51_starts_and_ends`, `C51_remove_spaces`, `C52_same_pieces`, `C52_surrounding_space`, `C55_statements_end_at_one_place`, `C56_any_sort_has_the_same_undefined_behaviour`, `C56_float_sorts_agree_refuted`, `C62_of_a_server`, `C65_every_actor_has_a_chapter`, `C65_manual_is_unambiguous`, `C68_every_second_has_one_stamp`, `C68_stamps_tell_the_time`, `C68_stamps_are_in_order`, `C68_every_record_is_stamped`, `C68_the_buffer_suffices`, `C68_log_text`, `C68_the_log_is_in_order`, `C68_order_across_clock_changes_refuted`, `C70_44_places_do_not_suffice`, `C71_one_run`, `C71_no_server`, `C71_files_only_grow`, `C71_nothing_written_is_lost`, `C71_a_restart_forgets`, `C71_the_log_file_holds_the_password`, `C71_the_whole_log_determines_the_data_refuted`, `C72_first_sent_first_executed_refuted`, `C73_other_pairs_refuted`, `C74_answers_stay`, `C74_without_taking_answers_refuted`, `C76_every_order_can_happen`, `C77_lines_that_do_not_send_it`, `C77_a_client_learns_only_that_its_guesses_are_wrong`, `C77_a_password_nobody_sends_cannot_be_seen`, `C79_setting_the_precision_changes_no_value`, `C81_fresh_servers_correspond`, `C81_every_line_can_be_renamed`, `C84_answered_means_recorded`, `C85_renumbering`

Axioms `ClassicalDedekindReals.sig_forall_dec`, `ClassicalDedekindReals.sig_not_dec`, `Classical_Prop.classic`, `FunctionalExtensionality.functional_extensionality_dep` — 292 theorems:

`C06_get_prints_the_value`, `C06_set_then_get`, `C06_create_then_get`, `C07_resendable_iff`, `C08_stored_integers_fit`, `C08_get_round_trip`, `C08_set`, `C08_set_then_get`, `C08_create_then_get`, `C09_exact_arithmetic`, `C09_other_arguments_are_refused`, `C10_arithmetic_undefined_iff`, `C10_arithmetic_with_a_float_literal`, `C10_set_undefined_iff`, `C10_set_with_a_float_literal`, `C10_create_undefined_iff`, `C10_create_with_a_float_literal`, `C11_get_prints_rounded`, `C12_rounded_is_nearest`, `C12_set`, `C12_set_refuses_other_texts`, `C12_create`, `C13_comparisons`, `C13_any_tolerance`, `C13_trichotomy`, `C13_swap`, `C13_swap_mixed`, `C13_other_arguments_are_refused`, `C14_strict_total_order`, `C14_equality_is_identity`, `C15_reflexive`, `C15_symmetric`, `C15_transitive_refuted`, `C15_transitive_fails_for_positive_tolerances`, `C15_infinite_tolerance`, `C15_transitive_at_zero`, `C16_sort_of_weakly_ordered_values`, `C16_sort`, `C16_sort_is_defined`, `C17_undefined_iff`, `C17_defined_at_zero`, `C18_effect`, `C18_otherwise_refused`, `C18_effect_unique`, `C18_index_beyond_32_bits`, `C18_other_messages_are_refused`, `C19_effect`, `C19_otherwise_refused`, `C19_equal_is_identical`, `C20_effect`, `C20_otherwise_refused`, `C20_effect_unique`, `C20_index_beyond_32_bits`, `C20_other_messages_are_refused`, `C21_contains`, `C21_get`, `C21_size`, `C21_isEmpty`, `C21_listing_unique`, `C21_add`, `C21_remove`, `C21_clear`, `C21_every_set_has_a_history`, `C21_history_determines_the_set`, `C21_otherwise_refused`, `C21_other_messages_are_refused`, `C21_element_beyond_32_bits`, `C22_getValueForKey`, `C22_containsKey`, `C22_get`, `C22_keys`, `C22_values`, `C22_size`, `C22_isEmpty`, `C22_associate`, `C22_removeKey`, `C22_clear`, `C22_every_dictionary_has_a_history`, `C22_history_determines_the_map`, `C22_wrong_number_of_arguments`, `C22_bad_key`, `C22_bad_association`, `C22_other_messages_are_refused`, `C23_set_undefined_iff`, `C23_contains`, `C23_add`, `C23_remove`, `C23_dictionary_undefined_iff`, `C23_associate_undefined_iff`, `C23_getValueForKey`, `C23_containsKey`, `C23_associate`, `C23_removeKey`, `C23_no_two_equal_elements`, `C23_no_two_equal_keys`, `C23_never_the_same_element_twice`, `C23_never_the_same_key_twice`, `C23_separated_is_usable`, `C23_separated_keys_are_usable`, `C23_usable_at_zero`, `C23_keys_usable_at_zero`, `C23_negative_tolerance_refuted`, `C23_close_values_refuted`, `C23_raising_the_tolerance_refuted`, `C24_create_on_a_free_name`, `C24_create_on_a_used_name`, `C24_createIfNotExists_on_a_used_name`, `C24_other_messages_to_a_type`, `C24_bad_creation`, `C25_listVariables`, `C25_listVariablesOfNamespace`, `C25_deleteVariable`, `C25_live_names_are_variables`, `C26_message_to_a_variable`, `C26_message_to_a_type`, `C26_message_to_Context`, `C27_errors_change_nothing`, `C27_syntax_error_iff_not_a_statement`, `C28_reachable_data_is_well_typed`, `C28_no_comparison_or_unknown_error`, `C28_memory_safety`, `C28_every_line_is_answered`, `C29_only_for_question_marks`, `C34_one_answer_line_per_line`, `C36_answers_are_single_lines`, `C38_setFloatPrecision`, `C38_setFloatPrecision_refuses`, `C38_setFloatComparisonTolerance`, `C38_setFloatComparisonTolerance_refuses`, `C38_precision_survives`, `C38_tolerance_survives`, `C38_set_then_get`, `C39_character_predicates`, `C40_answers_can_be_arbitrarily_long`, `C41_vector_answers_are_unambiguous`, `C42_float_arithmetic`, `C42_other_arguments_are_refused`, `C42_never_undefined`, `C42_ieee_result_is_unique`, `C45_kinds_of_undefined_behaviour`, `C46_creation`, `C46_one_value`, `C46_of_the_type`, `C46_every_literal_has_a_value`, `C46_printed_values_read_back`, `C46_set`, `C47_effect`, `C47_effect_unique`, `C47_set_refuses_other_texts`, `C47_wrong_number_of_arguments`, `C47_other_messages_are_refused`, `C48_dictionary_answers_are_unambiguous`, `C50_defaults`, `C52_effect_depends_on_pieces_and_data`, `C52_undefined_behaviour_depends_on_pieces_and_data`, `C52_locality`, `C53_statements_to_different_variables_commute`, `C54_records_reproduce_the_data`, `C54_the_log_file_reproduces_the_data`, `C55_a_record_is_unambiguous`, `C55_the_log_text_tells_the_records`, `C55_the_log_text_determines_the_data`, `C56_any_sort_gives_the_same`, `C56_histories`, `C57_literals`, `C57_every_storable_value`, `C57_only_storable_values`, `C57_every_state`, `C57_exactly`, `C58_queue`, `C58_queue_under_any_schedule`, `C58_stack`, `C59_counter`, `C59_counter_under_any_schedule`, `C60_in_use_iff_held`, `C60_obtained_iff_free`, `C60_mutual_exclusion`, `C60_mutual_exclusion_under_any_schedule`, `C61_repetition_changes_nothing`, `C61_accumulating_messages_add_up`, `C61_any_number_of_repetitions`, `C62_where_values_come_from`, `C62_elements_were_inserted`, `C62_size_of_the_data`, `C62_length_of_texts`, `C63_alone`, `C63_group_under_any_schedule`, `C63_one_client_under_any_schedules`, `C64_documented_sessions`, `C64_whatever_the_others_do`, `C64_under_any_schedule`, `C65_interface`, `C65_answers`, `C65_arguments`, `C65_refusals`, `C66_every_success_is_an_effect`, `C66_every_effect_happens`, `C66_float_vectors_are_sorted`, `C66_succeeds_iff`, `C66_effects_are_unique`, `C66_every_line_has_its_effect`, `C66_every_schedule_follows_the_specification`, `C67_which_error`, `C67_error_is_unique`, `C67_every_outcome`, `C67_the_error`, `C68_the_log_tells_what_was_done_and_when`, `C69_undefined_iff`, `C69_three_outcomes`, `C69_refused_iff`, `C69_every_crash`, `C69_undefined_statements_stop_the_server`, `C70_45_places_show_every_value`, `C70_45_places_show_every_list`, `C70_same_data_iff_indistinguishable`, `C71_what_a_run_adds_determines_its_data`, `C72_linearizable`, `C72_answered_lines_are_seen`, `C73_undo`, `C73_rollback`, `C74_every_line_is_answered`, `C75_answers_fit_together`, `C75_one_succeeds_if_the_other_does`, `C76_exactly_the_possible_histories`, `C78_settings_stay_settable`, `C78_every_server_can_be_rebuilt`, `C78_the_copy_serves_like_the_original`, `C78_a_restored_server_serves_like_the_original`, `C79_precision_is_only_for_display`, `C79_precision_does_not_cause_undefined_behaviour`, `C79_for_many_lines`, `C80_histories`, `C80_servers_without_floats`, `C80_tolerance_matters_for_floats_only`, `C80_undefined_behaviour_and_tolerance`, `C81_names_do_not_matter`, `C81_undefined_behaviour_and_names`, `C81_names_do_not_matter_ever`, `C82_independent_lines_commute`, `C82_exchanging_independent_lines`, `C82_a_shared_set_loses_nothing`, `C82_shared_sets_converge`, `C82_a_shared_set_under_any_schedule`, `C83_the_data_stay_tame`, `C83_cautious_lines_are_safe`, `C83_cautious_clients_do_no_harm`, `C83_counters_do_not_overflow`, `C84_recovery`, `C85_any_assignment`, `C85_one_client_can_do_it_all`, `C86_last_writer_wins`, `C86_the_last_value_set`, `C86_reading_a_key`, `C86_reading_an_object`, `C86_on_every_schedule`, `C87_get_shows_the_variable`, `C87_no_answer_is_longer_than_get`, `C87_allIndexesOf`, `C87_no_listing_is_longer_than_listVariables`, `C87_where_long_answers_come_from`, `C88_every_line_is_described`, `C88_everything_described_happens`, `C88_the_answers_described_are_given`, `C88_every_history_is_described`, `C88_every_described_history_happens`, `C88_exactly_the_described_histories`, `C88_one_outcome`, `C88_described_or_undefined`, `C88_every_schedule_is_described`, `C88_every_description_has_a_schedule`, `C89_few_short_lines`, `C89_answers_of_small_data`, `C89_the_length_of_a_variable`, `C89_a_server_that_does_not_fail`, `C90_publication`, `C90_on_every_schedule`, `C91_at_most_one_inside`, `C91_nobody_else`, `C91_nothing_changes`, `C91_no_change_is_lost`, `C91_on_every_schedule`, `C92_barrier`, `C92_on_every_schedule`, `C93_sizes_are_paid_for`, `C93_no_size_overflows`, `C94_contents`, `C94_following`, `C94_on_every_schedule`, `C94_one_after_the_other`, `C95_a_counter_does_not_go_back`, `C95_a_set_forgets_nothing`, `C95_on_every_schedule`

Axioms `ClassicalDedekindReals.sig_forall_dec`, `FunctionalExtensionality.functional_extensionality_dep` — 3 theorems:

`C11_nearest_numeral`, `C50_settings_are_validated_refuted`, `C83_a_fresh_server_is_tame`
<!-- end assumptions -->

## Testing the theorems against wrong programs

`seeded/mutants.py` lists the edits, `seeded/mutate.py` applies each to a scratch copy, rebuilds, replaces every proof
that fails by `Admitted` to see how far the damage goes, and reports every theorem of the manifest that fails itself or
rests on a failed proof.  `seeded/LOG.jsonl` has one line per attempt.
