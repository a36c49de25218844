{"id": "C01", "title": "Well-formed statements parse to exactly their pieces", "statement": "A statement line assembled from a valid actor, a unary message or a non-empty sequence of keyword/argument pairs, any admissible whitespace between the pieces, and a terminating ';' is accepted, and the parser reports exactly that actor, the concatenated message name and exactly those argument texts, byte for byte.", "quantifier": "all actors, message names, argument literals (including strings with embedded blanks, colons, question marks and escaped quotes) and all runs of whitespace", "why_tests_cant": "the space of statements is infinite and the argument splitter re-scans prefixes, so a sampled literal says nothing about a literal with other embedded delimiters", "anchors": ["src/parser.cpp: Parser::Parser", "src/grammar.cpp: Grammar::is_statement, Grammar::is_keyword_message"]}
{"id": "C02", "title": "Only well-formed statements are accepted, and unambiguously", "statement": "If the server does not answer 'SyntaxError: invalid statement.' then the line is an assembly of valid pieces as in C01, and that decomposition is unique: no line can be read as two different commands.", "quantifier": "all byte strings sent as a line", "why_tests_cant": "rejection of every malformed byte string and uniqueness over all decompositions cannot be enumerated", "anchors": ["src/grammar.cpp: Grammar::is_statement", "src/parser.cpp: Parser::Parser"]}
{"id": "C03", "title": "Parsing is memory-safe and terminates on every input", "statement": "For every byte string the parser either throws the syntax error or finishes after finitely many steps, and never reads a character beyond the terminating NUL of its buffers, although its scanning loops have no bounds checks of their own.", "quantifier": "all byte strings", "why_tests_cant": "the unchecked loops are safe only because of what the grammar check accepted; absence of an out-of-bounds read on every input is not observable by examples", "anchors": ["src/parser.cpp:37", "src/parser.cpp:46", "src/parser.cpp:49", "src/parser.cpp:52"]}
{"id": "C04", "title": "Recognisers agree with the documented grammar", "statement": "The recognisers of integers, floats, booleans, characters, identifiers, variables, container types, actors, keyword arguments and messages accept exactly the languages documented in the grammar rules.", "quantifier": "all byte strings", "why_tests_cant": "language equality over infinitely many strings", "anchors": ["src/grammar.h:33-64", "src/grammar.cpp"]}
{"id": "C05", "title": "String literals: exact acceptance condition", "statement": "A text is a string literal exactly when it is enclosed in double quotes, every inner quote is preceded by an odd run of backslashes and the closing quote by an even run.", "quantifier": "all byte strings", "why_tests_cant": "run-length parity conditions over arbitrary strings", "anchors": ["src/grammar.cpp: Grammar::is_string_value"]}
{"id": "C06", "title": "A stored string literal reads back byte-identically", "statement": "After storing a string literal in a String variable (create or set) get answers exactly the same literal; and for every string value v, reading the printed form of v removes exactly the escapes that printing added.", "quantifier": "all string literals and all string values", "why_tests_cant": "round-trip over all strings with any mix of quotes and backslashes", "anchors": ["src/str_utils.cpp: escape, unescape", "src/instance.cpp: StringInstance"]}
{"id": "C07", "title": "Printed strings: exactly which can be sent back as literals", "statement": "The answer of get on a String variable is itself an acceptable string literal exactly when, in the value, every run of backslashes before a quote or at the end has even length; values violating this are reachable with ordinary statements (popBack, pushBack:, concatenate: ...), so the documented round trip fails for them.", "quantifier": "all reachable String variables", "why_tests_cant": "needs a history of mutations, and the exact boundary is a parity condition over all strings", "anchors": ["src/str_utils.cpp: escape", "src/grammar.cpp: is_string_value", "src/instance.cpp: StringInstance::op_popBack"]}
{"id": "C08", "title": "Integer text round trip", "statement": "The text answered by get for an Integer is an accepted integer literal that reads back as the same number, for every 32-bit value; and a literal with sign and leading zeros reads as the decimal number it denotes.", "quantifier": "all 32-bit integers and all integer literals in range", "why_tests_cant": "2^32 values and infinitely many literals", "anchors": ["src/instance.cpp: IntegerInstance", "src/grammar.cpp: is_integer_value"]}
{"id": "C09", "title": "Integer arithmetic is exact within range", "statement": "add:, subtract:, multiplyBy: and divideBy: with an integer literal leave exactly the sum, difference, product or truncated quotient in the variable whenever that result fits in 32 bits, although the computation goes through double precision.", "quantifier": "all pairs of 32-bit integers", "why_tests_cant": "2^64 operand pairs; the rounding of the double quotient must never cross an integer", "anchors": ["src/instance.cpp: IntegerInstance::op_add, op_subtract, op_multiplyBy, op_divideBy"]}
{"id": "C10", "title": "Integer operations are defined exactly when the truncated result fits", "statement": "An Integer operation (create, set, add:, subtract:, multiplyBy:, divideBy:) has undefined behaviour exactly when its mathematical result does not fit a 32-bit integer (this includes division by zero); a client can reach this with ordinary statements, no error is answered.", "quantifier": "all operand pairs", "why_tests_cant": "undefined behaviour cannot be observed by a test, only by an exhaustive case analysis", "anchors": ["src/instance.cpp: IntegerInstance::op_divideBy", "src/instance.cpp: IntegerInstance::op_set"]}
{"id": "C11", "title": "Floats print correctly rounded with the configured precision", "statement": "get on a finite Float prints a decimal numeral with exactly the configured number of fractional digits, that is the nearest such numeral to the stored binary value.", "quantifier": "all single precision values and all precisions > 0", "why_tests_cant": "2^32 values times all precisions", "anchors": ["src/instance.cpp: FloatInstance::representation"]}
{"id": "C12", "title": "Float literals are read correctly rounded", "statement": "A float literal (fraction, exponent, sign) is read as the double nearest to the real number it denotes, and stored as the float nearest to that double.", "quantifier": "all float literals", "why_tests_cant": "infinitely many literals", "anchors": ["src/instance.cpp: FloatInstance", "src/grammar.cpp: is_float_value"]}
{"id": "C13", "title": "Comparison messages form a trichotomy", "statement": "For any two comparable values, with a comparison tolerance that is not negative, exactly one of isLessThan?, isEqualTo?, isGreaterThan? answers true, isLessThanOrEqualTo? is the negation of isGreaterThan?, isGreaterThanOrEqualTo? the negation of isLessThan?, and swapping the operands swaps less and greater. With a negative tolerance (which the command line accepts) this fails: two values can be less than each other. For every tolerance, negative or not, each message answers what the order 'less by more than the tolerance' says: less, greater, neither, or a disjunction of these.", "quantifier": "all values of each object type, all tolerances (trichotomy: all tolerances >= 0)", "why_tests_cant": "quantifies over all value pairs and tolerances including infinities and NaN", "anchors": ["src/instance.cpp: InstanceIsLessThanComparator, InstanceIsGreaterThanComparator, InstanceIsEqualToComparator"]}
{"id": "C14", "title": "Boolean, Character, Integer and String orders are total orders", "statement": "On each of these types the comparison is a strict total order whose equality is identity; strings compare lexicographically by unsigned byte, characters by signed byte.", "quantifier": "all pairs and triples of values", "why_tests_cant": "transitivity over all triples", "anchors": ["src/instance.cpp: InstanceIsLessThanComparator"]}
{"id": "C15", "title": "Float equality: reflexive, symmetric, transitive only at tolerance zero", "statement": "Float isEqualTo? is reflexive and symmetric for every tolerance that is not negative, fails to be transitive for every positive finite tolerance (in particular the default one), and is transitive on non-NaN values when the tolerance is 0.", "quantifier": "all float triples and tolerances", "why_tests_cant": "transitivity over all triples; needs exact rounding analysis", "anchors": ["src/instance.cpp: InstanceIsEqualToComparator"]}
{"id": "C16", "title": "sort orders a vector and keeps its elements", "statement": "After sort the vector is a permutation of what it held, in non-descending order; for Boolean, Character, Integer and String vectors the result is unique and the operation has no undefined behaviour.", "quantifier": "all vectors of any length, every conforming implementation of the standard sort", "why_tests_cant": "all lengths and contents; also all conforming std::sort implementations", "anchors": ["src/instance.cpp: VectorInstance::op_sort"]}
{"id": "C17", "title": "sort on Float vectors: exactly when it is defined", "statement": "sort on a Vector<Float> has undefined behaviour exactly when its elements are not weakly ordered by the tolerant comparison; this is reachable with the default tolerance and three close values, and impossible with tolerance 0.", "quantifier": "all Float vectors and tolerances", "why_tests_cant": "a test cannot observe undefined behaviour", "anchors": ["src/instance.cpp: VectorInstance::op_sort, InstanceIsLessThanComparator"]}
{"id": "C18", "title": "Vectors behave as sequences", "statement": "Every vector message (pushBack:, pushFront:, popBack, popFront, popAtIndex:, insert:beforeIndex:, eraseFromIndex:, eraseFromIndex:toIndex:, atIndex:, first:, last:, sliceFromIndex:, sliceFromIndex:toIndex:, size, isEmpty?, reverse, clear) has the documented effect on a mathematical sequence, answers 'invalid argument' exactly outside the documented index range, and leaves the sequence unchanged when it is a query or fails.", "quantifier": "all vectors, element types, indices", "why_tests_cant": "all lengths and index combinations including the boundaries", "anchors": ["src/instance.cpp: VectorInstance"]}
{"id": "C19", "title": "Vector searches, removals and replacements", "statement": "contains?, count:, firstIndexOf:, allIndexesOf:, removeFirst:, removeAll:, replaceFirst:with:, replaceAll:with: and their fromIndex: variants act on exactly the elements equal to the argument: first/all matching positions, nothing else moves.", "quantifier": "all vectors, arguments and start positions", "why_tests_cant": "all lengths and match patterns", "anchors": ["src/instance.cpp: VectorInstance::op_removeAll, op_replaceFirst_fromIndex_with"]}
{"id": "C20", "title": "Strings behave as byte sequences", "statement": "Every String message has the documented effect on a mathematical byte sequence, answers 'invalid argument' exactly outside the documented range, and never has undefined behaviour for arguments that fit 32 bits.", "quantifier": "all strings, indices", "why_tests_cant": "all lengths and index combinations", "anchors": ["src/instance.cpp: StringInstance"]}
{"id": "C21", "title": "Sets refine mathematical sets", "statement": "For Boolean, Character, Integer and String sets, after any history of add:, remove:, clear the answers of contains?, size, isEmpty? and get are those of the mathematical set built by that history; get lists elements in strictly increasing order without duplicates.", "quantifier": "all histories of set messages", "why_tests_cant": "histories of unbounded length", "anchors": ["src/instance.cpp: SetInstance"]}
{"id": "C22", "title": "Dictionaries refine finite maps", "statement": "For non-Float keys, after any history of associateValue:withKey:, removeKey:, clear, getValueForKey: answers the last associated value (null if none), containsKey?, size, keys, values and get agree with that map, keys in strictly increasing order.", "quantifier": "all histories of dictionary messages", "why_tests_cant": "histories of unbounded length", "anchors": ["src/instance.cpp: DictionaryInstance"]}
{"id": "C23", "title": "Float sets and dictionaries: exactly when they are defined", "statement": "A lookup, insertion or removal in a Set<Float> or a dictionary keyed by Float has undefined behaviour exactly when the value and the contents are not weakly ordered, or the contents not strictly increasing, under the current tolerance; when defined it has the effect of the set or map operation modulo tolerant equality. This is reachable with three close values under the default tolerance, and by raising the tolerance over existing contents (which also makes two elements equal); impossible while values are separated and the tolerance is not raised, and impossible with tolerance 0 whatever happened before. No value is ever held twice.", "quantifier": "all histories mixing set messages and setFloatComparisonTolerance:", "why_tests_cant": "needs a history and undefined behaviour is not observable", "anchors": ["src/instance.h:316", "src/instance.h:343", "src/context.cpp: op_setFloatComparisonTolerance"]}
{"id": "C24", "title": "create and createIfNotExists", "statement": "create binds a free name to a fresh variable of the given type and value and answers null; on a used name it answers the 'already used' error and changes nothing; createIfNotExists behaves the same on a free name and on a used name answers null and changes nothing, whatever the type or value of the existing variable.", "quantifier": "all reachable server states, types, names and values", "why_tests_cant": "all states and names", "anchors": ["src/context.cpp: execute_in_type"]}
{"id": "C25", "title": "Name listing and deletion", "statement": "listVariables lists exactly the live names in increasing order without duplicates; listNamespaces the distinct namespaces of live names; listVariablesOfNamespace: exactly the live names in that namespace; deleteVariable: removes exactly that name (error if absent); deleteVariablesOfNamespace: removes exactly the names of that namespace.", "quantifier": "all reachable server states and names", "why_tests_cant": "all states; prefix confusions between namespaces such as a::x and ab::x", "anchors": ["src/context.cpp: op_listNamespaces, op_listVariables, op_listVariablesOfNamespace, op_deleteVariable, op_deleteVariablesOfNamespace"]}
{"id": "C26", "title": "Statements touch only what they name", "statement": "A statement addressed to variable x changes at most the contents of x; creation and deletion change at most the named variables; a query message changes nothing.", "quantifier": "all reachable states and all statements", "why_tests_cant": "all statements in all states", "anchors": ["src/context.cpp: execute", "src/instance.cpp"]}
{"id": "C27", "title": "Failed statements change nothing", "statement": "If a statement is answered with an error message then every variable and setting is exactly as before, and every answer is either an error message or a success value, never ambiguous.", "quantifier": "all states and all input lines", "why_tests_cant": "all statements in all states", "anchors": ["src/context.cpp: execute"]}
{"id": "C28", "title": "Containers are strongly typed in every reachable state", "statement": "In every state reachable by any sequence of lines every element of a container has the declared element type, every name is a valid variable name, and therefore 'cannot compare these two types' and 'unknown error' are never answered and no null element is ever dereferenced.", "quantifier": "all histories of input lines", "why_tests_cant": "histories of unbounded length", "anchors": ["src/instance.cpp: get_shared_instance", "src/context.cpp"]}
{"id": "C29", "title": "Wrong-number-of-arguments is confined to ?-messages", "statement": "The 'wrong number of arguments' error can only be answered to a message whose name is a single token ending in '?'; for every other message the number of arguments is fixed by the message name.", "quantifier": "all states and lines", "why_tests_cant": "all statements", "anchors": ["src/parser.cpp", "src/instance.cpp"]}
{"id": "C30", "title": "The authentication gate", "statement": "While a password is configured and the session has not authenticated, a line that is not addressed to Connection neither reads nor changes any data: the answer is the same whatever the data, the data and log are unchanged.", "quantifier": "all states, all sessions, all lines", "why_tests_cant": "non-interference over all pairs of states", "anchors": ["src/server.cpp: Session::do_read"]}
{"id": "C31", "title": "Only the right password authenticates, per session", "statement": "In any schedule of events a session is authenticated only if the password is empty or that very session sent authenticateWithPassword: with a literal denoting exactly the password; other sessions are unaffected.", "quantifier": "all schedules of events over any number of sessions", "why_tests_cant": "all interleavings", "anchors": ["src/server.cpp: Session::receive, Session::Session"]}
{"id": "C32", "title": "Exactly which passwords can be used", "statement": "A configured password can be sent by a client, and authenticates, exactly when it is free of newlines and every backslash run before a quote or at the end has even length; other passwords accepted on the command line lock everybody out.", "quantifier": "all passwords", "why_tests_cant": "exact characterisation over all strings", "anchors": ["src/server.cpp: Session::receive", "src/grammar.cpp: is_string_value"]}
{"id": "C33", "title": "Line framing is independent of TCP segmentation", "statement": "However the bytes of a client are cut into segments, the sequence of lines executed and of answers is the same; bytes after the last newline are not executed.", "quantifier": "all byte streams and all segmentations", "why_tests_cant": "all segmentations of all streams", "anchors": ["src/server.cpp: Session::do_read"]}
{"id": "C34", "title": "One answer per line, in order; none after close", "statement": "Each session gets exactly one answer line per executed line, in order, until it sends Connection close, which is not answered and after which nothing from that session is executed.", "quantifier": "all schedules", "why_tests_cant": "all interleavings", "anchors": ["src/server.cpp: Session::do_read, Session::do_write"]}
{"id": "C35", "title": "Concurrent sessions are serialisable", "statement": "For every schedule of events over any number of sessions, the data and all answers equal those of executing the lines one after another in the order in which they were processed, and that order respects each session's own order.", "quantifier": "all schedules", "why_tests_cant": "all interleavings", "anchors": ["src/server.cpp", "src/context.cpp: execute"]}
{"id": "C36", "title": "Each answer is exactly one line", "statement": "No answer ever contains a newline, so clients can delimit answers by newline, in every state reachable through the network.", "quantifier": "all histories of lines", "why_tests_cant": "histories of unbounded length", "anchors": ["src/server.cpp: do_write", "src/instance.cpp: representation"]}
{"id": "C37", "title": "The log records every executed statement", "statement": "With a log file (or non-quiet mode) exactly one record with the trimmed line and its answer is appended per executed statement, in execution order; lines refused for lack of authentication leave no record.", "quantifier": "all histories", "why_tests_cant": "histories of unbounded length", "anchors": ["src/context.cpp: execute"]}
{"id": "C38", "title": "Float settings", "statement": "setFloatPrecision: accepts exactly the positive integers and getFloatPrecision answers the last accepted value; setFloatComparisonTolerance: accepts exactly the non-negative floats; both survive every other statement.", "quantifier": "all histories", "why_tests_cant": "histories", "anchors": ["src/context.cpp: op_setFloatPrecision, op_setFloatComparisonTolerance"]}
{"id": "C39", "title": "Character predicates", "statement": "isAlphabetic?, isNumeric?, isAlphanumeric?, isSpace? answer membership in the ASCII letters, digits, their union, and the six C white-space characters.", "quantifier": "all 256 byte values", "why_tests_cant": "stated and proved for all bytes in any variable state", "anchors": ["src/str_utils.cpp", "src/instance.cpp: CharacterInstance"]}
{"id": "C40", "title": "Exactly when an answer is delivered intact", "statement": "An answer reaches the client, as exactly its bytes followed by one newline, if and only if the first send on the socket takes all of it and it is shorter than 65536 bytes; otherwise the asynchronous write goes on reading a buffer that has already been destroyed (undefined behaviour). Answers can be arbitrarily long, so delivery of every answer is refuted, and an answer of 65536 bytes or more can never be delivered.", "quantifier": "all answers, all kernel write behaviours", "why_tests_cant": "depends on scheduling and buffer sizes", "anchors": ["src/server.cpp:137-145"]}
{"id": "C41", "title": "Answers of String vectors are unambiguous", "statement": "Two Vector<String> with different contents never print the same text, whatever quotes, commas and backslashes their strings contain; likewise Boolean, Character and Integer vectors.", "quantifier": "all pairs of vectors", "why_tests_cant": "injectivity over all vectors", "anchors": ["src/instance.cpp: vector_representation", "src/str_utils.cpp: escape"]}
{"id": "C42", "title": "Float arithmetic is correctly rounded", "statement": "add:, subtract:, multiplyBy:, divideBy: on a Float store the double-precision IEEE result rounded to single precision; infinities and NaN follow IEEE rules and never raise an error.", "quantifier": "all float values and literals", "why_tests_cant": "2^32 values times all literals", "anchors": ["src/instance.cpp: FloatInstance::op_add"]}
{"id": "C43", "title": "Accepting connections", "statement": "As long as accepting has not failed every new connection gets a session of its own, unauthenticated unless the password is empty; one error of accept ends the acceptance of connections for good, while the existing sessions and the data go on unharmed.", "quantifier": "all schedules of events", "why_tests_cant": "all schedules, including errors reported by the operating system", "anchors": ["src/server.cpp: Server::do_accept"]}
{"id": "C44", "title": "Failures of one session do not touch the others", "statement": "An event of one session changes no other session's state or output; arrivals, reads, completed writes and failures change no data; after a read or write error a session executes nothing and sends nothing more.", "quantifier": "all schedules of events over any number of sessions", "why_tests_cant": "all interleavings and failure points", "anchors": ["src/server.cpp: Session::do_read, Session::do_write"]}
{"id": "C45", "title": "All the ways the server can fail", "statement": "Whatever the clients send and however events are scheduled, the only undefined behaviour of the server is: an integer literal out of int range, a conversion of an out-of-range number to int, a Float order that is not a strict weak order under the tolerance, or an answer that does not fit the first send; it occurs only while a complete line is processed that has this cause.", "quantifier": "all schedules of events, all byte streams", "why_tests_cant": "all schedules and inputs of unbounded length", "anchors": ["src/server.cpp", "src/context.cpp: execute", "src/instance.cpp"]}
{"id": "C46", "title": "What every literal stands for", "statement": "Wherever a value of type Boolean, Character, Integer, Float or String, or an index or count, is expected, the argument is read as exactly the value it denotes as a literal of that type (a float literal read as an Integer is truncated towards zero); a literal has at most one value, of that type, and has one unless it is a number that does not fit 32 bits; what get prints for a Boolean, Character or Integer is a literal of the same value.", "quantifier": "all texts, all object types", "why_tests_cant": "infinitely many literals; the readings are shared by every message of every type", "anchors": ["src/instance.cpp:get_shared_instance", "src/instance.cpp:BooleanInstance::BooleanInstance", "src/instance.cpp:CharacterInstance::CharacterInstance", "src/instance.cpp:IntegerInstance::IntegerInstance", "src/instance.cpp:FloatInstance::FloatInstance", "src/instance.cpp:StringInstance::StringInstance"]}
{"id": "C47", "title": "Variables that hold one value", "statement": "get answers the text of the value held; set: replaces it by the value of the literal and refuses texts that are no literal of the type, changing nothing; isTrue? and isFalse? answer the Boolean and its negation; every message understood by the type but sent with a wrong number of arguments answers 'wrong number of arguments', every other message 'invalid message', and neither changes anything.", "quantifier": "all reachable states, all variables of object type, all messages and arguments", "why_tests_cant": "all values, all texts, all message names", "anchors": ["src/instance.cpp:BooleanInstance::receive", "src/instance.cpp:CharacterInstance::receive", "src/instance.cpp:IntegerInstance::receive", "src/instance.cpp:FloatInstance::receive", "src/instance.cpp:StringInstance::receive"]}
{"id": "C48", "title": "Answers of dictionaries are unambiguous", "statement": "Two dictionaries of the same type, with keys and values other than Float, that answer get with the same text hold the same associations, whatever quotes, commas, parentheses, apostrophes and trailing backslashes their strings and characters contain.", "quantifier": "all dictionaries of all reachable states of any two servers", "why_tests_cant": "backslashes are not escaped when printed, so unambiguity is a global property of the text, not one of each string", "anchors": ["src/instance.cpp:DictionaryInstance::representation", "src/instance.cpp:StringInstance::representation", "src/str_utils.cpp:escape"]}
{"id": "C49", "title": "Messages to Connection and to Context", "statement": "close ends the session and leaves its authentication; authenticateWithPassword: authenticates exactly when its argument denotes the password, answers 'wrong password' for any other string and 'invalid argument' for a text that is no string literal; every other message to Connection, and every message to Context outside its nine, answers 'invalid message'. None of them changes a variable or a setting, every message to Connection has exactly one effect, nothing but close disconnects and nothing un-authenticates a session.", "quantifier": "all servers, sessions, statements sent to Connection, and statements sent to Context whose message is none of the nine", "why_tests_cant": "message names and arguments are unbounded; absence of side effects ranges over all variables and settings", "anchors": ["src/server.cpp:Session::receive", "src/context.cpp:Context::execute_in_context"]}
{"id": "C50", "title": "From the command line to the running server, and its end", "statement": "With help the process prints usage and exits successfully, with a bad command line or without a port it fails; otherwise it serves, on the address given and on the port given modulo 65536, a server without variables, sessions or log entries that has the password, precision, tolerance, quiet flag and log file given (defaults: no password, precision 3, tolerance 0.0000001), or terminates if it cannot listen. All data it ever holds are reachable from that start by lines. Precision and tolerance are not validated on the command line although the messages refuse negative ones (refuted), and a port above 65535 is silently replaced (refuted). The process ends by itself exactly when accepting has failed and every session is over; then nothing changes any more.", "quantifier": "all command lines, operating systems answers to opening the log and listening, all schedules of network events", "why_tests_cant": "all combinations of options and all schedules; the end of the process depends on the history of all connections", "anchors": ["src/knuckleball.cpp:main", "src/context.cpp:Context::Context", "src/server.cpp:Server::Server", "src/server.cpp:Server::run"]}
{"id": "C51", "title": "Text helpers do what their names say, on every byte string", "statement": "Trimming removes exactly the white space at the left, right or both ends; removing spaces removes exactly the white space; the character classes are the ASCII ones for every byte; prefix and suffix tests hold exactly when the text begins or ends so. Escaping a character puts a backslash before each of its occurrences and changes nothing else; unescaping removes exactly the backslashes directly before it, from left to right; unescaping undoes escaping on every text for every character except the backslash itself, for which it does not (refuted).", "quantifier": "all byte strings, including control and non-ASCII bytes", "why_tests_cant": "ranges over all byte strings; the one character for which the round trip fails is easily missed", "anchors": ["src/str_utils.cpp:trim", "src/str_utils.cpp:ltrim", "src/str_utils.cpp:rtrim", "src/str_utils.cpp:escape", "src/str_utils.cpp:unescape", "src/str_utils.cpp:remove_spaces", "src/str_utils.cpp:starts_with", "src/str_utils.cpp:ends_with"]}
{"id": "C52", "title": "The effect of a line depends on its pieces and on the data only", "statement": "Two lines that read as the same actor, message and arguments (white space aside), executed on two servers that hold the same variables and settings, give the same answer, the same undefined behaviour if any, and the same data afterwards, whatever the log, the flags or the histories that led to these data. A message to a variable depends, of the data, only on that variable and the two settings.", "quantifier": "all servers reachable by any histories with any passwords, all pairs of lines, all sessions", "why_tests_cant": "a statement about all pairs of executions (non-interference); a test runs one", "anchors": ["src/context.cpp:Context::execute", "src/context.cpp:Context::execute_in_variable", "src/context.cpp:Context::execute", "src/parser.cpp:parse"]}
{"id": "C53", "title": "Statements to different variables commute", "statement": "If two lines addressed to two different variables are executed in one order, by the same or different sessions, then they can be executed in the other order on the same server with the same answers, and the data at the end are the same.", "quantifier": "all reachable servers, sessions, pairs of variables, messages and arguments", "why_tests_cant": "ranges over all pairs of statements and all states", "anchors": ["src/context.cpp:Context::execute_in_variable", "src/instance.cpp:VectorInstance::receive"]}
{"id": "C54", "title": "The log, executed again, gives the data back", "statement": "After any schedule of any number of sessions that has not ended in undefined behaviour, executing the recorded lines in order, in one authenticated session, on any server that holds the data the first one started with, succeeds, gives exactly the recorded answers and ends with exactly the data of the first server. In particular the log file of a server that keeps one rebuilds its data from nothing.", "quantifier": "all schedules, numbers of sessions, segmentations of the input, all initial data", "why_tests_cant": "ranges over all histories and interleavings", "anchors": ["src/context.cpp:Context::execute", "src/context.cpp:Context::execute", "src/server.cpp:Session::do_read"]}
{"id": "C55", "title": "The text of the log is unambiguous", "statement": "A text that begins with a statement begins with exactly one (a statement is never continued to another one). A log line 'line -> answer' therefore tells line and answer, although strings in both may contain arrows, quotes and semicolons and a rejected line may be any text: two different records never have the same text. Two servers, whatever their schedules, that wrote the same log text (time stamps of fixed width aside) executed the same lines with the same answers, and, started with the same settings, hold the same data.", "quantifier": "all pairs of lines, answers, servers and schedules", "why_tests_cant": "injectivity over all pairs of records; no finite set of log lines shows it", "anchors": ["src/context.cpp:Context::execute", "src/grammar.cpp:Grammar::is_statement"]}
{"id": "C56", "title": "The library's sorting algorithm matters only for Vector<Float>", "statement": "For any two implementations of std::sort that meet the ISO contract every line has the same undefined behaviour, and every line that does not sort a Vector<Float> has the same answer and the same effect on data, session and log; so have whole histories. For Vector<Float> the result may differ (refuted by 0.0 and -0.0).", "quantifier": "all sort implementations that satisfy the contract, all reachable servers and lines, all histories", "why_tests_cant": "ranges over all implementations of a library function", "anchors": ["src/instance.cpp:VectorInstance::op_sort"]}
{"id": "C57", "title": "Exactly which values variables can hold", "statement": "Which values can be written as literals, which can be held by a variable, and that these bounds are tight. A variable can hold exactly: any Boolean, any Character but newline, any 32-bit Integer, any single-precision Float including infinities, both zeros and NaN, any String without newline; a Vector of any literals' values; a Set or Dictionary of literals' values in strictly increasing order (so a container never holds a NaN or a string that has no literal). Every such value can be given to every free name by a sequence of lines that are all answered null and disturb nothing else, every table of variables with such values can be made together with every precision and tolerance, and no history of lines ever makes any other value.", "quantifier": "all values of all types, all variable names, all reachable servers, all finite tables", "why_tests_cant": "both directions range over infinitely many values and histories", "anchors": ["src/instance.cpp:get_shared_instance", "src/instance.cpp:StringInstance::op_pushBack", "src/instance.cpp:FloatInstance::op_subtract", "src/context.cpp:Context::execute_in_type"]}
{"id": "C58", "title": "A vector shared by clients is a reliable queue (or stack)", "statement": "If in a history of lines of any number of sessions all that changes a Vector variable is pushBack: and popFront, then every value put is delivered at most once and in the order in which it was put: what the vector held at first followed by what was put is what was answered to popFront followed by what is left, and popFront is answered null only when all that was ever there had been taken. With pushBack: and popBack it is a stack: every popBack is answered the value last pushed and not yet popped. The same holds for every schedule of network events, through the serial history that explains it.", "quantifier": "all reachable servers, element types, histories of lines of any sessions, all schedules of events without undefined behaviour", "why_tests_cant": "ranges over all interleavings and histories of unbounded length", "anchors": ["src/instance.cpp:VectorInstance::op_pushBack", "src/instance.cpp:VectorInstance::op_popFront", "src/instance.cpp:VectorInstance::op_popBack", "src/server.cpp:Session::do_read"]}
{"id": "C59", "title": "A shared counter loses no update", "statement": "If in a history of lines of any number of sessions all that changes an Integer variable is add: and subtract: with integer literals, the variable holds its first value plus the sum of everything added minus everything subtracted by lines answered null; lines that are refused or answered with an error count nothing. The same holds for every schedule of network events.", "quantifier": "all reachable servers, all histories of lines of any sessions, all schedules without undefined behaviour", "why_tests_cant": "ranges over all interleavings and histories of unbounded length", "anchors": ["src/instance.cpp:IntegerInstance::op_add", "src/instance.cpp:IntegerInstance::op_subtract", "src/server.cpp:Session::do_read"]}
{"id": "C60", "title": "A variable name is a lock", "statement": "A name is in use exactly when its creation was executed and it was not deleted since (by deleteVariable: or deleteVariablesOfNamespace:). create: / create:withValue: of a name is answered null exactly when the name is free and otherwise 'variable name already used'. So of two successful creations of the same name by any sessions, the second one comes after an executed deletion of the name: mutual exclusion. The same holds for every schedule of network events.", "quantifier": "all reachable servers, names, histories of lines of any sessions, all schedules", "why_tests_cant": "safety over all interleavings of any number of clients", "anchors": ["src/context.cpp:Context::execute_in_type", "src/context.cpp:Context::op_deleteVariable", "src/context.cpp:Context::op_deleteVariablesOfNamespace", "src/server.cpp:Session::do_read"]}
{"id": "C61", "title": "Which lines may safely be sent twice", "statement": "A client that did not see the answer may send the line again: unless the line sends a variable one of the messages that add up (arithmetic on numbers; push, pop, insert, concatenate and range erasure on strings and vectors; removeFirst, replaceFirst and reverse on vectors; sort on Vector<Float>), a repetition of an executed line is defined, changes neither data nor session, and is answered as the first time - except that a second create: reports the name as used and a second deleteVariable: reports it as unknown. Any number of repetitions is as good as one. The list is exact: every message in it really adds up for every type of variable that understands it.", "quantifier": "all reachable servers, sessions, lines, numbers of repetitions; for exactness all types and messages", "why_tests_cant": "a statement about all states and all lines, with the sort algorithm left open", "anchors": ["src/instance.cpp:VectorInstance::receive", "src/instance.cpp:SetInstance::op_add", "src/instance.cpp:DictionaryInstance::op_associateValue_withKey", "src/context.cpp:Context::execute_in_type", "src/context.cpp:Context::execute_in_context", "src/server.cpp:Session::receive"]}
{"id": "C62", "title": "Nothing comes from nowhere, and a server holds no more than it was sent", "statement": "Whatever a variable holds was given to it by the line that created it or by a message sent to it since: the value of a Boolean or Character, every character of a String, every element of a Vector or Set, every key and value of a Dictionary is the value of an argument of such a line (never of a line sent to another variable, or before a deletion). A container has at most as many elements as it got messages that can insert one; the number of variables plus the number of all their elements never exceeds the number of lines executed; names and texts in containers are shorter than one of the lines and a String is shorter than the lines that were sent to it together. This holds for all clients and interleavings.", "quantifier": "all histories of executed lines from an empty server, all variables, all sets of names, all schedules of a server", "why_tests_cant": "an invariant of histories of unbounded length over all messages; memory exhaustion by amplification (one line making many elements) cannot be excluded by examples", "anchors": ["src/instance.cpp:VectorInstance::receive", "src/instance.cpp:StringInstance::receive", "src/instance.cpp:SetInstance::op_add", "src/instance.cpp:DictionaryInstance::op_associateValue_withKey", "src/context.cpp:Context::execute_in_type", "src/context.cpp:Context::execute_in_context"]}
{"id": "C63", "title": "Clients that keep to their own variables do not notice the others", "statement": "Let a group of clients keep to a set of names (their own namespaces, say): they create, address, list and delete only variables with these names. Let the other clients do whatever they like except change these names or the number settings: they may use other variables, list everything, and even read the group's variables. Then the group gets exactly the answers, and leaves exactly the variables under its names, that it would get alone on a server that holds the same under its names and anything elsewhere. For a single client this holds under any two schedules with any other clients: the bytes it receives are the same.", "quantifier": "all sets of names, all groups of sessions, all histories and schedules, all pairs of server contents that agree on the names, all passwords", "why_tests_cant": "a non-interference property relating two executions, over all interleavings and all contents of the rest of the server", "anchors": ["src/context.cpp:Context::execute", "src/context.cpp:Context::execute_in_context", "src/context.cpp:Context::execute_in_type", "src/context.cpp:Context::execute_in_variable", "src/server.cpp:Session::do_read"]}
{"id": "C64", "title": "The example sessions of the documentation work, on any server and next to any other clients", "statement": "Each of the 143 example sessions of README.md that a client can follow is answered as documented (two misprints corrected, see Spec_Readme) by every server that runs with the default settings, whatever it holds and has done before, as long as the variables the session uses do not exist yet; whichever std::sort is used; and however the lines of other clients are interleaved with it, as long as these do not change the variables of the session or the number settings. Under any schedule in which the server gets its work done the client receives exactly the documented answers.", "quantifier": "all example sessions, all reachable server contents with the default settings where the names are free, all passwords, all sorts, all interleavings and schedules with other clients", "why_tests_cant": "a test runs the sessions one by one on an empty server; the claim is for all server contents, histories and schedules", "anchors": ["README.md", "src/context.cpp:Context::execute", "src/instance.cpp:StringInstance::receive", "src/server.cpp:Session::do_read"]}
{"id": "C65", "title": "The message reference of the documentation is the interface of the server", "statement": "The reference part of README.md describes 140 messages: the class they are sent to, the kinds of their arguments and the kind of their answer. For every statement sent to an existing variable, a type, Context or Connection: it is answered with 'invalid message' exactly if the documentation has no such message for that class; an answer that is not an error is of the documented kind (or null, where popBack, popFront and getValueForKey: find nothing); only arguments of the documented kinds are accepted; and arguments of the documented kinds are refused only for an index or count of a String or Vector, a setting that is not possible, a name in use or not in use, or a wrong password.", "quantifier": "all reachable server contents, all statements, all sessions, all sorts that honour the contract of std::sort", "why_tests_cant": "ranges over all messages, including every text that is no documented message, all arguments and all values the addressed variable may hold", "anchors": ["README.md", "src/instance.cpp:BooleanInstance::receive", "src/instance.cpp:VectorInstance::receive", "src/instance.cpp:DictionaryInstance::receive", "src/context.cpp:Context::execute", "src/server.cpp:Session::receive"]}
{"id": "C66", "title": "One relation specifies every statement and every server", "statement": "A single relation, written without the program (Spec_Whole), says what each statement answers and what it leaves: every message to a variable of every type, to a type, to Context and to Connection. A statement is answered without an error exactly if the relation gives it an effect; what happens is then an effect of the relation, and - except that a sorted vector of Floats may have equal elements in any order - the only one. Every schedule of a server that does not crash is, line by line, a history in which each line has its effect, or is refused for want of the password, or, having no effect, is answered with an error and changes nothing.", "quantifier": "all reachable server contents (including a negative tolerance, C50), all lines, all sessions, all schedules, all sorts that honour the contract of std::sort", "why_tests_cant": "joins the effect of every message on every value into one two-sided specification: also that nothing else ever succeeds", "anchors": ["src/context.cpp:Context::execute", "src/instance.cpp:VectorInstance::receive", "src/instance.cpp:StringInstance::receive", "src/instance.cpp:SetInstance::receive", "src/instance.cpp:DictionaryInstance::receive", "src/instance.cpp:IntegerInstance::receive", "src/server.cpp:Session::handle_read"]}
{"id": "C67", "title": "Which error is answered", "statement": "A refused statement is answered with one error, and which one is decided in a fixed order by what was sent: the name of no variable ('name cannot be resolved to a variable'), a message that the documentation does not have for that class ('invalid message'), a number of arguments that is not the documented one ('wrong number of arguments'), a name in use for create:, a name that is not in use for deleteVariable:, a wrong password, and 'invalid argument' for everything else. Together with the relation of C66, every statement that runs either has its effect or is answered with exactly this error and changes nothing.", "quantifier": "all reachable server contents, all sessions and passwords, all statements, all sorts that honour the contract of std::sort", "why_tests_cant": "There are over a hundred messages in twenty classes and every pair of a reachable state and a list of arguments can be refused for several reasons at once; tests try one reason at a time.", "anchors": ["src/instance.cpp: the receive function of every class", "src/context.cpp: Context::execute, receive", "src/server.cpp: authentication", "src/exceptions.h"]}
{"id": "C68", "title": "Time stamps of the log", "statement": "Every record of the log begins with [YYYY-MM-DD HH:MM:SS], the local date and time of the second it was written, in the Gregorian calendar (years 1970 to 9999). Every second has exactly one stamp of 21 characters, a stamp tells its second, and stamps compare as texts in the order of time, so while the clock is not set back and the offset of local time stays the same the log is sorted; across the end of daylight saving time it need not be (shown). The 32-byte buffer for the stamp suffices for every time the system can tell until the year 1.9e9. The text of a log therefore determines, besides the statements, the answers and the data, the second of every statement.", "quantifier": "all seconds of the years 1970-9999, all time-zone offsets, all histories and log texts", "why_tests_cant": "There are 2.5e11 seconds and calendar rules with periods of 400 years; injectivity and order range over all pairs.", "anchors": ["src/context.cpp: Context::execute (timestamp, strftime, localtime)"]}
{"id": "C69", "title": "Exactly which statements have undefined behaviour", "statement": "Undefined behaviour of a statement is completely described by the data and the statement: it reads, after literals that are accepted, an Integer (index, count, element, key, new value, precision) that does not fit 32 bits; compares an Integer with an integer literal that does not fit; does arithmetic on an Integer whose argument or exact (or IEEE, truncated) result does not fit or is a division by zero; sorts a vector of Floats that are not weakly ordered by the tolerance; or looks up a Float in a set or dictionary that the tolerance does not order. Every other statement runs: it has its effect (C66) or answers its error (C67), and the three cases exclude each other. A server goes down only while it processes such a line of an authenticated client or an answer that does not fit one send, and one such line brings it down.", "quantifier": "all reachable data, all sessions, all lines, all standard-conforming sorts, all schedules", "why_tests_cant": "Absence of undefined behaviour quantifies over all values and literals; a test of an undefined statement may happen to pass.", "anchors": ["src/instance.cpp: Integer::create, Integer::receive, Object::getSharedInstance, String::receive, Vector::receive, Set::receive, Dictionary::receive", "src/context.cpp: Context::setFloatPrecision, Context::execute", "src/server.cpp: Session::processMessage"]}
{"id": "C70", "title": "Clients can find out everything about the data, and nothing more", "statement": "Two servers hold the same data (the same names with the same types and values, the same precision and the same tolerance) if and only if no sequence of lines, however long, is answered differently by them. So nothing is hidden: the type of every variable, the element types of even empty containers, every bit of every Float and both settings can be found out by sending lines; and nothing else is visible: not the order of creation, not the history, not the log. With 45 decimal places the text of a value determines the value whatever its type, and the text of a list determines the list; 44 places do not suffice.", "quantifier": "all pairs of reachable data, all sequences of lines without newlines, all sessions, all standard-conforming sorts; all values and lists of 32-bit integers, single-precision numbers, characters, strings, booleans", "why_tests_cant": "Indistinguishability quantifies over all sequences of lines, and that the texts tell apart all 2^32 Floats and all strings and lists is not testable.", "anchors": ["src/context.cpp: Context::execute, Context::setFloatPrecision, Context::getFloatPrecision, Context::setFloatComparisonTolerance, Context::getFloatComparisonTolerance", "src/instance.cpp: representation of Boolean, Character, Integer, Float, String, Vector, Set, Dictionary; Dictionary::receive (keys, values)"]}
{"id": "C71", "title": "Standard output, log files and restarts", "statement": "A run that serves prints the version and the process number; then every executed statement becomes one time-stamped record, in the log file if one was asked for and could be opened, else on standard output unless the server is quiet. The log file is created if it does not exist (even when listening then fails) and only ever appended to; no other file changes; whatever was written up to any moment is still there after any continuation, however the run ends, and after any number of further runs. A restart begins with no variables whatever the file holds. What one run adds to the file determines its data, but the whole file does not once the server was restarted (refuted: restarts leave no trace). Once a client has authenticated, the file holds the password in clear text.", "quantifier": "all command lines, systems, files, process numbers, event schedules, record times and time zones; all sequences of runs; every moment of a run", "why_tests_cant": "Covers every schedule, every point at which the run may be cut off and every sequence of restarts, for all contents of the file system.", "anchors": ["src/knuckleball.cpp: main", "src/context.cpp: Context::Context, Context::execute", "src/server.cpp: Session::receive"]}
{"id": "C72", "title": "Linearizability", "statement": "For every schedule there is one history that explains everything: every line that has been answered is in it, with that answer; every line in it was sent completely; and a line whose answer its client already had precedes every line that any client had not completely sent by then. Hence a later line is answered as if it were executed right after the earlier one, if no other line concerns its variables. Of two lines that are both on their way, the one sent later may be executed first (refuted: first sent, first executed).", "quantifier": "all schedules of accepts, arrivals, reads, handlers, writes and failures of any number of clients; all reachable data; all pairs of lines of any two clients", "why_tests_cant": "The order is a property of every interleaving of any number of clients; tests see a few of them.", "anchors": ["src/server.cpp: Session::do_read, Session::do_write, Session::receive, Server::do_accept"]}
{"id": "C73", "title": "Undo and rollback", "statement": "For each pair of a table (set and set back, Integer add and subtract, multiplyBy and divideBy, String and Vector push and pop, insert and erase or popAtIndex, reverse twice, Set add of an absent element and remove, remove of a present one and add, Dictionary associate and removeKey or reassociate, create and deleteVariable, the settings and their old values): if the first statement succeeded, the second one succeeds too and leaves exactly the data of before. Any number of statements undone in the reverse order restore everything. Float add and subtract, Integer divide and multiply, and add and remove of a present element do not undo each other (refuted).", "quantifier": "all reachable data, all variables, values and arguments of the statements of the table; all sequences of such statements", "why_tests_cant": "Holds for every value and every length of the sequence; overflow, rounding and order of elements make the cases differ.", "anchors": ["src/instance.cpp: Integer, Float, String, Vector, Set, Dictionary messages", "src/context.cpp: Context::execute, settings, create, deleteVariable"]}
{"id": "C74", "title": "Every line is answered in the end", "statement": "In an unending run in which the server does not crash, and in which the network and the operating system keep serving a client (again and again bytes are read, its handlers run, its writes finish, no error), every complete line of this client is answered at some time, unless it or an earlier line closes the connection, whatever all other clients do; an answer once sent stays sent. If the client never takes its answers, further lines are never answered (refuted).", "quantifier": "all infinite schedules that are fair to this client, all behaviours of all other clients, all reachable data, all lines", "why_tests_cant": "Liveness under fairness is a property of infinite executions; no finite test can settle it.", "anchors": ["src/server.cpp: Session::start, Session::do_read, Session::do_write"]}
{"id": "C75", "title": "Answers fit together", "statement": "Answers to different messages to the same variable, while it is not changed in between, fit together, whichever clients send them: isEmpty? is true exactly if size or length is 0 and if popFront and popBack answer null; isTrue? and isFalse? are opposite; contains? is true exactly if count: is not 0 and if firstIndexOf: is not -1; firstIndexOf: is the first of allIndexesOf: and count: their number; searching from index 0 is searching; atIndex: answers what popAtIndex: and popFront then answer; slices and substrings from 0 are the whole or what first: answers; startsWith? and endsWith? agree with first: and last:; containsKey? is true exactly if getValueForKey: is not null. If one of such a pair is answered, so is the other.", "quantifier": "all reachable data, all variables of all types, all arguments, all pairs of the table, all pairs of clients", "why_tests_cant": "Must hold for every value, including elements that are equal only within the tolerance, and every argument; the two answers come from different code paths.", "anchors": ["src/instance.cpp: queries of String, Vector, Set, Dictionary, Boolean"]}
{"id": "C76", "title": "Every order can happen", "statement": "The converse of C35 and C72: take any sequence of lines of any clients with the answers that executing them one after the other gives (no line contains a newline, nothing follows a line that closes, answers are shorter than 65536 bytes). Then there is a schedule that does exactly this, without a crash, and in which every client sends everything before the first line is executed. So the histories that can happen are exactly these, and a client cannot rely on any order between its lines and those of others that has not been enforced by waiting for answers.", "quantifier": "all histories of any number of clients, all starting data, all passwords", "why_tests_cant": "An existence claim for every history: tests only see the orders the scheduler happens to choose.", "anchors": ["src/server.cpp: Session::start, Session::do_read, Session::do_write, Server::do_accept"]}
{"id": "C77", "title": "The password stays secret", "statement": "What a line does depends on the password only through whether the line sends it. A client that does not send the password gets the same answers whatever the password, the data and the other clients are: it learns only that its guesses are wrong. And if nobody sends the password, then everything that can be seen, that is data, answers, log and crashes, is the same as with any other password that nobody sends. (If somebody sends it, it is in the log: C71.)", "quantifier": "all lines, all pairs of passwords, all schedules of any number of clients, all starting data", "why_tests_cant": "A statement about pairs of executions with different secrets, for all of them.", "anchors": ["src/server.cpp: Session::receive, Session::do_read", "src/context.cpp: Context::execute"]}
{"id": "C78", "title": "Backup and restore", "statement": "Whatever data clients have made (with settings that clients could have made), there are lines that, sent to any server without variables, are all answered null and make the same data again. A server with the same data, whatever its log and its past, serves every schedule like the original: every client gets the same bytes and it fails at the same places. So a server restored from such a backup cannot be told from the original. Settings that clients can make stay such.", "quantifier": "all data reachable through the network, all empty servers, all schedules of any number of clients afterwards", "why_tests_cant": "Holds for all data and all later histories.", "anchors": ["src/context.cpp: Context::execute", "src/instance.cpp: all create and add messages", "src/server.cpp: Session, Server"]}
{"id": "C79", "title": "The precision setting is for display only", "statement": "Two servers with the same variables, values and tolerance but any two precision settings treat every line alike: the same effect on all values and on the session, the same error if there is one, the same undefined behaviour if there is some; the answers are equal too unless the line asks for a setting or is sent to a variable that contains floating-point numbers. Setting the precision changes no value. This holds for any number of lines.", "quantifier": "all pairs of reachable data that differ in the precision and the logs only, all lines and sequences of lines, all sessions", "why_tests_cant": "Holds for all data, lines and precisions.", "anchors": ["src/context.cpp: Context::setFloatPrecision, getFloatPrecision", "src/instance.cpp: representation(), all receive functions"]}
{"id": "C80", "title": "The tolerance of comparisons matters only where floating-point numbers are compared", "statement": "Two servers with the same variables, values and precision but any two comparison tolerances treat a line alike: the same answer, the same effect on all values and on the session, the same undefined behaviour if there is some; unless the line asks for the tolerance or makes a variable compare floating-point numbers: a comparison sent to a Float, a comparison of an Integer with something that is no integer literal, or a searching, counting, removing, replacing, sorting or key message to a container of Float or a dictionary with Float keys. So two servers that differ in the tolerance only, whose data and clients use no floating-point numbers that could be compared, do exactly the same on every schedule.", "quantifier": "all pairs of reachable data that differ in the tolerance and the logs only, all lines, all sessions; all schedules of clients that use no such numbers", "why_tests_cant": "Holds for all data, lines and tolerances.", "anchors": ["src/context.cpp: Context::setFloatComparisonTolerance, getFloatComparisonTolerance", "src/instance.cpp: all receive functions, comparisons"]}
{"id": "C81", "title": "Names do not matter", "statement": "If two servers have the same values under different names (any one-to-one renaming of variables, in namespaces or not; the second server may have more variables), then a line to one of them and the same line about the renamed variable to the other get the same answer, have the same undefined behaviour if there is some, and leave data that correspond again; for any number of lines. Only the messages to Context that list names or delete a namespace are excepted. Every other line has a renamed line.", "quantifier": "all renamings, all pairs of corresponding reachable data, all lines and sequences of lines, all sessions", "why_tests_cant": "Holds for all names, data and lines.", "anchors": ["src/context.cpp: Context::execute, executeInType, executeInVariable, deleteVariable", "src/instance.cpp: all create and receive functions"]}
{"id": "C82", "title": "Independent lines may be exchanged, and a shared set loses no element", "statement": "Two neighbouring lines of different clients that are independent of each other (they concern disjoint sets of names, or only read the same variable, or concern different elements of a set or both add or both remove elements, or concern different keys of a dictionary in the same manner, or both add to a counter) may be exchanged in any history: every line gets the same outcome, and the same data and sessions result. If all a shared set receives from its clients is add:, then after any history and under any schedule of threads it contains exactly its first elements and the added ones, so two servers that received the same additions in any order hold the same set.", "quantifier": "all pairs of lines, all reachable data, all histories of any length, all schedules of the threads, all clients", "why_tests_cant": "Tests exercise a few interleavings; the claim is about all histories and schedules.", "anchors": ["src/server.cpp: Server::dispatchConnection, m_mutex", "src/context.cpp: Context::execute", "src/instance.cpp: SetInstance::receive, DictionaryInstance::receive, IntInstance::receive"]}
{"id": "C83", "title": "A safe way to use the server", "statement": "If all clients are cautious (no numbers beyond 32 bits; add:, subtract:, multiplyBy: and divideBy: only to variables with names agreed on for things that are no Integers; either no vectors or sets of Float and no dictionaries with Float keys, or the tolerance is zero from the start and nobody sets it), then no line ever has undefined behaviour: each of them is answered, and on no schedule does anything stop the server, except an answer that the client does not take in time or that is too long. With counters, too: Integers to which integers are added and from which they are subtracted do not overflow on any schedule if all the amounts that all clients ever send fit 32 bits together with the first value.", "quantifier": "all agreements on names, all lines, all reachable tame data, all schedules, any number of clients and lines", "why_tests_cant": "Needs all histories and schedules; a test finds one crash, not their absence.", "anchors": ["src/instance.cpp: IntInstance::receive, StringInstance::receive, VectorInstance::receive, SetInstance::receive, DictionaryInstance::receive", "src/context.cpp: Context::execute", "src/server.cpp: Server::dispatchConnection"]}
{"id": "C84", "title": "Recovery from the log", "statement": "At every moment, be it after undefined behaviour has stopped the server: whatever any client was sent is the answer of a record in the log (or a refusal), and the log alone suffices to make the data again. On a server started with the same settings, whoever sends the recorded lines again, messages to Connection left out, is answered as the log says, and then the data are those the first server had, however its run ended.", "quantifier": "all schedules with any number of clients, cut off at any point or ended by undefined behaviour; all settings with which a log is kept; all sessions that may send everything", "why_tests_cant": "Crash points: a test stops the server at a few of them.", "anchors": ["src/context.cpp: Context::log, Context::execute", "src/server.cpp: Server::dispatchConnection"]}
{"id": "C85", "title": "It does not matter who sends a line", "statement": "The data know no clients. Clients may be numbered otherwise; and the lines of a history that are not messages to Connection, sent by any other clients that may send everything, have the same answers and leave the same data and the same log. In particular, everything that any number of concurrent clients did on a server without password could have been done by one client alone, on some schedule, with the same answers, data and log.", "quantifier": "all histories of any number of clients, all injective renumberings, all assignments of the lines to clients, all schedules", "why_tests_cant": "Ranges over all assignments of lines to clients and all schedules.", "anchors": ["src/server.cpp: Server::dispatchConnection", "src/context.cpp: Context::execute"]}
{"id": "C86", "title": "The last writer wins", "statement": "Shared dictionaries and shared variables are registers. After any history of any number of clients, a key (not a floating-point number) of a dictionary that is not deleted meanwhile is associated with the value that the last executed write of this key gave it (associateValue:withKey:, removeKey: or clear), and with what it had at the beginning if nobody wrote it; a variable that was changed by set: only holds the value of the last executed set:. What a client reads is that value.", "quantifier": "all schedules and histories of any number of clients, all dictionaries, keys and variables", "why_tests_cant": "Ranges over all histories and schedules.", "anchors": ["src/instance.cpp: Dictionary::associateValueWithKey, Dictionary::removeKey, Dictionary::clear, Dictionary::getValueForKey, Object::set", "src/server.cpp: Server::dispatchConnection"]}
{"id": "C87", "title": "How long answers can be", "statement": "No answer of a variable is longer than its answer to get or the longest error (52 bytes), except allIndexesOf:, which is answered with at most one index for every element; and no listing is longer than that of listVariables. So an answer as long as one that cannot be delivered (C40) comes from a variable whose get is as long, from allIndexesOf: on a vector with many elements, from a server whose variables' names are together as long, or from a question about the settings.", "quantifier": "all reachable states, all variables and all statements", "why_tests_cant": "Ranges over all states and all messages with all their arguments.", "anchors": ["src/instance.cpp: all representations and readers", "src/context.cpp: Context::listVariables, Context::listNamespaces, Context::listVariablesOfNamespace"]}
{"id": "C88", "title": "The server is exactly what the specification says", "statement": "The specification, which does not mention the program, says exactly what can happen: what becomes of every line - it is refused, has an effect, is answered with one certain error, or has undefined behaviour - and nothing else; whatever it describes happens. So the histories of clients that the server can have are exactly the described ones, with the same answers, sessions and data; only the order of equal numbers after sorting a Vector<Float> is left open.", "quantifier": "all reachable data, sessions, lines, histories of any number of clients and schedules", "why_tests_cant": "Both inclusions range over all histories; tests show single histories only.", "anchors": ["src/server.cpp: Server::dispatchConnection, Server::handleRequest", "src/context.cpp: Context::execute", "src/parser.cpp: Parser::parse"]}
{"id": "C89", "title": "A server that does not fail", "statement": "What get answers is bounded by what a variable holds: 5, 3 and 11 bytes for Boolean, Character and Integer, 41 and the decimal places for Float, two bytes for every byte of a String, and the sum for containers. On small data - get and listVariables below 65536 bytes, no vector with more than 10922 elements, at most 65000 decimal places - every answer has less than 65536 bytes. Hence a server whose clients are cautious (C83), whose data stay small, and whose operating system takes such answers at once never fails. In particular a freshly started server never fails on few short lines: L lines of at most m bytes in all, p decimal places, 3 + L(90 + 2p + 4m) <= 65536; for instance 131 lines of 100 bytes.", "quantifier": "all reachable states and statements; all schedules of any number of clients that keep to the rules", "why_tests_cant": "Absence of failure on every schedule.", "anchors": ["src/instance.cpp: all representations", "src/server.cpp: Server::handleRequest", "src/context.cpp: Context::execute"]}
{"id": "C90", "title": "Handing data over with a flag", "statement": "A client that sets a variable and then a Boolean to true hands the value over: on every schedule, a client whose get of the Boolean was answered true is answered the new value by every later get of the variable, provided that only the first client changes the two and changes them only with set:. (Reading a value and sending back a changed one, on the other hand, can lose changes; C59 says that add: cannot.)", "quantifier": "all schedules of any number of clients, all values and types, all other lines of the clients", "why_tests_cant": "Visibility of one client's changes to others in the order in which it made them, on every schedule.", "anchors": ["src/server.cpp: Server::dispatchConnection, Server::handleRequest", "src/context.cpp: Context::execute", "src/instance.cpp: set:, get"]}
{"id": "C91", "title": "What a lock protects", "statement": "Clients that use a variable name as a lock (C60: whoever creates it has it, deleting it gives it back) and, as far as each of them can tell from its own answers, give it back only if they have it and change a variable only while they have it, are never two at a time in their critical sections; while one is inside, nobody else does anything that changes the variable, so that what it read stays there until it changes it itself. So reading a number, computing and writing the result back loses no change under the lock.", "quantifier": "all histories and schedules of any number of clients that keep to the rules, everything else they send, all lock and variable names", "why_tests_cant": "Absence of interference on every schedule; without the lock it fails (C90).", "anchors": ["src/context.cpp: Context::execute, Context::createVariable", "src/server.cpp: Server::dispatchConnection, Server::handleRequest", "src/instance.cpp: get, set:"]}
{"id": "C92", "title": "A counter is a barrier", "statement": "Clients can wait for each other with an Integer that begins at 0: if each of a group of clients adds 1 to it exactly once, after whatever it has to do first, and nobody else changes it, then a client that reads the size of the group from it knows that every one of them has arrived: all that each of them sent before arriving has been executed already, and so has its arrival.", "quantifier": "all groups of clients (up to the greatest Integer), all that they send before and after arriving, all other clients, all histories and schedules", "why_tests_cant": "What the answer 3 tells about everybody else must hold for every interleaving of all the clients.", "anchors": ["src/instance.cpp: Integer add:, get", "src/server.cpp: Server::dispatchConnection, Server::handleRequest", "src/context.cpp: Context::execute"]}
{"id": "C93", "title": "Sizes fit into an int", "statement": "Every size that occurs in a server that began empty (of a line, of a name, of a stored string, the number of elements of a container, the number of variables) is at most the number of bytes that all its clients sent together. So until 2147483648 bytes were sent, the conversions int(size()) all over the program change no size, and size, indexes and loops are exact.", "quantifier": "all schedules of any number of clients, all data a server can have come to hold", "why_tests_cant": "No test sends 2 GiB in all possible ways; that no message doubles data must hold for all of them.", "anchors": ["src/instance.cpp: int(_value.size())", "src/str_utils.cpp, src/grammar.cpp, src/parser.cpp: int(str.size())"]}
{"id": "C94", "title": "A vector is a log that readers can follow", "statement": "If all that is done to a Vector, by any number of clients, is pushBack:, then what was read of it stays as it was: it holds what it held and after that everything added since, in the order of execution (arguments that are not of its type add nothing). A reader that was answered the size k, and later asks for sliceFromIndex: k, gets exactly the values that were added in between, so a reader that goes on where it stopped misses nothing and reads nothing twice.", "quantifier": "all vectors of all types in all reachable states, all histories and schedules of any number of writers and readers", "why_tests_cant": "Ranges over all interleavings of writers with the two requests of a reader.", "anchors": ["src/instance.cpp: VectorInstance::op_pushBack, VectorInstance::op_size, VectorInstance::op_sliceFromIndex", "src/server.cpp: Server::dispatchConnection"]}
{"id": "C95", "title": "Readers do not see growing data shrink", "statement": "If all that is done to an Integer is adding numbers that are not negative, then of two readings, by any clients, the one executed later is not the smaller one (sums that do not fit are undefined, C10 and C69, and end the history). If nothing is removed from a Set of values other than Float, then what contains? once answered with true it answers with true from then on, however the value is written.", "quantifier": "all histories and schedules of any number of writers and readers, all reachable states", "why_tests_cant": "Ranges over all interleavings of writers and readers and all numbers up to the limits of Integer.", "anchors": ["src/instance.cpp: IntegerInstance::op_add, IntegerInstance::op_get, SetInstance::op_contains, SetInstance::op_add", "src/server.cpp: Server::dispatchConnection"]}
