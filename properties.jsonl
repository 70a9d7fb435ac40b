{"id": "C01", "title": "CharClass edits have exact set semantics", "statement": "After any sequence of add_char, add_range, add_class, subtract_char, subtract_range, subtract_class and negate calls on any number of CharClass objects, test(c) on each object is True for exactly the characters in the set obtained by doing the corresponding set union/difference/complement operations in the same order; no edit raises. (Subtracting from a class that shares storage with a copy is the subject of C04, subtracting a class from itself of C41.)", "quantifier": "every finite edit history over all characters 0..maxunicode, every character tested", "why_tests_cant": "unbounded edit histories over 1.1M characters; boundary merges/splits depend on the whole prior history", "anchors": ["pyslet/unicode5.py:CharClass.add_range", "pyslet/unicode5.py:CharClass.subtract_range", "pyslet/unicode5.py:CharClass.add_char", "pyslet/unicode5.py:CharClass.subtract_char", "pyslet/unicode5.py:CharClass.negate", "pyslet/unicode5.py:CharClass._merge", "pyslet/unicode5.py:CharClass._bisection_search"]}
{"id": "C02", "title": "CharClass equality is extensional", "statement": "Two CharClass objects reached by any two edit histories compare equal with == if and only if they contain the same characters.", "quantifier": "every pair of edit histories", "why_tests_cant": "requires a canonical-form invariant (sorted, disjoint, non-adjacent ranges) across all histories", "anchors": ["pyslet/unicode5.py:CharClass.__eq__", "pyslet/unicode5.py:CharClass._merge"]}
{"id": "C03", "title": "CharClass test cache is coherent", "statement": "test(c), which uses a 256-character block cache, always returns what the uncached search test_slow(c) returns, whatever tests and edits preceded it.", "quantifier": "every interleaving of tests and edits, every character (including those above 0xFFFF)", "why_tests_cant": "stale-cache bugs need a specific test/edit/test history", "anchors": ["pyslet/unicode5.py:CharClass.test", "pyslet/unicode5.py:CharClass._clear_cache", "pyslet/unicode5.py:CharClass.test_slow"]}
{"id": "C04", "title": "A copied CharClass is independent of the original", "statement": "Editing a class built by passing another CharClass to the constructor (the documented way to copy a shared class) never changes which characters the original contains.", "quantifier": "every original class and every edit of the copy", "why_tests_cant": "aliasing: only specific edits of the copy (those that trim a range in place) expose it", "anchors": ["pyslet/unicode5.py:CharClass.__init__", "pyslet/unicode5.py:CharClass.add_class", "pyslet/unicode5.py:CharClass.subtract_char", "pyslet/unicode5.py:CharClass.subtract_range"]}
{"id": "C05", "title": "str(CharClass) is a regular expression for the class", "statement": "The string form of a CharClass, read as a Python regular expression, matches a one-character string c exactly when the class contains c.", "quantifier": "every reachable class and every character", "why_tests_cant": "needs every escaping combination of ranges, carets, hyphens, brackets and backslashes", "anchors": ["pyslet/unicode5.py:CharClass.__unicode__", "pyslet/unicode5.py:CharClass._set_escape", "pyslet/unicode5.py:CharClass._re_escape", "pyslet/unicode5.py:CharClass.format_re"]}
{"id": "C06", "title": "detect_encoding recognises every encoded text", "statement": "detect_encoding on the bytes of a text in UTF-8/UTF-16/UTF-32 (with byte order mark, or BOM-less starting with ASCII) returns an encoding that decodes it; it never misclassifies.", "quantifier": "every text and every supported encoding", "why_tests_cant": "all possible texts", "anchors": ["pyslet/unicode5.py:detect_encoding", "pyslet/unicode5.py:MAGIC_TABLE"]}
{"id": "C07", "title": "BasicParser lookahead never moves the parser on failure", "statement": "match*, parse, parse_insensitive, parse_one, parse_digit(s), parse_integer, parse_hex_digits and parse_production leave the parser position unchanged when they return None/False, advance it by exactly the length of the text they return otherwise, and the current character is always the character at the position (None outside the source).", "quantifier": "every source string, position, argument and call sequence", "why_tests_cant": "universally quantified over sources and call sequences", "anchors": ["pyslet/unicode5.py:BasicParser.parse", "pyslet/unicode5.py:BasicParser.parse_one", "pyslet/unicode5.py:BasicParser.parse_digits", "pyslet/unicode5.py:BasicParser.setpos", "pyslet/unicode5.py:ParserMixin.parse_production"]}
{"id": "C08", "title": "BasicParser numeric productions are exact and maximal", "statement": "parse_digits(min,max) returns the longest run of ASCII digits capped at max, or None when shorter than min; parse_integer returns the decimal value of that run exactly when it lies in [min,max].", "quantifier": "every source, position, min, max, max_digits", "why_tests_cant": "unbounded digit strings", "anchors": ["pyslet/unicode5.py:BasicParser.parse_digits", "pyslet/unicode5.py:BasicParser.parse_integer", "pyslet/unicode5.py:BasicParser.parse_hex_digits"]}
{"id": "C09", "title": "parser_error reports the most advanced error", "statement": "When called without a production, parser_error re-raises the furthest error so far and leaves the parser at that error's position.", "quantifier": "every sequence of recorded errors and positions", "why_tests_cant": "depends on history of failed alternatives", "anchors": ["pyslet/unicode5.py:BasicParser.parser_error"]}
{"id": "C10", "title": "URI escaping round-trips every byte string", "statement": "unescape_data(escape_data(b, r, a)) == b for every byte string b and every pair of test functions that leaves '%' escaped, and the escaped text contains only allowed unreserved characters and upper-case %XX triplets.", "quantifier": "every byte string, every reserved/allowed test", "why_tests_cant": "all byte strings", "anchors": ["pyslet/rfc2396.py:escape_data", "pyslet/rfc2396.py:unescape_data"]}
{"id": "C100", "title": "Values reach the database only as parameters", "statement": "The SQL text made of a $filter depends on the filter's operators and property names only, never on a literal's value; the parameters are the values in the order in which they are used, and every parameter style gives the same statement once its driver has put them in.", "quantifier": "every $filter expression tree over any property names and literal values, every parameter style", "why_tests_cant": "every literal value, including quotes, placeholders and percent signs, at any depth", "anchors": ["pyslet/odata2/sqlds.py: SQLOperatorPrecedence, SQLParams, QMarkParams, FormatParams, PyFormatParams, NumericParams, NamedParams, SQLCollectionBase.sql_expression, sql_bracket, sql_expression_* , where_clause, SQLiteEntityCollectionBase.sql_expression_*"]}
{"id": "C101", "title": "SQL and the in-memory evaluator select the same entities", "statement": "An entity satisfies the WHERE clause of a $filter in the database exactly if the library's own evaluator of the filter returns true for it.", "quantifier": "every filter, every entity without null values", "why_tests_cant": "unbounded filters and data; two independent evaluators", "anchors": ["pyslet/odata2/sqlds.py: SQLOperatorPrecedence, SQLParams, QMarkParams, FormatParams, PyFormatParams, NumericParams, NamedParams, SQLCollectionBase.sql_expression, sql_bracket, sql_expression_* , where_clause, SQLiteEntityCollectionBase.sql_expression_*", "pyslet/odata2/core.py: BinaryExpression.evaluate, CallExpression.evaluate, EntityCollection.check_filter"]}
{"id": "C102", "title": "A connection belongs to one thread and one target", "statement": "A connection of the HTTP client is processed by at most one thread at a time and by none while it is idle; a request is put on a connection to its own target and finished by the thread that queued it.", "quantifier": "every number of threads, targets and connections, every interleaving of the calls, time-outs and clean-ups at any moment", "why_tests_cant": "unbounded schedules of threads", "anchors": ["pyslet/http/client.py: Client.queue_request, _activate_connection, _deactivate_connection, _upgrade_connection, _delete_idle_connection, _new_connection, thread_task, idle_cleanup, active_cleanup, close, active_count, Connection.connection_task, switch_protocols, kill"]}
{"id": "C103", "title": "The HTTP client keeps to max_connections", "statement": "There are never more than max_connections connections that are idle or have a thread that processes them.", "quantifier": "every number of threads, targets and connections, every interleaving of the calls, time-outs and clean-ups at any moment", "why_tests_cant": "unbounded schedules of threads", "anchors": ["pyslet/http/client.py: Client.queue_request, _activate_connection, _deactivate_connection, _upgrade_connection, _delete_idle_connection, _new_connection, thread_task, idle_cleanup, active_cleanup, close, active_count, Connection.connection_task, switch_protocols, kill"]}
{"id": "C104", "title": "queue_request waits only while there is no room", "statement": "A thread waits in queue_request only while max_connections connections are active; when one becomes free a waiting thread is woken.", "quantifier": "every number of threads, targets and connections, every interleaving of the calls, time-outs and clean-ups at any moment", "why_tests_cant": "unbounded schedules of threads", "anchors": ["pyslet/http/client.py: Client.queue_request, _activate_connection, _deactivate_connection, _upgrade_connection, _delete_idle_connection, _new_connection, thread_task, idle_cleanup, active_cleanup, close, active_count, Connection.connection_task, switch_protocols, kill"]}
{"id": "C105", "title": "thread_loop ends only when all requests are finished", "statement": "When a thread has no active connection left (thread_task returns False), each request it queued has been finished as often as it was queued; a request is never finished more often than it was queued.", "quantifier": "every number of threads, targets and connections, every interleaving of the calls, time-outs and clean-ups at any moment", "why_tests_cant": "unbounded schedules of threads", "anchors": ["pyslet/http/client.py: Client.queue_request, _activate_connection, _deactivate_connection, _upgrade_connection, _delete_idle_connection, _new_connection, thread_task, idle_cleanup, active_cleanup, close, active_count, Connection.connection_task, switch_protocols, kill"]}
{"id": "C106", "title": "After close() there are no connections", "statement": "Once Client.close() has returned no connection is opened and no request accepted.", "quantifier": "every number of threads, targets and connections, every interleaving of the calls, time-outs and clean-ups at any moment", "why_tests_cant": "unbounded schedules of threads", "anchors": ["pyslet/http/client.py: Client.queue_request, _activate_connection, _deactivate_connection, _upgrade_connection, _delete_idle_connection, _new_connection, thread_task, idle_cleanup, active_cleanup, close, active_count, Connection.connection_task, switch_protocols, kill"]}
{"id": "C107", "title": "A killed connection is not used again", "statement": "A connection that active_cleanup has killed gets no further request, and active_cleanup itself does not fail.", "quantifier": "every number of threads, targets and connections, every interleaving of the calls, time-outs and clean-ups at any moment", "why_tests_cant": "unbounded schedules of threads", "anchors": ["pyslet/http/client.py: Client.queue_request, _activate_connection, _deactivate_connection, _upgrade_connection, _delete_idle_connection, _new_connection, thread_task, idle_cleanup, active_cleanup, close, active_count, Connection.connection_task, switch_protocols, kill"]}
{"id": "C108", "title": "The body of a WSGI request can be read as a file", "statement": "A WSGIInputWrapper of an input stream that gives the bytes c, with CONTENT_LENGTH L (or none), behaves as a file with the first L bytes of c (all of c): read(n) gives a start of what is left, no longer than n, and nothing only at the end; read() and readall() give all that is left; readline(limit) gives the bytes to the first LF, or the limit, or the end; tell() is the number of bytes before the position; seek() goes back and forth within the first seek_size bytes as long as nothing beyond them was read, and otherwise raises IOError.", "quantifier": "every input stream, however few bytes it gives at each request; every content, CONTENT_LENGTH and seek_size; every sequence of operations", "why_tests_cant": "the ways in which the stream may split its data, the content and the sequences of operations are unbounded", "anchors": ["pyslet/http/messages.py: WSGIInputWrapper", "pyslet/http/messages.py: WSGIInputWrapper.read", "pyslet/http/messages.py: WSGIInputWrapper.seek", "pyslet/http/messages.py: WSGIInputWrapper.readline"]}
{"id": "C109", "title": "Reading a request body never waits for more than the body", "statement": "With a CONTENT_LENGTH of n, no operation of the wrapper makes the input stream give more than n bytes in all: on a connection that stays open after the n bytes of the body nothing blocks, and bytes of the next request are not consumed. A body sent with the chunked coding is read up to its last chunk, whatever its chunks, extensions and trailer.", "quantifier": "every connection, content and sequence of operations; every correct chunked encoding", "why_tests_cant": "one over-long request in one of unboundedly many orders of reads, lines and seeks is enough to block the server", "anchors": ["pyslet/http/messages.py: WSGIInputWrapper", "pyslet/http/messages.py: WSGIInputWrapper.read", "pyslet/http/messages.py: WSGIInputWrapper.seek", "pyslet/http/messages.py: WSGIInputWrapper.readline", "pyslet/http/messages.py: ChunkedReader"]}
{"id": "C11", "title": "canonicalize_data is idempotent and preserves the octets", "statement": "For well-formed URI data canonicalize_data is idempotent, the canonical text decodes to the same octets, and two texts that differ only in the case of escapes or in escaping unreserved characters have the same canonical form.", "quantifier": "every well-formed URI text", "why_tests_cant": "all texts", "anchors": ["pyslet/rfc2396.py:canonicalize_data"]}
{"id": "C110", "title": "The lines of a request body can be iterated", "statement": "Iterating over a wrapper, or calling readlines(), gives the lines of the body in order, and ends at its end (or when the lines given are longer than hint); readinto(b) fills b with what read(len(b)) would give.", "quantifier": "every input stream, content, position and hint", "why_tests_cant": "termination is for every content", "anchors": ["pyslet/http/messages.py: WSGIInputWrapper.__iter__", "pyslet/http/messages.py: WSGIInputWrapper.readlines", "pyslet/http/messages.py: WSGIInputWrapper.readinto"]}
{"id": "C111", "title": "A seek forward in a request body skips the bytes it says", "statement": "seek() to a position beyond the bytes that are kept reads and discards up to that position: the next read gives the bytes of the body from there on, and none if the position is beyond the end of the body.", "quantifier": "every input stream, content and position", "why_tests_cant": "it depends on how the stream splits its data and on the distance", "anchors": ["pyslet/http/messages.py: WSGIInputWrapper.seek"]}
{"id": "C112", "title": "Basic credentials are sent as RFC 2617 says, and can be read back", "statement": "The text of BasicCredentials with a userid and password of ISO-8859-1 characters is 'Basic ' and the base64 of userid:password; Credentials.from_str of that text gives credentials with the same userid and password.", "quantifier": "every userid without a colon and every password of ISO-8859-1 characters", "why_tests_cant": "strings of any length, in every residue of their length modulo 3", "anchors": ["pyslet/http/auth.py: BasicCredentials.to_bytes", "pyslet/http/auth.py: BasicCredentials.set_basic_credentials", "pyslet/http/auth.py: Credentials.from_str"]}
{"id": "C113", "title": "Paths in the protection space of Basic credentials", "statement": "After the credentials were good for some paths (add_success_path, in any order), test_path is true of exactly the paths at or below the folder of one of them.", "quantifier": "every sequence of paths and every path tested", "why_tests_cant": "unboundedly many paths, in every order, whose prefixes absorb one another", "anchors": ["pyslet/http/auth.py: BasicCredentials.add_success_path", "pyslet/http/auth.py: BasicCredentials.test_path", "pyslet/http/auth.py: BasicCredentials.is_prefix"]}
{"id": "C114", "title": "Credentials only go to the server that they are for", "statement": "Whatever servers answer (challenges, redirections), the Authorization header made of credentials is sent only in requests to the canonical root those credentials are for; a request that no challenge was received for has such a header exactly if the credentials were good before at a path whose folder its path is in; otherwise there is no Authorization header.", "quantifier": "every set of credentials and every interleaving of requests and answers", "why_tests_cant": "histories of any length, with hostile servers among them", "anchors": ["pyslet/http/client.py: ClientRequest.send_header", "pyslet/http/client.py: ClientRequest.resend", "pyslet/http/client.py: ClientRequest.finished", "pyslet/http/client.py: Client.find_credentials_by_url"]}
{"id": "C115", "title": "Removing credentials removes just those", "statement": "Client.remove_credentials takes the given credentials from the client's list, leaves the others in order, and does nothing if they are not in it.", "quantifier": "every list of different credentials", "why_tests_cant": "lists of any length and every place in them", "anchors": ["pyslet/http/client.py: Client.remove_credentials"]}
{"id": "C116", "title": "Retries after 401 come to an end", "statement": "A request that is answered with 401 again and again is tried again at most once with each of the credentials of the client; redirections are followed a limited number of times; no challenge makes the client raise an exception.", "quantifier": "every sequence of answers, with other requests in between", "why_tests_cant": "termination for every server", "anchors": ["pyslet/http/client.py: ClientRequest.finished", "pyslet/http/client.py: Client.find_credentials", "pyslet/http/auth.py: Credentials.match_challenge", "pyslet/http/auth.py: BasicCredentials.match"]}
{"id": "C117", "title": "Test forms obey selection and ordering rules", "statement": "TestForm.select of a section chooses as many children as its selection says, every required one among them, none twice unless withReplacement is set; without shuffling they are in the order of the section; with shuffling, fixed children keep their places among the others, and an invisible section that need not be kept together is mixed with the rest; SelectionError is raised only if no choice obeys the rules. Every form that the rules allow can come up.", "quantifier": "every tree of sections and items, every outcome of the random choices", "why_tests_cant": "the outcomes are random and the trees unbounded", "anchors": ["pyslet/qtiv2/tests.py: TestForm.select", "pyslet/qtiv2/tests.py: TestForm.__init__"]}
{"id": "C118", "title": "A test form has the structure of its test", "statement": "A TestForm begins with the empty component and has, for each test part in order, its identifier, its sections with theirs, and their closing identifiers; openings and closings match, and every component is an identifier.", "quantifier": "every test and every outcome of the random choices", "why_tests_cant": "nesting is unbounded, outcomes random", "anchors": ["pyslet/qtiv2/tests.py: TestForm.select", "pyslet/qtiv2/tests.py: TestForm.__init__"]}
{"id": "C119", "title": "A test session puts each question at most once, in order, and ends", "statement": "Choosing the next question always ends. The questions of a session are items of its form in linear mode whose preconditions hold at the time, at strictly increasing places, so each is put at most once and a session has at most as many as the form is long; a finished session stays finished.", "quantifier": "every form, every sequence of events, every value that expressions have at the time", "why_tests_cant": "forms, rules and values of expressions are unbounded", "anchors": ["pyslet/qtiv2/variables.py: TestSessionState._next_question", "pyslet/qtiv2/variables.py: TestSessionState._branch_target", "pyslet/qtiv2/tests.py: TestPart.get_branch_target, SectionPart.get_branch_target, check_pre_conditions"]}
{"id": "C12", "title": "parse_uric returns the maximal URI prefix", "statement": "The n returned by parse_uric is such that the first n characters are allowed characters or complete %HH escapes and no longer prefix has this property.", "quantifier": "every source string, start position and allowed test", "why_tests_cant": "all strings", "anchors": ["pyslet/rfc2396.py:parse_uric"]}
{"id": "C120", "title": "Preconditions and branch rules choose the next question", "statement": "The next question is the first item after the current one that is not passed over by a precondition (its own, its section's or its test part's) or a branch rule. The first branch rule that is true decides: a target goes to its next occurrence in the form, EXIT_TEST to the end, EXIT_TESTPART behind the end of the test part, EXIT_SECTION behind the end of the section.", "quantifier": "every form and every value of expressions", "why_tests_cant": "forms and rules are unbounded", "anchors": ["pyslet/qtiv2/variables.py: TestSessionState._next_question", "pyslet/qtiv2/variables.py: TestSessionState._branch_target", "pyslet/qtiv2/tests.py: TestPart.get_branch_target, SectionPart.get_branch_target, check_pre_conditions"]}
{"id": "C121", "title": "Durations are counted for what the question is in", "statement": "An event adds the elapsed time exactly once to the duration of the test, of the current question, and of every section and test part around it, and to nothing else; nothing when the test is finished. Over a session each duration is the sum of the times of the events it was open at.", "quantifier": "every well-nested form, every question, every history of events", "why_tests_cant": "nesting and histories are unbounded", "anchors": ["pyslet/qtiv2/variables.py: TestSessionState.add_duration"]}
{"id": "C122", "title": "A session key is good for one event", "statement": "An event must give the current key, which always works; it then makes a new one, and the old key gives SessionKeyExpired ever after. What never was a key of the session gives SessionKeyMismatch. Refused events change nothing.", "quantifier": "every history of events and every clock", "why_tests_cant": "histories are unbounded", "anchors": ["pyslet/qtiv2/variables.py: TestSessionState.event_update"]}
{"id": "C123", "title": "Truth values in QTI follow three-valued logic", "statement": "and, or, not and anyN give true or false exactly when that is the result whatever truth values stand in the place of the NULLs, and NULL otherwise. Sub-expressions that are not single truth values give ProcessingError.", "quantifier": "every list of sub-expressions of any length, each true, false or NULL, and every pair of bounds", "why_tests_cant": "lists are unbounded and NULLs range over all fillings", "anchors": ["pyslet/qtiv2/expressions.py: And, Or, Not, AnyN", "pyslet/qtiv2/variables.py: check_base_types, check_cardinalities"]}
{"id": "C124", "title": "Containers, membership and matching in QTI", "statement": "multiple keeps every member as many times as it is there, ordered keeps the order; size counts members, index is one-based, member says whether a value is in a container, delete takes out all of a value, contains looks for a contiguous run (ordered) or a sub-bag (multiple), match is equality (of bags for multiple) and symmetric. Mixed base types, mixed cardinalities and durations are refused, NULL gives NULL. substring and stringMatch look for strings.", "quantifier": "all well-formed values of any size and base type", "why_tests_cant": "containers are unbounded", "anchors": ["pyslet/qtiv2/expressions.py: Multiple, Ordered, ContainerSize, Index, Member, Delete, Contains, SubString, Match, StringMatch", "pyslet/qtiv2/variables.py: Value.__eq__, MultipleContainer, OrderedContainer"]}
{"id": "C125", "title": "Whole numbers in QTI expressions", "statement": "sum, product, subtract give the number, NULL if an operand is NULL, ValueError if it does not fit in 32 bits; integerDivide and integerModulus give q and r with x = q*y + r rounding down, NULL for a zero divisor; lt, gt, lte, gte compare and are NULL if an operand is. Sub-expressions that are not numbers give ProcessingError.", "quantifier": "all lists of whole numbers and NULLs", "why_tests_cant": "numbers and lists are unbounded", "anchors": ["pyslet/qtiv2/expressions.py: Sum, Product, Subtract, IntegerDivide, IntegerModulus, LT, GT, LTE, GTE", "pyslet/qtiv2/variables.py: check_numerical_types, IntegerValue"]}
{"id": "C126", "title": "QTI expressions are type safe", "statement": "If the variables and constants of an expression are well-formed values, evaluating it either gives a well-formed value (its representation is what cardinality and base type say, containers are not empty, frequencies positive and keys distinct) or raises ProcessingError, ValueError or TypeError.", "quantifier": "every expression tree of the modelled operators, of any depth", "why_tests_cant": "expressions are unbounded", "anchors": ["pyslet/qtiv2/expressions.py: evaluate of the operators", "pyslet/qtiv2/variables.py: Value.new_value, Container"]}
{"id": "C127", "title": "Mappings and lookup tables", "statement": "A mapping gives the sum of what the distinct values of a container map to (the last entry for a value, or the default), whatever their order, kept within the bounds, and NULL for NULL. A match table gives the first entry with that number or the default, an interpolation table the first entry whose source value is less (or equal if it includes the boundary).", "quantifier": "every mapping, table and well-formed value", "why_tests_cant": "tables and containers are unbounded", "anchors": ["pyslet/qtiv2/variables.py: Mapping.map_value, MatchTable.lookup, InterpolationTable.lookup"]}
{"id": "C128", "title": "QTI rules are followed as the specification says", "statement": "Response and template processing run rules in order; a condition stands for the rules of its first part that is true (earlier parts false), or else of the else part; exit rules end everything, from any depth. A part is true exactly if its expression gives the truth value true; NULL counts as false; anything else is an error that is not swallowed.", "quantifier": "every list of rules nested to any depth, every item and session, all expressions", "why_tests_cant": "rules nest without bound and expressions are arbitrary functions of the session", "anchors": ["pyslet/qtiv2/processing.py: ResponseProcessing.run, ResponseCondition, ResponseIf, ResponseElseIf, ResponseElse, ExitResponse, TemplateProcessing.run, TemplateCondition, TemplateIf, TemplateElseIf, TemplateElse, ExitTemplate"]}
{"id": "C129", "title": "QTI rules change only what they may, and keep types", "statement": "Setting a variable copies the value, keeps cardinality and base type of the variable, and is refused (KeyError, ValueError, ProcessingError) if there is no such variable or types differ. Response rules change only outcome variables and completionStatus, template rules only template variables, defaults and correct responses. Well-formed sessions stay well-formed; expressions that look up variables, defaults and correct responses in them are type safe.", "quantifier": "every list of rules, item, session, value and expression tree", "why_tests_cant": "rules, sessions and expressions are unbounded", "anchors": ["pyslet/qtiv2/processing.py: SetOutcomeValue, SetTemplateValue, SetCorrectResponse, SetDefaultValue", "pyslet/qtiv2/variables.py: SessionState.__setitem__, is_response, is_outcome, is_template, set_value", "pyslet/qtiv2/expressions.py: Variable, Default, Correct"]}
{"id": "C13", "title": "URI components recompose to the original text", "statement": "For every string accepted by URI, joining scheme, authority, path, query and fragment with their delimiters (or the opaque part) gives back exactly the original string, and str() returns it.", "quantifier": "every accepted string", "why_tests_cant": "state-machine parser over all strings", "anchors": ["pyslet/rfc2396.py:URI.__init__", "pyslet/rfc2396.py:URI.parse_scheme_specific_part", "pyslet/rfc2396.py:URI._parse_relative_uri", "pyslet/rfc2396.py:_parse_scheme"]}
{"id": "C130", "title": "QTI item sessions: creation, attempts and scoring", "statement": "A new session has exactly the variables of its item, with the values declared. Over every history of attempts and submissions numAttempts is the number of attempts begun, and template variables, defaults and correct responses stay as they were. The first attempt gives responses their defaults, later ones only count. Submitting changes only responses that are given and outcomes; the outcomes of a non-adaptive item do not depend on earlier outcomes.", "quantifier": "every item, session and history of any length, all expressions in its rules", "why_tests_cant": "histories are unbounded and rules arbitrary", "anchors": ["pyslet/qtiv2/variables.py: ItemSessionState.__init__, select_clone, begin_session, begin_attempt, end_attempt, set_outcome_defaults, SessionState"]}
{"id": "C131", "title": "XML namespaces: prefixes are resolved by the innermost declaration", "statement": "A prefix stands for the namespace of the innermost declaration of it around an element, or of the document's default. The prefix chosen for a namespace does stand for it at that place, and is not hidden by an inner declaration. A new prefix is always found and is the first of ns1, ns2, ... not in use. When a tag is read its declarations are its xmlns attributes, all others are kept once per expanded name, and names are resolved by the declarations in force; attributes without prefix are in no namespace.", "quantifier": "every nesting of declarations of any depth, every prefix and namespace, every tag", "why_tests_cant": "nesting is unbounded and prefixes may be shadowed and declared again at every level", "anchors": ["pyslet/xml/namespace.py: NSNode.get_prefix, get_ns, new_prefix, make_prefix, get_prefix_map, XMLNSParser.expand_qname, match_expanded_names, parse_element"]}
{"id": "C132", "title": "XML with namespaces that is written reads back the same", "statement": "An element tree that is written with namespaces, and then read by any document in any context, gives the same tree: the same expanded element names, attributes and values. A tree without declarations of its own can always be written.", "quantifier": "every element tree of any depth, with any declarations made before, every default namespace", "why_tests_cant": "trees are unbounded and prefixes are generated depending on everything around an element", "anchors": ["pyslet/xml/namespace.py: NSElement.write_xml_attributes, NSElement.generate_xml, NSElement.set_attribute, XMLNSParser.parse_element"]}
{"id": "C133", "title": "Content negotiation chooses what the client likes best", "statement": "Of the types, charsets, encodings or languages on offer the one with the greatest quality is chosen, the first if there are several, and none if none is acceptable. The quality is that of the most specific item of the header that matches: a type with parameters before one without, before type/*, before */*; a token that is named before *; the longest language range. ISO-8859-1 is acceptable if it is not mentioned, identity unless it is refused. The order of items in the header does not count.", "quantifier": "every header with any number of items, and every list of things on offer", "why_tests_cant": "there is no bound on headers and offers; precedence relies on a sort with a hand-made key", "anchors": ["pyslet/http/messages.py: MediaRange.match_media_type, sortkey, AcceptItem, AcceptList.select_type, AcceptToken, AcceptTokenList.select_token, AcceptCharsetList, AcceptEncodingList, AcceptLanguageItem, AcceptLanguageList.select_language, select_token", "pyslet/http/params.py: LanguageTag.partial_match"]}
{"id": "C134", "title": "An Accept header that is written is read as what it was", "statement": "The text of an Accept item, of an Accept list, or of a token of Accept-Charset, -Encoding or -Language is read as the same items: the same ranges but for case, the same parameters, the same extensions and the same quality, which is written in as few digits as possible and left out if it is 1. The list is in the same order and chooses the same types. Whatever header is read, its qualities are from 0 to 1 and its items are in order of precedence; a header that cannot be read is a syntax error.", "quantifier": "every item with good parameters and every quality in thousandths, lists of any length, every header text", "why_tests_cant": "there is no bound on lists, parameters and texts; the parameters of the range and the extensions share one syntax", "anchors": ["pyslet/http/messages.py: AcceptItem.from_str, to_bytes, AcceptList.from_str, __str__, AcceptToken.from_str, to_bytes, AcceptTokenList.from_str, to_bytes, HeaderParser.require_media_range, require_accept_item, require_accept_list, require_accept_token, require_accept_token_list", "pyslet/http/params.py: ParameterParser.parse_qvalue"]}
{"id": "C135", "title": "Content-Range, Accept-Ranges and Allow headers are read and written", "statement": "A Content-Range that is written is read back as the same range, and exactly the headers of the grammar (the unit bytes in any case, a token that is * or two runs of digits, a slash, and * or digits) are read. A range is valid if and only if it has a byte and all its bytes are in the entity; its length is the number of its bytes and an error if there is none. An Allow or Accept-Ranges value that is written is read back as the same, whatever the case it was made in; a method is allowed if and only if it was given, in any case; two Allow values are equal if they have the same methods in any order, two Accept-Ranges values if they have the same units in any order and case.", "quantifier": "all ranges, all lists of tokens, all header texts", "why_tests_cant": "the texts, the lists and the numbers are unbounded", "anchors": ["pyslet/http/messages.py: ContentRange.__init__, from_str, to_bytes, __len__, is_valid, Allow.from_str, is_allowed, to_bytes, sortkey, AcceptRanges.from_str, to_bytes, sortkey, CacheControl.from_str, HeaderParser.require_contentrange", "pyslet/http/grammar.py: WordParser.parse_tokenlist"]}
{"id": "C136", "title": "A Cache-Control value gives the directives it was made of, and its text says them", "statement": "A value made from directives lists as many as were given, in that order, with their names in lower case; by name, in any case, it gives the value of the last directive of that name and fails exactly if there is none; by position it gives the directive counted from either end and fails exactly if there is none. If no name is repeated the list is what was given. The text of directives whose names are tokens and whose values are ASCII, not empty, is a Cache-Control header of the grammar, and whoever reads it by the grammar reads exactly these names and values, a tuple being a quoted list of tokens.", "quantifier": "all lists of directives, all keys, all positions", "why_tests_cant": "lists, names and values are unbounded, and any of them may need quoting", "anchors": ["pyslet/http/messages.py: CacheControl.__init__, to_bytes, __len__, __getitem__, __iter__, __contains__", "pyslet/http/grammar.py: quote_string"]}
{"id": "C137", "title": "Integers, decimals and booleans of XML Schema are read exactly and written canonically", "statement": "Exactly the integers and decimals of XML Schema are read, as what they are, and anything else is a ValueError; likewise the four words of a boolean. An integer is written without zeros at the start and read back. A decimal written to d places can be read; what is read is the value to the nearest d places, and of that to the nearest 15 digits (half up), and the text is canonical: a minus if and only if the value is negative, no zeros at the start but one before the point, none at the end but one after it; if zeros are not to be stripped there are exactly d places.", "quantifier": "all texts, all integers, all fractions and all numbers of places", "why_tests_cant": "the language and the numbers are unbounded; a carry can go through any number of nines", "anchors": ["pyslet/xml/xsdatatypes.py: boolean_from_str, boolean_to_str, decimal_from_str, _round_digits, _strip_zeros, decimal_to_str, integer_from_str, integer_to_str"]}
{"id": "C138", "title": "An enumeration reads its names and aliases, and writes its names", "statement": "A text is read as a value if and only if, without the white space round it, it is a declared name of the value or an alias, at however many removes, of one; any other text is a ValueError. An enumeration can be made exactly if each alias stands for what is named before it. A declared value is written as its declared name, never as an alias, and anything else as the name of the default if there is one. Of declared names of the same value the last is written. A list is read as the values of its words, in order, if and only if each is a name, and is otherwise a ValueError; lists of values are read back as they were; a dictionary is written in the order of its keys whatever order it is in, and read as a list it has the same keys.", "quantifier": "all enumerations with distinct names, all texts, all lists of values", "why_tests_cant": "there is no bound on names, chains of aliases and lists", "anchors": ["pyslet/xml/xsdatatypes.py: Enumeration._init_enum, from_str, list_from_str, dict_from_str, to_str, list_to_str, dict_to_str"]}
{"id": "C139", "title": "A normalised path leads to the same place and is as short as can be", "statement": "Normalising a relative path gives so many steps up and then so many names, or '.' if there are none, and it leads to the same place as the path from every directory. Normalising an absolute path in which no two slashes are together gives a slash and the names of the place it leads to, so that two such paths are normalised to the same if and only if they lead to the same place. Normalising again changes nothing.", "quantifier": "all paths, all working directories", "why_tests_cant": "paths have any number of components, and the removal of one moves the index back", "anchors": ["pyslet/vfs.py: VirtualFilePath.normpath, MemFilePath"]}
{"id": "C14", "title": "split_server partitions the authority", "statement": "split_server returns userinfo/host/port whose recomposition is the authority, with port a digit string or None and '@' not in userinfo.", "quantifier": "every authority string", "why_tests_cant": "all strings", "anchors": ["pyslet/rfc2396.py:split_server"]}
{"id": "C140", "title": "Joining and splitting paths keeps the place they lead to", "statement": "The path joined of some paths leads, from every directory, to where one gets by following them one after the other; what is before an absolute one has no effect. The absolute path, and the real path, of a path is a slash and the names of the place it leads to from the working directory, if no two slashes are together. A path is split at its last slash, and the tail leads from where the head leads to where the path leads; if no two slashes are together the two are joined to the path itself. A path is its root and extension one after the other; the extension is empty exactly if the path ends with a slash or a slash and a dot or has no dot, and otherwise begins with the last dot.", "quantifier": "all paths, all lists of them, all working directories", "why_tests_cant": "paths and lists of paths are unbounded, and empty, absolute and slash-ended ones can be in any order", "anchors": ["pyslet/vfs.py: VirtualFilePath.join, split, splitext, is_dirlike, abspath, realpath"]}
{"id": "C15", "title": "normalize_segments yields a normal form of the same path", "statement": "After normalize_segments no '.' segment remains, '..' occurs only in a leading run, the result is a fixed point, and it denotes the same location as the input under the usual walk semantics.", "quantifier": "every list of segments", "why_tests_cant": "in-place index arithmetic over all lists", "anchors": ["pyslet/rfc2396.py:normalize_segments", "pyslet/rfc2396.py:split_path"]}
{"id": "C16", "title": "relative is a right inverse of resolve", "statement": "U.relative(B).resolve(B) equals the normalised U for hierarchical URI with the same scheme and authority.", "quantifier": "every pair of absolute paths", "why_tests_cant": "all path pairs", "anchors": ["pyslet/rfc2396.py:URI.relative", "pyslet/rfc2396.py:URI.resolve", "pyslet/rfc2396.py:_relativize_segments", "pyslet/rfc2396.py:_make_rel_path_abs"]}
{"id": "C17", "title": "URI comparison is an equivalence on canonical forms", "statement": "canonicalize is idempotent for generic, server-based, http and urn URI, so ==, < and hash depend only on the canonical string, and http://HOST:80/p and http://host/p are equal.", "quantifier": "every URI of each class", "why_tests_cant": "all URIs", "anchors": ["pyslet/rfc2396.py:URI.canonicalize", "pyslet/rfc2396.py:ServerBasedURL.canonicalize", "pyslet/http/params.py:HTTPURL.canonicalize"]}
{"id": "C18", "title": "URI unicode encoding is ASCII and decodable", "statement": "encode_unicode_uri always returns ASCII text; for text without '%' unescaping it gives the UTF-8 encoding of the input.", "quantifier": "every unicode string", "why_tests_cant": "all strings", "anchors": ["pyslet/rfc2396.py:encode_unicode_uri"]}
{"id": "C19", "title": "URN translation round-trips", "statement": "translate_from_urnchar(translate_to_urnchar(s, t)) == s for every string of non-zero Unicode scalar values and every reserved test; the output contains only URN characters.", "quantifier": "every string and reserved_test", "why_tests_cant": "all unicode strings", "anchors": ["pyslet/urn.py:translate_to_urnchar", "pyslet/urn.py:translate_from_urnchar"]}
{"id": "C20", "title": "URN parsing enforces the NID/NSS grammar", "statement": "A URN is accepted exactly when its NID is 1..32 letters/digits/hyphens not starting with a hyphen and not 'urn' and its NSS only contains URN characters; equality ignores the case of scheme, NID and %-escapes; malformed URNs raise URIException.", "quantifier": "every string", "why_tests_cant": "all strings", "anchors": ["pyslet/urn.py:URN.parse_scheme_specific_part", "pyslet/urn.py:URN.canonicalize"]}
{"id": "C21", "title": "Absolute day numbers are a bijection with calendar dates", "statement": "Date(absolute_day=n).get_absolute_day() == n for every day of years 1..9999 and every complete date is recovered from its absolute day; date order is day-number order.", "quantifier": "all 3652059 dates, every pair of dates", "why_tests_cant": "exhaustive plus order over all pairs", "anchors": ["pyslet/iso8601.py:Date._set_from_absolute_day", "pyslet/iso8601.py:Date.get_absolute_day", "pyslet/iso8601.py:Date.sortkey"]}
{"id": "C22", "title": "Date.offset is exact day arithmetic", "statement": "d.offset(days=a, weeks=w) is the date a+7w days later, offsets compose, and an offset that leaves years 1..9999 raises DateTimeError.", "quantifier": "every date and every integer offset", "why_tests_cant": "unbounded integers", "anchors": ["pyslet/iso8601.py:Date.offset", "pyslet/iso8601.py:Date.__init__"]}
{"id": "C23", "title": "Ordinal, week and Julian forms round-trip", "statement": "Building a Date from get_ordinal_day, get_week_day or get_julian_day of a date gives the date back, and day_of_week advances cyclically from day to day.", "quantifier": "every date", "why_tests_cant": "needs arithmetic over all years", "anchors": ["pyslet/iso8601.py:Date.get_ordinal_day", "pyslet/iso8601.py:Date.get_week_day", "pyslet/iso8601.py:Date._set_from_week_day", "pyslet/iso8601.py:day_of_week", "pyslet/iso8601.py:week_count", "pyslet/iso8601.py:Date.get_julian_day", "pyslet/iso8601.py:Date.from_julian"]}
{"id": "C24", "title": "Date strings round-trip", "statement": "Date.from_str of get_calendar_string, get_ordinal_string or get_week_string (basic or extended) of a complete date returns an equal date, and parsing accepts no string that denotes no date.", "quantifier": "every date and every format; every input string", "why_tests_cant": "all strings", "anchors": ["pyslet/iso8601.py:Date.get_calendar_string", "pyslet/iso8601.py:ISO8601Parser.parse_date_format"]}
{"id": "C25", "title": "Truncated dates are the earliest match on or after the base", "statement": "Date built from a truncated form with a base is the earliest date on or after base that matches the given components.", "quantifier": "every base date and truncated form", "why_tests_cant": "all bases", "anchors": ["pyslet/iso8601.py:Date._set_from_calendar_day", "pyslet/iso8601.py:Date._set_from_ordinal_day", "pyslet/iso8601.py:Date._set_from_week_day"]}
{"id": "C26", "title": "Time.offset and shift_zone are exact arithmetic", "statement": "t.offset(h,m,s) returns time and day overflow with total seconds exactly advanced; shift_zone preserves the UTC instant.", "quantifier": "every time and integer offset, every zone", "why_tests_cant": "unbounded", "anchors": ["pyslet/iso8601.py:Time.offset", "pyslet/iso8601.py:Time.shift_zone", "pyslet/iso8601.py:Time.extend"]}
{"id": "C27", "title": "TimePoint comparison is comparison of instants", "statement": "Zoned complete TimePoints compare ==, < exactly as their UTC instants; get_unixtime and from_unix_time are mutually inverse; midnight 24:00 equals the next 00:00.", "quantifier": "every pair of timepoints and zones", "why_tests_cant": "all pairs", "anchors": ["pyslet/iso8601.py:TimePoint.sortkey", "pyslet/iso8601.py:TimePoint.otherkey", "pyslet/iso8601.py:TimePoint.get_unixtime", "pyslet/iso8601.py:TimePoint.from_unix_time"]}
{"id": "C28", "title": "Duration strings round-trip", "statement": "Duration(get_string(d)) == d for integer calendar durations; the parser rejects empty and out-of-order designators.", "quantifier": "every duration", "why_tests_cant": "unbounded integers", "anchors": ["pyslet/iso8601.py:Duration.get_string", "pyslet/iso8601.py:ISO8601Parser.parse_duration"]}
{"id": "C29", "title": "Pipe is a loss-free FIFO", "statement": "For every interleaving of write, read, readinto, readmatch, readall by any threads, the bytes returned by reads followed by the bytes still buffered are exactly the bytes accepted by writes, in order, until close.", "quantifier": "every schedule of operations by any number of threads", "why_tests_cant": "schedules and sizes are unbounded", "anchors": ["pyslet/streams.py:Pipe.write", "pyslet/streams.py:Pipe.read", "pyslet/streams.py:Pipe.readinto", "pyslet/streams.py:Pipe.readmatch", "pyslet/streams.py:Pipe._consolidate_buffer"]}
{"id": "C30", "title": "Pipe accounting and flow control", "statement": "buffered() is always the number of bytes not yet read, canwrite() never over-promises (a following write of a byte array of that size is accepted in full), a full pipe accepts nothing.", "quantifier": "every reachable pipe state", "why_tests_cant": "history dependent counters", "anchors": ["pyslet/streams.py:Pipe.canwrite", "pyslet/streams.py:Pipe.buffered", "pyslet/streams.py:Pipe.write"]}
{"id": "C31", "title": "Pipe end-of-file is signalled only at end of file", "statement": "read(n>0)/readinto return the empty string/0 only after write_eof or close with the buffer drained; readall returns all data and leaves the blocking mode as it was.", "quantifier": "every schedule", "why_tests_cant": "history dependent", "anchors": ["pyslet/streams.py:Pipe.read", "pyslet/streams.py:Pipe.readall", "pyslet/streams.py:Pipe.write_eof"]}
{"id": "C32", "title": "BufferedStreamWrapper is transparent", "statement": "Reading through BufferedStreamWrapper returns exactly the source's bytes whatever the read sizes and buffer size, peek does not consume, and when seekable reads after seek return the bytes at that offset.", "quantifier": "every source, chunking, buffer size and op sequence", "why_tests_cant": "all sequences", "anchors": ["pyslet/streams.py:BufferedStreamWrapper.__init__", "pyslet/streams.py:BufferedStreamWrapper.readinto", "pyslet/streams.py:BufferedStreamWrapper.seek", "pyslet/streams.py:BufferedStreamWrapper.peek"]}
{"id": "C33", "title": "FileBlockStore survives crashes", "statement": "At every crash point during any store/delete history, retrieve(key) either raises BlockMissing or returns the complete data whose hash is key; a completed store is retrievable until deleted.", "quantifier": "every history and crash point", "why_tests_cant": "crash points", "anchors": ["pyslet/blockstore.py:FileBlockStore.store", "pyslet/blockstore.py:FileBlockStore.retrieve", "pyslet/blockstore.py:FileBlockStore.delete"]}
{"id": "C34", "title": "LockStore gives mutual exclusion", "statement": "If lock(h) has returned to two clients, neither of which has called unlock(h) since, and both called lock(h) less than lock_timeout - 1 s ago, then they are the same client; unlock(h) only deletes the caller's own lock; lock(h) raises LockError only once its timeout is over; a free or stale lock is granted to a client running alone, and unlock by the holder frees it.", "quantifier": "every interleaving of lock/unlock by any clients", "why_tests_cant": "schedules", "anchors": ["pyslet/blockstore.py:LockStore.lock", "pyslet/blockstore.py:LockStore.unlock"]}
{"id": "C35", "title": "StreamStore never loses a referenced block", "statement": "For every interleaving of store_block, update_block, delete_blocks and delete_stream by any clients: at every moment a referenced block that is missing from the block store is one whose store_block has not returned (or raised LockError); so once no call is in progress every referenced block is present, and all locks are free; and if each stream is used by one client at a time no unreferenced block remains. Run alone each call completes with exactly its documented effect on the references.", "quantifier": "every interleaving", "why_tests_cant": "schedules", "anchors": ["pyslet/blockstore.py:StreamStore.store_block", "pyslet/blockstore.py:StreamStore.update_block", "pyslet/blockstore.py:StreamStore.delete_blocks"]}
{"id": "C36", "title": "BlockStream behaves like a file", "statement": "Open a stored stream with open_stream in mode r, r+, or (if it is empty) w or w+, and make any sequence of seek, read, write, tell and flush calls that seeks only to positions from 0 to the block containing the end: every call answers as it would on a plain byte file (a read or write stopping at a block boundary; a gap left by a write is zeros; IOError only where the mode forbids the call), and after close the block and stream tables hold exactly the file's contents, its size, and either no md5 or the right one.  Reading a stored stream through returns all of it and repeating a short write writes all of it.", "quantifier": "every block size, contents, mode, and sequence of calls with any arguments in range", "why_tests_cant": "the behaviour depends on how positions, sizes and dirty buffers line up with block boundaries over unbounded histories of calls", "anchors": ["pyslet/blockstore.py:BlockStream.write", "pyslet/blockstore.py:BlockStream.readinto", "pyslet/blockstore.py:BlockStream.seek", "pyslet/blockstore.py:BlockStream.flush"]}
{"id": "C37", "title": "HTTP quoted strings round-trip", "statement": "decode_quoted_string(quote_string(s)) == s; quote_string(s) is a quoted-string of the grammar, which OctetParser reads (leaving what follows it) and WordParser reads as its only word; with force=False the quotes are left out exactly when s has no control character or separator, and for any s but the empty string the one word read back (token or quoted string) has value s.", "quantifier": "every byte string, with and without force, and anything following it", "why_tests_cant": "all byte strings", "anchors": ["pyslet/http/grammar.py:quote_string", "pyslet/http/grammar.py:decode_quoted_string", "pyslet/http/grammar.py:OctetParser.parse_quoted_string"]}
{"id": "C38", "title": "HTTP word tokenizer is sound", "statement": "WordParser accepts exactly the sources that are a sequence of separators, tokens, balanced comments, quoted strings and linear white space (with or without a last quoted string that is not closed), and its words are those of the sequence, with folding replaced by one SP and runs of white space dropped or given as one SP; any other source raises ParserError.  The concatenation of the words is the source up to white space.", "quantifier": "every byte string, with and without ignore_sp", "why_tests_cant": "all byte strings", "anchors": ["pyslet/http/grammar.py:WordParser._init_parser", "pyslet/http/grammar.py:OctetParser.parse_comment", "pyslet/http/grammar.py:OctetParser.parse_token"]}
{"id": "C39", "title": "HTTP parameter values round-trip", "statement": "A MediaType, TransferEncoding (and a list of them), Chunk, EntityTag, LanguageTag, HTTPVersion, ProductToken (and a list of them) or HTTP date (FullDate) whose parts are tokens (parameter values: any non-empty byte string) is formatted by to_bytes and from_str of the result gives an equal value; so does any value that was itself made by from_str, unless it has a parameter with an empty value or a name that is not ASCII.  Media types are equal exactly when type, subtype and every parameter value are (names and types without case, order not counting); of repeated parameters the last counts.  All three date formats of RFC 2616 are parsed to the instant they write.  Text that is not of the syntax raises ParserError, BadSyntax or UnicodeError.", "quantifier": "every value, every source text, every instant from year 1 to 9999", "why_tests_cant": "all values", "anchors": ["pyslet/http/params.py:MediaType", "pyslet/http/params.py:EntityTag", "pyslet/http/params.py:Chunk", "pyslet/http/params.py:FullDate", "pyslet/http/grammar.py:format_parameters"]}
{"id": "C40", "title": "Product versions are totally ordered", "statement": "Comparison of ProductTokens never raises; exactly one of <, == and > holds, < is transitive and the other operators agree with it.  Tokens are compared first; a qualifier (before ~) after a number is before the release and all its subreleases; dotted decimals compare as lists of numbers; a part without a number is before one with; more parts are later; no version is before any version.", "quantifier": "every pair or triple of products with any version text", "why_tests_cant": "all pairs", "anchors": ["pyslet/http/params.py:ProductToken.explode"]}
{"id": "C41", "title": "Subtracting a CharClass from itself empties it", "statement": "After c.subtract_class(c) the class c contains no characters.", "quantifier": "all classes", "why_tests_cant": "depends on how the range list shifts under the loop; holds for every one-range class and fails for others", "anchors": ["pyslet/unicode5.py:CharClass.subtract_class"]}
{"id": "C42", "title": "parse_until stops at the first occurrence", "statement": "parse_until(m) returns the text from the current position up to, and leaves the parser at, the first occurrence of m at or after the position; if there is none it consumes the rest of the source.", "quantifier": "all sources, positions inside the source and search strings", "why_tests_cant": "all strings and overlaps", "anchors": ["pyslet/unicode5.py:BasicParser.parse_until"]}
{"id": "C43", "title": "Offsets of reduced-precision dates are exact", "statement": "For a month-, year- or week-precision Date, offset() moves by exactly the given centuries, years, months or weeks, raises DateTimeError when the result leaves years 1..9999, and rejects units smaller than the precision.", "quantifier": "every month, year and week date, every integer offset", "why_tests_cant": "unbounded integers; the week case iterates over years of 52 or 53 weeks", "anchors": ["pyslet/iso8601.py:Date.offset"]}
{"id": "C44", "title": "Time and TimePoint strings round-trip", "statement": "Time.from_str(t.get_string()) and TimePoint.from_str of the calendar, ordinal and week strings give back the value, in basic and extended form and for both zone precisions; mixed basic and extended forms are rejected; nothing is accepted that is not the text of the returned value.", "quantifier": "every time with integer components, every zone, every day, every input string", "why_tests_cant": "all values and all strings", "anchors": ["pyslet/iso8601.py:Time.get_string", "pyslet/iso8601.py:Time.get_zone_string", "pyslet/iso8601.py:ISO8601Parser.parse_time_format", "pyslet/iso8601.py:ISO8601Parser.parse_time_point_format"]}
{"id": "C45", "title": "No lost wake-ups in Pipe", "statement": "A thread blocked in read, readinto, readmatch, write, flush or a wait on a Pipe that has not been notified really has to wait: the data, room or emptiness it waits for is not there; every notified thread can go on; and flush and the wait calls return only when what they wait for holds.", "quantifier": "every schedule of operations by any number of threads", "why_tests_cant": "lost wake-ups depend on the schedule", "anchors": ["pyslet/streams.py:Pipe.write_wait", "pyslet/streams.py:Pipe.read_wait", "pyslet/streams.py:Pipe.flush", "pyslet/streams.py:Pipe.empty"]}
{"id": "C46", "title": "Pipe time-outs only when asked for", "statement": "A call on a Pipe raises ETIMEDOUT only if the pipe or the call was given a time-out.", "quantifier": "every schedule of operations by any number of threads", "why_tests_cant": "needs all schedules", "anchors": ["pyslet/streams.py:Pipe.readmatch", "pyslet/streams.py:Pipe.write", "pyslet/streams.py:Pipe.read", "pyslet/streams.py:Pipe.read_wait"]}
{"id": "C47", "title": "Writers are told when a reader makes room", "statement": "An event registered with set_rflag is set after every read call that takes data out of the Pipe.", "quantifier": "every schedule of operations by any number of threads", "why_tests_cant": "needs all schedules", "anchors": ["pyslet/streams.py:Pipe.set_rflag", "pyslet/streams.py:Pipe.canwrite", "pyslet/streams.py:Pipe.readinto", "pyslet/streams.py:Pipe.read"]}
{"id": "C48", "title": "Cookies only go where they may", "statement": "Whatever the history of a CookieStore, a cookie that search returns for a URL is one that set_cookie accepted, with its name, value, flags and expiry; if it is host-only it came from the same host, otherwise it has a Domain that both hosts are in and that was not a public suffix when it was set; the path of the URL is below the cookie's; Secure cookies go only to https, HttpOnly ones are neither taken from nor given to other protocols; expired cookies are not returned.", "quantifier": "every history of calls, URL, cookie and time", "why_tests_cant": "leaks depend on the interleaving of cookies, suffix rules and expiry; tests try a few histories", "anchors": ["pyslet/http/cookie.py: CookieStore.set_cookie, search, expire_cookies, end_session, _expand_node", "pyslet/http/cookie.py: split_domain, domain_in_domain, is_ldh_label"]}
{"id": "C49", "title": "A cookie store is a jar", "statement": "After any history the store is a map from (domain, name, path) to cookie: set_cookie replaces or (if expired) removes, search removes expired cookies on the way, expire_cookies removes the expired, end_session also those that are not persistent, rules do not touch cookies; search returns exactly the cookies of the jar that match, each once.", "quantifier": "every history, URL and time", "why_tests_cant": "quantifies over all histories", "anchors": ["pyslet/http/cookie.py: CookieStore.set_cookie, search, expire_cookies, end_session, _expand_node", "pyslet/http/cookie.py: split_domain, domain_in_domain, is_ldh_label"]}
{"id": "C50", "title": "Order of cookies", "statement": "search returns cookies with longer paths first and, for equal lengths, earlier creation times first; a cookie that replaces another takes its creation time.", "quantifier": "every history, URL and time", "why_tests_cant": "quantifies over all histories", "anchors": ["pyslet/http/cookie.py: CookieStore.set_cookie, search, expire_cookies, end_session, _expand_node", "pyslet/http/cookie.py: split_domain, domain_in_domain, is_ldh_label"]}
{"id": "C51", "title": "Public suffixes", "statement": "With a public suffix list set first, and any calls after, test_public_domain is True exactly for the domains that the rules (or the default depth) make public and no exception rule makes private; set_cookie refuses exactly the cookies with a Domain that the host is not in, or that is public and not the host itself (and HttpOnly ones from other protocols), so no host sets a cookie for a listed suffix above it.", "quantifier": "every list, history, domain and cookie", "why_tests_cant": "the tree of nodes depends on the order of rules and cookies; the claim is that the order does not matter", "anchors": ["pyslet/http/cookie.py: CookieStore.set_public_list, add_public_suffix, add_private_suffix, test_public_domain, get_registered_domain, set_cookie"]}
{"id": "C52", "title": "Registered domain", "statement": "get_registered_domain returns the shortest suffix of the domain for which test_public_domain is False, and None exactly when all its suffixes are public.", "quantifier": "every history with non-negative depths, every domain name", "why_tests_cant": "quantifies over all trees and domains", "anchors": ["pyslet/http/cookie.py: CookieStore.set_public_list, add_public_suffix, add_private_suffix, test_public_domain, get_registered_domain, set_cookie"]}
{"id": "C53", "title": "Links are the same from both ends", "statement": "After any history of operations on the in-memory data service, whether they succeeded or not, entity x is in the navigation collection of k at one end exactly when k is in that of x at the other end; keys are unique in an entity set, a navigation collection has no entity twice; and no deletion mark is left behind, so a later deletion is never skipped.", "quantifier": "every schema, every history of insertions (with nested new entities), updates, deletions and link operations, failed ones included, and every order in which Python iterates over sets", "why_tests_cant": "links are kept twice and changed by hooks and recursive deletions; a test follows a few histories of one schema", "anchors": ["pyslet/odata2/memds.py: InMemoryEntityStore, InMemoryAssociationIndex, EntityCollection, NavigationCollection", "pyslet/odata2/csdl.py: DeferredValue.bind_entity, update_bindings, Entity.check_navigation_constraints"]}
{"id": "C54", "title": "No dangling links", "statement": "After any history the two ends of a link are entities that exist, so iterating over the navigation collection of an existing entity never raises KeyError.", "quantifier": "every schema, every history of insertions (with nested new entities), updates, deletions and link operations, failed ones included, and every order in which Python iterates over sets; the program does not use objects of entities that were deleted", "why_tests_cant": "links are kept twice and changed by hooks and recursive deletions; a test follows a few histories of one schema", "anchors": ["pyslet/odata2/memds.py: InMemoryEntityStore, InMemoryAssociationIndex, EntityCollection, NavigationCollection", "pyslet/odata2/csdl.py: DeferredValue.bind_entity, update_bindings, Entity.check_navigation_constraints"]}
{"id": "C55", "title": "At most one link where the schema says so", "statement": "After any history an entity has at most one link at a navigation property whose other end has multiplicity 0..1 or 1.", "quantifier": "every schema, every history of insertions (with nested new entities), updates, deletions and link operations, failed ones included, and every order in which Python iterates over sets", "why_tests_cant": "links are kept twice and changed by hooks and recursive deletions; a test follows a few histories of one schema", "anchors": ["pyslet/odata2/memds.py: InMemoryEntityStore, InMemoryAssociationIndex, EntityCollection, NavigationCollection", "pyslet/odata2/csdl.py: DeferredValue.bind_entity, update_bindings, Entity.check_navigation_constraints"]}
{"id": "C56", "title": "Required links stay", "statement": "An entity that was inserted with its required links has, after any later history, a link at each required end.", "quantifier": "every schema, every history of insertions (with nested new entities), updates, deletions and link operations, failed ones included, and every order in which Python iterates over sets", "why_tests_cant": "links are kept twice and changed by hooks and recursive deletions; a test follows a few histories of one schema", "anchors": ["pyslet/odata2/memds.py: InMemoryEntityStore, InMemoryAssociationIndex, EntityCollection, NavigationCollection", "pyslet/odata2/csdl.py: DeferredValue.bind_entity, update_bindings, Entity.check_navigation_constraints"]}
{"id": "C57", "title": "Cascading deletion", "statement": "Deleting an entity ends, and if it succeeds, removes that entity together with the entities that must be linked to a removed one, and no others; every other entity and the links between them stay.", "quantifier": "every schema, every history of insertions (with nested new entities), updates, deletions and link operations, failed ones included, and every order in which Python iterates over sets", "why_tests_cant": "the cascade is a recursion over an arbitrary graph of links that changes meanwhile", "anchors": ["pyslet/odata2/memds.py: InMemoryEntityStore, InMemoryAssociationIndex, EntityCollection, NavigationCollection", "pyslet/odata2/csdl.py: DeferredValue.bind_entity, update_bindings, Entity.check_navigation_constraints"]}
{"id": "C58", "title": "Operations do what they say and no more", "statement": "When adding, removing or replacing a link, inserting or updating succeeds, the links asked for are there and exactly those are changed: links between other entities stay, and the entities that exist afterwards are those before and the new ones in the bindings. An insertion with a taken key or an unbound required link is refused and changes nothing.", "quantifier": "every schema, every history of insertions (with nested new entities), updates, deletions and link operations, failed ones included, and every order in which Python iterates over sets", "why_tests_cant": "links are kept twice and changed by hooks and recursive deletions; a test follows a few histories of one schema", "anchors": ["pyslet/odata2/memds.py: InMemoryEntityStore, InMemoryAssociationIndex, EntityCollection, NavigationCollection", "pyslet/odata2/csdl.py: DeferredValue.bind_entity, update_bindings, Entity.check_navigation_constraints"]}
{"id": "C59", "title": "Pages make up the collection", "statement": "With any top, skip and provider limit, repeated calls of iterpage(set_next=True) on an unchanged collection give every entity from the skip position on exactly once, in order, in pages no larger than asked for or allowed, then nothing; a client that follows the skiptokens of a limited collection gets the same; a skiptoken always names the position it was made for.", "quantifier": "every collection, page size, limit and skip", "why_tests_cant": "boundaries depend on the sizes of collection, page and limit together; tests try a few", "anchors": ["pyslet/odata2/csdl.py: EntityCollection.set_page, set_topmax, iterpage, next_skiptoken, order_entities", "pyslet/odata2/core.py: EntityCollection.get_next_page_location, calculate_order_key"]}
{"id": "C60", "title": "Order of entities", "statement": "order_entities gives the same entities sorted by the orderby rules, the first rule that tells two entities apart deciding, equal ones in the order of their keys while paging (otherwise as the provider gave them); while paging the result does not depend on the order in which the provider iterates, so pages made from separate iterations fit together.", "quantifier": "every set of entities with unique keys, every list of rules and directions, every iteration order", "why_tests_cant": "needs all permutations; a test sees the one order that its dictionary has", "anchors": ["pyslet/odata2/csdl.py: EntityCollection.set_page, set_topmax, iterpage, next_skiptoken, order_entities", "pyslet/odata2/core.py: EntityCollection.get_next_page_location, calculate_order_key"]}
{"id": "C61", "title": "SQL pages make up the table", "statement": "With any orderby (ascending or descending), top, skip and provider limit, repeated calls of iterpage(set_next=True) on an unchanged table give every row from the skip position on exactly once, in the one order that orderby and the keys determine, then nothing; so does following the links to the next page.", "quantifier": "every table, order, page size, limit and skip", "why_tests_cant": "the condition made from a skiptoken must cut the order exactly, whatever the values and ties", "anchors": ["pyslet/odata2/sqlds.py: SQLCollectionBase.set_page, page_generator, iterpage, next_skiptoken, where_skiptoken_clause, set_orderby, orderby_clause", "pyslet/odata2/sqlds.py: SQLiteEntityContainer.limit_clause"]}
{"id": "C62", "title": "SQL paging survives changes", "statement": "If the provider limits the pages and the table is changed in any way between them, the pages still come in order without a row twice, each row was in the table when its page was made, and once the pages end every row that was there all the time has been returned.", "quantifier": "every history of changes of the table between pages", "why_tests_cant": "quantifies over all concurrent changes", "anchors": ["pyslet/odata2/sqlds.py: SQLCollectionBase.set_page, page_generator, iterpage, next_skiptoken, where_skiptoken_clause, set_orderby, orderby_clause", "pyslet/odata2/sqlds.py: SQLiteEntityContainer.limit_clause"]}
{"id": "C63", "title": "OData expressions mean what the grammar says", "statement": "CommonExpression.from_str reads every text of the OData expression grammar as the one expression the grammar gives it (precedence, left association, brackets, negation, member access, casts, method calls, literals, any white space); orderby_from_str likewise with directions; on any other text they end with an expression or a ValueError.", "quantifier": "every text; every expression of any size and depth; every choice of white space", "why_tests_cant": "operators, brackets and precedences combine without bound; tests try a handful of expressions", "anchors": ["pyslet/odata2/core.py: CommonExpression.from_str, Parser.parse_common_expression, parse_castlike, parse_method_call_expression, parse_simple_identifier, parse_uri_literal, OperatorCategory, Operator, Method", "pyslet/py2.py: SortableMixin"]}
{"id": "C64", "title": "Expressions survive formatting", "statement": "The text of an expression is read back as the same expression, so different expressions have different texts; the same for a list of orderby rules.", "quantifier": "every expression, every list of orderby rules", "why_tests_cant": "depends on which operands need brackets, at any depth, and on the content of names and strings", "anchors": ["pyslet/odata2/core.py: UnaryExpression, BinaryExpression, CallExpression, PropertyExpression, LiteralExpression (__unicode__), CommonExpression.orderby_to_str, orderby_from_str"]}
{"id": "C65", "title": "Literals", "statement": "Every accepted spelling of a literal has its value, and the text of a value is read back as that value; no string value can break out of its quotes.", "quantifier": "every string, integer in range, byte string, Guid; every spelling", "why_tests_cant": "all contents of a string, all integers and boundaries", "anchors": ["pyslet/odata2/core.py: Parser.parse_uri_literal, parse_string_uri_literal, LiteralExpression", "pyslet/odata2/csdl.py: Parser.parse_numeric_literal, parse_binary_literal, Int32Value, Int64Value, BinaryValue"]}
{"id": "C66", "title": "Operand types are promoted to their least common type", "statement": "promote_types returns the least type both operand types promote to (numeric types in order, null to anything) and raises EvaluationError exactly when there is none; it is commutative, associative, idempotent and null is neutral.", "quantifier": "every pair and triple of EDM types", "why_tests_cant": "the laws relate all combinations of types; tests try some pairs", "anchors": ["pyslet/odata2/core.py: promote_types, BinaryExpression.promote_operands, NUMERIC_TYPES"]}
{"id": "C67", "title": "Logical operators and filters", "statement": "and, or, not of truth values are conjunction, disjunction, negation; a filter lets an entity pass if and only if its expression evaluates to true; filtering by 'p and q' is filtering by both; by 'p or q' by one of them if both are known.", "quantifier": "every pair of expressions, every entity", "why_tests_cant": "ranges over all subexpressions and entities, including nulls of every origin", "anchors": ["pyslet/odata2/core.py: BinaryExpression.evaluate_and, evaluate_or, UnaryExpression.evaluate_not, EntityCollection.check_filter"]}
{"id": "C68", "title": "Comparisons", "statement": "eq is symmetric and ne its negation; lt/gt and le/ge mirror each other; integers of any two types are compared exactly; strings by code points with exactly one of lt, eq, gt; comparisons with null are false but null eq null is true.", "quantifier": "every pair of expressions and values", "why_tests_cant": "all values and combinations of types", "anchors": ["pyslet/odata2/core.py: BinaryExpression.evaluate_eq, evaluate_ne, evaluate_lt, evaluate_gt, evaluate_le, evaluate_ge, evaluate_relation"]}
{"id": "C69", "title": "Integer arithmetic is exact or refused", "statement": "mul, add, sub, div, mod of integers give the exact result in the common type, truncating towards zero, or ValueError when out of range; division by zero is an EvaluationError; quotient and remainder satisfy x = y*q + r.", "quantifier": "every pair of integers of every pair of integer types", "why_tests_cant": "the division goes through binary floating point; exactness for all operands is a theorem about rounding", "anchors": ["pyslet/odata2/core.py: BinaryExpression.evaluate_mul, evaluate_div, evaluate_mod, evaluate_add, evaluate_sub", "pyslet/odata2/csdl.py: Int32Value.set_from_value, Int64Value.set_from_value"]}
{"id": "C70", "title": "Well-typed expressions evaluate to a value of their type", "statement": "An expression that is well typed for an entity type evaluates, on every entity of that type, to a value of the expression's type or null, raising only the exceptions its type allows (out of range, division by zero, null in a strict method or a string ordering); well-typed filters too.", "quantifier": "every well-typed expression of any size, every entity", "why_tests_cant": "all expressions over all entities", "anchors": ["pyslet/odata2/core.py: CommonExpression.evaluate and all evaluate_ methods, EntityCollection.check_filter", "pyslet/odata2/csdl.py: SimpleValue.simple_cast, cast"]}
{"id": "C71", "title": "String methods", "statement": "startswith, endswith, substringof, indexof, replace, concat, length, substring and trim return what their names say for all strings; a null argument gives null.", "quantifier": "all strings", "why_tests_cant": "all strings, overlapping and empty occurrences", "anchors": ["pyslet/odata2/core.py: CallExpression.evaluate_startswith, evaluate_endswith, evaluate_substringof, evaluate_indexof, evaluate_replace, evaluate_substring, evaluate_concat, evaluate_length, evaluate_trim"]}
{"id": "C72", "title": "Header fields are kept by name without regard to case, written and read back", "statement": "set_header then get_header(_list) returns the stripped values set (appended in append mode), other names are untouched, None removes; the header text that is sent consists of fields with exactly these values; receiving fields, folded over lines or not, gives for every name the values in order.", "quantifier": "every sequence of set_header calls and every list of well-formed header fields", "why_tests_cant": "all histories of settings and all names", "anchors": ["pyslet/http/messages.py: Message.set_header, get_header, get_header_list, send_header, _recv_header"]}
{"id": "C73", "title": "A response is received as sent, however it is cut into packets", "statement": "Given the bytes of a well-formed response (blank lines, 1xx responses, status line, fields, body framed by Content-Length, the chunked coding or none), the client completes with exactly its status, reason, version, header fields (trailer included) and body, leaves the bytes after it unread, and keeps the connection only if it is persistent.", "quantifier": "every response, every split into packets, every schedule of blocked or partial writes of the body", "why_tests_cant": "all splits and all schedules", "anchors": ["pyslet/http/messages.py: Message.recv, recv_mode, _recv_buffered, recv_transferlength, Response.recv_start, recv_transferlength", "pyslet/http/client.py: Connection._recv_task, ClientResponse.finished"]}
{"id": "C74", "title": "A response that is cut short is never taken for complete by the receiver", "statement": "If the server hangs up anywhere inside a response that has a length (or is chunked) the response object is told of the disconnection, never of completion, and what the application was given is a beginning of the body.", "quantifier": "every response, every point at which it is cut, every split into packets", "why_tests_cant": "all crash points", "anchors": ["pyslet/http/messages.py: Message.recv, recv_mode, _recv_buffered, recv_transferlength, Response.recv_start, recv_transferlength", "pyslet/http/client.py: Connection._recv_task, ClientResponse.finished"]}
{"id": "C75", "title": "A response without a length is everything until the server hangs up", "statement": "With neither Content-Length nor Transfer-Encoding the body given to the application is all bytes up to the close.", "quantifier": "every such response and every split", "why_tests_cant": "all splits", "anchors": ["pyslet/http/messages.py: Message.recv, recv_mode, _recv_buffered, recv_transferlength, Response.recv_start, recv_transferlength", "pyslet/http/client.py: Connection._recv_task, ClientResponse.finished"]}
{"id": "C76", "title": "What is sent is framed as its header fields say", "statement": "After start_sending succeeds, the header fields that send_header writes determine (by RFC 2616 4.4) exactly the framing that send_body uses for the body; all fields other than Transfer-Encoding, Content-Length and Connection are as set; Connection: close is sent if the body ends with the connection.", "quantifier": "every request and response, body, stream schedule and buffer size", "why_tests_cant": "all combinations of headers, protocol, body and stream behaviour", "anchors": ["pyslet/http/messages.py: Message.start_sending, send_header, send_body, send_transferlength, Request.send_transferlength, Response.send_transferlength"]}
{"id": "C77", "title": "What one side sends the other receives", "statement": "The bytes a server sends for a response are received by the client as that response: status, reason, version, body and header fields; the same for a request.", "quantifier": "every message, every split into packets, every stream schedule", "why_tests_cant": "composition of two state machines over all schedules", "anchors": ["pyslet/http/messages.py: Message.start_sending, send_header, send_body, send_transferlength, Request.send_transferlength, Response.send_transferlength", "pyslet/http/messages.py: Message.recv, recv_mode, _recv_buffered, recv_transferlength, Response.recv_start, recv_transferlength", "pyslet/http/client.py: Connection._recv_task, ClientResponse.finished"]}
{"id": "C78", "title": "Messages outside the ordinary are still framed right", "statement": "Pipelined responses, blocked flushes, wrong Content-Length settings, chunked responses without a body, identity coding and negative lengths are handled as RFC 2616 says.", "quantifier": "every message", "why_tests_cant": "each is a corner of the protocol state machine", "anchors": ["pyslet/http/messages.py: Message.recv, recv_mode, _recv_buffered, recv_transferlength, Response.recv_start, recv_transferlength", "pyslet/http/client.py: Connection._recv_task, ClientResponse.finished", "pyslet/http/messages.py: Message.start_sending, send_header, send_body, send_transferlength, Request.send_transferlength, Response.send_transferlength"]}
{"id": "C79", "title": "A validating parser accepts exactly the child sequences that the content model generates", "statement": "For a declared element with deterministic or ambiguous content, the children are accepted exactly when their names form a word of the content model read as a regular expression (EMPTY: none, ANY: all, mixed: the listed names); a violation is reported at the first name after which no completion exists, with exactly the names (and the end tag) that could have come there.", "quantifier": "every content model and every sequence of child names", "why_tests_cant": "infinitely many models and sequences; Glushkov-style construction", "anchors": ["pyslet/xml/structures.py: ElementType.build_model, is_deterministic, XMLNameParticle, XMLChoiceList, XMLSequenceList", "pyslet/xml/parser.py: ContentParticleCursor.next, expected, XMLParser.check_expected_particle"]}
{"id": "C80", "title": "A content model is reported as non-deterministic exactly when it is ambiguous", "statement": "is_deterministic is False exactly when some prefix of a word of the model can be continued by the same element name matching two different occurrences of the name in the model (XML 1.0 appendix E).", "quantifier": "every content model", "why_tests_cant": "the condition quantifies over all words of the model", "anchors": ["pyslet/xml/structures.py: ElementType.build_model, is_deterministic, XMLNameParticle, XMLChoiceList, XMLSequenceList", "pyslet/xml/parser.py: ContentParticleCursor.next, expected, XMLParser.check_expected_particle"]}
{"id": "C81", "title": "Element declarations are parsed as productions 45 to 51 of XML say", "statement": "The text after <!ELEMENT is accepted exactly if it begins with a declaration of the grammar; the name and the content model that are stored are the ones that were written, and nothing after the > is consumed. Content models so stored are ones for which C79 and C80 hold.", "quantifier": "every text", "why_tests_cant": "recursive grammar, unbounded nesting", "anchors": ["pyslet/xml/parser.py: XMLParser.parse_element_decl, parse_content_spec, parse_children, parse_cp, parse_choice, parse_seq, parse_mixed, parse_s, parse_name", "pyslet/xml/structures.py: is_name_start_char, is_name_char, is_s"]}
{"id": "C82", "title": "Escaped character data is read back unchanged", "statement": "What escape_char_data, escape_char_data7 and escape_cdsect write for a text of XML characters is parsed as that text, as content and (with quote) as an attribute value; escape_char_data7 writes ASCII only.", "quantifier": "every text of XML characters", "why_tests_cant": "all of Unicode in all orders, with both kinds of quote", "anchors": ["pyslet/xml/structures.py: escape_char_data, escape_char_data7, escape_cdsect", "pyslet/xml/parser.py: XMLParser.parse_element, parse_stag, parse_attribute, parse_att_value, parse_etag, parse_content, parse_char_data, parse_cdsect, parse_comment, parse_pi, parse_reference, parse_char_ref"]}
{"id": "C83", "title": "Every well-formed element is read as the tree it stands for", "statement": "A text of the XML grammar of elements (tags, attributes with references, character data, CDATA sections, comments, processing instructions, nested elements) is parsed, up to exactly its end, as the element with the stated name, attributes and children; a text stands for at most one tree.", "quantifier": "every element text of the grammar, whatever follows it", "why_tests_cant": "recursive grammar, unbounded nesting and length", "anchors": ["pyslet/xml/parser.py: XMLParser.parse_element, parse_stag, parse_attribute, parse_att_value, parse_etag, parse_content, parse_char_data, parse_cdsect, parse_comment, parse_pi, parse_reference, parse_char_ref"]}
{"id": "C84", "title": "A text that is not well formed is never accepted", "statement": "If an element is parsed then what was consumed is an element text of the XML grammar that stands for it; otherwise XMLWellFormedError or XMLValidityError is raised.", "quantifier": "every text", "why_tests_cant": "infinitely many malformed texts", "anchors": ["pyslet/xml/parser.py: XMLParser.parse_element, parse_stag, parse_attribute, parse_att_value, parse_etag, parse_content, parse_char_data, parse_cdsect, parse_comment, parse_pi, parse_reference, parse_char_ref"]}
{"id": "C85", "title": "Elements that are written and read back are equal to the original, pretty-printed or not", "statement": "generate_xml of an element, with or without ASCII escaping and whatever the indent, is white space and then a well-formed element text; parsing it gives an element equal (==) to the one written, also after end-of-line handling in any pieces. Elements that are equal are written the same.", "quantifier": "every tree of XML names and characters, in which no two texts are adjacent, no text is empty where white space is preserved, no attribute value contains a tab or line feed and elements with element content have no text; every indent", "why_tests_cant": "unbounded trees, interplay of xml:space, pretty printing and white space", "anchors": ["pyslet/xml/structures.py: Element.generate_xml, write_xml_attributes, can_pretty_print, get_canonical_children, collapse_space, Element.__eq__", "pyslet/xml/parser.py: XMLParser.parse_element, parse_stag, parse_attribute, parse_att_value, parse_etag, parse_content, parse_char_data, parse_cdsect, parse_comment, parse_pi, parse_reference, parse_char_ref"]}
{"id": "C86", "title": "Ends of lines are normalized as XML 2.11 says, however the input arrives", "statement": "The characters that an entity gives are those of its source with CR LF and lone CR replaced by LF, whatever the sizes of the reads from the source.", "quantifier": "every source and every division of it into non-empty reads", "why_tests_cant": "all chunkings, in particular between CR and LF", "anchors": ["pyslet/xml/structures.py: XMLEntity.next_char"]}
{"id": "C87", "title": "Equality of elements is an equivalence that ignores attribute order and insignificant white space", "statement": "== on elements is reflexive, symmetric and transitive; elements that differ only in the order of attributes and, where xml:space does not preserve it, in the amount of white space between characters are equal; equal elements have the same name, the same attributes and, where white space is preserved, the same texts.", "quantifier": "every element tree and space policy of the ancestors", "why_tests_cant": "unbounded trees", "anchors": ["pyslet/xml/structures.py: Element.generate_xml, write_xml_attributes, can_pretty_print, get_canonical_children, collapse_space, Element.__eq__"]}
{"id": "C88", "title": "A database connection is used by one thread at a time", "statement": "Two calls of acquire_connection whose results were not yet released, made in different threads, never hold the same connection object or the same database connection; a thread that acquires again before releasing gets the connection that it already has.", "quantifier": "every number of threads and every interleaving of acquire, release, reconnection, cleaner, close() and thread deaths; every threadsafety and max_connections", "why_tests_cant": "unbounded schedules", "anchors": ["pyslet/odata2/sqlds.py: SQLEntityContainer.acquire_connection, release_connection, pool_cleaner, close, SQLConnection, DummyLock, retry_decorator"]}
{"id": "C89", "title": "No more than max_connections connections are open", "statement": "The number of open database connections never exceeds max_connections (1 if threadsafety is 0), not counting those that the cleaner has already taken out of the pool and is about to close; if no thread is cleaning the bound is strict.", "quantifier": "every schedule", "why_tests_cant": "unbounded schedules", "anchors": ["pyslet/odata2/sqlds.py: SQLEntityContainer.acquire_connection, release_connection, pool_cleaner, close, SQLConnection, DummyLock, retry_decorator"]}
{"id": "C90", "title": "A connection that was acquired is open and stays open until it is released", "statement": "As long as a live thread holds a connection, and close() has not emptied the pool, its database connection is open; slots are given back.", "quantifier": "every schedule", "why_tests_cant": "unbounded schedules with errors of the database at any point", "anchors": ["pyslet/odata2/sqlds.py: SQLEntityContainer.acquire_connection, release_connection, pool_cleaner, close, SQLConnection, DummyLock, retry_decorator"]}
{"id": "C91", "title": "Threads do not wait for a connection while one is to be had", "statement": "If threadsafety is at least 1 and a thread is waiting in acquire_connection then every connection of the pool is in use and the pool is full, or a notified thread has yet to run; acquire_connection returns None only if close() was called or every connection is in use and the pool is full.", "quantifier": "every schedule and timeout", "why_tests_cant": "lost wake-ups depend on the schedule", "anchors": ["pyslet/odata2/sqlds.py: SQLEntityContainer.acquire_connection, release_connection, pool_cleaner, close, SQLConnection, DummyLock, retry_decorator"]}
{"id": "C92", "title": "close() closes every connection and none is handed out afterwards", "statement": "When close() has emptied the pool every connection that is still open is one that some thread is about to close; if nothing was acquired or being acquired then no connection is acquired or opened afterwards and when all threads are out of the pool none is open.", "quantifier": "every schedule", "why_tests_cant": "races of close() with acquire and release", "anchors": ["pyslet/odata2/sqlds.py: SQLEntityContainer.acquire_connection, release_connection, pool_cleaner, close, SQLConnection, DummyLock, retry_decorator"]}
{"id": "C93", "title": "Methods that follow the SQLTransaction pattern are atomic and execute each command once", "statement": "A method of the form begin, commands and nested methods, commit / rollback, close, started with no transaction in progress, leaves no transaction in progress; if it raises nothing of it is committed; otherwise exactly the commands whose execute returned are committed, in order and once each, although a connection that fails is replaced and the command is sent again.", "quantifier": "every nesting of methods, sequences and caught exceptions and every sequence of outcomes of the database", "why_tests_cant": "failures at every point of every program", "anchors": ["pyslet/odata2/sqlds.py: SQLTransaction.begin, execute, commit, rollback, close, retry_decorator"]}
{"id": "C94", "title": "A POST is not sent twice without an answer", "statement": "If bytes of a request whose method is not idempotent were given to a socket, the client starts to send it again only after the server has begun to answer it.", "quantifier": "every number of requests, connections and servers, every interleaving of their steps, every error of a socket or the parser at any point", "why_tests_cant": "unbounded schedules and crash points", "anchors": ["pyslet/http/client.py: Connection.connection_task, close, _start_request, _send_request_data, continue_sending, switch_protocols, ClientRequest.connect, disconnect, response_finished, finished, can_retry, resend, ClientResponse.handle_disconnect, handle_message"]}
{"id": "C95", "title": "The number of attempts is bounded", "statement": "A request is started at most once for each time that it is queued (by the user, or by the client after a redirection or a challenge), plus max_retries.", "quantifier": "every number of requests, connections and servers, every interleaving of their steps, every error of a socket or the parser at any point", "why_tests_cant": "unbounded schedules and crash points", "anchors": ["pyslet/http/client.py: Connection.connection_task, close, _start_request, _send_request_data, continue_sending, switch_protocols, ClientRequest.connect, disconnect, response_finished, finished, can_retry, resend, ClientResponse.handle_disconnect, handle_message"]}
{"id": "C96", "title": "Pipelined responses belong to their requests", "statement": "What is received on a connection is taken for the response to the oldest request that was started there and has no complete response; a request that is not idempotent is started only when no response is awaited.", "quantifier": "every number of requests, connections and servers, every interleaving of their steps, every error of a socket or the parser at any point", "why_tests_cant": "unbounded schedules and crash points", "anchors": ["pyslet/http/client.py: Connection.connection_task, close, _start_request, _send_request_data, continue_sending, switch_protocols, ClientRequest.connect, disconnect, response_finished, finished, can_retry, resend, ClientResponse.handle_disconnect, handle_message"]}
{"id": "C97", "title": "The messages of a connection are sent whole and in order", "statement": "What was given to a socket is at any time a prefix of the messages of the requests started on it, one after the other; when a request is started all earlier messages have been given to the socket.", "quantifier": "every number of requests, connections and servers, every interleaving of their steps, every error of a socket or the parser at any point", "why_tests_cant": "unbounded schedules and crash points", "anchors": ["pyslet/http/client.py: Connection.connection_task, close, _start_request, _send_request_data, continue_sending, switch_protocols, ClientRequest.connect, disconnect, response_finished, finished, can_retry, resend, ClientResponse.handle_disconnect, handle_message"]}
{"id": "C98", "title": "A status that is reported was received", "statement": "Whenever finished() is called with a status other than 0, the server had sent a status line with that status as a response to that request.", "quantifier": "every number of requests, connections and servers, every interleaving of their steps, every error of a socket or the parser at any point", "why_tests_cant": "unbounded schedules and crash points", "anchors": ["pyslet/http/client.py: Connection.connection_task, close, _start_request, _send_request_data, continue_sending, switch_protocols, ClientRequest.connect, disconnect, response_finished, finished, can_retry, resend, ClientResponse.handle_disconnect, handle_message"]}
{"id": "C99", "title": "The WHERE clause groups operators as the filter does", "statement": "The SQL text made of a $filter, with its parameters put in by the driver and read with SQL's operator levels, has exactly one reading, and that reading is the tree of the filter; an operator or function that has no SQL form raises an exception.", "quantifier": "every $filter expression tree over any property names and literal values, every parameter style", "why_tests_cant": "expression trees are unbounded; brackets are wrong only for some nestings of operators", "anchors": ["pyslet/odata2/sqlds.py: SQLOperatorPrecedence, SQLParams, QMarkParams, FormatParams, PyFormatParams, NumericParams, NamedParams, SQLCollectionBase.sql_expression, sql_bracket, sql_expression_* , where_clause, SQLiteEntityCollectionBase.sql_expression_*"]}
