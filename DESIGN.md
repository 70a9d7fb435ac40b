# Formal model of pyslet in Rocq (Coq 8.16.1)

Source modelled: `/repo` (anna-liao/pyslet, pinned). The code supports Python 2 and 3;
where the two differ the model follows **Python 3** (the `else:` branches of `pyslet/py2.py`).

## Conventions

* Characters are code points in `Z`; text strings and byte strings are `list Z`.
  Indices and lengths are `nat`, numeric data is unbounded `Z` (Python ints).
* An exception is a value: `res A := Ok a | Err e` (`theories/Py.v`).
* A method that mutates its object is a function returning the new object value.
* `while` loops become structural recursion or recursion on explicit fuel; out of fuel is
  `Err Timeout`, a value no Python code returns, so that a theorem of the form `f x = Ok y`
  excludes it.
* Each module has `XModel.v` (definitions, each with the file/lines it models), `XProofs.v`
  (lemmas) and `XProps.v` (the property theorems only, plus examples of satisfied hypotheses and
  `Print Assumptions`). Specifications independent of the model are in `XSpec.v` or at the top of
  `XProps.v`.
* `..._refuted` theorems exhibit a concrete input on which the code violates the property;
  `..._partial` theorems prove a property on part of its domain, what is missing is stated beside it.

## Trusted base

* Coq's kernel (8.16.1), including its `vm_compute` reduction machine.
* `Print Assumptions` for each theorem: listed under "Assumptions" below.
* The reading of `/repo` that the models embody. Nothing is extracted or run against the code.

## Plan, per property

| id | modelled | proof |
|----|----------|-------|
| C01 | `CharClass` range lists, all edits, bisection | invariant + refinement to sets of code points |
| C02 | `__eq__` on range lists | uniqueness of the canonical form |
| C03 | `_block_cache`, `test` block filling loop | cache invariant over all histories |
| C04 | objects sharing range cells in a heap | refutation + what does hold |
| C05 | `__unicode__` and a model of Python `re` sets | refutation at two classes, proof for all others |
| C06 | `detect_encoding`, encoders as spec | proof for covered texts, refutation for BOM + non-ASCII |
| C07-C09 | `BasicParser` as state machine (src,pos) | per-operation lemmas, induction over call sequences |
| C10-C12,C18 | escape/unescape/canonicalize/parse_uric/encode_unicode_uri | induction on strings |
| C13,C14 | URI parser state machines, split_server | induction on strings |
| C15,C16 | normalize_segments loop with its index, relativize | loop invariant, walk semantics |
| C17 | canonicalize for generic/server/http/urn URI | idempotence |
| C19,C20 | urn.py with UTF-8 codec | induction, UTF-8 round trip |
| C21-C28 | iso8601 Date/Time/TimePoint/Duration with integer seconds | integer arithmetic; finite sweeps lifted by period 400 years |
| C29-C31 | Pipe: atomic critical sections as steps, arbitrary schedules | invariant over op lists |
| C32 | BufferedStreamWrapper over an arbitrary chunked source | invariant |
| C33 | file system as a map with atomic rename, crash between steps | invariant over step lists |
| C34,C35 | lock/block tables with atomic table operations interleaved | invariant over schedules |
| C36 | BlockStream (BstModel.v: flush, seek, readinto, write, open) over a table of rows holding the block's data; single client | refinement of a byte file (BstSpec.v) by an invariant with a ghost 'contents at the last flush' |
| C37,C38 | HttpModel.v: OctetParser and the tokenizer of WordParser as functions of the bytes left | equivalence with an inductive grammar (HttpSpec.v), induction on byte strings |
| C39,C40 | HttpParamModel.v, HttpVersionModel.v: WordParser methods as functions of the words left, parameter classes | the grammar of C38 gives the words of a formatted value; induction on parameter lists |
| C41,C42 | see C10-C20 files | induction on strings |
| C43,C44 | further iso8601 laws (see C21-C28) | integer arithmetic |
| C45-C47 | Pipe as in C29-C31: wake-ups, time-outs, reader event | invariants over all runs |
| C48-C50 | CookieModel.v: the tree of CookieDNodes as an inductive tree of insertion-ordered dictionaries; punycode is a parameter, times are integers, access_time is left out | refinement of a jar (CookieSpec.v) over all histories |
| C51,C52 | the same tree: suffix rules, test_public_domain, get_registered_domain | invariant relating each node's flags and depth to the set of rules, independent of their order |
| C53-C58 | MemdsModel.v: memds.py (entity stores, association indexes and their hooks, cascading deletes, navigation collections) and the bindings of csdl.py; keys only, set iteration order any permutation | invariants over all histories (symmetry, integrity, multiplicity, requirements); induction over the cascade with the number of unmarked entities as measure; effects of each operation against the relation 'linked' |
| C59,C60 | PagingModel.v: set_page, iterpage, next_skiptoken, order_entities of csdl.py; stable sorts, hexadecimal tokens with int(s, 16) | arithmetic of slices; a stable sort refines the order it is given; uniqueness of sorted permutations |
| C61,C62 | SqlPageModel.v: page_generator and the clauses of sqlds.py; SQL with three-valued logic, ORDER BY, LIMIT, OFFSET; skiptokens as lists of values (literals left out) | the condition of a token is the order itself; invariant over pages with arbitrary tables between them |
| C63-C65 | ExprModel.v: the expression parser with its operator stack, the literal parsers, the formatter (odata2/core.py, csdl.py); Unicode tables and str.lower abstract with stated properties (ExprSpec.env_ok) | the grammar as an inductive relation with precedence levels; simulation of the operator stack by induction on derivations; the formatter produces derivations; fuel is shown to suffice |
| C66-C71 | EvalModel.v: evaluate of all expression classes, promote_types, the casts, check_filter (odata2/core.py) and the range checks of the values (csdl.py); binary64 rounding of integers and quotients as integer arithmetic; floats, decimals, times and Unicode abstract (record lib, EvalSpec.lib_ok) | the types of expressions as an inductive relation, soundness by mutual induction; the join of types by computation over all types; div by an argument about the rounding of quotients below 2^53 |
| C72-C78 | MsgModel.v: Message, Request and Response of http/messages.py as two state machines (receiving: recv_mode, recv and all modes; sending: start_sending, send_header, send_body) and the client's loop _recv_task with packets as nondeterministic input; gzip, socket errors and server.py's loop left out | MsgSpec.v gives the grammar of messages (fields, chunked coding, framing of RFC 2616 4.4) as inductive relations; receiving by induction on the bytes still to come with the invariant buffer ++ packets = rest of the text; sending by induction on the source |
| C79-C81 | CmModel.v: content particles and their particle maps (a heap from numbered name particles to maps), build_model, is_deterministic, the cursor; CdModel.v: the parser of element declarations on the text that has not been read | CmSpec.v gives content models as regular expressions and the grammar of declarations as inductive relations; the maps are characterized by first and follow sets (induction on the particle, one invariant per occurrence), the cursor by induction on the children; the parser by mutual induction on the grammar (completeness) and on the fuel (soundness) |
| C82-C87 | XtModel.v: the parser of elements and content on the text that has not been read, end-of-line handling over reads, escaping, canonical children, serialization with pretty printing, equality of elements | XtSpec.v gives the grammar of XML elements as inductive relations (with the laxities of the parser as separate relations), eol, alike, writable; the parser is characterized exactly by mutual induction (XtParse, XtMarkup, XtElement); the writer by a normal form of trees (XtCanon, XtTree: canonical children, recursively, sorted attributes) which is what is written, what is read, and what equality compares (XtWrite, XtEq) |
| C88-C92 | SpModel.v: the pool of SQLEntityContainer as a transition system of threads: each block under cpool_lock up to its end or its wait is a step, opening and closing are steps of their own; notify wakes the longest waiter, time-outs and errors of open at any time, deaths of threads, pool_cleaner, close(). Simplified: the clock is nondeterministic (expired, old), thread identifiers are not reused, threads die only outside the methods, close_connection and break_connection do not raise, no SQLite in-memory databases, `thread.isAlive()` exists (Python before 3.9) | SpSpec.v: what callers see, computed from the history of events; inductive invariants over runs (SpInv: tables; SpSys, SpStep: threads, handles; SpLive: connections are open; SpWake: waiters; SpFill, SpEnd: after close()); the refuted theorems are explicit runs |
| C93 | StModel.v: begin, execute, commit, rollback, close and the retry decorator over a stream of outcomes of the database, and programs built of methods that follow the documented pattern. Simplified: failed commands and commits have no effect, rollback is supported, cursor.close does not fail, one transaction object per connection | induction on programs: inside of a transaction the log is the log at its start and what is pending |
| C94-C98 | HcModel.v: the connections and requests of http/client.py as a transition system: each step of connection_task for one connection, chosen freely; sockets, servers and errors are nondeterministic. Simplified: responses are a status line and a moment at which they are complete (see C73-C78), times are left out, the connection to which a request is sent again and whether there are a Location or credentials are a parameter (resends), nothing after an upgrade, exceptions of set_url and queue_request in resend left out, max_retries is the only bound | HcSpec.v: functions of the history of events; invariants of runs: where each request is (HcReq, HcStep), what each connection awaits and has buffered (HcAll, HcEnd, HcCompl), what each event says of the history before it (HcHist); the refuted theorems are explicit runs (HcProps) |
| C99-C101 | SxModel.v: sql_expression and what it dispatches to, the precedence table, the five parameter styles, the SQLite overrides. Simplified: table and column lookup and prepare_sql_value are parameters, add_join and the FROM clause are left out, a navigation property used alone is an exception, MySQL's quoting is left out | SxSpec.v: a driver that puts the parameters in (PEP 249), a scanner and a grammar of SQL with operator levels, the intended tree; SxPrint: the formatter prints the tree; SxScan: the driver and the scanner undo the printing; SxRead: the grammar is unambiguous and reads the printed tokens as the rotated tree; SxSem/SxFilter: SQL's three-valued semantics compared with EvalModel |
| C102-C107 | CpModel.v: the tables of http/client.py's Client as a transition system of threads: each block under managerLock up to its end or its wait is a step; notify wakes the longest waiter, time-outs at any time. Simplified: what a connection does is nondeterministic (finish any request), ages are left out (clean-ups choose any connections), cIdleTargets computed from cIdleList, cActiveThreads a set of pairs, no thread_task inside thread_task, thread identifiers not reused, an upgraded connection has nothing further queued | invariants of the tables over all runs (CpInv), over runs where no connection was replaced (CpFair), waiting threads, counts of requests, closing (CpRest); the refuted theorems are explicit runs |
| C108-C111 | WiModel.v: http/messages.py WSGIInputWrapper over any input stream (a type with read), and ChunkedReader. Simplified: close() left out; BytesIO as its bytes and position; the stream's contract is WiSpec.input_stream, which says nothing of requests beyond CONTENT_LENGTH | an invariant (what was taken from the stream is the buffer and what followed it) for every operation (WiProofs); the chunked reader meets the contract for every encoding of MsgSpec.chunked (WiChunk); refuted by explicit runs, and readlines_never_ends for all contents |
| C112-C116 | BaModel.v: http/auth.py BasicCredentials and Credentials.from_str, http/client.py add/remove/find credentials, send_header, resend, finished, messages.py 1193-1198. Simplified: canonical roots as numbers, a URL as root and path; requests and credentials are mutable objects named by numbers; base64 as binascii has it; cookies, bodies and connections left out; a redirection is its resolved URL, or none when not followed | base64 encoding against an inductive RFC 4648 relation, decoding as its inverse by induction on triples (BaProofs); prefixes against `covers` on path text; the client as a transition system with an invariant over the history of answers (BaClient); retries by an injective set of tried credentials; refuted by explicit histories of any length |
| C117-C118 | QfModel.v: qtiv2/tests.py TestForm.select and __init__. Simplified: components are the elements themselves rather than their identifiers (unique in a test), so get_part is left out; random.choice and random.shuffle as the sets of what they can give | QfSpec.v is an inductive definition of the forms of a section (chosen places, line with free slots, fillers); soundness and completeness by induction on the tree of sections; corollaries on `form`; nesting by a grammar preserved by splicing |
| C119-C122 | QnModel.v: qtiv2/variables.py TestSessionState (_next_question, _branch_target, add_duration, event_update), tests.py check_pre_conditions and get_branch_target. Simplified: what an expression gives is an arbitrary function of expression and place that may change with every event; template defaults, clones, item sessions and HTML left out; times are whole microseconds; the digest is an injective function | QnSpec.v: sessions as sequences of questions, first true rule, first place after, enclosing openings by decomposition; invariants: places increase; the walk from the back computes a stack of openings; keys are digests of increasing times |
| C123-C127 | QeModel.v: qtiv2/expressions.py operators on values (multiple, ordered, containerSize, isNull, index, member, delete, contains, substring, not, and, or, anyN, match, stringMatch, sum, product, subtract, integerDivide, integerModulus, lt, gt, lte, gte) and expression trees; qtiv2/variables.py checks, values, equality, Mapping.map_value, MatchTable and InterpolationTable lookup. Simplified: real numbers, files, URIs and records opaque; dictionaries as lists of entries in insertion order; str.lower a parameter | QeSpec.v: well-formed values and their members (bags by counting), three-valued logic by quantifying over all fillings of NULLs, numbers by sums and floor division equations; inductions over lists, dictionaries and expression trees |
| C128-C130 | QrModel.v: qtiv2/processing.py rules; variables.py copy_value, set_value from a value, SessionState, ItemSessionState; core.py declarations; expressions.py variable, default, correct. Simplified: rules take any function of the session as expression, with expression trees as an instance; submitted values are typed; the state after an exception, HTML and durations are left out | QrSpec.v: a big-step relation for following rules; kinds of rules as an inductive predicate; sessions as finite maps with the item's names; induction over nested rules and over histories |
| C131-C132 | XnModel.v: xml/namespace.py NSNode, names, writing of NSElement, XMLNSParser. Simplified: elements are written to and read from tags (qualified name, attributes, children); character data, escaping, sorting of attributes and class lookup (get_nsdoc_class uses a table the parser does not have) are left out | XnSpec.v: declarations in force by position in a scope; induction over scopes and trees, with the invariant that every prefix of the writer's scope stands for the same in the reader's |
| C133 | AnModel.v: http/messages.py MediaRange, AcceptItem, AcceptList, AcceptToken and its lists; params.py partial_match. Simplified: q-values are whole thousandths | AnSpec.v: quality of a type as a relation (most specific range that matches), choice as a split of the list of offers; sorting by a total preorder built from lexicographic orders |
| C134 | AcModel.v: http/messages.py to_bytes, from_str and the require_ methods of Accept items, lists and tokens; params.py parse_qvalue. Simplified: q-values are whole thousandths; more decimals are not modelled | AcSpec.v: the same item (lower case, same mapping), the grammar of q-values as a relation; lexing of what is written into words (as in C39), parsing of words, sorting commutes with what reading changes; the 1001 q-values by computation. AcAccept.v: the grammar of the headers, in words, and that exactly these are read |
| C135 | CrModel.v: http/messages.py AcceptRanges, Allow, CacheControl.from_str, ContentRange, require_contentrange; grammar.py parse_tokenlist; params.py bstr. Simplified: no limit on len() | CrSpec.v: the grammars over words, the positions of a range; inversion and completeness of the parsers on words, lexing of what is written (as in C39), a sorted list is that of any permutation |
| C136 | CcModel.v: http/messages.py CacheControl but from_str. Simplified: values are what str() makes of them, names and keys are character strings; the dictionary is an association list | CcSpec.v: the last directive of a name, the grammar of cache directives over words; lists by induction, lexing of what is written (as in C39), unique reading by the position of commas |
| C137 | XdModel.v: xml/xsdatatypes.py booleans, integers, decimals, _round_digits, _strip_zeros. Simplified: floats are exact fractions, decimal_to_str is given the number of places, no limit on the length of integers | XdSpec.v: the lexical forms, rounding as the nearest multiple of a power of ten; induction on the digits from the last, with the carry |
| C138 | EnModel.v: xml/xsdatatypes.py Enumeration. Simplified: white space is that of ASCII, no readers that change case, no class attributes; dictionaries are association lists | EnSpec.v: the names of a value and the words of a text as inductive relations; invariant of the loop over the aliases, round trips by induction on lists, sorted lists are unique |
| C139 | VfModel.v: vfs.py normpath for paths with no drives. Simplified: the list and the index are two lists, and the loop has fuel, which is shown to be enough | VfSpec.v: the place a path leads to, by steps; the loop is related to one walk over the components, and the walk to the steps, by induction |
| C140 | VjModel.v: vfs.py join, split, splitext, is_dirlike, abspath, realpath for paths with no drives. Simplified: the pieces are one text | VfSpec.v: the place a path leads to; invariant of the loop over the paths on the last separator |

## Assumptions

Every theorem named in MANIFEST.json is followed in its file by `Print Assumptions`, and each prints
"Closed under the global context": no axiom, of the standard library or other, is used. (`vcheck` also
names seven constants `Coq.ssr.ssrunder.Under_rel.*`: they belong to a sealed module of the standard
library that is loaded with the tactic language; no theorem depends on them.) Nothing is `Admitted`, there
are no `Axiom`, `Parameter`, functor or module type. Section variables are universally quantified in the
theorems' statements when a section closes.

## What is modelled and what is not

Definitions cite the lines of /repo they model; the header of each model lists its simplifications. In short:

| part of /repo | modelled | left out |
|---|---|---|
| pyslet/unicode5.py | CharClass and its edits, equality, test and cache, BasicParser, encoding detection | category tables (data), `re` beyond character sets |
| pyslet/rfc2396.py, urn.py | parsing, escaping, canonicalize, resolve, relativize, from_unicode | file system paths (FileURL), HTTPURL.canonicalize's octet details |
| pyslet/iso8601.py | Date, Time, TimePoint, Duration, truncated dates, the parsers and writers | fractions of seconds are integers only, truncated times, designators other than "T", the real clock (gmtime(0) is 1970) |
| pyslet/streams.py | Pipe (clock as nondeterministic time-outs, no spurious wake-ups, close as three steps), BufferedStreamWrapper (source as bytes and a chunk schedule) | io base class methods |
| pyslet/blockstore.py | FileBlockStore (process crashes between steps, rename atomic, keys of at least five characters without separators), LockStore (synchronized monotone clock, distinct owners), StreamStore, BlockStream (single client) | EDMBlockStore's data service |
| pyslet/http/grammar.py, params.py | OctetParser, WordParser, tokens, quoted strings, parameters, media types, product tokens, versions | int() digit limits; select options |
| pyslet/http/cookie.py | CookieStore, domain tree, public suffixes (punycode a parameter, integer times) | parsing of Set-Cookie dates, access times |
| pyslet/http/messages.py | Message, Request, Response as state machines, chunked coding, body modes, WSGIInputWrapper, ChunkedReader | gzip, errors of sockets |
| pyslet/http/client.py, auth.py | connection and request state machines, connection pool, the client's loop, credentials | TLS, timeouts by the real clock, cookies on resend |
| pyslet/odata2/core.py, csdl.py | expression parser, formatter and evaluator, casts, entity bindings, paging, ordering | $expand parsing, feeds and XML, float text |
| pyslet/odata2/memds.py | entity stores, association indexes, cascading deletes (keys only, sequential) | auto_key |
| pyslet/odata2/sqlds.py | paging, expressions to SQL, connection pool, transactions | joins, schema creation, drivers |
| pyslet/xml/structures.py, parser.py | content particles, determinism, content model cursor, element declarations, element content, end-of-line handling, serialization | DTD processing other than content models, parameter entities, SGML options, namespaces |
| pyslet/wsgi, http/server | WSGI input only | the applications, sessions |
| pyslet/qtiv2 | test forms, test sessions, expressions, mappings, lookup tables, response and outcome rules where listed above | interactions, items' HTML, real numbers, template defaults |
| pyslet/imscp*, imscc*, imsmd*, imsblti*, qtiv1, qml420, html401, rfc4287, rfc5023, vfs | nothing | everything: classes whose behaviour is the schema they declare, or the operating system |

Not expressible in these models: running time and memory, the operating system's scheduling fairness, the
content of generated Unicode tables, behaviour of other libraries (sqlite3, ssl, gzip, lxml).
