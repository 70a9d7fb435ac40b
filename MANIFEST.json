{
 "claims": [
  {
   "property": "C01",
   "status": "proved",
   "theorems": [
    "c01_charclass_set_semantics"
   ],
   "note": "all histories except subtract_* on a class that may still share range cells with a copy (C04) and self-subtraction (C41)"
  },
  {
   "property": "C02",
   "status": "proved",
   "theorems": [
    "c02_charclass_eq_extensional"
   ],
   "note": "same histories as C01"
  },
  {
   "property": "C03",
   "status": "proved",
   "theorems": [
    "c03_charclass_cache_coherent",
    "c03_shared_cells_refuted"
   ],
   "note": "same histories as C01; refuted when a copy shares cells"
  },
  {
   "property": "C04",
   "status": "partial",
   "theorems": [
    "c04_copy_independent_partial",
    "c04_copy_independent_refuted"
   ],
   "note": "the property is false of the code: subtracting from a copy edits the original; proved for the edits that are safe"
  },
  {
   "property": "C05",
   "status": "partial",
   "theorems": [
    "c05_charclass_regex_partial",
    "c05_full_class_refuted",
    "c05_not_backslash_refuted"
   ],
   "note": "false at exactly two classes, proved for all others"
  },
  {
   "property": "C06",
   "status": "partial",
   "theorems": [
    "c06_never_misclassified",
    "c06_recognised_partial",
    "c06_bom_refuted"
   ],
   "note": "UTF-16 data not starting with ASCII gives None (refuted); otherwise right; never wrong"
  },
  {
   "property": "C07",
   "status": "proved",
   "theorems": [
    "c07_current_char",
    "c07_match_pure",
    "c07_lookahead",
    "c07_parse_production",
    "c07_parse_insensitive_refuted",
    "c07_require_empty_refuted"
   ],
   "note": "parse_insensitive needs a length-preserving lower (refuted otherwise)"
  },
  {
   "property": "C08",
   "status": "proved",
   "theorems": [
    "c08_parse_digits",
    "c08_parse_hex_digits",
    "c08_parse_integer"
   ],
   "note": ""
  },
  {
   "property": "C09",
   "status": "proved",
   "theorems": [
    "c09_most_advanced_error",
    "c09_named_error"
   ],
   "note": ""
  },
  {
   "property": "C10",
   "status": "proved",
   "theorems": [
    "c10_escape_round_trip",
    "c10_unescape_text",
    "c10_unescape_truncated_refuted"
   ],
   "note": "Round trip for every byte string and every pair of tests that escapes \"%\" and 8-bit bytes; unescape_data is characterised on every text. Finding: an incomplete escape at the end of the text is silently dropped."
  },
  {
   "property": "C100",
   "status": "partial",
   "theorems": [
    "text_without_values",
    "styles_agree",
    "params_in_order",
    "strftime_unescaped_refuted"
   ],
   "note": "Names without double quotes (and without % for the format styles); not SQLite with a format style, whose strftime formats are not escaped (strftime_unescaped_refuted)."
  },
  {
   "property": "C101",
   "status": "partial",
   "theorems": [
    "sql_filter_partial",
    "null_eq_refuted",
    "null_ne_refuted",
    "wildcard_refuted",
    "case_refuted",
    "indexof_refuted"
   ],
   "note": "Integers and strings, and, or, comparisons, add, sub, mul (unary not has no SQL form at all: NotImplementedError), endswith, startswith, substringof, concat, length; no nulls, patterns without % and _, LIKE respecting case, regular nesting (C99). Each restriction is needed: see the refuted theorems (the two evaluators give different answers for null eq null, null ne 1, % in a pattern, LIKE without case, and indexof counting from 1)."
  },
  {
   "property": "C102",
   "status": "proved",
   "theorems": [
    "one_thread",
    "idle_not_used",
    "own_target",
    "own_requests"
   ],
   "note": "Also when connections are killed. What happens on a connection is nondeterministic here, see C94-C98."
  },
  {
   "property": "C103",
   "status": "partial",
   "theorems": [
    "counted_bound",
    "bound_partial",
    "bound_refuted"
   ],
   "note": "The connections that the client counts are always at most max_connections (counted_bound). All connections are counted as long as no connection is given back (or upgraded) after active_cleanup removed it and its thread opened another one to the same target; then the other one is forgotten (bound_refuted: _deactivate_connection looks for the key and not for the connection)."
  },
  {
   "property": "C104",
   "status": "partial",
   "theorems": [
    "waits_for_room_partial",
    "wait_ends",
    "waits_for_room_refuted"
   ],
   "note": "Condition of C103, and no connection is upgraded: _upgrade_connection frees a place without notify, and a thread with no time-out then waits although the pool is empty (waits_for_room_refuted)."
  },
  {
   "property": "C105",
   "status": "partial",
   "theorems": [
    "all_finished_partial",
    "finished_at_most",
    "forgotten_refuted"
   ],
   "note": "As long as active_cleanup removes no active connection (close() uses it too): a killed connection is in no table any more, and its requests are not finished (forgotten_refuted; the documentation promises an error). An upgraded connection has no further requests queued in the model."
  },
  {
   "property": "C106",
   "status": "partial",
   "theorems": [
    "closed_partial",
    "closed_refuted"
   ],
   "note": "If no thread is waiting in queue_request at that moment: such a thread does not look at the flag again and opens a connection (closed_refuted)."
  },
  {
   "property": "C107",
   "status": "partial",
   "theorems": [
    "dead_not_used_partial",
    "cleanup_works_partial",
    "dead_used_refuted",
    "cleanup_fails_refuted"
   ],
   "note": "Condition of C103. Otherwise the killed connection is put into the idle pool and given to another thread (dead_used_refuted), and the next active_cleanup raises KeyError (cleanup_fails_refuted)."
  },
  {
   "property": "C108",
   "status": "partial",
   "theorems": [
    "input_file_partial"
   ],
   "note": "Proved for every stream and every sequence of read(n) with n >= 0, read(), readline, tell, and seeks that do not go forward beyond the bytes kept (for those see C111: false)."
  },
  {
   "property": "C109",
   "status": "partial",
   "theorems": [
    "input_never_waits_partial",
    "input_file_partial",
    "conn_stream",
    "raw_stream",
    "chunked_stream",
    "chunked_input_partial",
    "past_the_end_waits_refuted",
    "past_the_end_refuted"
   ],
   "note": "Proved: the stream may do anything when asked for more than CONTENT_LENGTH, since it never is; the chunked coding is decoded for every correct encoding. False after a seek beyond the end of the body: the next read asks for everything (read(n) with n negative), refuted by past_the_end_*."
  },
  {
   "property": "C11",
   "status": "proved",
   "theorems": [
    "c11_canonical_data",
    "c11_same_canonical_form",
    "c11_malformed_refuted"
   ],
   "note": "For all texts with well-formed escapes. Finding: malformed escapes raise."
  },
  {
   "property": "C110",
   "status": "partial",
   "theorems": [
    "readlines_hint",
    "readlines_never_ends",
    "readinto_fails"
   ],
   "note": "Proved for readlines(hint) with a hint that is exceeded. The rest is false: iteration and readlines() never end, for any content (the generator has no way out); readinto raises TypeError in Python 3 whenever there is something to read."
  },
  {
   "property": "C111",
   "status": "partial",
   "theorems": [
    "forward_seek_refuted",
    "past_the_end_refuted"
   ],
   "note": "False: the bytes skipped are counted twice, so that a seek that takes more than one read stops early but reports the position asked for; a seek beyond the end is not an end of file."
  },
  {
   "property": "C112",
   "status": "partial",
   "theorems": [
    "basic_text",
    "basic_round_trip_partial",
    "colon_password_refuted"
   ],
   "note": "basic_text is the first half in full (base64 specified as RFC 4648 does). The round trip is proved for passwords without a colon and false for every other: from_str raises ValueError."
  },
  {
   "property": "C113",
   "status": "partial",
   "theorems": [
    "success_covers_partial",
    "only_covers_partial",
    "empty_segment_refuted",
    "empty_path_refuted"
   ],
   "note": "Proved for paths in normal form (absolute, no dot segments), 'only' for paths without empty segments inside. False with an empty segment (/a//b makes /a/other/c match) and for the empty path, which is recorded as / but tested as itself."
  },
  {
   "property": "C114",
   "status": "partial",
   "theorems": [
    "credentials_stay",
    "text_constant",
    "preemptive_partial",
    "preemptive_used_partial",
    "none_header_refuted"
   ],
   "note": "credentials_stay is the main half in full, for all histories. Pre-emptive use is proved in both directions for paths in normal form. False: every redirection to another root sends the header 'Authorization: None'."
  },
  {
   "property": "C115",
   "status": "partial",
   "theorems": [
    "removed_partial",
    "remove_last",
    "remove_unknown",
    "remove_raises_refuted"
   ],
   "note": "The list is as it should be afterwards; but an IndexError is raised unless the credentials were the last of the list."
  },
  {
   "property": "C116",
   "status": "partial",
   "theorems": [
    "tries_end_partial",
    "tries_forever_refuted",
    "redirects_forever_refuted",
    "realm_raises_refuted",
    "match_raises_refuted"
   ],
   "note": "Proved with at most one challenge in each answer, however other requests interleave. False with two challenges (the second, that nothing matches, resets what was tried), for redirections (no limit), and for credentials with a realm: matching them raises AttributeError."
  },
  {
   "property": "C117",
   "status": "partial",
   "theorems": [
    "select_form_partial",
    "form_select_partial",
    "pick_chosen",
    "required_present",
    "first_stays",
    "number_of_components",
    "shuffled_section_refuted"
   ],
   "note": "Soundness for trees in which every section selects at least one child; completeness (every allowed form can come up) where subsections are only shuffled by splitting them into items. False otherwise: a subsection that is shuffled as a whole raises AttributeError in every outcome (select is called with its identifier)."
  },
  {
   "property": "C118",
   "status": "partial",
   "theorems": [
    "test_form_partial",
    "form_nested",
    "empty_slot_refuted"
   ],
   "note": "form_nested holds for every test. test_form_partial under the condition of C117. False: a split section that selects nothing leaves None among the components."
  },
  {
   "property": "C119",
   "status": "partial",
   "theorems": [
    "next_question_ends",
    "questions_in_order",
    "finished_stays",
    "nonlinear_refuted"
   ],
   "note": "False for test parts in nonlinear mode: none of their items is ever put. Expressions are an arbitrary function of the place and may fail."
  },
  {
   "property": "C12",
   "status": "proved",
   "theorems": [
    "c12_maximal_prefix"
   ],
   "note": ""
  },
  {
   "property": "C120",
   "status": "partial",
   "theorems": [
    "next_question_partial",
    "next_question_path",
    "branch_of_section_part",
    "branch_of_part",
    "nonlinear_branches",
    "exit_section_partial",
    "section_precondition_refuted",
    "part_precondition_refuted",
    "exit_section_refuted"
   ],
   "note": "next_question_partial: exact for forms without branch rules, for the preconditions of items. False: a section or test part whose precondition does not hold is entered all the same; EXIT_SECTION goes behind the next end of any section, which may be a subsection that comes later in the section (exit_section_partial has none)."
  },
  {
   "property": "C121",
   "status": "proved",
   "theorems": [
    "add_duration_exact",
    "add_duration_finished",
    "durations_add_up"
   ],
   "note": "Times are integers (microseconds) where the code has floats."
  },
  {
   "property": "C122",
   "status": "partial",
   "theorems": [
    "keys_once_partial",
    "keys_unknown",
    "keys_current",
    "keys_once_refuted"
   ],
   "note": "For a clock that strictly increases and a digest without collisions. False when the clock gives the same time three times in a row: an expired key becomes current again and the elapsed time is negative."
  },
  {
   "property": "C123",
   "status": "partial",
   "theorems": [
    "and_decides",
    "or_decides",
    "not_exact",
    "anyn_decides_partial",
    "anyn_refuted",
    "booleans_only"
   ],
   "note": "anyN for min <= max; false otherwise (NULL where no number will do) and for bounds that refer to a NULL template variable (TypeError)."
  },
  {
   "property": "C124",
   "status": "partial",
   "theorems": [
    "multiple_members",
    "ordered_members",
    "containers_total",
    "mixed_refused",
    "record_refuted",
    "size_exact",
    "index_exact",
    "member_exact",
    "delete_exact",
    "contains_exact",
    "match_exact",
    "match_refuses",
    "match_null",
    "match_symmetric",
    "strings_exact",
    "operators_in_trees"
   ],
   "note": "False of records among the sub-expressions of multiple and ordered, which are passed over instead of refused. Floats, files, URIs opaque; records are not compared."
  },
  {
   "property": "C125",
   "status": "partial",
   "theorems": [
    "sum_exact",
    "product_exact",
    "fold_untyped",
    "subtract_exact",
    "divide_exact",
    "compare_exact",
    "comparisons_exact",
    "not_number_refused"
   ],
   "note": "Whole numbers and NULL; real numbers are not modelled."
  },
  {
   "property": "C126",
   "status": "partial",
   "theorems": [
    "evaluate_type_safe"
   ],
   "note": "Arithmetic on real numbers and comparison of records end in a marker outside of the model."
  },
  {
   "property": "C127",
   "status": "partial",
   "theorems": [
    "maps_to_total",
    "map_value_exact",
    "null_mapped_refuted",
    "match_table_exact",
    "match_table_distinct_partial",
    "first_match_refuted",
    "interpolation_exact",
    "interpolation_default"
   ],
   "note": "False: NULL is mapped to 0 instead of NULL, and of several entries of a match table with the same number the last is used, not the first. Values of mappings are whole numbers, interpolation of whole numbers only."
  },
  {
   "property": "C128",
   "status": "proved",
   "theorems": [
    "rules_exact",
    "condition_exact",
    "condition_error"
   ],
   "note": ""
  },
  {
   "property": "C129",
   "status": "partial",
   "theorems": [
    "assignment_exact",
    "assignment_refuted",
    "assignment_refused",
    "response_rules_frame",
    "template_rules_frame",
    "rules_well_formed",
    "tree_type_safe",
    "tree_lookup_exact",
    "tree_rules_well_formed"
   ],
   "note": "False of multiple containers: a value that is set loses the repeats of its members (assignment_refuted); all else of it is kept."
  },
  {
   "property": "C13",
   "status": "proved",
   "theorems": [
    "c13_recompose",
    "c13_components",
    "c13_accepted_texts",
    "c13_rejected_texts",
    "c13_str_round_trip",
    "c13_empty_scheme_refuted"
   ],
   "note": "Finding: an empty scheme (\":x\") is accepted."
  },
  {
   "property": "C130",
   "status": "partial",
   "theorems": [
    "create_exact",
    "new_value_null",
    "copy_exact",
    "file_variable_refuted",
    "begin_exact",
    "first_attempt",
    "later_attempt",
    "submit_frame",
    "scored_afresh",
    "attempts_counted"
   ],
   "note": "False of items with a file variable: creating the session fails (file_variable_refuted). HTML of forms, saving of drafts and durations are not modelled."
  },
  {
   "property": "C131",
   "status": "partial",
   "theorems": [
    "scope_exact",
    "prefix_sound",
    "new_prefix_unused",
    "read_names",
    "undeclare_refuted",
    "undeclared_prefix_refuted",
    "duplicate_attributes_refuted"
   ],
   "note": "Contrary to the recommendation an empty declaration does not undeclare the default namespace, undeclared prefixes are accepted, and of two attributes with one expanded name one is lost (refuted theorems)."
  },
  {
   "property": "C132",
   "status": "partial",
   "theorems": [
    "write_read_partial",
    "fresh_write_read",
    "attribute_namespace_refuted",
    "no_namespace_child_refuted",
    "rewrite_refuted"
   ],
   "note": "False of attributes in the namespace of an element (written without prefix), of elements in no namespace, and of some trees that were read, which cannot be written (refuted theorems); character data, escaping and order of attributes are not in this model."
  },
  {
   "property": "C133",
   "status": "partial",
   "theorems": [
    "select_type_exact",
    "select_type_order",
    "select_token_exact",
    "select_token_order",
    "select_charset_exact",
    "select_encoding_exact",
    "select_language_exact",
    "language_none_refuted",
    "tilde_refuted",
    "case_refuted"
   ],
   "note": "False of names that start with ~ (sorted after the wild card), of ranges made by hand with capital letters, and AcceptLanguageList.select_token gives the string None if nothing is acceptable (refuted theorems)."
  },
  {
   "property": "C134",
   "status": "partial",
   "theorems": [
    "token_text",
    "token_reads",
    "tokens_read",
    "tokens_write_refuted",
    "item_reads",
    "accept_reads",
    "accept_reads_each",
    "accept_any",
    "tokens_any",
    "accept_exact",
    "tokens_exact",
    "item_exact",
    "token_exact",
    "range_exact",
    "q_parameter_refuted"
   ],
   "note": "A list of tokens cannot be written at all in Python 3 (b', '.join of character strings: TypeError), and a parameter of a media range that is named q is read back as the quality (refuted theorems). Texts with a q-value of more than three decimals are outside the model."
  },
  {
   "property": "C135",
   "status": "partial",
   "theorems": [
    "range_exact",
    "range_reads",
    "range_made",
    "range_errors",
    "valid_exact",
    "length_exact",
    "allow_reads",
    "allow_exact",
    "is_allowed_exact",
    "allow_equal",
    "ranges_read",
    "ranges_exact",
    "ranges_equal",
    "comma_refuted",
    "cache_control_refuted"
   ],
   "note": "Two things are not as they should be and are refuted: a list of methods needs no commas (GET POST is read as two), and no Cache-Control header can be read at all: the parser has no ParseCacheControl. The length is not limited to what len() can give."
  },
  {
   "property": "C136",
   "status": "partial",
   "theorems": [
    "made_exact",
    "key_exact",
    "key_only_one",
    "contains_exact",
    "iter_exact",
    "distinct_exact",
    "index_exact",
    "text_says",
    "words_say_one",
    "repeated_refuted",
    "empty_value_refuted"
   ],
   "note": "Two things are not as they should be and are refuted: a repeated directive loses its first value and has the last one twice, and an empty value is written as x= which is not a directive. Values are what str() makes of them; keys are character strings."
  },
  {
   "property": "C137",
   "status": "partial",
   "theorems": [
    "boolean_round",
    "boolean_exact",
    "integer_exact",
    "integer_errors",
    "integer_round",
    "decimal_exact",
    "decimal_errors",
    "digits_rounded",
    "decimal_read",
    "decimal_canonical",
    "decimal_places",
    "minus_zero_refuted",
    "point_refuted"
   ],
   "note": "Refuted: a small negative value is written -0.0, and with no places 5 is written 5. with a point, 0 without one. Floats are exact fractions; the choice of the number of places by logarithm when none is given is not modelled."
  },
  {
   "property": "C138",
   "status": "partial",
   "theorems": [
    "read_exact",
    "read_errors",
    "made_exact",
    "default_exact",
    "write_exact",
    "value_round",
    "write_last",
    "list_round",
    "list_read_exact",
    "list_errors",
    "dict_same",
    "dict_keys_round",
    "dict_read_refuted"
   ],
   "note": "dict_from_str is wrong: its test is after the loop, so that only the last word of the text is in the dictionary, and an empty text is an UnboundLocalError (refuted theorem). The readers that change case are not modelled; white space is that of ASCII."
  },
  {
   "property": "C139",
   "status": "partial",
   "theorems": [
    "norm_exact",
    "absolute_exact",
    "absolute_same",
    "absolute_stable",
    "relative_exact",
    "relative_stable",
    "double_refuted"
   ],
   "note": "False of absolute paths with two slashes together (refuted theorem): after two at the start nothing is normalised, and /.//b is normalised to //b. Drives and UNC paths are not modelled: file systems of this class have none."
  },
  {
   "property": "C14",
   "status": "proved",
   "theorems": [
    "c14_split_server",
    "c14_split_total"
   ],
   "note": ""
  },
  {
   "property": "C140",
   "status": "partial",
   "theorems": [
    "join_place",
    "join_absolute",
    "abspath_exact",
    "split_exact",
    "split_place",
    "split_join_back",
    "splitext_exact",
    "ext_refuted",
    "split_join_refuted"
   ],
   "note": "Unlike os.path.splitext, splitext looks for the dot in the whole path, so that the extension of /v1.2/readme is .2/readme (refuted theorem). Drives and UNC paths are not modelled: file systems of this class have none."
  },
  {
   "property": "C15",
   "status": "proved",
   "theorems": [
    "c15_normal_form"
   ],
   "note": ""
  },
  {
   "property": "C16",
   "status": "partial",
   "theorems": [
    "c16_relative_resolve_partial",
    "c16_relative_resolve_dots_partial",
    "c16_refuted"
   ],
   "note": "Missing: the full statement is false (c16_refuted gives counterexamples), proved under the stated side conditions on the two URIs."
  },
  {
   "property": "C17",
   "status": "partial",
   "theorems": [
    "c17_generic_canonical",
    "c17_server_canonical_partial",
    "c17_url_equality_partial",
    "c17_generic_equality",
    "c17_refuted"
   ],
   "note": "The full statement is false for server-based URLs with malformed parts (c17_refuted); proved under side conditions."
  },
  {
   "property": "C18",
   "status": "proved",
   "theorems": [
    "c18_encode_unicode_uri",
    "c18_ascii_unchanged"
   ],
   "note": ""
  },
  {
   "property": "C19",
   "status": "proved",
   "theorems": [
    "c19_urn_translation",
    "c19_zero_byte"
   ],
   "note": ""
  },
  {
   "property": "C20",
   "status": "partial",
   "theorems": [
    "c20_urn_grammar",
    "c20_urn_equality",
    "c20_urn_canonical",
    "c20_refuted"
   ],
   "note": "Findings (c20_refuted): \"urn:\" raises TypeError, an empty NSS is accepted, a fragment is ignored by equality. Everything else is proved."
  },
  {
   "property": "C21",
   "status": "proved",
   "theorems": [
    "c21_absolute_day",
    "c21_out_of_range",
    "c21_dates",
    "c21_date_order",
    "c21_zero_refuted"
   ],
   "note": "Day 0 is silently accepted as 0001-01-01 (c21_zero_refuted)."
  },
  {
   "property": "C22",
   "status": "partial",
   "theorems": [
    "c22_offset",
    "c22_compose",
    "c22_overflow_partial",
    "c22_units",
    "c22_day_zero_refuted"
   ],
   "note": "Everything except an offset to the day just before 0001-01-01, which does not raise (c22_day_zero_refuted)."
  },
  {
   "property": "C23",
   "status": "proved",
   "theorems": [
    "c23_ordinal",
    "c23_ordinal_only",
    "c23_week",
    "c23_week_only",
    "c23_julian",
    "c23_day_of_week",
    "c23_zero_refuted"
   ],
   "note": "Also: nothing but days of the year/weeks of the year is accepted, except number 0 (c23_zero_refuted)."
  },
  {
   "property": "C24",
   "status": "partial",
   "theorems": [
    "c24_format",
    "c24_format_reduced",
    "c24_parse",
    "c24_round_trip",
    "c24_sound_partial",
    "c24_sound_refuted"
   ],
   "note": "Round trip proved in full. Soundness of the parser holds only for a prefix and up to the texts listed in odd; the full claim is refuted (c24_sound_refuted)."
  },
  {
   "property": "C25",
   "status": "partial",
   "theorems": [
    "c25_calendar_earliest",
    "c25_calendar_found_partial",
    "c25_month_earliest",
    "c25_year_earliest",
    "c25_ordinal_earliest",
    "c25_ordinal_found_partial",
    "c25_week_earliest",
    "c25_week_found_partial",
    "c25_weekonly_earliest",
    "c25_found_refuted"
   ],
   "note": "Whatever is returned is the earliest match. That a match is found when there is one holds for days up to 28, days of year up to 365, weeks up to 52; beyond it is refuted (c25_found_refuted)."
  },
  {
   "property": "C26",
   "status": "partial",
   "theorems": [
    "c26_offset_exact",
    "c26_shift_instant",
    "c26_shift_defined_partial",
    "c26_total_refuted"
   ],
   "note": "Integer components. offset for hour 24 and shifts of the local time by more than one day raise (c26_total_refuted)."
  },
  {
   "property": "C27",
   "status": "partial",
   "theorems": [
    "c27_compare",
    "c27_unix_time",
    "c27_from_unix_time",
    "c27_inverse",
    "c27_epoch",
    "c27_midnight_refuted"
   ],
   "note": "Comparison, unix time both ways proved; the 24:00 clause is refuted for UTC times (c27_midnight_refuted)."
  },
  {
   "property": "C28",
   "status": "partial",
   "theorems": [
    "c28_round_trip",
    "c28_text",
    "c28_parse",
    "c28_sound_partial",
    "c28_order_refuted"
   ],
   "note": "Round trip for all graded calendar durations; rejection holds only on a prefix (out-of-order designators end the duration: c28_order_refuted)."
  },
  {
   "property": "C29",
   "status": "partial",
   "theorems": [
    "c29_fifo",
    "c29_returns",
    "c29_returned_partial",
    "c29_returned_refuted"
   ],
   "note": "FIFO for every schedule and any number of threads: accepted = taken ++ discarded ++ unread. What the calls of one reading thread return is what was taken, except that a readall that times out loses bytes (refuted)."
  },
  {
   "property": "C30",
   "status": "partial",
   "theorems": [
    "c30_buffered_partial",
    "c30_buffered_refuted",
    "c30_blocked_writer_refuted",
    "c30_canwrite",
    "c30_room",
    "c30_bound"
   ],
   "note": "canwrite and room hold in every reachable state. buffered() never under-reports and is exact without readmatch; with readmatch it over-counts (refuted), and a writer can block on an empty pipe."
  },
  {
   "property": "C31",
   "status": "partial",
   "theorems": [
    "c31_eof_partial",
    "c31_readall_partial",
    "c31_canread",
    "c31_eof_refuted",
    "c31_mode_refuted"
   ],
   "note": "Holds unless an empty bytearray is written (refuted there); readall does not restore the non-blocking mode (refuted)."
  },
  {
   "property": "C32",
   "status": "partial",
   "theorems": [
    "c32_constructs",
    "c32_transparent",
    "c32_peek",
    "c32_seekable_partial",
    "c32_not_seekable",
    "c32_short_is_seekable",
    "c32_negative_seek_refuted"
   ],
   "note": "Transparent for every source, chunking and history; after a failed seek to a negative offset tell and peek are wrong (refuted)."
  },
  {
   "property": "C33",
   "status": "partial",
   "theorems": [
    "c33_any_point",
    "c33_retrieve_partial",
    "c33_durable",
    "c33_store_outcome",
    "c33_store_completes",
    "c33_retrieve_refuted"
   ],
   "note": "Every interleaving and every stop of a client between system calls (process crash; loss of unsynced data in a power failure is not modelled). A delete during a retrieve makes it raise OSError (refuted)."
  },
  {
   "property": "C34",
   "status": "partial",
   "theorems": [
    "c34_exclusive_partial",
    "c34_exclusive_unexpired",
    "c34_owner_releases_partial",
    "c34_error_after_timeout",
    "c34_available",
    "c34_release",
    "c34_slow_unlock_refuted",
    "c34_memds_refuted"
   ],
   "note": "Mutual exclusion and owner-only release proved for every interleaving and timing of any number of clients over an entity set with optimistic concurrency (sqlds), assuming no unlock is suspended for a second or more between looking at the time and deleting its lock (the assumption in the code's own comment); without that assumption, or with the in-memory data service, the claim is false: counterexample executions proved. LockError-only-after-timeout holds for all executions."
  },
  {
   "property": "C35",
   "status": "proved",
   "theorems": [
    "c35_no_loss_anytime",
    "c35_no_loss",
    "c35_exact",
    "c35_no_orphans",
    "c35_locks_released",
    "c35_store_alone",
    "c35_update_alone",
    "c35_delete_alone",
    "c35_delete_stream_alone",
    "c35_shared_refuted",
    "c35_lock_error_refuted",
    "c35_deadlock_refuted"
   ],
   "note": "Locks are taken to exclude (C34 says when). No lost block: proved for all interleavings. No orphans: proved when each stream is used by one client at a time; false otherwise (c35_shared_refuted). A LockError in store_block leaves a dangling reference (c35_lock_error_refuted); two update_block calls can wait for each other until timeout (c35_deadlock_refuted)."
  },
  {
   "property": "C36",
   "status": "proved",
   "theorems": [
    "c36_file",
    "c36_flush",
    "c36_new",
    "c36_read_all",
    "c36_write_all",
    "c36_append_refuted",
    "c36_truncate_refuted",
    "c36_seek_beyond_refuted",
    "c36_seek_negative_refuted",
    "c36_write_nothing_refuted"
   ],
   "note": "c36_file is the refinement of the byte file.  Shown false by concrete theorems and so left out of the claim: mode 'a' gives a stream that can be neither read nor written; 'w' on a stream with contents drops its blocks but keeps its size, after which reads and writes raise IndexError; seek beyond the last block then read or write raises IndexError; a negative position is accepted and reads bytes of the last block; write(b'') beyond the end at a block boundary extends the stream."
  },
  {
   "property": "C37",
   "status": "proved",
   "theorems": [
    "c37_decode",
    "c37_parse",
    "c37_unforced",
    "c37_unforced_parse",
    "c37_unforced_refuted"
   ],
   "note": "Shown false: force=False omits the quotes only for valid tokens -- the empty string is returned as is (and is read back as no word), and bytes from 128 on are not quoted although check_token rejects them."
  },
  {
   "property": "C38",
   "status": "proved",
   "theorems": [
    "c38_words",
    "c38_error",
    "c38_word_ok",
    "c38_concat",
    "c38_unterminated",
    "c38_unterminated_refuted",
    "c38_token_refuted"
   ],
   "note": "c38_words is an iff with a grammar (HttpSpec.v).  Shown false: that unterminated quoted strings are rejected (they are accepted as the last word, and decoding drops a byte), and that token bytes are less than 128."
  },
  {
   "property": "C39",
   "status": "proved",
   "theorems": [
    "c39_version",
    "c39_media",
    "c39_transfer_encoding",
    "c39_transfer_encoding_list",
    "c39_chunk",
    "c39_product",
    "c39_product_list",
    "c39_language",
    "c39_etag",
    "c39_date",
    "c39_date_formats",
    "c39_media_reparse",
    "c39_chunk_reparse",
    "c39_product_reparse",
    "c39_product_list_reparse",
    "c39_language_reparse",
    "c39_etag_reparse",
    "c39_media_equal",
    "c39_transfer_encoding_equal",
    "c39_chunk_equal",
    "c39_parsed_keys",
    "c39_repeated",
    "c39_errors",
    "c39_refuted",
    "c39_error_refuted",
    "c39_language_list_refuted",
    "c39_date_midnight_refuted",
    "c39_version_accepts",
    "c39_media_accepts",
    "c39_te_accepts",
    "c39_chunk_accepts",
    "c39_product_accepts",
    "c39_language_accepts",
    "c39_etag_accepts"
   ],
   "note": "Shown false: a parameter with an empty value (a=\"\") is parsed but its formatted form is not; a non-ASCII parameter name is parsed but not formatted; Chunk.from_str and FullDate.from_http_str raise TypeError where a separator stands for a number; LanguageTag.list_from_str fails for more than one tag; 24:00:00 is formatted as an instant that is not equal to it."
  },
  {
   "property": "C40",
   "status": "proved",
   "theorems": [
    "c40_explode",
    "c40_never_raises",
    "c40_trichotomy",
    "c40_transitive",
    "c40_operators",
    "c40_equal",
    "c40_congruent",
    "c40_token_first",
    "c40_qualifier",
    "c40_numeric",
    "c40_unnumbered",
    "c40_more_parts",
    "c40_no_version",
    "c40_qualifier_refuted",
    "c40_equal_refuted"
   ],
   "note": "Shown false: qualifiers that start with ~ or a later character are equal to or after the release; different version texts may be equal (1.0 and 01.00.)."
  },
  {
   "property": "C41",
   "status": "partial",
   "theorems": [
    "c41_self_subtract_refuted"
   ],
   "note": "the property is false of the code; only the counterexample is proved"
  },
  {
   "property": "C42",
   "status": "proved",
   "theorems": [
    "c42_parse_until"
   ],
   "note": ""
  },
  {
   "property": "C43",
   "status": "proved",
   "theorems": [
    "c43_month",
    "c43_year",
    "c43_week",
    "c43_units",
    "c43_century_refuted"
   ],
   "note": "offset of a century-precision date returns None (c43_century_refuted)."
  },
  {
   "property": "C44",
   "status": "partial",
   "theorems": [
    "c44_time_round_trip",
    "c44_time_reads_partial",
    "c44_timepoint_format",
    "c44_timepoint_parse",
    "c44_mixed_rejected",
    "c44_timepoint_reads_partial",
    "c44_sound_refuted"
   ],
   "note": "Round trips and the mixed-form rule in full (integer components, tdesignators 'T'). Soundness on a prefix and up to zone minutes 60-99 (c44_sound_refuted)."
  },
  {
   "property": "C45",
   "status": "partial",
   "theorems": [
    "c45_readers_writers",
    "c45_enabled",
    "c45_flush_returns",
    "c45_write_wait_returns",
    "c45_read_wait_returns_partial",
    "c45_flush_partial",
    "c45_flush_refuted"
   ],
   "note": "Readers and writers in full; flush and read_wait unless an empty bytearray is written (refuted there)."
  },
  {
   "property": "C46",
   "status": "partial",
   "theorems": [
    "c46_timeout_partial",
    "c46_readmatch_partial",
    "c46_readmatch_refuted"
   ],
   "note": "All calls but readmatch with several readers (refuted there)."
  },
  {
   "property": "C47",
   "status": "partial",
   "theorems": [
    "c47_event_partial",
    "c47_event_refuted"
   ],
   "note": "Calls that do not wait; a woken reader does not set the event (refuted)."
  },
  {
   "property": "C48",
   "status": "proved",
   "theorems": [
    "c48_isolation",
    "c48_labels",
    "c48_address_refuted"
   ],
   "note": "Cookies with an empty path are left out (see C49). Shown false if a host may be an IPv4 address: its numbers are taken for labels, so 10.0.0.1 can set a cookie with Domain=0.1 that goes to 192.168.0.1."
  },
  {
   "property": "C49",
   "status": "partial",
   "theorems": [
    "c49_search",
    "c49_end_session",
    "c49_path_refuted",
    "c49_empty_path_refuted",
    "c49_host_refuted"
   ],
   "note": "For histories without cookies of empty path and URLs whose host is a domain name. Shown false: a cookie with Path=/a is not sent to a URL with path /a exactly (RFC 6265 5.1.4); a cookie with an empty path makes later searches raise IndexError; a host that is not a domain name ([::1], a trailing dot) raises UnboundLocalError."
  },
  {
   "property": "C50",
   "status": "proved",
   "theorems": [
    "c50_order",
    "c50_replace"
   ],
   "note": "Histories without cookies of empty path."
  },
  {
   "property": "C51",
   "status": "partial",
   "theorems": [
    "c51_public_partial",
    "c51_accept",
    "c51_accept_host",
    "c51_supercookie",
    "c51_above_refuted",
    "c51_late_list_refuted",
    "c51_inner_wildcard_refuted",
    "c51_blank_line_refuted"
   ],
   "note": "Rules with a wild card only as their first label. In one direction the exact set is not reached because it is false: domains above a rule become public too (c51_above_refuted). Shown false as well: a list set after the store was used does not change existing nodes; with an inner wild card test_public_domain and set_cookie disagree; a line of white space raises IndexError."
  },
  {
   "property": "C52",
   "status": "proved",
   "theorems": [
    "c52_registered"
   ],
   "note": "u_labels=False; any rules, also with inner wild cards."
  },
  {
   "property": "C53",
   "status": "proved",
   "theorems": [
    "c53_symmetric",
    "c53_unique",
    "c53_no_marks"
   ],
   "note": "Keys are integers given by the caller; one operation at a time."
  },
  {
   "property": "C54",
   "status": "proved",
   "theorems": [
    "c54_integrity",
    "c54_readable",
    "c54_stale_refuted",
    "c54_replace_refuted"
   ],
   "note": "For histories in which the objects used for collections and bindings are those of entities that exist. Shown false without it: a collection opened before its entity was deleted, or replace with an entity that was deleted, make dangling links, as neither is checked."
  },
  {
   "property": "C55",
   "status": "partial",
   "theorems": [
    "c55_multiplicity_partial",
    "c55_replace_refuted",
    "c55_insert_refuted"
   ],
   "note": "For schemas in which the other end of a 0..1 end is 'many' and histories in which replace, at an end that is 0..1, is not given an entity linked to another. Shown false otherwise: replace (and so binding by update or insert) does not check the multiplicity of its own end, so a 0..1 end gets two links."
  },
  {
   "property": "C56",
   "status": "partial",
   "theorems": [
    "c56_requirements_partial",
    "c56_step_partial",
    "c56_failed_insert_refuted",
    "c56_loop_refuted"
   ],
   "note": "For histories whose operations succeed and schemas without an association of an entity set with itself that requires one entity at its second end. Shown false otherwise: an insertion that fails while the bindings are acted on leaves the entity without its links; with such an association a cascade follows the wrong end."
  },
  {
   "property": "C57",
   "status": "partial",
   "theorems": [
    "c57_ends",
    "c57_only_dependent",
    "c57_exact_partial",
    "c57_leaf",
    "c57_fails_refuted"
   ],
   "note": "That a deletion ends is proved for all histories; that it removes only dependent entities, and that it removes all of them if it succeeds and keeps the other links, for schemas without an association of a set with itself that requires one at its second end (see C56). Shown false: a cascade that fails at an end without navigation property is not rolled back, the entities removed so far are lost."
  },
  {
   "property": "C58",
   "status": "proved",
   "theorems": [
    "c58_link",
    "c58_unlink",
    "c58_replace",
    "c58_insert",
    "c58_update",
    "c58_nav_insert",
    "c58_insert_refused"
   ],
   "note": "For bindings, the links asked for are there if their objects exist, no single end is bound twice and no entity is bound to itself."
  },
  {
   "property": "C59",
   "status": "proved",
   "theorems": [
    "c59_page",
    "c59_pages",
    "c59_links",
    "c59_top",
    "c59_token",
    "c59_last_token_refuted",
    "c59_top_refuted",
    "c59_delete_refuted",
    "c59_insert_refuted",
    "c59_token_skip"
   ],
   "note": "For collections that give the same list for each page (C60 shows that those of memds do). Shown false: next_skiptoken is not None after the last entity; following links exceeds a $top above the limit; an entity deleted or inserted between two pages makes another be missed or returned twice."
  },
  {
   "property": "C60",
   "status": "proved",
   "theorems": [
    "c60_order",
    "c60_stable",
    "c60_deterministic",
    "c60_pages",
    "c60_null_refuted"
   ],
   "note": "The values of the order expressions are not null. Shown false otherwise: sorting raises TypeError if one of two or more entities has a null."
  },
  {
   "property": "C61",
   "status": "partial",
   "theorems": [
    "c61_order",
    "c61_pages_partial",
    "c61_links_partial",
    "c61_null_refuted",
    "c61_long_first_refuted",
    "c61_long_refuted",
    "c61_long_link_refuted",
    "c61_skip_refuted",
    "c61_stale_token_refuted",
    "c61_top_refuted"
   ],
   "note": "For order expressions that are not NULL, tokens of at most 512 characters, and for SQLite not a skip without any limit. Shown false otherwise: after a NULL all other rows are lost; long tokens raise TypeError on the first page or over links, or repeat the same page for ever; SQLite has no OFFSET without LIMIT. Also false: next_skiptoken is None at the end, and top is kept over links. The SQL semantics is modelled, not the database."
  },
  {
   "property": "C62",
   "status": "partial",
   "theorems": [
    "c62_pages_partial",
    "c62_links_partial"
   ],
   "note": "No top and skip 0; order values not NULL and tokens of at most 512 characters (see C61). A row is its order values and keys: one that is moved by an update is another row."
  },
  {
   "property": "C63",
   "status": "partial",
   "theorems": [
    "c63_parse_partial",
    "c63_unambiguous",
    "c63_total",
    "c63_orderby",
    "c63_orderby_total",
    "ascii_env_ok",
    "c63_double_negation_refuted",
    "c63_bracketed_negation_refuted",
    "c63_minus_inf_refuted",
    "c63_params_refuted",
    "c63_too_much_refuted"
   ],
   "note": "Proved for the grammar without three forms that are shown to be misread: a negation of a negation (malformed object), brackets around a negation (ValueError), a minus sign before a name that starts with inf or nan (ValueError). Also shown: parameters are lost inside brackets and method arguments, and 'a not b', 'a boolAnd b' are accepted. The Unicode classes and str.lower are parameters with stated properties; float, decimal and time literals are opaque."
  },
  {
   "property": "C64",
   "status": "partial",
   "theorems": [
    "c64_roundtrip_partial",
    "c64_injective",
    "c64_orderby_partial",
    "c64_brackets_refuted",
    "c64_names_refuted",
    "c64_negative_refuted",
    "c64_no_text_refuted"
   ],
   "note": "Proved for printable expressions. Shown false otherwise: 'a sub (b sub c)' is written without its brackets; properties named Time, True, X; members of negations, double negations, negations of positive numbers; one-argument isof and the empty binary value have no text."
  },
  {
   "property": "C65",
   "status": "partial",
   "theorems": [
    "c65_literal_partial",
    "c65_roundtrip_partial",
    "c65_string_safe"
   ],
   "note": "Null, Boolean, Int32, Int64, String, non-empty Binary, Guid. Missing: Double, Single, Decimal, DateTime, DateTimeOffset, Time."
  },
  {
   "property": "C66",
   "status": "partial",
   "theorems": [
    "promotion_is_join",
    "promotion_algebra",
    "sbyte_promotion_refuted"
   ],
   "note": "Proved for all types against the order Byte < Int16 < Int32 < Int64 < Decimal < Single < Double. Edm.SByte is left out of it by the code: it combines with no other numeric type (sbyte_promotion_refuted)."
  },
  {
   "property": "C67",
   "status": "partial",
   "theorems": [
    "logic_table",
    "logic_null",
    "filter_true",
    "no_filter",
    "filter_and_or",
    "filter_or_null_refuted"
   ],
   "note": "All proved; 'true or null' evaluates to false, so a filter 'p or q' loses entities that p alone selects (filter_or_null_refuted)."
  },
  {
   "property": "C68",
   "status": "partial",
   "theorems": [
    "eq_symmetric",
    "ne_is_not_eq",
    "order_mirrored",
    "integers_compared",
    "strings_compared",
    "null_compared",
    "comparison_total_refuted",
    "null_null_compared",
    "entities_compared"
   ],
   "note": "Order of floats, decimals and times is a parameter with a mirror law. Comparisons of two Booleans, two Bytes, two Int16 raise EvaluationError and a string with null TypeError (comparison_total_refuted)."
  },
  {
   "property": "C69",
   "status": "partial",
   "theorems": [
    "integer_arithmetic",
    "integer_division_by_zero",
    "div_mod_identity",
    "int64_division_refuted",
    "integer_negation",
    "null_arithmetic"
   ],
   "note": "Exact for all results of type Int32 and, for div and mod of Int64, operands below 2^53 in size; beyond, div and mod lose digits (int64_division_refuted)."
  },
  {
   "property": "C70",
   "status": "partial",
   "theorems": [
    "well_typed_evaluates",
    "safe_expressions",
    "well_typed_filter",
    "path_filter_refuted",
    "zlib_ok",
    "entity_ok",
    "cast_spec",
    "unknown_property"
   ],
   "note": "Floats, decimals and times abstract (EvalSpec.lib_ok). Not in the type system: equality of entities, cast of an entity. A filter that is just a path over a navigation property without entity raises ValueError (path_filter_refuted)."
  },
  {
   "property": "C71",
   "status": "partial",
   "theorems": [
    "startswith_spec",
    "endswith_spec",
    "substringof_spec",
    "indexof_spec",
    "replace_spec",
    "concat_length_substring",
    "trim_spec",
    "null_argument",
    "substring_negative_refuted"
   ],
   "note": "tolower, toupper and white space are Python's (parameters). replace with an empty pattern is not specified. A negative start of substring counts from the end (substring_negative_refuted)."
  },
  {
   "property": "C72",
   "status": "partial",
   "theorems": [
    "c72_set_get",
    "c72_strip",
    "c72_unset",
    "c72_get_header",
    "c72_written",
    "c72_read",
    "c72_values_one",
    "c72_values_all",
    "c72_injection_refuted"
   ],
   "note": "Proved for names that are tokens and values without CRLF. Values with CRLF are not refused and become other fields (c72_injection_refuted)."
  },
  {
   "property": "C73",
   "status": "partial",
   "theorems": [
    "c73_received",
    "c73_only",
    "c73_chunked_last",
    "c73_coding"
   ],
   "note": "Needs at least one packet after the client starts to wait (see C78: data already buffered is not looked at) and, for chunked bodies, that flush is not blocked. multipart/byteranges bodies, gzip coding and reasons with quotes or brackets are not covered."
  },
  {
   "property": "C74",
   "status": "proved",
   "theorems": [
    "c74_cut_short"
   ],
   "note": "Chunked: flush not blocked. At the level of ClientResponse (handle_disconnect, not handle_message); ClientRequest.response_finished does not tell the difference if the status line was received and there is no error, see short_response_refuted of C98."
  },
  {
   "property": "C75",
   "status": "proved",
   "theorems": [
    "c75_until_close"
   ],
   "note": ""
  },
  {
   "property": "C76",
   "status": "partial",
   "theorems": [
    "c76_request",
    "c76_response"
   ],
   "note": "Hypotheses on what the caller set: Transfer-Encoding absent or chunked with a body; Content-Length absent or right where the code does not check it. What happens otherwise: C78."
  },
  {
   "property": "C77",
   "status": "partial",
   "theorems": [
    "c77_response",
    "c77_request"
   ],
   "note": "As C76; for requests the receiver is any driver that gives the message what recv_mode asks for (server.py's loop is not modelled)."
  },
  {
   "property": "C78",
   "status": "partial",
   "theorems": [
    "c78_pipelined_refuted",
    "c78_flush_refuted",
    "c78_short_refuted",
    "c78_no_chunks_refuted",
    "c78_identity_refuted",
    "c78_negative_refuted"
   ],
   "note": "Each of these fails in the model, with a concrete run as witness; outside these C73-C77 hold."
  },
  {
   "property": "C79",
   "status": "partial",
   "theorems": [
    "c79_prefix",
    "c79_end",
    "c79_valid",
    "c79_expected",
    "c79_empty_tag_refuted",
    "c79_empty_refuted"
   ],
   "note": "Proved for elements written with an end tag. An empty-element tag <a/> is not checked against the end of the content model (c79_empty_tag_refuted); a child in an EMPTY element gives AttributeError rather than a validity error (c79_empty_refuted)."
  },
  {
   "property": "C80",
   "status": "proved",
   "theorems": [
    "c80_children",
    "c80_mixed"
   ],
   "note": ""
  },
  {
   "property": "C81",
   "status": "partial",
   "theorems": [
    "c81_element",
    "c81_unambiguous",
    "c81_checked",
    "c81_deterministic",
    "c81_astral_refuted"
   ],
   "note": "Names are those of production 5 up to U+FFFF: characters from U+10000 are refused (c81_astral_refuted). Parameter entity references inside the declaration are not modelled."
  },
  {
   "property": "C82",
   "status": "partial",
   "theorems": [
    "c82_data",
    "c82_cdata_section",
    "c82_attribute_partial",
    "c82_ascii"
   ],
   "note": "Tabs and line feeds in attribute values are written raw and come back as spaces; the attribute theorem is for values without them."
  },
  {
   "property": "C83",
   "status": "partial",
   "theorems": [
    "c83_complete_partial",
    "c83_unambiguous",
    "c83_pi_refuted"
   ],
   "note": "All but processing instructions whose data ends in '?', which are read past their end (c83_pi_refuted). No DTD: only predefined entities; names up to U+FFFF."
  },
  {
   "property": "C84",
   "status": "partial",
   "theorems": [
    "c84_exact",
    "c84_sound_partial",
    "c84_endless",
    "c84_comment_refuted",
    "c84_characters_refuted",
    "c84_exceptions_refuted"
   ],
   "note": "The language that is accepted is characterized exactly, for every text; it is the grammar of XML but for: white space before the > of a comment, ? in processing instructions, and characters that XML does not allow when written raw. ]]> in character data makes the parser loop forever (c84_endless); some malformed references and instructions raise AttributeError, ValueError or TypeError (c84_exceptions_refuted)."
  },
  {
   "property": "C85",
   "status": "proved",
   "theorems": [
    "c85_round_trip",
    "c85_well_formed",
    "c85_lines",
    "c85_same_text",
    "c85_attribute_refuted",
    "c85_adjacent_refuted",
    "c85_empty_refuted"
   ],
   "note": "Each precondition on texts and attribute values is needed: the refuted theorems give trees that do not come back."
  },
  {
   "property": "C86",
   "status": "proved",
   "theorems": [
    "c86_eol",
    "c86_pieces",
    "c86_function",
    "c86_no_cr"
   ],
   "note": ""
  },
  {
   "property": "C87",
   "status": "proved",
   "theorems": [
    "c87_reflexive",
    "c87_symmetric",
    "c87_transitive",
    "c87_alike",
    "c87_text",
    "c87_equal"
   ],
   "note": ""
  },
  {
   "property": "C88",
   "status": "proved",
   "theorems": [
    "c88_exclusive",
    "c88_connection",
    "c88_nested"
   ],
   "note": "c88_nested: until close() has emptied the pool."
  },
  {
   "property": "C89",
   "status": "partial",
   "theorems": [
    "c89_bound",
    "c89_settled",
    "c89_max_refuted"
   ],
   "note": "The plain bound is false: pool_cleaner gives up the slot before it closes the connection, so another thread can open one more (c89_max_refuted)."
  },
  {
   "property": "C90",
   "status": "partial",
   "theorems": [
    "c90_open",
    "c90_open_refuted",
    "c90_leak_refuted",
    "c90_failed_open_refuted"
   ],
   "note": "Proved for schedules in which no reconnection fails; after one that does the closed connection stays in the pool and is handed out (c90_open_refuted). Slots of threads that die holding a connection, and of acquire calls whose open raises, are never given back (c90_leak_refuted, c90_failed_open_refuted)."
  },
  {
   "property": "C91",
   "status": "partial",
   "theorems": [
    "c91_wake",
    "c91_gives_up",
    "c91_wake_refuted"
   ],
   "note": "False for threadsafety 0, where a thread that waits for the module lock may sleep while it is free (c91_wake_refuted)."
  },
  {
   "property": "C92",
   "status": "partial",
   "theorems": [
    "c92_close",
    "c92_after",
    "c92_left_open_refuted",
    "c92_reopened_refuted",
    "c92_waiting_refuted"
   ],
   "note": "The unconditional claim is false: a call of acquire_connection that is about to open, a reconnection of a connection that close() broke and a thread that waits without timeout all defeat it (the refuted theorems)."
  },
  {
   "property": "C93",
   "status": "proved",
   "theorems": [
    "c93_atomic",
    "c93_exactly_once",
    "c93_nested_refuted"
   ],
   "note": "A nested method is not atomic by itself: if its exception is caught, the part executed is committed (c93_nested_refuted)."
  },
  {
   "property": "C94",
   "status": "partial",
   "theorems": [
    "not_sent_twice_partial",
    "not_sent_twice_refuted"
   ],
   "note": "Under the condition that no response leads to two new sendings. A 401 with two challenges for which there are credentials queues the request twice, and a POST is then sent on two connections at once (not_sent_twice_refuted)."
  },
  {
   "property": "C95",
   "status": "partial",
   "theorems": [
    "attempts_bounded_partial",
    "answered_not_repeated_refuted"
   ],
   "note": "Under the condition of C94; the number of redirections is not bounded by the client. A request that was answered with 200 before all of its body was sent is reported as finished and then sent again (answered_not_repeated_refuted: Python 3, TypeError in response_finished)."
  },
  {
   "property": "C96",
   "status": "partial",
   "theorems": [
    "responses_in_order_partial",
    "not_pipelined_partial"
   ],
   "note": "Under the condition of C94."
  },
  {
   "property": "C97",
   "status": "partial",
   "theorems": [
    "wire_prefix_partial",
    "start_after_message_partial",
    "wire_prefix_refuted"
   ],
   "note": "Under the condition of C94, and as long as no response with status 300 or above was complete for a request still being sent: then one block of its body is lost and the message continues with the next (wire_prefix_refuted)."
  },
  {
   "property": "C98",
   "status": "partial",
   "theorems": [
    "status_received_partial",
    "short_response_refuted",
    "stale_status_refuted"
   ],
   "note": "Under the condition of C94. It may be the status of an earlier attempt (stale_status_refuted), and a response that is cut short is reported as its status without an error (short_response_refuted; C74 speaks only of the level of ClientResponse)."
  },
  {
   "property": "C99",
   "status": "partial",
   "theorems": [
    "filter_read_as_meant_partial",
    "filter_one_reading",
    "filter_same_value_partial",
    "filter_unsupported",
    "standard_unmixed",
    "brackets_refuted",
    "brackets_mul_refuted",
    "mixed_refuted",
    "substring_refuted",
    "substring_type_error_refuted"
   ],
   "note": "Proved where no right operand is an operator of the same level (leftish); in general the one reading is the tree rotated to the left, which has the same value for associative operators. False otherwise: 5 sub (3 sub 1) and 8 div (4 mul 2) lose their brackets (brackets_refuted, brackets_mul_refuted), SQLite reads 1 = 2 < 3 from the right (mixed_refuted); substring raises TypeError (substring_type_error_refuted). Names without double quotes, and without % for the format styles."
  }
 ]
}