{
 "claims": [
  {
   "property": "C01",
   "status": "proved",
   "theorems": [
    "C01_key_grammar",
    "C01_grammar_unambiguous",
    "C01_refused"
   ],
   "note": "Equivalence with a separately stated grammar over all strings, for the keys (C01_key_grammar) and for the texts that are refused with the error of the first thing that is wrong (C01_refused)."
  },
  {
   "property": "C02",
   "status": "proved",
   "theorems": [
    "C02_plain_dotted_split"
   ],
   "note": "Full statement, any sizes."
  },
  {
   "property": "C03",
   "status": "partial",
   "theorems": [
    "C03_quoted_literal_refuted",
    "C03_quoted_root_refuted",
    "C03_quoted_literal_partial",
    "C03_exactly"
   ],
   "note": "Refuted: a quoted number before another segment becomes an int, a quoted empty segment before another one panics, and a quoted numeric root panics. C03_exactly: in every key that parses a quoted segment is its body as a text exactly if it is the last segment or no number is spelled that way; otherwise it is that number."
  },
  {
   "property": "C04",
   "status": "proved",
   "theorems": [
    "C04_dig_bury"
   ],
   "note": "Full statement, any sizes."
  },
  {
   "property": "C05",
   "status": "proved",
   "theorems": [
    "C05_dig_is_path"
   ],
   "note": "Equivalence with the path relation of SpecKey."
  },
  {
   "property": "C06",
   "status": "proved",
   "theorems": [
    "C06_first_found",
    "C06_none_found",
    "C06_panic_stops",
    "C06_calls"
   ],
   "note": "Full statement, any sizes."
  },
  {
   "property": "C07",
   "status": "proved",
   "theorems": [
    "C07_consult_all",
    "C07_calls",
    "C07_pure"
   ],
   "note": "Full statement, any sizes."
  },
  {
   "property": "C08",
   "status": "proved",
   "theorems": [
    "C08_hash_first_wins",
    "C08_hash_not_a_map"
   ],
   "note": "Any number of variants, non-map values included."
  },
  {
   "property": "C09",
   "status": "partial",
   "theorems": [
    "C09_deep_contract_refuted",
    "C09_deep_contract_partial",
    "C09_deep_contract_tidy_partial"
   ],
   "note": "Refuted for an empty array merged with an array that has duplicates. The exact rule is proved for all values, the documented one for arrays without duplicates."
  },
  {
   "property": "C10",
   "status": "proved",
   "theorems": [
    "C10_scalars_kept",
    "C10_elements_kept",
    "C10_flag_truthful",
    "C10_no_flag_is_a"
   ],
   "note": "Full statement, any sizes."
  },
  {
   "property": "C11",
   "status": "partial",
   "theorems": [
    "C11_duplicates_refuted",
    "C11_scalar_refuted",
    "C11_unique_partial",
    "C11_unique_one_found_partial",
    "C11_exactly"
   ],
   "note": "Refuted when exactly one value is found. C11_exactly says exactly when the claim holds: more than one value is found, or an array is found in the only place there is, or there are several places and no element of the one value occurs twice."
  },
  {
   "property": "C12",
   "status": "partial",
   "theorems": [
    "C12_hash_refuted",
    "C12_unique_refuted",
    "C12_deep_refuted",
    "C12_first",
    "C12_hash_partial",
    "C12_hash_groups",
    "C12_hash_mixed_partial",
    "C12_unique_partial",
    "C12_unique_one",
    "C12_deep_partial"
   ],
   "note": "Refuted for hash with values that are not maps, for unique with one value, for deep with values of different kinds at a path. Holds for first always and for the others outside of those cases. For hash C12_hash_groups says exactly what merging by groups gives, C12_hash_mixed_partial allows values that are not maps where they do no harm; for unique C12_unique_one says exactly for which groupings of a single value it holds."
  },
  {
   "property": "C13",
   "status": "proved",
   "theorems": [
    "C13_nothing_to_interpolate",
    "C13_scalars"
   ],
   "note": "For every value and state; nothing at all happens to the state."
  },
  {
   "property": "C14",
   "status": "proved",
   "theorems": [
    "C14_one_cut",
    "C14_text_preserved",
    "C14_exact",
    "C14_value_text"
   ],
   "note": "Every string has exactly one cut into texts and expressions; the texts stay in place whatever the expressions do; exact result for literals and settled variables; what strings, booleans and whole numbers read as in a text is pinned (C14_value_text)."
  },
  {
   "property": "C15",
   "status": "proved",
   "theorems": [
    "C15_shape_preserved",
    "C15_arrays",
    "C15_maps"
   ],
   "note": "Any nesting; entries whose interpolated keys become equal end up as one entry."
  },
  {
   "property": "C16",
   "status": "proved",
   "theorems": [
    "C16_only_asks_about_files",
    "C16_data_is_irrelevant",
    "C16_methods_refused",
    "C16_methods_panic"
   ],
   "note": "Non-interference with everything but the file system, the environment and the text of values, and a frame condition, for all of CreateProviders; methods never give a result."
  },
  {
   "property": "C17",
   "status": "proved",
   "theorems": [
    "C17_alias_is_lookup",
    "C17_strict_alias_is_lookup",
    "C17_part_fails",
    "C17_part_panics"
   ],
   "note": "Exact result without an explainer (C28 carries it over); as a part of a longer string it never gives a result, and panics with the documented error when the earlier expressions are known."
  },
  {
   "property": "C18",
   "status": "partial",
   "theorems": [
    "C18_literal_escapes_refuted",
    "C18_literal_escapes_partial",
    "C18_literal_exactly"
   ],
   "note": "Refuted: data is interpolated twice. One pass is exact, and a result without %{ survives the second. C18_literal_exactly: the lookup gives exactly what the text made by the literals stands for when it is read again, so the claim holds exactly when that text stands for itself."
  },
  {
   "property": "C19",
   "status": "partial",
   "theorems": [
    "C19_cycles_never_end",
    "C19_cycle_detected_refuted",
    "C19_acyclic_ends"
   ],
   "note": "Refuted: the guard is never called, so a lookup that leads back to itself never ends (proved for every cyclic hierarchy shape of Cycles). The other direction is proved as C19_acyclic_ends: data and variables whose references can be ranked always give an answer, with a number of nested calls linear in the rank."
  },
  {
   "property": "C20",
   "status": "partial",
   "theorems": [
    "C20_scope_terminates_refuted",
    "C20_scope_terminates_partial",
    "C20_value_without_cycles",
    "C20_chains_never_end",
    "C20_without_cycles_ends"
   ],
   "note": "Refuted: a variable that refers to itself never ends. Holds for acyclic scopes, any depth (C20_scope_terminates_partial). Exactly: a text that gets a value mentions no variable whose mentions go on without end (C20_value_without_cycles, C20_chains_never_end), and without such a variable and without lookups it always ends (C20_without_cycles_ends)."
  },
  {
   "property": "C21",
   "status": "partial",
   "theorems": [
    "C21_exactly",
    "C21_lookup_options_not_found",
    "C21_hidden_refuted"
   ],
   "note": "Keys whose root is lookup_options find nothing and ask nobody. Refuted for the quoted root 'lookup_options.x', which gives the hidden hash. C21_exactly: the hash is given exactly to the keys with another root that reads as a key that starts with lookup_options, and what they get."
  },
  {
   "property": "C22",
   "status": "partial",
   "theorems": [
    "C22_quoted_root_refuted",
    "C22_quoted_root_partial",
    "C22_root_read_again"
   ],
   "note": "Refuted: the root is parsed again. C22_root_read_again says for every root what it does instead (the files are asked for the first part of what the root reads as, or the lookup fails); C22_quoted_root_partial: roots that parse to themselves are as they should be."
  },
  {
   "property": "C23",
   "status": "proved",
   "theorems": [
    "C23_every_lookup_in_a_session",
    "C23_settled_files"
   ],
   "note": "Full statement for settled data, any number of levels and requests; in fact proved for all data and all keys, also with roots that are read as other keys (C22), with the relation of SpecLookup."
  },
  {
   "property": "C24",
   "status": "proved",
   "theorems": [
    "C24_absent_location",
    "C24_no_locations",
    "C24_absent_locations_do_not_matter",
    "C24_called_once"
   ],
   "note": "Absent locations can be left out without any difference, explainer aside; an entry without locations is called exactly once."
  },
  {
   "property": "C25",
   "status": "proved",
   "theorems": [
    "C25_one_merge_option",
    "C25_strategy_in_force",
    "C25_unknown_strategy_panics"
   ],
   "note": "End to end over data files with lookup options."
  },
  {
   "property": "C26",
   "status": "proved",
   "theorems": [
    "C26_found_values_are_converted",
    "C26_failing_conversion_panics"
   ],
   "note": "End to end over data files with lookup options."
  },
  {
   "property": "C27",
   "status": "partial",
   "theorems": [
    "C27_nested_same_refuted",
    "C27_nested_same_partial",
    "C27_alias_exactly"
   ],
   "note": "Refuted: the strategy of the outer key is used and convert_to is skipped. Holds for keys without lookup options looked up with the strategy of the outer key. C27_alias_exactly: an alias in a key without lookup options gives exactly what the other key has with strategy first and without its options, read once more."
  },
  {
   "property": "C28",
   "status": "proved",
   "theorems": [
    "C28_explaining_changes_nothing"
   ],
   "note": "Over any list of requests in one session; equal outcomes, equal questions to the world in the same order and equal caches, for any fuel."
  },
  {
   "property": "C29",
   "status": "proved",
   "theorems": [
    "C29_every_call_stays_in_place",
    "C29_session_back_at_root"
   ],
   "note": "For any call and any outcome, panics included; the open nodes and all that was recorded before are unchanged."
  },
  {
   "property": "C30",
   "status": "proved",
   "theorems": [
    "C30_search_not_recorded",
    "C30_data_not_recorded",
    "C30_only_options",
    "C30_functions_only_options"
   ],
   "note": "What an explainer that records options only leaves out is proved for every search, every data phase and every session, whatever function of hiera is the top provider, the several functions of the command and the REST service included."
  },
  {
   "property": "C31",
   "status": "partial",
   "theorems": [
    "C31_redacted_refuted",
    "C31_nothing_hidden",
    "C31_options_only_partial",
    "C31_options_shown_refuted"
   ],
   "note": "Refuted: the redacted flag is set but never read, so an explanation of a Sensitive value shows it; and with the functions of the lookup command even an explainer of options only shows the environment. C31_nothing_hidden: for every request the flag changes neither the outcome nor the explanation. What holds is proved as the partial theorem: with the top provider that reads configurations, an explainer that records options only never shows the values found."
  },
  {
   "property": "C32",
   "status": "partial",
   "theorems": [
    "C32_default_hierarchy_refuted",
    "C32_default_hierarchy_never_used"
   ],
   "note": "Refuted: default_hierarchy is never consulted, proved for every configuration."
  },
  {
   "property": "C33",
   "status": "proved",
   "theorems": [
    "C33_same_data",
    "C33_asks_nothing_again"
   ],
   "note": "Once a lookup of a data_hash provider at a location returned, every later lookup at that location, in any later state of the session, looks in the same data and asks nothing; calls that fail are repeated by later lookups. The guarantee for goroutines is C49."
  },
  {
   "property": "C34",
   "status": "partial",
   "theorems": [
    "C34_cached_value",
    "C34_cache_returns_previous",
    "C34_cached_entries",
    "C34_nil_exactly",
    "C34_nil_refuted"
   ],
   "note": "Every sequence of Cache and CacheAll calls, with CachedValue, Cache and CachedEntries after it, compared with the most recent store. A stored Go nil makes the next read panic (C34_nil_refuted), and nothing else does (C34_nil_exactly); the claim is about other values."
  },
  {
   "property": "C35",
   "status": "proved",
   "theorems": [
    "C35_first_source",
    "C35_one_answer"
   ],
   "note": "Lookup2 over any data (a state machine that is asked for names): the answer is the one of the first source that has a value, later ones are not asked, and there is exactly one such source; panics of a source stop it."
  },
  {
   "property": "C36",
   "status": "proved",
   "theorems": [
    "C36_keys",
    "C36_values"
   ],
   "note": "C36_keys holds for any data; C36_values for data that answers the same whenever asked."
  },
  {
   "property": "C37",
   "status": "proved",
   "theorems": [
    "C37_typed",
    "C37_always_of_type",
    "C37_all_typed",
    "C37_unknown_name_panics"
   ],
   "note": "Instance and conversion of dgo types are parameters; C37_always_of_type adds that conversions give instances."
  },
  {
   "property": "C38",
   "status": "proved",
   "theorems": [
    "C38_accepted_iff",
    "C38_else_refused",
    "C38_contents",
    "C38_no_file"
   ],
   "note": "An iff over all values: accepted exactly when the independent schema holds; otherwise a panic with the file named; contents and absence of a file."
  },
  {
   "property": "C39",
   "status": "partial",
   "theorems": [
    "C39_inherits_partial",
    "C39_all_entries_partial",
    "C39_exactly",
    "C39_all_entries_exactly",
    "C39_resolved",
    "C39_function_twice_refuted"
   ],
   "note": "Every field of a resolved entry against the defaults, for every configuration. Refuted for function names, which are interpolated twice; C39_exactly and C39_all_entries_exactly say without any condition what happens: as claimed, and then the name of the function once more."
  },
  {
   "property": "C40",
   "status": "partial",
   "theorems": [
    "C40_config_path_partial",
    "C40_absolute_env_refuted",
    "C40_absolute_env_exactly",
    "C40_refused",
    "C40_scope",
    "C40_first_read"
   ],
   "note": "All options and environments; refuted for an absolute HIERA_CONFIGFILE, which is joined below the root. C40_absolute_env_exactly says when that makes no difference: the path has no detours and the root is empty or leads to the top directory."
  },
  {
   "property": "C41",
   "status": "partial",
   "theorems": [
    "C41_within_partial",
    "C41_inside_exactly",
    "C41_fixed_paths_within",
    "C41_root",
    "C41_escape_refuted"
   ],
   "note": "Refuted: a scope value with .. escapes the data directory. Proved: every path is where its text leads to from the data directory (C41_within_partial), inside when the text never goes up further than it went down, and those are exactly the texts that stay inside of every data directory (C41_inside_exactly); also for fixed paths."
  },
  {
   "property": "C42",
   "status": "proved",
   "theorems": [
    "C42_one_path_per_element",
    "C42_paths_are",
    "C42_nothing"
   ],
   "note": "Proved: one location per element, in order, and none for a variable that is unset or neither a string nor an array."
  },
  {
   "property": "C43",
   "status": "partial",
   "theorems": [
    "C43_resolved_partial",
    "C43_lookup_partial",
    "C43_explained_partial",
    "C43_any_outcome_partial",
    "C43_unmapped_partial",
    "C43_panic_refuted"
   ],
   "note": "Refuted on a panic inside a template. Proved for resolving and lookups that end normally, with an explainer in every case, and without mapped_paths in every case; with them C43_any_outcome_partial says what at most is left behind: the variable of one of the mapped_paths in front of the scope."
  },
  {
   "property": "C44",
   "status": "partial",
   "theorems": [
    "C44_inherited_partial",
    "C44_relative_root_refuted",
    "C44_exactly"
   ],
   "note": "Refuted for a configuration at a relative root, where the inherited directory is joined twice. Proved for absolute roots (C44_inherited_partial). C44_exactly says for every relative root which directory an entry gets, and that it is the one of the defaults exactly if the directory is absolute or the root goes down as many directories as it goes up."
  },
  {
   "property": "C45",
   "status": "proved",
   "theorems": [
    "C45_variables",
    "C45_accepted"
   ],
   "note": "Parsing of literals and the contents of files are parameters. Precedence over all --var arguments, vars files, facts files and the scope of the session, and when a scope is refused."
  },
  {
   "property": "C46",
   "status": "partial",
   "theorems": [
    "C46_split_partial",
    "C46_refused_partial",
    "C46_refuted",
    "C46_every_argument"
   ],
   "note": "Proved for arguments without newlines; refuted with newlines: an argument whose value has a newline after its first character is refused or split at a later separator. C46_every_argument says exactly how every argument is split, newlines or not: at the first such separator whose name has no newline before its last character and whose value has none after its first."
  },
  {
   "property": "C47",
   "status": "proved",
   "theorems": [
    "C47_loaded_once",
    "C47_all_complete"
   ],
   "note": "Any number of goroutines, each with any list of calls, every interleaving of the atomic steps of Config: one config.New per path and one result for all; and nobody waits for ever when no load panics."
  },
  {
   "property": "C48",
   "status": "partial",
   "theorems": [
    "C48_others_complete_partial",
    "C48_waits_for_ever",
    "C48_exactly",
    "C48_refuted"
   ],
   "note": "False: after a load that panicked every later lookup waits for ever (C48_refuted, C48_waits_for_ever). C48_exactly: whatever has happened the goroutines can go on until each has completed all its calls or waits for a file whose load panicked, and nothing changes that any more. Goroutines that ask only for files that load can always complete."
  },
  {
   "property": "C49",
   "status": "proved",
   "theorems": [
    "C49_called_once",
    "C49_called_once_without_panics",
    "C49_all_complete"
   ],
   "note": "Any number of goroutines and locations, every interleaving of the atomic steps of dataHash: mutual exclusion, at most one call that returns, same data for all, and everybody can complete. A call that panics may be repeated."
  },
  {
   "property": "C50",
   "status": "partial",
   "theorems": [
    "C50_refuted",
    "C50_own_variables_partial",
    "C50_alone_partial",
    "C50_exactly"
   ],
   "note": "False when the variables of the server leave room in their array (C50_refuted). C50_exactly: a request sees its own variables in every interleaving exactly if they do not fit into the array or no other request whose variables fit has another one at the same place. The variables of the server are always right, and so are those of a request that is served alone."
  },
  {
   "property": "C51",
   "status": "partial",
   "theorems": [
    "C51_refuted",
    "C51_apart_partial",
    "C51_no_other_values_partial",
    "C51_exactly",
    "C51_exactly_empty"
   ],
   "note": "False for calls that overlap (C51_refuted). Proved instead: calls that do not overlap are in some order; in every interleaving exactly one gets nothing if nothing was there, and all values come from the calls or from before; and exactly (C51_exactly, C51_exactly_empty): for every schedule each call gets the value that was there at its first step and the value left is that of the last second step."
  },
  {
   "property": "C52",
   "status": "proved",
   "theorems": [
    "C52_one_process",
    "C52_known",
    "C52_failed_start",
    "C52_none_after_stop",
    "C52_stays_stopped",
    "C52_goes_on",
    "C52_handshake",
    "C52_complains"
   ],
   "note": "Step machine for startPlugin, stopAll and kill with any number of goroutines; all schedules. Each live process is known or being started, none lives when KillPlugins ends, and none comes back unless a plugin is started again. A plugin whose functions are malformed is killed but stays registered (finding). wGroup.Wait is taken to end with the process."
  },
  {
   "property": "C53",
   "status": "proved",
   "theorems": [
    "C53_answers",
    "C53_no_lookup",
    "C53_refused"
   ],
   "note": "Any lookup, type, default and variables; ServeMux's cleaning of paths is a parameter. A panic with neither an error nor a string is passed on."
  },
  {
   "property": "C54",
   "status": "proved",
   "theorems": [
    "C54_do",
    "C54_try",
    "C54_once"
   ],
   "note": "util.Catch of dgo is assumed to recover errors and strings. The number of kills is counted for any consumer."
  },
  {
   "property": "C55",
   "status": "partial",
   "theorems": [
    "C55_strategy_used_partial",
    "C55_first_refuted",
    "C55_first_exactly"
   ],
   "note": "Proved for every strategy but first; refuted for first, which is dropped so that the lookup options decide. C55_first_exactly: asking for first is the same as asking for nothing."
  },
  {
   "property": "C56",
   "status": "partial",
   "theorems": [
    "C56_verified_partial",
    "C56_exactly",
    "C56_refuted"
   ],
   "note": "Proved when both a certificate and a key are given; refuted otherwise: the server then listens without TLS. C56_exactly: a client is not verified exactly if no verification was asked for or the certificate or the key is missing."
  },
  {
   "property": "C57",
   "status": "proved",
   "theorems": [
    "C57_no_namespace",
    "C57_own_module",
    "C57_missing_module",
    "C57_searched_once",
    "C57_missing_searched_once",
    "C57_options",
    "C57_options_not_used",
    "C57_own_options"
   ],
   "note": "Proved for every session history and a file system whose directories do not change (the theorem that a module is searched for once needs no such hypothesis). Examples show that lookup options written for a key whose module name has a capital are not used (finding)."
  },
  {
   "property": "C58",
   "status": "partial",
   "theorems": [
    "C58_decided",
    "C58_default_first_partial",
    "C58_config_answers_options",
    "C58_key_value_decides_refuted"
   ],
   "note": "Refuted: functions that ignore that they are asked for lookup options (environment, YAML, scope, user functions) answer with the value of the key, and an entry called merge in it decides how values are merged. Proved: what decides, for every list of functions; the first value is taken when no function answers the question for options with a map; the configuration answers it from lookup_options only."
  },
  {
   "property": "C59",
   "status": "proved",
   "theorems": [
    "C59_read_back",
    "C59_same",
    "C59_branches",
    "C59_locations"
   ],
   "note": "initMap and initialize of all nodes and of locations over data with named objects; any tree. Reading gives the tree with texts as String of a dgo string gives them, and the same tree when that is the string itself (config/path.go:76 relies on it too). How dgo writes named objects as JSON or YAML, and explainers with open nodes, are outside the model."
  },
  {
   "property": "C60",
   "status": "proved",
   "theorems": [
    "C60_environment",
    "C60_lookup"
   ],
   "note": "Every key, prefix and environment: the environment provider gives the whole environment, one variable, or nothing, exactly as the key asks. C60_lookup carries this through a lookup."
  },
  {
   "property": "C61",
   "status": "proved",
   "theorems": [
    "C61_query",
    "C61_call",
    "C61_no_url",
    "C61_answers",
    "C61_not_listed"
   ],
   "note": "The query is proved to be read back for all bytes; url.Parse, http.Client and JSON are oracles. Names with ? or # are outside the model."
  },
  {
   "property": "C62",
   "status": "proved",
   "theorems": [
    "C62_lookup_key",
    "C62_data_dig",
    "C62_data_hash"
   ],
   "note": "The first question a lookup of a lookup_key or data_hash provider asks after loading its function carries the entry's own options with the path of the location; data_dig functions are asked for all parts of the key and get no options (the invocation is passed instead), which is recorded as a finding."
  },
  {
   "property": "C63",
   "status": "partial",
   "theorems": [
    "C63_nested_refuted",
    "C63_twice_refuted",
    "C63_full_is_false",
    "C63_kinds_partial",
    "C63_sessions_partial"
   ],
   "note": "Refuted: a text that looks up another key works from a data_hash function and is a nil dereference from a lookup_key or data_dig function, and data_hash values are interpolated twice. Proved for values with nothing to interpolate, with and without locations and explainers, through whole sessions (C63_sessions_partial)."
  },
  {
   "property": "C64",
   "status": "proved",
   "theorems": [
    "C64_environment"
   ],
   "note": "The environment is the list given to exec; that of two entries with one name the later one counts is part of the specification."
  },
  {
   "property": "C65",
   "status": "partial",
   "theorems": [
    "C65_order_partial",
    "C65_order_refuted",
    "C65_exactly"
   ],
   "note": "Refuted: a function listed under two kinds is sometimes one and sometimes the other. Exactly: the order of the entries does not matter for a function if and only if all the headings that list it stand for one kind (C65_exactly)."
  },
  {
   "property": "C66",
   "status": "proved",
   "theorems": [
    "C66_hierarchy",
    "C66_dig",
    "C66_lookup"
   ],
   "note": "Proved for every hierarchy, strategy and state in which an explainer is in use. Conversions of the value are not told by the program, which the theorem says. What providers report in between (texts of functions, interpolations) is left open."
  },
  {
   "property": "C67",
   "status": "partial",
   "theorems": [
    "C67_told",
    "C67_only",
    "C67_order",
    "C67_written",
    "C67_all_reported_refuted",
    "C67_lookups_written"
   ],
   "note": "Every line that a node tells is in the text (C67_told), no other line is (C67_only), in the order of events (C67_order), a text exists when locations are resolved (C67_written), and they are in the explanation of any lookups in a session (C67_lookups_written). Missing: that all reported texts are shown, which is false: C67_all_reported_refuted has a run in which the text that a top-level function explained is lost."
  },
  {
   "property": "C68",
   "status": "partial",
   "theorems": [
    "C68_formats",
    "C68_output",
    "C68_success",
    "C68_unknown_format_refuted",
    "C68_default_dropped_refuted",
    "C68_known_format_partial"
   ],
   "note": "What is written and when the command succeeds are characterised in both directions (C68_output, C68_success), and the formats (C68_formats). Missing: an unknown format is not refused when nothing is found (C68_unknown_format_refuted), and the default is dropped with --all (C68_default_dropped_refuted). The arguments are C77."
  },
  {
   "property": "C69",
   "status": "partial",
   "theorems": [
    "C69_written",
    "C69_other_keys",
    "C69_crash_partial",
    "C69_reported_partial",
    "C69_error_refuted"
   ],
   "note": "C69_written gives both directions; the error part of the full statement is C69_full, false: C69_error_refuted. C69_crash_partial says exactly when the program crashes."
  },
  {
   "property": "C70",
   "status": "partial",
   "theorems": [
    "C70_log",
    "C70_last_line_partial",
    "C70_last_line_refuted",
    "C70_last_line_exactly",
    "C70_last_line_length",
    "C70_lines_refuted"
   ],
   "note": "C70_log is the full claim about the content; that the last line is ended is refuted when it fills the buffer (C70_last_line_refuted) and C70_last_line_exactly says exactly when it is: something of it is left after the pieces that fill the buffer (C70_last_line_length: without carriage returns, its length is no multiple of the size). That lines stay lines with two plugins is refuted (C70_lines_refuted)."
  },
  {
   "property": "C71",
   "status": "partial",
   "theorems": [
    "C71_stopped",
    "C71_returns_partial",
    "C71_waits_refuted",
    "C71_goroutine_left_refuted",
    "C71_goroutine_left_always",
    "C71_meta",
    "C71_meta_refuted",
    "C71_meta_exactly"
   ],
   "note": "C71_stopped holds for all orders of events. C71_returns_partial: proved when no child has the pipes open; C71_returns_full is false (C71_waits_refuted). C71_goroutines_full and C71_meta_full are false (C71_goroutine_left_refuted, C71_meta_refuted)."
  },
  {
   "property": "C72",
   "status": "partial",
   "theorems": [
    "C72_every_lookup_in_a_session",
    "C72_settled_files",
    "C72_nested_same",
    "C72_library_and_command_agree_refuted",
    "C72_nested_leaves_no_trace_refuted"
   ],
   "note": "every lookup in a session through several functions, data without interpolation, and nested lookups are proved to give what the description says; that the library and the command agree on the same files, and that a nested lookup leaves nothing behind, are refuted with witnesses"
  },
  {
   "property": "C73",
   "status": "proved",
   "theorems": [
    "C73_names",
    "C73_all_names",
    "C73_command",
    "C73_command_explained",
    "C73_server"
   ],
   "note": "Lookup2 for any names; LookupAll for any names with and without a map type; the lookup command with and without --all, and with an explanation (what is found and reported; the text of the explanation is the subject of C66 and C67); the REST service for any sequence of requests"
  },
  {
   "property": "C74",
   "status": "proved",
   "theorems": [
    "C74_clean",
    "C74_same_text",
    "C74_join",
    "C74_root",
    "C74_locations",
    "C74_plugindir",
    "C74_list"
   ],
   "note": "Clean, join and root of a configuration, and the paths of resolved entries, against walking along the parts of paths; one text per place."
  },
  {
   "property": "C75",
   "status": "proved",
   "theorems": [
    "C75_loader",
    "C75_load_function",
    "C75_same_plugin"
   ],
   "note": "The file described is the one that is asked for, through the loaders, for every entry; sharing of plugins exactly by place. The loaders of dgo are assumed to work as said in Loader.v."
  },
  {
   "property": "C76",
   "status": "partial",
   "theorems": [
    "C76_locations",
    "C76_location_hash",
    "C76_location_hash_exactly",
    "C76_keys_partial",
    "C76_key_text_refuted",
    "C76_key_hash_refuted"
   ],
   "note": "Locations are proved, and which of them have the same hash code whatever the hash of a text is (C76_location_hash_exactly). Keys that are equal have the same segments (C76_keys_partial). The other direction and the hash code of keys are refuted."
  },
  {
   "property": "C77",
   "status": "partial",
   "theorems": [
    "C77_lookup",
    "C77_help",
    "C77_refused",
    "C77_program",
    "C77_independent",
    "C77_new_command_refuted",
    "C77_new_command_partial",
    "C77_loglevel_ignored"
   ],
   "note": "Proved for ExecuteLookup and the program; refuted for commands made with NewCommand in one process (finding 56), with the remaining case as C77_new_command_partial."
  },
  {
   "property": "C78",
   "status": "partial",
   "theorems": [
    "C78_started",
    "C78_help",
    "C78_refused",
    "C78_exit",
    "C78_listens_refuted",
    "C78_listens_partial",
    "C78_listens_exactly",
    "C78_loglevel_ignored"
   ],
   "note": "Proved for everything but the address: C78_listens is false for IPv6 addresses without brackets (C78_listens_refuted) and proved for all others (C78_listens_partial). C78_listens_exactly says for every address what is designated."
  },
  {
   "property": "C79",
   "status": "proved",
   "theorems": [
    "C79_command",
    "C79_refused",
    "C79_unknown_dialect",
    "C79_help",
    "C79_command_explained",
    "C79_service"
   ],
   "note": "Composition of the theorems about arguments, sessions and lookups, over Program.v. What is rendered, parsed and on disk is oracles; arguments with a single dash are outside. In C79_service the requests come one after the other; concurrent ones are the subject of C49 and C50."
  },
  {
   "property": "C80",
   "status": "partial",
   "theorems": [
    "C80_same_answer_partial",
    "C80_one_language_refuted"
   ],
   "note": "C80_one_language_refuted: for any type that pcore has and dgo has not, the command writes the value and the service answers 500, because startServer gives its session no dialect. C80_same_answer_partial: with --dialect dgo they agree."
  },
  {
   "property": "C81",
   "status": "proved",
   "theorems": [
    "C81_sessions",
    "C81_failures",
    "C81_exactly"
   ],
   "note": "C81_sessions: functions, and what they ask for, that end without an error; C81_failures: any mixture of requests that succeed and fail, with the error and the cache each failure leaves; C81_exactly: sessions that end do this and nothing else (for maps without a key twice). Any nesting of lookups and interpolations. CacheAll and CachedEntries are C34."
  },
  {
   "property": "C82",
   "status": "proved",
   "theorems": [
    "C82_sessions",
    "C82_broken_file",
    "C82_bad_expression"
   ],
   "note": "Functions that answer the same whenever they are asked (as for C23); endless recursion is C19. C82_sessions covers expressions that fail and nested lookups that do, to any depth; C82_bad_expression and C82_broken_file are its readable instances."
  },
  {
   "property": "C83",
   "status": "proved",
   "theorems": [
    "C83_sessions",
    "C83_explained",
    "C83_one_answer",
    "C83_endless",
    "C83_options_that_look_up"
   ],
   "note": "Sessions over one configuration whose hierarchy can be resolved in the scopes of the requests; functions, types and plugins answer from their arguments only and do not look up themselves (SpecWorld.v). C83_sessions and C83_explained are equivalences; C83_one_answer and C83_endless say that the three outcomes exclude each other and that there is no other."
  },
  {
   "property": "C84",
   "status": "proved",
   "theorems": [
    "C84_sessions",
    "C84_endless",
    "C84_cycles",
    "C84_read_once"
   ],
   "note": "sessions: exact, values and errors and endless; explained sessions say the same; the file is read once at most"
  },
  {
   "property": "C85",
   "status": "proved",
   "theorems": [
    "C85_sessions",
    "C85_explained",
    "C85_one_outcome",
    "C85_endless",
    "C85_unreadable",
    "C85_settled",
    "C85_circular"
   ],
   "note": "sessions: exact for every configuration file and all scopes, values and errors and waiting and endless; explained sessions say the same; circular variables never give a value"
  },
  {
   "property": "C86",
   "status": "proved",
   "theorems": [
    "C86_sessions",
    "C86_explained",
    "C86_one_outcome",
    "C86_endless",
    "C86_unreadable"
   ],
   "note": "sessions with the configuration among several functions: exact, values and errors and waiting and endless, explained or not; a configuration that cannot be read also blocks what the other functions could answer"
  },
  {
   "property": "C87",
   "status": "proved",
   "theorems": [
    "C87_command_explained",
    "C87_explanation_written",
    "C87_explanation_refused",
    "C87_command",
    "C87_command_endless",
    "C87_one_outcome",
    "C87_service",
    "C87_unreadable"
   ],
   "note": "hypotheses: the files can be relied on (dependable), parsers, converters and renderers give a value or an error (usable); what the explanation says is the subject of C66, C67 and C90"
  },
  {
   "property": "C88",
   "status": "proved",
   "theorems": [
    "C88_trimmed",
    "C88_expressions",
    "C88_command"
   ],
   "note": "without an explainer; an explanation shows the text as written"
  },
  {
   "property": "C89",
   "status": "proved",
   "theorems": [
    "C89_proper",
    "C89_equal",
    "C89_get",
    "C89_put",
    "C89_without",
    "C89_merge"
   ],
   "note": "what the model assumes of the maps of the dgo library, proved of the functions that stand for them"
  },
  {
   "property": "C90",
   "status": "proved",
   "theorems": [
    "C90_interpolation",
    "C90_lookup",
    "C90_top",
    "C90_mux",
    "C90_entry",
    "C90_program",
    "C90_unresolved",
    "C90_search",
    "C90_options",
    "C90_invalid"
   ],
   "note": "When only lookup options are explained (C30), C90_options says what is told about the search as far as the nodes of the hierarchy go. The results of interpolations, data_hash functions and configurations in the description are named by runs of the model; C83 to C86 say what they are."
  },
  {
   "property": "C91",
   "status": "proved",
   "theorems": [
    "C91_every_lookup_in_a_session",
    "C91_one_answer",
    "C91_settled_files"
   ],
   "note": "Files and directories stay as they are while the session runs. Values of a configuration that is followed by another one in the same lookup have no nested lookups with another merge strategy, since those change how the next one is read (refuted in C72)."
  },
  {
   "property": "C92",
   "status": "proved",
   "theorems": [
    "C92_sessions",
    "C92_one_outcome",
    "C92_broken_module",
    "C92_module_path"
   ],
   "note": "Failures while the lookup options are looked up: C92_sessions gives the outcomes of all requests, C92_broken_module and C92_module_path are its two main cases."
  },
  {
   "property": "C93",
   "status": "partial",
   "theorems": [
    "C93_never_said",
    "C93_lookups_only_partial",
    "C93_told_refuted",
    "C93_full_refuted"
   ],
   "note": "False: no lookup ever says so (C93_never_said). What holds: the explanation is that of the lookups alone (C93_lookups_only_partial)."
  },
  {
   "property": "C94",
   "status": "proved",
   "theorems": [
    "C94_lookup",
    "C94_no_merge",
    "C94_refused",
    "C94_session",
    "C94_invocation"
   ],
   "note": "full; that a function of the user sees all options is shown by C94_user_ex"
  },
  {
   "property": "C95",
   "status": "proved",
   "theorems": [
    "C95_lookup",
    "C95_session",
    "C95_elsewhere",
    "C95_other_file",
    "C95_command"
   ],
   "note": "For every state, not just a new session. The trace of questions is part of the state in the model; a world may answer differently depending on what was asked before. Settings (environment variables, working directory, types, options) are the same in both worlds."
  },
  {
   "property": "C96",
   "status": "partial",
   "theorems": [
    "C96_each_alone_partial",
    "C96_any_order_partial",
    "C96_each_alone_refuted",
    "C96_service_partial",
    "C96_service_any_order_partial"
   ],
   "note": "The full claim (each_alone for every session) is refuted by a configuration that cannot be read: the first request fails and the others never end, C96_each_alone_refuted. With a configuration that can be read it holds, for sessions and for the service."
  },
  {
   "property": "C97",
   "status": "proved",
   "theorems": [
    "C97_each_alone",
    "C97_sessions",
    "C97_memory_matters"
   ],
   "note": "For every top provider, module sessions included; explanations compared as whole explainers. Identities of provider objects differ between the two sessions and are shown not to matter."
  },
  {
   "property": "C98",
   "status": "proved",
   "theorems": [
    "C98_with_key",
    "C98_ends"
   ],
   "note": "Proved for every actor, and for all lookups over finitely many keys that go through it. WithKey has no caller in the program, see C19."
  }
 ]
}
