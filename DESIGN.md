# Design

The target is lyraproj/hiera (Go, `/repo`). The model is written by hand in Coq 8.16.1 from the text of the
source; the program was neither built nor run. Everything is in `rocq/theories`. Only the standard library is used.

Contents: how the code is modelled · the plan per property · what was proved per property · trusted base (kernel,
assumptions, what is and is not modelled, what is assumed about libraries) · findings · wrong programs tried.

## Layers

* Model files (`Str Value Outcome Key Merge Fpath Config Ipl Explain State Engine Session New Api Rest Cache Races
  Plugin ExplainData` …) contain only definitions. Every definition cites the file and lines it follows
  and states its simplifications. `Conc` is the scheduler: interleavings of atomic steps.
* Proof files (`*Facts`, `*Exact`, `Meta`, `Kept`, `Transparent`, `Fuel`, `Cycles`, …) contain lemmas.
* `Spec*.v` files contain the vocabulary the properties are stated in. They use the data types of the model, not
  its functions.
* `P_*.v` files contain the theorems, each followed by `Print Assumptions` and by an `Example` with a concrete
  case that meets its hypotheses. `Worlds` and `ExLevels` hold data for the examples.

## How the code is modelled

* Go values (`dgo.Value`) are an inductive type: nil, booleans, integers, floats (opaque bits), strings, arrays,
  insertion ordered maps, sensitive values. A Go `nil` interface is `None`.
* Strings are byte strings (`string` of `ascii`).
* A panic is a value. The lookup engine is a state monad with outcomes `Ok`, `Panic`, `Hang` (blocked for ever)
  and `NoFuel`. The state after a panic is kept, since Go code can recover and continue.
* The mutual recursion Lookup / Interpolate / Config / Resolve is cut by one fuel parameter. `NoFuel` is
  distinguished from all outcomes of the code, and an outcome other than `NoFuel` stays the same with more fuel
  (`Fuel.v`). Where a theorem says that something is never answered, it says so for every amount of fuel.
* `lic := *ic` copies become scoped copies of the invocation record in the state. Fields behind pointers (the
  explainer, the configs map, the session caches, provider caches) live in the global part of the state.
* The engine is built from a fixed set of operations (`op`, `scoped` in `State.v`), so that a relation between runs
  which respects these operations holds for the whole engine (`Meta.v`). C28, C29, C30 and the frame conditions
  are instances.
* Files, environment variables, user functions, plugins, type conversion and rendering by the dgo library are
  a record of functions (`world`). Theorems quantify over all of them. Oracles receive the trace of earlier
  events, so that files may change while the program runs.
* Goroutines are transition systems. A schedule is a list of thread numbers; theorems quantify over all schedules
  and any number of threads.

## Plan per property

This table was written before the proofs and is extended when a property is added. What came out of it is in the
next section.

| id | modelled | how proved |
|----|----------|------------|
| C01 | key parser | inductive grammar, equivalence with the parser by induction on the string; SpecKeyErr.v says what is wrong with every other text, again with an equivalence |
| C02 | key parser | round trip by induction on the segments |
| C03 | key parser | holds for the last segment; refuted elsewhere by witness |
| C04, C05 | Bury, Dig | induction on parts; inductive path relation |
| C06, C07 | the strategies over an arbitrary state monad | induction on the variants with a call trace |
| C08, C11 | hash and unique strategies | refinement to key-wise / set-wise specifications; unique refuted for one found value among many |
| C09, C10 | deep merge | mutual induction on values; path based specification |
| C12 | nested merging | laws per strategy; refuted for deep and unique in general |
| C13-C16 | tokenizer, InterpolateString, doInterpolate | induction on strings and values |
| C17 | InterpolateString | equation on the engine |
| C18 | engine | refuted by a witness with two passes; exact characterisation of what the lookup gives, from soundness and completeness of the big-step description |
| C19, C20 | engine with fuel | refuted: for every fuel the outcome is OutOfFuel; the part that holds: references that can be ranked (no circles) always end with an answer, with fuel linear in the rank; for C20 exactly: a value exists only where the mentions of variables are well founded, and there an end is always reached |
| C21, C22 | engine | positive part by computation on the code path; refuted by quoted spelling; exactly: the root is read again and its first part is what the files and the lookup options are asked for |
| C23 | engine | refinement to a pure function over file contents |
| C24 | MergeLocations | trace property |
| C25, C26 | SetMergeStrategy, conversion | case analysis over all option values |
| C27 | engine | refuted by witness; exact characterisation of what an alias gives, from soundness and completeness of the big-step description |
| C28 | engine | relational proof over all combinators |
| C29, C30 | engine with explainer | invariant over all combinators, panics included |
| C31, C32 | engine | refuted by witness |
| C33 | engine | invariant on trace and provider caches |
| C34 | serverCtx caches | refinement to a function from keys to values over operation lists |
| C35-C37 | Lookup2, LookupAll | specification by first match |
| C38, C39 | config creation and resolution | equivalence with a specification of well formed hashes |
| C40, C41, C44 | filepath.Clean/Join and its callers | equations; refuted by witnesses |
| C42, C43 | mapped paths | induction on the array; refuted on panic |
| C45, C46 | createScope, varSplit | induction on argument lists and strings |
| C47, C48, C49, C50, C51 | transition systems | inductive invariants over all schedules; refutations by a concrete schedule; C48 exactly: at the end everyone has completed or waits for a file whose load panicked; C51 exactly: each call gets the value that was there at its first step, the value left is that of the last second step |
| C52 | plugin registry | invariant over operation lists |
| C53-C56 | REST and CLI glue | case analysis |
| C57, C58 | module and mux providers | engine equations; refutations by witness |
| C59 | explainer (de)serialization | induction on trees; branches that are no nodes and incomplete locations are refused |
| C60, C61, C62 | environment, plugin calls, provider options | case analysis |
| C63 | the three kinds of providers | two hierarchies that differ in the kind only, run side by side; refuted by witnesses; sessions over the same data in entries of any kind from C72 |
| C64 | initCmd and the options it reads | case analysis over options and environment |
| C65 | functionMap | permutation of the entries; refuted by two orders; exactly: the order does not matter for a function if and only if all headings that list it stand for one kind |
| C66 | engine with explainer | what is added to the tree, node by node, against the calls that were made |
| C67 | AppendTo of all nodes | the text is a list of lines; induction over the tree: every line told, no other, in order; that the explanations of all lookups have a text by an invariant of the engine (P_Written.v); that all reported texts are shown is refuted by a run |
| C68 | main, cmdLookup, LookupAndRender, Render | both directions between the run and a relation made of the specs of C35, C36 and C45; two parts of the full claim refuted by whole commands |
| C69 | stringKeys and main of yaml2json | a relation between documents and JSON texts, both directions by induction; when it crashes exactly; that errors are reported is refuted by a document with a numeric key |
| C70 | copyErrToLog with ReadLine | induction over the reads; the log against the text with carriage returns left out; the end of the last line and lines of two plugins refuted; exactly when the last line is ended |
| C71 | kill, its goroutines, the pipes, awaitMetaData | an invariant and a measure over all orders of events; waiting for children and left goroutines refuted by runs; exactly when awaitMetaData ends |
| C72 | MuxLookupKey with ForData, SetMergeStrategy and LookupAndConvertData, nested lookups | a stateless relation for what a lookup through several functions gives; refinement by induction over the depth of nesting, kept along sequences of lookups; agreement with the library and absence of traces refuted by runs |
| C73 | Lookup2, LookupAll, LookupAndRender, doLookup over the lookups of C23 and C72 | composition of the refinements: files to values, values to outputs and responses |
| C74 | filepath.Clean, Join, Dir as called by the code that makes paths | a relation for walking along the parts of a path; cleaning keeps the place and gives one text per place |
| C75 | LoadFunction and the loaders | the path of C74 through the namespaces of the loaders to the plugin that is started |
| C76 | Equals and HashCode | case analysis; exactly which locations have the same hash code for every hash of texts; refuted for keys |
| C77 | NewCommand, OptString, ExecuteLookup, main, over assumed argument parsing of pflag and cobra | a relation that reads arguments into settings and names; the last setting or all of them; refuted for commands made without ExecuteLookup |
| C78 | newCommand, startServer, main of the REST server, over the argument parsing of C77 | the relation of C77 with the options of the server; what the address designates; refuted for IPv6 addresses; exactly what the address designates, for every address |
| C79 | main of both programs, over C77, C78, New, LookupAndRender and the handler | composition of C77, C40, C68 and C73 (command), and of C78, C40 and C73 (service) |
| C80 | as C79 | the responses of C73 give the hypotheses of C79; refuted without --dialect |
| C81 | Engine.v run_prog and lookups through a top provider that is a function (session/serverctx.go, session/invocation.go); SpecServer.v threads a cache, a function from keys to values, through calls, lookups and interpolations | mutual induction over the relation (ServerExact.v; failures SpecServerFail.v and ServerFail.v; the converse, by induction on the fuel, ServerComplete.v), explained sessions by the simulation of C28 |
| C82 | Engine.v and Session.v as for C23; SpecFail.v says for each source, string, value, location, entry, hierarchy, nested lookup and lookup when it fails and with which error | the failing run of each layer (FailExact.v, FailText.v, FailTop.v) over the invariant of C23, then induction over the requests with C23 for those that succeed; explained sessions by the simulation of C28 |
| C83 | Engine.v and Session.v as for C23 and C82; SpecLookup.v and SpecFail.v are the description, SpecWorld.v says what is asked of functions, types, plugins and files | every layer is decided: it gives, it fails or it runs out of any time (Decided.v for values and strings, DecidedLevels.v for hierarchies, DecidedNested.v for nested lookups, DecidedOptions.v for the options by course-of-values induction on the time, DecidedTop.v for conversions and the whole); more time changes neither values (AnswerFacts.v) nor failures (FailMore.v); options that look up by OptionsAsk.v |
| C84 | Engine.v (yaml_lookup, environment, scope, call_lk) and Session.v; SpecTop.v says what such a session gives, without state | TopExact.v: what was read is in the cache or was never read, an invariant of every step; gives, fails or runs out of any time as for C83; the count of reads is an invariant of its own; a ring of keys by induction on the time |
| C85 | Config.v, Ipl.v, Engine.v (shared_config, load_config, resolve_config, create_providers, resolve_entry) and Session.v; SpecDeep.v says what the strings, variables, locations, entries and hierarchies stand for and which error they give, without state and without a bound | DeepExact.v (strings), DeepEntry.v (entries), DeepConfig.v (hierarchies and lookups): each step gives what the description says, fails as it says or ends with no time; ConfigEnds.v: reading a configuration always ends; the lock of a failed load is an invariant of the session |
| C86 | Engine.v (mux_lookup, lookup, lookup_and_convert, get_config), Session.v; SpecMany.v says what each function has, how options and data are merged and when this fails, with nested lookups to any depth | ManyExact.v (asking the functions for options and data), ManyNested.v (induction over nested lookups), ManyTop.v (the whole lookup, and how a configuration that fails or never ends stops it), P_Many.v (sessions; completeness through determinism and monotony in the steps) |
| C87 | Program.v (program, service), Cmd.v, Rest.v (route, do_lookup), Api.v (lookup_and_render, lookup2, lookup_all, create_scope), Flags.v, RestArgs.v, and everything under C86; SpecPrograms.v says what names, options and requests come to | ProgramsExact.v (LookupAndRender over any engine that keeps to a description of keys: sound, and complete through the steps that are enough), P_Programs.v (the engine keeps to it; command lines, exit statuses, sequences of requests, with and without a configuration), P_ExplainedPrograms.v (the command with an explanation: the simulation of runs with and without an explainer from Transparent.v, lifted to Lookup2, LookupAll and LookupAndRender) |
| C88 | Str.v (trim_space), Engine.v (istr, istr_loop), Api.v (create_scope, parse_command_line_value, lookup_and_render); SpecBlanks.v says what a blank is | P_Blanks.v (trimming characterised by its result; the loop over the pieces of a text with other blanks; a text that is one expression is found again through the uniqueness of cuts) |
| C89 | Value.v (veq, wf, mget, mput, mmerge, mwithout); SpecValues.v says equality with permutations of entries and maps with relations on lists of entries | P_Values.v (induction over the size of values, a matching lemma for entries; closed form of putting all entries) |
| C90 | Engine.v (istr, istr_loop, do_interp, lookup, call_lk, mux_lookup, run_prog, load_provider, config_lookup_at, get_config, module_lookup, merge_locations, provider_lookup), Explain.v; the relations at the head of P_Told.v say what is told about values, texts, expressions, lookups, functions at the top, programs, entries, locations and answers, in terms of how a text is cut (C14), how keys are written (C01) and of the relations of C66 | P_Told.v (rules for what a piece of code makes of the current node; mutual induction over the steps for texts, lookups and the asking of several functions; the result of an interpolation is named by a run of the model, C83 to C86 say what it is) |
| C91 | Engine.v (lookup, mux_lookup, module_lookup, module_config, find_module, config_lookup_at, get_config, lookup_options, resolve_config), Session.v (serve); SpecModules.v says what each function has for a key, which configuration it reads and what the options of modules count for, over SpecLookup.v and SpecMux.v. A nested lookup leaves its strategy behind (finding in C72): the description lets values of a configuration have nested lookups with other strategies only if no configuration is read after it in the same lookup | ModulesExact.v (an invariant over what a session keeps between lookups, another over what a lookup has resolved so far, and frames for what stays the same while a function is asked), P_ModuleSessions.v |
| C92 | Engine.v (lookup, mux_lookup, module_lookup, find_module, get_config, shared_config, load_config), Config.v (config_new), Session.v (serve); SpecModules.v says which function fails for a key and with what, and which configuration file is to blame; the relation module_session in P_ModuleFailures.v says what a session makes of it. Failures that come later in a lookup (in the data of a hierarchy, or in a nested lookup) are those of C82 for one configuration and are not described here for modules | ModulesStop.v (how a failure ends each function, over the invariants of C91, which allow configuration files to be locked), P_ModuleFailures.v |
| C93 | Api.v (lookup2, lookup_all), Engine.v, Explain.v; the relation `told` in P_Given.v says that an explanation has a node for an event; SpecApi.v says when a value is an override or a default | P_Given.v (no operation of the engine makes such a node, by the rules of Meta.v; the functions for users make none either) |
| C94 | Coerce.v (to_map, hiera_lookup, new_session_with, invocation_with), New.v, Api.v (lookup2), Engine.v (config_lookup_at, module_lookup, mux_lookup, lookup) | P_Coerce.v: stands_for says which arguments stand for which map; runs with options of the same merge are equal from every state, by induction on the nesting of mux lookups and congruence of scopes and merging |
| C95 | the whole engine (Engine.v, Ipl.v, Config.v), Session.v (serve), Api.v (lookup_and_render); in P_Locality.v and Locality.v answer_alike says when two worlds answer a question alike, same_settings what else they share | Locality.v walks through the engine function by function with one world on the left and the other on the right, P_Locality.v has the theorems and a hierarchy with a file that only some requests look at |
| C96 | Session.v (serve), Program.v (service); session_has and service_has in P_Independent.v say which outcomes requests have one after the other, without reference to any description of lookups | P_Independent.v, from the exact descriptions of C86 and C87, in which every request is described by itself |
| C97 | the whole engine with every kind of top provider (Engine.v), Session.v; SpecAlone.v says what lasting answers, functions without memory and readable configurations are | Alone.v walks over the engine with two sessions in one world, one of which has served requests before: what their caches hold is right, their providers correspond though they are numbered differently, and every function does the same in both; C97_each_alone compares answers and explainers, C97_sessions whole sessions, C97_memory_matters shows that the condition on functions is needed |
| C98 | Guard.v: WithKey with the name stack of the state (State.v), on its own as it has no caller (finding 1) | P_Guard.v: induction on the depth; the names on the stack are different and among the finitely many keys, so the depth is bounded; leads says which keys are looked up inside of each other |

## What was proved per property

Status *partial* means that the statement as a user would make it is false of the code (theorems `…_refuted` with a
computed witness) or that only a part is proved (theorems `…_partial`); the note says which. The full statements are
in `properties.jsonl` and in the comments before the theorems.

| id | property | status | theorems | note |
|----|----------|--------|----------|------|
| C01 | Key parsing accepts exactly the documented key grammar | proved | C01_key_grammar, C01_grammar_unambiguous, C01_refused (P_Key.v) | Equivalence with a separately stated grammar over all strings, for the keys (C01_key_grammar) and for the texts that are refused with the error of the first thing that is wrong (C01_refused). |
| C02 | Plain dotted keys split into their segments | proved | C02_plain_dotted_split (P_Key.v) | Full statement, any sizes. |
| C03 | A quoted key segment is always taken literally | partial | C03_quoted_literal_refuted, C03_quoted_root_refuted, C03_quoted_literal_partial, C03_exactly (P_Key.v) | Refuted: a quoted number before another segment becomes an int, a quoted empty segment before another one panics, and a quoted numeric root panics. C03_exactly: in every key that parses a quoted segment is its body as a text exactly if it is the last segment or no number is spelled that way; otherwise it is that number. |
| C04 | Dig undoes Bury | proved | C04_dig_bury (P_Key.v) | Full statement, any sizes. |
| C05 | Dig finds a value exactly when the path exists | proved | C05_dig_is_path (P_Key.v) | Equivalence with the path relation of SpecKey. |
| C06 | First-found returns the highest priority value and stops there | proved | C06_first_found, C06_none_found, C06_panic_stops, C06_calls (P_Merge.v) | Full statement, any sizes. |
| C07 | Merging strategies consult every variant exactly once, in order | proved | C07_consult_all, C07_calls, C07_pure (P_Merge.v) | Full statement, any sizes. |
| C08 | Hash merge is a key-wise first-wins union | proved | C08_hash_first_wins, C08_hash_not_a_map (P_Merge.v) | Any number of variants, non-map values included. |
| C09 | Deep merge follows its documented recursive contract | partial | C09_deep_contract_refuted, C09_deep_contract_partial, C09_deep_contract_tidy_partial (P_Merge.v) | Refuted for an empty array merged with an array that has duplicates. The exact rule is proved for all values, the documented one for arrays without duplicates. |
| C10 | Deep merge never loses or overrides higher priority data, and its flag is truthful | proved | C10_scalars_kept, C10_elements_kept, C10_flag_truthful, C10_no_flag_is_a (P_Merge.v) | Full statement, any sizes. |
| C11 | The unique strategy yields a flat duplicate-free union | partial | C11_duplicates_refuted, C11_scalar_refuted, C11_unique_partial, C11_unique_one_found_partial, C11_exactly (P_Merge.v) | Refuted when exactly one value is found. C11_exactly says exactly when the claim holds: more than one value is found, or an array is found in the only place there is, or there are several places and no element of the one value occurs twice. |
| C12 | Splitting a level into several locations does not change the merged result | partial | C12_hash_refuted, C12_unique_refuted, C12_deep_refuted, C12_first, C12_hash_partial, C12_hash_groups, C12_hash_mixed_partial, C12_unique_partial, C12_unique_one, C12_deep_partial (P_Merge.v) | Refuted for hash with values that are not maps, for unique with one value, for deep with values of different kinds at a path. Holds for first always and for the others outside of those cases. For hash C12_hash_groups says exactly what merging by groups gives, C12_hash_mixed_partial allows values that are not maps where they do no harm; for unique C12_unique_one says exactly for which groupings of a single value it holds. |
| C13 | Interpolation leaves values without interpolation expressions alone | proved | C13_nothing_to_interpolate, C13_scalars (P_Ipl.v) | For every value and state; nothing at all happens to the state. |
| C14 | Text outside interpolation expressions is preserved byte for byte | proved | C14_one_cut, C14_text_preserved, C14_exact, C14_value_text (P_Ipl.v, P_ValueText.v) | Every string has exactly one cut into texts and expressions; the texts stay in place whatever the expressions do; exact result for literals and settled variables; what strings, booleans and whole numbers read as in a text is pinned (C14_value_text). |
| C15 | Interpolation preserves the shape of data | proved | C15_shape_preserved, C15_arrays, C15_maps (P_Ipl.v) | Any nesting; entries whose interpolated keys become equal end up as one entry. |
| C16 | Configuration interpolation can never trigger a lookup | proved | C16_only_asks_about_files, C16_data_is_irrelevant, C16_methods_refused, C16_methods_panic (P_Ipl.v) | Non-interference with everything but the file system, the environment and the text of values, and a frame condition, for all of CreateProviders; methods never give a result. |
| C17 | alias returns the value of another key with its type, or fails loudly | proved | C17_alias_is_lookup, C17_strict_alias_is_lookup, C17_part_fails, C17_part_panics (P_Ipl.v) | Exact result without an explainer (C28 carries it over); as a part of a longer string it never gives a result, and panics with the documented error when the earlier expressions are known. |
| C18 | A literal interpolation escapes its text | partial | C18_literal_escapes_refuted, C18_literal_escapes_partial, C18_literal_exactly (P_Ipl.v, P_Twice.v) | Refuted: data is interpolated twice. One pass is exact, and a result without %{ survives the second. C18_literal_exactly: the lookup gives exactly what the text made by the literals stands for when it is read again, so the claim holds exactly when that text stands for itself. |
| C19 | Recursive lookups are detected | partial | C19_cycles_never_end, C19_cycle_detected_refuted, C19_acyclic_ends (P_Nested.v) | Refuted: the guard is never called, so a lookup that leads back to itself never ends (proved for every cyclic hierarchy shape of Cycles). The other direction is proved as C19_acyclic_ends: data and variables whose references can be ranked always give an answer, with a number of nested calls linear in the rank. |
| C20 | Self referencing scope variables terminate | partial | C20_scope_terminates_refuted, C20_scope_terminates_partial, C20_value_without_cycles, C20_chains_never_end, C20_without_cycles_ends (P_Ipl.v, P_ScopeCycles.v) | Refuted: a variable that refers to itself never ends. Holds for acyclic scopes, any depth (C20_scope_terminates_partial). Exactly: a text that gets a value mentions no variable whose mentions go on without end (C20_value_without_cycles, C20_chains_never_end), and without such a variable and without lookups it always ends (C20_without_cycles_ends). |
| C21 | lookup_options is never exposed as data | partial | C21_exactly, C21_lookup_options_not_found, C21_hidden_refuted (P_Hidden.v, P_Nested.v) | Keys whose root is lookup_options find nothing and ask nobody. Refuted for the quoted root 'lookup_options.x', which gives the hidden hash. C21_exactly: the hash is given exactly to the keys with another root that reads as a key that starts with lookup_options, and what they get. |
| C22 | A quoted root segment selects the data key with that exact name | partial | C22_quoted_root_refuted, C22_quoted_root_partial, C22_root_read_again (P_Nested.v) | Refuted: the root is parsed again. C22_root_read_again says for every root what it does instead (the files are asked for the first part of what the root reads as, or the lookup fails); C22_quoted_root_partial: roots that parse to themselves are as they should be. |
| C23 | The lookup result is the strategy applied to the hierarchy in order | proved | C23_every_lookup_in_a_session, C23_settled_files (P_Lookup.v) | Full statement for settled data, any number of levels and requests; in fact proved for all data and all keys, also with roots that are read as other keys (C22), with the relation of SpecLookup. |
| C24 | Absent locations are never handed to a provider function | proved | C24_absent_location, C24_no_locations, C24_absent_locations_do_not_matter, C24_called_once (P_Options.v) | Absent locations can be left out without any difference, explainer aside; an entry without locations is called exactly once. |
| C25 | Merge strategy precedence: explicit option, then lookup_options, then first | proved | C25_one_merge_option, C25_strategy_in_force, C25_unknown_strategy_panics (P_Options.v) | End to end over data files with lookup options. |
| C26 | convert_to converts exactly the found values | proved | C26_found_values_are_converted, C26_failing_conversion_panics (P_Options.v) | End to end over data files with lookup options. |
| C27 | A key gives the same value when interpolated as when looked up | partial | C27_nested_same_refuted, C27_nested_same_partial, C27_alias_exactly (P_Nested.v, P_Twice.v) | Refuted: the strategy of the outer key is used and convert_to is skipped. Holds for keys without lookup options looked up with the strategy of the outer key. C27_alias_exactly: an alias in a key without lookup options gives exactly what the other key has with strategy first and without its options, read once more. |
| C28 | Explaining a lookup does not change its outcome | proved | C28_explaining_changes_nothing (P_Explain.v) | Over any list of requests in one session; equal outcomes, equal questions to the world in the same order and equal caches, for any fuel. |
| C29 | The explanation is well nested after every lookup, also after a panic | proved | C29_every_call_stays_in_place, C29_session_back_at_root (P_Explain.v) | For any call and any outcome, panics included; the open nodes and all that was recorded before are unchanged. |
| C30 | Explainer modes only show what they promise | proved | C30_search_not_recorded, C30_data_not_recorded, C30_only_options, C30_functions_only_options (P_Modes.v, P_OnlyOptions.v) | What an explainer that records options only leaves out is proved for every search, every data phase and every session, whatever function of hiera is the top provider, the several functions of the command and the REST service included. |
| C31 | Values converted to Sensitive are not revealed by the explainer | partial | C31_redacted_refuted, C31_nothing_hidden, C31_options_only_partial, C31_options_shown_refuted (P_Modes.v, P_OnlyOptions.v) | Refuted: the redacted flag is set but never read, so an explanation of a Sensitive value shows it; and with the functions of the lookup command even an explainer of options only shows the environment. C31_nothing_hidden: for every request the flag changes neither the outcome nor the explanation. What holds is proved as the partial theorem: with the top provider that reads configurations, an explainer that records options only never shows the values found. |
| C32 | default_hierarchy is consulted when the hierarchy has no value | partial | C32_default_hierarchy_refuted, C32_default_hierarchy_never_used (P_Nested.v) | Refuted: default_hierarchy is never consulted, proved for every configuration. |
| C33 | Data files are read at most once per invocation and location | proved | C33_same_data, C33_asks_nothing_again (P_Provider.v) | Once a lookup of a data_hash provider at a location returned, every later lookup at that location, in any later state of the session, looks in the same data and asks nothing; calls that fail are repeated by later lookups. The guarantee for goroutines is C49. |
| C34 | Session caches behave like a map | partial | C34_cached_value, C34_cache_returns_previous, C34_cached_entries, C34_nil_exactly, C34_nil_refuted (P_Cache.v) | Every sequence of Cache and CacheAll calls, with CachedValue, Cache and CachedEntries after it, compared with the most recent store. A stored Go nil makes the next read panic (C34_nil_refuted), and nothing else does (C34_nil_exactly); the claim is about other values. |
| C35 | Lookup2 honours the documented order of sources | proved | C35_first_source, C35_one_answer (P_Api.v) | Lookup2 over any data (a state machine that is asked for names): the answer is the one of the first source that has a value, later ones are not asked, and there is exactly one such source; panics of a source stop it. |
| C36 | LookupAll returns exactly the names that have a value | proved | C36_keys, C36_values (P_Api.v) | C36_keys holds for any data; C36_values for data that answers the same whenever asked. |
| C37 | A requested type is guaranteed or the lookup panics | proved | C37_typed, C37_always_of_type, C37_all_typed, C37_unknown_name_panics (P_Api.v) | Instance and conversion of dgo types are parameters; C37_always_of_type adds that conversions give instances. |
| C38 | A configuration is accepted exactly when it is well formed | proved | C38_accepted_iff, C38_else_refused, C38_contents, C38_no_file (P_Config.v) | An iff over all values: accepted exactly when the independent schema holds; otherwise a panic with the file named; contents and absence of a file. |
| C39 | A resolved entry inherits exactly what it does not define | partial | C39_inherits_partial, C39_all_entries_partial, C39_exactly, C39_all_entries_exactly, C39_resolved, C39_function_twice_refuted (P_Resolve.v) | Every field of a resolved entry against the defaults, for every configuration. Refuted for function names, which are interpolated twice; C39_exactly and C39_all_entries_exactly say without any condition what happens: as claimed, and then the name of the function once more. |
| C40 | The configuration file is chosen by option, then environment, then default | partial | C40_config_path_partial, C40_absolute_env_refuted, C40_absolute_env_exactly, C40_refused, C40_scope, C40_first_read (P_New.v) | All options and environments; refuted for an absolute HIERA_CONFIGFILE, which is joined below the root. C40_absolute_env_exactly says when that makes no difference: the path has no detours and the root is empty or leads to the top directory. |
| C41 | Data locations stay below the data directory | partial | C41_within_partial, C41_inside_exactly, C41_fixed_paths_within, C41_root, C41_escape_refuted (P_Resolve.v) | Refuted: a scope value with .. escapes the data directory. Proved: every path is where its text leads to from the data directory (C41_within_partial), inside when the text never goes up further than it went down, and those are exactly the texts that stay inside of every data directory (C41_inside_exactly); also for fixed paths. |
| C42 | mapped_paths gives one location per element, in order | proved | C42_one_path_per_element, C42_paths_are, C42_nothing (P_Resolve.v) | Proved: one location per element, in order, and none for a variable that is unset or neither a string nor an array. |
| C43 | The scope is restored after mapped_paths resolution | partial | C43_resolved_partial, C43_lookup_partial, C43_explained_partial, C43_any_outcome_partial, C43_unmapped_partial, C43_panic_refuted (P_Resolve.v) | Refuted on a panic inside a template. Proved for resolving and lookups that end normally, with an explainer in every case, and without mapped_paths in every case; with them C43_any_outcome_partial says what at most is left behind: the variable of one of the mapped_paths in front of the scope. |
| C44 | An inherited plugin directory is the same directory for every entry | partial | C44_inherited_partial, C44_relative_root_refuted, C44_exactly (P_Resolve.v) | Refuted for a configuration at a relative root, where the inherited directory is joined twice. Proved for absolute roots (C44_inherited_partial). C44_exactly says for every relative root which directory an entry gets, and that it is the one of the defaults exactly if the directory is absolute or the root goes down as many directories as it goes up. |
| C45 | Scope precedence on the command line | proved | C45_variables, C45_accepted (P_Command.v) | Parsing of literals and the contents of files are parameters. Precedence over all --var arguments, vars files, facts files and the scope of the session, and when a scope is refused. |
| C46 | A --var argument is split at its first single separator | partial | C46_split_partial, C46_refused_partial, C46_refuted, C46_every_argument (P_Command.v) | Proved for arguments without newlines; refuted with newlines: an argument whose value has a newline after its first character is refused or split at a later separator. C46_every_argument says exactly how every argument is split, newlines or not: at the first such separator whose name has no newline before its last character and whose value has none after its first. |
| C47 | The configuration of a session is loaded once under every schedule | proved | C47_loaded_once, C47_all_complete (P_Races.v) | Any number of goroutines, each with any list of calls, every interleaving of the atomic steps of Config: one config.New per path and one result for all; and nobody waits for ever when no load panics. |
| C48 | A failing configuration load does not block other lookups | partial | C48_others_complete_partial, C48_waits_for_ever, C48_exactly, C48_refuted (P_Races.v) | False: after a load that panicked every later lookup waits for ever (C48_refuted, C48_waits_for_ever). C48_exactly: whatever has happened the goroutines can go on until each has completed all its calls or waits for a file whose load panicked, and nothing changes that any more. Goroutines that ask only for files that load can always complete. |
| C49 | A data_hash function is called once per location under every schedule | proved | C49_called_once, C49_called_once_without_panics, C49_all_complete (P_DataHash.v) | Any number of goroutines and locations, every interleaving of the atomic steps of dataHash: mutual exclusion, at most one call that returns, same data for all, and everybody can complete. A call that panics may be repeated. |
| C50 | REST requests do not see each other's variables | partial | C50_refuted, C50_own_variables_partial, C50_alone_partial, C50_exactly (P_RestVars.v) | False when the variables of the server leave room in their array (C50_refuted). C50_exactly: a request sees its own variables in every interleaving exactly if they do not fit into the array or no other request whose variables fit has another one at the same place. The variables of the server are always right, and so are those of a request that is served alone. |
| C51 | Concurrent Cache calls are atomic swaps | partial | C51_refuted, C51_apart_partial, C51_no_other_values_partial, C51_exactly, C51_exactly_empty (P_Cache.v, P_Swap.v) | False for calls that overlap (C51_refuted). Proved instead: calls that do not overlap are in some order; in every interleaving exactly one gets nothing if nothing was there, and all values come from the calls or from before; and exactly (C51_exactly, C51_exactly_empty): for every schedule each call gets the value that was there at its first step and the value left is that of the last second step. |
| C52 | At most one process per plugin, and none after KillPlugins | proved | C52_one_process, C52_known, C52_failed_start, C52_none_after_stop, C52_stays_stopped, C52_goes_on, C52_handshake, C52_complains (P_Plugins.v) | Step machine for startPlugin, stopAll and kill with any number of goroutines; all schedules. Each live process is known or being started, none lives when KillPlugins ends, and none comes back unless a plugin is started again. A plugin whose functions are malformed is killed but stays registered (finding). wGroup.Wait is taken to end with the process. |
| C53 | The REST status code reflects the lookup outcome | proved | C53_answers, C53_no_lookup, C53_refused (P_Rest.v) | Any lookup, type, default and variables; ServeMux's cleaning of paths is a parameter. A panic with neither an error nor a string is passed on. |
| C54 | Plugins are killed on every exit of a session block | proved | C54_do, C54_try, C54_once (P_Command.v) | util.Catch of dgo is assumed to recover errors and strings. The number of kills is counted for any consumer. |
| C55 | An explicitly requested merge strategy overrules lookup_options | partial | C55_strategy_used_partial, C55_first_refuted, C55_first_exactly (P_Command.v) | Proved for every strategy but first; refuted for first, which is dropped so that the lookup options decide. C55_first_exactly: asking for first is the same as asking for nothing. |
| C56 | Asking for client certificate verification enables it | partial | C56_verified_partial, C56_exactly, C56_refuted (P_Rest.v) | Proved when both a certificate and a key are given; refuted otherwise: the server then listens without TLS. C56_exactly: a client is not verified exactly if no verification was asked for or the certificate or the key is missing. |
| C57 | Module data is only reachable through its own namespace | proved | C57_no_namespace, C57_own_module, C57_missing_module, C57_searched_once, C57_missing_searched_once, C57_options, C57_options_not_used, C57_own_options (P_Modules.v) | Proved for every session history and a file system whose directories do not change (the theorem that a module is searched for once needs no such hypothesis). Examples show that lookup options written for a key whose module name has a capital are not used (finding). |
| C58 | MuxLookupKey takes the first provider that has the key, and only data decides how to merge | partial | C58_decided, C58_default_first_partial, C58_config_answers_options, C58_key_value_decides_refuted (P_Mux.v) | Refuted: functions that ignore that they are asked for lookup options (environment, YAML, scope, user functions) answer with the value of the key, and an entry called merge in it decides how values are merged. Proved: what decides, for every list of functions; the first value is taken when no function answers the question for options with a map; the configuration answers it from lookup_options only. |
| C59 | A serialized explanation can be read back | proved | C59_read_back, C59_same, C59_branches, C59_locations (P_ExplainData.v) | initMap and initialize of all nodes and of locations over data with named objects; any tree. Reading gives the tree with texts as String of a dgo string gives them, and the same tree when that is the string itself (config/path.go:76 relies on it too). How dgo writes named objects as JSON or YAML, and explainers with open nodes, are outside the model. |
| C60 | The environment provider exposes exactly the process environment | proved | C60_environment, C60_lookup (P_Env.v) | Every key, prefix and environment: the environment provider gives the whole environment, one variable, or nothing, exactly as the key asks. C60_lookup carries this through a lookup. |
| C61 | A plugin call maps replies to results faithfully | proved | C61_query, C61_call, C61_no_url, C61_answers, C61_not_listed (P_PluginCall.v) | The query is proved to be read back for all bytes; url.Parse, http.Client and JSON are oracles. Names with ? or # are outside the model. |
| C62 | Hierarchy entries with distinct interpolated options stay independent | proved | C62_lookup_key, C62_data_dig, C62_data_hash (P_Provider.v) | The first question a lookup of a lookup_key or data_hash provider asks after loading its function carries the entry's own options with the path of the location; data_dig functions are asked for all parts of the key and get no options (the invocation is passed instead), which is recorded as a finding. |
| C63 | Data of every kind of provider function is interpolated alike | partial | C63_nested_refuted, C63_twice_refuted, C63_full_is_false, C63_kinds_partial, C63_sessions_partial (P_Kinds.v, P_KindsSession.v) | Refuted: a text that looks up another key works from a data_hash function and is a nil dereference from a lookup_key or data_dig function, and data_hash values are interpolated twice. Proved for values with nothing to interpolate, with and without locations and explainers, through whole sessions (C63_sessions_partial). |
| C64 | A plugin always gets a usable environment | proved | C64_environment (P_PluginCall.v) | The environment is the list given to exec; that of two entries with one name the later one counts is part of the specification. |
| C65 | The functions of a plugin do not depend on the order of a map | partial | C65_order_partial, C65_order_refuted, C65_exactly (P_PluginCall.v) | Refuted: a function listed under two kinds is sometimes one and sometimes the other. Exactly: the order of the entries does not matter for a function if and only if all the headings that list it stand for one kind (C65_exactly). |
| C66 | Explanations tell what was asked and what was found | proved | C66_hierarchy, C66_dig, C66_lookup (P_Truth.v) | Proved for every hierarchy, strategy and state in which an explainer is in use. Conversions of the value are not told by the program, which the theorem says. What providers report in between (texts of functions, interpolations) is left open. |
| C67 | The text of an explanation shows what it contains | partial | C67_told, C67_only, C67_order, C67_written, C67_all_reported_refuted, C67_lookups_written (P_Text.v, P_Written.v) | Every line that a node tells is in the text (C67_told), no other line is (C67_only), in the order of events (C67_order), a text exists when locations are resolved (C67_written), and they are in the explanation of any lookups in a session (C67_lookups_written). Missing: that all reported texts are shown, which is false: C67_all_reported_refuted has a run in which the text that a top-level function explained is lost. |
| C68 | The lookup command writes what it found and fails when something failed | partial | C68_formats, C68_output, C68_success, C68_unknown_format_refuted, C68_default_dropped_refuted, C68_known_format_partial (P_Cmd.v) | What is written and when the command succeeds are characterised in both directions (C68_output, C68_success), and the formats (C68_formats). Missing: an unknown format is not refused when nothing is found (C68_unknown_format_refuted), and the default is dropped with --all (C68_default_dropped_refuted). The arguments are C77. |
| C69 | yaml2json writes the JSON of the document or an error | partial | C69_written, C69_other_keys, C69_crash_partial, C69_reported_partial, C69_error_refuted (P_Yaml2json.v) | C69_written gives both directions; the error part of the full statement is C69_full, false: C69_error_refuted. C69_crash_partial says exactly when the program crashes. |
| C70 | What plugins write on stderr is in the log | partial | C70_log, C70_last_line_partial, C70_last_line_refuted, C70_last_line_exactly, C70_last_line_length, C70_lines_refuted (P_Pipes.v) | C70_log is the full claim about the content; that the last line is ended is refuted when it fills the buffer (C70_last_line_refuted) and C70_last_line_exactly says exactly when it is: something of it is left after the pieces that fill the buffer (C70_last_line_length: without carriage returns, its length is no multiple of the size). That lines stay lines with two plugins is refuted (C70_lines_refuted). |
| C71 | Stopping a plugin ends all that was started for it | partial | C71_stopped, C71_returns_partial, C71_waits_refuted, C71_goroutine_left_refuted, C71_goroutine_left_always, C71_meta, C71_meta_refuted, C71_meta_exactly (P_Pipes.v) | C71_stopped holds for all orders of events. C71_returns_partial: proved when no child has the pipes open; C71_returns_full is false (C71_waits_refuted). C71_goroutines_full and C71_meta_full are false (C71_goroutine_left_refuted, C71_meta_refuted). |
| C72 | Lookups through several functions are a function of files, scope and options | partial | C72_every_lookup_in_a_session, C72_settled_files, C72_nested_same, C72_library_and_command_agree_refuted, C72_nested_leaves_no_trace_refuted (P_MuxLookup.v) | every lookup in a session through several functions, data without interpolation, and nested lookups are proved to give what the description says; that the library and the command agree on the same files, and that a nested lookup leaves nothing behind, are refuted with witnesses |
| C73 | From the files to the answer | proved | C73_names, C73_all_names, C73_command, C73_command_explained, C73_server (P_FromFiles.v) | Lookup2 for any names; LookupAll for any names with and without a map type; the lookup command with and without --all, and with an explanation (what is found and reported; the text of the explanation is the subject of C66 and C67); the REST service for any sequence of requests |
| C74 | Files are where root, directory and name lead | proved | C74_clean, C74_same_text, C74_join, C74_root, C74_locations, C74_plugindir, C74_list (P_Path.v) | Clean, join and root of a configuration, and the paths of resolved entries, against walking along the parts of paths; one text per place. |
| C75 | The file that is started for a function | proved | C75_loader, C75_load_function, C75_same_plugin (P_Path.v) | The file described is the one that is asked for, through the loaders, for every entry; sharing of plugins exactly by place. The loaders of dgo are assumed to work as said in Loader.v. |
| C76 | Equality of keys and locations | partial | C76_locations, C76_location_hash, C76_location_hash_exactly, C76_keys_partial, C76_key_text_refuted, C76_key_hash_refuted (P_Equal.v) | Locations are proved, and which of them have the same hash code whatever the hash of a text is (C76_location_hash_exactly). Keys that are equal have the same segments (C76_keys_partial). The other direction and the hash code of keys are refuted. |
| C77 | What the arguments of the command mean | partial | C77_lookup, C77_help, C77_refused, C77_program, C77_independent, C77_new_command_refuted, C77_new_command_partial, C77_loglevel_ignored (P_Flags.v) | Proved for ExecuteLookup and the program; refuted for commands made with NewCommand in one process (finding 56), with the remaining case as C77_new_command_partial. |
| C78 | What the arguments of the REST server mean | partial | C78_started, C78_help, C78_refused, C78_exit, C78_listens_refuted, C78_listens_partial, C78_listens_exactly, C78_loglevel_ignored (P_RestArgs.v) | Proved for everything but the address: C78_listens is false for IPv6 addresses without brackets (C78_listens_refuted) and proved for all others (C78_listens_partial). C78_listens_exactly says for every address what is designated. |
| C79 | The programs as a whole | proved | C79_command, C79_refused, C79_unknown_dialect, C79_help, C79_command_explained, C79_service (P_Program.v) | Composition of the theorems about arguments, sessions and lookups, over Program.v. What is rendered, parsed and on disk is oracles; arguments with a single dash are outside. In C79_service the requests come one after the other; concurrent ones are the subject of C49 and C50. |
| C80 | The command and the service agree | partial | C80_same_answer_partial, C80_one_language_refuted (P_Program.v) | C80_one_language_refuted: for any type that pcore has and dgo has not, the command writes the value and the service answers 500, because startServer gives its session no dialect. C80_same_answer_partial: with --dialect dgo they agree. |
| C81 | A function of the user sees one cache, its scope and itself | proved | C81_sessions, C81_failures, C81_exactly (P_Server.v) | C81_sessions: functions, and what they ask for, that end without an error; C81_failures: any mixture of requests that succeed and fail, with the error and the cache each failure leaves; C81_exactly: sessions that end do this and nothing else (for maps without a key twice). Any nesting of lookups and interpolations. CacheAll and CachedEntries are C34. |
| C82 | A source that cannot be read fails every lookup that gets to it | proved | C82_sessions, C82_broken_file, C82_bad_expression (P_Fail.v) | Functions that answer the same whenever they are asked (as for C23); endless recursion is C19. C82_sessions covers expressions that fail and nested lookups that do, to any depth; C82_bad_expression and C82_broken_file are its readable instances. |
| C83 | A lookup does what the description says and nothing else | proved | C83_sessions, C83_explained, C83_one_answer, C83_endless, C83_options_that_look_up (P_Complete.v) | Sessions over one configuration whose hierarchy can be resolved in the scopes of the requests; functions, types and plugins answer from their arguments only and do not look up themselves (SpecWorld.v). C83_sessions and C83_explained are equivalences; C83_one_answer and C83_endless say that the three outcomes exclude each other and that there is no other. |
| C84 | A session whose provider reads no configuration | proved | C84_sessions, C84_endless, C84_cycles, C84_read_once (P_Top.v) | sessions: exact, values and errors and endless; explained sessions say the same; the file is read once at most |
| C85 | Sessions with any configuration | proved | C85_sessions, C85_explained, C85_one_outcome, C85_endless, C85_unreadable, C85_settled, C85_circular (P_Deep.v) | sessions: exact for every configuration file and all scopes, values and errors and waiting and endless; explained sessions say the same; circular variables never give a value |
| C86 | Sessions with several functions | proved | C86_sessions, C86_explained, C86_one_outcome, C86_endless, C86_unreadable (P_Many.v) | sessions with the configuration among several functions: exact, values and errors and waiting and endless, explained or not; a configuration that cannot be read also blocks what the other functions could answer |
| C87 | What the command and the service come to, exactly | proved | C87_command_explained, C87_explanation_written, C87_explanation_refused, C87_command, C87_command_endless, C87_one_outcome, C87_service, C87_unreadable (P_ExplainedPrograms.v, P_Programs.v) | hypotheses: the files can be relied on (dependable), parsers, converters and renderers give a value or an error (usable); what the explanation says is the subject of C66, C67 and C90 |
| C88 | Blanks around expressions, variables and defaults | proved | C88_trimmed, C88_expressions, C88_command (P_Blanks.v) | without an explainer; an explanation shows the text as written |
| C89 | Values and maps | proved | C89_proper, C89_equal, C89_get, C89_put, C89_without, C89_merge (P_Values.v) | what the model assumes of the maps of the dgo library, proved of the functions that stand for them |
| C90 | What explanations say about interpolation, nested lookups, options, modules, functions and invalid keys | proved | C90_interpolation, C90_lookup, C90_top, C90_mux, C90_entry, C90_program, C90_unresolved, C90_search, C90_options, C90_invalid (P_Told.v) | When only lookup options are explained (C30), C90_options says what is told about the search as far as the nodes of the hierarchy go. The results of interpolations, data_hash functions and configurations in the description are named by runs of the model; C83 to C86 say what they are. |
| C91 | Sessions with modules | proved | C91_every_lookup_in_a_session, C91_one_answer, C91_settled_files (P_ModuleSessions.v) | Files and directories stay as they are while the session runs. Values of a configuration that is followed by another one in the same lookup have no nested lookups with another merge strategy, since those change how the next one is read (refuted in C72). |
| C92 | A module that cannot be read | proved | C92_sessions, C92_one_outcome, C92_broken_module, C92_module_path (P_ModuleFailures.v) | Failures while the lookup options are looked up: C92_sessions gives the outcomes of all requests, C92_broken_module and C92_module_path are its two main cases. |
| C93 | An explanation says when a value is an override or a default | partial | C93_never_said, C93_lookups_only_partial, C93_told_refuted, C93_full_refuted (P_Given.v) | False: no lookup ever says so (C93_never_said). What holds: the explanation is that of the lookups alone (C93_lookups_only_partial). |
| C94 | Arguments that must be maps, and what counts of the options of a lookup | proved | C94_lookup, C94_no_merge, C94_refused, C94_session, C94_invocation (P_Coerce.v) | full; that a function of the user sees all options is shown by C94_user_ex |
| C95 | A lookup depends on nothing but what it asked for | proved | C95_lookup, C95_session, C95_elsewhere, C95_other_file, C95_command (P_Locality.v) | For every state, not just a new session. The trace of questions is part of the state in the model; a world may answer differently depending on what was asked before. Settings (environment variables, working directory, types, options) are the same in both worlds. |
| C96 | Requests of a session do not influence each other | partial | C96_each_alone_partial, C96_any_order_partial, C96_each_alone_refuted, C96_service_partial, C96_service_any_order_partial (P_Independent.v) | The full claim (each_alone for every session) is refuted by a configuration that cannot be read: the first request fails and the others never end, C96_each_alone_refuted. With a configuration that can be read it holds, for sessions and for the service. |
| C97 | Earlier requests change neither the answer nor the explanation of a later one | proved | C97_each_alone, C97_sessions, C97_memory_matters (P_Alone.v) | For every top provider, module sessions included; explanations compared as whole explainers. Identities of provider objects differ between the two sessions and are shown not to matter. |
| C98 | WithKey refuses recursive lookups and ends every other one unchanged | proved | C98_with_key, C98_ends (P_Guard.v) | Proved for every actor, and for all lookups over finitely many keys that go through it. WithKey has no caller in the program, see C19. |

## Trusted base

### Kernel and assumptions

* Coq 8.16.1: its kernel, `coqc` and `coqchk`; the virtual machine for `vm_compute` in examples and witnesses.
* No axiom, parameter, section-less variable, functor, module type, `Admitted` or disabled check is used.
* `Print Assumptions` follows every theorem of the table above in its file and prints, for each of them, *Closed
  under the global context*: no theorem rests on an axiom, not even one of the standard library.
* The checker, run over all compiled files including the standard library, lists seven names under
  `Coq.ssr.ssrunder.Under_rel` (`Under_rel`, `Under_rel_from_rel`, `Under_relE`, `Over_rel`, `over_rel`,
  `over_rel_done`, `under_rel_done`). They belong to a sealed module of Coq's own library that is loaded with the
  standard library; none of our theorems uses them.
* The properties as stated in English, the `Spec*.v` files, and the reading of the Go text that the model files
  stand for. There is no mechanical link between the Go text and the model.
* What there is instead: `Conform.v` runs the model on the inputs of the tests in the repository (`api/*_test.go`,
  `hiera/hiera_test.go`, `examples/*_test.go`, `session/serverctx_test.go`, `lookup/lookup_test.go`) and comes to the
  results that these tests expect, down to the text of the explanations. Its head names the few tests that are left
  out. These are tests of the model, not proofs.

### Which code is modelled

| file | modelled | not modelled |
|------|----------|--------------|
| `api/key.go` | NewKey with the scanner and every panic, Bury, Dig, Root, Source, Parts, Equals, HashCode | Type |
| `api/coerce.go`, `issues.go`, other `api/*.go` | ToMap (Coerce.v); the texts of errors where they are used; interfaces have no code | what vf.Value makes of Go values that are no dgo values |
| `merge/deepmerge.go`, `merge/strategy.go` | Deep, the four strategies with GetStrategy, MergeLookup, reports to the explainer | options of the deep strategy: they are stored and shown but, as in Go, never read |
| `session/interpolate.go` | all | — |
| `session/invocation.go` | all methods with effects: Config, Lookup, LookupAndConvertData, SetMergeStrategy, extractConversion, MergeHierarchy, MergeLocations, invokeWithLocation, With…, For…, Report…, DoWithScope, DoRedacted; on its own, in Guard.v: WithKey, which has no caller (finding 1) | — |
| `session/resolvedconfig.go` | Resolve, CreateProviders, ResolveOptions with the module check | — |
| `session/session.go` | New, addHieraConfig, Invocation, KillPlugins, LoadFunction (path of a plugin, order of sources), the namespaces of the loaders with pluginFinder (Loader.v) | that loaders remember what they found, a loader given as an option; the content of the functions of a session and of a plugin: oracles `w_fun` and `w_plugin`; accessors |
| `session/serverctx.go` | Cache, CacheAll, CachedValue, CachedEntries, also under concurrency; Interpolate, Explain, Option as used by user functions | — |
| `session/pluginloader.go` | startPlugin, stopAll, kill, initialize, functionMap, the dispatch functions, makeOptions, callPlugin, initCmd, getUnixSocketDir, getPluginTransport; on their own, in Pipes.v: copyErrToLog, awaitMetaData, ignoreOut, and kill with its goroutines | the operating system; the reply of a starting plugin is an oracle |
| `session/proc_*.go`, `plugintransport*.go` | the default transport | signals and job objects of operating systems |
| `config/*.go` | New with the schema, create, entries with their defaults and Resolve, paths, globs, uris, mapped_paths, functions, Equals and HashCode of locations | Type and String of locations |
| `internal/*.go` | the three providers with their caches and lock, loading of functions, invocation of built-in and other functions | — |
| `provider/*.go` | ConfigLookupKey, ModuleLookupKey, MuxLookupKey, Environment, ScopeLookupKey, YamlLookupKey, YamlData, JSONData | parsing of YAML and JSON: oracles `w_yaml`, `w_json`, `w_config` |
| `explain/explainer.go` | the tree, all Accept… and Push… methods, Pop; initMap and initialize of all nodes; AppendTo of all nodes | foundInDefaults, foundInOverrides (no caller); Equals, Type |
| `hiera/hiera.go` | all of Lookup, Lookup2, LookupAll, DoWithParent, TryWithParent, LookupAndRender, parseCommandLineValue, createScope, addVarPaths | nothing |
| `hiera/render.go` | which kind of output is written for which name | YAML, JSON, binary and text of values: oracles |
| `hieraserver/rest/rest.go` | keyPattern, doLookup, the options of a request with the shared array, makeTLSconfig, how the server listens, newCommand, startServer, main: flags and options | flags with a single dash, help texts, net.Listen, net/http apart from the cleaning of paths (a parameter) |
| `cli/*.go`, `lookup/lookup.go` | NewCommand, OptString, cmdLookup, ExecuteLookup, main: flags, options, exit status | flags with a single dash, help and version texts, ExecuteLookup without any argument (cobra then reads those of the process) |
| `yaml2json/main.go` | all (Yaml2json.v) | the yaml and json libraries |
| test plugin | — | all |

### What is assumed about libraries

* dgo maps keep the order of insertion; `Put` of a known key keeps its place; `Merge` gives the union with the
  receiver overwritten; equality of values is structural, with integers and floats distinct; `String()` of a dgo
  string is its text; `Unique` of an array keeps first occurrences; `Flatten` is recursive. All in `Value.v`.
* `filepath.Clean`, `Join`, `Abs`, `IsAbs` for Unix as in `Fpath.v`; C74 says what they do.
* The string of a text is that text (`show_text` in `P_Program.v`); stopping plugins writes nothing to the standard output.
* pflag and cobra as described at the heads of `Args.v`, `Flags.v` and `RestArgs.v`; `net.SplitHostPort` as `designates` of `SpecRestArgs.v` says.
* dgo loaders as described at the head of `Loader.v`.
* Regular expressions of the code are modelled by hand-written matchers, with leftmost-first semantics, `.` not
  matching a newline. Invalid UTF-8 is not distinguished from other bytes.
* `sync.Map` methods and mutexes are atomic. Readers may overtake a waiting writer in the model, which gives more
  schedules than Go allows.
* `util.Catch` of dgo turns a panic with an error or a string into an error.
* `url.QueryEscape`, `url.Values.Encode` as in `Plugin.v`; `url.Parse`, `http.Client`, JSON are oracles.
* The indenter of dgo writes a line break and two blanks per level for `NewLine`, and texts as they are
  (`Text.v`).
* Integers are unbounded; slices and maps have no size limit; there is no memory exhaustion and no stack overflow
  (a Go program that recurses for ever is killed; here it never gets an answer).

## Findings

Each is a behaviour of the faithful model that contradicts a property as a user would state it. Those with a theorem
named `…_refuted` are proved by a computed witness; lines refer to `/repo`.

| # | finding | proof |
|---|---------|-------|
| 1 | `WithKey` (`session/invocation.go:261-270`), which is meant to stop recursive lookups, is never called. A key whose value refers to itself, directly or through others, is looked up for ever. | C19_cycle_detected_refuted, C19_cycles_never_end; that it would work is C98_ends |
| 2 | A scope variable whose text refers to itself is interpolated for ever. | C20_scope_terminates_refuted |
| 3 | `default_hierarchy` is resolved and then never consulted. | C32_default_hierarchy_refuted, C32_default_hierarchy_never_used |
| 4 | The root of a key is parsed a second time by the providers: the key `'a.b'` finds what `a` has, `'1'` panics. | C22_quoted_root_refuted |
| 5 | For the same reason the key `'lookup_options.x'` gives the hash `lookup_options`, which is meant to be hidden. | C21_hidden_refuted |
| 6 | A quoted number that is followed by another segment becomes an index; a quoted empty segment that is followed by another one panics; `'1'.a` panics while `'1'` does not. | C03_quoted_literal_refuted, C03_quoted_root_refuted |
| 7 | unique: when exactly one of several variants has a value, an array is flattened but keeps its duplicates; a scalar that is the only variant stays a scalar. | C11_duplicates_refuted, C11_scalar_refuted |
| 8 | deep: an empty array merged with an array gives the latter with its duplicates; the result depends on how the levels are grouped when values of different kinds meet; the options of the strategy are never read. | C09_deep_contract_refuted, C12_deep_refuted |
| 9 | Values of data_hash functions are interpolated twice, so that `%{literal('%')}{x}` is expanded by the second pass. | C18_literal_escapes_refuted, C63_twice_refuted |
| 10 | A nested lookup (`%{lookup('k')}`) uses the merge strategy of the outer key and skips `convert_to`. | C27_nested_same_refuted |
| 11 | The flag that `DoRedacted` sets is read nowhere: explanations show values that are converted to Sensitive. | C31_redacted_refuted |
| 12 | When `config.New` panics, the lock of the configuration stays locked and every later lookup of the session waits for ever (`session/invocation.go:85-106`). | C48_refuted, C48_waits_for_ever |
| 13 | An inherited plugin directory is joined with the root twice when the root is relative. | C44_relative_root_refuted |
| 14 | `--merge first` and `merge=first` are dropped, so that lookup options decide (`hiera/hiera.go:217`). | C55_first_refuted |
| 15 | REST requests append to one shared slice; when it has room, concurrent requests see each other's variables (`hieraserver/rest/rest.go:136`). | C50_refuted |
| 16 | TLS is silently off when the certificate or the key is missing, also with `--clientCertVerify`. | C56_refuted |
| 17 | `Cache` is not atomic: two overlapping calls can both return the same old value (`session/serverctx.go:24-26`). | C51_refuted |
| 18 | A Go nil stored with `Cache` makes the next read panic. | C34_nil_refuted |
| 19 | An absolute `HIERA_CONFIGFILE` is joined below the working directory; one that is set but empty names a directory. | C40_absolute_env_refuted |
| 20 | `..` in a scope value escapes the data directory. | C41_escape_refuted |
| 21 | The scope set for `mapped_paths` is not restored when the template panics. | C43_panic_refuted |
| 22 | The name of a function is interpolated twice. | C39_function_twice_refuted |
| 23 | `--var` arguments whose value contains a newline are refused or split at a later separator. | C46_refuted |
| 24 | Providers that ignore that they are asked for lookup options (environment, YAML, scope, user functions below Mux) answer with the value of the key; an entry `merge` in it decides how values are merged. The REST server and the command both use such a Mux. | C58_key_value_decides_refuted |
| 25 | A value with `%{lookup('x')}` or `%{alias('x')}` that comes from a lookup_key or data_dig function dereferences nil: after ConfigLookupKey the invocation has no merge strategy. | C63_nested_refuted |
| 26 | A function that a plugin lists under two kinds is of one or the other kind at random. | C65_order_refuted |
| 27 | A plugin whose functions are malformed is killed but stays registered, so that later lookups use a dead process. | C52 (examples in P_Plugins.v) |
| 28 | Plugins that are started after KillPlugins stay alive. | C52_stays_stopped shows what is needed for none to come back |
| 29 | Lookup options of modules are matched by a case sensitive prefix, so that options of a key that is written with a capital are not used. | example in P_Modules.v |
| 30 | `%{lookup('x')}` inside `lookup_options` enters Config again before it is known and never ends, whatever key is looked up. | C83_options_that_look_up |
| 31 | A merge option that is a map without `strategy` panics with an unknown strategy; one that is neither a string nor a map silently means first. | C25_one_merge_option, C25_unknown_strategy_panics |
| 32 | data_dig functions get the invocation instead of a provider context: they see no options, and get the root of the key only. | Engine.v, C62 note |
| 33 | The lock of a data_hash provider is held while its function runs: a function that looks up a key of the same provider blocks for ever. | outcome `Hang` of Engine.v |
| 34 | Conversions by `convert_to` are not told in explanations. | C66_lookup |
| 35 | Locations given as `uri` are passed to functions as option `path`. | C62_lookup_key |
| 36 | `strict_alias` of a missing key gives null inside an array or map, and not found at the top. | C17_strict_alias_is_lookup |
| 37 | The pattern of option names has a typo, `(:?` for `(?:`, and accepts a colon. | C38 (SpecSchema) |
| 38 | Several goroutines that use one invocation write its map of configurations without a lock. | not modelled |
| 39 | `ignoreOut` loops for ever on a read error other than EOF. | not modelled |
| 40 | A text that a function reports with `Explain` while the innermost node is a lookup, an interpolation or a merge is kept in the tree and in the data form but not in the text of the explanation (`AppendTo` of these nodes does not dump texts); so are the results of lookups. | C67_all_reported_refuted |
| 41 | `--render-as` with an unknown name is refused only when there is something to render; for a key without a value the command succeeds silently. | C68_unknown_format_refuted |
| 42 | `--default` is ignored when `--all` is given. | C68_default_dropped_refuted |
| 43 | The lookup command drops the result of `LookupAndRender` and ends with status 0 when no value is found. | C68_success, C68_ex |
| 44 | `main` of the command prints errors with `fmt.Println(cmd.OutOrStderr(), err)`: the writer itself is printed, and to the standard output (should be `Fprintln`). | not modelled |
| 45 | `yaml2json` panics, with a stack trace instead of an error, on a document with a key that is not a string in its outer maps and sequences. | C69_error_refuted, C69_crash_partial |
| 46 | A last line on the stderr of a plugin that is not ended and is exactly as long as the buffer (64 kB) is not ended in the log either. | C70_last_line_refuted |
| 47 | A line and its line break are written to the log with two calls, so lines of two plugins can end up on one line. | C70_lines_refuted |
| 48 | `kill` waits until stdout and stderr of the plugin are closed. A child of the plugin that inherits them and goes on running keeps `kill`, and `KillPlugins`, waiting for ever. | C71_waits_refuted |
| 49 | After the timeout of three seconds in `kill` the goroutine with `process.Wait()` is left for ever in its send to `done`. | C71_goroutine_left_refuted, C71_goroutine_left_always |
| 50 | After the timeout in `startPlugin` the goroutine of `awaitMetaData` is left for ever in its send to `metaCh`; and the killed process is never waited for. | C71_meta_refuted |
| 51 | `kill` returns without releasing its lock if the plugin has no process any more; and the process is killed without being waited for if it cannot be terminated. | not modelled |
| 52 | `ForData` returns the same context when it is in data mode, so a nested lookup below `MuxLookupKey` overwrites the merge strategy and the lookup options of the lookup it is part of. With `ConfigLookupKey` and `ModuleLookupKey`, as in `examples/module_test.go`, values of the module are then left out. | C72_nested_leaves_no_trace_refuted |
| 53 | Nested lookups use the lookup options of their own key below `MuxLookupKey` (command and REST service) but those of the outer key below a plain `ConfigLookupKey`: the same files give different answers. | C72_library_and_command_agree_refuted |
| 54 | `HashCode` of a key panics with "implement me", although keys are dgo values; and keys with the same segments, such as `a.b` and `'a'.b`, are not equal. | C76_key_hash_refuted, C76_key_text_refuted |
| 55 | `--loglevel` of the command and of the REST service is stored and never read. | C77_loglevel_ignored |
| 56 | `NewCommand` does not reset the variable of `--default` (only `ExecuteLookup` does), so a program that makes two commands uses the default given to the first in the second. | C77_new_command_refuted |
| 57 | `--addr` of the REST service with an IPv6 address (`::1`) gives `::1:8080`, which `net.Listen` cannot read: the server panics. Only `[::1]` works. | C78_listens_refuted |
| 58 | `main` of the REST service writes errors with `fmt.Println(cmd.OutOrStderr(), err)`: to the standard output, after the address of the writer. | not modelled |
| 59 | `startServer` gives its session no dialect, so the REST service reads types (`type=` and `convert_to`) and values in the dialect dgo, while its help says Puppet DSL and the command, on the same files, uses pcore unless `--dialect` says otherwise. The service has no option for the dialect. | C80_one_language_refuted |
| 60 | With several functions, as in the lookup command and the REST service, an explainer that only explains options shows values: `Environment` does not look at the mode and answers the search for lookup options with the value of the key, so that the merged "options" shown for `env` are the environment, even when the lookup options say that it is Sensitive. | C31_options_shown_refuted |
| 61 | A module with a broken `hiera.yaml` blocks all lookups of its keys: the first fails with the error, but `Config` in session/invocation.go has left the lock of the file held in the session, so each later lookup of a key of that module never ends (in the REST service: never answers and keeps its thread), while lookups of other keys go on. The case of C48 with modules. | C92_broken_module |
| 62 | Nothing calls `AcceptFoundInOverrides` and `AcceptFoundInDefaults`: with an override the explanation is empty, and with a default it ends in "No such key", although a value is given. The lookup command with `--default` and `--explain` shows an explanation without the value it gives. | C93_told_refuted, C93_full_refuted, C93_never_said |
| 63 | Whether a request ends depends on the requests before it when `hiera.yaml` cannot be read: alone it fails with the error, after another one that failed it never ends. Apart from this, requests to a session never influence each other. | C96_each_alone_refuted, C96_each_alone_partial |
## Wrong programs tried

`seeded/LOG.jsonl` has one line per attempt: 508 edits of the model, each the way a realistic bug would change the
program, made in a scratch copy that was then rebuilt with every failing proof replaced so that all failing theorems
are seen. 482 of them made theorems fail. The others are explained in their lines: either the edit cannot change
what the program does, or a theorem was tightened or added, and the attempt is repeated in the following line.
