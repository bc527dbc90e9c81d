{"id": "C01", "title": "Key parsing accepts exactly the documented key grammar", "statement": "NewKey(s) either returns a key or panics with one of three errors. It returns a key exactly when every quote opened in s is closed, no segment is empty except a quoted one that ends the key, and the first segment does not read as an integer that fits in 32 bits unless it is quoted and is the whole key. The returned key always has at least one part and its first part is a string, so Root() can never fail.", "quantifier": "for every string s", "why_tests_cant": "Tests list a handful of keys. The claim is an equivalence between the parser and a grammar over all strings.", "anchors": ["api/key.go:NewKey", "api/key.go:parseUnquoted", "api/key.go:parseQuoted", "api/key.go:Root"]}
{"id": "C02", "title": "Plain dotted keys split into their segments", "statement": "If s is a sequence of segments joined by '.', where no segment is empty or contains a dot or a quote and the first one is not an integer, then NewKey(s).Parts() is exactly that sequence, with the segments that read as 32 bit decimal integers turned into ints.", "quantifier": "for every list of segments", "why_tests_cant": "The number and content of the segments is unbounded.", "anchors": ["api/key.go:NewKey", "api/key.go:parseUnquoted"]}
{"id": "C03", "title": "A quoted key segment is always taken literally", "statement": "A segment written inside quotes is used as a string with exactly the quoted text, whatever that text is (dots, digits, the other quote character, nothing at all) and wherever the segment appears in the key.", "quantifier": "for every quoted text and every position of the quoted segment", "why_tests_cant": "Tests only quote a segment in one position. The claim relates all positions and all texts.", "anchors": ["api/key.go:parseQuoted", "api/key.go:parseUnquoted"]}
{"id": "C04", "title": "Dig undoes Bury", "statement": "For every key k and value v, k.Dig(k.Bury(v)) is v.", "quantifier": "for every key and every value", "why_tests_cant": "Keys have unbounded length and values unbounded depth.", "anchors": ["api/key.go:Bury", "api/key.go:Dig"]}
{"id": "C05", "title": "Dig finds a value exactly when the path exists", "statement": "k.Dig(v) returns w exactly when w is reached from v by following the parts after the root one by one, where an int part selects an existing index of an array or an integer key of a map, and a string part selects a string key of a map. Dig never panics; out of range and negative indexes, and parts applied to scalars, give nil.", "quantifier": "for every key and every value", "why_tests_cant": "The set of value shapes is infinite; the boundary index len(a) must be rejected for every array.", "anchors": ["api/key.go:Dig"]}
{"id": "C06", "title": "First-found returns the highest priority value and stops there", "statement": "With the 'first' strategy the result is the value of the first variant that yields one, the variants before it are consulted in order, and no variant after it is consulted (no file read, no function call). When no variant yields a value the result is not found and every variant was consulted once.", "quantifier": "for every list of variants, every variant function and every state it may act on", "why_tests_cant": "Short circuiting is an absence of effects for all lists and all variant functions.", "anchors": ["merge/strategy.go:firstFound.MergeLookup", "session/invocation.go:MergeHierarchy"]}
{"id": "C07", "title": "Merging strategies consult every variant exactly once, in order", "statement": "With 'unique', 'hash' and 'deep' each variant is consulted exactly once, in hierarchy order, and the result is not found exactly when no variant yields a value.", "quantifier": "for every list of variants and every variant function", "why_tests_cant": "A property of the sequence of effects for all lists.", "anchors": ["merge/strategy.go:doLookup"]}
{"id": "C08", "title": "Hash merge is a key-wise first-wins union", "statement": "When every found value is a map, the 'hash' result contains exactly the union of the keys, and the value at each key is the one from the highest priority map that has the key, with no nested merging. When the highest priority found value is not a map it is returned unchanged. Lower priority values that are not maps are ignored.", "quantifier": "for every number of variants and all values", "why_tests_cant": "Unbounded maps and unbounded number of levels.", "anchors": ["merge/strategy.go:hashMerge.merge", "merge/strategy.go:doLookup"]}
{"id": "C09", "title": "Deep merge follows its documented recursive contract", "statement": "merge.Deep(a,b): two maps give a map with the union of keys, where a key present in both is merged recursively and otherwise keeps its only value; two arrays give the union of their elements, a's first, without duplicates; anything else gives a.", "quantifier": "for every pair of values, of every depth", "why_tests_cant": "Recursion over values of unbounded depth.", "anchors": ["merge/deepmerge.go:Deep", "merge/deepmerge.go:deep"]}
{"id": "C10", "title": "Deep merge never loses or overrides higher priority data, and its flag is truthful", "statement": "Every path that leads to a scalar in a leads to the same scalar in Deep(a,b) and every element of an array in a is still an element of the merged array. The bool result is true exactly when the result differs from a.", "quantifier": "for every pair of values and every path", "why_tests_cant": "Quantifies over all paths of all values.", "anchors": ["merge/deepmerge.go:Deep", "merge/deepmerge.go:deep"]}
{"id": "C11", "title": "The unique strategy yields a flat duplicate-free union", "statement": "With the 'unique' strategy the result is an array without nested arrays and without duplicates whose elements are exactly the flattened elements of all found values, in order of first occurrence.", "quantifier": "for every number of variants and all found values", "why_tests_cant": "Depends on how many variants find a value; tests only use cases where at least two do.", "anchors": ["merge/strategy.go:unique.merge", "merge/strategy.go:unique.convertValue", "merge/strategy.go:unique.mergeSingle", "merge/strategy.go:doLookup"]}
{"id": "C12", "title": "Splitting a level into several locations does not change the merged result", "statement": "Merging the values of all locations of all levels gives the same result as first merging the locations of each level and then merging the levels, as the lookup does.", "quantifier": "for every grouping of every list of values", "why_tests_cant": "An algebraic law over all groupings.", "anchors": ["session/invocation.go:MergeHierarchy", "session/invocation.go:MergeLocations", "merge/strategy.go:doLookup"]}
{"id": "C13", "title": "Interpolation leaves values without interpolation expressions alone", "statement": "If no string inside a value (map keys included) contains '%{' then Interpolate returns that very value and performs no lookup, scope access or provider call. A value that is not a string, array or map is always returned unchanged.", "quantifier": "for every value, scope, and configuration", "why_tests_cant": "Needs absence of effects for all values.", "anchors": ["session/interpolate.go:Interpolate", "session/interpolate.go:doInterpolate", "session/interpolate.go:InterpolateString"]}
{"id": "C14", "title": "Text outside interpolation expressions is preserved byte for byte", "statement": "Interpolating a string replaces each '%{...}' expression by its value and keeps all other text, in order, unchanged; a '%{' that is never closed is kept as text. The replacement text of one expression is not scanned again.", "quantifier": "for every string and every assignment of values to expressions", "why_tests_cant": "A homomorphism property over all strings.", "anchors": ["session/interpolate.go:InterpolateString", "session/interpolate.go:iplPattern"]}
{"id": "C15", "title": "Interpolation preserves the shape of data", "statement": "Interpolating an array gives an array of the same length whose elements are the interpolated elements in order; interpolating a map interpolates its keys and values entry by entry; numbers, booleans, null and sensitive values inside are untouched.", "quantifier": "for every value", "why_tests_cant": "Structural induction over all values.", "anchors": ["session/interpolate.go:doInterpolate"]}
{"id": "C16", "title": "Configuration interpolation can never trigger a lookup", "statement": "Resolving any part of hiera.yaml (function names, datadir, plugindir, options, paths, globs, uris, mapped_paths) only reads the scope: it never performs a lookup, never calls a data provider and panics on method syntax such as %{lookup('x')}.", "quantifier": "for every configuration string, every scope and every data", "why_tests_cant": "An absence-of-effect claim for every input, including method syntax reached through a scope value.", "anchors": ["session/interpolate.go:getMethodAndData", "session/interpolate.go:InterpolateInScope", "config/entry.go:Resolve"]}
{"id": "C17", "title": "alias returns the value of another key with its type, or fails loudly", "statement": "A string that is exactly one %{alias('k')} or %{strict_alias('k')} expression is replaced by the value that a lookup of k gives, whatever its type. When k is not found alias gives the empty string and strict_alias makes the value not found. When the expression is only a part of a string the lookup panics.", "quantifier": "for every key, scope and data", "why_tests_cant": "Relates interpolation with the lookup of every other key.", "anchors": ["session/interpolate.go:InterpolateString"]}
{"id": "C18", "title": "A literal interpolation escapes its text", "statement": "Data that produces a text with %{literal('%')} is returned with that text as is; the produced text is not interpolated again.", "quantifier": "for every data value that uses literal", "why_tests_cant": "Depends on how many times the value passes through interpolation on the way to the caller, over all nesting.", "anchors": ["session/interpolate.go:InterpolateString", "internal/datahashprovider.go:dataValue", "session/invocation.go:Lookup"]}
{"id": "C19", "title": "Recursive lookups are detected", "statement": "A lookup whose interpolation leads back to the same key terminates with a 'recursive lookup detected' error.", "quantifier": "for every cyclic chain of data references", "why_tests_cant": "Non-termination cannot be observed by a test; the claim is about every recursion depth.", "anchors": ["session/invocation.go:WithKey", "session/invocation.go:Lookup", "session/interpolate.go:InterpolateString"]}
{"id": "C20", "title": "Self referencing scope variables terminate", "statement": "Interpolating a scope variable always terminates, also when variables refer to themselves or to each other.", "quantifier": "for every scope", "why_tests_cant": "Non-termination cannot be observed by a test.", "anchors": ["session/interpolate.go:InterpolateInScope"]}
{"id": "C21", "title": "lookup_options is never exposed as data", "statement": "Looking up any key whose root is lookup_options finds nothing and consults no provider, and no other spelling of a key gives access to the lookup_options hash.", "quantifier": "for every key, configuration and data", "why_tests_cant": "Quantifies over all key spellings.", "anchors": ["session/invocation.go:Lookup", "provider/configlookupkey.go:ConfigLookupKeyAt"]}
{"id": "C22", "title": "A quoted root segment selects the data key with that exact name", "statement": "Looking up a key whose root is quoted gives the value stored in the data under exactly the quoted text.", "quantifier": "for every quoted text and all data", "why_tests_cant": "Quantifies over all texts; tests never quote the root segment of a lookup.", "anchors": ["session/invocation.go:Lookup", "provider/configlookupkey.go:ConfigLookupKeyAt", "provider/muxlookupkey.go:MuxLookupKey"]}
{"id": "C23", "title": "The lookup result is the strategy applied to the hierarchy in order", "statement": "When no interpolation is involved, looking up a key in a hierarchy of data files returns what the merge strategy yields for the values stored under the root key in the existing files, in configured order, then digs into it with the remaining segments. Files that do not exist contribute nothing.", "quantifier": "for every configuration, every file content and every key", "why_tests_cant": "End to end functional correctness over all hierarchies.", "anchors": ["session/invocation.go:Lookup", "session/invocation.go:MergeHierarchy", "session/invocation.go:MergeLocations", "internal/datahashprovider.go:LookupKey"]}
{"id": "C24", "title": "Absent locations are never handed to a provider function", "statement": "The provider function of an entry is not called for a path that did not exist when the configuration was resolved, nor for an entry whose glob or mapped_paths expanded to nothing; an entry without any location is called exactly once per merge step with no location.", "quantifier": "for every entry, location list and provider function", "why_tests_cant": "Absence of effects for all configurations.", "anchors": ["session/invocation.go:MergeLocations", "session/invocation.go:invokeWithLocation"]}
{"id": "C25", "title": "Merge strategy precedence: explicit option, then lookup_options, then first", "statement": "The strategy used for a key is the explicit merge option when one is passed, otherwise the merge value of the key's lookup_options, otherwise first. A strategy name that is not one of first, unique, hash and deep makes the lookup panic, and so does a merge map without a strategy name.", "quantifier": "for every option value and every lookup_options hash", "why_tests_cant": "Covers all shapes of option values.", "anchors": ["session/invocation.go:SetMergeStrategy", "merge/strategy.go:GetStrategy", "hiera/hiera.go:LookupAndRender"]}
{"id": "C26", "title": "convert_to converts exactly the found values", "statement": "When the lookup options of a key have a convert_to type then every found value of that key, and only a found value, is passed through the conversion, once, together with the configured extra arguments. A key that is not found stays not found.", "quantifier": "for every lookup options hash, type, and value", "why_tests_cant": "Relates lookup options with every value and every conversion function.", "anchors": ["session/invocation.go:LookupAndConvertData", "session/invocation.go:extractConversion"]}
{"id": "C27", "title": "A key gives the same value when interpolated as when looked up", "statement": "%{alias('k')} inside the data of another key gives the same value as looking up k directly, with k's own merge strategy and conversion.", "quantifier": "for every pair of keys, all lookup options and all data", "why_tests_cant": "Relates two different executions for all data.", "anchors": ["session/interpolate.go:InterpolateString", "provider/configlookupkey.go:ConfigLookupKeyAt", "provider/muxlookupkey.go:MuxLookupKey", "session/invocation.go:ForData"]}
{"id": "C28", "title": "Explaining a lookup does not change its outcome", "statement": "A lookup performed with an explainer returns the same value, or panics with the same error, and performs the same file reads and provider calls as the same lookup without one.", "quantifier": "for every configuration, data, scope, key, option and explainer setting", "why_tests_cant": "A relation between two executions for all inputs.", "anchors": ["session/invocation.go:ForConfig", "session/invocation.go:ForData", "session/invocation.go:ForLookupOptions", "session/invocation.go:WithLookup", "explain/explainer.go:push", "explain/explainer.go:Pop"]}
{"id": "C29", "title": "The explanation is well nested after every lookup, also after a panic", "statement": "After a lookup returns or panics the explainer is back at the node it was at before, so that a following lookup with the same explainer is explained at the right level, and all earlier explanation nodes are still there.", "quantifier": "for every lookup and every crash point inside it", "why_tests_cant": "Every crash point.", "anchors": ["explain/explainer.go:push", "explain/explainer.go:Pop", "session/invocation.go:WithDataProvider"]}
{"id": "C30", "title": "Explainer modes only show what they promise", "statement": "An explainer that only explains options records no node for the data lookup, and one that does not explain options records no node for the search for lookup_options.", "quantifier": "for every configuration, data, scope and key", "why_tests_cant": "Absence of nodes for all lookups.", "anchors": ["session/invocation.go:ForData", "session/invocation.go:ForLookupOptions", "explain/explainer.go:NewExplainer"]}
{"id": "C31", "title": "Values converted to Sensitive are not revealed by the explainer", "statement": "When the lookup options of a key say convert_to Sensitive then no explanation of a lookup of that key contains the plain value.", "quantifier": "for every key, data and explainer setting", "why_tests_cant": "Non-disclosure over all executions.", "anchors": ["session/invocation.go:LookupAndConvertData", "session/invocation.go:DoRedacted", "session/invocation.go:ReportFound"]}
{"id": "C32", "title": "default_hierarchy is consulted when the hierarchy has no value", "statement": "When no entry of hierarchy has a value for the key, the value is looked up in default_hierarchy.", "quantifier": "for every configuration and key", "why_tests_cant": "No test covers it; the claim is for all configurations.", "anchors": ["config/config.go:DefaultHierarchy", "session/resolvedconfig.go:DefaultHierarchy", "provider/configlookupkey.go:ConfigLookupKeyAt"]}
{"id": "C33", "title": "Data files are read at most once per invocation and location", "statement": "During the life of an invocation a data_hash function is called at most once for a given entry and location, however many lookups are performed and in whatever order, and all lookups see the data of that one call.", "quantifier": "for every sequence of lookups, also when the files change in between", "why_tests_cant": "Every history of lookups and file changes.", "anchors": ["internal/datahashprovider.go:dataHash", "session/invocation.go:Config"]}
{"id": "C34", "title": "Session caches behave like a map", "statement": "CachedValue(k) returns the value most recently stored with Cache or CacheAll under k, Cache returns the previous value or nil, and CacheAll stores every entry.", "quantifier": "for every sequence of cache operations on every key", "why_tests_cant": "Every history of operations.", "anchors": ["session/serverctx.go:Cache", "session/serverctx.go:CacheAll", "session/serverctx.go:CachedValue"]}
{"id": "C35", "title": "Lookup2 honours the documented order of sources", "statement": "Lookup2 returns the override for the first name that has one, else the value found for the first name that has one, else the entry of the default values map, else the default value, else what the default function produces, else nil. Later sources are not consulted when an earlier one has a value.", "quantifier": "for every list of names, all maps and every lookup outcome", "why_tests_cant": "All combinations of sources and names.", "anchors": ["hiera/hiera.go:Lookup2", "hiera/hiera.go:lookupInMap"]}
{"id": "C36", "title": "LookupAll returns exactly the names that have a value", "statement": "The keys of the map returned by LookupAll are exactly the requested names for which the overrides, the data or the default values have a value, in order of first request, each with the value from the first of those sources that has it.", "quantifier": "for every list of names, also with repeated names", "why_tests_cant": "All lists of names.", "anchors": ["hiera/hiera.go:LookupAll"]}
{"id": "C37", "title": "A requested type is guaranteed or the lookup panics", "statement": "A value returned by Lookup2 with a type is an instance of that type or the result of converting the value to it. LookupAll with a map type panics for a found name that the type does not mention.", "quantifier": "for every type, value and source of the value", "why_tests_cant": "All values from all sources.", "anchors": ["hiera/hiera.go:ensureType", "hiera/hiera.go:ensureTypeFromMap"]}
{"id": "C38", "title": "A configuration is accepted exactly when it is well formed", "statement": "Creating a config from a hash that conforms to the schema succeeds exactly when the names in each hierarchy are unique, every entry has at most one of data_dig, data_hash and lookup_key, at most one location key, and no option named path or uri. The entries are kept in the given order.", "quantifier": "for every configuration hash", "why_tests_cant": "All combinations of keys in entries, in any order.", "anchors": ["config/config.go:createConfig", "config/config.go:createHierarchy", "config/config.go:createEntry", "config/entry.go:initialize"]}
{"id": "C39", "title": "A resolved entry inherits exactly what it does not define", "statement": "After resolution every entry has a function, a data directory, a plugin directory and options: its own (interpolated) ones when defined, otherwise those of the defaults section, otherwise yaml_data, HIERA_DATADIR or 'data', HIERA_PLUGINDIR or 'plugin', and no options. Options replace those of defaults as a whole.", "quantifier": "for every configuration, scope and environment", "why_tests_cant": "All combinations of definedness.", "anchors": ["config/entry.go:Resolve", "config/entry.go:resolveFunction", "config/entry.go:resolveDataDir", "config/entry.go:resolvePluginDir", "config/entry.go:resolveOptions"]}
{"id": "C40", "title": "The configuration file is chosen by option, then environment, then default", "statement": "The config used by a session is the explicit config option; otherwise the file name option, else HIERA_CONFIGFILE, else hiera.yaml, in the root option or else in the working directory. An absolute HIERA_CONFIGFILE is used as is.", "quantifier": "for every set of options and every environment", "why_tests_cant": "All combinations and all paths.", "anchors": ["session/session.go:New", "session/session.go:addHieraConfig"]}
{"id": "C41", "title": "Data locations stay below the data directory", "statement": "The resolved path of a path, glob or mapped_paths location is inside the data directory of its entry.", "quantifier": "for every location template and every scope", "why_tests_cant": "A security property over all scope values.", "anchors": ["config/path.go:Resolve", "config/mappedpaths.go:Resolve", "config/glob.go:Resolve"]}
{"id": "C42", "title": "mapped_paths gives one location per element, in order", "statement": "A mapped_paths location expands to one path per element of the array (or one for a string) found in the source variable, in order, each obtained by interpolating the template with the key variable bound to that element and all other variables unchanged, and to nothing when the variable is missing or of another type.", "quantifier": "for every source variable value, template and scope", "why_tests_cant": "Unbounded arrays and arbitrary templates.", "anchors": ["config/mappedpaths.go:Resolve", "config/mappedpaths.go:scopeWithVar"]}
{"id": "C43", "title": "The scope is restored after mapped_paths resolution", "statement": "After resolving a configuration, successfully or not, the invocation has the scope it had before.", "quantifier": "for every configuration and every crash point", "why_tests_cant": "Every crash point.", "anchors": ["session/invocation.go:DoWithScope", "config/mappedpaths.go:Resolve"]}
{"id": "C44", "title": "An inherited plugin directory is the same directory for every entry", "statement": "An entry without plugindir uses the same plugin directory as the defaults section, i.e. the config root joined with the configured directory.", "quantifier": "for every config root and plugin directory", "why_tests_cant": "All relative roots.", "anchors": ["config/entry.go:resolvePluginDir"]}
{"id": "C45", "title": "Scope precedence on the command line", "statement": "A variable used in a command line or REST lookup has the value from the last facts file that defines it, else from the last vars file, else from the last --var, else from the session scope; the variable 'facts' holds exactly all facts when a facts file is given.", "quantifier": "for every list of variables and files", "why_tests_cant": "All combinations.", "anchors": ["hiera/hiera.go:createScope", "hiera/hiera.go:addVarPaths", "session/invocation.go:nestedScope.Get"]}
{"id": "C46", "title": "A --var argument is split at its first single separator", "statement": "key:value and key=value are split at the first ':' or '=' that has a character other than ':' and '=' on both sides; the name keeps namespace separators, the value keeps all later separators, and an argument without such a separator is rejected.", "quantifier": "for every argument string", "why_tests_cant": "A claim about a regular expression over all strings.", "anchors": ["hiera/hiera.go:varSplit", "hiera/hiera.go:createScope"]}
{"id": "C47", "title": "The configuration of a session is loaded once under every schedule", "statement": "However many goroutines perform lookups in a session at the same time, each config file is loaded at most once and all of them use the same configuration.", "quantifier": "for every number of goroutines and every interleaving", "why_tests_cant": "All schedules.", "anchors": ["session/invocation.go:Config"]}
{"id": "C48", "title": "A failing configuration load does not block other lookups", "statement": "When loading the configuration panics, every other lookup in the session, concurrent or later, also completes (with an error or after a successful reload).", "quantifier": "for every schedule and every crash point in the load", "why_tests_cant": "Deadlock after a crash under all schedules.", "anchors": ["session/invocation.go:Config"]}
{"id": "C49", "title": "A data_hash function is called once per location under every schedule", "statement": "When several goroutines use the same invocation, a data_hash function is called at most once per entry and location, no two goroutines are inside the update of the data cache at the same time, and every goroutine gets the same data.", "quantifier": "for every number of goroutines and every interleaving", "why_tests_cant": "All schedules.", "anchors": ["internal/datahashprovider.go:dataHash"]}
{"id": "C50", "title": "REST requests do not see each other's variables", "statement": "The variables used by a REST lookup are the server's own --var values followed by the var parameters of that request, whatever other requests are served at the same time.", "quantifier": "for every number of requests and every interleaving", "why_tests_cant": "All schedules; depends on spare slice capacity that tests never create.", "anchors": ["hieraserver/rest/rest.go:CreateRouter", "hiera/hiera.go:createScope"]}
{"id": "C51", "title": "Concurrent Cache calls are atomic swaps", "statement": "When several goroutines call Cache on the same key the values they return and the value finally stored are those of some sequential order of the calls.", "quantifier": "for every number of goroutines and every interleaving", "why_tests_cant": "Linearizability over all schedules.", "anchors": ["session/serverctx.go:Cache"]}
{"id": "C52", "title": "At most one process per plugin, and none after KillPlugins", "statement": "At any time there is at most one live process per plugin path for a session, every live plugin process is known to the session, a plugin that fails to start correctly is killed, and after KillPlugins no process started by the session is alive.", "quantifier": "for every sequence of plugin starts, failures and kills", "why_tests_cant": "Every history and every failure point.", "anchors": ["session/pluginloader.go:startPlugin", "session/pluginloader.go:stopAll", "session/pluginloader.go:kill"]}
{"id": "C53", "title": "The REST status code reflects the lookup outcome", "statement": "A lookup request is answered with 200 and the value when one is found (or defaulted), with 404 when none is, with 500 and the message when the lookup panics with an error or a string; a path that is not a lookup gives 404, or a redirect to the clean path, without performing a lookup.", "quantifier": "for every path, every parameter list and every lookup outcome", "why_tests_cant": "All outcomes and paths.", "anchors": ["hieraserver/rest/rest.go:CreateRouter"]}
{"id": "C54", "title": "Plugins are killed on every exit of a session block", "statement": "TryWithParent and DoWithParent kill the plugins of the session exactly once after the consumer returned, returned an error or panicked; TryWithParent returns nil exactly when the consumer neither failed nor panicked.", "quantifier": "for every consumer and every crash point in it", "why_tests_cant": "Every crash point.", "anchors": ["hiera/hiera.go:TryWithParent", "hiera/hiera.go:DoWithParent"]}
{"id": "C55", "title": "An explicitly requested merge strategy overrules lookup_options", "statement": "When a user passes --merge (or the merge parameter of the REST API) with a strategy name, that strategy is used for the lookup.", "quantifier": "for every strategy name and all lookup options", "why_tests_cant": "Relates command line values with all lookup options; tests only try deep.", "anchors": ["hiera/hiera.go:LookupAndRender", "session/invocation.go:SetMergeStrategy"]}
{"id": "C56", "title": "Asking for client certificate verification enables it", "statement": "When the REST server is started with clientCertVerify it never serves requests without verifying client certificates.", "quantifier": "for every combination of flags", "why_tests_cant": "All combinations of flags.", "anchors": ["hieraserver/rest/rest.go:makeTLSconfig", "hieraserver/rest/rest.go:startServer"]}
{"id": "C57", "title": "Module data is only reachable through its own namespace", "statement": "A module's hierarchy is consulted for a key exactly when the text before the first '::' is the name of the module, ignoring case; lookup options of a module only affect keys in its namespace; a missing module is searched for only once per session.", "quantifier": "for every key, module path and session history", "why_tests_cant": "All keys and histories.", "anchors": ["provider/modulelookupkey.go:ModuleLookupKey", "provider/modulelookupkey.go:loadModule", "session/resolvedconfig.go:LookupOptions"]}
{"id": "C58", "title": "MuxLookupKey takes the first provider that has the key, and only data decides how to merge", "statement": "With the default strategy the value is the one of the first registered function that has the key. The way the values are merged is decided by the merge option or by lookup_options in the data, never by the value of the key itself.", "quantifier": "for every list of functions, key and environment", "why_tests_cant": "All lists of functions and environments.", "anchors": ["provider/muxlookupkey.go:MuxLookupKey", "provider/environment.go:Environment"]}
{"id": "C59", "title": "A serialized explanation can be read back", "statement": "Rendering an explainer as data and creating an explainer from that data gives the same explanation tree.", "quantifier": "for every explanation tree", "why_tests_cant": "All trees.", "anchors": ["explain/explainer.go:initMap", "explain/explainer.go:initialize"]}
{"id": "C60", "title": "The environment provider exposes exactly the process environment", "statement": "env::NAME gives the value of the environment variable NAME when it is set (also when empty) and nothing otherwise; env gives a map with all named variables; no other key gives a value.", "quantifier": "for every key and every environment", "why_tests_cant": "All keys and environments.", "anchors": ["provider/environment.go:Environment"]}
{"id": "C61", "title": "A plugin call maps replies to results faithfully", "statement": "A lookup in a plugin function gives the decoded value for a 200 reply, not found for a 404 reply and a panic for every other reply and for every transport error.", "quantifier": "for every reply", "why_tests_cant": "All replies.", "anchors": ["session/pluginloader.go:callPlugin"]}
{"id": "C62", "title": "Hierarchy entries with distinct interpolated options stay independent", "statement": "Provider options are the entry's options plus the path of the location; no option of one entry or location is visible to the provider function of another.", "quantifier": "for every configuration", "why_tests_cant": "All configurations.", "anchors": ["internal/datahashprovider.go:optionsWithLocation", "internal/lookupkeyprovider.go:LookupKey"]}
{"id": "C63", "title": "Data of every kind of provider function is interpolated alike", "statement": "A text with interpolations gives the same value whether it comes from a data_hash, a lookup_key or a data_dig function.", "quantifier": "for every text, scope and hierarchy", "why_tests_cant": "All texts and hierarchies.", "anchors": ["internal/lookupkeyprovider.go:LookupKey", "internal/datadigprovider.go:LookupKey", "internal/datahashprovider.go:dataValue"]}
{"id": "C64", "title": "A plugin always gets a usable environment", "statement": "Whatever the environment of hiera and the options are, a plugin process finds the magic cookie, a directory for sockets and one of the two transports it may use, taken from the options when they are valid.", "quantifier": "for every environment and all options", "why_tests_cant": "All environments and options.", "anchors": ["session/pluginloader.go:initCmd", "session/pluginloader.go:getPluginTransport", "session/pluginloader.go:getUnixSocketDir"]}
{"id": "C65", "title": "The functions of a plugin do not depend on the order of a map", "statement": "Go visits the entries of the functions map in any order. Whichever order it is, each function is made of the same kind.", "quantifier": "for every functions map and every two orders of it", "why_tests_cant": "The order of a Go map differs from run to run.", "anchors": ["session/pluginloader.go:functionMap"]}
{"id": "C66", "title": "Explanations tell what was asked and what was found", "statement": "While a lookup is explained, the explanation gets exactly one node for each entry of the hierarchy that was asked, in the order asked, and in it one for each location; a node says found with the value, not found, or that the location does not exist, as it was; merged results and the parts of a dotted key that were followed are told as they were, and so is where the merge strategy came from.", "quantifier": "for every hierarchy, strategy, key, session history and explainer", "why_tests_cant": "All hierarchies and histories; tests compare a few renderings.", "anchors": ["explain/explainer.go:AcceptFound", "explain/explainer.go:AcceptNotFound", "session/invocation.go:WithLocation", "merge/strategy.go:doLookup", "api/key.go:Dig"]}
{"id": "C67", "title": "The text of an explanation shows what it contains", "statement": "The text of an explanation has one line for each thing its nodes tell, indented by the depth of the node, in the order in which the things happened, and no other lines; all that was reported is in it.", "quantifier": "for every tree of nodes", "why_tests_cant": "All trees; tests compare a few texts.", "anchors": ["explain/explainer.go:AppendTo", "explain/explainer.go:dumpOutcome", "explain/explainer.go:dumpBranches", "explain/explainer.go:dumpTexts"]}
{"id": "C68", "title": "The lookup command writes what it found and fails when something failed", "statement": "The command writes the value of the first name that has one, or a map of all with --all, or else the default, in the format asked for and yaml if none is; it writes nothing when there is neither, and the explanation instead when one is asked for. It ends with status 0 exactly if nothing failed on the way, and an unknown format is refused.", "quantifier": "for all arguments, options, formats, files, and data", "why_tests_cant": "All combinations of options; the tests run some forty commands.", "anchors": ["cli/hiera.go:cmdLookup", "hiera/hiera.go:LookupAndRender", "hiera/render.go:Render", "lookup/lookup.go:main"]}
{"id": "C69", "title": "yaml2json writes the JSON of the document or an error", "statement": "The conversion program writes the JSON of its YAML document exactly when the document has one, and nothing else; a document that cannot be converted, because a key is not a string or a scalar has no JSON, is reported as an error.", "quantifier": "for every YAML document, of any shape and depth", "why_tests_cant": "All documents; there are no tests.", "anchors": ["yaml2json/main.go:stringKeys", "yaml2json/main.go:main"]}
{"id": "C70", "title": "What plugins write on stderr is in the log", "statement": "Everything a plugin writes on its stderr gets into the log of hiera, in order and with nothing else, apart from carriage returns at the end of lines; lines may be longer than the buffer, each line of a plugin is a line of the log, and the last one is ended even if the plugin did not end it.", "quantifier": "for every text, every size of the buffer, and all interleavings of two plugins", "why_tests_cant": "All texts and line lengths; the tests never look at this log.", "anchors": ["session/pluginloader.go:copyErrToLog"]}
{"id": "C71", "title": "Stopping a plugin ends all that was started for it", "statement": "When kill returns, the process of the plugin has ended, no process holds its output open, and all it wrote is in the log. It returns for every plugin, and it leaves no goroutine behind; neither does starting a plugin that does not answer.", "quantifier": "for every order of steps of the goroutines, the plugin and its children, and every output", "why_tests_cant": "All schedules; a test sees one, and no test has a plugin that does not end or that has children.", "anchors": ["session/pluginloader.go:kill", "session/pluginloader.go:copyErrToLog", "session/pluginloader.go:ignoreOut", "session/pluginloader.go:awaitMetaData", "session/pluginloader.go:startPlugin"]}
{"id": "C72", "title": "Lookups through several functions are a function of files, scope and options", "statement": "With MuxLookupKey over the configuration and other functions, as the command and the REST service use it, every lookup of a session gives what a stateless description of the files, the lookup options of the key, the merge strategy, the conversion and the path says, explained or not and whatever was looked up before; a nested lookup gives what the key gives when looked up directly, the library and the command agree on the same files, and a nested lookup leaves nothing behind in the lookup it belongs to.", "quantifier": "for all files, hierarchies, functions beside the configuration, scopes, options, depths of nesting, sequences of lookups and amounts of fuel that suffice", "why_tests_cant": "Tests of the command look at a few keys without nesting; the full claim is false for the last two parts.", "anchors": ["provider/muxlookupkey.go:MuxLookupKey", "session/invocation.go:ForData", "session/invocation.go:SetMergeStrategy", "session/invocation.go:LookupAndConvertData", "merge/strategy.go:MergeLookup"]}
{"id": "C73", "title": "From the files to the answer", "statement": "What Lookup2 and LookupAll return, what the lookup command writes and whether it reports success, and the status and body of every response of the REST service are determined by the files, the scope, the names and the options in the way the descriptions of the hierarchy, merging, interpolation, conversion, types and defaults say; requests answered before do not matter.", "quantifier": "for all files, names, types, defaults, options, scopes and sequences of requests", "why_tests_cant": "The claim is about whole programs on all inputs; tests run a few commands and requests.", "anchors": ["hiera/hiera.go:Lookup2", "hiera/hiera.go:LookupAll", "hiera/hiera.go:LookupAndRender", "hieraserver/rest/rest.go:CreateRouter", "provider/muxlookupkey.go:MuxLookupKey"]}
{"id": "C74", "title": "Files are where root, directory and name lead", "statement": "The path of a location is the place reached by going from the root of the configuration along the data directory and then along the interpolated path, and the root is the directory of the configuration file; paths are written without detours, so that two paths have the same text exactly when they lead to the same place from everywhere.", "quantifier": "for all paths, roots, data directories and working directories", "why_tests_cant": "Tests use a few tidy paths; detours, slashes and steps up combine without bound.", "anchors": ["config/path.go:Resolve", "config/entry.go:Resolve", "config/mappedpaths.go:Resolve", "config/config.go:New", "provider/modulelookupkey.go:ModuleLookupKey"]}
{"id": "C75", "title": "The file that is started for a function", "statement": "A function that is not one of the session is taken from exactly one file: the one that pluginfile or the name of the function says, in the plugin directory of the entry, in the working directory. The loaders hand its path on unchanged, also when a directory is called plugin, and two entries share a plugin exactly when their files are at the same place.", "quantifier": "for all entries, names of functions, working directories and paths", "why_tests_cant": "The tests load one plugin from one directory.", "anchors": ["session/session.go:LoadFunction", "session/session.go:createPluginLoader", "session/session.go:newHieraLoader"]}
{"id": "C76", "title": "Equality of keys and locations", "statement": "Two locations are equal exactly when they are of the same kind with the same fields, two keys are equal exactly when they have the same segments, and equal ones have the same hash code.", "quantifier": "for all locations and keys", "why_tests_cant": "No test compares keys or locations.", "anchors": ["api/key.go:Equals", "api/key.go:HashCode", "config/path.go:Equals", "config/uri.go:Equals", "config/glob.go:Equals", "config/mappedpaths.go:Equals"]}
{"id": "C77", "title": "What the arguments of the command mean", "statement": "The keys and the options of a lookup are those that the arguments say: an option is what it was set to last or its default, lists hold all the values in order, a default that is empty is not a default that is missing, everything after two dashes is a key; other arguments are refused, and neither commands executed before in the same process nor the order of options and keys make a difference.", "quantifier": "for all lists of arguments and all sequences of commands", "why_tests_cant": "Tests use one flag at a time, in one order, and reset the variables between commands.", "anchors": ["cli/hiera.go:NewCommand", "cli/hiera.go:cmdLookup", "cli/hiera.go:Set", "cli/hiera.go:StringPointer", "cli/executelookup.go:ExecuteLookup", "lookup/lookup.go:main"]}
{"id": "C78", "title": "What the arguments of the REST server mean", "statement": "The server is started exactly when all its arguments are settings of its options and help is not asked for; it then serves with the configuration, the variables and files of variables for all requests, the address and the port, and the certificates that the settings say, an option being what it was set to last or its default; it listens on the address and the port it was given; all other arguments are refused with exit status 1.", "quantifier": "for all lists of arguments, all files of certificates", "why_tests_cant": "The tests of the server call its handler and never its command; an address with colons, a port set twice or a certificate without a key are not tried.", "anchors": ["hieraserver/rest/rest.go:newCommand", "hieraserver/rest/rest.go:startServer", "hieraserver/rest/rest.go:main", "hieraserver/rest/rest.go:makeTLSconfig"]}
{"id": "C79", "title": "The programs as a whole", "statement": "From the arguments, the environment and the files to what a program does: a lookup command uses the configuration of its option, or else the file of the environment, or hiera.yaml in the working directory, writes what the files say about the names as its options ask for, and nothing else, and exits with 0; arguments that cannot be read or an unknown dialect give exit status 1 and no output; the service listens as its arguments say and answers any number of requests as the files and the parameters determine.", "quantifier": "for all lists of arguments, files, sequences of requests and numbers of steps", "why_tests_cant": "Tests run single commands and call the handler of the service; nothing goes from arguments to answers.", "anchors": ["lookup/lookup.go:main", "cli/hiera.go:cmdLookup", "hieraserver/rest/rest.go:startServer", "hieraserver/rest/rest.go:CreateRouter", "session/session.go:New"]}
{"id": "C80", "title": "The command and the service agree", "statement": "With the same configuration, the same name, type, default, variables and way to merge, the command writes what the service answers, and nothing when the service answers that there is no value.", "quantifier": "for all files, names, types, defaults, variables and ways to merge", "why_tests_cant": "No test asks both for the same name.", "anchors": ["cli/hiera.go:cmdLookup", "hieraserver/rest/rest.go:startServer", "hieraserver/rest/rest.go:CreateRouter", "session/session.go:New"]}
{"id": "C81", "title": "A function of the user sees one cache, its scope and itself", "statement": "In a session whose lookups are answered by a function of the user, any sequence of lookups behaves as that function with one cache shared by all calls: Cache gives what was stored before, CachedValue what is stored now, the scope and the mode are those of the invocation that asks, lookups and interpolations that the function asks for, and expressions in the values it gives, come back to the function in order, and explaining changes nothing. The first step that fails, wherever it is nested, ends that request with its error, and what was stored before it is there for the requests after it.", "quantifier": "for all functions, requests, scopes and orders of calls", "why_tests_cant": "Tests call each method of the server context once with a fixed value.", "anchors": ["session/serverctx.go:Cache", "session/serverctx.go:CachedValue", "session/serverctx.go:Interpolate", "session/serverctx.go:Explain", "session/serverctx.go:Invocation", "session/serverctx.go:ForData", "session/invocation.go:Lookup"]}
{"id": "C82", "title": "A source that cannot be read fails every lookup that gets to it", "statement": "A data file that exists but cannot be read or has no map in it, a function that panics, a plugin that cannot be started, an unknown strategy, a failed conversion and a string whose expression names an unknown method, misplaces an alias, misspells a key or asks for something that fails make the lookup fail with exactly that error, and only the lookups that get to it: with first the places before it have nothing, otherwise it is always reached. Since the lookup options of the whole hierarchy are wanted first, one broken file fails every lookup, also of keys that a level before it has. A lookup that fails changes nothing for those after it in the same session, explained or not.", "quantifier": "for all hierarchies, broken places, keys, options and sequences of lookups that fail and succeed", "why_tests_cant": "Tests have one broken file and one lookup; what a session answers after a failure is never asked.", "anchors": ["provider/yamldata.go:YamlData", "provider/jsondata.go:JSONData", "internal/datahashprovider.go:dataHash", "session/resolvedconfig.go:Resolve", "session/invocation.go:Lookup", "merge/strategy.go:GetStrategy", "session/interpolate.go:InterpolateString", "session/interpolate.go:getMethodAndData"]}
{"id": "C83", "title": "A lookup does what the description says and nothing else", "statement": "Everything a lookup of a session can do is one of three things that can be said without the state of the session: it gives the value that the data, the scope and the options have for the key, it fails with the first error that lies on its way, or it never ends; and it never ends exactly if its data asks in a circle, that is, if neither a value nor an error can be derived for it. The three exclude each other, and it does not matter what was looked up before nor whether an explainer listens. In particular lookup options in which a lookup is written make every lookup of every key endless.", "quantifier": "for all hierarchies, files, keys, scopes, options and sequences of lookups, and all functions, types and plugins whose answers depend on their arguments only", "why_tests_cant": "Tests show values and errors of single lookups; that there is no fourth outcome is a statement about all of them.", "anchors": ["session/invocation.go:Lookup", "session/invocation.go:MergeHierarchy", "session/invocation.go:MergeLocations", "session/resolvedconfig.go:Resolve", "session/interpolate.go:InterpolateString", "session/interpolate.go:Interpolate", "merge/strategy.go:GetStrategy", "provider/configlookupkey.go:ConfigLookupKeyAt", "session/session.go:Invocation"]}
{"id": "C84", "title": "A session whose provider reads no configuration", "statement": "When the provider at the top of a session is the environment, the scope, one YAML file or a function of the user, every lookup gives what the provider has for the root of the key, its expressions replaced, at the place that the rest of the key says; it fails with the error of the provider or of the first expression that fails; or it never ends, which happens exactly if the texts ask for each other in a circle. Earlier lookups, merge options and an explainer make no difference, and the YAML file is read once at most, so that it may change or go away afterwards.", "quantifier": "for all files, environments, scopes, keys, options and sequences of lookups, explained or not, and all functions whose answers depend on their arguments only", "why_tests_cant": "Tests look up a few keys in one file that does not change.", "anchors": ["provider/yamllookupkey.go:YamlLookupKey", "provider/environment.go:Environment", "provider/scopelookupkey.go:ScopeLookupKey", "session/invocation.go:Lookup", "session/serverctx.go:Cache", "session/interpolate.go:Interpolate"]}
{"id": "C85", "title": "Sessions with any configuration", "statement": "The outcomes of a session whose top provider reads a configuration are exactly those of a description without state, whatever the configuration file and the scopes are. If the file cannot be read or is not a configuration, the first lookup fails with the reason and all others wait for ever, except that lookups of lookup_options give nothing. If it can, the hierarchy of each lookup is the one of its own scope: the expressions in function names, directories, options and locations are replaced, and those in the values of the variables they mention, and so on; the first that cannot be replaced is the error of the lookup. Variables that lead back to themselves give a lookup no value, and the description says nothing exactly where a lookup never ends.", "quantifier": "for all configuration files, scopes, keys, options and sequences of lookups, explained or not, in a world whose files do not change", "why_tests_cant": "Tests use variables with plain values and a configuration that can be read.", "anchors": ["session/invocation.go:Config", "config/config.go:New", "config/entry.go:Resolve", "config/function.go:Resolve", "config/path.go:Resolve", "config/glob.go:Resolve", "config/uri.go:Resolve", "config/mappedpaths.go:Resolve", "session/interpolate.go:InterpolateString"]}
{"id": "C86", "title": "Sessions with several functions", "statement": "When the top provider asks a list of functions among which is the configuration, as in the lookup command and in the REST service, the outcomes of a session are exactly those of a description without state: the lookup options of the key are asked of every function and merged deeply, they choose how the answers are merged and converted, every function is then asked for data in its place, and a lookup in an expression is a lookup like any other, with options of its own. Failures are those of the first part that fails, and the description says nothing exactly where a lookup never ends. If the configuration cannot be read, the first lookup fails and all others wait for ever, also those that another function could answer.", "quantifier": "for all configuration files, scopes, keys, options, sequences of lookups, explained or not, and all lists of functions before and after the configuration that can be relied on to answer", "why_tests_cant": "Tests use one function at a time, or two with a plain value each.", "anchors": ["provider/muxlookupkey.go:MuxLookupKey", "provider/configlookupkey.go:ConfigLookupKey", "provider/environment.go:Environment", "provider/scopelookupkey.go:ScopeLookupKey", "session/invocation.go:Config", "session/invocation.go:LookupAndConvertData", "session/invocation.go:Lookup", "cli/hiera.go:cmdLookup"]}
{"id": "C87", "title": "What the command and the service come to, exactly", "statement": "What the lookup command writes and its exit status, and the responses of the REST service to any sequence of requests, are exactly those of a description without state: the type, the default and the variables are read or refused first, then the names are looked up in the functions of the session (first one with a value, or all of them in a map), the value must be of the type or is converted to it, and is rendered; every failure on the way is exit status 1, or response 500 with its text; nothing found is no output, or 404. The description says nothing exactly where the program never ends. If the configuration cannot be used, the first request for a key is answered with the error and no later one is ever answered. With an explanation the command ends with the same status as the lookups alone would, however their values would be written, and writes the text of the complete explanation and a newline if they succeed and nothing if not; a format that there is not is a failure after the lookups.", "quantifier": "for all command lines, configuration files, environments, variables, names and sequences of requests, and all parsers and converters that give a value or an error", "why_tests_cant": "Tests run one command or one request at a time on small files, and cannot see a program that does not end.", "anchors": ["lookup/lookup.go:main", "cli/hiera.go:cmdLookup", "hiera/hiera.go:LookupAndRender", "hiera/hiera.go:Lookup2", "hiera/hiera.go:LookupAll", "hiera/hiera.go:createScope", "hieraserver/rest/rest.go:startServer", "hieraserver/rest/rest.go:CreateRouter", "session/invocation.go:Config", "session/invocation.go:Lookup"]}
{"id": "C88", "title": "Blanks around expressions, variables and defaults", "statement": "Blanks around the text of an interpolation expression, around the name and the value of a variable on the command line and around a default make no difference: texts whose expressions differ in such blanks only give the same result, an alias that stands alone included, and commands that differ in nothing else write the same. What is left of a text is the text without all blanks at its ends and with all others.", "quantifier": "for all texts with any number of expressions, all worlds and states without an explainer, and all commands", "why_tests_cant": "Tests have a few expressions with one blank on each side.", "anchors": ["session/interpolate.go:InterpolateString", "hiera/hiera.go:parseCommandLineValue", "hiera/hiera.go:createScope", "hiera/hiera.go:LookupAndRender"]}
{"id": "C89", "title": "Values and maps", "statement": "Values are equal when they have the same content, maps whatever the order of their entries; a map has at most one value for a key; a value put into a map takes the place of the old one or comes last; taking a key out leaves all others in order; two maps merged have the keys of the first in its order with the values of the second where it has one, followed by what only the second has, in its order. (This is what all other properties mean by merging maps and comparing values.)", "quantifier": "for all values of any depth whose maps have no key twice", "why_tests_cant": "Tests compare and merge small maps with text keys.", "anchors": ["merge/strategy.go:hashMerge", "merge/deepmerge.go:Deep", "session/invocation.go:Lookup", "hiera/hiera.go:createScope", "internal/datahashprovider.go:optionsWithLocation"]}
{"id": "C90", "title": "What explanations say about interpolation, nested lookups, options, modules, functions and invalid keys", "statement": "An explanation has a node for each text with an expression that is interpolated, in the order in which the texts stand in the value, and in it, for each expression in turn, what its variable or its lookup had to say: a lookup made by an expression adds the nodes of the whole hierarchy, of interpolating its value and of digging into it, to the node of the text. The value of an entry is told as found after interpolation. A key below lookup_options has a node that says it is invalid and was not found. Looking in a module has a node with the name of the module in lower case that says the module was not found or holds what its configuration had to say. The search for lookup options is told when options are explained and the configuration was not read before, and what is told to be found there is what the configuration then has; otherwise it is not told. When several functions are asked there is a node of its own with where the strategy comes from and what each function had to say, in order and only as far as they were asked. What a function of a user explains, interpolates and looks up is told in the order in which it does so. A function of an entry that is not found is told once, when it is first loaded.", "quantifier": "for all values, expressions and lookups nested to any depth, keys, options, scopes, hierarchies, top providers, programs of users, modes and states of the explanation", "why_tests_cant": "Tests compare the text of a few explanations of values with at most one expression.", "anchors": ["session/interpolate.go:Interpolate", "session/interpolate.go:InterpolateString", "session/invocation.go:Lookup", "session/invocation.go:Config", "provider/configlookupkey.go:ConfigLookupKeyAt", "provider/modulelookupkey.go:ModuleLookupKey", "provider/muxlookupkey.go:MuxLookupKey", "explain/explainer.go:AcceptModuleNotFound", "internal/datahashprovider.go:dataValue", "internal/datahashprovider.go:loadFunction", "session/serverctx.go:Explain"]}
{"id": "C91", "title": "Sessions with modules", "statement": "When a session asks several functions, among them its own configuration and those of modules, in any order and number, each lookup gives what a description without caches and state says. A key in the namespace of a module reads the configuration file of the first module of that name, in any case of letters, on the module path; a key outside any module, or of a missing module, gets nothing from there. The lookup options of a configuration count for the key if it is the configuration of the session or the key begins with the name of the module in lower case; the options of all functions are merged deeply, the functions asked first winning, and say with which strategy all functions and the levels inside each configuration are merged and what the result is converted to. Nested lookups are lookups like any other: they ask all functions and have their own options; only the values of a configuration that is read before another one in the same lookup must not have nested lookups with a strategy of their own, see C72. Every lookup in a session gives this whatever was asked before it and in which scopes, explained or not, and the description gives at most one answer.", "quantifier": "for all configurations, modules, directories, data files, scopes, keys, options, lists of functions, depths of nesting, sequences of requests and amounts of fuel that are enough", "why_tests_cant": "Tests have one module, no lookup options in it and one lookup in each session.", "anchors": ["provider/modulelookupkey.go:ModuleLookupKey", "provider/modulelookupkey.go:loadModuleProvider", "provider/muxlookupkey.go:MuxLookupKey", "provider/configlookupkey.go:ConfigLookupKeyAt", "session/resolvedconfig.go:LookupOptions", "session/invocation.go:Lookup", "session/invocation.go:Config"]}
{"id": "C92", "title": "A module that cannot be read", "statement": "When a session asks several functions, a failure of one of them while the lookup options of a key are looked up is the outcome of that lookup and harms no other: a function that panics, a data file of the YAML function that cannot be read, or a module path that cannot be searched fails each lookup that comes to it again and again, with its own error. A configuration file that cannot be read or is no configuration, of the session or of a module, fails the first lookup that comes to it with what is wrong with it, and every later lookup that comes to it in the same session waits for ever; all other lookups, before and after, give what they would give without it (C91). A module that is broken does no harm until one of its keys is looked up.", "quantifier": "for all configurations, modules, directories, data files, scopes, keys, options, lists of functions, sequences of requests, positions of failures and amounts of fuel that are enough, explained or not", "why_tests_cant": "Tests end with the first failure; that later lookups never end can not be seen by a test that waits for its end.", "anchors": ["provider/modulelookupkey.go:ModuleLookupKey", "provider/modulelookupkey.go:loadModuleProvider", "session/invocation.go:Config", "session/invocation.go:Lookup", "provider/muxlookupkey.go:MuxLookupKey", "config/config.go:New"]}
{"id": "C93", "title": "An explanation says when a value is an override or a default", "statement": "When the value that Lookup2 or LookupAll give is an override, comes from the map of defaults or is the default value, the explanation of the lookup says so; the explainer has methods and texts for it.", "quantifier": "for all overrides, defaults, default values, names, types, options, scopes and configurations", "why_tests_cant": "The tests of the explainer call its methods directly; no test looks at the explanation of a lookup that has overrides or defaults.", "anchors": ["hiera/hiera.go:Lookup2", "hiera/hiera.go:LookupAll", "explain/explainer.go:AcceptFoundInDefaults", "explain/explainer.go:AcceptFoundInOverrides"]}
{"id": "C94", "title": "Arguments that must be maps, and what counts of the options of a lookup", "statement": "The options of a lookup, the options of a session and the scope of an invocation may be nil, null or a map; nil and null count as an empty map, and anything else is refused with an error that names the argument, before anything is looked up and with the session unchanged. Of the options of a lookup only merge counts, unless a lookup function of the session is the user's: two lookups of the same name whose options have the same merge, or none, have the same result, make the same explanation and leave the session in the same state; without a merge that is the lookup without options. The scope of an invocation takes precedence over that of the session, name by name.", "quantifier": "for all arguments, all sessions without functions of the user's, all states of them, names and options with any other entries", "why_tests_cant": "Tests give maps or nil, with merge as the only option.", "anchors": ["api/coerce.go:ToMap", "hiera/hiera.go:Lookup", "session/session.go:New", "session/session.go:Invocation", "provider/configlookupkey.go:ConfigLookupKeyAt", "provider/muxlookupkey.go:MuxLookupKey", "provider/modulelookupkey.go:ModuleLookupKey"]}
{"id": "C95", "title": "A lookup depends on nothing but what it asked for", "statement": "What a session of any lookups gives, explains and keeps depends, besides the settings of the session, on nothing but the answers to the questions it put to the file system, the loaders and the functions of the user: in a world that answers these questions alike, and any other question in any way, the same lookups give the same results, the same explanations and the same state. In particular a file that is created, removed or changed makes no difference to a session that did not ask about its path and expands no patterns. The same holds of a run of the command, with what it writes.", "quantifier": "for all worlds, settings, states of the session, lists of lookups with keys, scopes and options, explained or not, and all changes to the world elsewhere", "why_tests_cant": "A test sees one file system; that nothing else is looked at, not even in cases that fail, is about all file systems.", "anchors": ["session/invocation.go:Lookup", "session/invocation.go:Config", "config/entry.go:Resolve", "internal/datahashprovider.go:LookupKey", "provider/modulelookupkey.go:ModuleLookupKey", "session/session.go:LoadFunction", "hiera/hiera.go:LookupAndRender"]}
{"id": "C96", "title": "Requests of a session do not influence each other", "statement": "In a session whose configuration is asked among other functions, as in the lookup command and the REST service, the outcome of a request is the one that it has in a session of its own: whatever was looked up before, with other scopes, keys and options, successfully or not, in whatever order and how often, explained or not. The same holds of the requests to the service and their responses.", "quantifier": "for all configurations, data, functions, scopes and keys, all lists of requests with repetitions and in every order", "why_tests_cant": "A test has a few requests in one order; what one of them leaves behind in the caches of the session shows in some other one, after any number of others.", "anchors": ["session/session.go:Invocation", "session/invocation.go:Config", "session/serverctx.go:Cache", "internal/datahashprovider.go:dataHash", "hieraserver/rest/rest.go:CreateRouter"]}
{"id": "C97", "title": "Earlier requests change neither the answer nor the explanation of a later one", "statement": "However often a session has been asked, whichever top provider serves it (the configuration, modules, a YAML file, a function, or several of them) and however the earlier requests ended, a request is answered and explained exactly as in a session that nobody has asked anything, if files and functions answer the same all the time, no function uses the cache of the session, and every configuration read before could be read.", "quantifier": "for all worlds, sessions, requests with their scopes, options and explainers, and all numbers of steps", "why_tests_cant": "What earlier requests leave in the caches for configurations, modules, functions and YAML data, and in the objects of the providers, would have to be compared for every history.", "anchors": ["session/session.go:Invocation", "session/invocation.go:Config", "provider/modulelookupkey.go:ModuleLookupKey", "provider/yamllookupkey.go:YamlLookupKey", "provider/muxlookupkey.go:MuxLookupKey", "internal/datahashprovider.go:dataHash"]}
{"id": "C98", "title": "WithKey refuses recursive lookups and ends every other one unchanged", "statement": "WithKey of an invocation refuses a key that is being looked up with an error that names the keys being looked up, without calling its actor. Any other key is looked up with its name added, and the names are as before afterwards, also if the actor panics. Lookups over finitely many keys that all go through WithKey always end: with a value exactly if no key comes back to itself, else with the error.", "quantifier": "for all keys and actors, all finite sets of keys and all references among them, any depth", "why_tests_cant": "WithKey has no test (and no caller); a test could show one cycle, not that every set of references ends.", "anchors": ["session/invocation.go:WithKey"]}
