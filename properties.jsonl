{"id": "C01", "title": "Recursion groups are exactly the mutual-call classes", "statement": "After the call graph is condensed, every function that has a non-empty identity and appears on a call edge belongs to exactly one recursion group, and two functions are reported to be in the same group if and only if each can (transitively) call the other.", "quantifier": "every finite call graph (any number of functions and edges, any cycles, self calls, duplicate edges, empty identities) and every pair of functions", "why_tests_cant": "The condensation is an iterative Tarjan pass over explicit frames; its correctness is an invariant over arbitrary graph shapes, and sample graphs do not exercise all interleavings of back, cross and tree edges.", "anchors": ["internal/metadata/scc.go: BuildCallGraphSCC, condenseSCC, SameComponent"]}
{"id": "C02", "title": "Recursion groups are ordered callees first and the group graph is an exact acyclic quotient", "statement": "In the condensed call graph, group i has a recorded callee group j if and only if i and j differ and some function of i directly calls some function of j; every recorded callee group has a smaller number than its caller; each callee list is strictly increasing; a group is reported recursive if and only if one of its functions can reach itself by one or more calls.", "quantifier": "every finite call graph and every pair of groups", "why_tests_cant": "Consumers fold bottom-up over group numbers in one pass; a single graph on which a callee is numbered after its caller silently corrupts the fold, and tests only see chosen graphs.", "anchors": ["internal/metadata/scc.go: condenseSCC, InCycle", "internal/spec/reachability.go: reachSet"]}
{"id": "C03", "title": "Condensation does not depend on the order or multiplicity of call edges", "statement": "Two call graphs that contain the same set of (caller, callee) identity pairs produce the same groups, with the same numbers, members and group edges, however their edges are ordered or repeated.", "quantifier": "all pairs of edge lists with the same underlying set of caller/callee pairs", "why_tests_cant": "Determinism is a statement about all permutations; a run only ever sees one.", "anchors": ["internal/metadata/scc.go: BuildCallGraphSCC"]}
{"id": "C04", "title": "'Can this function end up calling a matching function' is exact", "statement": "For any predicate on call edges, the set of functions reported as reaching a match is exactly the set of functions that have a (possibly long, possibly cyclic) chain of calls ending in a call edge satisfying the predicate.", "quantifier": "every finite call graph and every predicate on call edges", "why_tests_cant": "The fold is over condensed groups; missing one case (a match inside the group, a match in a callee group) is visible only for particular graph shapes.", "anchors": ["internal/spec/reachability.go: reachSet", "internal/metadata/scc.go"]}
{"id": "C05", "title": "Barren-branch pruning never discards a branch that leads to a pattern match", "statement": "With pruning enabled, a function identity is retained if and only if some chain over the expansion relation from it arrives at an identity one of whose call edges is matched by a configured pattern family; hence any tree path from an entry point to a matched call survives pruning, and every identity pruned has no match anywhere below it.", "quantifier": "every finite expansion relation, every set of matched identities, and every path through the tree", "why_tests_cant": "A missing route shows up only in projects where the pruned identity is on the only path to a match; no finite test-suite covers all relations.", "anchors": ["internal/spec/prune.go: computeReach, canReachMatch, buildReachIndex, specIdentity"]}
{"id": "C06", "title": "Route-first ordering of expansion is a stable partition guided by exact reachability", "statement": "When children are reordered so that those leading to route registrations come first, the result is a permutation of the input in which the relative order inside each class is unchanged, and a child is put in the first class exactly when its identity can reach a route-registering identity over the reverse of the expansion relation.", "quantifier": "every list of children and every finite expansion relation", "why_tests_cant": "Order is what decides who gets truncated by budgets; correctness for all lists and graphs is universal.", "anchors": ["internal/spec/lazytree.go: orderTowardRoutes, leadsToRoute", "internal/spec/route_reach.go: routeReachSet"]}
{"id": "C07", "title": "No schema reference in a generated document dangles", "statement": "After the final repair step every local schema reference anywhere in the document - parameters, headers, request and response bodies, component schemas at any nesting depth, including references inside the schemas the repair itself creates - names a component schema that exists.", "quantifier": "every document (any nesting of properties, items, additionalProperties, allOf/oneOf/anyOf/not) and every set of missing names", "why_tests_cant": "Dangling references appear only for particular combinations of nested schemas; the space of documents is unbounded.", "anchors": ["internal/spec/refcheck.go: repairDanglingRefs, forEachSchemaRef, componentSchemaName"]}
{"id": "C08", "title": "Reference repair is conservative, exact and idempotent", "statement": "Repair leaves every existing component schema untouched, adds one placeholder for exactly the missing referenced names and nothing else, reports exactly those names in sorted order with no duplicates, and reports nothing and changes nothing when run a second time.", "quantifier": "every document", "why_tests_cant": "A universal statement over documents, including 'adds nothing else'.", "anchors": ["internal/spec/refcheck.go: repairDanglingRefs, UnresolvedRef"]}
{"id": "C09", "title": "Merging framework configurations keeps the primary framework's patterns first and is idempotent", "statement": "In the merged configuration every pattern list starts with the primary framework's own list unchanged; each later entry comes from a secondary configuration and has an identity not seen earlier; merging the same secondary again changes nothing; and merging never drops the only entry with a given identity.", "quantifier": "every primary configuration and every finite list of secondary configurations", "why_tests_cant": "Precedence is positional, so the property ranges over all configurations and orders of secondaries.", "anchors": ["internal/spec/config_merge.go: MergeFrameworkConfigs, SecondaryView, routePatternKey, patternKey"]}
{"id": "C10", "title": "Merging never drops a pattern that matches calls no kept pattern matches", "statement": "If a secondary framework contributes a request-body, response, mount or parameter pattern whose matching fields differ from every pattern already present, that pattern is present in the merged configuration.", "quantifier": "all pairs of configurations, including ones that differ only in the exact receiver type", "why_tests_cant": "Needs every combination of matching fields; shipped configurations exercise only a few.", "anchors": ["internal/spec/config_merge.go: patternKey, MergeFrameworkConfigs"]}
{"id": "C11", "title": "Type spellings round-trip through the type model", "statement": "Rendering a well-formed structured type (pointers, slices, arrays, maps, channels, generic instantiations nested to any depth) and parsing the spelling back yields the same structured type; parsing is total and never loses information silently: whatever cannot be structured is kept verbatim.", "quantifier": "every well-formed type term of any depth and every string", "why_tests_cant": "Nested brackets, qualified package paths with dots and slashes, and generic arguments combine without bound.", "anchors": ["internal/typemodel/typemodel.go: Parse, parse, parseNamed, splitArgs, splitMapKey, render, String"]}
{"id": "C12", "title": "Gitignore-style include/exclude patterns mean what gitignore says", "statement": "For every pattern and path: a '*' or '?' never matches across '/', '**' matches any number of path segments, a pattern without a slash matches at any depth, a pattern ending in '/' matches the directory and everything below it, a literal pattern with a slash matches exactly itself, and a leading '!' inverts the result (except for the empty pattern, which matches nothing).", "quantifier": "every pattern string and every path string", "why_tests_cant": "The set of pattern/path pairs is infinite and the translation goes through a generated regular expression.", "anchors": ["pkg/patterns/gitignore.go: Match, matchGitignorePattern, patternToRegex"]}
{"id": "C13", "title": "Include/exclude filtering is an exact, order-preserving selection", "statement": "Filtering a list of paths returns, in the original order, exactly the paths that match at least one include pattern (or any path when there are none) and match no exclude pattern; filtering is idempotent.", "quantifier": "every list of paths, includes and excludes", "why_tests_cant": "Universal over lists and patterns.", "anchors": ["pkg/patterns/gitignore.go: Filter, MatchAny"]}
{"id": "C14", "title": "Regular-expression and match caching is invisible", "statement": "For every interleaving of any number of goroutines asking the regex cache and the match cache, each answer equals compiling and matching afresh, and an invalid expression is never reported as matching, no matter which goroutine stored the entry.", "quantifier": "every history of cache operations, every interleaving of their load/compile/store steps, and every compile function", "why_tests_cant": "Needs all schedules, not the ones the race detector happened to see.", "anchors": ["internal/spec/regex_cache.go: cachedRegex, cachedMatch"]}
{"id": "C15", "title": "The string pool is a stable, injective, lossless naming of strings", "statement": "Over any history of lookups: the index returned for a non-empty string always resolves back to that string, never changes afterwards, is shared by exactly the equal strings, and out-of-range or negative indices resolve to the empty string; writing the pool out and reading it back preserves all of this.", "quantifier": "every sequence of pool operations, including a serialise/deserialise in the middle", "why_tests_cant": "Histories are unbounded and every metadata record is an index into the pool.", "anchors": ["internal/metadata/types.go: StringPool.Get, GetString, MarshalYAML, UnmarshalYAML"]}
{"id": "C16", "title": "Routes registered under nested mounts are documented once, at their fullest path", "statement": "Among the routes extracted for one handler, method and local path, a route is dropped if and only if its sequence of mount segments is a strictly shorter subsequence of another such route's; so every dropped route is covered by a kept route, kept routes are pairwise incomparable or equal, order is preserved, and doing it again drops nothing.", "quantifier": "every list of extracted routes", "why_tests_cant": "Needs all combinations of mount chains; the subsequence relation is order-theoretic.", "anchors": ["internal/spec/extractor.go: dropSubsumedMountPrefixes, isSubsequence, mountSegments"]}
{"id": "C17", "title": "Joining mount prefixes and route paths yields exactly one slash at every seam", "statement": "Joining two path pieces gives a path whose seam has exactly one '/', that begins with '/' whenever the left piece is empty or begins with '/', and joining is associative for mount prefixes that contain something other than slashes, so the order in which nested mounts are folded does not change the documented path.", "quantifier": "all strings", "why_tests_cant": "Universal algebraic law over strings with any number of leading and trailing slashes.", "anchors": ["internal/spec/extractor.go: joinPaths, RouteInfo.OpenAPIPath"]}
{"id": "C18", "title": "Every placeholder in a documented path has exactly one required path parameter", "statement": "For every operation, each '{name}' that appears in the emitted path has exactly one 'in: path, required: true' parameter with that name, a parameter supplied by the handler analysis is preferred over the synthesised one, and no other path parameter loses its schema.", "quantifier": "every path template string and every list of discovered parameters", "why_tests_cant": "Placeholders can contain regex constraints, nested braces, hyphens, wildcards and so on; only a proof over all strings settles it.", "anchors": ["internal/spec/mapper.go: convertPathToOpenAPI, stripParamPatterns, forEachPathParam, ensureAllPathParams, deduplicateParameters"]}
{"id": "C19", "title": "Router path syntax converts to OpenAPI placeholders without touching the rest of the path", "statement": "Converting a router path leaves literal segments unchanged, turns ':name' segments into '{name}', removes inline constraints from '{name:regex}' even when the regex contains braces, and is idempotent on its own output.", "quantifier": "every path string", "why_tests_cant": "Unbounded strings with nesting braces.", "anchors": ["internal/spec/mapper.go: convertPathToOpenAPI, stripParamPatterns, pathParamPatterns"]}
{"id": "C20", "title": "The document's paths are determined by the routes: one operation per (path, method), the last one registered", "statement": "For any sequence of routes with supported methods, the operation found under a path and method comes from the last route registered with that path and method; operations for other methods and paths are unaffected, and nothing appears that was not registered.", "quantifier": "every finite list of routes", "why_tests_cant": "Ranges over all lists and interleavings of equal keys.", "anchors": ["internal/spec/mapper.go: buildPathsFromRoutes, setOperationOnPathItem"]}
{"id": "C21", "title": "Documented responses cover every discovered status, never give a body to a bodyless status, and are never empty", "statement": "For every route, each discovered status with a code is documented under that code; a status that forbids a body (1xx, 204, 304) never has content; unknown statuses appear under the default entry; bodies that differ are all represented; and the response map is never empty.", "quantifier": "every map of discovered responses", "why_tests_cant": "Universal over response sets and bodies.", "anchors": ["internal/spec/mapper.go: buildResponses, isBodylessStatus, sameRenderedBody"]}
{"id": "C22", "title": "Body/status pairing does not depend on the order in which calls were discovered", "statement": "When the discovered response-writing calls have distinct source positions, the documented responses are the same for every discovery order; each explicitly written status is consumed by at most one body; a body written after an unresolvable status on the same chain is never given the implicit status; and two responses of unknown status never overwrite each other.", "quantifier": "every list of discovered response calls and every permutation of it", "why_tests_cant": "All permutations of all call lists.", "anchors": ["internal/spec/extractor.go: pairAndFillResponses, handlerCallDepths"]}
{"id": "C23", "title": "Call-path keys used to separate discoveries are unambiguous", "statement": "Two discovered calls get the same grouping key only if they have the same sequence of call frames, whatever characters the frames contain.", "quantifier": "all pairs of frame sequences over arbitrary strings", "why_tests_cant": "Injectivity is a statement about all pairs.", "anchors": ["internal/spec/extractor.go: candidateKey, frameChainKey"]}
{"id": "C24", "title": "Choosing between two analyses of the same response or request never loses the concrete one and ignores the order", "statement": "When the same response is discovered several times, the surviving description is concrete if any of them was, is the same whatever order they arrived in (up to full ties), and choosing is associative and idempotent.", "quantifier": "all lists of candidate descriptions and all their permutations", "why_tests_cant": "Order-independence ranges over permutations of unbounded lists.", "anchors": ["internal/spec/extractor.go: preferResponseInfo, responseIsConcrete, preferRequestInfo, requestIsConcrete"]}
{"id": "C25", "title": "Merging two analyses of one route keeps all type usage and respects an explicit public marker", "statement": "Merging a second analysis of the same registration into a route keeps every type either one used, keeps the first's security when it has one, and a route explicitly marked public stays public whichever analysis is merged into which.", "quantifier": "all pairs of route analyses, in both orders", "why_tests_cant": "Depends on nil-versus-empty distinctions across all combinations.", "anchors": ["internal/spec/extractor.go: mergeRouteExtraction"]}
{"id": "C26", "title": "Documented security never demands less than the middleware on the route", "statement": "For every chain of middleware and every mapping table, a set of credentials that the documented security requirement accepts satisfies every mapped middleware on the chain; a user-supplied mapping takes precedence over a built-in preset; and unmapped middleware is reported rather than silently dropped.", "quantifier": "every middleware chain and every mapping table", "why_tests_cant": "A combinatorial statement over all mappings and alternatives.", "anchors": ["internal/spec/security.go: resolveSecurity, SecurityMapping.matches, dedupSecurityRequirements", "internal/spec/config_security.go: ApplySecurityPresets"]}
{"id": "C27", "title": "Every security scheme a document refers to is declared", "statement": "After reconciliation each scheme named by any requirement, global or per operation, is declared in the document; user-declared schemes are never altered; nothing else is declared.", "quantifier": "every document and every configuration of schemes", "why_tests_cant": "Universal over documents.", "anchors": ["internal/spec/mapper.go: reconcileSecuritySchemes"]}
{"id": "C28", "title": "Applying security presets is idempotent and only ever adds", "statement": "Applying the presets keeps all user mappings ahead of and unchanged by preset mappings, adds a preset at most once however often it is applied, and adds a preset only when one of the project's imports matches it.", "quantifier": "every configuration and every set of imports", "why_tests_cant": "Histories of repeated application and all import sets.", "anchors": ["internal/spec/config_security.go: ApplySecurityPresets, collectImports, anyImportMatches"]}
{"id": "C29", "title": "A framework route claimed by several matchers is extracted whenever any of them can extract it", "statement": "If some configured matcher matches a call and can extract a route from it, the call is documented as a route, and the matcher used is the highest-priority one that can extract it.", "quantifier": "every list of matchers with any priorities and any outcome of extraction", "why_tests_cant": "Ranges over all combinations of match/priority/extract results.", "anchors": ["internal/spec/extractor.go: executeRoutePattern, executeMountPattern"]}
{"id": "C30", "title": "Nested mounts accumulate", "statement": "A route registered under mount prefixes p1, p2, ..., pn is documented at the join of all of them, including when a nested prefix repeats or is a textual suffix of the outer one.", "quantifier": "every sequence of mount prefixes", "why_tests_cant": "Only particular textual coincidences expose a violation.", "anchors": ["internal/spec/extractor.go: handleMountNode, joinPaths"]}
{"id": "C31", "title": "Middleware recognition through helpers is complete and independent of query order", "statement": "A helper is recognised as a given security middleware exactly when it or something it transitively calls matches the mapping, no matter which functions were asked about before.", "quantifier": "every call graph (including cycles), every mapping, every sequence of queries", "why_tests_cant": "Memoised recursion over cyclic graphs depends on query history; tests ask in one order.", "anchors": ["internal/spec/reachability.go: middlewareMatchesThrough"]}
{"id": "C32", "title": "Splitting one registration into several verbs attributes each response to the right verb", "statement": "When a handler that dispatches on the request method is split, the result has exactly one route per distinct verb, each response located in a verb's branch appears under exactly the verbs whose branches contain it, a response outside the handler appears under all of them, and no response is invented; expanding a multi-verb registration changes only the method and gives pairwise distinct operation names.", "quantifier": "every route, every list of branches and responses", "why_tests_cant": "Universal over branch layouts and positions.", "anchors": ["internal/spec/method_dispatch.go: splitRouteByMethodBranches, expandMultiVerbRoutes"]}
{"id": "C33", "title": "Expansion of the call tree terminates within its budgets and never revisits itself", "statement": "Whatever the call graph and whatever sequence of expansions a client performs, the number of instances of one function within one scope never exceeds the configured cap, so the number of nodes ever created is bounded; expanding a node twice returns the same children; and along any path no function appears as its own expansion ancestor.", "quantifier": "every call graph (including cyclic ones), every budget, every sequence of expansion requests", "why_tests_cant": "The unfolding of a cyclic graph is infinite; boundedness must be an invariant over all histories.", "anchors": ["internal/spec/lazytree.go: GetChildren, instanceBudget, countKey, budgetExhausted, onPath"]}
{"id": "C34", "title": "A budget exhausted while exploring one route does not truncate another route", "statement": "Nodes created below one route registration are counted only against that route's own budget: exhausting it never changes what is expanded below another route or in the wiring above the routes.", "quantifier": "every history of expansions over any number of routes", "why_tests_cant": "Interference between histories is a hyperproperty over all schedules.", "anchors": ["internal/spec/lazytree.go: scopeOf, routeBudgetExhausted, noteRouteTruncation, GetChildren"]}
{"id": "C35", "title": "Metadata lookups through caches equal a fresh scan while the metadata only grows", "statement": "For every interleaving of additions of files, types and functions with lookups by name, the cached lookup answers what scanning the files in sorted order would answer at that moment.", "quantifier": "every history of additions, replacements and lookups", "why_tests_cant": "Cache staleness appears only after particular histories.", "anchors": ["internal/metadata/types.go: SortedFileNames, TypeInPackage, FunctionInPackage, FunctionAnywhere"]}
{"id": "C36", "title": "Saving split metadata is all-or-nothing", "statement": "If the process stops at any point while the three metadata files are being written, a later load yields either the previously saved metadata or the new one, or fails; it never silently yields a mixture.", "quantifier": "every crash point in the write sequence and every pair of old and new metadata", "why_tests_cant": "Crash points cannot be enumerated by ordinary tests.", "anchors": ["internal/metadata/io.go: WriteSplitMetadata, WriteYAML, LoadSplitMetadata"]}
{"id": "C37", "title": "Stripping an instance identity gives the base identity", "statement": "Removing the position and type-argument decoration from the identity of a call instance gives the base identity of the function, so different instances of one function group together and instances of different functions do not.", "quantifier": "all packages, names, receivers, positions and type arguments", "why_tests_cant": "Universal over strings used in identities, including generic receivers.", "anchors": ["internal/metadata/metadata.go: CallIdentifier.ID, StripToBase", "internal/metadata/types.go: buildIdentifier"]}
{"id": "C38", "title": "Framework detection reports the frameworks in first-seen order, without duplicates, never empty, and stopping early loses nothing", "statement": "For any list of source files with their imports, the detected frameworks are exactly those whose import marker appears, in order of first appearance, without repeats; when none appears the standard-library framework is reported; the early stop never changes the result.", "quantifier": "every list of files and import lists", "why_tests_cant": "Universal over project layouts.", "anchors": ["internal/core/detector.go: DetectAll, matchesAny", "internal/core/frameworks.go"]}
{"id": "C39", "title": "The set of analysed packages does not depend on map iteration order", "statement": "The packages pulled in because a framework-using package imports them are the same for every order in which the framework packages are visited.", "quantifier": "every import graph, every set of framework packages and every iteration order", "why_tests_cant": "Go randomises map order; a single run sees one order.", "anchors": ["internal/metadata/dependency_analyzer.go: findImportedPackages, findImportsRecursivelyWithDepth"]}
{"id": "C40", "title": "A type depends on a framework exactly when its import closure contains the framework", "statement": "A package is classified as depending (transitively) on a framework exactly when some chain of imports from it arrives at a package of that framework, for cyclic and acyclic import graphs alike.", "quantifier": "every import graph", "why_tests_cant": "Universal over graphs with cycles and shared nodes.", "anchors": ["internal/metadata/dependency_analyzer.go: hasTransitiveFrameworkDependency, dependsOnFrameworkPackage"]}
{"id": "C41", "title": "A literal's documented type is the type of the literal", "statement": "A quoted string literal is documented as a string whatever its content; an unquoted integer, float or boolean literal as a number or boolean.", "quantifier": "every literal spelling", "why_tests_cant": "Infinite set of literals.", "anchors": ["internal/spec/extractor.go: determineLiteralType"]}
{"id": "C42", "title": "User overrides take effect on the functions they name and nothing else", "statement": "Applying overrides changes only routes whose function is named by an override; for those, each non-empty override field is reflected in the documented operation, the last one winning.", "quantifier": "every list of overrides and every route", "why_tests_cant": "Universal over override lists.", "anchors": ["internal/spec/extractor.go: ApplyOverrides, HasOverride"]}
{"id": "C43", "title": "Enum values extracted from constants are complete, unique and sorted", "statement": "The enum list documented for a named type contains exactly the values of the constants declared with that type in the chosen group, each once, in a fixed order independent of discovery order.", "quantifier": "every list of constants and every permutation", "why_tests_cant": "All permutations.", "anchors": ["internal/spec/mapper.go: extractEnumValues, detectEnumFromConstants"]}
{"id": "C44", "title": "HTTP verbs are recognised whole and combined all-or-nothing", "statement": "A registration argument yields verbs only if every element is an HTTP verb, each verb once in order of first mention; a method prefix is split from a path pattern only when the first word is exactly an HTTP verb; the remaining path is unchanged.", "quantifier": "every argument list and every pattern string", "why_tests_cant": "Universal over strings.", "anchors": ["internal/spec/pattern_matchers.go: verbsFromArg, splitMethodFromPath, normalizeServeMuxPath, isHTTPMethod"]}
{"id": "C45", "title": "Handler names imply a verb only by whole words and by priority", "statement": "A verb is inferred from a handler name only when one of the configured words appears as a whole camel-case or snake-case word (or prefix), the choice depends only on priorities and the order of equal-priority mappings, and splitting a name into words loses no letters.", "quantifier": "every handler name and every mapping table", "why_tests_cant": "Universal over names.", "anchors": ["internal/spec/pattern_matchers.go: methodFromFunctionName, splitNameWords"]}
{"id": "C46", "title": "Nested type and field lists are split only at top level", "statement": "Splitting a type-argument list, a field list or a validation-tag list at its separator never splits inside brackets, braces, parentheses or quotes, and rejoining the pieces with the separator gives back the original text.", "quantifier": "every string", "why_tests_cant": "Universal over nested strings.", "anchors": ["internal/spec/mapper.go: splitTopLevel, splitOnDive", "internal/typemodel/typemodel.go: splitArgs"]}
{"id": "C47", "title": "Assignment analysis is processed in a fixed order", "statement": "The order in which variable-assignment relationships are replayed is the same for every iteration order of the underlying map, and replays every relationship exactly once.", "quantifier": "every map of relationships and every iteration order", "why_tests_cant": "Go randomises map order.", "anchors": ["internal/spec/assignment_order.go: sortedAssignmentRelationships"]}
{"id": "C48", "title": "Shortest call distance decides which unpaired responses survive", "statement": "The depth attributed to each function reachable from a handler equals the least number of calls needed to reach it from the handler.", "quantifier": "every finite call graph", "why_tests_cant": "Universal over graphs.", "anchors": ["internal/spec/extractor.go: handlerCallDepths"]}
{"id": "C49", "title": "Source positions survive formatting and parsing", "statement": "The position stored for a call is parsed back to the same file, line and column it was formatted from.", "quantifier": "every file name, line and column", "why_tests_cant": "Universal over file names and numbers.", "anchors": ["internal/metadata/position.go: formatPosition, positionIndex", "internal/spec/extractor.go: calleePosition"]}
{"id": "C50", "title": "A configured external type is looked up exactly before it is looked up by short name", "statement": "If a configured external type's full name equals the requested type, that entry's schema is used even when other entries share the short name; the short-name match is only used when no exact match exists, and then the first entry in configuration order wins.", "quantifier": "every configuration list and every type name", "why_tests_cant": "Universal over lists.", "anchors": ["internal/spec/external_types.go: lookupConfigSchema, resolveExternalType"]}
{"id": "C51", "title": "Folding a dropped duplicate only affects the routes that cover it", "statement": "When a partially mounted copy of a route is dropped, what it knew (security, params, tags, bodies) is folded only into surviving routes that are the fuller mount of that copy; an unrelated mount of the same handler is left as it was.", "quantifier": "every list of extracted routes", "why_tests_cant": "Needs a handler mounted at unrelated prefixes with different security, one of them also reached partially mounted.", "anchors": ["internal/spec/extractor.go: dropSubsumedMountPrefixes, mergeRouteExtraction"]}
{"id": "C52", "title": "Form values are documented once, in a location OpenAPI allows", "statement": "Every form value or file a handler reads ends up either as a property of a form request body (methods with a body, nothing decoded) or as a query parameter, never under the internal form location and never in both places; other parameters are unchanged.", "quantifier": "every method and every list of discovered parameters", "why_tests_cant": "Universal over parameter lists, methods and the presence of another body.", "anchors": ["internal/spec/mapper.go: resolveFormParams, isFormSentinel, methodTakesRequestBody"]}
{"id": "C53", "title": "ServeMux patterns split into method and path, and their wildcards become placeholders", "statement": "A pattern '[METHOD ][HOST]/PATH' is split into its method and its path; '{name...}' becomes '{name}', '{$}' disappears and nothing else in the path changes; a host does not become part of the path.", "quantifier": "every pattern string", "why_tests_cant": "Unbounded strings with quotes, white space, wildcards and hosts.", "anchors": ["internal/spec/pattern_matchers.go: splitMethodFromPath, normalizeServeMuxPath, isHTTPMethod"]}
{"id": "C54", "title": "A package importing several frameworks is filed under the highest-ranked one, whatever the map order", "statement": "A package is classified under a framework it imports and that is not disabled; no other framework it imports outranks the chosen one (known frameworks by rank, then custom keys alphabetically, then net/http); it is unclassified only if it imports none; the answer does not depend on map iteration order.", "quantifier": "every package, every set of patterns and disabled frameworks, every map order", "why_tests_cant": "Go randomises map order and the combinations of imports and custom keys are unbounded.", "anchors": ["internal/metadata/dependency_analyzer.go: frameworkDetectionOrder, detectFrameworkType", "internal/core/frameworks.go: FrameworksByDetectionRank"]}
{"id": "C55", "title": "The framework report lists each package once, under the right heading", "statement": "The report's direct entries are exactly the non-mock packages that import an enabled framework, with the right framework; its dependent entries are exactly the other non-mock packages that reach one of those by imports; no package is listed twice.", "quantifier": "every list of loaded packages with distinct paths, every configuration", "why_tests_cant": "Universal over import graphs.", "anchors": ["internal/metadata/dependency_analyzer.go: findAllFrameworkPackages, isTestMockPackage"]}
{"id": "C56", "title": "The inferred project root is the lowest common ancestor of the packages", "statement": "Without a module path, the inferred root does not depend on map order, every analysed package is the root or below it (in whole path segments), every other common ancestor is an ancestor of it, and it is never a bare host name; with a module path, a package belongs to the project exactly when it is the module or below it and is neither mock nor external.", "quantifier": "every set of package paths and every order", "why_tests_cant": "Universal over path sets and orders.", "anchors": ["internal/metadata/dependency_analyzer.go: detectProjectRoot, findCommonPrefix, isProjectRelatedPackage, isIntelligentProjectPackage"]}
{"id": "C57", "title": "The component key of a generic instantiation does not depend on its encoding", "statement": "Canonicalising a well-formed generic instantiation gives the same internal key whether it arrives in the dotted or in the internal spelling, an unqualified base takes the package of its first qualified argument and otherwise stays as written, and canonicalising twice is canonicalising once.", "quantifier": "every well-formed type of any nesting", "why_tests_cant": "Universal over nested type terms and package paths.", "anchors": ["internal/typemodel/typemodel.go: Canonicalize, Core, Internal"]}
{"id": "C58", "title": "A response written in a handler is documented under exactly the verbs that can reach it", "statement": "When a handler dispatches on the request method, a response written at a line of the handler is documented under a verb exactly when a request with that method can execute that line.", "quantifier": "every handler body built from method tests, other tests and nested statements, every layout, every request method", "why_tests_cant": "Universal over program shapes: the claim relates a textual line-range heuristic to the execution of every handler.", "anchors": ["internal/metadata/method_dispatch.go: detectMethodDispatch, methodIfBranches, caseMethodVerbs", "internal/spec/method_dispatch.go: splitRouteByMethodBranches"]}
{"id": "C60", "title": "A documented struct has exactly the properties encoding/json writes", "statement": "For every struct type, the property names of its schema are exactly the keys that encoding/json writes for a value of that type, each with the schema of the field written under that key: exported fields only, the json tag's name when it gives one and the Go name otherwise, nothing for json:\"-\".", "quantifier": "every struct declaration, every list of fields and every field tag", "why_tests_cant": "Universal over tag texts: the code finds the json name by searching the tag for text, not by the tag grammar, and a test shows only the tags its author thought of.", "anchors": ["internal/spec/mapper.go: generateStructSchema, jsonFieldOmitted, extractJSONName", "internal/metadata/metadata.go: processStructFields", "internal/metadata/helpers.go: getFieldTag"]}
{"id": "C62", "title": "A component name identifies its type", "statement": "Distinct Go types are documented under distinct component keys, every key is one the OpenAPI specification allows, and a reference made for a type, read as a JSON pointer, leads to the schema stored for that type.", "quantifier": "every pair of types: all package paths, type names and generic argument lists; every sequence of stored components", "why_tests_cant": "Universal over pairs of names: a collision needs two types of one program whose spellings differ only in the separators that are rewritten.", "anchors": ["internal/spec/mapper.go: schemaComponentNameReplacer, addRefSchemaForType, generateSchemas", "internal/typemodel/typemodel.go: Canonicalize"]}
{"id": "C63", "title": "A field of a generic instance is documented with the type it has in Go", "statement": "In the schema of a struct, and of an instance of a generic struct, every field is documented with the type it has in Go: each type parameter is replaced by the instance's argument wherever it occurs in the field's type, and each name written without a package is taken from the declaring package.", "quantifier": "every generic struct, every list of type arguments, every field type", "why_tests_cant": "Universal over type expressions: types nest without bound, and the code works on their text.", "anchors": ["internal/spec/mapper.go: substituteTypeParams, qualifyFieldType, qualifyTypeRef, namedLeaf, generateStructSchema", "internal/metadata/metadata.go: IsPrimitiveType", "internal/typemodel/typemodel.go: Canonicalize"]}
{"id": "C61", "title": "The schema of a field accepts what its validation rules accept", "statement": "The constraints documented for a field accept a value exactly if the go-playground/validator rules of its tag accept it (min, max, len, oneof, email, url, uuid, at each level of dive), and the field is listed as required exactly if its rules say so.", "quantifier": "every list of rules in any order and at any depth of dive, every other key in the tag, every value", "why_tests_cant": "Universal over rule lists, nesting of dive, bounds and values; the rules are found by scanning free text with a regular expression.", "anchors": ["internal/spec/mapper.go: extractValidationConstraints, splitOnDive, applyValidationConstraints, generateStructSchema"]}
{"id": "C59", "title": "The schema of a type accepts exactly what encoding/json writes", "statement": "For every Go type, the schema mapGoTypeToOpenAPISchema gives accepts the JSON encoding/json writes for every value of that type, and accepts nothing that is not such an encoding; this also holds for each field of a struct, whatever fields stand before it.", "quantifier": "every type built from scalars by pointers, slices, arrays and maps to any depth; every value; every list of fields", "why_tests_cant": "Universal over nesting of types and over values; the mapper works on the text of types with a set of visited types shared between fields.", "anchors": ["internal/spec/mapper.go: mapGoTypeToOpenAPISchema, canAddRefSchemaForType, shouldPromoteToComponent, unqualifyContainer, parseArraySize, generateStructSchema", "internal/spec/external_types.go: lookupConfigSchema, resolveExternalType, isInlineExternalType"]}
{"id": "C64", "title": "Call traces show exactly what a handler reaches, and their figures are those of the program", "statement": "The depth shown for a function is the fewest calls that lead to it from the handler, every function and call shown exists, and unless the trace is reported as cut short every function and call the handler reaches is shown. The trace is cut short exactly when a limit is exceeded. Greatest depth, greatest and mean fan-out, the listed call paths and the number of paths are those of the program, the grade never improves when a figure gets worse, and the diagram shows the closest functions and the calls among them.", "quantifier": "for all call graphs, handlers and limits, all map iteration orders", "why_tests_cant": "Call graphs are unbounded and may be cyclic, the limits interact with the search order, and map iteration order is random; tests check a few small graphs.", "anchors": ["internal/insight/metrics.go:163-268 (analyzeAdjacency)", "internal/insight/metrics.go:714-745 (enumeratePaths)", "internal/insight/metrics.go:857-893 (countPaths)", "internal/insight/metrics.go:895-910 (grade)", "internal/insight/metrics.go:914-981 (buildTraceGraph)"]}
{"id": "C65", "title": "The pages of a diagram show every node asked for exactly once, and a cached page is the page asked for", "statement": "For every diagram and filter the pages of the diagram server are slices of one listing that contains exactly the nodes asked for (matching every filter and, for a call graph, no more calls away from a start than asked), each once, plus the functions enclosing the nodes on the page; the edges of a page are those among its nodes; HasMore tells whether nodes remain; a tracker tree is listed branch by branch with its main root first and later requests use the same listing; and the cached answer to a request is the page for that request and that project.", "quantifier": "for all diagrams, filters, page numbers and sizes, all map iteration orders, all interleavings of requests and project changes", "why_tests_cant": "Diagrams, filters and page numbers are unbounded, overflow needs extreme page numbers, and stale pages need particular interleavings of concurrent requests.", "anchors": ["internal/diagserver/server.go:898-961 (calculateCallGraphDepth)", "internal/diagserver/server.go:988-1138 (generatePaginatedDataInternal)", "internal/diagserver/server.go:1161-1262 (nodeMatchesFilters)", "internal/spec/visualization.go:127-343 (depth-first orders)", "internal/diagserver/server.go:129-176 (SetInputDir, LoadMetadata)"]}
{"id": "C66", "title": "The drawn call graph shows every function once and every call", "statement": "The call graph drawing has one node for every function that calls or is called, with its name, package, receiver and label, no two nodes share an ID, every arrow stands for a call, no pair of nodes has two arrows, every call has its arrow, and function literals are drawn inside the function that encloses them.", "quantifier": "For every call graph: any number of calls, in any order, with or without literals and enclosing functions.", "why_tests_cant": "Whether a call is drawn depends on the order in which the calls of literals and of their enclosing functions appear; tests draw a few graphs in one order.", "anchors": ["internal/spec/visualization.go:DrawCallGraphCytoscape", "internal/spec/visualization.go:processCallGraphEdge", "internal/spec/visualization.go:ensureParentFunctionNode", "internal/spec/visualization.go:buildCallPathInfos"]}
{"id": "C67", "title": "Exactly the wanted source files are analysed", "statement": "A file is analysed exactly when its package loads without errors and package and file are wanted by the include and exclude patterns of the engine and of its configuration (excluding wins, nothing to include means everything), are not tests, mocks or C packages that are left out on request, and, when packages are narrowed down to frameworks, the package is a framework package or one of the module. What is analysed under a file's name is that file's own syntax tree, a configuration works the same from a file as given directly, and packages of the module that are skipped for errors are reported.", "quantifier": "For every engine configuration, API configuration, list of loaded packages and outcome of the framework analysis.", "why_tests_cant": "Tests check single patterns on a few hand-written paths; the rules combine five flags and four lists of patterns, and trees and files are paired by index in lists that have different lengths when a package has C code.", "anchors": ["internal/engine/engine.go:shouldIncludePackage", "internal/engine/engine.go:shouldIncludeFile", "internal/engine/engine.go:loadFilteredPackages", "internal/engine/engine.go:GenerateMetadataOnlyWithLogger", "internal/engine/engine.go:filterToFrameworkPackages", "internal/engine/engine.go:applyConfigFilters"]}
{"id": "C68", "title": "Running again on the same configuration changes nothing", "statement": "Generating a second time with the configuration object the first run used analyses the same files, the outcome does not depend on duplicates in or the order of the filter patterns, applying detected wrappers twice is the same as applying them once, derived patterns never replace configured ones, and a different project analysed with the same configuration is analysed as with a new one.", "quantifier": "For every configuration, every list of packages, every list of detected wrappers and any number of runs.", "why_tests_cant": "Tests build a new configuration for every run; what one run leaves behind in the configuration only shows in the next.", "anchors": ["internal/engine/engine.go:GenerateOpenAPI", "internal/engine/engine.go:mergeIncludeExcludePatterns", "internal/engine/engine.go:applyConfigFilters", "internal/engine/engine.go:autoIncludeFrameworkPackages", "internal/engine/engine.go:applyDetectedWrappers", "internal/engine/engine.go:addPatternOnce", "generator/generator.go:GenerateFromDirectory"]}
{"id": "C69", "title": "Which encoded values are the response", "statement": "An encode counts as the response exactly when its destination can be followed, through address-of, parentheses, variables, composite literals and call arguments, to a variable of the response writer's type; it is dropped only if it cannot, and the type it is followed to is not one a writer can be used as. The search ends on cyclic assignments. A value that holds the response writer is never dropped.", "quantifier": "for all argument trees, all assignments (cyclic ones included), all configured writer and compatible type expressions", "why_tests_cant": "tests try a few wrappers; the claim is about every way of nesting and assigning values, and about cyclic assignments", "anchors": ["internal/spec/response_dest.go:20-300", "internal/spec/extractor.go:2015-2051", "internal/metadata/metadata.go:1676-1730"]}
{"id": "C70", "title": "Which decoded values are the request body", "statement": "A decode counts as reading the request body exactly when its source is, through address-of, dereference, variables and accessor chains, a configured body accessor on a variable of a request type; whatever is accepted has such an accessor; whatever is read from the body is accepted. A decoder held in a variable has the source it was made with in the function that calls it.", "quantifier": "for all argument trees, all assignments, all configured request types and accessors, all function tables", "why_tests_cant": "tests cover single chains; the claim covers every chain, every assignment graph and every table of functions and methods", "anchors": ["internal/spec/body_source.go:60-351", "internal/metadata/metadata.go:1120-1130"]}
{"id": "C71", "title": "Which command callbacks become roots", "statement": "A declared callback is rooted exactly when main does not reach it, it takes part in a call, and a registration is reached from it; every candidate is counted once, as rooted, reachable or without routes. The roots of the tree are the roots it had, then the rooted callbacks that are not there already, in order and once. Not so when the registration, or the call of the callback, is inside a closure.", "quantifier": "for all call graphs, candidate lists, registration predicates and map orders", "why_tests_cant": "tests run a few cobra programs; the claim covers every call graph and every order in which maps are read", "anchors": ["internal/spec/entrypoint_roots.go:47-151", "internal/metadata/types.go:811-845", "internal/spec/lazytree.go:851-890"]}
{"id": "C72", "title": "What counts as a callback and as a registration", "statement": "A field of a struct literal is a callback exactly when one of the patterns names the field and its type; the preset patterns are added exactly for the libraries the program imports, without repeating one, in the same way for any order of the imports, and adding them twice is adding them once; every preset constrains the type. A call is a registration exactly when a route pattern, or a mount pattern where mounts count, describes its name and receiver.", "quantifier": "for all pattern tables, import lists, calls and regular expressions", "why_tests_cant": "pattern tables and import lists are open-ended; tests use the shipped ones", "anchors": ["internal/spec/config_entrypoints.go:43-176", "internal/spec/entrypoint_roots.go:191-247"]}
{"id": "C73", "title": "Which statuses a mapper function answers with", "statement": "For a field read off the result of a mapper function, the statuses listed are in order, once each, and each is set by some return of the mapper or of a helper it leads to. Without residue the list is complete and no literal sets the field to something that is no status; residue is reported only for such a literal or for a chain of more than eight steps. The search ends when variables are not assigned in circles. It does not end for a variable assigned to itself, and a returned value that cannot be followed is dropped without residue.", "quantifier": "for all mapper functions, helper tables, type tables, field names and status tables", "why_tests_cant": "tests have a handful of mappers; the claim covers every graph of returns, assignments and helpers, recursive ones included", "anchors": ["internal/spec/mapper_field_status.go:26-258", "internal/spec/extractor.go:2942-2993", "internal/spec/extractor.go:3083-3109"]}
{"id": "C74", "title": "Which parameter of a wrapper an argument comes from", "statement": "An argument of a call inside a method is traced to a parameter of the method exactly when it leads to a parameter over at most three assignments, each reading at most six levels of an expression; the position given is the first of a parameter that is nearest. An argument that is the parameter itself is traced to it. Not so that a value the method made up resolves to nothing: a field of the same name as a parameter counts, and so do the assignments of a function of the same name as the method.", "quantifier": "for all methods, parameter lists, assignment tables and expressions", "why_tests_cant": "tests have a few wrapper methods; the claim covers every expression and every graph of assignments, circular ones included", "anchors": ["internal/spec/wrapper_params.go:41-192"]}
{"id": "C75", "title": "Which methods are router wrappers and with which roles", "statement": "A method is found exactly when it rests on a configured registration over a chain of at most four calls through complete wrappers. A role is derived exactly when the inner pattern has it and its argument comes from a parameter, and it then names such a parameter; a wrapper is complete exactly when path and handler are there. A method with a configured registration in it is described by the first such call and the first pattern that describes the call. Not so that a forwarding method is complete: an earlier call in it stands in the way; nor that only the module counts: the module path is compared as a prefix of letters.", "quantifier": "for all call graphs, configurations, matchers, module paths and parameter tables", "why_tests_cant": "tests run a handful of routers; the claim covers every call graph, with cycles, and every configuration", "anchors": ["internal/spec/wrapper_detect.go:56-107", "internal/spec/wrapper_detect.go:238-400"]}
{"id": "C76", "title": "Wrapper methods with the same roles become one pattern", "statement": "Every method found is in the one group with its receiver and roles, every member of a group is a method found with the receiver and roles of the group; a group lists its methods sorted and without repetition, its call expression is the alternation of them, and the groups are sorted. The groups are the same for every order in which the maps are read, except for the report of what they delegate to, which is not.", "quantifier": "for all sets of derived wrappers with plain names and all map orders", "why_tests_cant": "map order is chosen by the runtime; a test sees few orders", "anchors": ["internal/spec/wrapper_detect.go:457-509"]}
{"id": "C77", "title": "Which methods of a house router mount a group", "statement": "The group mounts are exactly the methods of a type with a complete router wrapper that take a string and a function and for which a call by the name of the first function parameter is recorded in the call graph; the path position is that of the first string parameter. They are listed by receiver and name and do not depend on the order of the map. Not so that every method of a router type that runs a function it is given is one: a value receiver beside pointer registrars hides it, and so does a second function parameter; nor that a mount runs its function: a call of anything of that name counts.", "quantifier": "for all call graphs, method tables, derived wrappers and map orders", "why_tests_cant": "a test has one router; the claim covers every method table and every call graph", "anchors": ["internal/spec/wrapper_detect.go:109-236"]}
{"id": "C78", "title": "Applying derived patterns to a configuration", "statement": "Each of the five pattern lists grows, in front of what is configured, by roles of complete wrappers only; no two added patterns share a call and receiver expression, none repeats a configured one, every role of a complete wrapper is covered afterwards, and the count reported is the number added. Applying the same wrappers again changes nothing. Not so that detecting again on the resulting configuration changes nothing: the derived patterns seed longer chains.", "quantifier": "for all configurations and lists of wrappers", "why_tests_cant": "tests apply one or two wrappers; the claim covers every list, repetitions included", "anchors": ["internal/engine/engine.go:1486-1564", "internal/engine/engine.go:765-766"]}
{"id": "C79", "title": "What is derived about a project's own responders, decoders and parameter readers", "statement": "Everything said about a method found rests on a call in that method: its status, type and default status, the body it decodes and the parameter it reads each on a call that a configured pattern or the pattern of another method found describes, by the parameter the method passes on there; a complete wrapper has a role to apply. A method with a call that a configured pattern describes is found with every role it passes on. The list is exactly the methods found, by receiver and name. Not so that the result is independent of the order of the calls, or of the order of the map, or that calls of complete wrappers are followed for every role, or at all when the wrapper became complete in a round without a new method.", "quantifier": "for all call graphs, pattern lists, matchers, parameter tables and map orders", "why_tests_cant": "tests run a few wrappers in one order; the claim covers all call graphs and every order the runtime may choose", "anchors": ["internal/spec/wrapper_detect.go:511-718"]}
{"id": "C80", "title": "Which receivers a derived pattern accepts", "statement": "The receiver expression of a derived pattern names, sorted and once each, the declaring type and only types of the package that embed it, directly or through others; every type at most four embeddings away is named. Not so that all embedding types are named: the fifth of a chain may be missing.", "quantifier": "for all packages, type lists and embedded fields, circular ones included", "why_tests_cant": "tests embed once or twice; the claim covers every embedding graph", "anchors": ["internal/spec/wrapper_detect.go:402-455"]}
{"id": "C81", "title": "The index of functions stored in fields", "statement": "Walking an expression records exactly the functions named by the values of fields, declared entrypoints or of function type, in literals at most twelve levels down, a literal without a type having the type of its place. A rendered instance contributes exactly the functions its fields name. Every function in the index can be expanded; the functions of a field are those recorded, sorted and once each, whatever the order of recording; a call of a field is followed into exactly the functions of that field of the receiver's type. Not so that every function stored in a field is found: not thirteen levels down, not when the literal is assigned in a method, and not for elements of a map literal without a type.", "quantifier": "for all expressions, struct declarations, function sets, entrypoint declarations and programs", "why_tests_cant": "tests store a function in a few shapes of literals; the claim covers every nesting of literals and every order of files and calls", "anchors": ["internal/spec/func_field_dispatch.go:50-313", "internal/spec/func_field_dispatch.go:522-681"]}
{"id": "C82", "title": "Which function a stored value names", "statement": "A value resolves exactly to the function it names: an identifier or closure to the function of that name, a selector to the method of its receiver's type or else to the function of that name. A rendered value resolves to the function of its name, else a qualified one to the first, by text, of the functions in the imports that answer to the qualifier, whatever the order of the imports. A rendered type splits into package path and name under any slice and pointer marks. Not so that a selector of a field contributes nothing, that the import with the qualifier as its alias wins over one that only ends in it, or that the element type of a map with array keys is found.", "quantifier": "for all values, import tables, function sets and rendered types", "why_tests_cant": "tests resolve a few names; the claim covers every name, every import table and every type text", "anchors": ["internal/spec/func_field_dispatch.go:315-520", "internal/spec/func_field_dispatch.go:637-668"]}
{"id": "C83", "title": "Reachability in the resolved call graph", "statement": "Reaches ends on every finite call graph, cycles included, and answers true exactly when some function with the given ID calls, directly or through others, a function that matches. The callees of a function and the functions of an ID are complete, without repetition and in one order, whatever the order in which maps are walked, unless two functions agree in ID, position and text; an instantiation has the ID of its origin and a pointer receiver that of the value. Not so that an ID names one function: a package whose path ends in a dot and a name gives its functions the IDs of methods.", "quantifier": "for all finite call graphs, function descriptions, match predicates and map orders", "why_tests_cant": "tests walk a few small graphs; the claim covers every graph shape, cycle and map order", "anchors": ["internal/callgraph/callgraph.go:74-227"]}
{"id": "C84", "title": "Response wrappers specialised at the call", "statement": "The bindings of a constructor are exactly the fields its returned literal sets to named parameters, under any address-of signs and parentheses. The overrides are exactly the bound fields whose parameter is given an argument of a usable type in the last assignment, each field once; the type is the one the caller passed or the argument's own, never empty, an empty interface or an untyped constant. The overlay names exactly the overridden fields declared with the empty interface, by their JSON name, and does not depend on map order when those names differ; otherwise the base is left alone. Not so that fields kept out of the JSON get no property, that map order never matters, or that overrides carry concrete types only.", "quantifier": "for all literals, parameter lists, assignments, argument types, wrapper types, map orders and type mappings", "why_tests_cant": "tests specialise a few envelopes; the claim covers every literal, field list and map order", "anchors": ["internal/spec/wrapper_specialisation.go:62-413"]}
{"id": "C85", "title": "Bytes written to the response", "statement": "Writing a variable documents a value exactly when the variable's last assignment is a call of the first configured transform that accepts it, with that value as payload. Writing the result of a helper documents an argument only when the helper returns a transform of the parameter that argument is passed for, and always does when the helper serialises one parameter only. With payload positions that are not negative the walk never fails. Not so with a negative position, when other serialised bytes are returned first, or when the helper assigns the variable twice: there the first assignment counts.", "quantifier": "for all expressions, transforms, regular expressions, functions and assignments", "why_tests_cant": "tests write a few shapes; the claim covers every nesting, configuration and helper", "anchors": ["internal/spec/write_sink.go:32-221", "internal/spec/extractor.go:2942-2953"]}
{"id": "C86", "title": "The schema of a map literal", "statement": "A literal of a map with string keys in which some entry has a key in double quotes becomes an object whose properties are exactly those keys, unquoted, each with the schema of its value, unconstrained when the type is unknown; other properties are possible exactly when some entry names none. Any other literal is left to its type. Not so that every constant string key names a property: a key in back quotes and the empty key do not.", "quantifier": "for all literals, value types and type mappings", "why_tests_cant": "tests write a few literals; the claim covers every list of entries and every key text", "anchors": ["internal/spec/map_literal.go:53-129"]}
{"id": "C87", "title": "Interface implementations and handler values", "statement": "After the analysis each type lists exactly the interfaces it satisfies and each interface exactly the structs that satisfy it, once each and in sorted order, whatever the number of packages: a struct satisfies an interface with at least one method when it declares every one of its methods with the same signature up to package qualifiers. Spellings of a signature that differ in qualifiers only compare equal, and signatures with other parameter or result types have another text. The handler methods of a value are those its type declares, or those of each struct that satisfies its interface, or those of each type that implements an interface declared elsewhere; the recursion ends within two steps. Not so for result lists with several names to a type, types of one name in two packages, methods of embedded interfaces, types that are no structs, or metadata in which an interface implements itself.", "quantifier": "for all projects, types, methods, signatures, method names and outside implementations", "why_tests_cant": "tests declare a few types; the claim covers every project and every spelling of a signature", "anchors": ["internal/metadata/metadata.go:2001-2125", "internal/metadata/analysis.go:28-67", "internal/metadata/expression.go:559-741", "internal/spec/handler_value.go:97-138"]}
{"id": "C88", "title": "Route paths written as concatenations", "statement": "A path argument that is a chain of + has exactly the operands of the chain, left to right; each contributes its value or a placeholder in braces, nothing is dropped, and exactly the placeholders are declared as parameters, each once. An expression with another operator is one placeholder. Chains of double-quoted literals, constants declared by one and parameters that stand for one up to eight calls out give the path the program registers. An argument is taken from the call sites exactly when there are some and all pass constants of one value. A field of a struct the caller passes reads as the constant it is set to, as empty when not set. Not so for back-quoted literals, constants declared as sums, variables, variables without initial value, parameters that hide a constant, constants passed by name, parameters of an outer call, parents that are not the enclosing call, promoted fields, parentheses; and unnamed operands share one placeholder.", "quantifier": "for all expressions, declarations, call stacks, call sites and string pools", "why_tests_cant": "tests write a few paths; the claim covers every expression, stack of calls and set of declarations", "anchors": ["internal/spec/pattern_matchers.go:58-358", "internal/spec/extractor.go:2709-2782", "internal/spec/context_provider.go:61-121", "internal/metadata/metadata.go:1210-1271"]}
{"id": "C89", "title": "The handler behind middleware, adapters and conversions", "statement": "A call at the handler position is looked through exactly when one of its arguments is a handler and no other is: a converted function, a call that itself wraps exactly one, or a function given to a callee that takes and returns the same type. A call with several or no handlers is left alone. Up to eight layers, in any order, the handler documented is what is behind all of them. Not so when an adapter's own type has the name of the result's type, when a nested call with two handlers stands next to another handler, and beyond eight layers.", "quantifier": "for all argument expressions, known functions and callee signatures", "why_tests_cant": "tests write a few wrappers; the claim covers every nesting of calls, conversions and literals and every signature", "anchors": ["internal/spec/pattern_matchers.go:1480-1729"]}
{"id": "C90", "title": "The nodes below a registration that give its request body and complete its route", "statement": "Walking the tree below a registration, every node is visited once per way to it, in order. A request body found at a node counts exactly when each step of the way is one the program takes, and the route's body is the last concrete one of those that count, else the last of them; so no body is documented without such a way. Below a variable or field argument, from the second level on, nothing counts. A node may complete the route exactly when each step of the way stays in the registration; without chains it is then written in the function of the registration. Not so for a handler named inside a wrapping call, for functions that share a name, for links of a chain written elsewhere; the types of bodies that do not count are registered all the same.", "quantifier": "for all trees, call edges, closure tables and extraction results", "why_tests_cant": "tests walk a few trees; the claim covers every tree and every combination of edges", "anchors": ["internal/spec/extractor.go:1160-1287", "internal/spec/request_provenance.go:21-142"]}
{"id": "C91", "title": "The calls of a file are recorded once each, chained on the right call", "statement": "If the calls of a file have different instance IDs and a method called on the result of a call is called on that of a recorded one, the analysis of the file ends, keeps the call graph it was given and adds exactly one edge per call. The edge of a call is chained on the edge of the call whose result it is called on, if there is one, and on none otherwise, and the edge of f in x := f(...) says x. Not so otherwise: a method of a converted value stops the analysis when it is the program's first call and is chained on an unrelated call elsewhere; an assignment without a call is taken for that of the next call; of two names the second is kept; the start of a chain is recorded as assigned.", "quantifier": "for all syntax trees and call graphs before them", "why_tests_cant": "tests read a few files; the claim covers every nesting of calls, chains and assignments", "anchors": ["internal/metadata/metadata.go:1511-1778", "internal/metadata/metadata.go:1834-1846"]}
{"id": "C92", "title": "The children of a node of the call tree", "statement": "Below a node come first the arguments of its call, in order, then calls, one per ID: exactly the calls written in the functions the node stands for that belong nowhere else, are not arguments and whose type arguments fit, those of closures in such a function when it has none, those on variables and parameters that got their value from the node's call, and those chained on it. With a route matcher the calls that lead to routes come before the others and nothing else changes. A call that is not listed below its function is listed below a key. If the calls can be ordered so that each is an own call of, belongs below or is chained on an earlier one, all are in the tree. Not so without: a function that gives its router parameter a new value loses its registrations, a second router passed as a call gets none, a closure after a direct call and generic calls with other type arguments are lost.", "quantifier": "for all call graphs, assignment links, parent functions, type arguments, producers and nodes", "why_tests_cant": "tests expand the trees of a few programs; the claim is about every call graph and all nodes", "anchors": ["internal/spec/lazytree.go:627-797", "internal/spec/lazytree.go:890-920", "internal/spec/lazytree.go:1259-1414", "internal/spec/lazytree.go:447-467"]}
{"id": "C93", "title": "What a registration says about its route", "statement": "A verb a route is taken to have been given is one its registration names: by the function called, the handler's name, an argument or the start of the path, or by an earlier link of the chain; the function decides before the handler, the handler before the arguments, the path over all. The path is the text its argument resolves to, without the verb, and is never empty. A link that says nothing about path or handler keeps both, and what was collected is kept exactly if the route's file and package are known; the package is unknown exactly if neither the handler nor its function nor its traced name has one. Not so: a chain keeps what its first link said, all verbs of a list are kept, a path is never taken for a verb, an explicit verb is a named one.", "quantifier": "for all patterns, calls, arguments, earlier routes, name mappings, path and handler resolutions", "why_tests_cant": "tests register a few routes in each framework; the claim is about every pattern, argument list and chain", "anchors": ["internal/spec/pattern_matchers.go:476-632", "internal/spec/extractor.go:1178-1184", "internal/spec/config_mux.go:48-90"]}
{"id": "C94", "title": "The type a type parameter stands for", "statement": "On the path to a node a type parameter has the binding of the nearest node that binds it, the call's before the argument's. Following names from binding to binding goes on for ever exactly when a name leads to one that leads back to itself, and is decided after one turn more than there are bindings. If names are bound once on the path and bindings refer up the path, following them ends, and with what the name means where each call is written. Not so for programs in general: a generic function that passes its parameter on to one of the same name, or two in another order, is followed for ever; a slice of a parameter keeps the parameter; a response or parameter follows one binding only.", "quantifier": "for all paths, bindings and names", "why_tests_cant": "tests have a few generic handlers; the claim is about every path of bindings, and the failure is non-termination", "anchors": ["internal/spec/lazytree.go:1017-1049", "internal/spec/pattern_matchers.go:1306-1330", "internal/spec/extractor.go:3151-3155", "internal/spec/extractor.go:3529-3533"]}
{"id": "C95", "title": "What an interface-typed body holds", "statement": "The alternatives of an interface-typed variable are exactly the types its function assigns to it that are not interfaces, each once, in order; it is narrowed to a type exactly when that is the only one, or, as a parameter, to the argument of the nearest call on the path that entered the function. A body is documented as another type than written only if its recorded type, its type parameter, a field, the value its call gave, the one assigned type or the bound argument says so; alternatives are at least two. Not so: a method's variables are looked up in a function of its name in any package, a value of unknown type does not prevent narrowing, and a response of an address is not narrowed where a request is.", "quantifier": "for all arguments, call sites, paths, functions and assignments", "why_tests_cant": "tests assign one or two types in a few handlers; the claim is about every set of assignments and every path", "anchors": ["internal/spec/extractor.go:2205-2275", "internal/spec/extractor.go:3144-3302", "internal/spec/pattern_matchers.go:1074-1139", "internal/spec/pattern_matchers.go:1245-1302", "internal/spec/handler_value.go:28-51", "internal/spec/extractor.go:1970-1984"]}
{"id": "C96", "title": "Which calls read a request parameter, and what they document", "statement": "A call is read as a parameter exactly if its pattern matches and none of its receiver's origins matches the excluded expression; the origins are exactly the receivers of the eight nearest calls it is chained onto and the types of the last recorded value of its variable and of what that was got from in up to seven steps. A documented parameter has the name its argument states, directly or through the caller, is required exactly in a path, and always has a schema; nothing is documented exactly for a multipart marker or an argument that states no name; a body becomes multipart by a marker or a named file only. Not so: an assignment below a call decides for it, an alias of an alias loses its origin, a call without the naming argument is documented without a name.", "quantifier": "for all patterns, calls, chains, assigned values and arguments", "why_tests_cant": "tests cover a few header reads of each framework; the claim is about every chain and every expression assigned", "anchors": ["internal/spec/param_origin.go:24-111", "internal/spec/recv_forms.go:37-60", "internal/spec/extractor.go:3120-3141", "internal/spec/extractor.go:3369-3519", "internal/spec/call_scope.go:98-113"]}
{"id": "C97", "title": "The status a text, a variable and a constructor state", "statement": "A text states a status exactly if, without the double quotes around it, what is behind its last dot is a name of net/http's table or a signed decimal number that fits in 64 bits; names state statuses from 100 to 599. A variable assigned at least twice can have exactly the statuses its values state, each once, and others are known to be possible exactly if some value states none. A field of a variable states a status exactly if the variable's last value is a call whose returned literal binds the field to a parameter and the argument passed there states it; branches of that argument are followed the same way. Not so: a number behind any dot counts, in any range.", "quantifier": "for all texts, assignments, functions and call graphs", "why_tests_cant": "tests map a dozen texts and a few constructors; the claim is about every text and every chain of assignment, call and literal", "anchors": ["internal/spec/schema_mapper.go:165-259", "internal/spec/extractor.go:2784-3109"]}
{"id": "C98", "title": "The statuses a response call is documented with", "statement": "The responses of a matched call are exactly these: each has the body of the body argument; if the status argument has several statuses over the branches there is one for each, and one of unknown status if some branch states none; otherwise there is one, with the lowest recorded status that has no body if the pattern reads no status, else the status the argument, the caller or a constructor states, else the pattern's own, else a fresh negative one. The framework's implicit status is noted only if no status is read or known. Nothing at all is documented exactly if no status is read or known and there is no body. The order of the recorded responses does not matter. Not so: the one value of a variable assigned once, or assigned the same in all branches, is lost; a parameter assigned in two branches loses what the caller passes; any number is documented as a status.", "quantifier": "for all patterns, arguments, recorded responses, assignments, callers and mappers", "why_tests_cant": "tests fix a handler per shape; the claim is about every combination of pattern, argument and earlier responses", "anchors": ["internal/spec/extractor.go:2432-2666", "internal/spec/extractor.go:39"]}
{"id": "C99", "title": "Path variables read from a map", "statement": "A route whose handler reaches the framework's map accessor (mux.Vars) in any number of calls gets a path parameter for exactly the placeholders of its path that no parameter declares, with the path's own constraint; the others stay in place. A handler reaches the accessor exactly if a function with its name and package leads to a caller of it. A diagnostic is recorded for exactly the literal keys that values the handler assigns read, at any depth, from the accessor's call or from a variable ever given its answer, and that are no placeholder of the route's own path; once per method, printed path and key. Not so: a key of the path the router is mounted at is reported though the printed path has it; so is a key of another map that the variable is given later.", "quantifier": "for all routes, patterns, call graphs, iteration orders, functions and expressions", "why_tests_cant": "tests fix a handful of handlers; the claim is about every call graph, every expression tree and every order of routes", "anchors": ["internal/spec/extractor.go:1738-1970", "internal/spec/extractor.go:2118-2166"]}
{"id": "C100", "title": "The function a position is in", "statement": "The function literal found for a position is exactly the innermost one around it, the one all others around it contain, and leaving out subtrees whose range does not contain the position gives what the exhaustive walk gives, nodes without a position included. A position belongs to that literal, named after its start, or, if there is none, to the declaration that spans it; the parent of a call in a literal is the declaration that spans the literal. Not so: a literal of a package-level variable has no parent.", "quantifier": "for all syntax trees whose literals nest, all declarations and all positions", "why_tests_cant": "tests query a few positions of a few files; the pruning argument is about every tree", "anchors": ["internal/metadata/analysis.go:71-182"]}
{"id": "C101", "title": "The assignments and returns a function records", "statement": "For each variable a function records exactly what its assignments, those of its literals too, and its var declarations with a value of their own give it, in the order of the source; a method records what its assignments give; a call records what the function it calls assigns and, in main, what its own result is assigned to. Several names of one call each get the call and which result they are; other forms pair names and values by position; blanks and names without a value get nothing. Returns are exactly the non-empty returns outside of literals, ReturnVars the first of the longest. Not so: a method does not record var declarations, the second name of a var declaration from a call is lost, and a compound assignment is recorded as a plain one.", "quantifier": "for all syntax trees, statements and declarations", "why_tests_cant": "tests record a few statements; the claim is about every tree of statements, literals and declarations", "anchors": ["internal/metadata/metadata.go:280-330", "internal/metadata/metadata.go:1124-1215", "internal/metadata/metadata.go:1323-1501", "internal/metadata/metadata.go:1680-1733"]}
{"id": "C102", "title": "The assignments visible at a call", "statement": "The assignments of a variable visible at a call are exactly those the first of these records: the call itself, the caller as a function, the function its literal is in, the method its literal is in. A method found by name is the first of the package whose receiver is the same up to a star, or any if none is asked for. Not so: the call's own assignments are those of the function it calls, so a variable of that name there hides the caller's, though the code says both record the same; the most recent assignment is the last of the function even if it comes behind the call; at a call directly in a method the method's assignments are not visible, but those of a function of its name in any package are.", "quantifier": "for all calls, functions, methods and recorded assignments", "why_tests_cant": "tests have one function and one variable of a name; the claim is about every combination", "anchors": ["internal/spec/extractor.go:1970-2116"]}
{"id": "C103", "title": "Positions and the names of closures", "statement": "The text of a position is that of go/token; two positions with a line and a column have one text only if they are one. Over every history of positions asked of one file set, and of other texts put into the pool, the answer for a position is an index of its text, one for equal texts only, and -1 exactly for a position the set does not have. A file of the module is named by its path from the module's root, whatever the checkout, and distinct files get distinct names; a file outside of it is named by what is behind the last pkg/mod/ of its path, or keeps its path. Not so: positions without columns can share a text; a position cached for one file set is answered for another that does not have it; two files outside of the module under directories whose paths end in pkg/mod get one name, so closures at the same place in them share a name; a file of the module in a directory whose name begins with two dots keeps the path of its checkout.", "quantifier": "for all positions, histories of questions, modules and file paths", "why_tests_cant": "tests format a few positions in one file set; the claim is about every history and every path", "anchors": ["internal/metadata/position.go:41-98", "internal/metadata/position.go:110-146", "internal/metadata/position.go:175-195"]}
{"id": "C104", "title": "The parameters and type parameters of a call", "statement": "A call of a function by its name or the last name of a selector, with type arguments or without, records under each parameter's name the argument at the last position of that name; for distinct parameters that is the argument at its own position. Type arguments written at the call are recorded under the type parameters at their positions; otherwise those the type checker inferred. Any other call records nothing. Each argument gets the call's type parameters over its own, and one whose type is a type parameter gets the type it stands for, at every depth. Not so: type arguments that are inferred besides written ones are lost; a function called in parentheses records nothing; of the arguments of a variadic parameter only the first is recorded; unnamed parameters share an entry; a method called through its type gets its receiver under its first parameter; a type parameter of an inner generic call is overwritten by one of the same name; an argument of a plain type of a generic call is marked generic; and without an instance nothing is inferred from a function given as argument, though the comment says so.", "quantifier": "for all calls, signatures, instances and arguments", "why_tests_cant": "tests call a few generic functions; the claim is about every signature, call form and tree of arguments", "anchors": ["internal/metadata/metadata.go:1848-2005", "internal/metadata/metadata.go:2207-2254"]}
{"id": "C105", "title": "The overview report", "statement": "The report lists for every operation exactly these issues: no responses; a schema used by its request body, a response or a parameter that mentions, at any depth, a component that is missing or a placeholder; a response that is an envelope with a specialised part; a default response. Warnings come first, then by path and method. An operation is broken exactly if it has a warning, full exactly if it is neither broken nor has a default response, and the states add up; the score is the percentage of those not broken, rounded. Each response is counted once under its status: empty without contents, else by the best any of its contents says. Counts by method, tag and status are of those that occur, sorted. An operation is protected exactly if every one of its requirements, or else the document's, needs a scheme and there is one. Every interface is counted once. Not so: a component that itself mentions a missing one leaves the operation full; missing-body is never reported; a score of 100 with a broken operation; the order within an operation depends on map order; a nil component panics; an empty 400 is empty by design while an empty 205 is missing; of two interfaces with one label the listed one depends on the order of packages; and methods are counted as functions twice.", "quantifier": "for all documents, components, interfaces and packages", "why_tests_cant": "tests build a few documents; the claim is about every schema tree, set of components and operation", "anchors": ["internal/insight/overview.go:250-463", "internal/insight/overview.go:466-518", "internal/insight/overview.go:563-932"]}
{"id": "C106", "title": "The middleware that guards a route", "statement": "An argument used as middleware is known by the name, package and receiver it stands for (an identifier, a selector, or the function of a call), or not at all. A variable stands for its latest record, which is the call's own or that of a function or method of the caller's name in the caller's package. Of a call's arguments exactly those from the pattern's on are middleware, without the last if that is the handler; a wrapper is the handler if it is a call. Of several patterns the first of the highest priority says. Every route found carries exactly the middleware on a way down to it: of the calls beside each node passed that have the same caller, and of each mount; and every route is found so unless two nodes are visited under one text. A route's definite middleware is that with its own and that of the calls it is chained on. Not so: a router's middleware guards the routes of other routers of the function, and those registered before it; middleware a helper adds guards nothing beside the helper's call; methods of one name are one caller; a route reached twice keeps the first way's middleware; only the outermost wrapper counts; a variable loses the receiver and is not followed to another variable; in a method the variable of a function of the same name is taken; and from a literal the variables around it are not found.", "quantifier": "for all trees, patterns, arguments and packages", "why_tests_cant": "tests check a few routers; the claim is about every tree of calls and nesting of groups", "anchors": ["internal/spec/security.go:58-239", "internal/spec/pattern_matchers.go:786-933", "internal/spec/extractor.go:455-496", "internal/spec/extractor.go:563-660", "internal/spec/extractor.go:837-904"]}
{"id": "C107", "title": "The documentation of a handler", "statement": "A handler's comment is found however its name is rendered (alone, with its package, with the separator, or both): a function's, a method's of the receiver's type, for a method value on a field the method's of the field's named type, for a value the first configured handler method's of its type, and for an interface type of elsewhere that of its sole implementer, none if there are several. If the comment has annotation lines, the summary is what all @Summary annotations say joined by blanks, the description what all @Description annotations say by lines (case does not matter, continuation lines count, other annotations are dropped), and without a @Summary the first sentence of the prose above. Otherwise the first sentence is the summary and the description is the rest, word for word. Not so: the package of a field's type is not used, so a type of the same name in the handler's package documents it; a method is missed if package and type have one name; prose above annotations is lost after its first sentence, or whole.", "quantifier": "for all comments, names and packages", "why_tests_cant": "tests check a few comments; the claim is about every layout of lines and every rendering of a name", "anchors": ["internal/spec/mapper.go:1825-1959", "internal/spec/mapper.go:1979-2083"]}
{"id": "C108", "title": "Where a variable comes from", "statement": "TraceVariableOrigin answers the origin of a variable as the records have it: the type argument or (traced on) the argument of the first recorded call of its function; else, in the first file of the package that knows it, the package variable's type or the latest assignment in the function, which is followed through names and through what a called function returns at that place. What it answers is that origin unless the records lead in a circle, it always ends, and the caches left by earlier traces never change an answer (keys being distinct, as they are for plain names). Not so: a local assignment does not hide a package variable of its name; only the first call counts, whatever the receiver; an argument passed by address is not traced; variables assigned to each other have no type even if one had a value; and metadata that was saved and loaded can answer differently from metadata just generated, as the cache of methods is filled from the package's first file only.", "quantifier": "for all metadata, questions, histories of earlier questions and depths", "why_tests_cant": "tests trace a few variables on fresh metadata; the claim is about every call graph, cyclic ones included, and every order of earlier questions", "anchors": ["internal/metadata/analysis.go:437-683"]}
{"id": "C109", "title": "The components a document gets", "statement": "The used types are exactly the bodies of requests and responses (the members instead of the interface where there are several), the types parameters refer to and the types routes list, together with what pointers among them point to; the schema recorded for a type is the first listed for it or a pointer to it, and the order in which Go ranges over responses and listed types does not matter if these agree. Every used type that is configured, known to be more than a primitive, or found in the metadata has a component that is no placeholder; a placeholder stands only for a used type, where no used type of that component name has a schema of its own; every other used type that may be referred to has a component; and no component is a reference to itself, unless what is generated for a type is one. Not so: with a type and a pointer to it listed with different schemas the order of the range decides; a pointer to a pointer can keep a type from being used; a body of pointer type adds a copy of its component under a name with a star; and the constraint of a type parameter is misread if the package's path has a dash.", "quantifier": "for all routes, orders of map ranges, configurations, metadata and generated schemas", "why_tests_cant": "tests check the components of a few programs; the claim is about every set of used types and every order Go may range in", "anchors": ["internal/spec/mapper.go:1005-1230", "internal/spec/mapper.go:1242-1303", "internal/spec/mapper.go:1717-1733"]}
{"id": "C110", "title": "Fields of named types", "statement": "How a type expression is recorded does not depend on the local names of imports nor on parentheses, and the recorded text tells the type. A name stands for the declaration in its package, or else for the first of that name in the order of package names. A field whose type, or pointer to it, is declared as a basic type is documented with that basic type (or pointer to it); one declared as another named type with that name; any other keeps its type, qualified with the package of the struct if it has none. A declared type itself is documented with its target in the package that declares it. Not so: a field of another package's type that is declared as a named one is documented with a type of the struct's own package; a name of the struct's own package is resolved in whatever package comes first; an array or a pointer to a slice of such a type loses the array or slice.", "quantifier": "for all type expressions, imports, declarations and struct keys", "why_tests_cant": "tests document fields of a few types in one or two packages; the claim is about every nesting of a type and every set of packages declaring a name", "anchors": ["internal/typemodel/fromexpr.go:33-108", "internal/metadata/metadata.go:700-731", "internal/metadata/helpers.go:43-68", "internal/spec/mapper.go:1204-1230", "internal/spec/mapper.go:1464-1527", "internal/spec/mapper.go:1614-1715"]}
{"id": "C111", "title": "The type of a selected field", "statement": "A type given for a field of a declared type is that of a field the type has, itself or by what it embeds, and none is given only if the type has no such field. The search ends where packages are embedded without a cycle. A selector has the type recorded for it, or else that of the field in the type of what it selects from. A constant has the type it is declared with in the first file that has the name, or else the resolved one; a variable has none. Not so: fields promoted from a type of the same package are not found, a deep field of the first embedded type is taken before a shallow one of the second, a field of a field is not found where the first field's type is of the same package, and no field of an instance of a generic type is found.", "quantifier": "for all declared types, embeddings, selectors, files and constants", "why_tests_cant": "tests look up a few fields with one level of embedding; the claim is about every depth and order of embedding", "anchors": ["internal/spec/field_resolver.go:33-106", "internal/spec/field_resolver.go:109-157", "internal/spec/field_resolver.go:167-216"]}
{"id": "C112", "title": "Each route is collected once", "statement": "However often and in whatever contexts the traversal meets registrations, no two collected routes have the same handler, mount path, path and method; they are in the order first met; and each is the merge, in order, of all that the first visits of the call sites under each mount give for it. No route is lost if a call site gives the same route each time it is met under the same mount. The node of a mounted router is the leftmost of the key at the least depth, and one is found if there is any. Not so: that the routes do not depend on the order of the visits; a site met again under the same mount with other middleware is skipped.", "quantifier": "for all sequences of visits and all trees", "why_tests_cant": "tests traverse a few trees; the claim is about every order and repetition of visits", "anchors": ["internal/spec/extractor.go:132-134", "internal/spec/extractor.go:907-989", "internal/spec/extractor.go:1080-1099"]}
{"id": "C113", "title": "What is known of external types", "statement": "For every field type, a fact is recorded under the full and the short name of each external type it is made of, through pointers, slices, arrays, maps, channels and what external types are declared as, also where these are recursive; nothing else is recorded or changed; the fact says what the type is declared as and whether it marshals itself, as text, or not. With names that tell the types apart the facts do not depend on the order of the fields, and an external type is documented as a string if it is a text marshaler, as a string with a note if it marshals itself to JSON, and as the basic type it is declared as otherwise. Not so: a type of the module is documented as an external one of the same short name; of two external ones with the same short name the later is recorded; a package whose path starts with the text of the module path is taken as part of the module, and packages of the standard library with a slash as external; nothing is recorded behind an alias or for a type argument.", "quantifier": "for all types, declarations, methods and orders of fields", "why_tests_cant": "tests use a few known libraries; the claim is about every type expression, including recursive ones, and every set of packages", "anchors": ["internal/metadata/metadata.go:803-841", "internal/metadata/metadata.go:849-911", "internal/metadata/metadata.go:1045-1071", "internal/spec/external_types.go:174-206"]}
{"id": "C114", "title": "Keys of anonymous structs", "statement": "The keys of two anonymous structs are the same exactly if the line, the column and the 32-bit checksum of package and file name are the same and package and file name differ at most in bytes that are not letters or digits; so the structs of a file have different keys. A key does not depend on the directory, is made of letters, digits and underscores, is recognised by its prefix and is never the target of a reference. What is registered for a package and the order of registering do not depend on the order of the variables; the keys are registered in increasing order and types that are there stay. Not so: that structs of different packages never have the same key.", "quantifier": "for all packages, files, positions and orders of variables", "why_tests_cant": "tests compare a few keys; the claim is about all pairs of positions and all orders of a map", "anchors": ["internal/metadata/metadata.go:915-962", "internal/metadata/metadata.go:970-1006", "internal/spec/mapper.go:3229-3236"]}
{"id": "C115", "title": "Fields of an anonymous struct written out as text", "statement": "The text of an anonymous struct as go/types writes it is read back: each field with its name, its type, whatever brackets, semicolons and quoted tags that contains, and its tag, in order and whatever stands before and after the struct. An embedded field, which is a type without a blank, is dropped. The properties are exactly those of the exported fields whose tag does not leave them out, under the name of the json tag or else their own, and of several fields under one name the last. Not so: that an embedded field with a json name is documented; that an embedded field never gives a property (its type arguments may have a blank); that a struct with a map among its fields is documented as a struct.", "quantifier": "for all lists of fields, types and tags", "why_tests_cant": "tests parse a few literals; the claim is about all nested types and tags", "anchors": ["internal/spec/mapper.go:3139-3145", "internal/spec/mapper.go:3268-3303", "internal/spec/mapper.go:3380-3431"]}
{"id": "C116", "title": "Calls that mount a router", "statement": "A call mounts a router exactly if a pattern for mounting matches its name, the function around it, its receiver and its place, and, where the pattern names a type for routers, the argument at its index has that type or is a call given an argument of that type. A pattern that says more of the name called goes before one that says less, then of the function around it, then of the receiver. The router of a variable is looked for at the first call among the arguments of the first edge that knows an assignment of it and has such a call, whatever the order of the assignments; path and router are the arguments at their indices. The node found for a router is the leftmost with its key on the first level of the tree that has one. Not so: that a router in two wrappers is recognised; that a handler which is only given a router is not taken for one; that the call found is what the variable was assigned; that an index below zero does not panic.", "quantifier": "for all patterns, calls, edges and trees", "why_tests_cant": "tests use a few routers; the claim is about all patterns, orders of a map and trees", "anchors": ["internal/spec/pattern_matchers.go:663-785", "internal/spec/pattern_matchers.go:1215-1242", "internal/spec/extractor.go:1080-1099"]}
{"id": "C117", "title": "Identifiers of arguments", "statement": "The identifier of an argument does not depend on the order of its map of type parameters. Without type parameters and position, the identifier of a function named, of a function literal, of a function of an imported package and of a method taken as a value is the BaseID of that function, which is what arguments are indexed by. The type parameters shown are those of the innermost operand that has any, those of an edge before the argument's own. Where positions hold no at sign, arguments with the same identifier have the same position and the same text but for a leading star or ampersand. An identifier once made is kept. The variable a selector, pointer, literal or index is written with does not matter, its type does. Not so: that the identifier is that of the argument as it is when asked; that different arguments without positions have different identifiers; that positions are told apart where they hold an at sign.", "quantifier": "for all arguments, orders of a map and sequences of questions", "why_tests_cant": "tests build a few arguments of each kind; the claim is about all trees of arguments and all orders of a map", "anchors": ["internal/metadata/types.go:1195-1364", "internal/metadata/types.go:289-293", "internal/metadata/expression.go:189-243"]}
{"id": "C118", "title": "Types in an identifier and the instances kept", "statement": "The types read from an identifier of a call or of an argument are, in some order, those its type parameters are bound to, if names and types hold no comma, equals sign or closing bracket and no blanks around; an identifier without brackets has none. A callee of a node is kept exactly if no type is read from it or every type read from the node is read from it; for such calls: if every type bound at the node is bound at the callee. Not so: that a callee whose types are all bound at the node is kept, or that one with a type not bound there is dropped, as the comment says; that types are compared by parameter; that slices are told apart by their elements; that a type with two arguments is read as one.", "quantifier": "for all identifiers, calls, arguments and orders of a map", "why_tests_cant": "tests use a few instances with one simple type; the claim is about all lists of type parameters and all types", "anchors": ["internal/metadata/types.go:694-751", "internal/spec/lazytree.go:1314-1326", "internal/spec/tracker.go:1563-1569"]}
{"id": "C119", "title": "Implementations that struct literals give interfaces", "statement": "A field of a struct is registered with a concrete type exactly if the last literal of a type named without a dot that some struct literal writes for it has that type, with a star where its address is taken. Whatever is asked before, and whether the map was taken over from the metadata or not, the answer to a question is the type registered or else the interface itself; metadata read from a file resolves nothing. Not so: that implementations of other packages are registered; that only fields which are interfaces are; that two implementations are both kept; that an interface is found whose field has another name.", "quantifier": "for all struct literals and sequences of questions", "why_tests_cant": "tests write one literal with one implementation; the claim is about all literals in all orders and all sequences of questions", "anchors": ["internal/metadata/metadata.go:1285-1320", "internal/metadata/metadata.go:2256-2311", "internal/metadata/types.go:2075-2113", "internal/spec/tracker.go:1789-1853"]}
{"id": "C120", "title": "The handler of an endpoint in the call graph", "statement": "The identifier of an operation is split into package, receiver and name where the last element of the package's path has no dot. An operation that calls something is its own handler. Otherwise the candidates are exactly the methods and functions of its name in its package, whatever their receiver; the only one of that name that calls something is the handler; without a declaration of the name, the method of the first implementer of the interface named is. Where none of these calls anything, a function literal below the first declaration is. The function literal taken for a method is the nearest at or below it in its file among those that call something, with the least key on a tie. The key found has calls, or is the operation's own identifier. Not so: that the handler does not depend on the order of maps; that the literal is one of the method; that packages with a dot in their last element are split rightly.", "quantifier": "for all metadata and operation identifiers", "why_tests_cant": "tests look up a few handlers of one package; the claim is about all packages, receivers, positions and map orders", "anchors": ["internal/insight/endpoint.go:242-275", "internal/insight/endpoint.go:283-369", "internal/insight/endpoint.go:376-486"]}
