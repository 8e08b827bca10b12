# Formal model of apispec: design

The source is `ehabterra/apispec` at the pinned commit, read as text in `/repo`.
Nothing in `/repo` is built or run.  The model lives in `rocq/theories`, one
group of files per topic:

* `XModel.v`  – executable Gallina functions (or small-step relations), each citing the file and lines it models;
* `XSpec.v` (or the head of the properties file) – the independent specification;
* `XProofs*.v` – lemmas;
* `XProps.v`  – the property theorems `Cnn_…`, each followed by `Print Assumptions`,
  with concrete non-trivial `Example`s meeting their hypotheses.

A theorem whose name ends in `_partial` proves part of its property; what is
missing is said beside it.  A theorem whose name ends in `_refuted` gives a
witness that the full statement is false of the model; those are the *Findings*.

## Trusted base

* Coq 8.16.1's kernel (including its virtual machine, used by `vm_compute`).
* What `Print Assumptions` prints under each property theorem: for every one of
  them it prints "Closed under the global context".  No axiom of the standard
  library is used.  The libraries loaded with std++ declare seven constants
  `Coq.ssr.ssrunder.Under_rel.*` as the sealed interface of ssreflect's `under`
  tactic; they appear in the list of loaded library axioms and no theorem
  depends on them.
* The reading of the Go code.  The tie between model and code is the citation
  on each definition; it is not checked by machine.
* Data: Go strings are Coq strings (sequences of bytes), slices are lists,
  pointers are values with `option` for nil (aliasing is modelled only where a
  comment says so), ints are unbounded unless the property is about their
  range.  A map is a finite map, and wherever the code ranges over one the
  order is an explicit parameter: `is_order iter` says only that `iter` permutes
  its input.  An unstable sort is any function giving a sorted permutation.
  `regexp`, the Unicode tables, float ranges and the YAML codec are parameters;
  what is assumed of them is a hypothesis in the theorem, and satisfied in the
  example.

## What is modelled, property by property

| id | code modelled | left out or abstract |
|----|---------------|----------------------|
| C01–C03 | `BuildCallGraphSCC`, `condenseSCC` with its explicit frame stack | – |
| C04 | `reachSet` and its memo | the predicate is a parameter, the key must name it |
| C05 | `computeReach`, `canReachMatch` | the expansion plan is an abstract relation |
| C06 | `routeReachSet`, `leadsToRoute`, `orderTowardRoutes` | – |
| C07, C08 | the OpenAPI document tree, `forEachSchemaRef`, `repairDanglingRefs` | generation of the document |
| C09, C10 | `MergeFrameworkConfigs`, `SecondaryView`, the identity keys, pattern matching fields | regular expressions (parameter) |
| C11, C57 | `typemodel.Parse`, `render`, `Canonicalize`, `Core` | `Raw` text |
| C12, C13 | `patternToRegex`, regular expression semantics, `Filter` | bracket classes (parameter) |
| C14 | `cachedRegex`, `cachedMatch`, one step per lock operation, read and write | fairness of the locks |
| C15 | `StringPool`, all operations | – |
| C16, C17, C30, C51 | `dropSubsumedMountPrefixes`, `joinPaths`, `handleMountNode`'s prefix, folding of dropped copies | – |
| C18–C21, C52, C53 | `convertPathToOpenAPI`, `ensureAllPathParams`, `buildPathsFromRoutes`, `buildResponses`, form parameters, ServeMux patterns | schema contents |
| C22, C23, C48, C49 | `pairAndFillResponses`, `candidateKey`, frame chains, call depth, `position.go` | discovery of the candidates |
| C24, C25, C29 | prefer/merge functions, matcher selection | the matchers themselves |
| C26–C28, C31 | `resolveSecurity`, presets, reconciliation, `middlewareMatchesThrough` | – |
| C32, C58 | `splitMethodDispatchRoutes`, `expandMultiVerbRoutes`, `detectMethodDispatch` | `findFunctionByName` (parameter); `return` |
| C33, C34 | `GetChildren`, budgets, scopes, over any history of expansions | `buildPlan` (a parameter; C92 has it) |
| C35 | the cached lookups of `types.go` | `ImplementersOf`; each lookup is one step |
| C36 | `WriteYAML`, `WriteSplitMetadata`, `LoadSplitMetadata` as system calls | YAML (parameter); lost or reordered writes |
| C37 | `BaseID`, `ID`, `StripToBase` | – |
| C38–C40, C54–C56 | `DetectAll`, `dependency_analyzer.go`, `frameworks.go` | collecting files from disk |
| C41 | `determineLiteralType` with the grammar of `strconv` | float range (parameter) |
| C42 | `ApplyOverrides`, `HasOverride`, and what the document shows | – |
| C43 | `processVariables`, `detectEnumFromConstants`, `extractEnumValues`, `strconv.Quote` | `resolveUnderlyingType` (parameter) |
| C44, C45 | `verbsFromArg`, `splitMethodFromPath`, `methodFromFunctionName`, `splitNameWords` | Unicode tables (parameters) |
| C46 | `splitTopLevel`, `anonStructBody`, `splitArgs`, `splitOnDive` | – |
| C47 | `BuildAssignmentRelationships`, `sortedAssignmentRelationships` | – |
| C50 | `lookupConfigSchema`, `resolveExternalType`, the component of an unknown type | – |
| C59 | `mapGoTypeToOpenAPISchema` with `untypedConstantDefault`, `unqualifyContainer`, `canAddRefSchemaForType`, `isPrimitiveShapedSchema`, `shouldPromoteToComponent`, `isInlineExternalType`, `parseArraySize`, the field loop of `generateStructSchema` (the shared set of visited types) | schemas of declared types and anonymous structs, configured mappings, `resolveUnderlyingType` (parameters of an `env`); the components made beside the schema; enums |
| C60 | `processStructFields`, `getFieldTag`, the property loop of `generateStructSchema`, `jsonFieldOmitted` (with `reflect.StructTag.Lookup`), `extractJSONName` | the schema of a field (parameter); `strconv.Unquote` (parameter); encoding/json is specified in FieldProps.v |
| C61 | `extractValidationConstraints` (the scanner of the regular expression, every rule, the keys min:, max:, regexp:, enum:), `applyValidationConstraints` | ParseFloat (parameter), float64 rounding (bounds within 2^53), the meaning of the patterns; maps |
| C62 | `schemaComponentNameReplacer`, `addRefSchemaForType`, the stores of `generateSchemas`; `Canonicalize` from C57 | how each stored schema is made |
| C63 | `substituteTypeParams`, `qualifyFieldType`, `qualifyTypeRef`, `IsPrimitiveType`, the field type in `generateStructSchema`, over the type model of C11 | `resolveUnderlyingType` (parameter); nested struct types |
| C64 | analyzeAdjacency (the breadth-first walk with both limits, callees, depths, fan-out), enumeratePaths, countPaths with its memo, grade, buildTraceGraph (nodes, edges, cut-off flag); maps of callers, depths and callees with any iteration order | the names, positions, origins and call sites attached to nodes; analyzeResolvedCallGraph and interface resolution; risk and package breakdowns |
| C65 | calculateCallGraphDepth, the depth and text filters, OrderTrackerTreeNodesDepthFirst and TraverseTrackerTreeBranchOrder, slices of a page with 64-bit overflow and Go's bounds checks, added enclosing functions, HasMore, the cache key, and the page cache as a transition system (hit, make, store, change of project) | HTTP parsing and JSON; the 30 s timeout; drawing the diagram from the metadata; node fields no filter reads; data races on the cached node slice (each reordering is one step) |
| C66 | `DrawModel.v`: drawing of the call graph (visualization.go 346-651, 1022-1095), call by call: nodes, the map from functions to node IDs, the pairs already joined, parents of literals, call positions. Nodes carry the base ID they were made for, which the code forgets. Not modelled: IDs of edges, parameter and type-parameter values of the call paths, and the drawing of the tracker tree (744-1013). | `DrawProps.v`: `C66_unique_ids` (the assumption of C65), `C66_nodes`, `C66_one_node`, `C66_arrows_are_calls`, `C66_calls_drawn` (exactly when a call is drawn), `C66_parent_is_node`, `C66_node_text`. Partial: `C66_all_calls_drawn_partial` needs the enclosing functions to come first, `C66_literal_inside_partial` gives name and package only. Refuted: `C66_all_calls_drawn_refuted`, `C66_literal_inside_refuted`, `C66_enclosing_marked_refuted`, `C66_call_sites_listed_refuted`. |
| C67 | `EngModel.v`: which packages and files are loaded, kept and analysed (engine.go 402-578, 670-801, 943-1008, 1065-1238, 1374-1484). The outcome of packages.Load is the input: paths, GoFiles, the file each tree of Syntax was parsed from, the number of errors. The framework analysis is any function from packages to a list or a failure. Globs are those of C12. Not modelled: what is done with the trees, the framework filter's rewriting of fileToInfo and importPaths beyond what is kept, and patterns that are no regular expressions the model parses (`other`). | `EngProps.v`: `C67_package_rule`, `C67_file_rule`, `C67_analysed` (iff), `C67_own_tree_partial`/`C67_own_tree_refuted`, `C67_skipped`, `C67_functions_and_types_ignored`, `C67_config_file_ignored`, `C67_config_file_refuted`, `C67_left_out_by_name_refuted`, `C67_tests_at_root_refuted`. |
| C68 | `EngModel.v`: the configuration after a run (filters appended, info filled in) and applyDetectedWrappers (engine.go 1501-1564) with patterns given by call, receiver and the rest. Not modelled: the detection of wrappers. | `EngProps.v`: `C68_members_decide`, `C68_rerun_partial` (framework packages not included automatically), `C68_rerun_refuted`, `C68_other_project_refuted`, `C68_title_stays`, `C68_filters_grow`, `C68_wrappers_idempotent`, `C68_wrappers_added`, `C68_wrappers_present`. |
| C69 | `ProvModel.v`: the resolver of response destinations (response_dest.go 20-300) on argument trees with IDs and a site (latest assignments, concrete and traced types); assignmentsAt (extractor.go 2024-2051). Configured expressions are arbitrary functions. Not modelled: how a parameter is replaced by the argument of the parent call (resolveArgThroughParams) and the nil cases of the resolver. Keyed literals are followed as in Go: Args, X, Sel, not Fun. | `ProvProps.v`: `C69_traced` (iff, distinct IDs), `C69_only_traced`, `C69_search_ends`, `C69_dropped`, `C69_others_dropped`, `C69_any_argument`, `C69_writer_kept_partial`, `C69_caller_scope`, `C69_field_value_refuted`, `C69_reassigned_refuted`, `C69_field_selected_refuted`, `C69_only_writer_refuted`, `C69_callee_scope_refuted`. |
| C70 | `ProvModel.v`: IsRequestSource with accessor chains (body_source.go 60-289), resolveReceiverSource and findFunction (body_source.go 297-351). Not modelled: an empty configuration (everything accepted). | `ProvProps.v`: `C70_source` (iff), `C70_search_ends`, `C70_only_request`, `C70_from_body_partial`, `C70_receiver`, `C70_reader_lost_refuted`, `C70_method_refuted`. |
| C71 | `EntryModel.v`: entrypointRoots with its statistics (entrypoint_roots.go 47-151), CallGraphRoots (types.go 811-845), the roots added to the tree (lazytree.go 851-890); the candidate list and the registration test are arbitrary. Not modelled: how candidates are collected from literals. | `EntryProps.v`: `C71_rooted_exact` (iff), `C71_tree_roots`, `C71_reached_in_a_closure_refuted`, `C71_registered_in_a_closure_refuted`. |
| C72 | `EntryModel.v`: the pattern match of a struct field, the preset table and its application (config_entrypoints.go), the registration match (entrypoint_roots.go). Regular expressions are an oracle that may fail to compile. | `EntryProps.v`: `C72_entrypoint_exact` (iff), `C72_presets_exact`, `C72_presets_idempotent`, `C72_table_constrains_types`, `C72_registration_exact`. |
| C73 | `StatModel.v`: returnFieldStatuses, fieldStatusOfValue, structFieldValue, keyedFieldValue, findTypeAnywhere and the tail of statusesFromMapperField (mapper_field_status.go 91-258), compositeLitOf, calleeNameOf, statusCodeOfValue (extractor.go), findType (field_resolver.go). The recursion has fuel the Go code has not. The lookup of a function by name and the table of statuses are arbitrary functions. Not modelled: how the mapper is found from the argument (lines 51-90). | `StatProps.v`: `C73_keyed_literal`, `C73_positional_literal`, `C73_codes_sorted`, `C73_listed_is_answered`, `C73_complete_without_residue` (iff), `C73_residue_is_for_something`, `C73_open_is_reported`, `C73_answer_unique`, `C73_ends_partial` (without circles), `C73_ends_refuted`, `C73_lost_branch_is_reported_refuted`. |
| C74 | `WrapModel.v`: identsIn, matchParam, paramsOf, assignmentsOf, indexOf (wrapper_params.go 41-192), without the cache of paramsOf. The declaration of a method and of a function by name are arbitrary functions. | `WrapProps.v`: `C74_traced` (iff), `C74_position`, `C74_forwarded`, `C74_made_up_value_refuted`, `C74_namesake_refuted`. |
| C75 | `WrapModel.v`: the rounds of DetectRouterWrappers, derivationRound, wrapperMethodOf, deriveWrapper, innerVerbArgIndex, the receiver expression (wrapper_detect.go 56-102, 238-400). The match of a pattern on a call is an arbitrary function. | `WrapProps.v`: `C75_roles`, `C75_found_exact` (iff), `C75_recorded`, `C75_direct` (iff), `C75_earlier_call_refuted`, `C75_other_module_refuted`, `C75_long_chain_refuted`. |
| C76 | `WrapModel.v`: groupWrappers and rolesKey (wrapper_detect.go 457-509); the key of a group is the tuple its string is printed from. Assumed: type names without dots, method names without bytes special in regular expressions. | `WrapProps.v`: `C76_groups_exact`, `C76_determined`, `C76_report_refuted`. |
| C77 | `MountModel.v`: detectGroupMounts, groupShape, splitFQRecv (wrapper_detect.go 109-236). The methods of a type (methodsOf) are an arbitrary function. | `MountProps.v`: `C77_mounts_exact` (iff), `C77_mounts_determined`, `C77_value_receiver_refuted`, `C77_second_function_refuted`, `C77_name_only_refuted`. |
| C78 | `MountModel.v`: applyDetectedWrappers and addPatternOnce (engine.go 1486-1564); `route_run` is detection and application of registrars only (engine.go 765-766). A pattern is arbitrary with its call and receiver expression as identity. | `MountProps.v`: `C78_applied`, `C78_idempotent`, `C78_second_run_refuted`. |
| C79 | `ValModel.v`: detectValueWrappers with its rounds, detectValueRound, seedsFrom, wrapperShell, mergeResponseRoles, deriveRequestWrapper, deriveParamWrapper (wrapper_detect.go 511-718). The matches of the three kinds of patterns are arbitrary functions; the order of the map in every round is arbitrary. | `ValProps.v`: `C79_sound`, `C79_direct`, `C79_listed`, `C79_call_order_refuted`, `C79_early_stop_refuted`, `C79_second_role_refuted`, `C79_map_order_refuted`. |
| C80 | `ValModel.v`: embeddingRecvRegex (wrapper_detect.go 402-455); the types of the package are a list in the order they are scanned. | `ValProps.v`: `C80_embedding`, `C80_deep_refuted`. |
| C81 | `FfModel.v`: buildFuncFieldDispatch, keysFor, addStructInstances, walkCompositeLits with record, compositeLitTypeName, typeExprName, compositeLitPkg, bareTypeName, elementTypeName, dedupeSortedStrings (func_field_dispatch.go 50-313, 577-681). The fields of a struct, the functions that can be expanded and matchesEntrypoint are arbitrary; the map is the list of what is recorded. | `FfProps.v`: `C81_walk_exact`, `C81_instance_exact`, `C81_only_known`, `C81_index`, `C81_order`, `C81_call`, `C81_deep_refuted`, `C81_method_refuted`, `C81_map_literal_refuted`. |
| C82 | `FfModel.v`: functionKeysOfValue, functionKeyFromRendered, importTailMatches, isMajorVersionElement, splitQualifiedType, functionKeyFromName (func_field_dispatch.go 315-499). The imports of a file are a list in the order the map is walked; strings are bytes. | `FfProps.v`: `C82_value_exact`, `C82_rendered_exact`, `C82_qualified`, `C82_element`, `C82_alias_refuted`, `C82_field_guess_refuted`, `C82_array_keys_refuted`. |
| C83 | `CgModel.v`: the index Build fills, FunctionID, bareRecvName, FunctionsByID, IDs, CalleesOf, Reaches, ReachesID, sortFunctions (callgraph.go 74-227). SSA, CHA and VTA are external: the graph is arbitrary (nodes in walk order, edges that may lack a callee), a function is a number with its description, sort.Slice any arrangement in order. | `CgProps.v`: `C83_callees`, `C83_reaches`, `C83_compose`, `C83_same_lists`, `C83_ids`, `C83_identity`, `C83_id_refuted`. |
| C84 | `SpcModel.v`: collectWrapperOverrides from the assignments on, fieldParamBindingsFromReturnVar, resolveOverrideGoType, extractCallerArgType, cleanOverrideType, specialiseWrapperSchema, paramNamesOf, lookupCallArgByParamName, wrapperFieldIsGeneric, jsonNameForField (wrapper_specialisation.go 62-413). GetArgumentInfo, findFunction and mapGoTypeToOpenAPISchema are arbitrary, the last with a state; the wrapper type is given by its fields. | `SpcProps.v`: `C84_bindings`, `C84_overrides`, `C84_type`, `C84_overlay_sound`, `C84_overlay_exact`, `C84_order`, `C84_omitted_refuted`, `C84_order_refuted`, `C84_concrete_refuted`. |
| C85 | `SinkModel.v`: unwrapWriteSink, unwrapHelperReturn, helperSerializedParam, paramIndexOf, matchBodyTransform, calleeNameOf (write_sink.go, extractor.go 2942-2953). Regular expressions, findFunctionByName and sinkAssignments are arbitrary; a panic is a result. | `SinkProps.v`: `C85_no_panic`, `C85_variable`, `C85_helper_sound`, `C85_helper_complete_partial` (missing: helpers that serialise several names), `C85_negative_refuted`, `C85_hidden_refuted`, `C85_first_refuted`. |
| C86 | `SinkModel.v`: mapLiteralSchema, constantKeyValue (map_literal.go), strconv.Unquote of double-quoted text with the escapes arbitrary. The types in use are not modelled. | `MlitProps.v`: `C86_exact`, `C86_read`, `C86_plain`, `C86_constant_refuted`. |
| C87 | `ImplModel.v`: callArgToString on function types, handleFuncType, normalizeSignature (ASCII), implementsInterface, analyzeInterfaceImplementations, the outside implementations, handlerMethodKeys. The text of a type is given; the memo of normalised signatures is left out; findType reads Package.Types alone. | `ImplProps.v`: `C87_exact`, `C87_nothing_new`, `C87_key_split`, `C87_method_key_split`, `C87_handler_keys`. `ImplProps2.v`: `C87_qualifiers`, `C87_signature_partial` (missing: type texts with a comma or a closing parenthesis), `C87_embedded_only`, `C87_results_refuted`, `C87_packages_refuted`, `C87_embedded_refuted`, `C87_embedded_only_refuted`, `C87_kind_refuted`, `C87_cycle_refuted`. |
| C88 | `ConcatModel.v`: resolvePathArg, placeholderFor, resolveConcatenatedPath, flattenConcat, resolvePathOperand, structFieldValue, callerArgFor, uniqueCallerArg, paramArgOfEnclosingFunc, enclosingFuncID, unwrapComposite (pattern_matchers.go), argViaParent, resolveArgThroughParams (extractor.go), ConstantValue, constantInPackage, selectorPackageKey (context_provider.go), the Value processVariables records (metadata.go; the text of literals, sums and parentheses). GetArgumentInfo is arbitrary. | `ConcatProps.v`: `C88_operands`, `C88_nothing_lost`, `C88_other_operator`, `C88_callers_agree`, `C88_field`, `C88_value_partial` (missing: the operands of the refutations), `C88_raw_refuted`, `C88_computed_refuted`, `C88_uninitialised_refuted`, `C88_variable_refuted`, `C88_hidden_refuted`, `C88_named_constant_refuted`, `C88_scope_refuted`, `C88_parent_refuted`, `C88_promoted_refuted`, `C88_duplicate_refuted`, `C88_paren_refuted`. |
| C89 | `PeelModel.v`: baseTypeRef, middlewareShaped, convertedHandler, wrappedHandlerDepth, wrappedHandler and the loop of handlerArgValue (pattern_matchers.go 1480-1647). Which names are functions (namesAFunction) and the signature of a callee (calleeFunctionOf) are arbitrary; no argument is nil. | `PeelProps.v`: `C89_layer_partial` and `C89_handler_partial` (missing: more than eight layers or nested calls), `C89_no_guess`, `C89_shape`, `C89_adapter_refuted`, `C89_nested_guess_refuted`, `C89_deep_refuted`. |
| C90 | `FlowModel.v`: followsControlFlow (request_provenance.go 58-142), completesSameRegistration and extractRouteChildrenScoped (extractor.go 1160-1287) on finite trees. What a node yields as a request and the types it registers are arbitrary functions of the node. Responses and parameters of the walk are left out. | `FlowProps.v`: `C90_walk` (iff), `C90_request`, `C90_own_body`, `C90_same_registration`, `C90_lateral_blocked`, `C90_wrapped_refuted`, `C90_same_name_refuted`, `C90_chain_refuted`, `C90_components_refuted`, `C90_house_router_refuted`. |
| C91 | `GraphModel.v`: the visitor of buildCallGraph and processCallExpression (metadata.go 1511-1778), extractRootVariable (1834-1846) on syntax trees. The instance ID, caller and callee name of a call and whether it is a conversion are given. Of the edge: its ID, CalleeVarName, CalleeRecvVarName, ChainParent (an index of the call graph). Left out: arguments, type parameters, AssignmentMap, ParentFunctions. | `GraphProps.v`: `C91_calls_partial`, `C91_assigned_partial` (distinct IDs, chains on recorded calls), `C91_kept`, `C91_ends_refuted`, `C91_conversion_refuted`, `C91_pending_refuted`, `C91_first_name_refuted`, `C91_inner_assigned_refuted`, `C91_package_variable_refuted`, `C91_same_method_refuted`. |
| C92 | `PlanModel.v`: buildRelations (lazytree.go 627-797: chain and receiver tables, claims of variables and parameters, argument IDs), edgesFor (890-920), buildPlan (1259-1414), orderTowardRoutes (447-467). Given: the sorted assignment links (C47), TraceVariableOrigin (C64), ParentFunctions, the generic types of a key, leadsToRoute, the keys of implementations, stored functions, method values, conversions and handler values, and the producers of an argument. Edges are compared by content: claims depend on nothing else. Left out: func-field and entrypoint setup (C71, C81), the copies made for generics. C33 and C34 take the plan as a parameter; this is its content. | `PlanProps.v`: `C92_callees` (iff), `C92_arguments`, `C92_toward_routes`, `C92_somewhere`, `C92_reached`; `PlanProps2.v`: `C92_reassigned_refuted`, `C92_second_router_refuted`, `C92_closure_refuted`, `C92_generics_refuted`, `C92_same_id_refuted`. |
| C93 | `DetailModel.v`: ExtractRoute and extractRouteDetails (pattern_matchers.go 476-632), a chain of links on one route (extractor.go 1178-1184), five patterns of the framework configurations. Given: methodFromFunctionName (C45), resolvePathArg (C88), handlerArgValue (C89), traceVariable (C64), the texts and packages of the arguments. Left out: a node without edge, the panic of MethodFromArg with a negative index, two matchers on one call (C51). | `DetailProps.v`: `C93_verb_named`, `C93_precedence`, `C93_path`, `C93_completes`, `C93_kept_iff` (iff), `C93_package` (iff), `C93_chain_refuted`, `C93_verbs_refuted`, `C93_path_verb_refuted`, `C93_default_refuted`. |
| C94 | `BindModel.v`: GetTypeParamMap (lazytree.go 1017-1049), traceGenericOrigin (pattern_matchers.go 1306-1330, with the number of turns taken), the single step of responses and parameters (extractor.go 3151-3155, 3529-3533). Left out: how the bindings of a call are recorded (metadata.go 1850-2005), the memo. | `BindProps.v`: `C94_nearest` (iff), `C94_bound`, `C94_hangs_iff` (iff), `C94_meaning`, `C94_request`, `C94_same_name_refuted`, `C94_swap_refuted`, `C94_composite_refuted`, `C94_response_refuted`. |
| C95 | `HoldModel.v`: resolveTypeOrigin of requests (pattern_matchers.go 1245-1302) and responses (extractor.go 3144-3197), concreteFromEnclosingFunc, concreteSetFromEnclosingFunc, concreteFromParamBinding (3201-3302), ambiguousConcreteSet (handler_value.go 35-51), findFunctionByName (extractor.go 1970-1984), the body type of ExtractRequest (pattern_matchers.go 1074-1139) and resolveArgType (extractor.go 2205-2275). Given: isInterfaceTypeName, the functions of a name (C35), field types, type parameters (C94), declared constants, returned types, literal types (C41), canonical names (C57), texts of arguments. Left out: parameter tracing before (C88), the request gate (C90), the mapping to a schema. | `HoldProps.v`: `C95_set` (iff), `C95_narrow_iff` (iff), `C95_binding` (iff), `C95_request_source`, `C95_response_source`, `C95_alternatives`, `C95_other_package_refuted`, `C95_unknown_refuted`, `C95_address_refuted`. |
| C96 | `OriginModel.v`: recvForms (recv_forms.go 37-60), qualifyOwner (call_scope.go 104-113), receiverOriginTypes, argOriginTypes (param_origin.go 39-111), MatchNode of a parameter pattern (extractor.go 3369-3419, over `matches` of C10), paramWireName (3120-3141), ExtractParam (3441-3519). Given: the chain and recorded assignments of a call, constants, the argument a parameter is bound to (C88), the schema of an argument. Left out: recording of assignments (C47). | `OriginProps.v`: `C96_origins_iff` (iff), `C96_match_iff` (iff), `C96_forms`, `C96_param`, `C96_none_iff` (iff), `C96_multipart_iff` (iff), `C96_later_refuted`, `C96_alias_refuted`, `C96_nameless_refuted`. |
| C97 | `CodeModel.v`: HTTPStatusByName, MapStatusCode (schema_mapper.go 165-259), expandVarStatuses, constructorFieldParam, findCallEdge, constructorFieldArg, statusFromConstructorField, statusesFromConstructorField (extractor.go 2784-3076). Given: the text of an argument (GetArgumentInfo), the function a name leads to (C35), the value a parameter is bound to (C88). | `CodeProps.v`: `C97_text_iff` (iff), `C97_named_range`, `C97_variable_iff` (iff), `C97_constructor_iff` (iff), `C97_branches` (iff), `C97_range_refuted`. |
| C98 | `CodeModel.v`: ExtractResponse (extractor.go 2432-2666). Given: as for C97, and the body type of an argument (C84-C86, C95), the statuses of a mapper (C73; assumed without duplicates, which C73 proves). Simplified: content type and schema are left out, they follow pattern and body. Left out: the test of the destination (C69). | `CodeProps2.v`: `C98_responses_iff` (iff), `C98_none_iff` (iff), `C98_order_irrelevant`, `C98_stated`, `C98_once_refuted`, `C98_same_refuted`, `C98_passed_refuted`, `C98_range_refuted`, `C98_minus_one_refuted`. |
| C99 | `AccessModel.v`: completeMapKeyPathParams, recordPathVarKeyMismatches, mapKeyAccessor, recoverAccessorKeys, collectAccessorKeys, isAccessorCall, handlerReachesAccessor, edgeMatchesAccessor (extractor.go 1738-1970, 2118-2166), on top of reachSet (C04) and the placeholders of a path (C18). Given: regular expressions, the function a name leads to (C35). | `AccessProps.v`: `C99_placeholders` (iff), `C99_params_iff` (iff), `C99_reach_iff` (iff), `C99_keys_iff` (iff), `C99_reports`, `C99_complete`, `C99_bare` (iff), `C99_mount_refuted`, `C99_reassigned_refuted`. |
| C100 | `EnclModel.v`: getEnclosingFunctionName, findEnclosingFunctionLiteral, findParentFunction (analysis.go 71-182), ast.Inspect as a walk in order. Given: the text of a position (stablePosition). Left out: signatures. Hypotheses, which go/parser gives: literals lie within the nodes they are part of, siblings do not overlap, declarations do not touch. | `EnclProps.v`: `C100_pruned`, `C100_literal_iff` (iff), `C100_none_iff` (iff), `C100_enclosing_iff` (iff), `C100_parent_iff` (iff), `C100_parentless_refuted`. |
| C101 | `RecordModel.v`: processAssignment, the walks of processFunctions, of the methods and of a callee that record assignments, extractReturns (metadata.go 280-330, 1124-1215, 1323-1501, 1680-1733). Given: the text, type and callee of an expression, the function a position is in (C100). Left out: Pkg, Scope and Lhs of an assignment. | `RecordProps.v`: `C101_function_iff` (iff), `C101_method_iff` (iff), `C101_edge_iff` (iff), `C101_order`, `C101_returns_iff` (iff), `C101_return_vars`, `C101_var_refuted`, `C101_tuple_var_refuted`, `C101_compound_refuted`. |
| C102 | `RecordModel.v`: assignmentsAt, callerAssignmentMap, methodAssignmentMap, latestAssignment, findMethodByName, findFunctionByName (extractor.go 1970-2116) on what C101 records. The functions and methods are lists in the sorted order (C35). | `RecordProps.v`: `C102_visible_iff` (iff), `C102_method_iff` (iff), `C102_same_refuted`, `C102_latest_refuted`, `C102_method_refuted`. |
| C103 | `PlaceModel.v`: formatPosition, positionIndex, positionString, stableFilename, stablePosition and funcLitName (position.go 41-195) over the string pool of C15. Given: a file set as a function from positions. Simplified: paths are lists of elements, absolute and clean, with forward slashes; filepath.Rel is modelled on these. | `PlaceProps.v`: `C103_library`, `C103_injective`, `C103_index`, `C103_text`, `C103_same_index` (iff), `C103_checkout`, `C103_distinct`, `C103_cache`, `C103_elsewhere`, `C103_columnless_refuted`, `C103_other_set_refuted`, `C103_collision_refuted`, `C103_dots_refuted`. |
| C104 | `TargModel.v`: extractParamsAndTypeParams, applyTypeParameterResolution and applyTypeParameterResolutionToArgument (metadata.go 1848-2005, 2207-2254). Given: ObjectOf, Instances, TypeOf and getTypeName, as functions of an identifier or expression. Simplified: X, Fun and Args of an argument are one list, which the code only recurses over. | `TargProps.v`: `C104_params_iff` (iff), `C104_params_distinct`, `C104_nothing`, `C104_explicit_iff` (iff), `C104_receiver_iff` (iff), `C104_inferred_iff` (iff), `C104_no_instance`, `C104_resolved`, `C104_edge`, `C104_partly_refuted`, `C104_paren_refuted`, `C104_variadic_refuted`, `C104_unnamed_refuted`, `C104_method_expression_refuted`, `C104_inner_refuted`, `C104_plain_refuted`. |
| C105 | `ReportModel.v`: operationsOf, collectOperationIssues, refIssues, schemaRefs, isWrapperSpecialised, classifyResolution, the loop of BuildOverview, addStatusBody, bodyResolution, sortedCounts, securityStats, interfaceStats, the function count (overview.go 250-518, 563-932). Simplified: schemas are finite trees, property names are left out, maps that are ranged over are lists in the order visited, the score is computed with exact fractions. Not modelled: diagnostics, package counts, hot functions, rendering. | `ReportProps.v`: `C105_refs`, `C105_issue_iff` (iff), `C105_order`, `C105_broken_iff` (iff), `C105_full_iff` (iff), `C105_states`, `C105_score`, `C105_body_iff` (iff). `ReportProps2.v`: `C105_bucket`, `C105_bodies`, `C105_counts`, `C105_methods`, `C105_coverage`, `C105_tags`, `C105_protected_iff` (iff), `C105_classes`, `C105_interfaces`, `C105_functions`, `C105_transitive_refuted`, `C105_missing_body_refuted`, `C105_score_refuted`, `C105_order_refuted`, `C105_nil_refuted`, `C105_design_refuted`, `C105_label_refuted`, `C105_functions_refuted`. |
| C106 | `GuardModel.v`: middlewareRefFromArg, resolveMiddlewareIdentRef, lookupAssignments, ExtractMiddlewareFromEdge, collectNodeSecurity, collectChainSecurity, callerKey, collectRouterSecurityByCaller, mergeMW, traverseForRoutesWithVisited with handleMountNode, and the two lists of applyRouteSecurity (security.go 58-239, pattern_matchers.go 786-933, extractor.go 455-496, 563-660, 710-747, 837-904). Given: which matchers match a call, whether a node is a mount or a route (C16, C29, C30). Simplified: the tree is finite. Not modelled: the jumps to routers that are assigned or passed as arguments (extractor.go 859-890). What becomes of the middleware is C26, C27, C31. | `GuardProps.v`: `C106_identity_iff` (iff), `C106_lookup`, `C106_extract_iff` (iff), `C106_wrapper_iff` (iff), `C106_found`, `C106_all_found`, `C106_definite`, `C106_latest`, `C106_unrecorded`, `C106_speculative`, `C106_callers` (iff). `GuardProps2.v`: `C106_closure`, `C106_router_refuted`, `C106_before_refuted`, `C106_helper_refuted`, `C106_caller_refuted`, `C106_revisit_refuted`, `C106_nested_refuted`, `C106_variable_refuted`, `C106_alias_refuted`, `C106_function_refuted`, `C106_literal_refuted`. |
| C107 | `GodocModel.v`: receiverTypeName, handlerComments, handlerValueComments, valueTypeKey, swaggoDoc, splitSynopsis, isSpaceByte, handlerDoc (mapper.go 1825-1959, 1979-2083). Given: go/doc's Synopsis, findType, findMethodByName and findFunctionByName (C35, C101), implementersOfExternal, and the core of a field's type. Simplified: white space is ASCII. | `GodocProps.v`: `C107_swaggo`, `C107_layout`. `GodocProps2.v`: `C107_words`, `C107_function`, `C107_method`, `C107_field`, `C107_value`, `C107_interface`, `C107_field_interface`, `C107_doc`, `C107_separators` (iff), `C107_type_package_refuted`, `C107_same_name_refuted`, `C107_lead_refuted`. |
| C108 | `TvoModel.v`: TraceVariableOrigin, traceVariableOriginHelper with both caches (analysis.go 437-683). Given: the texts CallArgToString gives of arguments, SortedFiles (C35) and the methods in the order of SortedTypes. Simplified: Packages is not empty. | `TvoProps.v` (specification and lemmas), `TvoProps2.v`: `C108_origin`, `C108_sound`, `C108_terminates`, `C108_history`, `C108_keys`, `C108_closed`, `C108_shadow_refuted`, `C108_method_file_refuted`, `C108_receiver_refuted`, `C108_call_order_refuted`, `C108_address_refuted`, `C108_circle_refuted`. |
| C109 | `CompModel.v`: collectUsedTypesFromRoutes, markUsedType, generateSchemas, findTypesInMetadata, typeByName, generateSchemaFromType as generateSchemas calls it (mapper.go 1005-1230, 1242-1303, 1717-1733). Given: resolveExternalType (C50), canAddRefSchemaForType, the parsed core of a type, TypeInPackage, and as arbitrary functions mapGoTypeToOpenAPISchema and the switch on the kind. Simplified: configured types have a schema; configuration and metadata are not nil. | `CompProps.v`: `C109_used`, `C109_recorded`, `C109_order`, `C109_order_refuted`, `C109_double_pointer_refuted`. `CompProps2.v`: `C109_no_self`, `C109_proper`, `C109_placeholder`, `C109_component`, `C109_pointer_refuted`, `C109_dash_refuted`. |
| C110 | `AliasModel.v`: FromExpr, fromSelector, getTypeName of an expression, processTypeKind, typeByName, findTypesInMetadata for the type itself, resolveUnderlyingType, the underlying type of generateAliasSchema (fromexpr.go 33-108, metadata.go 700-731, mapper.go 1154-1230, 1614-1715), and the field type of generateStructSchema (C63, now with resolveUnderlyingType). Given: TypeInPackage (C35, C101), IsPrimitiveType (C63), parsing and rendering (C11). Simplified: the qualifier of a selector is an identifier, and only named types take arguments, as in Go; arguments with constraints, which no field has. | `AliasProps.v`: `C110_imports`, `C110_recorded` (iff), `C110_declaration` (iff). `AliasProps2.v`: `C110_resolve`, `C110_unresolved`, `C110_field`, `C110_field_named`, `C110_field_kept`, `C110_target`, `C110_container`. `AliasProps3.v`: `C110_target_package_refuted`, `C110_own_package_refuted`, `C110_array_refuted`, `C110_pointer_slice_refuted`, `C110_inner_refuted`, `C110_paren_refuted`, `C110_map_refuted`, `C110_forms`. |
| C111 | `SelModel.v`: resolveSelectorFieldType, selectorBaseType, stripPointer, splitPkgType, lookupFieldType, constIdentDeclaredType, findType (field_resolver.go 33-216). Given: the order in which a package's declarations of a name are looked at (C101) and the recorded text of a type (C110). Simplified: lookupFieldType takes a bound on its depth, which `C111_bound` shows does not matter and `C111_ends` that one exists. | `SelProps.v`: `C111_found`, `C111_absent`, `C111_ends`, `C111_bound`, `C111_selector`, `C111_constant` (iff), `C111_same_package_refuted`, `C111_depth_refuted`, `C111_nested_refuted`, `C111_generic_refuted`. |
| C112 | `VisitModel.v`: handleRouteNode with IsValid and the merging of routes (extractor.go 132-134, 907-989) over the sequence of its calls, and findTargetNode (1080-1099). Given: mergeRouteExtraction (C25), joinPaths (C17), the security of the context (C26, C106), and the walk of a route's children with the completion and the overrides (C90, C22, C99, C42) as any function of the route. Simplified: the tree is finite and expanded. | `VisitProps.v`: `C112_order`, `C112_unique`, `C112_route` (iff), `C112_complete`, `C112_target` (iff), `C112_no_target` (iff), `C112_extracted_iff` (iff), `C112_security_refuted`. |
| C113 | `FactModel.v`: marshalerKind, hasMarshalerMethod, isMarshalerSignature, recordExternalTypeFacts, its visited worker, isExternalPackage, and their use for fields (metadata.go 803-911, 1046-1071). Given: resolveExternalType (C50). Simplified: go/types values are a type language with named types by identity; the worker takes a bound on its depth, and the bound used is shown to be enough within `C113_recorded`; the test for primitive field types, which hold no external ones, is left out. | `FactProps.v`: `C113_recorded`, `C113_only`, `C113_kept`, `C113_fields` (iff), `C113_documented`, `C113_order`, `C113_namesake_refuted`, `C113_short_name_refuted`, `C113_prefix_refuted`, `C113_standard_refuted`, `C113_alias_refuted`, `C113_argument_refuted`. |
| C114 | `AnonModel.v`: AnonStructKey with sanitize, FNV-1a and the formatting, IsAnonStructTypeName, processLocalAnonymousStructs (metadata.go 915-1006); canAddRefSchemaForType is C59's. Simplified: paths are valid UTF-8, positions valid, and the types registered (buildAnonStructType) are any values. | `AnonProps.v`: `C114_key` (iff), `C114_positions`, `C114_directory`, `C114_bytes`, `C114_marked`, `C114_order`, `C114_registered`, `C114_collision_refuted`. |
| C115 | `AnonFieldModel.v`: parseAnonField and schemaFromAnonStructLiteral (mapper.go 3268-3303, 3380-3431), over anonStructBody and splitTopLevel (C46), the tags of C60 and, for the refutation, the schema of a type of C59. Given: strconv.Unquote, ast.IsExported. Simplified: the schema of a type is a function of its text. | `AnonFieldProps.v`: `C115_field`, `C115_embedded`, `C115_fields`, `C115_properties_iff` (iff), `C115_tagged_refuted`, `C115_generic_refuted`, `C115_map_refuted`. |
| C116 | `MountMatchModel.v`: MatchNode, routerArgIsRouter, GetPriority and ExtractMount of the mount matcher (pattern_matchers.go 663-785), findAssignmentFunction (1215-1242) and findTargetNode (extractor.go 1080-1099), over the matching of C10. Given: regular expressions. Simplified: the tree is finite; resolvePathArg is C88; traceRouterOrigin, whose result is dropped, is left out. | `MountMatchProps.v`: `C116_matches_iff` (iff), `C116_priority` (iff), `C116_assignment_iff` (iff), `C116_order`, `C116_extract_iff` (iff), `C116_target_iff` (iff), `C116_wrapped_refuted`, `C116_given_refuted`, `C116_value_refuted`, `C116_panic_refuted`. |
| C117 | `ArgIdModel.v`: CallArgument.TypeParams, ID and id (types.go 1195-1364), with the BaseID and StripToBase of C37's `IdModel.v`. Given: the order of a range over a map. Simplified: texts instead of indices of the pool; a selector has its Sel; a function literal is asked with the dot, as ID does. | `ArgIdProps.v`: `C117_order`, `C117_function`, `C117_imported`, `C117_method`, `C117_call`, `C117_params`, `C117_edge` (iff), `C117_position`, `C117_kept`, `C117_variable`, `C117_leaf`, `C117_around`, `C117_stale_refuted`, `C117_distinct_refuted`, `C117_position_refuted`. |
| C118 | `GenTypesModel.v`: ExtractGenericTypes with its expression, and IsSubset (types.go 694-751), and the filter on direct callees (lazytree.go 1320-1325, tracker.go 1563-1569), over the identifiers of C37 and C117. Simplified: nil and an empty slice are one; the cache of lazytree.go 597-606 is left out. | `GenTypesProps.v`: `C118_types`, `C118_items`, `C118_none`, `C118_call`, `C118_argument`, `C118_kept_iff` (iff), `C118_calls_iff` (iff), `C118_bound_refuted`, `C118_unbound_refuted`, `C118_names_refuted`, `C118_slice_refuted`, `C118_comma_refuted`. |
| C119 | `ResolveModel.v`: processStructInstance as far as it registers, isEmbeddedInterfaceAssignment, registerEmbeddedInterfaceResolution (metadata.go 1285-1320, 2256-2311), RegisterInterfaceResolution and GetInterfaceResolution (types.go 2075-2113), and the resolutions of the tracker (tracker.go 1789-1853). Given: the names of types (C110's getTypeName). Simplified: positions are left out; literals are listed in the order they are visited. | `ResolveProps.v`: `C119_registered_iff` (iff), `C119_answers`, `C119_loaded`, `C119_qualified_refuted`, `C119_struct_refuted`, `C119_two_refuted`, `C119_name_refuted`. |
| C120 | `HandlerKeyModel.v`: resolveHandlerKey, resolveInterfaceImplHandler, splitOpID3, splitOpID, candidateHandlerKeys, sameSourceFile, findFuncLitInFile (endpoint.go 242-486). Given: what parsePos makes of positions and keys (export.go 308-329), the implementers of an interface and the position of a method (endpoint.go 299-303, 351-369). Simplified: the declarations of a package are one list in the order its maps are ranged over; lines are below 2^30. | `HandlerKeyProps.v`: `C120_split`, `C120_direct`, `C120_candidate_iff` (iff), `C120_same_file_iff` (iff), `C120_literal_iff` (iff), `C120_found`, `C120_only`, `C120_interface`, `C120_factory`, `C120_interface_factory`, `C120_order_refuted`, `C120_other_literal_refuted`, `C120_dotted_refuted`. |

How each is proved and how far is said in the notes of `MANIFEST.json`.  Not
modelled at all: loading and type-checking Go packages, the AST walks that
record calls and assignments, the pattern matchers' argument tracing, YAML and
JSON encoding, the command line, the diagnostic server's HTTP layer and the
HTML pages.  Every property in `properties.jsonl` was expressible.

## Findings

Each is a theorem `…_refuted` with a concrete witness unless marked (observed).

* C07: discriminator mappings and encoding headers are not visited, so their references can dangle.
* C10: two patterns that differ only in the exact receiver type, or only in the caller/callee filters, are taken for duplicates and one is dropped.
* C11: `Page[]` loses its brackets; `p-->T-->B[A]` reads like `p-->T[A]`; `func(http.Handler) error` is given the package `func(http`.
* C12: a leading slash does not anchor; a pattern ending in `**/**` misses paths; a directory name with a line break never matches.
* C18: a placeholder used twice gets two parameters; `{user-id}` is declared nowhere; an exported dynamic name is declared twice; `tenant` and `Tenant` share one component.
* C19: literal colon text is rewritten; conversion is not idempotent on unbalanced braces.
* C21: several bodies of unknown status become one default entry.
* C22: a statement in a shared helper reached through two frames has one position, so its slot depends on discovery order.
* C24: request ties are decided by order; a body of alternatives counts as uninformative.
* C25: an explicit public marker is lost in a merge.
* C26: alternatives of one middleware replace another's demand; a later (preset) mapping overwrites the user's scopes; a user's skip does not stop a preset mapping; route middleware and a handler wrapper become alternatives; a scope containing a comma makes two requirements look equal and one is dropped.
* C27: a reference to an undefined scheme is only logged.
* C29: a matcher of higher priority that fails to extract discards the extracted route, or lets a lower priority win.
* C30: a nested mount whose prefix is a textual suffix of the outer prefix is dropped.
* C31: helpers that call each other poison the memo.
* C32, C58: a response outside the handler but in its file is dropped from every verb; a check before the switch is documented under no verb; `case "get"` is documented as GET.
* C33, C34: the children a client walks can repeat a function below a chained call; calls chained to arguments can exceed the instance cap counted by position; two mounts of one registration share the copy allowance, so exploring one drops calls of the other.
* C35: a replacement that keeps the counts gives stale answers; `FunctionAnywhere` and `SortedPackageNames` are never rebuilt.
* C36: stopping between two files loads a mixture; a file just opened or cut loads as an empty or partial part.
* C37: generic receivers, and packages whose last element has a dot, collide.
* C39: at the default `MaxImportDepth` 3 the collected packages depend on map order.
* C41: quoted `"12345"`, `"true"`, `"Infinity"` and a quoted nil are documented as int, bool, float64, interface{}; `0x1F` as string.
* C42: a status override changes nothing, a type override never shows for known statuses, a description is never used.
* C43: text constants over 70 characters are truncated with their opening quote; escapes stay escaped; blank constants are documented; an untyped constant with its own value in the block is documented; constants typed by conversion are missing; a same-named type elsewhere, or a blank variable, removes the enum.
* C46: `splitArgs` cuts at commas inside braces or a quoted tag.
* C47 (observed): two methods of one name share an assignment key, so only the last link survives.
* C49: an `@` in a module-cache path breaks the round trip.
* C50: duplicate externalTypes entries: the last wins; an entry by short name suppresses the registry but is not applied; a project type called `uuid.UUID` is documented as the library's.
* C51: dropped copies are folded, security included, into unrelated survivors.
* C52: a file upload next to a decoded body or on a bodyless method is documented nowhere.
* C53: the host of a ServeMux pattern becomes a path segment.
* C54: a raw (back-quoted) import literal keeps its quotes and matches no framework.
* C59: a nil pointer, slice or map is written as null, which no schema accepts; `[N]byte` is documented as base64 text, though json writes an array of numbers (`[N]uint8` is right); `any` is documented as an object; integer ranges are not documented (`Minimum: 0` of an unsigned type is dropped by omitempty), so a uint8 may be -1; the size of `[0]T` and the values of `map[int]T` are not documented; the second field of type `[2][]int` in one struct is a `$ref` to a component that is never made.
* C60: fields of embedded structs are never documented; a key that ends in json (`bsonjson`) wins over the json key; `json:"first name"` is cut at the space; `json:"-,"` is documented under the Go name; a name encoding/json rejects is documented; a tag written with ordinary quotes keeps its backslashes, so a `-` field is documented; of two fields with one key the last is documented though neither is written.
* C61: rules are read up to the end of the tag, so a key after `validate` loses the last bound, and its words count as rules (`validate:"required" json:"url"` gives format uri, and the word `json` sets a pattern); `oneof` on a number gives an enum of strings; `oneof='light blue' red` is split inside the quotes; `email|url` is documented as url alone; a bound of zero is dropped; of two `min` rules the last counts; `required` still admits the empty string; `omitempty,min=3` is documented without the empty string; `admin:"5"` is read as `min:"5"`; `multibyte` gets the pattern of `ascii`.
* C62: packages `api.v1` and `api/v1` share component names; `Page[User]` and `Page_User` share one; `Page[shop.User]` and `Page[admin.User]` are made one type before naming; `Box[*User]` gives a key OpenAPI does not allow; a tilde in an import path gives a reference no reader can resolve.
* C63: a type parameter inside a map, an array or another instance is not replaced and becomes a type `T` of the package; an argument from another package is looked for in the package of the generic type; the arguments of a generic field type are not qualified; `map[string]map[string]struct{}` is taken for a struct literal and becomes `dto.map[…]`.
* C64: countPaths remembers the number of paths below a function, but that number depends on the functions above it, so with mutual recursion the total is wrong: r→a,b; a→b,x; b→a,y has four call paths, all of them listed, and the count is 3 (`C64_paths_counted_refuted`).
* C64: exactly as many paths as the limit are reported as cut short (`C64_exactly_the_limit_refuted`).
* C64: calleeIsBuiltin looks only at the name, so a method of the project called `delete`, `close`, `max`, … is missing from the trace with everything it reaches (`C64_builtin_name_refuted`).
* C64: listed paths use short labels, so different paths may look the same (`C64_labels_distinct_refuted`).
* C64: the edges of the diagram are in map order, so two runs may differ (`C64_edges_reproducible_refuted`); the nodes do not (`C64_nodes_reproducible`).
* C65: HasMore compares the size of the page with the total, so the last page and every page past the end still say there is more (`C65_has_more_at_end_refuted`); an added enclosing function counts as a node asked for, so a page may say there is no more although the next one shows another node (`C65_no_more_refuted`).
* C65: `?page=9223372036854775807` makes the start of the slice negative; the slice expression panics in a goroutine nobody recovers (`C65_page_overflow_refuted`).
* C65: functions that only call each other are on no page once a depth is asked for, however deep (`C65_cycle_hidden_refuted`); an edge whose ends are on different pages is on none (`C65_edge_on_no_page_refuted`).
* C65: the cache key writes filters with %v, so `["p q"]` and `["p","q"]` share a page (`C65_cache_key_refuted`); a page made before the project was changed is stored after it and then served for the new project (`C65_stale_page_refuted`).
* C65: a receiver filter keeps every function without a receiver (`C65_receiver_filter_refuted`; signatures and generics alike).
* C65: every uncached request for a tracker tree reorders the shared nodes; with two nodes called main the order flips each time, so consecutive pages repeat one node and miss another (`C65_reorder_refuted`).
* C66: a function whose node is first made because it encloses a literal is recorded as visited but gets no entry in the map that arrows are drawn from, so every call from it and to it is missing from the diagram (`C66_all_calls_drawn_refuted`; `C66_calls_drawn` says that these are the only calls missing).
* C66: the function around a literal is looked up by name and package without its receiver, so a literal inside `Cache.Get` is drawn inside `Store.Get` (`C66_literal_inside_refuted`).
* C66: the branch of `ensureParentFunctionNode` that marks an existing node as an enclosing function cannot run, as the function is only called when no node of that name and package exists; enclosing functions drawn earlier are never marked (`C66_enclosing_marked_refuted`).
* C66: a function first seen as a caller lists none of the places it is called from (`C66_call_sites_listed_refuted`).
* C67: in a package with C code the trees of `Syntax` are those of the compiled files, but they are picked with the indices of `GoFiles`: a generated tree is analysed under the name of a handler file, and the handlers' own tree is dropped (`C67_own_tree_refuted`).
* C67: the automatic exclusions go by endings and substrings of whole paths, so `latest.go` and `contest.go` count as tests, package `hammock` as a mock and package `sqlite3s` as C code (`C67_left_out_by_name_refuted`), while `test/server.go` at the root is analysed although `api/test/server.go` is not (`C67_tests_at_root_refuted`).
* C67: include and exclude lists of a configuration file are read after the analysis and have no effect on it (`C67_config_file_ignored`, `C67_config_file_refuted`); lists of functions and types have no effect anywhere (`C67_functions_and_types_ignored`).
* C68: with the defaults a run writes the framework packages it found into the include list of the caller's configuration; the next run on it takes the list as a restriction and loses the other packages of the module (`C68_rerun_refuted`), and another project has no packages left at all (`C68_other_project_refuted`). Title, version and description of the first run stay (`C68_title_stays`) and the lists at least double with every run (`C68_filters_grow`).
* C69: the value of a key-value pair is recorded in `Fun`, which the resolver does not look at, so an encode to `&jsonOut{out: w}` is dropped (`C69_field_value_refuted`); the key is looked at and has the field's type, so `&logging{ResponseWriter: rec}` with a recorder counts as the response (`C69_only_writer_refuted`). A parameter assigned to (`w = wrap(w)`) and a selected field `c.W` are dropped although they hold the writer (`C69_reassigned_refuted`, `C69_field_selected_refuted`).
* C69: assignmentsAt reads the assignments on the edge first and says they are those of the calling function; they are those in the body of the function called (as the comment in body_source.go 314 says). A variable of the helper hides the caller's variable of the same name, and the response is dropped (`C69_callee_scope_refuted`).
* C70: `io.LimitReader(r.Body, n)`, `b, _ := io.ReadAll(r.Body)` and `(r.Body)` are not taken for the request body (`C70_reader_lost_refuted`). A decoder kept in a variable is looked up among plain functions only: in a handler that is a method it is not found, and a plain function of the same name in the package answers instead (`C70_method_refuted`).
* C71: main's reach is computed over edges whose caller is main itself, so a callback main calls only inside a closure is rooted a second time (`C71_reached_in_a_closure_refuted`); and a callback whose registrations are all inside its own closures is counted as having no routes and is not rooted (`C71_registered_in_a_closure_refuted`).
* C73: the depth of the search is looked at only on entering a function, not on following a variable. A mapper with `api := api` (or `a = b; b = a`) that returns the variable makes fieldStatusOfValue call itself for ever, which in Go is a fatal stack overflow (`C73_ends_refuted`).
* C73: a branch that returns a variable of the package, a parameter, or a call of a function outside the program adds no status and no residue, so the list is given out as complete (`C73_lost_branch_is_reported_refuted`).
* C74: `indexOf` takes any name in the argument for a variable, the name of a field after a dot included: `s.list` in a method with a parameter `list` is the parameter (`C74_made_up_value_refuted`). The assignments of a function with the name of the method are followed when the method has none for the variable (`C74_namesake_refuted`).
* C75: the first matching call of a method decides; a method that first registers a fixed route and then forwards its parameters is recorded as incomplete and never applied (`C75_earlier_call_refuted`). The module check is `strings.HasPrefix` without a slash, so `example.com/application` is in the module `example.com/app` (`C75_other_module_refuted`). A chain of five wrappers is cut without a word (`C75_long_chain_refuted`).
* C76: `Via` of a group is that of whichever method the map delivers first (`C76_report_refuted`); the patterns themselves do not depend on the order.
* C77: the receiver recorded for a call is compared with the receiver of the registrars letter by letter, so `func (r Router) Group` beside `func (r *Router) Get` is not found (`C77_value_receiver_refuted`). Only the first function parameter is looked at (`C77_second_function_refuted`). The call is compared by name only (`C77_name_only_refuted`).
* C78: the comment of applyDetectedWrappers says a second run on the same config produces the same config; the second run starts from the derived patterns and goes up to four calls further, so it adds patterns (`C78_second_run_refuted`).
* C79: `mergeResponseRoles` sets Complete anew while the other two only set it, so a method that reads a parameter and then writes a status is not applied, and one that writes the status first is (`C79_call_order_refuted`). The rounds stop when the number of methods does not grow, though one may have become complete (`C79_early_stop_refuted`). `seedsFrom` is a switch and seeds one role of a method (`C79_second_role_refuted`). The seeds come in map order and the first one decides (`C79_map_order_refuted`).
* C80: the search for embedding types stops after four scans (`C80_deep_refuted`); types of other packages that embed the declaring type are not looked at (not stated as a theorem).
* C81: the comment promises that elements take their type from the enclosing slice, array or map, but a map type is not rendered by `typeExprName`, so `map[string]*Command{"a": {Action: run}}` contributes nothing (`C81_map_literal_refuted`). Values assigned inside methods are never walked (`C81_method_refuted`).
* C82: the comment on `functionKeysOfValue` says that a field holding a function contributes nothing rather than a guess; `h.handler` is taken for the package function `handler` when there is one (`C82_field_guess_refuted`). An import under another alias whose path ends in the qualifier can win over the import aliased to the qualifier (`C82_alias_refuted`).
* C83: `FunctionID` joins path, receiver and name with dots, so a function `Load` of package `example.com/yaml.v2` and a method `v2.Load` of package `example.com/yaml` have one ID, and `Reaches` starts from both.
* C61: a `len` rule on a float field is lost (`C61_len_number_refuted`).
* C84: a wrapper field with the tag `json:"-"` gets a property under its Go name; two overridden fields with one JSON name take the type of the one the map yields last, so the document varies between runs; `**any` and function types that name a package are taken for concrete types.
* C85: a body transform with a negative `argIndex` passes `len(args) > idx` and panics. A helper that returns other serialised bytes before its parameter documents nothing. In a helper the first assignment to the returned variable counts, at the sink the last.
* C86: a map key in back quotes, and the empty key, are treated as unknown keys; a literal with only such keys is read by its type.
* C59: `[]**T` refers to the component `*T`: only one star is taken off, so the reference is to a key no declaration makes, and `*` is not allowed in a component key (`C59_pointer_pointer_refuted`).
* C87: a result list `(a, b int)` has the text of `int`, so a method with it is taken for a method with one result.
* C87: qualifiers are dropped before signatures are compared: `Save(a.Order)` implements `Save(b.Order)`.
* C87: the methods of embedded interfaces are not required; an interface of embedded ones alone is implemented by nothing.
* C87: only structs are examined: a function type with the methods implements no interface of the project.
* C87: metadata loaded from a file in which an interface lists itself makes handlerMethodKeys recurse without end.
* C88: a package variable without initial value has `Value` 0, the index of the first string of the pool, so `base + "/users"` with `var base string` is documented under whatever string was interned first; a variable with a value is read as a constant.
* C88: a constant declared as a sum, `const base = "/api" + "/v1"`, contributes the text `/api + /v1`; a back-quoted literal keeps its quotes; a parenthesised operand is a placeholder.
* C88: a parameter does not hide a constant of its name, and a constant passed by name through a registering function is not read (`callerArgFor` replaces the name and then looks it up among the parameters of the inner function, which can also give the value of another parameter).
* C88: `argViaParent` asks the parent node for the parameter name before it looks for the call of the enclosing function; a parent that is another call with a parameter of that name wins.
* C88: a field promoted from an embedded struct literal reads as the empty string; unnamed operands, such as method calls, all become `{path}`, so a path can name one parameter twice.
* C89: `func Adapt(h Handler) http.Handler`, whose `Handler` is a type of its own package, is taken for
  middleware: the parameter type is recorded as written, without a package, and only packages that are both known
  are compared (`C89_adapter_refuted`).
* C89: a nested call given two handlers counts as no handler, so an argument next to it is taken though the call as
  a whole has three (`C89_nested_guess_refuted`).
* C89: nine layers of middleware are not looked through (`C89_deep_refuted`).
* C90: in `r.Post("/items", auth(create))` the request body read by `create` is lost: the argument that names it is
  two levels below the registration and is neither a call nor a conversion (`C90_wrapped_refuted`).
* C90: a function that shares only its name with the method called is taken for an implementation of it, so the
  body of another handler can count (`C90_same_name_refuted`); a link of a chain counts wherever it is written
  (`C90_chain_refuted`).
* C90: a body that does not count still registers its types, so they are emitted as components
  (`C90_components_refuted`).
* C90: a router of the program's own that builds the route by a chain in its body: the links of that chain complete
  the outer route, which the comment on completesSameRegistration means to prevent (`C90_house_router_refuted`).
* C91: a program whose first recorded call is a method of a converted value, `time.Duration(n).String()` or
  `http.HandlerFunc(h).ServeHTTP(w, r)`, makes the analysis index an empty call graph at -1 and panic
  (`C91_ends_refuted`). Later in the program such a call gets the edge recorded before it as its chain parent, whatever it
  is (`C91_conversion_refuted`).
* C91: the visitor keeps the last assignment until a call uses it, so in `x := y` followed by `foo()` the call of
  `foo` is recorded as assigned to `x` (`C91_pending_refuted`). Of `r, err := newRouter()` the name kept is `err`
  (`C91_first_name_refuted`). In `x := a.B().C()` the call of `B` is recorded as assigned to `x` too, and comes
  first (`C91_inner_assigned_refuted`).
* C91: `chi.NewRouter().Get(...)` is recorded as called on a variable `chi` (`C91_package_variable_refuted`); two
  calls of one method in a chain share their ID (`C91_same_method_refuted`).
* C92: `func routes(r chi.Router) { r = r.With(mw); r.Get("/a", h) }` called as `routes(chi.NewRouter())`: both calls
  belong below `r.With`, which is listed below itself only, so no registration of the function is in the tree
  (`C92_reassigned_refuted`).
* C92: `v := chi.NewRouter(); routes(v); routes(chi.NewRouter())`: the registrations of `routes` are below the first router
  only, and nothing is below the second (`C92_second_router_refuted`).
* C92: a function that returns a closure and makes any call of its own before loses the closure's calls
  (`C92_closure_refuted`).
* C92: the generics filter asks for the node's types among the call's, the reverse of its comment: a call with type
  arguments of its own, or with some of the node's, is not listed (`C92_generics_refuted`).
* C92: of two calls with one ID (C91) only the first is listed (`C92_same_id_refuted`).
* C93: in `r.Handle("/x", &Handler{}).Methods("PUT")` the handler argument has no package, so the route has none and the
  next link starts it again: path and handler are lost (`C93_chain_refuted`; `C93_kept_iff` and `C93_package` say when).
* C93: gorilla's `.Methods("GET", "POST")` keeps the first verb only, because its pattern has no MethodFromArg
  (`C93_verbs_refuted`).
* C93: patterns that leave MethodArgIndex at 0 read the path argument as a verb if it is one: `HandleFunc("trace", h)`
  (`C93_path_verb_refuted`).
* C93: chi's pattern accepts every name that ends in a verb, such as `Widget`; the default verb is then marked as
  explicit (`C93_default_refuted`).
* C94: with `func Outer[T any](r *http.Request) T { return inner[T](r) }` and `func inner[T any](r *http.Request) T { var v T;
  json.NewDecoder(r.Body).Decode(&v); return v }` the binding of the inner call is T to T, the nearest one wins, and
  traceGenericOrigin does not end: the tool hangs (`C94_same_name_refuted`). So it does for `h[B, A]` in a function of
  parameters A and B (`C94_swap_refuted`). Read from the code; not run.
* C94: `inner[[]T]` is documented as a slice of T (`C94_composite_refuted`), and a response through two generic calls as the
  outer function's parameter, where a request body is followed to the end (`C94_response_refuted`).
* C95: a handler that is a method is no function of its package, so its interface-typed variables are looked up in the first
  function of the same name in any package: a method `Create` can be given the types of another package's `Create`
  (`C95_other_package_refuted`).
* C95: `a = Dog{}` and, on another branch, `a = load()` with an interface result: the second is skipped, and the body is
  documented as Dog alone (`C95_unknown_refuted`).
* C95: `Encode(&a)` gives alternatives when two types are assigned, but keeps the bare interface when one is; `Decode(&a)`
  narrows (`C95_address_refuted`).
* C96: `h := r.Header; h.Get("X"); h = w.Header()`: the last assignment of the function decides, so the request header read
  before it is dropped (`C96_later_refuted`).
* C96: `wh := w.Header(); h := wh; h.Get("X")`: the origin of a variable assigned from a variable is not followed, so a
  response header is documented as a request parameter (`C96_alias_refuted`).
* C96: a call with fewer arguments than the naming index is documented with an empty name, which OpenAPI does not allow
  (`C96_nameless_refuted`).
* C96: the receiver a call was written against (SetWrittenRecvType) is recorded by tests only, so recvForms never has two forms
  in a real run. This is read from the code, not a theorem.
* C97: any argument whose text ends in a dot and a number states a status, `1.5` the status 5 (`C97_range_refuted`); nothing
  checks that a status is one HTTP has, so it is documented as such (`C98_range_refuted`).
* C98: `status := http.StatusCreated; w.WriteHeader(status)`: a variable needs two assignments to be followed, so the status is
  left open (`C98_once_refuted`); two assignments of one status are lost too (`C98_same_refuted`).
* C98: a helper that assigns its status parameter in two branches loses the status the caller passes, which the
  remaining branch answers with (`C98_passed_refuted`).
* C98: a branch that states -1 and one that states nothing give two responses of one status (`C98_minus_one_refuted`).
* C99: the keys a handler reads are compared with the placeholders of the route's own path only; a key of the path its router
  is mounted at is reported, in a diagnostic that prints the joined path with that placeholder (`C99_mount_refuted`).
* C99: a variable counts as the accessor's map if any assignment says so; a key read after it was given another map is
  reported, though the comment promises no false positives (`C99_reassigned_refuted`). Only assigned values
  are looked at, a key read in an argument or a return is not checked.
* C100: a literal of a package-level variable is in no declaration, so its calls have no parent function
  (`C100_parentless_refuted`) and its assignments are recorded nowhere.
* C101: `var body Shape = Circle{}` is recorded in a function, not in a method (`C101_var_refuted`); of `var a, err = f()` the
  second name is lost, which `a, err := f()` keeps (`C101_tuple_var_refuted`); `code += 1` is recorded as `code = 1`
  (`C101_compound_refuted`).
* C102: a call's own assignments are those of the function it calls, so `err` in the callee hides the caller's `err`
  (`C102_same_refuted`); the comment of assignmentsAt says both maps record the same and calls it a fast path.
* C102: latestAssignment takes the last assignment of the function, also one behind the call (`C102_latest_refuted`).
* C102: at a call directly in a method its own assignments are not visible, but those of a function of the same name in any
  package are (`C102_method_refuted`); only calls in literals fall back to methods.
* C103: posCache is keyed by position only: once a position of one file set is cached it is answered for another file set that
  does not have it (`C103_other_set_refuted`).
* C103: stableFilename cuts behind any `pkg/mod/`, also that of `billing/mypkg/mod/h.go` outside of the module, so closures at
  the same line and column of two such files share a name (`C103_collision_refuted`); a file of the module under `..gen/` is
  taken to be outside (`C103_dots_refuted`).
* C104: `Do[int](a, b)` of `Do[A, B]` records A only, though the inferred B is in Instances (`C104_partly_refuted`); `(Do)(a)`
  records nothing, though its instance has a case of its own (`C104_paren_refuted`); `Use(m1, m2)` of `Use(mw ...M)` records
  m1 only (`C104_variadic_refuted`); two unnamed parameters share the key "" (`C104_unnamed_refuted`); `T.Get(recv, id)` puts
  recv under id (`C104_method_expression_refuted`).
* C104: in `Respond(List[User](db))` with a T in both, the T of List becomes the T of Respond (`C104_inner_refuted`).
* C104: the fallback that is to infer type parameters from a function given as argument reads the argument's signature where the
  callee's is meant, so it infers nothing (`C104_no_instance`).
* C104: every typed argument of a generic call is marked generic, its resolved type reset, whatever its type
  (`C104_plain_refuted`), because of `exists || len(arg.TypeParamMap) > 0`.
* C105: refIssues looks at the references of the schemas an operation uses, not at those of the components they name: an
  operation whose component refers to a missing one is full and clean (`C105_transitive_refuted`).
* C105: the kind missing-body is read by classifyResolution and described, but nothing reports it (`C105_missing_body_refuted`).
* C105: 199 clean operations of 200 score 100 (`C105_score_refuted`); methods are counted in the types of the files and again in
  those of the package (`C105_functions_refuted`).
* C105: the issues of one operation come in map order, so two runs differ (`C105_order_refuted`); ambiguous interfaces of
  packages with one last segment overwrite each other by the order of packages (`C105_label_refuted`).
* C105: bodyResolution reads the description of a component that refIssues guards against being nil (`C105_nil_refuted`).
* C105: only an empty 2xx other than 204 counts as missing, so an empty 400 is "empty by design" and an empty 205, which may not
  have a body, is missing (`C105_design_refuted`).
* C106: middleware is carried by the caller, not the router: `admin.Use(auth)` guards the routes of `public` if both are in one
  function (`C106_router_refuted`), and a route registered before the `Use` (`C106_before_refuted`, which a comment admits).
* C106: `setup(r)` that calls `r.Use(auth)` guards none of the routes beside the call (`C106_helper_refuted`): the document says
  they are open.
* C106: callerKey has no receiver, so methods of one name share their middleware (`C106_caller_refuted`); a route visited again
  under one key and path keeps the middleware of the first visit (`C106_revisit_refuted`).
* C106: in `Handle("/x", Log(Auth(h)))` only Log is middleware (`C106_nested_refuted`).
* C106: `mw := h.auth(); Use(mw)` has no receiver where `Use(h.auth())` has one, so a mapping by receiver fails
  (`C106_variable_refuted`); `b := a; Use(b)` is b (`C106_alias_refuted`); a method's variable is looked up in a function of the
  method's name first (`C106_function_refuted`); from within a literal no variable of the function around it is found, unlike
  elsewhere (`C106_literal_refuted`).
* C106: a function literal as middleware is neither resolved nor reported (`C106_closure`). MiddlewareFromRecv is an option that
  nothing reads.
* C107: receiverTypeName returns the name of a field's type without its package, and the method is looked up in the handler's
  package: a type of the same name there documents the route (`C107_type_package_refuted`); otherwise it has no documentation.
* C107: the package is cut off as often as it stands in front, so in a package named like the type a method value is looked up as
  a function (`C107_same_name_refuted`).
* C107: the prose above annotations is dropped if there is a @Summary, and after its first sentence if not
  (`C107_lead_refuted`), though without a @Description it would be one.
* C108: methodLookupCache is keyed by package and method, but filled from the first file looked at, so with it a method declared
  in another file of the package is never found; metadata loaded from a file has no such cache and finds it
  (`C108_method_file_refuted`).
* C108: a package variable is answered in place of a local assignment of the same name (`C108_shadow_refuted`).
* C108: the argument is that of the first recorded call of a function of the name, whichever its receiver
  (`C108_receiver_refuted`, `C108_call_order_refuted`); `&x` as an argument is looked up as a variable of that name
  (`C108_address_refuted`); variables assigned to each other lose the value one of them had (`C108_circle_refuted`).
* C109: a route that lists `T` and `*T` with different schemas gets one or the other for `T` by the order in which Go ranges over
  the map (`C109_order_refuted`); `**T` marked before `*T` keeps `T` from being used (`C109_double_pointer_refuted`).
* C109: the component name replacer keeps the star, so a used type `*T` gets a component `*T`, a copy of that of `T` under a name
  OpenAPI does not allow (`C109_pointer_refuted`).
* C109: generateSchemas reads the constraint of a type parameter as the second part of `package.T-constraint` between dashes, which
  is another text if the package's path has a dash (`C109_dash_refuted`). The `continue` in its loop over ExternalTypes goes on with
  that loop only; it does no harm, as the placeholder does not displace the component.
* C110: with `type Local Point` in package geo, a field `geo.Local` of a struct in package app is documented with `app.Point`:
  resolveUnderlyingType gives the bare target, which is then qualified with the struct's package (`C110_target_package_refuted`).
  The type's own component says `geo.Point` (`C110_target`).
* C110: a field `Status` of package app is looked up without a package, so an earlier package's `type Status int` makes it an int
  though app declares a struct of that name (`C110_own_package_refuted`).
* C110: a field `[3]Status` is documented as `string` and `*[]Status` as `*string` if Status is declared as string: the lookup goes
  through arrays and slices, and only the outermost marker is put back (`C110_array_refuted`, `C110_pointer_slice_refuted`,
  `C110_inner_refuted`). `type Status (string)` is of kind other and not resolved (`C110_paren_refuted`).
* C111: a struct that embeds `Base` of its own package records it without a package, and findType gives nothing without one, so
  promoted fields are found only through other packages (`C111_same_package_refuted`); likewise `u.Home.City` where `Home` has a type of
  its own package (`C111_nested_refuted`).
* C111: the embedded types are searched depth first, so with `A` (which embeds `C` with an `ID int`) before `B` with an `ID string`,
  the field `ID` is taken to be an int, where Go selects B's (`C111_depth_refuted`). The comment at field_resolver.go 127-131 says
  one level; the code has no limit.
* C111: the base type `app.Page[m.User]` is split at the last dot, inside the brackets (`C111_generic_refuted`).
* C112: extractedRouteIDs has the mount path and the call site but not the middleware, so a site met again under the same mount with an
  auth middleware is skipped, and the route is documented without it; in the other order it is documented with it
  (`C112_security_refuted`). The comment at extractor.go 930-933 says a repeated visit is identical.
* C113: a struct `ulid.ULID` of the module itself is documented as a string if a field of the third-party `ulid.ULID` (a text marshaler)
  was seen: its full name has no fact, and the short name has the other's (`C113_namesake_refuted`). Of two third-party types of the
  same short name the later field decides (`C113_short_name_refuted`).
* C113: isExternalPackage compares text, so with module `ex.com/app` the package `ex.com/application` is internal
  (`C113_prefix_refuted`); its comment says the standard library is not external, but `net/netip` is (`C113_standard_refuted`).
* C113: the worker has no case for go/types aliases, which Go 1.26 always has, nor does it look at type arguments, so a field
  `ID` with `type ID = ulid.ULID`, or `Page[ulid.ULID]`, records nothing of ULID (`C113_alias_refuted`, `C113_argument_refuted`).
* C114: the checksum has 32 bits, so keys do collide: packages `g/a-b_c~d-e_f.g-h.i~j` and `g/a-b.c~d~e~f.g_h.i_j` give the same key for a
  struct at the same position of a file of the same name (`C114_collision_refuted`); the comment at metadata.go 922-933 says never.
* C115: the map branch (mapper.go 2983) looks for `map[` anywhere in the text and comes before the branch for anonymous structs, so
  `struct{Name string; Tags map[string]string}` is documented as a map whose values are that struct, and `struct{M map[int]string}` as any object
  (`C115_map_refuted`).
* C115: an embedded field with a json name, which json writes under that name, is dropped (`C115_tagged_refuted`), and so are the fields it promotes.
  An embedded `App.Page[struct{A int}]` becomes a property `App.Page[struct{A` of type `int}]` (`C115_generic_refuted`).
* C116: `findAssignmentFunction` never reads the value assigned: it returns the first call among the arguments of the edge that happens to carry
  the assignment (`C116_value_refuted`). Only one wrapper is looked through (`C116_wrapped_refuted`), and any call given a router counts as a
  wrapper, so `Handle("/docs", swagger(api))` is a mount and not a route (`C116_given_refuted`). A `pathArgIndex` below zero panics, while a
  `routerArgIndex` below zero is checked (`C116_panic_refuted`). `RouterFromArg` is never read, so a pattern that sets it to false still takes
  the argument at index 0 for the router.
* C117: `ID` caches its first non-empty text, so type parameters that reach the edge later never show (`C117_stale_refuted`): which identifier an
  argument has depends on when it was first asked. Selectors and pointers name the type and not the variable, so without positions `users.Get`
  and `orders.Get` are one (`C117_distinct_refuted`). Positions in the module cache hold an `@`, at which identifiers are cut
  (`C117_position_refuted`).
* C118: the filter on instances asks for the node's types among the callee's. The comment wants the opposite: callees whose types are not bound
  at the node are to go. So `Store[K=string,V=User]` does not reach `Load[V=User]` (`C118_bound_refuted`), while `Load[V=User]` reaches
  `Store[K=string,V=User]` (`C118_unbound_refuted`). The expression for the brackets ends at the first `]`: every slice is read as `[`, so
  `Decode[T=[]User]` and `Read[T=[]Order]` go together (`C118_slice_refuted`). `Pair[int,string]` is read as two types (`C118_comma_refuted`), and
  types are not compared by parameter (`C118_names_refuted`).
* C119: what is taken for an interface in a struct literal is any field given a literal of a type named without a dot, so plain structs are
  registered (`C119_struct_refuted`) and implementations of other packages are not (`C119_qualified_refuted`). The key is the name of the field and
  not of the interface (`C119_name_refuted`), and of two implementations the literal seen last wins (`C119_two_refuted`). The map is not saved, so
  with metadata read from a file nothing is resolved (`C119_loaded`).
* C120: where two types of a package have a method of the operation's name, the order of a map decides which is taken for the handler
  (`C120_order_refuted`). A method without calls and literals of its own is given the literal of a method further down
  (`C120_other_literal_refuted`). A package such as `gopkg.in/api.v3` is cut at the dot of its last element (`C120_dotted_refuted`).
* C110: resolveUnderlyingType of a map writes the target of the value's type for the key as well: `map[int]geo.Status` becomes
  `map[string]string` (`C110_map_refuted`).

## Seeded bugs

`seeded/LOG.jsonl` has one line per wrong program tried: the definition edited,
the edit, the claim it breaks, the theorems that no longer prove, and the
theorems added or tightened when it survived.  Survivors left as they are carry
a note saying why the edit breaks no claim.
