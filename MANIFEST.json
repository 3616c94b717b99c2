{"claims": [
 {"property": "C01", "status": "proved", "theorems": ["C01_ordering_is_permutation"], "note": ""},
 {"property": "C02", "status": "partial", "theorems": ["C02_dependencies_first_partial", "C02_inline_refuted"], "note": "Proved for spreads nested in fields at any depth. False for spreads inside inline fragments (refuted with a witness): the dependency search does not enter inline fragments."},
 {"property": "C03", "status": "partial", "theorems": ["C03_self_contained_partial", "C03_unknown_partial", "C03_incomplete_refuted", "C03_rejected_refuted"], "note": "Holds when spread names consist of letters only and no other lexeme looks like a spread; the search pattern [a-zA-Z]* misreads names with digits or underscores, so the claim is false in general: a document can be incomplete, and a valid document can be rejected. graphql-core's parse/print is an assumption on add_typename_str for the fragments of the document."},
 {"property": "C04", "status": "proved", "theorems": ["C04_terminates", "C04_nothing_unrelated"], "note": "For every text and registry; add_typename_str (graphql-core parse and print) is arbitrary."},
 {"property": "C05", "status": "partial", "theorems": ["C05_typename_requested_partial", "C05_inline_refuted", "C05_alias_refuted"], "note": "Proved for all selection sets not below an inline fragment, with order preservation and idempotence. False below inline fragments and when __typename is aliased (both refuted with witnesses)."},
 {"property": "C06", "status": "proved", "theorems": ["C06_snake_case_normal_form"], "note": ""},
 {"property": "C07", "status": "proved", "theorems": ["C07_names_never_reserved", "C07_names_stay_identifiers"], "note": ""},
 {"property": "C08", "status": "proved", "theorems": ["C08_input_fields", "C08_object_fields", "C08_response_field", "C08_operation_fields", "C08_argument_fields"], "note": "Wire name = alias or attribute name, for the four generators of GraphQL fields. The arguments theorem needs stylers that do not map a type name to the empty string. About annotated attributes; which of them pydantic takes for fields is C53."},
 {"property": "C09", "status": "partial", "theorems": ["C09_operations_partial", "C09_fragments_partial", "C09_objects_partial", "C09_inputs_partial", "C09_object_type_partial", "C09_input_type_partial", "C09_operation_root_partial", "C09_snake_refuted", "C09_keyword_refuted", "C09_typename_refuted"], "note": "False as stated. Proved for every generated class (also nested ones): with shipped stylers a shared attribute needs names equal up to case and underscores; without field styling only keyword/escaped keyword and __typename/typename clash. Refuted by fooBar/foo_bar with the default styler, class/class_ without stylers, a response key typename."},
 {"property": "C10", "status": "partial", "theorems": ["C10_style_partial", "C10_enums_partial", "C10_inputs_partial", "C10_objects_partial", "C10_schema_partial", "C10_operations_partial", "C10_fragments_partial", "C10_capital_refuted", "C10_kinds_refuted", "C10_base_refuted", "C10_nested_refuted", "C10_fragment_refuted"], "note": "False in general (five refutations: letter case, enum against input, interface base class, nested class against operation, fragment against operation). Proved: classes of enums, inputs and objects are distinct, per plugin and across the three plugins, for names that do not start in lower case or end in an underscore; operations of a kind and fragments with equal names make generation fail."},
 {"property": "C11", "status": "partial", "theorems": ["C11_operation_partial", "C11_fragment_partial", "C11_case_refuted", "C11_concat_refuted", "C11_union_refuted", "C11_base_refuted"], "note": "False as stated. Proved for selections of any depth: all classes of an operation (or of a fragment on an object type) have distinct names if, in every selection set, the keys of composite fields differ in more than case, start with a letter and are not 'base', and unions are selected by spreads only. Refuted without each of these."},
 {"property": "C12", "status": "partial", "theorems": ["C12_input_field_partial", "C12_input_classes_partial", "C12_inputs_module_partial", "C12_helper_enum_refuted"], "note": "Proved for every type expression, styler chain and configuration as long as no enum of the schema is named like a helper class turms emits itself; refuted without that restriction."},
 {"property": "C13", "status": "partial", "theorems": ["C13_objects_partial", "C13_helper_enum_refuted"], "note": "Exact for every object and interface field, except enums named like one of turms' own helper classes, for which the property is false."},
 {"property": "C14", "status": "partial", "theorems": ["C14_response_field_partial", "C14_union_refuted"], "note": "Exact for every response field at any depth except a nullable union field whose selection has one alternative, for which Optional is lost (refuted)."},
 {"property": "C15", "status": "partial", "theorems": ["C15_annotation", "C15_label_partial", "C15_label_refuted"], "note": "Annotations denote exactly the declared type; the printed label is their rendering except for built-in enums (refuted)."},
 {"property": "C16", "status": "partial", "theorems": ["C16_annotation_partial", "C16_label_partial", "C16_returns_partial", "C16_nonnull_refuted", "C16_alias_refuted"], "note": "Right for output types without non-null wrappers; any non-null wrapper crashes or loses a list, and an aliased field gets different classes in annotation and docstring (both refuted). Over a whole run, a collapsed function returns the only attribute of the result class and is annotated like that attribute; others return the result class."},
 {"property": "C17", "status": "partial", "theorems": ["C17_config_entries_partial", "C17_inputs_partial", "C17_objects_partial", "C17_operations_never", "C17_operations_refuted", "C17_fragment_names_refuted", "C17_interface_fragment_refuted"], "note": "The configuration of a class is exactly what the options ask for, given the kind and name the caller passes; lifted to every class of the input plugin and of the objects plugin, where kind and name are the right ones. Missing, and refuted: operation classes are frozen under no configuration (two different enums are compared; C17_operations_never), classes of fragments ignore the include and exclude lists, classes of interface fragments get no configuration."},
 {"property": "C18", "status": "proved", "theorems": ["C18_referenced_inputs_exact", "C18_terminates", "C18_variables_succeed"], "note": ""},
 {"property": "C19", "status": "partial", "theorems": ["C19_selected_enums_partial", "C19_nested_inline_refuted", "C19_root_inline_refuted"], "note": "Proved for documents whose inline fragments are not directly nested and not at the root of an operation; refuted for both of these."},
 {"property": "C20", "status": "partial", "theorems": ["C20_inputs_partial", "C20_underscore_refuted", "C20_union_member_refuted", "C20_plugin_order_refuted"], "note": "Proved for every module of the enum and input plugins (any schema, stylers, set order, configuration with force_plugin_order) in which no input type is left out although a generated class has a field of it. The exceptions are refuted: input types skipped for a leading underscore, field types of union members that no document mentions, and skipped enums with force_plugin_order off are quoted but never defined."},
 {"property": "C21", "status": "partial", "theorems": ["C21_inputs_partial", "C21_functions_partial", "C70_schema_partial", "C21_function_refuted", "C21_interface_refuted"], "note": "Proved for modules of the enum and input plugins under the conditions of C20, with the object plugin under those of C70, and for client modules with or without functions under those of C60 (there: the rebuilt name is bound above). Refuted for the function plugin: expanding an input with a field whose input type has no class emits SHOULD_NOT_BE_USED.model_rebuild(); and with the enum plugin after the operation plugin: the selection of an interface with an enum field rebuilds a name without class."},
 {"property": "C22", "status": "partial", "theorems": ["C22_imports_partial", "C22_bindings_partial", "C22_same_name_refuted", "C22_builtin_refuted", "C22_shadowed_refuted"], "note": "Every request is imported exactly once and nothing else, in every set order; seven builtin types are never imported; with pairwise distinct last components each name is bound to the requested object. Refuted: equal last components, other builtin types (import bytes), and a generated class taking an imported name."},
 {"property": "C23", "status": "partial", "theorems": ["C23_documents_listing_order", "C23_order_partial", "C23_forward_references", "C23_imports_refuted"], "note": "Document loading does not depend on listing order, forward references are sorted, and two set orders give the same module up to order of imports and helper blocks. Refuted for the text: import order follows set iteration order."},
 {"property": "C24", "status": "partial", "theorems": ["C24_oneof_partial", "C24_invalid_oneof_rejected", "C24_union_element_refuted", "C24_alias_member_refuted"], "note": "Proved for referenced oneOf inputs that are not members of a union; the emitted serializer is evaluated. Refuted for oneOf inputs that are union elements and for members that are union aliases. Names that pydantic does not take for fields are the subject of C53."},
 {"property": "C25", "status": "partial", "theorems": ["C25_unions_partial", "C25_shared_key_refuted", "C25_duplicate_discriminator_refuted"], "note": "Literals, member list and common discriminator proved. Two members sharing a key are accepted (refuted) and a renamed discriminator is emitted twice (refuted)."},
 {"property": "C26", "status": "partial", "theorems": ["C26_signature", "C26_distinct_partial", "C26_refuted"], "note": "Order and number of defaults proved for every operation. Parameters are distinct exactly when their sources (extra parameters, variables, expanded fields) are; nothing ensures that (refuted: expanded field and variable of the same name)."},
 {"property": "C27", "status": "partial", "theorems": ["C27_sends_partial", "C27_payload", "C27_refuted"], "note": "Proved for every call, under the hypothesis that parameter names do not clash with the local dictionaries or the globals used; refuted for a variable named variables."},
 {"property": "C28", "status": "partial", "theorems": ["C28_parameters_partial", "C28_object_partial", "C27_sends_partial", "C28_refuted", "C28_nullable_refuted"], "note": "Proved for required variables; a list of inputs gives a function that always fails, a nullable input makes generation fail (both refuted)."},
 {"property": "C29", "status": "proved", "theorems": ["C29_variants"], "note": "For definitions with the same kind and extra parameters, within one plugin run."},
 {"property": "C30", "status": "partial", "theorems": ["C30_factory_partial", "C30_refuted"], "note": "Proved under the hypothesis that no field parameter is named data or hides the class or sentinel; refuted for a field named data."},
 {"property": "C31", "status": "partial", "theorems": ["C31_enum_classes_partial", "C31_members_partial", "C31_succeeds", "C31_reserved_value_refuted"], "note": "Classes, order, values and skipping proved; Python creates the class when value names are ordinary. Refuted for values named like Python keywords."},
 {"property": "C32", "status": "proved", "theorems": ["C32_defaults_survive"], "note": "By evaluating the emitted expression with a Python interpreter."},
 {"property": "C33", "status": "partial", "theorems": ["C33_defaults_partial", "C33_boolean_refuted", "C33_unsupported_refuted"], "note": "Integers, floats (identified with their text), strings and null. False for booleans (always False) and for list, object and enum literals (NotImplementedError)."},
 {"property": "C34", "status": "proved", "theorems": ["C34_argument", "C34_arguments_class"], "note": "Stylers must not map a type name to the empty string. About annotated attributes; which of them pydantic takes for fields is C53."},
 {"property": "C35", "status": "partial", "theorems": ["C35_merge_partial", "C35_header_refuted", "C35_kind_refuted", "C35_line_refuted", "C35_member_kind_refuted"], "note": "Proved on concrete syntax trees when definitions of one name have the same kind: every existing statement is found again in order, functions and methods with their bodies, classes with all members, everything else is generated. False in general: header and footer comments of the module are dropped, a function with the name of a generated class becomes a class, other statements on the line of a generated field are lost, a method with the name of a generated field cannot be printed."},
 {"property": "C36", "status": "partial", "theorems": ["C36_count_partial", "C36_updated_partial", "C36_again_partial", "C36_import_refuted", "C36_class_refuted", "C36_again_refuted"], "note": "Proved: number of definitions of every name, generated signatures and members, merging again changes nothing if no generated class repeats a member. False in general: imports and assignments are never brought in, nested classes and bases of existing classes are not updated, repeated members change on the second merge."},
 {"property": "C37", "status": "partial", "theorems": ["C37_polyfill_partial", "C37_emitted_partial", "C37_version", "C37_lone_literal_refuted", "C37_asname_refuted", "C37_relative_refuted"], "note": "Proved for plain imports that import more than Literal. A generated module that only imports Literal from typing becomes invalid Python; 'as' names and leading dots are lost."},
 {"property": "C38", "status": "proved", "theorems": ["C38_stages_in_order", "C38_plugin_failure", "C38_parser_failure", "C38_processor_failure"], "note": "Stages are arbitrary functions; generate_code succeeds exactly when all stages run in order, and each kind of failing stage is reported by name."},
 {"property": "C39", "status": "partial", "theorems": ["C39_untouched_partial", "C39_written", "C39_exit_code", "C39_dump_refuted"], "note": "Holds for projects failing in generation. A project failing while dumping its schema has already overwritten its output (refuted)."},
 {"property": "C40", "status": "partial", "theorems": ["C40_failure_untouched_partial", "C40_output_destroyed_refuted"], "note": "gen passes a (code, schema) pair to file.write, so the output of every successfully generated project is emptied (refuted); failing projects are left alone."},
 {"property": "C41", "status": "proved", "theorems": ["C41_single_config", "C41_select", "C41_cli_select", "C41_loaded", "C41_loader"], "note": "Configuration file discovery, the loader a file is read with, and project selection."},
 {"property": "C42", "status": "partial", "theorems": ["C42_single_source", "C42_dict_of_urls", "C42_list_of_globs_partial", "C42_glob", "C42_glob_order", "C42_list_with_url_refuted", "C42_list_with_dict_refuted"], "note": "Single sources, dicts of URLs and lists of globs are right; lists containing a URL or a URL with options are not (refuted). A glob is read as all files it matches, in the order of their names, independent of the file system."},
 {"property": "C43", "status": "proved", "theorems": ["C43_rules_minus_omitted", "C43_unknown_rules_rejected", "C43_documents_validated", "C43_documents_rejected"], "note": "Rule selection, configuration validation and document loading."},
 {"property": "C44", "status": "partial", "theorems": ["C44_objects_partial", "C44_scaffold_partial", "C44_selections_partial", "C44_diamond_refuted", "C44_spread_order_refuted", "C44_spread_twice_refuted", "C44_union_base_refuted", "C44_interface_base_refuted"], "note": "Proved for the classes of object types and interfaces, client and server, if every interface has at most one direct parent. Proved for fragments and operations if fragments that become bases together have no common part, fragments on unions are spread on unions only, inline fragments of union selections spread fragments on object types only, and no type has additional bases. Refuted for interfaces with several parents in different orders, for a fragment spread before another one that contains it, for a fragment spread twice, for fragments on unions as bases, and for interface fragments spread in an inline fragment of a union selection."},
 {"property": "C45", "status": "partial", "theorems": ["C45_selection_partial", "C45_operation_partial", "C45_fragment_partial", "C45_nested_spread_refuted", "C45_object_fragment_refuted"], "note": "Proved for every selection of any depth, every operation and every fragment: fields, inline fragments and spreads directly in a selection set end in the class for the type. The full property is false: spreads inside inline fragments on an interface and inline fragments in fragments on objects get lost, with counterexamples. Names that pydantic does not take for fields are the subject of C53."},
 {"property": "C46", "status": "partial", "theorems": ["C46_dispatch_partial", "C46_type_name_refuted", "C46_typename_field_refuted"], "note": "Proved: each implementing type has exactly one class, which carries its inline fragments; any other type name goes to the catch-all class. pydantic's choice between union members is described in Spec_Dispatch. False for an implementing type called CatchAll and when an inline fragment selects something as typename."},
 {"property": "C47", "status": "partial", "theorems": ["C47_partial", "C47_optional_partial", "C47_default_refuted", "C47_self_refuted"], "note": "Order, count, defaults and annotations proved for every resolver; a nullable argument with a default is annotated as non-null (refuted), an argument named self gives two parameters of that name (refuted)."},
 {"property": "C48", "status": "partial", "theorems": ["C48_partial", "C48_off_refuted", "C48_on_refuted"], "note": "Order and presence proved for directives, enums, inputs and types; scalars follow the option for directives (refuted both ways)."},
 {"property": "C49", "status": "partial", "theorems": ["C49_one_dot_partial", "C49_watch_refuted"], "note": "Right for names with exactly one dot; wrong otherwise (refuted)."},
 {"property": "C50", "status": "proved", "theorems": ["C50_override_all_or_nothing", "C50_references_consistent"], "note": ""},
 {"property": "C51", "status": "partial", "theorems": ["C51_files_concatenate_partial", "C51_last_line_comment_refuted"], "note": "Files ending with a line break concatenate correctly; without it a trailing comment swallows the next file (refuted)."},
 {"property": "C52", "status": "partial", "theorems": ["C52_comments_partial", "C52_above_partial", "C52_counting", "C52_literal_refuted", "C52_second_hash_refuted", "C52_one_line_refuted", "C52_lines_above_refuted", "C52_unindented_refuted"], "note": "Proved for heads whose lines have a # only where a comment starts and at most one, whose first selection does not start a line, and without a comment on the line above; C52_above_partial is the case of a comment above. Missing: a # in a string makes the rest of the line documentation (C52_literal_refuted); of a comment with a second # only the end is kept (C52_second_hash_refuted); comments on the line of the first selection are ignored (C52_one_line_refuted); with graphql-core 3.2 the line above counts as part of the operation, but not the one above that (C52_lines_above_refuted), and the last comment is lost when the first selection starts a line (C52_unindented_refuted)."},
 {"property": "C53", "status": "partial", "theorems": ["C53_operations_partial", "C53_fragments_partial", "C53_objects_partial", "C53_inputs_partial", "C53_private_refuted", "C53_described_refuted", "C53_selected_refuted", "C53_protected_refuted"], "note": "Proved for names without a leading underscore that are not, up to case and underscores, names of BaseModel's protected members; names with a leading underscore always become private attributes (except __typename). Refuted: an input field _eq is silently never sent; with a description, or selected as a nullable field, the class cannot be created; modelFields becomes model_fields. pydantic's rules are specified in Spec_Pydantic.v, not checked against an installation."},
 {"property": "C54", "status": "partial", "theorems": ["C54_functions_partial", "C54_list_default_refuted", "C54_spread_refuted", "C54_null_default_refuted", "C54_depth_refuted", "C54_typename_refuted", "C54_union_spread_refuted", "C54_builtin_enum_refuted"], "note": "All functions are generated, in order and with the expected names, for valid documents under the conditions of C59 and supported_functions. Refuted: list and null default values, a fragment spread as only root selection, a variable as argument three levels down, a collapsed selection of __typename only, a collapsed spread of an interface fragment on a union, a collapsed enum called like a built-in."},
 {"property": "C55", "status": "partial", "theorems": ["C55_types_partial", "C55_inputs_partial", "C55_directives_partial", "C47_default_refuted", "C55_id_refuted"], "note": "Types of fields, input fields, directive arguments and resolver arguments without default are read back as in the schema; refuted for nullable arguments with a default and for ID, which becomes str like String."},
 {"property": "C56", "status": "partial", "theorems": ["C47_partial", "C55_directives_partial", "C56_inputs_refuted", "C56_null_refuted"], "note": "Defaults of resolver arguments and non-null defaults of directive arguments are kept; refuted for input fields and null."},
 {"property": "C57", "status": "partial", "theorems": ["C57_attribute_partial", "C57_parameter_partial", "C57_unstyled_partial", "C57_types_partial", "C57_inputs_partial", "C57_under_refuted", "C57_acronym_refuted", "C57_keyword_refuted", "C57_merged_refuted"], "note": "True exactly for camel case without keywords, among names without underscore. False otherwise: no name= keyword is generated, so first_name is published as firstName, userID as userId, from as from_; userID and userId become one attribute. strawberry's to_camel_case is restated in Spec_Camel.v."},
 {"property": "C58", "status": "partial", "theorems": ["C58_scaffold_partial", "C58_schema_partial", "C58_interface_order_refuted", "C58_directive_enum_refuted", "C58_directive_scalar_refuted", "C58_scalars_off_refuted", "C58_skipped_enum_refuted", "C58_object_literal_refuted", "C58_unreferenced_enum_refuted", "C58_oneof_name_refuted"], "note": "Proved for whole runs under conditions on the schema: interfaces declared after those they implement, enums mentioned are generated, scalars known, directive arguments of known scalars, no object literals in applied directives, no @unionElementOf, distinct names of @oneOf wrapper classes, no documents. Refuted without them: eight valid schemas for which generation fails."},
 {"property": "C59", "status": "partial", "theorems": ["C59_documents_partial", "C59_anonymous_refuted", "C59_root_spread_refuted", "C59_inline_refuted", "C59_union_typename_refuted", "C59_union_fragment_refuted", "C59_inline_spread_refuted", "C59_fragment_name_refuted", "C59_default_refuted", "C59_scalar_refuted", "C59_underscore_refuted", "C59_unreferenced_refuted"], "note": "Proved for whole runs of the plugins for enums, inputs, fragments and operations, for every valid schema and valid document within the supported part (named operations that select fields, inline fragments on object types only and not inside of object types, scalar defaults, fragment names made of letters, scalars known, types of variables not skipped). Refuted without these conditions: eleven kinds of valid documents for which generation fails. The funcs plugin is not part of the run."},
 {"property": "C60", "status": "partial", "theorems": ["C60_client_partial", "C60_union_spread_refuted", "C60_object_bases_refuted", "C60_field_refuted", "C60_member_refuted", "C60_helper_name_refuted", "C60_functions_partial", "C60_kwarg_refuted", "C60_coercible_refuted"], "note": "False in general: a fragment on an interface spread in a selection of a union, a styled fragment spread in an inline fragment of a union fragment, object bases with configured operation bases, Field in Arguments only, and a variable of an enum named like a helper class lead to names that nothing binds. Proved for all other documents with force_plugin_order, fragments spread outside of inline fragments, and enums that are not left out. C60_functions_partial adds the function plugin: annotations and defaults of the generated functions; additionally refuted by a keyword argument configured with default None (Optional is not imported) and by a coercible input that is not an input type."},
 {"property": "C61", "status": "partial", "theorems": ["C61_responses_partial", "C61_union_refuted", "C61_null_refuted", "C61_skip_refuted", "C61_inline_refuted", "C61_names_refuted"], "note": "Proved at the level of the generated module for documents that are readable (Spec_Response.readable_document): every member of a selected union is told apart, a union that may be null has two alternatives, objects behind interfaces are asked for __typename, non-null fields and fragments carry no @skip/@include, class names are distinct, extra keys are not forbidden, pydantic takes every attribute for a field (C53). Each of the first five conditions is necessary: a valid document, a conforming response and the proof that the generated class does not take it are given per condition (_refuted). Not covered: fragments spread in inline fragments only (their order is C01's gap)."},
 {"property": "C62", "status": "partial", "theorems": ["C62_input_values_partial", "C62_default_refuted", "C62_attributes_refuted", "C62_private_refuted"], "note": "For every module with the enum and the input plugin: each non-null valid value of an input type can be held by its class and serialised from it, and, if defaults are on nullable fields, only valid values are. Server-side validity and pydantic's serialisation are specified in Spec_Values.v. Missing: non-null fields with a default (refuted: None can be sent), colliding attribute names (refuted), names with a leading underscore or of members of BaseModel (refuted; see C53), unions of input types, types that are skipped by their name."},
 {"property": "C63", "status": "partial", "theorems": ["C63_valid_python_partial", "C63_stylers", "C63_function_name_refuted", "C63_parameters_refuted", "C63_expanded_refuted", "C63_enum_value_refuted", "C63_helper_name_refuted", "C63_config_refuted", "C63_interface_refuted", "C63_self_refuted", "C63_directive_enum_refuted", "C63_directive_name_refuted", "C63_scalar_name_refuted"], "note": "For the seven client plugins and the server plugin in any order. Conditions (Spec_Syntax.v, Spec_Syntax2.v, Spec_Syntax3.v): names of the schema and documents are GraphQL names, configured paths are Python paths, stylers make names of names (proved for those of turms), functions have distinct parameters and no keyword as name. Missing, because refuted: operations whose function is called like a keyword, colliding parameters, enum values called like keywords, variables of a type called like a helper class, additional_config repeating a keyword, an interface called None. For the server plugin also missing: a field argument called self, an enum value in an applied directive, directives and scalars called like keywords. The checks of CPython's compiler are restated in Spec_Syntax.v."},
 {"property": "C64", "status": "partial", "theorems": ["C64_names_partial", "C64_references_partial", "C64_bases_refuted", "C64_directive_off_refuted", "C64_introspection_refuted", "C64_inputs_off_refuted", "C64_hidden_refuted"], "note": "Both statements are proved for schemas whose applied directives are declared and generated, whose types do not implement themselves, without base classes for input types, and (for quoted references) when no type is left out that a generated type refers to. Missing: base classes configured for input types are never imported (C64_bases_refuted); directives switched off but applied (C64_directive_off_refuted); enums switched off and an introspection enum in use (C64_introspection_refuted); inputs switched off or hidden types in use (C64_inputs_off_refuted, C64_hidden_refuted). Values of enums in applied directives are not Python at all (C63_directive_enum_refuted)."},
 {"property": "C65", "status": "partial", "theorems": ["C65_documents_partial", "C65_gql_partial", "C65_rath_partial", "C65_strawberry_partial", "C65_rath_refuted"], "note": "Proved under client_ready, functions_ready and server_ready of Spec_Templates.v: names are ASCII, scalars are those the configuration knows, selections are flat and names of classes do not clash (the conditions of C54, C58, C59, C60, C63 and C64 for these configurations; C65_ex and C65_strawberry_ex meet them). C65_rath_refuted: the functions of the rath template have a keyword argument annotated Optional[Rath], and the module does not import Optional if nothing in the document is nullable. The YAML file in between is not modelled."},
 {"property": "C66", "status": "partial", "theorems": ["C66_sdl_partial", "C66_introspection_partial", "C66_file_partial", "C66_object_refuted", "C66_errors_refuted"], "note": "Holds completely for SDL and for files. For introspection the result is right for every server, and failures are generation errors if the answer is a JSON object. C66_object_refuted: other JSON (null, a number, an array) raises TypeError. C66_errors_refuted: an answer with data and an empty list of errors is rejected. HTTP, JSON and decoding are parameters."},
 {"property": "C67", "status": "partial", "theorems": ["C67_download_partial", "C67_failure_partial", "C67_init_partial", "C67_stops_refuted"], "note": "Proved if all schemas can be loaded, and up to the first one that cannot (reported, the ones before it are written, nothing else changes). C67_stops_refuted: projects after a failing one are not downloaded."},
 {"property": "C68", "status": "partial", "theorems": ["C68_command_partial", "C68_ruff_partial", "C68_lines", "C68_disclaimer_partial", "C68_repeated_partial", "C68_again_refuted"], "note": "Programs: completely, with execution and shlex.split as parameters; black and isort run in process and are not modelled. Disclaimer before merge (the order of the starter template): stable from the first merge on, on parsed modules and under the conditions of C36. C68_again_refuted, C68_repeated_partial: with the disclaimer after the merge every run adds another one."},
 {"property": "C69", "status": "partial", "theorems": ["C69_gen_partial", "C69_output_partial", "C69_schema_refuted"], "note": "Proved for projects that dump neither schema nor configuration, for the output if it can be written and generation does not read it (no merge processor). C69_schema_refuted: watching does not dump the schema that gen dumps. Which changes are noticed is C49."},
 {"property": "C70", "status": "partial", "theorems": ["C70_schema_partial", "C70_objects_partial", "C70_underscore_refuted", "C70_styled_refuted"], "note": "Proved, including the rebuilds at the end, if no type is left out while a field of a type that is not has its values, and interfaces that fields have are not renamed by a styler (no shipped styler renames them). Refuted without either: skip_underscore leaves a quoted name unbound; the union of an interface takes the name of the schema while fields quote the styled one."},
 {"property": "C71", "status": "partial", "theorems": ["C71_selections_partial", "C71_objects", "C71_inputs", "C71_union_fragment_refuted", "C71_union_spread_refuted", "C71_first_refuted"], "note": "Proved for fragments and operations together, if no fragment on a union is spread on an object type and no fragment is on a union whose members have traits; proved without conditions for object and input types. Refuted otherwise: the classes of a fragment on a union do not have the traits of the members; a class that spreads such a fragment has none. 'Traits are prepended to the base list' is refuted for classes of implementing types: the generated base class comes first."},
 {"property": "C72", "status": "partial", "theorems": ["C72_calls_partial", "C72_event_refuted", "C72_expanded_refuted", "C72_tags_refuted", "C72_no_operations_refuted"], "note": "Proved for modules of any of the plugins in any order, if expanded variables are required ones, an operations plugin runs when a funcs plugin does, and neither the class of an operation, the proxy nor the sentinel has the name of a local variable of the function (event, _variable), nor an input class that of a local variable of the serializer of unions. Each condition is needed: a subscription called event, an expanded variable of a nullable type, an input type called tags and functions without operations are refutations."},
 {"property": "C73", "status": "partial", "theorems": ["C73_options_partial", "C73_documented", "C73_isolation_partial", "C73_reload", "C73_dump_refuted", "C73_include_refuted", "C73_enabled_refuted", "C73_section_variable_refuted"], "note": "Proved for all general options, for the sections if none of 15 variables without prefix is set, and that only TURMS_ variables and these 15 matter. The 15 are read because FreezeConfig and OptionsConfig set no prefix (INCLUDE, ENABLED, TYPES, ...) and schema has an alias: a variable INCLUDE, as compilers on Windows use, makes every file fail that does not set include in both sections. No project written by dump_configuration loads, since schema is written as schema_url. The theorems are about the loaded JSON; the conversion of the freeze and options sections into the records the generator uses (to_freeze, to_options in Settings.v) is covered by examples only, and two wrong versions of it (include and exclude exchanged, orm_mode and use_enum_values exchanged) were not caught."},
 {"property": "C74", "status": "partial", "theorems": ["C74_variable_values_partial", "C74_default_refuted"], "note": "Every accepted mapping can be serialised; only accepted ones are, if non-null variables and input fields have no defaults and no undeclared fields are allowed. Variables must become distinct public attributes; enum and input types of variables must not be configured as scalars or collide with the helper classes of oneOf types. Refuted in general: a variable $size: Int! = 3 becomes Optional and can be sent as null, which servers reject. Unions of input types and attributes that hide class names in the class body are not covered."},
 {"property": "C75", "status": "partial", "theorems": ["C75_client_partial", "C75_functions_partial", "C75_schema_partial", "C75_date_refuted", "C75_builtin_refuted", "C75_variable_refuted", "C75_alias_refuted", "C75_enum_refuted"], "note": "Nothing is hidden if no field with a value is called like a Python type of a scalar or like something the module binds (and C60 or C70 applies). Refuted in general: annotations are evaluated eagerly in the class body, after the value of the field is bound, so `date: Optional[date] = None` (scalar Date mapped to datetime.date), `int: Optional[int] = ...`, an aliased `date: date = Field(alias=\"Date\")` and, without stylers, `Color: Optional[Color] = ...` do not mean the type; fields further down are affected too."},
 {"property": "C76", "status": "partial", "theorems": ["C76_options_partial", "C76_functions", "C76_python_version", "C76_command", "C76_documented", "C76_isolation_partial", "C76_parser_refuted", "C76_variable_refuted", "C76_command_refuted", "C76_prefix_refuted", "C76_capitalize_refuted"], "note": "Holds for the eight plugins, and for stylers and processors with variables that have no prefix. Refuted in general: the documented parser turms.parsers.polyfill.PolyfillPlugin does not exist (the class is PolyfillParser); stylers and processors read variables without prefix (FORMAT, FIX, COMMAND, APPEND_QUERY, ...) and no TURMS_ variable reaches them; CapitalizeStyler accepts options that do not exist."},
 {"property": "C77", "status": "partial", "theorems": ["C77_documents", "C77_rath", "C77_gql", "C77_strawberry", "C77_documents_module_partial", "C77_gql_module_partial", "C77_strawberry_module_partial", "C77_variable_refuted"], "note": "Loading and the equality with the code of C65 hold for all schemas, documents and tools, if no variable that turms reads is set. The modules are valid and scoped under the conditions of C65 (for rath see C65_rath_refuted). Refuted without the condition on the environment: with a variable EXTRA set, which is not a variable of turms, the starter file of the template documents does not load."},
 {"property": "C78", "status": "partial", "theorems": ["C78_operations", "C78_inputs", "C78_objects", "C78_fragments_partial", "C78_models", "C78_interface_refuted", "C78_scaffold_types_refuted", "C78_scaffold_inputs_refuted"], "note": "Proved from the entry of the plugin in the configuration to the classes, for operations, inputs, objects and fragments on object types and unions. C78_models: every class of fragments and operations inherits from a base class of the project, if the lists that replace object_bases are empty or contain it. That the base classes are imported is proved for operations, inputs and objects. Refuted: fragment_bases do not reach the classes of fragments on interfaces; types_bases of the strawberry plugin are never used, and its inputtype_bases are used but not imported."},
 {"property": "C79", "status": "proved", "theorems": ["C79_operations", "C79_fragments", "C79_functions", "C79_only", "C79_loaded"], "note": "C79_loaded: all projects of a file meet the condition of the other theorems. Parsing the files at a pattern is a parameter of the model."},
 {"property": "C80", "status": "partial", "theorems": ["C80_factories", "C80_every_partial", "C80_names_partial", "C80_snake", "C80_shadow_refuted", "C80_union_refuted"], "note": "C80_factories holds without restriction other than that the input types have different class names. Two parts of the statement are false in general: an input type named like the class of another one with an underscore appended loses its class to a factory (C80_shadow_refuted), and the factories of oneOf inputs and of unions of inputs call a type alias instead of a class (C80_union_refuted); C80_names_partial and C80_every_partial exclude these. With a snake case styler and capitalised input types no name is hidden (C80_snake)."},
 {"property": "C81", "status": "partial", "theorems": ["C81_builds_partial", "C81_members_partial", "C81_discriminator_refuted", "C30_refuted", "C80_union_refuted"], "note": "For input types that become classes, members of unions included (C81_members_partial), and factories whose parameters do not clash with the names the body uses. Counterexamples to the full statement: a field named data (C30_refuted), oneOf inputs and unions of inputs (C80_union_refuted), and members whose discriminator is named as the styler names it (C81_discriminator_refuted). The types of the arguments are not compared."},
 {"property": "C82", "status": "partial", "theorems": ["C82_factories_partial", "C82_variables_partial", "C82_expanded_partial", "C82_refuted", "C28_refuted"], "note": "Factories: proved for all runs, with the omittable parameters those of the nullable fields; this is what GraphQL says for input types where no non-null field has a default. C82_refuted: a field Int! = 10 is a required parameter, although the schema and the generated class let it be omitted. Functions: for variables that are not expanded, for coercions that are not the empty string, which the code treats as absent, and for the fields of expanded variables that are required (C28_refuted for others)."},
 {"property": "C83", "status": "partial", "theorems": ["C83_functions_partial", "C83_factories_partial", "C83_refuted", "C83_names_refuted", "C83_expanded_refuted"], "note": "Proved for the stylers of turms and expanded variables that are required; descriptions of variables for operations that give variables only to arguments of the same name in their top-level fields. Counterexamples otherwise: a variable given to another argument gets the description of the argument that has the variable's name (C83_refuted); fields are documented by the name a styler gives to parameters but passed by the one it gives to fields (C83_names_refuted); an optional expanded variable is documented as its fields too (C83_expanded_refuted). Arguments below the top level are never described; the type labels are not part of the claim (C15, C16)."},
 {"property": "C84", "status": "partial", "theorems": ["C84_inputs", "C84_objects", "C84_responses", "C84_enums_partial", "C84_wrappers_partial", "C84_module_partial", "C84_refuted", "C84_wrapper_refuted"], "note": "Proved for input classes (fields that a discriminator replaces aside), object and interface classes, response fields, enum values that are not deprecated, and the markers of the classes for @oneOf fields. Counterexamples otherwise: a deprecated enum value is documented with its description, or None, in place of the reason (C84_refuted); the class for a deprecated field of a @oneOf input has the reason in the marker only, even with document_field_metadata (C84_wrapper_refuted). Markers for defaults of operation variables are part of C33. C84_module_partial states it for every class of the whole input module."},
 {"property": "C85", "status": "partial", "theorems": ["C85_types_partial", "C85_inputs_partial", "C85_scalars_partial", "C85_refuted", "C85_argument_refuted", "C85_enum_refuted"], "note": "Proved for the fields of object and interface types, input fields and scalars. Counterexamples otherwise: descriptions of types are docstrings only, and the decorator, which is where strawberry takes descriptions from, has none (C85_refuted); descriptions of arguments are dropped (C85_argument_refuted); enum values are plain constants, and of a deprecated one the reason is not even in the text below it (C85_enum_refuted). That strawberry ignores docstrings is part of the specification."},
 {"property": "C86", "status": "partial", "theorems": ["C86_types_partial", "C86_accepted_partial", "C86_refuted", "C86_number_refuted"], "note": "Proved for object and interface types and their fields: number, order, names and arguments of the calls, and the values of literals made of texts, booleans, null and lists; the class of a directive has one parameter for each argument, under the styled name, so that names which the stylers leave alone are accepted. Counterexamples otherwise: calls use the names of the SDL and the class has the styled ones (C86_refuted); numbers are passed as texts (C86_number_refuted). Directives on input fields, arguments and enum values are not part of the model's schema; the code does not read them."}
]}
