{"id": "C01", "title": "Fragment ordering neither loses nor duplicates a fragment", "statement": "Whatever the spreads between fragments look like (acyclic, cyclic, self-referential, or spreading names that do not exist), ordering the fragment definitions before code generation succeeds and yields each fragment definition of the documents exactly once and nothing else.", "quantifier": "every list of document definitions with distinct fragment names and every spread structure between them", "why_tests_cant": "The ordering loop removes nodes while iterating over a mutable dependency graph; a lost or repeated fragment only shows for particular graph shapes and there are unboundedly many graphs.", "anchors": ["turms/plugins/fragments.py: topological_sort, reorder_definitions, build_recursive_dependency_graph, find_fragment_dependencies_recursive"]}
{"id": "C02", "title": "Fragments are generated after the fragments they depend on", "statement": "If fragment spreads are acyclic, then in the generated module the class for a fragment appears after the classes of all fragments it spreads, directly or through other fragments, so that base classes and references are already defined.", "quantifier": "every acyclic set of fragment definitions, with spreads at any depth of fields and inline fragments", "why_tests_cant": "Needs all dependency graphs and all nesting shapes; a test covers a handful of documents.", "anchors": ["turms/plugins/fragments.py: find_fragment_dependencies_recursive, topological_sort, reorder_definitions"]}
{"id": "C03", "title": "Operation documents are self-contained", "statement": "The document string stored for an operation contains the definition of every fragment that the operation spreads, directly or transitively, each exactly once, followed by the operation text itself; a spread of an unknown fragment is reported as a generation error instead of producing an incomplete document.", "quantifier": "every operation document and every fragment table", "why_tests_cant": "Transitive closure over arbitrary fragment graphs, including cycles; tests only try short chains.", "anchors": ["turms/utils.py: replace_iteratively, fragment_searcher, auto_add_typename_field_to_fragment_str", "turms/plugins/operations.py: generate_operation"]}
{"id": "C04", "title": "Fragment inlining terminates and pulls in nothing unrelated", "statement": "Collecting the fragments of an operation always terminates, even when fragments spread each other cyclically, and only includes fragments that are transitively mentioned from the operation text.", "quantifier": "every operation text and every finite fragment table, including cyclic ones", "why_tests_cant": "Termination on all inputs cannot be observed by running finitely many inputs.", "anchors": ["turms/utils.py: replace_iteratively"]}
{"id": "C05", "title": "__typename is requested wherever a discriminated model needs it", "statement": "After documents are loaded, every selection set of a field and of a fragment definition requests __typename: it is appended once where it was absent and not added where it was present; the root selection of an operation is left alone, every other selection keeps its place, and loading twice changes nothing more.", "quantifier": "every executable document", "why_tests_cant": "Universally quantified over nesting depth and mix of fields, inline fragments and spreads.", "anchors": ["turms/utils.py: add_typename_recursively, auto_add_typename_field_to_all_objects, parse_documents"]}
{"id": "C06", "title": "Snake-casing is a normal form", "statement": "With the snake-case styler every GraphQL name becomes a name without upper-case letters, styling an already styled name changes nothing, the letters and digits of the name are kept (only case changes and underscores are inserted), and a legal GraphQL name stays a legal Python identifier.", "quantifier": "every string", "why_tests_cant": "Regular-expression rewriting over all strings; overlapping matches make hand-picked examples unconvincing.", "anchors": ["turms/stylers/snake_case.py: camel_to_snake", "turms/stylers/default.py: camel_to_snake"]}
{"id": "C07", "title": "Generated identifiers are never Python keywords", "statement": "For any chain of stylers, class names, field names and parameter names handed out by the registry are never reserved Python words, and are left exactly as styled when they are not reserved.", "quantifier": "every name and every (also user-written) styler chain", "why_tests_cant": "Stylers are arbitrary user code; tests fix one styler chain and a few names.", "anchors": ["turms/registry.py: generate_node_name, generate_parameter_name, style_inputtype_class, style_enum_class, style_fragment_class, style_objecttype_class, style_query_class, style_mutation_class, style_subscription_class"]}
{"id": "C08", "title": "Renamed fields stay wire compatible", "statement": "For every generated pydantic field (input fields, object fields, selected response fields, operation arguments) the name used on the wire, i.e. the alias if there is one and the attribute name otherwise, equals the GraphQL name or response key, whatever the stylers do.", "quantifier": "every field, every styler chain, with and without descriptions, defaults and deprecations", "why_tests_cant": "Any missing alias silently drops data for one specific combination of options; the combinations are unbounded because stylers are user code.", "anchors": ["turms/plugins/inputs.py: generate_input_type, generate_input_field_value", "turms/plugins/objects.py: generate_types", "turms/recurse.py: type_field_node", "turms/plugins/operations.py: generate_operation"]}
{"id": "C09", "title": "Distinct GraphQL fields become distinct Python attributes", "statement": "Two different fields of one GraphQL type (or two different response keys of one selection) never end up under the same attribute name of the generated class, so no field silently overwrites another.", "quantifier": "every set of field names and the shipped stylers", "why_tests_cant": "A collision needs a specific pair of names; only a proof of injectivity or a counterexample settles it.", "anchors": ["turms/registry.py: generate_node_name, generate_parameter_name", "turms/stylers/snake_case.py: camel_to_snake"]}
{"id": "C10", "title": "Distinct GraphQL definitions become distinct Python classes", "statement": "Two different schema types, fragments or operations never produce two classes with the same name in one generated module; a clash is reported instead of silently redefining a class.", "quantifier": "every schema, set of documents and shipped styler chain", "why_tests_cant": "Needs all pairs of names under all styler chains.", "anchors": ["turms/registry.py: generate_inputtype, generate_enum, generate_objecttype, generate_fragment, generate_query", "turms/stylers/default.py: DefaultStyler", "turms/stylers/appender.py: AppenderStyler"]}
{"id": "C11", "title": "Names of nested response classes identify the selection path", "statement": "Inside one operation, the classes generated for object fields at two different selection paths have different names.", "quantifier": "every pair of different selection paths of any depth", "why_tests_cant": "Concatenation ambiguities only show up for particular path pairs of unbounded length.", "anchors": ["turms/recurse.py: recurse_annotation"]}
{"id": "C12", "title": "Input field annotations carry exactly the nullability and list structure of the schema", "statement": "The annotation generated for an input field is Optional exactly where the GraphQL type is nullable (and additionally for a required field that has a schema default, which may be omitted), is a list (or tuple when input freezing converts lists) exactly where the GraphQL type is a list, and names the scalar, enum or input class of the innermost type.", "quantifier": "every GraphQL input type expression of any nesting depth and every configuration", "why_tests_cant": "Type expressions nest without bound.", "anchors": ["turms/plugins/inputs.py: generate_input_annotation, generate_input_field_annotation"]}
{"id": "C13", "title": "Object field annotations carry exactly the nullability and list structure of the schema", "statement": "The annotation generated for a field of a schema object or interface is Optional exactly where the GraphQL type is nullable, a list (or tuple when object freezing converts lists) exactly where it is a list, and names the class of the innermost type.", "quantifier": "every GraphQL output type expression of any nesting depth", "why_tests_cant": "Type expressions nest without bound.", "anchors": ["turms/plugins/objects.py: generate_object_field_annotation"]}
{"id": "C14", "title": "Response field annotations accept null exactly when the schema allows it", "statement": "In classes generated from selections, the annotation of a field accepts None exactly where the GraphQL type of the field is nullable, for fields of scalar, enum, object, interface and union type and lists of them.", "quantifier": "every selection on every field type", "why_tests_cant": "Depends on the combination of type kind, wrapping and shape of the sub-selection.", "anchors": ["turms/recurse.py: recurse_annotation, type_field_node"]}
{"id": "C15", "title": "Variable annotations carry exactly the declared nullability and list structure", "statement": "The Python annotation generated for an operation variable and the type label printed for it in the docstring denote exactly the declared variable type: Optional where nullable, List where list; and the printed label is the rendering of the annotation.", "quantifier": "every GraphQL variable type expression", "why_tests_cant": "Type expressions nest without bound.", "anchors": ["turms/utils.py: recurse_type_annotation, recurse_type_label"]}
{"id": "C16", "title": "Return annotations of generated functions carry the schema type", "statement": "The return annotation computed for a collapsed operation function from the schema output type is Optional exactly where the type is nullable and List exactly where it is a list, agreeing with the label printed in the docstring.", "quantifier": "every GraphQL output type expression", "why_tests_cant": "Type expressions nest without bound.", "anchors": ["turms/utils.py: recurse_outputtype_annotation, recurse_outputtype_label", "turms/plugins/funcs.py: get_return_type_annotation, get_return_type_string"]}
{"id": "C17", "title": "Freezing applies exactly to the configured kinds and types", "statement": "A generated class is marked frozen if and only if freezing is enabled, its kind is listed, its type name is not excluded and, when an include list is given, is included; in both the pydantic v1 and v2 output style. Model options follow the same rule.", "quantifier": "every configuration, kind and type name", "why_tests_cant": "Product of five independent options with arbitrary lists.", "anchors": ["turms/utils.py: generate_config_dict, generate_config_class_pydantic, generate_pydantic_config", "turms/config.py: FreezeConfig, OptionsConfig", "turms/plugins/operations.py: generate_operation"]}
{"id": "C18", "title": "Reference collection finds exactly the input types an operation can need", "statement": "When unreferenced types are skipped, the set of input types considered referenced is exactly the set reachable from operation variables through input fields, all enums and scalars used by those are considered referenced too, and the computation terminates on recursive input types.", "quantifier": "every schema (including mutually recursive inputs) and every set of operations", "why_tests_cant": "Reachability on arbitrary graphs; missing one type breaks the generated module only for that schema.", "anchors": ["turms/referencer.py: recurse_type_annotation, create_reference_registry_from_documents"]}
{"id": "C19", "title": "Reference collection finds every enum a selection can return", "statement": "When unreferenced types are skipped, every enum that is the type of a field selected anywhere in the documents (also below fragments and inline fragments, at any depth) is considered referenced and hence generated.", "quantifier": "every document valid for the schema", "why_tests_cant": "Nesting of fields, inline fragments and spreads is unbounded.", "anchors": ["turms/referencer.py: recurse_find_references, create_reference_registry_from_documents"]}
{"id": "C20", "title": "Every name used by generated input models and enums is bound", "statement": "In the module generated by the enum and input plugins every name loaded at class-creation time is a Python builtin, an imported name, or a class defined earlier in the module; a class defined later is only referenced as a string, and then the referencing class is rebuilt at the end of the module.", "quantifier": "every closed schema and configuration", "why_tests_cant": "Scoping must hold for every definition order and every recursive schema.", "anchors": ["turms/plugins/inputs.py: generate_input_annotation, generate_inputs", "turms/plugins/enums.py: generate_enums", "turms/registry.py: reference_inputtype, reference_enum, reference_scalar, generate_imports, generate_forward_refs"]}
{"id": "C21", "title": "Forward-reference updates only name classes that exist", "statement": "Every class on which the generated module calls model_rebuild / update_forward_refs is defined in that module.", "quantifier": "every schema, document set and plugin combination", "why_tests_cant": "A dangling update raises NameError on import, only for particular document shapes.", "anchors": ["turms/registry.py: generate_forward_refs, reference_inputtype, reference_enum, reference_interface, reference_fragment", "turms/plugins/funcs.py: generate_input_annotation"]}
{"id": "C22", "title": "Registered imports are all emitted and bind distinct objects", "statement": "Every import requested while generating is emitted, nothing else is imported, Python builtins are never imported, and the name a reference uses is bound to the object it was requested for.", "quantifier": "every set of requested dotted names and every set iteration order", "why_tests_cant": "Quantifies over arbitrary sets and hash orders.", "anchors": ["turms/registry.py: register_import, generate_imports, reference_scalar"]}
{"id": "C23", "title": "Generation is deterministic", "statement": "Running the generator twice on the same schema, documents and configuration gives the same module text, independent of Python's hash seed and of the order in which the file system lists files.", "quantifier": "every input and every iteration order of Python sets and directory listings", "why_tests_cant": "Hash randomisation and directory order vary between runs and machines; a test sees one order.", "anchors": ["turms/registry.py: generate_imports, generate_builtins, generate_forward_refs", "turms/utils.py: parse_documents, replace_iteratively", "turms/plugins/fragments.py: topological_sort"]}
{"id": "C24", "title": "oneOf inputs serialise to exactly one key", "statement": "For an input type declared oneOf, any value accepted by the generated type serialises to an object with exactly one key, which is the GraphQL field the value belongs to; a oneOf type with a required or defaulted field is rejected with a generation error.", "quantifier": "every oneOf input type, every member value", "why_tests_cant": "All member sets and all value classes, including subclasses of members.", "anchors": ["turms/plugins/inputs.py: validate_oneof, get_oneof_member_map, generate_oneof_wrapper_input, generate_oneof_direct_union"]}
{"id": "C25", "title": "Union-element inputs form a well-formed discriminated union", "statement": "Input types that declare membership of a union via the unionElementOf directive are generated with the literal discriminator value they declare, the union lists exactly the declared members, all members of a union agree on the discriminator field, no two members share a discriminator value, and inconsistent declarations are rejected.", "quantifier": "every set of input types with directives", "why_tests_cant": "Consistency across arbitrary many types.", "anchors": ["turms/plugins/inputs.py: generate_inputs, generate_input_type"]}
{"id": "C26", "title": "Generated function signatures are valid Python", "statement": "The parameters of a generated operation function list parameters without default before parameters with default, there are exactly as many defaults as optional parameters, and no parameter name occurs twice.", "quantifier": "every operation and every function definition in the configuration", "why_tests_cant": "Depends on the order and nullability of arbitrarily many variables.", "anchors": ["turms/plugins/funcs.py: generate_parameters, generate_input_type_params"]}
{"id": "C27", "title": "Generated functions send exactly the provided variables", "statement": "Calling a generated operation function sends, for every required variable, the passed value, and for every optional variable the passed value if and only if the caller provided one (None counts as provided); variables that were not provided are absent from the payload, and the keys are the GraphQL variable names.", "quantifier": "every operation, every combination of provided and omitted arguments, every argument value", "why_tests_cant": "Exponentially many combinations of provided arguments and unbounded numbers of variables.", "anchors": ["turms/plugins/funcs.py: generate_variable_assignments, _guarded_variable_assign, generate_parameters"]}
{"id": "C28", "title": "Expanded input arguments are reassembled faithfully", "statement": "When an input type is configured to be expanded into separate parameters, every expanded parameter appears in the signature and calling the function sends the nested object with exactly the provided fields under their GraphQL names.", "quantifier": "every operation and every expanded input type, nullable or not, defaulted or not", "why_tests_cant": "Many combinations of nullability, defaults and field sets.", "anchors": ["turms/plugins/funcs.py: generate_input_type_params, generate_parameters, generate_variable_assignments"]}
{"id": "C29", "title": "Sync and async variants agree", "statement": "The sync and async functions generated for one operation have the same parameters and build the same variables, and differ only in the proxy they call and in awaiting.", "quantifier": "every operation and function configuration", "why_tests_cant": "All operations and configurations.", "anchors": ["turms/plugins/funcs.py: generate_operation_func, generate_async_call, generate_sync_call"]}
{"id": "C30", "title": "Input factory functions pass on exactly the provided fields", "statement": "Calling a generated input factory function constructs the input class with exactly the provided fields under their GraphQL names, required fields always included.", "quantifier": "every input type, every combination of provided fields", "why_tests_cant": "Exponentially many combinations and unbounded numbers of fields.", "anchors": ["turms/plugins/input_funcs.py: generate_input_func"]}
{"id": "C31", "title": "Enum members carry the schema values", "statement": "The class generated for an enum has exactly one member per enum value of the schema in schema order, each member equal to the string sent on the wire, and enums are skipped exactly when unreferenced (if configured) or filtered by prefix.", "quantifier": "every enum type and configuration", "why_tests_cant": "All enums including value names that are Python keywords.", "anchors": ["turms/plugins/enums.py: generate_enums"]}
{"id": "C32", "title": "Schema defaults survive conversion to Python source", "statement": "Evaluating the Python expression generated for a schema default value gives back the same value, for arbitrarily nested lists and objects.", "quantifier": "every default value", "why_tests_cant": "Values nest without bound.", "anchors": ["turms/utils.py: convert_default_value_to_ast"]}
{"id": "C33", "title": "Operation variable defaults are recorded truthfully", "statement": "The default value recorded in the generated Arguments class for a defaulted operation variable denotes the default written in the document, for every kind of literal.", "quantifier": "every literal", "why_tests_cant": "All literal kinds.", "anchors": ["turms/utils.py: parse_value_node", "turms/plugins/operations.py: generate_operation"]}
{"id": "C34", "title": "Operation argument models accept omission exactly when GraphQL does", "statement": "A field of the generated Arguments class has a default (may be omitted) exactly when the variable is nullable or has a default, and its annotation accepts None in exactly those cases.", "quantifier": "every variable definition", "why_tests_cant": "All combinations of wrapping and defaults.", "anchors": ["turms/plugins/operations.py: generate_operation"]}
{"id": "C35", "title": "Merging keeps hand-written code", "statement": "Merging newly generated code into an existing file keeps every top-level statement of the existing file in its order, keeps the body of every existing function and method, and keeps every user-added class member.", "quantifier": "every pair of existing and generated modules", "why_tests_cant": "Arbitrary interleavings of user code and generated code.", "anchors": ["turms/processors/merge.py: merge_code, merge_class, merge_functions"]}
{"id": "C36", "title": "Merging brings in every generated symbol", "statement": "After merging, every class, function and class member of the generated code is present exactly once per occurrence in the existing file or once if new, with the generated signature; generated imports are present as well; merging the same generated code a second time changes nothing.", "quantifier": "every pair of existing and generated modules", "why_tests_cant": "Insertion positions depend on arbitrary orders of both files.", "anchors": ["turms/processors/merge.py: merge_code, merge_class"]}
{"id": "C37", "title": "The typing polyfill preserves the imported names", "statement": "The Python 3.7 polyfill binds exactly the same names as before, moves Literal to typing_extensions and leaves everything else untouched, producing valid Python.", "quantifier": "every module", "why_tests_cant": "All import lists.", "anchors": ["turms/parsers/polyfill.py: polyfill_python_seven, PolyfillPlugin"]}
{"id": "C38", "title": "Stage failures surface as generation errors and stages run in order", "statement": "Plugins, parsers and processors run in configuration order, each on the result of the previous stage; an exception raised inside a plugin, parser or processor surfaces as a generation error naming the failing stage and stops the pipeline.", "quantifier": "every list of (also user-written) plugins, parsers and processors", "why_tests_cant": "Stages are arbitrary user code.", "anchors": ["turms/run.py: generate_ast, parse_ast, process_code, generate_code"]}
{"id": "C39", "title": "A failing project does not affect other projects or existing output", "statement": "When several projects are generated from the command line, every project that can be generated is written, a project that fails leaves its previous output file untouched, and the command reports failure exactly when some failing project asks for it.", "quantifier": "every list of projects and every pattern of failures", "why_tests_cant": "Exponentially many failure patterns.", "anchors": ["turms/cli/main.py: generate_projects", "turms/run.py: write_code_to_file"]}
{"id": "C40", "title": "The programmatic entry point writes the generated code", "statement": "Calling gen on a configuration writes, for each project that generates successfully, the generated module to its output file, and leaves the old file untouched when generation fails.", "quantifier": "every configuration", "why_tests_cant": "All project lists and failure patterns.", "anchors": ["turms/run.py: gen, generate, write_code_to_file"]}
{"id": "C41", "title": "Configuration discovery is unambiguous", "statement": "Exactly one recognised configuration file in the folder is used; none or several is an error; recognition ignores case; selecting a project by name generates that project only and an unknown name is an error.", "quantifier": "every directory listing and every configuration", "why_tests_cant": "All directory contents.", "anchors": ["turms/run.py: scan_folder_for_configs, scan_folder_for_single_config, load_projects_from_configpath, get_file_loader"]}
{"id": "C42", "title": "Schema sources are loaded once, by their kind", "statement": "A schema given as a list of sources is the combination of all of them, where each URL is fetched as URL, each URL with options is fetched with those options, and each other entry is read as a glob; a single source falls back to introspection only if SDL loading failed and introspection is allowed.", "quantifier": "every schema configuration value", "why_tests_cant": "All combinations of entries.", "anchors": ["turms/run.py: build_schema_from_schema_type, is_url"]}
{"id": "C43", "title": "Document validation uses all rules except the omitted ones", "statement": "Documents are validated with exactly the specified validation rules minus those listed as omitted, in a fixed order, and unknown rule names are rejected when the configuration is read.", "quantifier": "every list of omitted rule names", "why_tests_cant": "All subsets.", "anchors": ["turms/config.py: GeneratorConfig.get_document_rules, validate_omited_document_rules", "turms/rules.py"]}
{"id": "C44", "title": "Generated class hierarchies are constructible", "statement": "For every class generated from an object type, interface, fragment or selection, the listed base classes admit a Python method resolution order.", "quantifier": "every schema and document", "why_tests_cant": "C3 linearisation failures need specific diamond shapes.", "anchors": ["turms/plugins/objects.py: generate_types", "turms/utils.py: interface_is_extended_by_other_interfaces", "turms/recurse.py: recurse_annotation", "turms/plugins/fragments.py: generate_fragment"]}
{"id": "C45", "title": "No selected field gets lost", "statement": "Every field selected in a document on an object, interface or union typed field, directly, in inline fragments or through fragment spreads, is available on the class that a response object of the matching concrete type is parsed into.", "quantifier": "every selection set and every concrete response type", "why_tests_cant": "Unbounded nesting and mix of selections.", "anchors": ["turms/recurse.py: recurse_annotation", "turms/plugins/fragments.py: generate_fragment"]}
{"id": "C46", "title": "Polymorphic responses are dispatched to the right class", "statement": "For a selection on an interface typed field, a response object is parsed into the class generated for its concrete type if the document distinguishes that type, and into the catch-all class otherwise (when enabled); no two alternatives claim the same type name.", "quantifier": "every interface, set of implementations, selection and response type name", "why_tests_cant": "All combinations of inline fragments and implementations.", "anchors": ["turms/recurse.py: recurse_annotation", "turms/plugins/fragments.py: generate_fragment"]}
{"id": "C47", "title": "Server scaffold resolvers have valid signatures", "statement": "The resolver stub generated for a schema field lists self first, then arguments without default, then arguments with default, one parameter per schema argument with as many defaults as defaulted arguments, and annotates nullable arguments as Optional.", "quantifier": "every schema field", "why_tests_cant": "All argument lists.", "anchors": ["turms/plugins/strawberry.py: generate_types"]}
{"id": "C48", "title": "Server scaffold parts are generated exactly when enabled", "statement": "The server plugin emits directives, scalars, enums, inputs and types each if and only if the corresponding option is enabled, in that order.", "quantifier": "every option combination", "why_tests_cant": "All combinations.", "anchors": ["turms/plugins/strawberry.py: StrawberryPlugin.generate_ast, generate_scalars"]}
{"id": "C49", "title": "Watch mode reacts to every GraphQL document", "statement": "In watch mode a changed file triggers regeneration exactly when its name ends in the graphql extension, and never crashes the watcher.", "quantifier": "every path", "why_tests_cant": "All file names.", "anchors": ["turms/cli/watch.py"]}
{"id": "C50", "title": "The UNSET override configuration is all or nothing", "statement": "The sentinel type and sentinel instance overrides are accepted only together, and generated code refers either only to the overrides or only to the generated sentinel.", "quantifier": "every configuration", "why_tests_cant": "All combinations.", "anchors": ["turms/config.py: validate_unset_override", "turms/registry.py: reference_unset, reference_unset_type"]}
{"id": "C51", "title": "Loading several document files loads all of them", "statement": "When documents are spread over several files, every file contributes its definitions as if it had been loaded alone: a comment that ends one file does not swallow the beginning of the next.", "quantifier": "every list of file contents", "why_tests_cant": "Depends on how every possible file ends; test fixtures all end with a line break.", "anchors": ["turms/utils.py: parse_documents"]}
{"id": "C52", "title": "The documentation of an operation is the comments in its head", "statement": "For every text, every operation in it and its first selection, the extracted documentation is the texts of the comments in the lines from the one where the operation starts to the one before its first selection, one line each, and there is none if there are no comments. Nothing else of the text becomes documentation.", "quantifier": "every text with every kind of GraphQL line breaks, every position of the operation and of its first selection, every way to count lines that counts a position inside a line correctly", "why_tests_cant": "The only test has one comment on a line of its own. Strings with a #, comments that mention an issue number, positions at the start of lines and CR or CR LF line breaks are not tried.", "anchors": ["turms/utils.py: inspect_operation_for_documentation, commentline_regex"]}
{"id": "C53", "title": "pydantic accepts the generated classes and reads every field", "statement": "Every field of GraphQL (selected field, field of an object or input type, argument of an operation) becomes a field of its generated class in the eyes of pydantic: its attribute is neither a private name nor a protected member of BaseModel, so the classes can be created and the values are read and written.", "quantifier": "every schema, every document, every configuration of the operations, fragments, objects and inputs plugins, every list of shipped stylers, every class including nested ones", "why_tests_cant": "The test schemas have no names like _eq (Hasura), _entities (Apollo federation) or modelFields. Whether a name is private depends on the styled name and the value the field is given.", "anchors": ["turms/plugins/inputs.py: generate_input_field_value", "turms/recurse.py: type_field_node", "turms/plugins/operations.py: generate_query, generate_mutation, generate_subscription", "turms/stylers/default.py: camel_to_snake", "turms/registry.py: generate_node_name"]}
{"id": "C54", "title": "Functions are generated for every valid operation", "statement": "For every operation that is valid against the schema, the funcs plugin generates its functions instead of failing; in particular default values of any literal kind, arguments nested at any depth and any kind of root selection are accepted.", "quantifier": "every schema, every valid operation, every function definition in the configuration", "why_tests_cant": "Failures need a particular combination of default value, nesting depth and root selection; fixtures use scalars and plain fields.", "anchors": ["turms/plugins/funcs.py: generate_query_doc, estimate_variable_name, get_return_type_annotation"]}
{"id": "C55", "title": "The server scaffold declares the types of the schema", "statement": "Read the way strawberry reads annotations, the annotation of every field, argument and directive argument in the scaffold is the type the schema gives it: the same named type, nullable and list exactly where the schema says so.", "quantifier": "every schema, configuration and registry", "why_tests_cant": "Types nest without bound and defaults change how they are emitted.", "anchors": ["turms/plugins/strawberry.py: generate_object_field_annotation, recurse_argument_annotation, build_directive_type_annotation, generate_types, generate_inputs, default_generate_directives"]}
{"id": "C56", "title": "The server scaffold keeps default values", "statement": "The default value of every resolver argument, input field and directive argument of the schema is the default in the scaffold.", "quantifier": "every schema", "why_tests_cant": "All default values in all positions.", "anchors": ["turms/plugins/strawberry.py: generate_types, generate_inputs, default_generate_directives"]}
{"id": "C57", "title": "The server scaffold keeps the names of the schema", "statement": "The names strawberry publishes for the attributes, resolvers, parameters and input fields of the scaffold are the names in the schema.", "quantifier": "every schema", "why_tests_cant": "Every name of every schema: camel case, acronyms, underscores, digits, keywords.", "anchors": ["turms/plugins/strawberry.py: generate_types, generate_inputs", "turms/registry.py: generate_node_name, generate_parameter_name", "turms/stylers/default.py"]}
{"id": "C58", "title": "Generation from a valid schema does not fail", "statement": "For every valid schema the schema-level plugins (enums, inputs and objects, or the server scaffold) produce a module instead of raising an exception.", "quantifier": "every valid schema, every configuration of the plugins", "why_tests_cant": "Schemas order their types in any way and combine interfaces, unions, directives, scalars and enums freely; a test covers single schemas.", "anchors": ["turms/plugins/strawberry.py: generate_ast", "turms/plugins/enums.py: generate_enums", "turms/plugins/inputs.py: generate_inputs", "turms/plugins/objects.py: generate_types", "turms/registry.py: inherit_interface, reference_enum, reference_scalar", "turms/run.py: generate_ast"]}
{"id": "C59", "title": "Generation from valid documents does not fail", "statement": "For every valid schema and every set of documents that is valid for it, the plugins for enums, inputs, fragments and operations produce a module instead of raising an exception.", "quantifier": "every valid schema, every valid document, every configuration of the plugins", "why_tests_cant": "Operations nest fields, fragments and inline fragments to any depth over any types; a test covers single documents.", "anchors": ["turms/plugins/operations.py: generate_operation", "turms/plugins/fragments.py: generate_fragment", "turms/recurse.py: recurse_annotation, type_field_node", "turms/referencer.py: create_reference_registry_from_documents", "turms/utils.py: replace_iteratively, recurse_type_annotation, parse_value_node", "turms/run.py: generate_ast"]}
{"id": "C60", "title": "Every name used by a generated client module is bound", "statement": "In the module generated from a schema and a valid document by the enum, input, fragment and operation plugins, optionally followed by the function plugin, every name looked up while the module is run from top to bottom is a Python builtin, imported, a helper class, or bound further up; this includes base classes, field annotations, defaults, nested Arguments and Meta classes, annotations and defaults of functions and the rebuilds at the end.", "quantifier": "every schema, every valid document, every configuration, styler list and iteration order of sets", "why_tests_cant": "Which names are imported depends on every selection, spread, nested union and configured base class; a single missing import or class shows only for the document that needs it.", "anchors": ["turms/recurse.py: recurse_annotation, type_field_node", "turms/plugins/fragments.py: generate_fragment", "turms/plugins/operations.py: generate_operation", "turms/registry.py: reference_fragment, reference_enum, reference_scalar, reference_inputtype, register_import, generate_imports, generate_forward_refs", "turms/run.py: generate_ast", "turms/plugins/funcs.py: generate_operation_func, generate_parameters, get_return_type_annotation"]}
{"id": "C61", "title": "Generated classes take every response a server may send", "statement": "For every operation of a valid document, the class generated for it takes (validates without error) every response that conforms to the schema and the operation: any object types behind interfaces and unions, null wherever the schema allows it, lists of any length, fields left out by @skip and @include.", "quantifier": "every valid schema, every valid document, every configuration, every conforming response", "why_tests_cant": "Responses are trees of unbounded depth over all possible types at every position; tests check classes against single recorded responses.", "anchors": ["turms/recurse.py: recurse_annotation, type_field_node", "turms/plugins/operations.py: generate_operation", "turms/plugins/fragments.py: generate_fragment", "turms/plugins/enums.py: generate_enums", "turms/utils.py: auto_add_typename_field_to_all_objects", "turms/registry.py: reference_fragment, inherit_fragment, reference_scalar, reference_enum"]}
{"id": "C62", "title": "Input classes serialise exactly to the valid input values", "statement": "For every input type of the schema, the values that its generated class can be serialised to (by alias, without unset fields) are exactly the values the schema accepts for the type: required fields present, no unknown fields, enum values by name, lists and nesting as declared, and exactly one non-null field for oneOf types, whichever of the two forms they are generated in.", "quantifier": "every schema, configuration and input value, nested to any depth", "why_tests_cant": "Both sets of values are infinite and recursive; the statement is an equality of sets, not an example of a round trip.", "anchors": ["turms/plugins/inputs.py: generate_inputs, generate_input_type, generate_input_field_annotation, generate_oneof_wrapper_input, generate_oneof_direct_union", "turms/plugins/enums.py: generate_enums", "turms/run.py: generate_ast"]}
{"id": "C63", "title": "Generated modules are valid Python", "statement": "For every schema, every set of documents and every configuration, whatever plugins run and in whatever order, the generated module compiles: every identifier is a Python name and no keyword, no keyword argument and no parameter is repeated, await, yield, return and break stand where they are allowed, parameters with defaults come last, and no body is empty.", "quantifier": "every schema, document, configuration, list of stylers, list of plugins, for clients and for servers and order in which sets are iterated", "why_tests_cant": "Names come from the user's schema and documents and pass through stylers, prefixes and suffixes; tests try a handful of schemas, none of which has fields, values or operations called like Python keywords in every position.", "anchors": ["turms/run.py: generate_ast", "turms/registry.py: generate_imports, generate_builtins, generate_forward_refs, iskeyword checks", "turms/plugins/enums.py: generate_enums", "turms/plugins/inputs.py: generate_inputs", "turms/plugins/objects.py: generate_types", "turms/plugins/fragments.py: generate_fragment", "turms/plugins/operations.py: generate_operation", "turms/plugins/funcs.py: generate_operation_func", "turms/plugins/input_funcs.py: generate_input_func", "turms/stylers", "turms/plugins/strawberry.py: generate_ast"]}
{"id": "C64", "title": "Every name of a server scaffold is bound", "statement": "For every schema, every configuration of the strawberry plugin and every list of stylers, if a module is generated, then running it only looks up names that Python or an earlier statement of the module binds (base classes, decorators, annotations, defaults and values of applied directives), and every class that an annotation refers to by a quoted name is defined in the module.", "quantifier": "every schema, set of directives, configuration, list of stylers and order in which sets are iterated", "why_tests_cant": "The tests import the modules generated from a few schemas with the default options. Imports are registered as a side effect of generating particular members, so a name is missing only for combinations of schema features and switched off parts.", "anchors": ["turms/plugins/strawberry.py: generate_ast, generate_directives, generate_scalars, generate_enums, generate_inputs, generate_types", "turms/registry.py: generate_imports, generate_builtins", "turms/run.py: generate_ast"]}
{"id": "C65", "title": "The starter templates generate modules that can be imported", "statement": "For every valid schema and every valid document, the project that `turms init` writes for each of its templates (documents, rath, gql, strawberry) generates a module; the module is valid Python and every name it looks up while it is imported is bound.", "quantifier": "every template, every valid schema and document with names that Python accepts, every order of sets, every printer of strings", "why_tests_cant": "The tests generate code from configurations of their own, none from the starter templates, and for a few schemas only. Whether an import is missing depends on the schema and the document.", "anchors": ["turms/cli/main.py: DEFAULT_STYLERS, DOCUMENT_PLUGINS, build_documents_template, build_rath_template, build_gql_template, build_strawberry_template", "turms/run.py: generate_ast"]}
{"id": "C66", "title": "A schema loaded from a server is what the server answered", "statement": "Loading SDL from a URL returns the text of a response with status 200, loading by introspection returns the data of an answer without errors, from files the content of the only matching file; configured headers are sent and override the defaults. Everything else a server can do is reported as a generation error.", "quantifier": "every server (any status, any content, any JSON or none, no connection), every URL and configured headers, every set of matching files", "why_tests_cant": "The tests patch or skip the network. Servers can answer with any status and any JSON.", "anchors": ["turms/helpers.py: load_introspection_from_url, load_dsl_from_url, load_introspection_from_glob"]}
{"id": "C67", "title": "The download and init commands write what they announce", "statement": "`turms download` writes the schema of every project it can load to the announced file and nothing else, and reports the others; `turms init` writes the template to the configuration file, and an existing file only after confirmation.", "quantifier": "every list of projects with distinct names, every outcome of loading them, every file system, every --out and --dir", "why_tests_cant": "Tests download one project that can be loaded. Failures in the middle of several projects are not tried.", "anchors": ["turms/cli/main.py: download, init"]}
{"id": "C68", "title": "Processors use what programs print only if they succeed, and can be repeated", "statement": "The command and ruff processors return the standard output of the configured programs, run one after the other, exactly if all of them exit with code 0, and fail otherwise. With the disclaimer and merge processors, generating the same code again does not change the file.", "quantifier": "every command, every behaviour of the external program, every existing file, every number of runs, both orders of the processors", "why_tests_cant": "Tests run the formatters that happen to be installed, once. Failing programs and repeated runs over the merged file are not tried.", "anchors": ["turms/processors/command.py: CommandProcessor.run", "turms/processors/ruff.py: RuffProcessor.run", "turms/processors/disclaimer.py: DisclaimerProcessor.run", "turms/processors/merge.py: MergeProcessor.run"]}
{"id": "C69", "title": "Watching keeps the output up to date", "statement": "While a project is watched, after every sequence of changes its output files are what `turms gen` would have written after the last change for which code could be generated; a change for which generation fails leaves them as they are and does not stop watching.", "quantifier": "every sequence of changes to the files, every outcome of the generation after each of them", "why_tests_cant": "The watch command has no tests (it does not terminate). All sequences of good and bad edits matter.", "anchors": ["turms/cli/main.py: watch_projects"]}
{"id": "C70", "title": "Every name used by generated object models is bound", "statement": "In the module generated by the enum and object plugins (with or without the input plugin) every name looked up while the module is run from top to bottom is a Python builtin, imported, a helper class or bound further up; every quoted name is bound by the end, when the quoting class is rebuilt; only classes defined in the module are rebuilt.", "quantifier": "every schema, every configuration, every list of stylers, every iteration order of sets", "why_tests_cant": "Object types refer to each other in every direction; interfaces have two names (a base class and a union made at the end). A missing name shows only for the schema that has the reference.", "anchors": ["turms/plugins/objects.py: generate_object_field_annotation, generate_types", "turms/registry.py: reference_object, reference_interface, inherit_interface, generate_interface, generate_forward_refs", "turms/run.py: generate_ast"]}
{"id": "C71", "title": "Traits reach every class generated for their type", "statement": "If additional_bases names classes for a GraphQL type, every generated class that stands for this type - in fragments, in operations at any depth, through fragments on interfaces, in inline fragments of unions, in the classes of object and input types - inherits from them; in the classes of object and input types they are the first base classes.", "quantifier": "every schema, every configuration, every list of stylers, every document whose spreads on object types are fragments on the type or an interface of it", "why_tests_cant": "Whether a class has the trait depends on the mix of fields, spreads and inline fragments of its selection set; if it has spreads, the trait must come through the classes of the fragments, which depends on the order in which fragments are generated.", "anchors": ["README.md: Traits: extending generated models", "turms/utils.py: get_additional_bases_for_type", "turms/recurse.py: recurse_annotation", "turms/plugins/fragments.py: generate_fragment", "turms/plugins/objects.py: generate_types", "turms/plugins/inputs.py: generate_inputs"]}
{"id": "C72", "title": "Calling a generated function looks up no unbound name", "statement": "Whatever path a call of a function or a method of the generated module takes (any outcome of each test, any number of rounds of each loop), each name it looks up is bound: it is a parameter, was assigned before on the path, or it is bound in the module or a builtin of Python and not assigned anywhere in the function.", "quantifier": "every schema, document, configuration and list of stylers; any list of plugins for enums, inputs, objects, fragments, operations, functions and factories of inputs, in any order; every iteration order of sets; every path through every function", "why_tests_cant": "Importing a module does not run the bodies of its functions, and a body has paths that a test takes only for particular arguments: omitted optional arguments, members of a union that are subclasses, subscriptions with results. Names clash only for particular operation, variable and type names.", "anchors": ["turms/plugins/funcs.py: generate_operation_func", "turms/plugins/funcs.py: generate_variable_assignments", "turms/plugins/funcs.py: generate_parameters", "turms/plugins/input_funcs.py: generate_input_func", "turms/plugins/inputs.py: generate_oneof_direct_union", "turms/registry.py: reference_unset"]}
{"id": "C73", "title": "Options come from the configuration file, TURMS_ variables or the documented defaults", "statement": "A loaded turms section has, for each documented option, the value that the file or the variable TURMS_<OPTION> gives (the file has priority, objects are merged entry by entry), else the documented default; unknown options are rejected and files that follow the documentation load. Options of the sections freeze and options come from these sections or are the documented defaults. No other environment variable matters. A loaded configuration, also one written by dump_configuration, loads as itself.", "quantifier": "every configuration file, environment, set of builtins and set of importable names, every way to decode the JSON of variables", "why_tests_cant": "Tests load a few files in the environment of the developer; variables that happen to be called like options exist on other machines, and the 50 options have three sources each.", "anchors": ["turms/config.py: GeneratorConfig", "turms/config.py: FreezeConfig", "turms/config.py: OptionsConfig", "turms/config.py: GraphQLProject", "turms/run.py: load_projects_from_configpath", "turms/run.py: write_project", "website/docs/config.md:62-110,190-240,310-317"]}
{"id": "C74", "title": "Arguments classes serialise exactly to the variable values their operation accepts", "statement": "For every operation of a module generated by the enum, input, fragment and operation plugins, every mapping of variables to values that a server accepts for the operation (GraphQL 6.1.2) can be serialised from an instance of its nested Arguments class, by alias and without unset fields, and every mapping so serialised is one the server accepts.", "quantifier": "every schema, document, operation, configuration, chain of stylers and set of further plugins; every variable mapping of any depth", "why_tests_cant": "The set of accepted values is infinite and recursive through input types; it depends on how annotations, aliases, defaults, enums and scalars of three plugins fit together. Tests look at one operation and one call at a time.", "anchors": ["turms/plugins/operations.py:298-419", "turms/plugins/inputs.py:173-330", "turms/plugins/enums.py", "turms/utils.py:648-760", "turms/registry.py:291-360"]}
{"id": "C75", "title": "No field of a generated class hides a name that the class body needs", "statement": "When the body of a generated class is run, every name it looks up (annotations, values, bases of nested classes) is the one bound by the module: no field of the class has bound the same name in the class's own namespace before.", "quantifier": "every schema, document, configuration, chain of stylers and iteration order of sets; every class of the module, nested ones included", "why_tests_cant": "Whether a field hides a name depends on the field's styled name, on whether it has a value (nullable or aliased), on the order of fields, and on every name the module imports or defines, which other plugins decide.", "anchors": ["turms/recurse.py:686-784", "turms/plugins/inputs.py:173-330", "turms/plugins/operations.py:298-419", "turms/plugins/objects.py:300-345", "turms/registry.py:756-800", "turms/stylers/default.py"]}
{"id": "C76", "title": "The options of plugins, parsers, stylers and processors come from their entry, their TURMS_ variables or the documented defaults", "statement": "An entry of the configuration that names a component of turms gives the component exactly the options the documentation lists, each with the value of the entry, else of its TURMS_ environment variable, else the documented default; an option that does not exist is an error; other environment variables do not matter.", "quantifier": "every entry, every environment, every component of the documentation", "why_tests_cant": "Entries and environments are unbounded; each component reads the environment by itself with its own prefix, so a variable that happens to be set on some machine can change the result.", "anchors": ["turms/run.py:282-295", "turms/run.py:404-450", "turms/config.py:30-70", "turms/plugins/enums.py:20-27", "turms/plugins/inputs.py:37-45", "turms/plugins/objects.py:34-39", "turms/plugins/fragments.py:129-136", "turms/plugins/operations.py:40-50", "turms/plugins/funcs.py:57-97", "turms/plugins/input_funcs.py:34-48", "turms/plugins/strawberry.py:367-390", "turms/parsers/polyfill.py:8-22", "turms/stylers", "turms/processors"]}
{"id": "C77", "title": "The starter file of each template of turms init loads and generates a module that can be imported", "statement": "For each of the templates documents, rath, gql and strawberry, the file that turms init writes loads as one project named default, with the processors of exactly the installed tools, and generating code for it gives a syntactically valid module that looks up bound names only.", "quantifier": "every set of installed tools, every environment, every schema and set of documents turms supports", "why_tests_cant": "What the file contains depends on the machine it is written on, what it means depends on the environment it is read in, and the generated module depends on schema and documents; no finite set of machines and schemas covers these.", "anchors": ["turms/cli/main.py:50-198", "turms/run.py:90-118", "turms/run.py:282-295", "turms/run.py:380-460"]}
{"id": "C78", "title": "Configured base classes are the base classes of the generated classes", "statement": "The class of an operation has exactly the base classes configured for its kind, or the object_bases of the project if there are none. The classes of input types, object types and fragments have the base classes configured for them, and every class of fragments and operations inherits from the base classes of the project. The base classes are imported.", "quantifier": "every schema, set of documents, configuration and environment", "why_tests_cant": "Which lists apply depends on the kind of operation, the kind of type a fragment is on and which of the lists are empty, and classes are nested as deeply as the selections; no finite set of configurations and documents covers these.", "anchors": ["website/docs/plugins/operations.md:26-27", "website/docs/config.md:86-87", "website/docs/config.md:259-262", "turms/plugins/operations.py:53-96", "turms/plugins/operations.py:165-208", "turms/plugins/fragments.py:139-170", "turms/plugins/inputs.py:37-45", "turms/plugins/objects.py", "turms/recurse.py", "turms/plugins/strawberry.py:367-390"]}
{"id": "C79", "title": "Plugins read the documents of their own pattern, or else those of the project, and nothing else", "statement": "The operations, fragments and functions plugins read the documents at their own pattern (in their entry or variable), else at the documents of the turms extension, else at those of the project; the other plugins read the latter two. Every operation there, and every fragment on an object type, has its class in the module, with the configured name and base classes. The module depends on no other documents, and without any pattern for operations or functions none is generated.", "quantifier": "every project, environment, schema and set of documents", "why_tests_cant": "The pattern has four possible sources for each of several plugins, and that documents elsewhere have no influence is a statement about all possible contents of the file system.", "anchors": ["turms/run.py:409", "turms/run.py:404-460", "turms/plugins/operations.py:478-520", "turms/plugins/fragments.py:650-681", "turms/plugins/funcs.py:1385-1430", "website/docs/plugins/operations.md:23", "website/docs/plugins/fragments.md:21"]}
{"id": "C80", "title": "There is one factory function for each input type that has a class", "statement": "The functions of the input factories plugin are, in the order of the schema, exactly one factory for each input type that its options do not skip and that the inputs plugin has given a name, whichever plugins run before and between the two. A factory has the configured prefix and the styled name, with an underscore appended if that is the name of its class, and ends by returning its class called with the collected data. Every input type that neither plugin skips has a class and a factory, and no factory hides another or a class.", "quantifier": "every schema, configuration, chain of stylers, list of plugins before and between, and set of documents", "why_tests_cant": "Which input types have factories depends on two sets of options, on the documents of both plugins and on the shared registry, and the names depend on the chain of stylers and all other types of the schema.", "anchors": ["turms/plugins/input_funcs.py:51-138", "turms/plugins/input_funcs.py:151-188", "turms/plugins/input_funcs.py:200-221", "turms/plugins/inputs.py:532-800", "website/docs/plugins/inputfuncs.md:8", "website/docs/plugins/inputfuncs.md:60-64"]}
{"id": "C81", "title": "A factory function passes its class what the class takes", "statement": "For every input type that has a class and a factory in the same module, calling the factory is calling the class with exactly the arguments that were given, each under the name by which the class takes it; every field that the class requires is among them, and nothing that is no field of the class.", "quantifier": "every schema, configuration, chain of stylers, list of plugins before and between, input type, and all arguments of the call", "why_tests_cant": "Class and factory are generated by different plugins, which decide separately what a field is called, which fields are required and what is left out; the agreement is over all field types, names and subsets of arguments.", "anchors": ["turms/plugins/input_funcs.py:51-138", "turms/plugins/inputs.py:48-340", "turms/plugins/funcs.py:402-445", "website/docs/plugins/inputfuncs.md:10-18"]}
{"id": "C82", "title": "Parameters of factories and functions take the values of their fields and variables", "statement": "A factory has exactly one parameter for each field of its input type, whose annotation takes exactly the values of the field's type, where coercible scalars and inputs have the types configured in the plugin or else in the project; the parameter may be omitted exactly if GraphQL lets the field be omitted, and then also takes the sentinel. The same holds for the parameters of generated functions and the variables of their operation.", "quantifier": "every schema, configuration, chain of stylers, list of plugins before and between, input type, field type, operation, variable, and every value", "why_tests_cant": "The annotation is built by recursion over the type with two dictionaries merged from two configurations; that it takes exactly the values of the type is a statement about all types of any nesting and all values.", "anchors": ["turms/plugins/funcs.py:186-275", "turms/plugins/funcs.py:320-445", "turms/plugins/input_funcs.py:51-138", "turms/plugins/input_funcs.py:200-221", "website/docs/plugins/inputfuncs.md:95-110"]}
{"id": "C83", "title": "Docstrings list the parameters of generated functions and describe them truthfully", "statement": "The docstring of a generated function or factory lists every parameter exactly once, under the name it has in the signature, and nothing else; a variable is described by the descriptions of the arguments it is given to, and a field by its own description.", "quantifier": "every schema, configuration, operation, input type, chain of stylers and list of expanded variables", "why_tests_cant": "Docstring and signature are built by separate loops over variables and fields with different naming calls; agreement is over all combinations of required, optional, expanded and extra parameters, and all ways in which an operation passes its variables.", "anchors": ["turms/plugins/funcs.py:278-317", "turms/plugins/funcs.py:835-959", "turms/plugins/input_funcs.py:51-138", "website/docs/plugins/funcs.md:11", "website/docs/plugins/inputfuncs.md:80"]}
{"id": "C84", "title": "Descriptions, deprecation reasons and defaults of the schema are kept in the generated classes", "statement": "Every generated input, object, interface and enum class carries the description of its type; every field of an input, object, interface or response class carries exactly one marker for its default, if it has a non-null one, with the default as a string, exactly one for its deprecation, if deprecated, with the reason, and no others, using the configured marker classes; with document_field_metadata the documentation of the field has description, reason and default, without it the plain description; enum values are documented by their description and, if deprecated, the reason.", "quantifier": "every schema, configuration, styler chain, selection, field and enum value", "why_tests_cant": "Markers and documentation come from one helper called at four places with different arguments, plus two places with code of their own; which metadata is dropped depends on the combination of description, reason, default and option at each place.", "anchors": ["turms/utils.py:966-1028", "turms/plugins/inputs.py:169-339", "turms/plugins/inputs.py:408-475", "turms/plugins/objects.py:285-359", "turms/recurse.py:712-784", "turms/plugins/enums.py:63-94", "website/docs/config.md:94-96", "website/docs/migration-defaults-unset.md:97-109"]}
{"id": "C85", "title": "The server scaffold keeps descriptions and deprecation reasons", "statement": "The schema that strawberry builds from the scaffold has the descriptions and deprecation reasons of the original: every field, input field, scalar, type, argument and enum value that has one in the schema is given it, exactly once, through the keywords description and deprecation_reason, and no other gets one.", "quantifier": "every schema, configuration, styler chain and set of directives for which the scaffold is generated", "why_tests_cant": "Descriptions are passed on in five places with different code, as keywords, docstrings or string statements; a test sees one combination of description, reason, directives and arguments, and executes no strawberry schema.", "anchors": ["turms/plugins/strawberry.py:285-363", "turms/plugins/strawberry.py:740-831", "turms/plugins/strawberry.py:914-1054", "turms/plugins/strawberry.py:1073-1154"]}
{"id": "C86", "title": "The server scaffold applies the directives of the schema in calls that their classes accept", "statement": "Every custom directive applied in the SDL to an object or interface type or to one of its fields is applied by the scaffold, once and in order, by a call of the class of the directive; the call names only parameters of that class and has the values of the SDL.", "quantifier": "every schema, set of directive definitions and applications, configuration and styler chain for which the scaffold is generated", "why_tests_cant": "The classes of directives and their calls are written by different code, one using the stylers and the other not, and the values come from AST nodes whose kinds are unbounded combinations; a test would have to import the module under strawberry for each.", "anchors": ["turms/plugins/strawberry.py:115-146", "turms/plugins/strawberry.py:155-282", "turms/plugins/strawberry.py:688-723", "turms/plugins/strawberry.py:872-1068"]}
