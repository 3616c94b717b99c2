# Formal model of turms in Rocq (Coq 8.16.1)

Source: `/repo` (jhnnsrs/turms, v1.2.1), read as text.  The project is not built or run.  (One
exception, early on: the two `re.sub` lines of the snake-case styler were retyped in a plain
Python prompt to confirm the regex semantics; no theorem rests on it.)
Everything below lives in `rocq/theories` (logical prefix `Verif`).

## Approach

* Every modelled Python function is a total, computable Gallina function that follows the
  original branch by branch.  The definition carries a comment `(* file.py:first-last *)`.
* Python exceptions are values: functions that may raise return `Err e` with the exception
  class; functions that use the class registry are in a state + exception monad in which the
  state survives an exception, as in Python.
* Python `dict`s are association lists in insertion order, Python `set`s are duplicate-free
  lists; where the code iterates over a `set`, the iteration order is an explicit parameter
  (any permutation), so that theorems hold for every hash seed.
* Unbounded recursion (fragment inlining, reference closure) uses fuel with a separate
  out-of-fuel value that a theorem shows unreachable for the fuel used.
* Stylers, plugins, parsers and processors are arbitrary functions (they may be user code).
  Libraries (graphql-core, libcst, pydantic, file system, network) appear as parameters or
  as a small hand-written semantics; they are listed under *Trusted base*.
* Model files (`*.v` without the prefixes `P_`, `Prop_`, `Spec_`, `Ex_`) contain no proofs.  Property theorems
  are in `Prop_*.v`; these contain only statements closed by `exact lemma`, with
  `Print Assumptions`, next to an `Example` that meets the hypotheses.
* A property that is false of the code is proved false (`…_refuted`, with a witness) and the
  largest true part is proved as `…_partial`.

## What is modelled

| model file | source (under `turms/`) |
| --- | --- |
| `Base.v` | exceptions (`errors.py`), Python strings, dicts, sets, `keyword.kwlist` and `utils.py:54-67` |
| `PyAst.v` | the nodes of Python's `ast` that the generator emits; line numbers and contexts are dropped |
| `Gql.v` | schema and document objects of graphql-core 3.2 as turms reads them; `utils.py:92-109` |
| `Config.v` | `config.py:66-408` (the options that influence generation), `rules.py` via `config.py:374-408` |
| `Settings.v` | `config.py:66-473` as settings classes: fields, defaults, prefixes, validation, sources; `run.py:78-118, 196-214` (reading YAML or JSON text is not modelled). What pydantic 2 and pydantic-settings do (priority of arguments over variables over defaults, deep merge, nested settings read the environment themselves, names without case, aliases without prefix, JSON for structured types, words for Booleans) is restated there and trusted; `1.0` for Booleans and the normalisation of URLs are left out |
| `Components.v` | configuration classes of turms/plugins, turms/parsers, turms/stylers, turms/processors; turms/run.py:282-295, 404-450. Components that are not part of turms are not modelled; importing is a parameter, and so is `str` of a number |
| `Project.v` | turms/run.py:90-118, 380-460 from the loaded project to the statements before parsers and processors; turms/cli/main.py:50-198. Building the schema and parsing the documents at a pattern are parameters; YAML is not modelled, a file is the value read from it |
| `Stylers.v` | `stylers/*.py` completely |
| `Registry.v` | `registry.py` completely, except the constructor's logging |
| `Utils.v` | `utils.py:145-449, 590-1028` (configuration, annotations, labels, defaults, literals) |
| `Documents.v` | `utils.py:452-529`, ordering of fragments `plugins/fragments.py:43-126, 614-632, 666-675` |
| `Inline.v`, `Print.v` | `utils.py:532-587`; `Print.v` is the printer of graphql-core (see trusted base) |
| `Referencer.v` | `referencer.py` completely |
| `Enums.v`, `Inputs.v` | `plugins/enums.py`, `plugins/inputs.py` completely |
| `Recurse.v` | `recurse.py` completely |
| `Fragments.v`, `Operations.v`, `Objects.v` | `plugins/fragments.py`, `plugins/operations.py`, `plugins/objects.py` completely |
| `Strawberry.v` | `plugins/strawberry.py`, with the default functions for directives and enums; not the branch for unions of `recurse_argument_annotation`, which input types cannot reach |
| `Funcs.v`, `InputFuncs.v` | `plugins/funcs.py` and `plugins/input_funcs.py` completely, except the comment of an operation |
| `Run.v` | `run.py`, `helpers.py:118-135`, `cli/main.py:200-308`, `cli/watch.py:6-15` |
| `Merge.v` | `processors/merge.py`, on syntax trees (definitions on one line excepted) |
| `Polyfill.v` | `parsers/polyfill.py` completely |
| `PySem.v` | not turms: an interpreter for the function bodies turms emits |

Simplifications (each also noted at the definition):

* Log messages, warnings and the rich console output are dropped; the text of an exception is
  kept only where something depends on it.
* Characters are bytes: `str.lower`, `str.upper` and `str.capitalize` act on ASCII letters.
  GraphQL names are ASCII, so this concerns descriptions and default values only.
* Docstrings and descriptions are plain strings; `ast.unparse` and its quoting are a parameter.
* Floats are kept as the text of the literal.
* `utils.py:112-150` (comments of an operation) is an arbitrary function `doc_of` in the plugins, so their theorems hold whatever it returns.
  C52 is about the function itself, in `Comments.v`: texts are ASCII (Python also splits lines at U+0085, U+2028 and U+2029), and
  `get_location` of graphql-core is a parameter with two instances, the one of graphql-core 3.2 (`published_line`) and exact counting.
* The functions of recurse.py, fragments.py and objects.py append classes to a list while they
  run; the model returns the appended classes in order.
* In `Run.v` the file system is a finite map with a predicate for the paths that can be written;
  loading a schema from a URL, introspection, globbing and parsing are parameters.
* `s_types` of a schema is graphql-core's `type_map`.  In reality it always contains the
  introspection types `__Schema`, `__TypeKind`, ...; the theorems do not require that, and allow
  it.

Not modelled: `processors/black.py`, `isort.py` (call libraries), what external programs do (`ruff.py` and `command.py` are modelled
around them), `cli/main.py` outside lines 50-457 (logo, console), of the project templates their rendering to YAML and which processors
they find installed, `helpers.py:17-40` and `run.py:282-295` (import of plugin classes by dotted name).

## Independent specifications

`Spec_*.v` never mention the generator.  The important ones:

* `Spec_Types.v`: which JSON-like values a generated annotation accepts (`accepts`, on the
  emitted Python expression) and which a GraphQL type contains (`inhab`), the name of a field on
  the wire (`wire_name`), whether a keyword argument may be omitted (`may_omit`).
* `Spec_Refs.v`: reachability of input types from variables (`needs`), enums selected by a
  document (`document_selects`).
* `Spec_Inputs.v`, `Spec_Fields.v`, `Spec_Selection.v`, `Spec_Dispatch.v`: what classes represent
  an input type, an object type, a selection set; how pydantic picks a member of a union.
* `Spec_Funcs.v` with `PySem.v`: calling a generated function.
* `Spec_Scope.v`, `Spec_Imports.v`: names looked up when a module is run, names bound.
* `Spec_Docs.v`, `Spec_Inline.v`, `Spec_Naming.v`, `Spec_Config.v`, `Spec_Run.v`,
  `Spec_Merge.v`, `Spec_Polyfill.v`, `Spec_Names.v` (attributes), `Spec_Paths.v` (positions of a
  selection that get classes), `Spec_Classes.v` (names bound by a module),
  `Spec_Scaffold.v` (server scaffold),
  `Spec_Camel.v` (names strawberry publishes; its `to_camel_case` is restated there and trusted),
  `Spec_Mro.v` (CPython's C3 merge, restated there and trusted),
  `Spec_Mro2.v` (documents whose fragments can be base classes), `Spec_Valid.v` (valid schemas and the
  conditions under which generation succeeds), `Spec_ValidFuncs.v` (for functions), `Spec_Return.v` (what a function returns), `Spec_ValidDoc.v` (the same for documents; the validation rules
  of the GraphQL specification that matter are restated there and trusted), `Spec_Response.v` (the data a
  server may send for an operation, sections 6.4 and 3.6 of the GraphQL specification, and the data
  the classes of a module take, after pydantic 2.9; both restated there and trusted.  Scalars are opaque: a value carries the
  name of its scalar, and which Python type takes it is a parameter), `Spec_Values.v` (the input values a server accepts,
  sections 3.10 and 3.13, without the coercion of single values to lists, and what `model_dump` of pydantic 2.9 makes of the classes of a module),
  `Spec_Syntax.v` (which syntax trees CPython compiles, restated there and trusted; not among them: what `ast.unparse` does with the text of constants).

## Properties

What is proved, in one line each; the exact theorem names are in `MANIFEST.json`.

| id | how |
| --- | --- |
| C01 | ordering functions; the loop removes exactly one fragment per step |
| C02 | dependencies collected by a DFS with a shared visited set; proved for spreads below fields, refuted for a spread inside an inline fragment |
| C03 | text-level model of the search for spreads and of the inlining loop, on printed documents; refuted for names with digits/underscores and for dots in string literals |
| C04 | same model; measure: fragments not yet taken |
| C05 | induction over selections; refuted for inline fragments and for aliased fields |
| C06 | both `re.sub` passes as functions on strings; idempotence and shape by induction |
| C07 | finite keyword table, arbitrary styler functions |
| C08 | wire name computed from the emitted Python AST, for inputs, objects, responses, operations and arguments |
| C09 | two fields of a class with one attribute: GraphQL names equal up to case and underscores (shipped stylers); refuted otherwise |
| C10 | a trace of the keys added to each registry table (`P_Trace.v`) gives distinct names per plugin; shipped stylers are injective on names that do not start in lower case; refuted across letter case, kinds, `Base` classes and nested classes |
| C11 | class names decompose uniquely at capitals, so distinct positions get distinct names if the keys of each selection set are apart; refuted for case, underscores, `base`, unions |
| C12, C13, C15 | `accepts` of the emitted annotation against `inhab` of the GraphQL type; exceptions refuted |
| C14 | same for selections; refuted for unions with one member |
| C16 | same for return annotations; refuted for non-null types and aliases. `C16_returns_partial`: over the operations and the functions plugin, the operation records the annotation of its only attribute under its name, later operations do not overwrite it (names are distinct), and the function uses it |
| C17 | emitted configuration against a boolean specification; for input and object types an invariant over the plugins says which kind and name each class was configured for (`P_Freeze.v`), the statements added later configure nothing (`quiet_stm`) |
| C18 | fuelled closure equals the inductive `needs`; fuel suffices |
| C19 | induction on selections; refuted for inline fragments inside inline fragments and at the root |
| C20 | invariant over the input plugin (`J` in `P_Scope3.v`): what is looked up is imported, a helper or defined above; quoted names are generated; refuted where types are skipped |
| C21 | corollary of C20 for enum and input modules, of C70 with the object plugin, of C60 for client modules (`P_Rebuild.v`); refuted for the function plugin and for other orders of plugins |
| C22 | import statements against the set of requested names, any set order; refuted for equal last components |
| C23 | permutation invariance; refuted for import order |
| C24 | classes of oneOf inputs and an evaluator for the emitted serializer |
| C25 | members, discriminators and alias of a union; refuted for shared keys |
| C26 - C30 | interpreter for the emitted functions (`PySem.v`), calls with arbitrary arguments |
| C31 | direct, plus Python's rules for enum members |
| C32 | evaluator for literals |
| C33, C34 | literals and variable definitions |
| C35, C36 | one lemma for both levels (`level` in `P_Merge.v`): the result is the existing list, mapped, with the missing symbols woven in; refuted for comments, imports, nested classes, repeated members |
| C37 | last binding of every name; refuted where Literal is the only name |
| C38 - C43, C49, C51 | pipeline as a function, file system as a finite map, directory listings as lists; `P_Run2.v`: endings up to case, sorted permutations of a listing |
| C44 | `Spec_Mro.v` runs class statements with CPython's C3 merge; lists that are subsequences of one list without repetitions can be merged, and for interfaces that form a forest there is such a list; for fragments and operations the order of every class is a chain of classes of its own fragments followed by one common order of the configured bases, and chains without common classes can be merged; refuted for interface diamonds, spreads in the wrong order, repeated spreads, unions as bases and interface fragments in inline fragments of union selections |
| C45, C46 | selection model against an independent description of the classes a selection needs, to any depth; dispatch by `Literal` |
| C47, C48, C55, C56 | model of the server plugin (`Strawberry.v`); annotations are read back the way strawberry reads them (`reads` in `Spec_Scaffold.v`) and give the schema type; parts of the module by decorator; refuted for defaults, ID, the option for scalars |
| C50 | direct |
| C54 | the method of C59, from the registry the operations plugin leaves behind: fragments are `ready`, the implementations of interface fragments are named after the fragment (`impls_named`), every operation has its class and its single result recorded, the enums of collapsed results are registered since the referencer finds them; refutations: valid operations for which generation fails |
| C57 | `camelize` (strawberry's conversion) inverts `camel_to_snake` exactly on camel case: induction along `snake_tail`; lifted to the classes through C55 |
| C58 | computations that succeed in every registry with the same tables (`tot`) and loops whose tables are a function of the types already processed (`tables`); what fields need follows from the tables and `valid_schema`; eight valid schemas refute the unconditional statement |
| C59 | the same method; `ready` says what the registry knows of a fragment once it was generated, fragments are generated after those they spread (C02), the selections of valid fields are processed by structural induction (`good_all`), the referencer succeeds (`references_ok`), the text of documents mentions only known fragments (C03); eleven kinds of valid documents refute the unconditional statement |
| C60 | invariant `G` of the module built so far (`P_Scope8.v`): every statement looks up what is imported, a helper or bound above; enum and fragment names that the registry hands out are bound (`okE`, `okU`); selections by structural induction (`P_Scope6.v`), fragments in the order of C02, operations after them, functions last (`P_Scope10.v`: what a function's annotations and defaults look up is imported or a class of the tree; its result class by C16's record); seven kinds of valid documents or configurations refute the unconditional statement |
| C61 | `P_Response.v`: for every selection, if the value conforms to the type and the selection, the annotation `type_field_node` returns takes it (`Qt`), by induction on the fuel as in C44; base classes take an object because the selections of the fragments they stand for are made on it as well; `P_Response2.v` carries the classes and aliases of fragments, in the order of C02, to the whole module; five valid documents with a conforming response that is not taken refute the unconditional statement |
| C62 | `P_Values.v`: completeness by induction on validity, soundness by mutual induction on serialisation; the statement that defines a class or an alias is unique because names are; the tag of a direct oneOf is what the emitted function returns under the evaluator of C24 |
| C63 | `P_Syntax.v` to `P_Syntax8.v` (`P_Syntax8.v`: the server plugin): a registry whose imports, names and forward references are names (`rnamed`) is an invariant of every plugin, and what the plugin returns is valid; selections by induction on the fuel, functions by the shape of their parameters and bodies. The server plugin emits `strawberry.field` as one `ast.Name` with a dot; `name_text` of `Spec_Syntax.v` admits such names where they are read, since the unparsed text is an attribute access |
| C64 | `P_Scope11.v` (annotations, resolvers and members of the server plugin), `P_Scope12.v` (the plugin: an invariant of registry and tree, part by part in the order the plugin emits them), `P_Scope13.v` (the module). Each quoted name is traced to a type of the schema, and `plugin_parts` of C48 says that the class of a generated type is emitted. `strawberry.field` is one name with a dot in the generated tree; `scoped_paths` of `Spec_Scope3.v` looks up what stands before the dot |
| C52 | `P_Comments.v`. Lines are specified by the grammar of GraphQL (`has_lines`), the model splits as Python does; `pieces_lines` says both agree on texts without VT, FF, FS, GS, RS. The lines from the start of the operation to its first selection are cut out of the whole text (`inspected_lines`), a position at the start of a line may count as the line before. |
| C65 | `P_Templates.v`. The configuration each template is read back to is in `Templates.v` (C77 proves that reading it gives this configuration); the conditions on schema and document are those of C54, C58, C59, C60, C63, C64 with the configuration filled in. Its parameters (`iter`, `ps`, `add`, `doc_of`) are the ones of the plugins |
| C53 | `P_Pydantic.v`: the shipped stylers keep the first character of a name up to case, and its letters (C09); with the origin of every attribute (`P_Attr.origin`) this decides which attributes pydantic takes for fields. `Spec_Pydantic.v` is also used by the specifications of C61 and C62 |
| C70 | `P_ScopeObj.v`: the machinery of C20 (`step`, `assemble`) with an invariant for object plugins (`JO`): names in the registry are bound above, types not yet reached are bound further down, as class or as union of an interface. `Spec_ScopeObj.v` says which types are left out and which names a field needs |
| C71 | `P_Traits.v`: the walk of C44 (`pg`: recursion leaves the fragment tables alone) with another invariant: the classes in the tables inherit from the traits of their type (`has`), and every class that declares a literal `__typename` has its traits directly or from such a class (`good1`). `Spec_Traits.v` defines `selects` and `inherits` on modules |
| C72 | `Spec_Calls.v` defines the paths through a function as an inductive relation on statements (events `Look` and `Bind`), Python's rule that an assigned name is local to the whole function, and `calls_scoped`. `P_Calls.v` proves a syntactic check (`checked`) sound for all paths and that the plugins for classes emit no function but `__post_init__`-like methods that pass it; `P_Calls2.v` that the function plugins only add to the registry; `P_Calls3.v` and `P_Calls4.v` that functions, factories and serializers pass the check if imports, builtins and input classes of the registry are bound; `P_Calls5.v` that these, and the classes of the operations, are bound in the module |
| C73 | `Settings.v` models the settings classes of config.py over JSON; `Spec_Settings.v` has the tables of the documentation, what a raw value means for a type (`means`), where an option is given (`given`, with `overlay` for objects). `P_Settings.v` proves validation sound and complete for `means` and the merge right for `overlay`; `P_Settings2.v` goes through the fields of the classes, shows that equal relevant variables give equal results, and that loaded values are fixed points of loading; not proved: that `to_freeze` and `to_options` put each loaded option in the right field of the record (two wrong versions survive, see `seeded/LOG.jsonl`) |
| C74 | `Spec_Variables.v`: what a server accepts as variables, what a nested class can be serialised to (fields, bases, omission). `P_Variables.v` composes the theorem on fields of Arguments classes (C34) with a version of C62 for all types that variables use (`kept_values` in `P_Values2.v`); the registry at the time operations are generated names the class of every such type (`sure_leaf`); lists and tuples are serialised alike (`retup`). Annotations are taken to mean the module-level names: that an attribute may hide them within the class body is the subject of C75 |
| C75 | `Spec_Hides.v`: names of the module that fields with values hide in the body of a class, following the order in which Python evaluates an annotated assignment. `P_Hides.v`: what is hidden is looked up and bound by a field; with C60 and C70 it is then a builtin or bound by the module |
| C76 | `Components.v`: the configuration classes of all components with the loader of `Settings.v`, and their conversion to the records the other model files take. `Spec_Components.v`: the tables of website/docs/config.md. `P_Components.v`: each documented option is a field of the class; the lemmas of C73 about one field, objects in lists, python_version and command; entries that follow the documentation load |
| C77 | `Project.v`: from a file to the generated statements, with the loaders of `Settings.v` and `Components.v`, and the files of the templates. `Spec_Project.v`: the conditions on environment and installed tools. `P_Project.v`: the environment does not matter, then the loading of each file is computed with the tools as cases; this gives the configurations that C65 assumes. `P_Project2.v`: composition with C65 |
| C78 | No new model: `Components.v` for the entries, then the plugins. `Spec_Bases.v`: which list applies, what it means that an entry gives a list. `P_Bases.v`: every class made for a selection names a base class of the project or another class that does, by induction on the selections (`post`). `P_Bases2.v`: the classes of each plugin, and the lists that the loaded entries contain |
| C79 | `Project.v` as for C77. `Spec_Patterns.v`: the sources of a pattern, in order. `P_Patterns2.v`: what loading a file guarantees. `P_Patterns.v`: the loaded option of a plugin gives the pattern of the specification; the statements of each plugin are in the module; composition with C78; for the absence of other documents, each plugin is the same function for both contents of the file system |
| C80 | `Funcs.v` and `InputFuncs.v` as for C30, `Inputs.v`, `Run.v`. `Spec_Factories.v`: the name and shape of a factory, the factories of selected input types. `P_Factories.v`: the loop over the types yields the factories of the types in the registry; what the registry holds is what the inputs plugin has named (P_Classes); other plugins leave it alone; composition with C12. `P_Factories2.v`: snake case and capitalised names |
| C81 | `Spec_Build.v`: which keywords a class takes. `P_Build.v`: composition of C12 (fields of the class), C30 (interpretation of the factory) and C80 (both are in the module); `P_Build2.v`: with C25 in place of C12, for members of unions |
| C82 | `Spec_Params.v`: the values an annotation of a parameter takes (lists and tuples for `Iterable`), the values of a GraphQL type, coercions. `P_Params.v`, `P_Params2.v`, `P_Params3.v`: induction over types for the annotation, over fields for the parameters, over types of the schema for the factories |
| C83 | `Spec_Docstring.v`: entries of a docstring, the arguments a variable is given to. `P_Docstring.v`: induction over selections for the descriptions, over variables for the entries; permutation with the signature of C28 |
| C84 | `Spec_Kept.v`: markers of an annotation, the string below a field, the lines it has. `P_Kept.v`: annotations carry no markers of their own, by induction over types; bodies are concatenations of parts that start with a field. `Spec_Kept2.v`, `P_Kept2.v`: every class of the input module, over both passes |
| C85 | `Spec_KeptSb.v`: the texts given through the keywords of strawberry's functions; that strawberry does not read docstrings is an assumption about strawberry, which is not in the repository. `P_KeptSb.v`: keywords of directives give no texts; the members of each class one by one |
| C86 | `Spec_Applied.v`: literals of the SDL as expressions, the calls under the keyword `directives`. `P_Applied.v`: induction over literals and over the applied directives |
| C66-C69 | `P_Loaders.v`, model in `Loaders.v`. The server, JSON and text decoding, external programs, shlex and the user's edits of files are parameters of the model and universally quantified. C68 on merging uses C35 and C36; C69 compares folds of `generate_projects` of C39 |

## Trusted base

* Coq's kernel (8.16.1).  No axioms: `Print Assumptions` answers "Closed under the global
  context" for every theorem in `Prop_*.v` (the command is next to each of them).  The standard
  library modules loaded by the development bring the module type fields of
  `Coq.ssr.ssrunder.Under_rel` (`Over_rel`, `Under_rel_from_rel`, `over_rel`, `over_rel_done`,
  `Under_rel`, `Under_relE`, `under_rel_done`) into the environment; no theorem depends on them.
* The reading of the Python source into the model files, with the simplifications above.
* The hand-written semantics used in specifications: `accepts` and `Spec_Dispatch.v` for pydantic
  2.9 (validation of `Optional`, `List`, `Tuple`, `Literal`, classes; smart mode of unions is
  only used in the form "a member whose `Literal` rejects the value is not chosen"), `PySem.v`
  for Python's evaluation of the emitted function bodies, `Spec_Scope.v` for name lookup,
  `Spec_Imports.v` for import statements.
* graphql-core: `Gql.v` (what a schema object contains) and `Print.v` (the printer, written after
  the published source of graphql-core 3.2, which is not part of /repo).  Theorems about
  documents quantify over documents and schemas as data; parsing and validation of GraphQL text
  are parameters.
