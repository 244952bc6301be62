# Formal model of python-ngomodel (ngoschema) in Rocq

The code in `/repo/ngoschema` is read as text and never run. Every theorem is about the Gallina model in `rocq/theories`;
the tie to the code is the citation (file and lines) in the comment above each definition.

## Layout

For each area `X` there are up to four files in `rocq/theories`:

* `X_Model.v`  – executable model, branch by branch, exceptions as values (`res A = Ok a | Err e`); each definition cites the
  Python lines it models and says where it simplifies;
* `X_Spec.v`   – small independent specification (inductive relations, plain statements about lists, strings, maps);
* `X_Proofs.v` – lemmas;
* `X_Props.v`  – the property theorems, `Print Assumptions`, and the `Example`s showing that a concrete non-trivial case
  meets the hypotheses.

`Base.v` holds insertion-ordered dictionaries, the exception and result types; `PyVal.v` the Python values (None, bool, int,
str, list, tuple, dict, opaque object) with indexing and truth.

Conventions:

* External behaviour the model does not compute (a user's getter, an item type's conversion, a file's content, a hash) is a
  quantified parameter of the theorem (`forall ev, ...`), never an axiom. Where a property needs something of it, the
  hypothesis is in the statement (for instance `Stable ev` in C56).
* A loop or recursion without a structural measure runs on fuel and answers `OutOfFuel`; a theorem shows that the fuel
  used is enough, or the Python `RecursionError` is modelled as such.
* A claim that is false of the code is proved false: `..._refuted` theorems give the witness, or the general
  circumstances, next to the strongest true statement. They are the findings below.

## Plan per property: what is modelled and how it is proved

| id | property | what is modelled | how it is proved | files |
|----|----|----|----|----|
| C01 | Chain-map lookup is first-map-wins | chain maps as trees of dictionaries; lookup, get, contains | structural induction on the tree and the list of maps, against 'the first map holding the key' | ChainMap_*.v |
| C02 | Chain-map iteration lists every key exactly once | iteration, len, reversed keys, merged | induction; permutation and no-duplicate statements | ChainMap_*.v |
| C03 | Flattening a chain of chains preserves lookup, as long as it is fresh | `_flatten_maps` and the cached flattened list of a context | induction on trees; invariant 'cache absent or fresh'; refuted once a map is prepended after flattening | ChainMap_*.v |
| C04 | Child contexts shadow and never disturb their parent | a store of contexts (references to `_maps` lists), create_child, prepend, append, set | invariants over histories of operations, frame statement for the parent | ChainMap_*.v |
| C05 | Key-normalising dictionaries behave as a map over normalised keys | `_KeyModifierMapping` over an arbitrary normaliser, lower-casing instance | refinement to a finite function over all operation sequences | KeyMap_*.v |
| C06 | Registering in a registry reaches every ancestor registry | store of registries with a parent relation, register/unregister | induction on the (acyclic) parent graph; refuted for a diamond | Registry_*.v |
| C07 | Method resolution order is a C3 linearisation | C3 merge loop, fuel = total length | loop invariant, fuel adequacy, uniqueness of the C3 order | Order_*.v |
| C08 | Greatest common superclass | gcs as search through the linearisations | induction | Order_*.v |
| C09 | Topological sort layers a dependency graph | topological sort as layers and final outcome | induction on the remaining items; error iff a cycle is reachable | Order_*.v |
| C10 | Paging preserves the stream | grouper | induction: concatenation and sizes of the pages | Bracket_*.v |
| C11 | Bracket matching finds exactly the matched pairs | bracket scan with an explicit stack, the bracket tree | invariant relating the stack to the unmatched opens; balanced-word grammar as specification | Bracket_*.v |
| C12 | Thread-safe counter hands out consecutive unique numbers | threads as program counters, lock, counter | invariant over all schedules of any number of threads | Counter_*.v |
| C13 | Path-based access to descendants | get/set_descendant, path splitting on nested values | nested induction; round trip | Coll_*.v |
| C14 | Nested dictionary iteration enumerates the leaves | nested dictionary iteration, both orders | nested induction against an inductive 'leaf at path' | Coll_*.v |
| C15 | Collection filtering | filter_collection | nested induction; refuted for `only` and sequences | Coll_*.v |
| C16 | List coercions | to_list, to_set and the like | case analysis, idempotence | Coll_*.v |
| C17 | String replacement and shortening | multiple_replace, shorten, split_string, inline, rreplace, strip | induction on strings, greedy-match specification | Str_*.v |
| C18 | filter and exclude split a query | `Filter.__call__` on attribute records | induction; filter and exclude partition | Query_*.v |
| C19 | Query criteria: all-of and any-of | criteria evaluation, all-of / any-of | induction over the criteria | Query_*.v |
| C20 | Criteria parsing splits attribute path and operators | criteria name parsing | string splitting; refuted for attributes named like an operator | Query_*.v |
| C21 | Query result retrieval | `Query` as a state machine with a cached iterator: iteration, get, next, reverse, order_by | histories | Query_*.v |
| C22 | Query set operations | union, intersection, difference, distinct | membership statements; union changes its receiver | Query_*.v |
| C23 | Array deserialisation | array deserialisation of Python values | case analysis and induction | Types_*.v |
| C24 | Array size and uniqueness constraints | array size and uniqueness checks | direct; the size keywords are never checked | Types_*.v |
| C25 | Enum conversion | enum conversion | case analysis | Types_*.v |
| C26 | Boolean conversion | boolean conversion | case analysis on spellings | Types_*.v |
| C27 | Evaluation order of an object's items | `_call_order` over the topological sort model | from C09 | Object_*.v |
| C28 | Required properties and additional properties are enforced | object validation: required and additional properties | induction over key lists | Object_*.v |
| C29 | Aliases and negated aliases translate on input | alias and negated alias translation | induction; reading through item access refuted | Alias_*.v, It_*.v |
| C30 | A property read returns the evaluation of the latest assignment | instance state machine: raw data, validated cache, inputs, dependencies, expressions | invariant over histories; well-founded induction on the dependency graph | Inst_*.v |
| C31 | Assigning a property invalidates exactly the dependents | invalidation on assignment | reachability in the dependency graph, both directions | Inst_*.v |
| C32 | Read-only properties keep their value | read-only properties | histories | Inst_*.v |
| C33 | Required properties cannot be deleted | deleting required properties | histories | Inst_*.v |
| C34 | Schema inheritance accumulates constraints | class build: merging of properties, required, defaults over the bases | induction over the bases | Build_*.v |
| C35 | Serialisation includes each property at most once and honours exclusions | print order and exclusions in serialisation | induction over key lists | Object_*.v |
| C36 | Namespace lookup by canonical name picks the most specific namespace | namespace manager: lookup by canonical name | prefix order, maximality | Ns_*.v |
| C37 | Namespace lookup by URI | namespace lookup by URI | as C36 | Ns_*.v |
| C38 | Canonical name and identifier correspond | identifier to canonical name and back, memoisation | string reasoning, histories | Ns_*.v |
| C39 | Name cleaning yields attribute names | clean_js_name and relatives | induction on strings | Ns_*.v |
| C40 | JSON-pointer fragments resolve exactly | JSON pointer fragments | induction on the path, RFC 6901 specification | Uri_*.v |
| C41 | Scoping a reference | scope of a reference (urljoin restricted to what is used) | case analysis on strings | Uri_*.v |
| C42 | Resolved documents follow the registered store | memoised document resolution over a changing store; lru_cache | histories; refuted after re-registration | Lru_*.v, Uri_*.v |
| C43 | A type is built once and reused | type builder: registration, construction, recursion through proxies | state machine; histories | TB_*.v |
| C44 | Schema expansion follows the extends chain | extends chain, schema MRO, expansion | induction with fuel bounded by the number of schemas | Mro_*.v |
| C45 | Session factory options | session factory options | histories | Session_*.v |
| C46 | Scoped sessions: one per scope | scoped session registry | histories over scopes | Session_*.v |
| C47 | Memory repository assigns fresh keys and keeps one entry per identity | memory repository | invariant over commit histories | Repo_*.v |
| C48 | Foreign key conversion | foreign key conversion, serialisation, resolution | case analysis, round trip | Fkey_*.v |
| C49 | Saving a file is idempotent and does not touch unchanged files | file system as a finite map; save, load, dirty flag | histories with crash points | File_*.v |
| C50 | XML dictionary conversion round-trips | dictionary to SAX events, text, and back (xmltodict, serializer) | round trip by nested induction on documents | Xml_*.v |
| C51 | Array-aware functions map over lists | take_arrays, take_single | induction | Deco_*.v |
| C52 | Memoised properties are computed once | memoized_property, memoized_method | histories | Deco_*.v |
| C53 | Temporary changes are undone | working-directory context manager, casted_as | all executions of the body including exceptions | With_*.v |
| C54 | Canonical names and dotted access follow the object tree | object trees, canonical names, `_root`, dotted access | induction on trees | Tree_*.v |
| C55 | Query operators mean what their names say | query operators (comparison, text, membership, dates as ordered values) | inductive meaning of each operator | Op_*.v |
| C56 | Array objects behave as lists of evaluated items | array objects: raw list and evaluated list, MutableSequence methods, lazy and eager | refinement of a list specification over all histories | Arr_*.v |
| C57 | Checked arguments reach the function converted, or it does not run | Python argument binding, the assert_arg decorator, stacks of decorators, bound methods | induction on parameters and on the stack of decorators | Argc_*.v |
| C58 | Scalar evaluation yields a value of the type that satisfies the schema, or raises | conversion, validation and evaluation of integers, numbers and strings; jsonschema keywords with nested allOf/anyOf/not | nested induction on keywords; rationals for the meaning of bounds | Scal_*.v |
| C59 | Identifiers name one element of one document and survive being written and read | Id._convert, _serialize, _check and the name expression cn_re over the manager of Ns_Model and scope of Uri_Model; urlparse/geturl only as 'is there a non-empty fragment' | Splitting at '#'; the round trips by cases on the current document; the canonical one through the tags of the id of a name (rt_id_tags) | IdT_*.v |
| C60 | Importable values stand for what their dotted name leads to, and survive being written | Symbol._convert (builtins, module prefixes backwards, attributes, the type's test) and the naming part of Symbol._serialize, over an arbitrary interpreter | The search is the longest prefix, by induction on the bound; round trips by exhibiting the prefix | Sym_*.v |
| C61 | Dates, times and datetimes are what their value stands for, and survive being written | types/datetime.py: Date, Time and Datetime _convert, _dt_serialize, over a record for the arrow library | inductive relations DayOf, TimeOf, StampOf (Dt_Spec) and an iff for each conversion | Dt_*.v |
| C62 | An object belongs to the nearest session given around it | protocols/context.py, CollectionProtocol.__init__, lazy insert: the session attribute of contexts as a heap shared by the containers | frame statements for one creation, induction over histories and over nesting depth | Cx_*.v |
| C63 | Loading schemas registers each under its own URI, and one bad file does not stop the others | loaders/schemas.py load_schema, load_schema_file; loaders/module.py load_module_schemas, register, find_one, over a main store keyed by an arbitrary normalisation and an optional user store | relation SchemaUri (Ls_Spec), iff; induction over the list of files with the relation LastOf | Ls_*.v |
| C64 | Walking a nested collection reaches every member once, and scoping references changes nothing but references | utils.apply_through_collection over trees of dictionaries and lists, TypeBuilder.expand's scope_refs | fuel recursion, excluded for fuel above the size; relation Walked (Walk_Spec) by induction on fuel and on the members; statement about scoping by paths to leaves | Walk_*.v |
| C65 | What a document shows of nested objects | the serialisation of objects, arrays and entities within one another: the names left out carried down, the two passes of the print order, the null skeleton then filled, the class name, the keys of entities (Ser_Model) | a relation between paths of a value and what is shown on the way (Ser_Spec), and both inclusions between it and the paths of the document, by induction on the value; noninterference for what is not shown; progress on typed values | Ser_*.v |
| C66 | The inputs of an expression or template | Expr.inputs (the regular expression for names, minus builtins), get_variables over the token stream of jinja2 with 'this.'/'self.' removed, and the choice between the two (Vars_Model) | whole words of a text specified by what surrounds them (Mentions) and the scan proved to find exactly these; expressions as trees with an arbitrary meaning (Vars_Spec), noninterference by induction; the instance model of C30 instantiated with these inputs gives the end-to-end reading theorem | Vars_*.v |
| C67 | Evaluating nested values | Collection._convert/_validate/_evaluate with Object and Array, over a family of types referring to one another by number; recursion limit as fuel | relations Converted, Checked, Evaluated (Nev_Spec) proved equal to the functions by induction on the limit; places (At, TypeAt) by induction on the path; idempotence by mutual induction on Checked | Nev_*.v |
| C68 | Equality of objects and arrays | CollectionProtocol.__eq__ with the class check, python's order of trying the right operand first, contains and index of sequences; instances known by numbers | relation Same (Eq_Spec) proved equal to the comparison by induction on the depth; equivalence of Same in a world where the number tells the instance | Eq_*.v |
| C69 | Relationships between classes | Rel_Model: the two registries and the set of classes under construction as one state; type loading with fuel, relationship building with the type loader as parameter, back-population with the evaluation order of the assignment, pointers, descriptors | frame invariant (relationships of a class under construction are touched by no nested load) by induction on fuel; depth-first argument with the number of classes not yet met as measure; reachability from the invariant that finished classes lead to finished or unfinished ones | Rel_*.v |
| C70 | Loading, saving and committing values | Loader._load, __call__; Saver._save, __call__; Repository.__init__, _commit, dump, __contains__; Transformer.transform, __call__; Resolver.resolve, __call__ (`Lsv_Model.v`) over any deserialiser, serialiser, class and conversion. | `Lsv_Spec.v` says what it is to load one value and which values a value holds; loading many is proved to be the pointwise relation in both directions, the content of a repository by induction over the history of commits (`Lsv_Props.v`). | Lsv_*.v |
| C71 | The class of a new object | ObjectProtocol.__new__, Entity.__new__ and __init__, the argument handling of CollectionProtocol.__init__ and the protocol of type.__call__ (`Mk_Model.v`), on top of the sessions and repositories of `Fkey_Model.v` and the `scope` of `Uri_Model.v`. | Equations for the object made, its initialisations and the caller's arguments afterwards; the instance under a key is the relation `Kept` of `Mk_Spec.v` and making from a key is proved equivalent to it. | Mk_*.v |
| C72 | Size and digest of files | FileInfo.get_contentSizeHuman (the loop over the units, the rounding of %3.1f as round-half-even on exact fractions) and get_sha1 (the reading loop, over any hash object) (`Fi_Model.v`). | `Fi_Spec.v` gives the unit of a size, the nearest tenth and its text; arithmetic on N. The digest by induction on the rounds of the loop. | Fi_*.v |
| C73 | Resolvers of references do not change the registered documents | a state machine with the shared document store, the memo table of resolve_doc and all the resolvers made, each with its own store and its table of answers; steps register, unregister, resolve, create a resolver, ask a resolver | an invariant by induction over histories: registered documents are kept by the quiet steps; a private resolver stays equivalent to its store at creation (its table holds right answers, its store only grew by downloads); normalised keys are an invariant of the shared store | Rsv_*.v |
| C74 | The data of new objects | __init__ of protocol objects up to the stored data, and a sequence of objects made and changed (New_*) | filling stated by the names of C29 and the order of C27; independence by induction over histories | New_*.v |
| C75 | What printing an object shows, and what it does to the process | objects with classes, data, validated data and kept texts, in one process with the list that is the default of `excludes`; `repr`, `str`, assigning, adding and reading members | printing keeps everything but texts and the hidden names (induction on the depth of references); entries by induction on the members; histories by induction | Pp_*.v |
| C76 | What an item name of an object refers to does not depend on earlier lookups | the cache of `_properties_raw_trans` in an inherited class attribute, item access through it | invariant over histories of lookups (every entry was computed by a related class), single inheritance keeps the owner | Nc_*.v |
| C77 | The type of an item is the one its class declares | `It_Model`: the two lookups with their common cache, the registry of types, stand-ins (and classes derived from them). | Invariant over histories of lookups and registrations: each cached entry is the declared type or the type built for it. | It_*.v |
| C78 | Types by name | `Tn_Model`: the registry of names, the checks of the basic types called on their classes. | By cases on the value and the name; lists of registrations by induction. | Tn_*.v |
| C79 | Schemas given with types in them | `Tn_Model`: schemas as trees of mappings, lists, values and types. | Induction over the tree, by positions. | Tn_*.v |
| C80 | Classes cast to a parent, and class properties | `Cast_Model`: classes as resolution orders and dictionaries, the class made by the cast; class properties as slots of classes. | Lookup in chains of dictionaries by induction over the resolution order. | Cast_*.v |
| C81 | Attributes and items of an object are the same data | At_Model: the attributes classes are built with, Python attribute lookup, __getattr__, __setattr__, over the items of Alias_Model. | The tables are analysed by induction over the chain of classes; a name leads to the same property in both kinds of access (case analysis over the name tables); the last assignment by induction over programs. | At_*.v |
| C82 | Logging a call does not change what it does | Log_Model: `_format_call_msg`, `log_exceptions`, `log_init` over an arbitrary program (values, states, `repr`, `str`, the decorated function), with the journal of the logger | every call is split into printing, running once, printing (relation `Printed`); transparency up to an equivalence of states kept by printing; journal computed for pure printing | Log_*.v |
| C83 | Reading XML documents one after the other | Xr_Model: `_deserialize_xml` on the events of a document, with the tag the reader keeps, and sequences of reads | Xr_Props: on the document theorem of C50; induction over the sequence of documents | Xr_*.v |
| C84 | Values and accessors a class gives to its properties | Acc_Model: the loop of `ObjectProtocol.build` over all properties (values from the body and the schema, accessors), the redefined types, the defaults and the descriptors; lines of classes | Acc_Props: one invariant of the loop (attributes left, redefined types, accessors), then inclusion both ways with a declarative reading; induction over the line of classes | Acc_*.v |
| C85 | Scalar types made of schemas | Sct_Model: `TypeBuilder.load/build`, `TypeProtocol.build/extend_type` for scalar types, lookup of keywords along the linearisation, instance defaults, reading of a property by its type | Sct_Proofs: one invariant of the world (registered types have the keywords and default the schemas say), by induction over loads and fuel; C3 facts from Order_Props | Sct_*.v |
| C86 | Names in XML namespaces | Xn_Model: scopes and names as expat reports them (`scan`), `_build_name`, `startNamespaceDecl`, `startElement`, `_process_namespace`, `_emit` with namespaces | Xn_Spec says what the names of a document stand for; induction over documents for reading; writing is compared event by event with writing without prefixes (C50), whose round trip is then reused | Xn_*.v |
| C87 | What validating a value against a schema accepts | Jv_Model: the keywords registered in jsch_validators as jsonschema runs them (`errors`, `kerrors`), the kinds of values of `TypeBuilder.is_type`, `Validator._errors`, `_validate` | Jv_Spec gives the meaning of keywords as propositions; no error iff the meaning holds, by induction over schemas (mutual with keywords); agreement of the two readings by a second induction; paths without positions by a third | Jv_*.v |
| C88 | Which data a class made of a schema accepts, with its ancestors | the table of classes with their schemas (keywords of C87), Python bases and extends; ObjectProtocol.build for required, declared, pattern, additional and not-validated names, the chained keywords and the filtering of bases; CollectionProtocol/Object/ObjectDeserializer._validate | induction on the position in the table: subclasses are the ancestors, the filtered bases have the same ancestors, gathered lists are what ancestors say, lookups in the chained schema are the keywords in force (relation InForce); then C87's exactness | Vi_*.v |
| C89 | Relative URLs lead back to their target | Ru_Model: relative_url with posixpath.dirname, relpath (abspath, normpath) and urljoin, on character lists | splitting a path of names gives the names; normalising appends; the common part splits both lists; resolving dots pops exactly the names left of the directory | Ru_*.v |
| C90 | Values in log messages | Lf_Model: log_format with python's repr of texts and pprint's nested repr, the limits of the settings, and lazy_format | escaped characters are a prefix code read back one by one; insertion sort gives the sorted members; the shown text of a nested value by induction on the levels left; number of digits bounded by the power of ten; a text is never what is shown of itself, as its first double quote would come from an earlier one | Lf_*.v |
| C91 | Sessions and their repositories | Sr_Model: binding of repositories to sessions by the constructors, get_or_create_repo over the registry of classes, loading of files | invariant of every operation; asking n times by induction on n | Sr_*.v |
| C92 | Reading XML in pieces | Xs_Model: the handler of xmltodict with item_depth and item_callback: path, calls, interruption | below the depth the run is that of Xml_Model (run_element); induction on the depth and the document; simulation against the callback that always accepts | Xs_*.v |
| C93 | What a foreign key refers to | Fc_Model: TypeProtocol.build for 'foreignKey', ForeignKey.set_foreignSchema, set_foreignClass, get_foreignClass; conversion through Fkey_Model | history of uses and of the status of the foreign schema; the class of a key that is not a stand-in never changes | Fc_*.v |
| C94 | Printing an array shows the items it has | `ArrayProtocol._str_list`, `__str__`, `__repr__` with the kept text, over the arrays of C56; `shorten`; `_items_types` for one type and for a list of types (Ap_Model) | the text is computed from the two lists of an array that represents a list of items (the invariant of C56), and its shape compared with an independent description (Ap_Spec); the kept text by induction over histories | Ap_*.v |
| C95 | Which schemas are refused when a type is made | `TypeBuilder.check_schema` with the shared meta validator: the meta-schema ngo-draft-06.json as data, the keywords it uses as jsonschema runs them (a generator of errors), `$recursiveRef` with its scopes, the type checker as a parameter (Ms_Model) | scopes restored by induction on calls, for every meta-schema; the errors found against this meta-schema are exactly the offences (Ms_Spec) by induction over the schema, with enough calls for all its members | Ms_*.v |
| C96 | Qualified names found in the source | `_Visitor` and the table of `qualname` by line: a syntax tree of functions, classes and other nodes, the lines that start with '@' (Qn_Model) | the visit stores exactly the definitions of the tree and restores its stack, by induction over nested nodes; the second pass only adds the lines from the first decorator to the line after the last (Qn_Spec: Defines, Belongs) | Qn_*.v |
| C97 | The commands of a command line | `ComplexCLI.list_commands` and `get_command`, with `inflection.dasherize` and `underscore` as the regular expressions they run; importing a module is a parameter (Cli_Model) | the listing against a relation over the files (Cli_Spec), sorted by induction; the round trip of names character by character; camel case by induction over words | Cli_*.v |
| C98 | Listing namespaces, and the definitions of one | Nl_Model: the listing of a manager over the chain of its registries and the documents, the filter on a text and the sort; the definitions of a namespace with the resolver as a parameter (a document is kept as the names under each tag) | membership in the listing is equivalent to an inductive relation telling where a name leads; strict sortedness gives order and uniqueness at once; lookup in the definitions by induction over the names | Nl_*.v |
| C99 | The schema a type shows | Rs_Model: types as instances (schema of the class and own keywords), constants, arrays and objects, with the two ways of showing a schema as one recursive function; the schema kept of a type given for a property | one equation per kind of type giving the value under every keyword; induction over a relation for the absence of types within; the losses are stated for all types of the kind | Rs_*.v |
| C100 | The text, canonical name and identity keys of an instance follow its values | Ix_Model: a tree of instances with their data, the values kept, the identity keys kept as value and as attribute, and the text kept; operations set, read, read the keys, read the canonical name, ask for the text | invariant over every history (a value kept is that of the data, identity keys kept are current when their dependencies are declared, the text of an entity shows the keys of its attribute, the text of an instance is the expected one unless a name around it changed); the expected name is a relation over the tree; the deviations are stated for every history reaching them | Ix_*.v |
| C101 | Loading a configuration of logs leaves the default configuration alone | Lc_Model: dictionaries on a heap, deep copies as new dictionaries, the load of a file, and the changes a program makes to what it got | invariant over every history: what lies below the dictionaries of the defaults is unchanged and nothing returned refers to it; reading back what was allocated, by induction over trees | Lc_*.v |
| C102 | Committing to a repository of files always fails, after having done its work | Fr_Model: directories and files, os.makedirs, Repository._commit and FileRepository._commit over it, with saver, iteration and encoder given from outside | case analysis for every input; induction over histories of commits for the files and for repeated tries | Fr_*.v |
| C103 | Reducing a collection deletes empty values only where nothing else is around | Rd_Model: reduce_coll as a function given to the walk of Walk_Model; the view of the keys of a dictionary is an atom | induction over the dictionary, the nesting, the length of the list and the chain of keys | Rd_*.v |

## Trusted base

* Coq 8.16.1's kernel (`vm_compute` and `reflexivity` are used for concrete witnesses only).
* No axiom, no `Parameter`, `Variable` outside a section, `Admitted`, functor or module type, no plugin, no kernel flag. `Print
  Assumptions` under each theorem answers "Closed under the global context"; the table in the last section is generated
  from that output for every theorem named in MANIFEST.json. (`vcheck` lists seven `Coq.ssr.ssrunder` names: they are
  parameters of a sealed module of the standard library loaded with ssreflect, no theorem here depends on them.)
* The reading of the Python source: each definition cites the lines it models, and simplifications are in the comments. The main
  ones, common to all areas:
  * Python values are the type `pyval`; floats, bytes and general objects are opaque identities;
  * strings are sequences of code points below 256, `lower`/`upper`/`isspace` follow Python on ASCII and Latin-1 white space;
  * dictionaries are insertion ordered; the iteration order of sets is an arbitrary permutation where the code iterates a set;
  * logging and `repr` have no effect on results;
  * integers are unbounded, memory is unbounded, the recursion limit is modelled only where the code can exceed it for a
    finite input (cycles).

## What is modelled, by source file (under `ngoschema/`)

| file | modelled | not modelled |
|------|----------|--------------|
| utils/utils.py | chain maps, key modifiers, registries, MRO, gcs, topological sort, grouper, brackets helpers, counter, descendants, nested iteration, filter_collection, coercions, casted_as, class_casted_as, directory context, apply_through_collection, reduce_coll (C01-C16, C53, C64, C80, C103) | WeakRegistry, GenericClassRegistry import side |
| utils/_qualname.py | the visitor, the table of names by line, the lookup (C96) | the cache by file name, finding the file and line of an object |
| utils/str_utils.py | multiple_replace, shorten, split_string, inline, rreplace, brackets (C11, C17), log_format and lazy_format (C90) | the wrapped lines of PrettyShortPrinter |
| utils/xmltodict.py, serializers/xml_serializer.py | parse/unparse through SAX events (C50), reading with the remembered tag (C83), namespaces (C86), streaming (C92) | expat itself but for its namespaces, comments, processing instructions |
| query.py | Filter, Query, operators (C18-C22, C55), comparisons of Python values (Cmp_*) | dpath search_object |
| types/array.py, types/collection.py, types/object.py, types/constants.py, types/boolean.py | conversion and validation of arrays, enums, booleans, objects; evaluation order; aliases; nested conversion, validation, evaluation and serialisation (C23-C29, C35, C65, C67) | |
| types/foreign_key.py | ForeignKey and CanonicalName resolution (C48, C54), the class referred to (C93) | |
| types/type.py, types/strings.py, types/numerics.py, protocols/validator.py, converter.py, checker.py, managers/jsch_validators.py | scalar evaluation (C58), validation of nested values with the registered keywords (C87), by classes with their ancestors (C88), schemas against the meta-schema with recursive references (C95) | decimal contexts, messages of errors |
| types/uri.py, types/datetime.py, types/symbols.py | identifiers, dates, symbols (C59-C61) | Uri and Path values (thin wrappers over urllib and pathlib) |
| protocols/context.py, contexts/ | parents and namespaces (C54, C59), sessions (C62) | |
| protocols/object_protocol.py | instance state machine, dotted access, class build (C30-C34, C54), choice of the class of a new object (C71), data of new objects (C74), printing (C75), the cache of names (C76), attribute access (C81), values and accessors given by classes (C84) | equality of defaults of members (taken as given) |
| protocols/collection_protocol.py, array_protocol.py | arrays (C56), item evaluation (C30), equality (C68), printing an array (C94) | `__hash__` (always TypeError, see findings) |
| protocols/type_proxy.py, type_protocol.py, managers/type_builder.py | construction, registration, recursion, extends (C43, C44), the types of items (C77), types by name and in schemas (C78, C79), scalar types made of schemas (C85), the schema shown (C99) | metaclass plumbing |
| managers/relationship_builder.py, relationships.py | building and loading relationships, pointers, descriptors (C69) | the Relationship model class itself |
| managers/namespace_manager.py | C36-C39, C98 | loading a namespace from a module |
| resolvers/uri_resolver.py | fragments, scope, document store, expansion (C40-C42, C44), resolvers and their stores (C73), relative URLs (C89) | remote download (an oracle) |
| session.py, repositories/memory_repository.py, repositories/file_repositories.py | C45-C47, repositories of sessions (C91), commits to repositories of files (C102) | file repositories beyond C49 and C102 |
| protocols/loader.py, repository.py, transformer.py, resolver.py | loading, saving, committing, transforming (C70) | the logger, the contexts created |
| models/files.py, protocols/file_loader.py | load/save/dirty (C49), size and digest (C72) | watchdog, DocumentRegistry queries |
| models/instances.py | canonical names (C54), entities made from keys (C71), texts and identity keys (C100) | |
| decorators.py | take_arrays, memoisation, assert_arg, assert_prop (C51, C52, C57), class properties (C80), logged calls (C82) | |
| loaders/schemas.py, loaders/module.py | schema and folder registration (C63) | preload |
| utils/jinja2.py, config | get_variables (C66), configuration of logs (C101) | template engine, other configuration files |
| cli/__init__.py | ComplexCLI (C97) | the options of base_cli, run_cli, click |

## Findings: claims that are false of the code

The ones with a theorem ending in `_refuted` (see MANIFEST.json) are proved of the model; the others are readings of the source made while modelling it, some covered by examples; those marked (read) are in code that is not modelled.

Utilities and queries
* A context's flattened map is cached and stale after prepend (C03). Unregistering in a diamond raises KeyError with the entry half removed (C06).
* `get_descendant` stops at falsy values; textual path indices stay strings (C13). `filter_collection(only=…)` filters nothing and raises TypeError on sequences (C15). `multiple_replace` with an empty table raises; `Bracket.is_in` means "before", not nested (read).
* An attribute named like an operator cannot be queried; any-of stops at the first missing attribute; `filter` rewrites its own criteria, so reusing them changes the result; `get`/`next` after iterating a filtered query raise; `reverse` gives a one-shot iterator; `order_by` on mixed types raises TypeError and leaves the query unsorted; `union` modifies its receiver (C18-C22).
* `iendswith` asks for the whole text; `ieq` accepts a trailing newline; `regex` matches only at the start (C55).
* `take_arrays` does not zip two one-element arrays; `memoized_property` is assignable; `memoized_method` with `super()` replaces the override; `casted_as` is not undone on an exception (C51-C53).
* `assert_arg` on a method of a false instance (an empty `DocumentRegistry`, say) leaves its argument unchecked and checks the next one; a name that is not a parameter makes every call raise TypeError; position 0 of a method checks the last argument; `assert_args=False` switches off only the outermost of several decorators (C57).
* `apply_through_collection` with a function that deletes items of a list skips the item after each deleted one (`walk_deletion_misses_refuted`), so `reduce_coll` leaves empty items (read).
* On a mapping, an operator that is not one of its keys rejects the object, whatever the test (`operator_on_mapping_refuted`, C19).
* `take_arrays` on a method calls the function of the class without the instance: every call raises TypeError, unless the array is empty (C51).
* `class_casted_as(cls, other)`: with a class mixed in behind `other`, private names change their value (`cast_mixin_refuted`).
* Assigning a class property through its class replaces the property, setter or not (`class_property_lost_refuted`).
* Logged calls (`decorators.py` 178-220): `"%r" % a` with a tuple `a` raises TypeError, so a method decorated with `log_exceptions` or `log_init` cannot be given a tuple of other than one item; a logged function without arguments raises IndexError; a failing `repr` prevents the call or replaces its exception (C82).
* XML namespaces (`utils/xmltodict.py` 94-97): the declarations of an element without attributes are kept until the next element that has attributes, where they appear, or lost (`moved_declaration_refuted`, `declarations_lost_refuted`).
* XML namespaces (`utils/xmltodict.py` 354-366, 425): a name in a namespace given no prefix is written without it; for an attribute (also in the default namespace) the mark '@' is lost with the namespace, and the first letter of the name is then removed instead (`unmapped_namespace_refuted`, `unmapped_attribute_refuted`). `full_name[i+1:]` assumes a separator of one character.
* log_format raises TypeError for sets, shows nothing of what is nested three deep, shows tuples as lists and marks texts of exactly forty characters as longer; a lazy_format message formats its arguments again each time its text is asked for, so that two handlers of one logger write different lines (log_set_refuted, log_deep_refuted, log_tuple_refuted, log_limit_refuted, lazy_again_refuted).
* Streaming XML (`utils/xmltodict.py` 117-128): the text before an element at item_depth, whitespace included, is prepended to its own text, which is not stripped; its attributes are not in the item, nor is its text when it has children (text_leaks_refuted, text_untrimmed_refuted, attributes_lost_refuted). The path given to the callback is the live list of the handler: kept by the callback, it is empty after parsing (by reading).
* `qualname`, for objects without `__qualname__`: a class whose decorator goes over several lines is not found by the line of its `class` statement (`long_decorator_refuted`); there is no `visit_AsyncFunctionDef`, so what is defined in an asynchronous function loses that part of its name (`async_scope_refuted`).
* Command lines: a file `cmd_addUser.py` or `cmd_add-user.py` is listed as a command, but `get_command` looks for `cmd_add_user` and gives None (`listed_but_missing_refuted`).

Types and arrays
* A falsy value given to an array type becomes the default; padding with many=False is not idempotent; sizes and uniqueness are never checked (C23, C24). `Tuple(strDelimiter=',')` does not split, because splitString is off (read).
* Enum: index == size raises IndexError, a non-string non-integer raises UnboundLocalError, negative indices wrap (C25).
* A type given dependencies orders required properties before the optional ones they depend on (classes of objects ask for the order without required names, object_protocol.py:203, and are not affected: `object_order`); the class dependency table is changed by the inputs of one instance; for types cycles go unnoticed when all the keys are required; the default exclusion list of the print order leaks between calls (C27, C35).
* Lazy arrays: assigning to an item already read, and `reverse()`, have no visible effect; slices of unread items are None; slice assignment changes the length but not the items. Eager arrays: `insert` beyond the ends raises IndexError after inserting; at a negative index the new item is not checked; a rejected insert leaves the item in; a rejected assignment keeps the old reading but the array cannot be copied. An IndexError from an item's evaluation silently truncates iteration and construction. With uniqueItems, `append(5)` raises TypeError and the 5 is in: the value is validated as if it were the array, so its own items are hashed; duplicates are never reported. The copy of an emptied array holds the default, of a short one is padded with None to minItems (C56). `hash(array)` always raises TypeError: `tuple` is given two arguments (read).
* An expression that fails to evaluate is kept as text: a string property then silently holds the source of the expression. Raw literals escape type and bounds. `True` is accepted for an integer, and stays a boolean (`boolean_integer_refuted`). The keyword "type" is missing from the registry of keywords given to jsonschema, so types named within a schema (under anyOf, not, …) are never checked, and `with_type` changes nothing (`schema_type_refuted`). A fractional literal is truncated, a fractional expression is a ConversionError, because the value of an expression is first turned into text. A value failing under `allOf` raises TypeError (a position is joined into the error path) instead of InvalidValue (C58).
* `Id.check` refuses the identifier of a whole document ('doc#'), which is what `Id.convert` produces, because geturl drops an empty fragment (`id_check_document_refuted`); without a context it refuses every canonical name, since `find_ns_mgr(None)` raises (`id_check_no_context_refuted`).
* A plain word is converted as a definition of the current namespace even when a document has that id (`id_plain_document_refuted`); the name expression accepts a trailing newline (`id_newline_refuted`); text after a second '#' is dropped (`id_second_hash_refuted`).
* `Symbol.convert` cannot import an attribute whose value is false, such as an empty list (`symbol_falsy_refuted`); an unimportable name is logged and returned as a string (`symbol_not_found`); a submodule hides an object of the same name (`symbol_submodule_refuted`); a string constant is converted to what it names when converted again (`symbol_string_refuted`).
* Text that is no date or time raises IndexError, because the message of the intended InvalidValue has two fields and one value (`date_error_refuted`, `time_error_refuted`). With `index_error_truncates_refuted` (C56) an array of dates silently ends before its first bad item.
* A date, a time or a number converted to a datetime silently becomes None (`datetime_convert_iff`), a text with a date only is no datetime (`datetime_date_text_refuted`), and a format makes writing None fail (`date_format_refuted`).
* A property that has the name of a Python builtin (id, type, max, ...) is never an input of an expression that uses it, so the expression is not evaluated again when it changes (builtin_name_refuted).
* Words of literal texts, keywords and the exponent of a number are taken for inputs of an expression (literal_words_refuted).
* In templates only plain references are understood: '{{ a + b }}' has the one input 'a+b' (template_operands_refuted), names in block tags and arguments of filters are no inputs (template_blocks_refuted, filter_arguments_refuted), '{{ a[0] }}' raises TypeError (template_brackets_refuted), and 'this.'/'self.' is removed within longer names (name_mangled_refuted).
* A text that starts with a backquote and has '{{' in it is evaluated as an expression but asked for the inputs of a template (inputs_by_kind, inputs_by_kind_case).
* Evaluating an object in which a required property is missing does not raise: conversion adds the property, null (`missing_required_refuted`). The check for missing properties can only fail for defaults that replace a null, which are not converted.
* A nested null is replaced by the default as it is, unconverted, while a null evaluated at the top is replaced by the converted default (`default_conversion_refuted`).
* A type whose Python type is tuple has no value but the empty tuple: items are put back one by one and a tuple refuses (`tuple_refuted`). Text given for an array is taken as the array of its characters (`text_as_array_refuted`); for an array of arrays like itself this never ends (`recursive_array_refuted`).
* The keywords excluded when validating an object (`required`, `properties`, …) are handed down as excluded members, so validating does not look at members with those names (`keyword_members_refuted`). A property without type is refused with KeyError by the conversion, before the InvalidValue of the validation can be raised (`undeclared_refused`).
* `Object(patternProperties=…)` raises AttributeError (read). `notValidated` and `notSerialized` given to a collection type are added to sets shared by all of them (read).
* `detect_type` answers 'true' for every value: that type is registered second, after 'null', which accepts nothing, not even None (`detect_refuted`, `null_refuted`, C78). A set is not of the type 'set', lists are. `Uri.check` refuses every text: the inner check raises before the alternatives are looked at (read). `ArrayString` does not ask for strings: its items are of any type (read). `Path` with `relative` computes the relative path and returns the whole one (read).
* `untype_schema` leaves types within lists (`listed_types_refuted`) and replaces an object given as default by a reference to its class (`instance_default_refuted`) (C79).
* Scalar types (`managers/type_builder.py` 83-98): an instance is registered for a scalar schema, but a class for a `$ref` with sibling keywords; reading a property of the latter type calls the class with the value and raises TypeError, or (Number, ForeignKey, whose `__init__` takes an argument) leaves a type object in the property (`refined_read_refuted`).
* Scalar types: `extends` of a scalar type is always refused, an instance is among the bases (`extends_refused_refuted`); `type: enum` with an `enum` is refused, the base is repeated (`enum_type_refuted`).
* Scalar types: narrowing a type that has a default by an enumeration keeps that default, even when it is not a member (`narrowed_default_refuted`); an enumeration evaluates a missing value to its first member when its default counts as false (`false_default_refuted`).
* Schema validation (`managers/jsch_validators.py` 17-51): the keywords `type` and `$ref` are not registered. A schema with `$ref` accepts anything (`references_refuted`); `anyOf` of types accepts anything, `oneOf` of types and `not` a type refuse everything (`any_of_types_refuted`, `one_of_types_refuted`, `not_type_refuted`).
* Schema validation (`managers/jsch_validators.py` 50-51): `$defs` and `definitions` are registered with the function of `properties`, so a property named as a definition must satisfy it (`definitions_refuted`).
* Schema validation (`protocols/validator.py` 57): the path of an error under `allOf` or a list of `items` has a position, which cannot be joined; TypeError is raised instead of InvalidValue (`all_of_refuted`).
* Schema validation (`types/array.py` 167-176, `types/numerics.py` 43-46): texts count as arrays and booleans as numbers (`text_items_refuted`, `boolean_bounds_refuted`).
* An array keeps the text it was first printed as: nothing that changes its items afterwards refreshes it (`printed_forever_refuted`).
* When 'items' is a list of types, items beyond them are neither printed nor counted in '+n...' (`undeclared_items_unprinted_refuted`).
* `repr_schema` is a class method, and `untype_schema` calls it on instances: `Object(properties={'name': String(minLength=3)})` keeps only the type (`instance_property_refuted`), an Object given so keeps nothing (`object_property_refuted`), an Array raises TypeError, because the class of arrays shows the class `_True` for its items (`array_property_refuted`). The items of an array shown are a class or constant itself when they are no instance of a type (`bare_items_refuted`) (C99).

Objects
* A rejected assignment of the same expression leaves the stale value; mutating an input in place is not noticed; a getter returning None makes every second read of its dependents None; None assigned to a property with a default reads None or the default depending on its inputs; an additional property's second expression with the same inputs reads its raw text; a dependency cycle raises RecursionError on assignment (C30).
* Read-only properties can be deleted; `del obj[key]` ignores required; a deleted property cannot be assigned again; deleting a never-read additional property raises after removing its data (C32, C33).
* A negated alias read through item or attribute access has the opposite sign; the type lookup loses aliases (C29).
* Property inheritance is depth first, not MRO; a redefined property without default keeps the inherited default flag; a schema keyword, even empty, hides the class attribute (C34).
* `obj['a[0].b']` always fails; `obj['.a.b']` returns the object itself; `obj['a[0]']` without dot is literal; `obj['a[x].b']` lets ValueError escape; an intermediate None makes a dotted read None and a dotted write do nothing. `_root` uses the truth value of `_parent`, so an empty parent ends the walk; a missing name prints as "None" in canonical names, so distinct objects may share one; `resolve_cname_path` ignores its argument; `split_cname` of a relative name gives '' (C54). `canonicalName` is stale after renaming a parent (read).
* An array has no context of its own: a session given to an array becomes the session of everything that shares its context, and for an array made on its own that is the default context, so every object made later gets it (`array_session_shared_refuted`, `array_default_session_refuted`). An entity given by its key without a session in its context raises AttributeError (`entity_without_session_refuted`).
* What a class lists as not serialised (or, when read-only members are dropped, as read-only) is left out of all the objects within its objects too, whatever their classes (same_name_refuted).
* A required member that is left out is written as null instead of being left out (root_members).
* The items of an array beyond the listed types are written as null (extra_items_refuted).
* An object under a member without declared type is written without the name of its class (untyped_class_refuted); with the defaults asked for, a null object is written as an empty one (null_object_refuted).
* Writing nested entities as references (use_entity_keys) always raises TypeError: the class is asked for its keys (nested_reference_refuted).
* Two distinct objects with members are never equal, whatever their members (`object_equality_refuted`): `__eq__` enumerates the other object and compares `self[0]`, which is the parent, with its first key. An object never equals the dictionary of its members, a copy never equals its original, `in`, `index` and `remove` of arrays find an object only by identity (`object_membership`), and arrays of objects are equal only if they share them (`equal_share_objects`).
* `Class(data)` with a `$schema` in `data` pops it from the caller's dictionary: the same dictionary used again makes an object of another class (`make_again_refuted`); the result need not be an instance of `Class` (`make_instance_refuted`) and is initialised twice when it is an instance of a subclass (`make_schema`).
* `Class(value=data)` ignores `$schema` for the choice of the class (`make_value_refuted`); properties named like the arguments of the constructor cannot be given by keywords (`make_reserved_refuted`).
* Entities are looked up twice, with different classes: an instance of a subclass stored in the repository of its base class cannot be made from its key (`entity_subclass_refuted`), the class and the data may come from two instances (`entity_by_key`, `entity_case`), composite keys never work (`entity_composite_refuted`) and neither do the keys 0 and '' (`entity_falsy_refuted`).
* `SchemaMetaclass` is not the metaclass of the classes it builds (`type(...)` gives ABCMeta), so its `__subclasscheck__`, which compares an id with itself, is never run.
* An empty object of a class without properties keeps its data in `Object._default`, the default of all the classes: an item set on it appears in every object made of nothing afterwards (`common_default_refuted`). Keywords given with a value are ignored; a property named items, validate, context, session or lazyLoading cannot be given by keyword (C74).
* `repr` of an object adds the read-only names of its class to the default of a parameter (object.py:83-92), so members of those names disappear from the texts of all other objects, and from dictionaries serialised through their type without `excludes`, for the rest of the process (C75: `hidden_elsewhere_refuted`).
* The kept text of an object is dropped only when one of its declared members is assigned: adding an undeclared member, reading one, or changing an object it shows leaves the old text (C75: `text_kept_refuted`).
* A value equal to the one stored (True for 1) is stored without clearing the cached value, which is still read (`equal_assignment_refuted`, C31).
* `_properties_raw_trans` keeps its answers in a class attribute, which derived classes share with their base class as soon as that has been asked anything: a name looked up on the base class first loses the meaning (alias) the derived class gives it, and an alias of the derived class can start to work on a base class that allows no such item (C76).
* C81: a method written in the body of a class under the name of one of its properties disappears (`attrs.pop`), and a property named like a method of every object (`items`, `keys`, `get`, `copy`) or like an inner definition is not readable as an attribute although assigning the attribute changes it.
* C81: an attribute of no property that was never set is None when additional properties are allowed, where the item raises KeyError; reading a negated alias as an attribute does not negate.
* Class building (`object_protocol.py` 659-661, 780-784): a property named like a method of a class above is not an attribute of the class, under any name (`method_above_hides_refuted`); one named like a value above is (`value_above_kept`).
* Class building (`object_protocol.py` 726-735): an accessor defined for an inherited property is ignored unless the class also declares the property or gives it a value (`isinstance(b, PropertyDescriptor)` tests the class, not the descriptor): `Document.get_contentRaw` in models/files.py is never used, objects use the one of UriFile (`overridden_accessor_refuted`).
* Class building (690-696): accessors are looked up in the Python bases only, so a class that declares again a property of a schema it `extends` loses its accessors (`extended_accessor_refuted`).
* Class building (709-711, type_builder.py 70-71): a class attribute given as default of a property the same class declares is lost, since the type registered under that name is returned; the property still counts as having a default (`own_value_lost_refuted`).
* Class building (675-676): a keyword of the schema with the name of an inherited property becomes its default, e.g. the description of the class for a property named description (`keyword_becomes_default_refuted`).
* A class that extends one with additionalProperties false accepts further properties unless its own schema refuses them (closed_lost_refuted).
* The keywords of a schema named in extends (minProperties, anyOf, dependencies, ...) are not checked by the extending class, while those of a Python base are (extended_keywords_refuted, python_base_inherited): _schema is chained before the extended bases are added (object_protocol.py 742, 784).
* Class.validate looks at no member: CollectionProtocol._validate defaults to items=False and Collection._validate does not hand items on (members_unchecked_refuted).
* A property in notValidated whose name is that of a keyword switches the keyword off (skipped_keyword_refuted).
* The text of an instance and its canonical name are kept and forgotten only when one of its own values changes: renaming an instance around it leaves both wrong (`text_after_rename_around_refuted`, `canonical_name_after_rename_around_refuted`). `Entity.__str__` shows the attribute `_identityKeys`, written only when the property `identityKeys` is read: after a change of a key the text shows the old one until then (`entity_text_after_change_refuted`). Primary keys given to a constructor whose class has none are no dependency of `identityKeys`, which then never changes (`identity_keys_given_refuted`). A text asked before an expression is evaluated goes on showing the expression (`expression_text_refuted`) (C100).
* Inside an instance without a name canonical names start with `None.`, like inside one named None (`unnamed_around_refuted`); an expression whose value is empty is shown itself in the text of an instance (`empty_value_text_refuted`) (C100).

Namespaces, references, types
* Lookup of a document by canonical name falls back to the first, not the longest match; `set_current` picks by character prefix; lookup by URI picks the greatest name, not the longest URI; `uri_to_cname` puts no dot between namespace and fragment; a relative name may be the name of the current namespace; the round trip loses the current namespace; memoised names ignore namespaces registered later; `clean_js_name` keeps ``[ \ ] ^ ` `` (C36-C39).
* Pointer "-1" finds the last list item; a pointer starting with an empty key skips it; memoised documents are stale after re-registration (C40, C42).
* `TypeBuilder.schema_mro` has no `self`, so `expand` always raises TypeError; an untyped recursive schema raises KeyError; a failed construction leaves the id marked for ever; two ids with the same underscored form overwrite each other; a boolean schema makes a new type each time; a registered id ignores a different schema (C43, C44). `not_ready_yet` in `ObjectProtocol.build` is always empty; inline array and object types are named after `id(self)`, so a reused address finds another type (read).
* A schema with a title but no id is not loaded under its title, `_id_of` returns None and `.rstrip` raises (`title_without_id_refuted`). A schema file that uses the older keyword `id` is registered under the file's name, because `$id` is defaulted first (`file_id_ignored_refuted`).
* `expand` leaves the references of list items (`allOf`, `anyOf`) and of the schema itself relative (`list_reference_unscoped_refuted`, `top_reference_unscoped_refuted`); it would scope the references of the extended schemas in the registered documents themselves, which it does not copy (read).
* `RelationshipBuilder.build`: `bp_fc._localRelationships[bp] = ...` uses the entry (a dict) as key, so any `backPopulates` towards a finished class raises TypeError after having registered a relationship named after the text of the entry (`back_population_refuted`, `back_population_error`); the class being built stays under construction for ever (`failed_class_refuted`).
* `_one2many` is computed as `'OneTo' not in cardinality`: false for OneToMany, true for ManyToOne (`one_to_many_refuted`).
* `RelationshipDescriptor` is made with the name of the pointer (`k_ptr`) and reads `obj['k_ptr']`, not the foreign key `k` (`pointer_read_refuted`); moreover the descriptors are collected in `_relationshipsDescriptor` and never set as attributes of the class.
* `RelationshipBuilder.load(id)` before the class of a cyclic relationship: the nested load registers the relationship, the outer one overwrites it, so the class lists another object than the registry (`relationship_twice_refuted`).
* A resolver made when no document is registered writes its schema into the shared store, because an empty copy is false (`empty_store_refuted`); the private copy of the store loses the normalisation of URIs (`spelling_refuted`); a resolver made for a fragment of an unregistered document does not find its own local references (`own_fragment_refuted`); a resolver repeats an answer after the document changed (`shared_resolver_stale_refuted`); `_resolve` returns None for an unknown URI (`uri_unknown_refuted`). `_expand` is never called and would change stored schemas (read).
* A plain alias does not get the type of its property (line 501 is overwritten by line 502): it is an additional property, or KeyError (`alias_type_refuted`). A class keeps the type found first after it is defined again (`redefined_type_refuted`); asking for a negated alias first keeps the stand-in of its property for good (`negated_stand_in_refuted`); a recursive reference with keywords beside it is taken for the reference alone (`extension_lost_refuted`). Before the type is built, a stand-in checks nothing and converts everything to None (`proxy_calls`) (C77).
* relative_url: a target which is a directory above the base comes back with a slash added, a slash at the end of the target is lost, and a target with dots above the root depends on the working directory (relative_url_slash_refuted, trailing_slash_refuted, working_directory_refuted).
* Foreign keys: `getattr(fc._schema, 'primaryKeys', ['id'])` looks for an attribute of a dictionary, so that the default key is always id (`protocols/type_protocol.py` 62); a key to a schema under construction keeps the key type [Integer] (text keys refused, further keys dropped); a key used twice before the class exists, or made while it does not, is stuck with ObjectProtocol and accepts instances of every class (primary_keys_refuted, circular_text_refuted, circular_several_refuted, early_use_refuted, made_key_refuted, any_object_refuted).
* `check_schema` checks next to nothing: '$ref' and 'type' are not among the registered keywords, so the JSON meta-schema behind `allOf` is never looked at; only an unknown 'complexTypes' is refused (`check_exact`, `anything_accepted_refuted`). The meta validator is created without a type checker: jsonschema 3, the only series with `_validators.dependencies`, then knows no type, and checking fails with UnknownType for every schema (`no_type_checker_refuted`; this rests on the default of that library, which is not in the repository).
* `get_cname_definitions` asks `get_id_cname` for the identifier of a name (it should be `get_cname_id`), so it resolves the name itself and fails on a namespace that is listed (`definitions_of_name_refuted`).

Sessions, repositories, files
* `scoped_session(options)` while a session is present raises NameError; `configure` while present raises AttributeError; `configure(info=None)` breaks later creations with info (C45, C46).
* Committing to a repository with many=False raises TypeError; an object whose key changed is found under both keys (C47). `Session._resolve_cname` uses a missing attribute (read).
* Foreign key 0 or "" becomes () and never resolves, while the first automatic key is 0; resolution asks only the first repository (C48).
* Saving empties the file before encoding, so a failure loses the content; charset and binary options given to one call are not used consistently (C49).
* XML: a lone `#tail` becomes `#text`; text and tail without children merge; `{'#text': s}` alone collapses; a one-element list collapses and an empty list vanishes; None reads back as ''; pretty printing loses the tail with two children; `XmlSerializer.serialize` always raises TypeError (C50).
* `find_one('m/x')` never looks outside the folders of a registered module m (`find_hidden_refuted`).
* Calling a loader, a saver or a resolver (`loader(value)`) ends in `raise <result>`, which is a TypeError whenever loading succeeds (`call_refuted`).
* Committing an object to a repository made with `many=True` extends its content with the *keys* of the serialised object (`repository_mapping_refuted`).
* `Transformer.transform(value, convert=True)` converts the value twice (`transform_twice`, `transform_refuted`).
* `contentSizeHuman` returns a float instead of a text from 1024 TB on (`human_large_refuted`) and shows "1024.0 KB" just below 1 MB (`human_rounds_up_refuted`).
* `FileInfo(filepath=...)` makes `File(filepath)`, which takes the path for the key of an entity and raises without a session (models/files.py:74, C71 `entity_no_session`).
* XML reading (`xml_serializer.py` 54-59): the reader of files is the class itself and keeps the root tag of the first document it reads; every later document with another root is refused with KeyError (`read_depends_on_history_refuted`). `raise NotImplemented(...)` would itself raise TypeError.
* A repository made with session=s is bound to the default session (the argument only reaches the context of the object); get_or_create_repo therefore never finds what it made for another session, looks for class names while classes are registered under short names, and raises TypeError for class names; load_json_from_file and the like leave a repository in the default session for every file (session_argument_refuted, asked_again_refuted, short_names_refuted, class_names_refuted, loads_accumulate).
* `load_log_config` updates the defaults section by section: a file with one handler drops the other default handlers (`log_section_merged_refuted`), and an empty file raises TypeError (`empty_log_file_refuted`) (C101).
* `FileRepository._commit` uses `doc` and `fpath`, which have no value: it always raises (`file_commit_refuted`), after having changed the contents of the repository (`file_commit_retried_refuted`, `file_commit_replaces_refuted`) and made the missing directories (C102).
* `reduce_coll` leaves half of nested lists of one item (`reduce_nested_lists_refuted`), half of the empty values of a list (`reduce_blank_list_refuted`), a view of keys for a dictionary of empty values (`reduce_blank_dictionary_refuted`) and the dictionaries it empties (`reduce_emptied_stays_refuted`) (C103).

## Seeded faults

`seeded/LOG.jsonl` has one line per fault planted in a scratch copy of the model: the definition, the edit, the claim it
breaks, the theorems that stopped proving, and, where a fault survived, the theorems added or tightened for it.

## Assumptions

`Print Assumptions` of every theorem named in MANIFEST.json, by property.

| id | theorems | Print Assumptions |
|----|----|----|
| C01 | `chainmap_first_map_wins`, `chainmap_new_child` | Closed under the global context (each) |
| C02 | `chainmap_iter_keys_once`, `chainmap_iter_order`, `chainmap_reversed_keys_permutation`, `chainmap_merged` | Closed under the global context (each) |
| C03 | `chainmap_flatten_lookup`, `context_flattened_fresh`, `context_flattened_stale_refuted` | Closed under the global context (each) |
| C04 | `context_child_lookup`, `context_frame`, `context_child_no_args_is_self`, `context_prepend_append_lookup` | Closed under the global context (each) |
| C05 | `keymap_refines_map`, `keymap_one_entry_per_key`, `keymap_init_is_sets`, `keymap_variants_share_entry`, `case_insensitive_iterated_found`, `case_insensitive_entries` | Closed under the global context (each) |
| C06 | `registry_register_propagates`, `registry_unregister_iff`, `registry_holds_last_registration`, `registry_unregister_diamond_refuted` | Closed under the global context (each) |
| C07 | `mro_is_c3_linearisation`, `mro_terminates`, `mro_fails_iff_inconsistent`, `mro_c3_unique`, `mro_of_one_class` | Closed under the global context (each) |
| C08 | `gcs_first_common` | Closed under the global context (each) |
| C09 | `topological_sort_layers`, `topological_sort_yields`, `topological_sort_detects_cycles`, `topological_sort_terminates` | Closed under the global context (each) |
| C10 | `grouper_concat`, `grouper_page_sizes`, `grouper_nonpositive` | Closed under the global context (each) |
| C11 | `bracket_kinds_distinct`, `bracket_kind_of_char`, `bracket_kind_total`, `bracket_content`, `bracket_accepted`, `bracket_refused`, `find_brackets_exact`, `find_brackets_raises_iff`, `brackets_nested_or_disjoint`, `find_closing_bracket_first`, `find_closing_bracket_raises_iff`, `bracket_is_in_means_before` | Closed under the global context (each) |
| C12 | `counter_values_consecutive`, `counter_values_distinct`, `counter_thread_increasing`, `counter_mutual_exclusion`, `counter_no_deadlock` | Closed under the global context (each) |
| C13 | `get_descendant_follows_path`, `get_descendant_total`, `get_descendant_missing_none_refuted`, `split_path_components`, `split_path_list_index_refuted` | Closed under the global context (each) |
| C14 | `nested_dict_iter_leaves`, `nested_dict_iter_order`, `nested_dict_iter_default_names`, `nested_dict_iter_names_unique` | Closed under the global context (each) |
| C15 | `filter_collection_but`, `filter_collection_nothing`, `filter_collection_only_keeps_all`, `filter_collection_only_refuted`, `filter_collection_sequence_raises`, `filter_collection_recursive_refuted` | Closed under the global context (each) |
| C16 | `to_list_gives_list`, `to_list_elements`, `to_list_idempotent`, `to_none_single_list_cases`, `to_list_roundtrip` | Closed under the global context (each) |
| C17 | `rreplace_from_right`, `rreplace_empty_raises`, `rreplace_last`, `shorten_short_unchanged`, `shorten_long_truncated`, `multiple_replace_single_pass`, `multiple_replace_reading_unique`, `multiple_replace_identity`, `multiple_replace_empty_table_raises`, `split_string_pieces`, `split_string_stripped`, `split_string_no_delimiter`, `strip_removes_white_space`, `inline_newlines`, `inline_one_line`, `rreplace_negative_all` | Closed under the global context (each) |
| C18 | `filter_exclude_partition`, `filter_selects`, `filter_distinct`, `filter_history_refuted` | Closed under the global context (each) |
| C19 | `filter_all_of_iff`, `filter_any_of_iff`, `filter_any_of_missing_refuted`, `operator_names_child`, `operator_on_mapping_refuted` | Closed under the global context (each) |
| C20 | `criteria_split`, `criteria_components`, `criteria_round_trip`, `criteria_operator_name_refuted` | Closed under the global context (each) |
| C21 | `query_reads`, `query_reads_generator`, `query_get_single`, `query_get_after_iteration_refuted`, `query_reverse_refuted`, `query_order_by_refuted` | Closed under the global context (each) |
| C22 | `query_union`, `query_intersection`, `query_difference`, `query_union_receiver_refuted` | Closed under the global context (each) |
| C23 | `array_deserialize_pads`, `array_deserialize_items`, `array_deserialize_single`, `array_deserialize_idempotent`, `array_deserialize_idempotent_single_refuted`, `array_deserialize_falsy_default`, `array_string_round_trip`, `array_split_join_stable` | Closed under the global context (each) |
| C24 | `array_validate_ignores_sizes`, `array_size_unchecked_refuted` | Closed under the global context (each) |
| C25 | `enum_member_unchanged`, `enum_index`, `enum_result_member`, `enum_index_too_large`, `enum_index_size_refuted`, `enum_unknown_word` | Closed under the global context (each) |
| C26 | `boolean_convert_iff`, `boolean_convert_fails`, `boolean_convert_idempotent` | Closed under the global context (each) |
| C27 | `call_order_complete`, `call_order_dependencies`, `call_order_cycle`, `call_order_required_first_refuted`, `call_order_leaks_inputs_refuted`, `call_order_keeps_dependencies`, `call_order_required`, `object_order`, `object_order_cycle` | Closed under the global context (each) |
| C28 | `object_validate_iff`, `object_validate_refuses` | Closed under the global context (each) |
| C29 | `alias_deserialize_iff`, `alias_deserialize_fails`, `alias_round_trip`, `alias_item_round_trip`, `negated_alias_item_refuted`, `alias_type_refuted`, `other_items`, `missing_item`, `alias_of_negated`, `alias_serialize_iff` | Closed under the global context (each) |
| C30 | `read_coherent`, `read_again_same`, `read_after_failed_assignment_refuted`, `read_after_mutation_refuted`, `read_twice_refuted`, `assign_none_default_refuted`, `additional_expression_refuted`, `mutate_changes` | Closed under the global context (each) |
| C31 | `assign_invalidates`, `assign_same_keeps_cache`, `assign_cycle_fails`, `equal_assignment_refuted` | Closed under the global context (each) |
| C32 | `read_only_assignment_refused`, `read_only_kept`, `read_only_delete_refuted` | Closed under the global context (each) |
| C33 | `required_delete_refused`, `required_survives`, `optional_delete`, `required_item_delete_refuted`, `additional_delete_refuted` | Closed under the global context (each) |
| C34 | `inherit_constraints`, `inherit_properties`, `inherit_aliases`, `inherit_properties_keys`, `inherit_dependencies`, `inherit_primary_keys`, `allowed_names`, `redefined_default_refuted`, `diamond_refuted`, `attribute_required_hidden_refuted` | Closed under the global context (each) |
| C35 | `print_order_keys`, `print_order_once`, `print_order_independent`, `print_order_leak_refuted` | Closed under the global context (each) |
| C36 | `registry_first_wins`, `ns_by_cname_longest`, `ns_by_cname_documents`, `ns_by_cname_none`, `ns_by_cname_documents_refuted`, `set_current_longest`, `set_current_refuted`, `register_ns_keeps`, `add_ns_registers`, `add_ns_fragment` | Closed under the global context (each) |
| C37 | `ns_by_uri_prefix`, `ns_by_uri_document`, `ns_by_uri_specific_refuted`, `uri_norm_exact` | Closed under the global context (each) |
| C38 | `fragment_transparent`, `name_id_round_trip`, `manager_round_trip`, `relative_name`, `absolute_name`, `uri_cname_dot_refuted`, `relative_name_refuted`, `current_round_trip_refuted`, `memoised_name_refuted`, `name_id_guessed`, `urlparse_full`, `uri_cname_words`, `uri_cname_domain`, `namespace_name`, `name_nowhere` | Closed under the global context (each) |
| C39 | `clean_chars`, `clean_after_colon`, `clean_idempotent`, `clean_identity`, `clean_word_by_word`, `clean_for_uri_chars`, `clean_brackets_refuted`, `clean_for_uri_exact` | Closed under the global context (each) |
| C40 | `fragment_resolves`, `fragment_resolves_iff`, `fragment_fails_iff`, `fragment_errors`, `fragment_empty`, `fragment_key`, `fragment_negative_refuted`, `fragment_empty_key_refuted` | Closed under the global context (each) |
| C41 | `scope_plain`, `scope_own_document`, `scope_bare_fragment`, `scope_extra_dropped`, `scope_idempotent` | Closed under the global context (each) |
| C42 | `resolve_first_current`, `resolve_sticks`, `resolve_was_registered`, `resolve_current_refuted`, `lru_transparent` | Closed under the global context (each) |
| C43 | `type_build_terminates`, `type_load_terminates`, `type_built_once`, `type_under_construction`, `type_proxies_resolve`, `type_failed_for_ever`, `type_recursion_untyped_refuted`, `type_overwritten_refuted`, `type_boolean_refuted`, `type_define_boolean` | Closed under the global context (each) |
| C44 | `mro_ancestors`, `mro_order`, `mro_terminates_iff`, `mro_cycle`, `mro_acyclic`, `expand_refuted`, `expand_body_spec` | Closed under the global context (each) |
| C45 | `maker_named`, `maker_option`, `maker_info`, `maker_succeeds`, `maker_history`, `maker_creation_neutral`, `maker_fails` | Closed under the global context (each) |
| C46 | `scoped_same`, `scoped_options_error`, `scoped_distinct`, `scoped_removed`, `scoped_configure`, `scoped_configure_refuted` | Closed under the global context (each) |
| C47 | `repo_one_per_identity`, `repo_last_committed`, `repo_fresh_keys`, `repo_failed_commit`, `repo_commit_succeeds`, `repo_stale_refuted`, `repo_single_refuted`, `repo_commit_fails` | Closed under the global context (each) |
| C48 | `fkey_no_reference`, `fkey_instance_single`, `fkey_instance_composite`, `fkey_idempotent_composite`, `fkey_idempotent_single`, `fkey_idempotent_refuted`, `fkey_arity_refuted`, `fkey_resolves`, `fkey_zero_refuted`, `session_resolve_first`, `fkey_resolve_first_refuted`, `fkey_serialize_scalar`, `fkey_resolve_bool`, `fkey_resolve_unhashable`, `fkey_resolve_nowhere` | Closed under the global context (each) |
| C49 | `save_stores`, `save_same_untouched`, `save_idempotent`, `save_every_point`, `append_adds`, `save_history`, `save_lost_refuted`, `save_charset_refuted`, `save_binary_refuted`, `read_refused`, `append_refused` | Closed under the global context (each) |
| C50 | `parse_document`, `repeated_children_listed`, `xml_round_trip`, `pretty_reads_the_same`, `one_root_only`, `root_list_refused`, `lone_tail_refuted`, `text_and_tail_refuted`, `pretty_tail_refuted`, `none_becomes_empty_text`, `text_only_dictionary_collapses`, `short_lists_refuted`, `xml_serialize_refuted`, `attributes_written`, `namespaces_written`, `pretty_layout`, `text_must_be_text`, `only_force_list_refused` | Closed under the global context (each) |
| C51 | `take_scalar`, `take_each`, `take_pairs`, `take_mismatch`, `take_stops`, `take_flatten`, `take_single_refuted`, `take_method_refuted` | Closed under the global context (each) |
| C52 | `memo_once`, `memo_isolated`, `memo_reset`, `memo_failure`, `memo_read_only_refuted`, `method_transparent`, `method_first_call`, `method_super_refuted` | Closed under the global context (each) |
| C53 | `directory_restored`, `directory_missing`, `directory_nesting`, `cast_restored`, `cast_inside`, `cast_exception_refuted` | Closed under the global context (each) |
| C54 | `parent_is_nearest_object`, `parent_instance_is_nearest`, `canonical_name_is_path`, `canonical_name_of_top`, `canonical_name_of_child`, `canonical_names_distinct`, `canonical_names_distinct_refuted`, `canonical_name_defined`, `root_is_topmost`, `root_is_topmost_refuted`, `split_cname_absolute`, `split_cname_relative_refuted`, `dotted_get`, `dotted_get_else`, `dotted_set`, `dotted_set_sound`, `dotted_set_error`, `dotted_position_refuted`, `search_by_name`, `resolve_cname_ignores_argument_refuted`, `plain_get`, `bad_index` | Closed under the global context (each) |
| C55 | `operator_means`, `operator_undefined`, `size_gives_length`, `item_from_start`, `item_from_end`, `filter_by_test`, `iendswith_refuted`, `iendswith_is_ieq`, `ieq_newline_refuted`, `regex_at_start` | Closed under the global context (each) |
| C56 | `array_is_a_list`, `lazy_array_is_a_list`, `accepted_operations_step`, `array_copy_same`, `lazy_assignment_ignored_refuted`, `lazy_reverse_ignored_refuted`, `insert_out_of_range_refuted`, `negative_insert_unchecked_refuted`, `rejected_insert_stays_refuted`, `rejected_assignment`, `index_error_truncates_refuted`, `lazy_slice_none_refuted`, `lazy_slice_assignment_refuted`, `empty_copy_refuted`, `short_copy_refuted`, `unique_append_refuted` | Closed under the global context (each) |
| C57 | `checked_argument`, `unchecked_call`, `flag_true_ignored`, `all_arguments_checked`, `false_instance_shifts_refuted`, `unknown_name_refuted`, `position_zero_checks_last_refuted`, `flag_reaches_one_decorator_refuted` | Closed under the global context (each) |
| C58 | `evaluation_sound`, `literal_evaluation`, `default_evaluation`, `evaluation_idempotent`, `expression_evaluation`, `template_evaluation`, `schema_verdict`, `failing_expression_kept_refuted`, `raw_literals_unchecked_refuted`, `boolean_integer_refuted`, `schema_type_refuted`, `fractional_expression_refuted`, `allof_failure_refuted` | Closed under the global context (each) |
| C59 | `id_shape`, `id_references`, `id_convert_idempotent`, `id_serialize_round_trip`, `id_written_locally_refuted`, `canonical_round_trip`, `id_check_accepts`, `id_check_document_refuted`, `id_check_no_context_refuted`, `id_plain_document_refuted`, `id_second_hash_refuted`, `id_newline_refuted`, `id_check_type_error` | Closed under the global context (each) |
| C60 | `symbol_found`, `symbol_not_found`, `symbol_decided`, `symbol_accepted`, `symbol_idempotent`, `module_round_trip`, `object_round_trip`, `symbol_falsy_refuted`, `symbol_submodule_refuted`, `symbol_builtin_refuted`, `symbol_string_refuted`, `symbol_builtin_string_refuted` | Closed under the global context (each) |
| C61 | `date_convert_iff`, `time_convert_iff`, `datetime_convert_iff`, `dates_idempotent`, `dates_round_trip`, `date_error_refuted`, `time_error_refuted`, `datetime_date_text_refuted`, `date_format_refuted`, `dates_formatted` | Closed under the global context (each) |
| C62 | `object_session`, `nested_session`, `session_kept`, `sessions_good`, `entity_lookup`, `array_session_shared_refuted`, `array_default_session_refuted`, `entity_without_session_refuted` | Closed under the global context (each) |
| C63 | `schema_uri_iff`, `load_registers`, `load_fails`, `folder_loaded`, `folder_loaded_user`, `bad_files_ignored`, `order_irrelevant`, `find_in_module`, `find_everywhere`, `find_backslash`, `folder_registered`, `title_without_id_refuted`, `file_id_ignored_refuted`, `find_hidden_refuted`, `unreadable_file` | Closed under the global context (each) |
| C64 | `walk_replaces`, `scope_refs_leaves`, `scope_refs_total`, `scope_refs_stable`, `list_reference_unscoped_refuted`, `top_reference_unscoped_refuted`, `walk_deletion_misses_refuted` | Closed under the global context (each) |
| C65 | `shown_written`, `written_shown`, `left_out_everywhere`, `not_serialized_below`, `only_shown_matters`, `typed_written`, `root_as_nested`, `root_members`, `entity_by_keys`, `nested_reference_refuted`, `extra_items_refuted`, `untyped_class_refuted`, `declared_class`, `null_object_refuted`, `same_name_refuted`, `entity_keys_missing`, `wrong_kind`, `keys_added`, `root_reference` | Closed under the global context (each) |
| C66 | `expression_inputs`, `inputs_suffice`, `expression_read`, `template_names`, `inputs_by_kind`, `builtin_name_refuted`, `literal_words_refuted`, `template_operands_refuted`, `template_blocks_refuted`, `filter_arguments_refuted`, `template_brackets_refuted`, `name_mangled_refuted`, `raw_no_inputs` | Closed under the global context (each) |
| C67 | `evaluate_iff`, `evaluate_limit`, `evaluate_fails`, `evaluated_valid`, `evaluate_idempotent`, `scalar_evaluated`, `scalar_origin`, `containers_checked`, `undeclared_refused`, `too_many_items_refused`, `missing_required_refuted`, `not_a_mapping_refused`, `not_a_sequence_refused`, `tuple_refuted`, `text_as_array_refuted`, `recursive_array_refuted`, `keyword_members_refuted`, `default_conversion_refuted`, `keyword_items_refuted`, `evaluate_type_error` | Closed under the global context (each) |
| C68 | `equality_means`, `equality_equivalence`, `array_equality`, `object_equality_refuted`, `equal_share_objects`, `contains_equal`, `index_first`, `object_membership`, `index_missing` | Closed under the global context (each) |
| C69 | `load_reaches`, `relationships_listed`, `relationships_kept`, `failed_class_refuted`, `back_population_refuted`, `back_population_error`, `one_to_many_refuted`, `pointer_made`, `pointer_read_refuted`, `descriptor_round_trip`, `relationship_twice_refuted`, `missing_parts` | Closed under the global context (each) |
| C70 | `load_many`, `load_text`, `load_one`, `load_raw`, `call_refuted`, `repository_many`, `commit_effect`, `repository_one`, `repository_mapping_refuted`, `repository_membership`, `dump_load`, `transform_twice`, `transform_refuted`, `save_steps`, `repository_text_membership`, `resolve_steps` | Closed under the global context (each) |
| C71 | `make_plain`, `make_own_schema`, `make_schema`, `make_unknown_schema`, `make_instance_refuted`, `make_again_refuted`, `make_keywords`, `make_value_refuted`, `make_reserved_refuted`, `entity_by_key`, `entity_no_session`, `entity_subclass_refuted`, `entity_composite_refuted`, `entity_falsy_refuted`, `make_keywords_data`, `make_keywords_last`, `make_schema_not_text`, `make_entity_keywords` | Closed under the global context (each) |
| C72 | `human_nearest`, `human_large_refuted`, `human_bytes`, `human_monotone`, `human_rounds_up_refuted`, `sha1_whole`, `sha1_content`, `sha1_no_file_refuted` | Closed under the global context (each) |
| C73 | `documents_kept`, `documents_added`, `empty_store_refuted`, `private_resolver_stable`, `own_schema_found`, `registered_found`, `spelling_refuted`, `own_fragment_refuted`, `shared_resolver_follows`, `registered_resolver_shared`, `shared_resolver_stale_refuted`, `uri_registered`, `uri_unknown_refuted`, `uri_download` | Closed under the global context (each) |
| C74 | `new_members`, `new_accepted`, `new_errors`, `new_again`, `keywords_are_items`, `keywords_ignored_refuted`, `reserved_keyword_refuted`, `objects_independent`, `common_default_refuted` | Closed under the global context (each) |
| C75 | `repr_shows`, `str_shows`, `printed_again`, `hidden_history`, `repr_hides`, `hidden_elsewhere_refuted`, `serialized_spec`, `text_kept_refuted`, `assigned_shows`, `value_shown`, `read_keeps` | Closed under the global context (each) |
| C76 | `first_lookup`, `lookup_origin`, `lookup_agreed`, `lookup_stable`, `base_decides_refuted`, `derived_decides_refuted`, `answer_changes_refuted` | Closed under the global context (each) |
| C77 | `item_type_declared`, `item_type_unknown`, `property_first`, `proxy_calls`, `alias_type_refuted`, `redefined_type_refuted`, `negated_stand_in_refuted`, `extension_lost_refuted` | Closed under the global context (each) |
| C78 | `is_type_known`, `is_type_unknown`, `register_type_only`, `detect_first`, `detect_refuted`, `null_refuted` | Closed under the global context (each) |
| C79 | `untype_keeps`, `untype_adds_nothing`, `untype_plain`, `untype_no_types`, `listed_types_refuted`, `instance_default_refuted`, `untype_not_mapping` | Closed under the global context (each) |
| C80 | `cast_parents_only`, `cast_refused`, `cast_public`, `cast_own`, `cast_private`, `cast_mixin_refuted`, `class_property_read`, `class_property_set`, `class_property_lost_refuted`, `undefined_get` | Closed under the global context (each) |
| C81 | `property_attribute`, `method_lost_refuted`, `protocol_hides_refuted`, `definition_hides_refuted`, `attribute_is_item`, `last_assignment`, `negated_attribute_refuted`, `additional_attribute`, `undeclared_attribute`, `private_attribute`, `hidden_attribute_refuted`, `missing_attribute`, `own_attribute_kept`, `method_above_hides_refuted`, `value_above_kept` | Closed under the global context (each) |
| C82 | `logged_call`, `logged_init_call`, `no_logger_no_trace`, `logged_transparent`, `logged_init_transparent`, `journal_of_call`, `journal_of_init`, `tuple_argument_refuted`, `no_argument_refuted`, `unprintable_refuted`, `exception_lost_refuted`, `init_without_logger_refuted` | Closed under the global context (each) |
| C83 | `first_read`, `later_read`, `first_root_decides`, `same_roots_independent`, `empty_read_keeps`, `tag_never_changes`, `written_then_read`, `default_content`, `read_depends_on_history_refuted` | Closed under the global context (each) |
| C84 | `value_becomes_default`, `wrong_value_refused`, `counted_defaults`, `own_accessors`, `other_accessors_inherited`, `line_types`, `line_accessors`, `overridden_accessor_refuted`, `extended_accessor_refuted`, `keyword_becomes_default_refuted`, `own_value_lost_refuted` | Closed under the global context (each) |
| C85 | `loaded_keywords`, `loaded_default`, `loaded_stable`, `reference_same`, `load_succeeds`, `plain_read`, `refined_read_refuted`, `narrowed_default_refuted`, `false_default_refuted`, `extends_refused_refuted`, `enum_type_refuted`, `unknown_type_refused` | Closed under the global context (each) |
| C86 | `parse_namespaces`, `accepted_iff_means`, `declared_where_made`, `declarations_lost_refuted`, `moved_declaration_refuted`, `prefixes_only_rename`, `namespaces_round_trip`, `unmapped_namespace_refuted`, `unmapped_attribute_refuted`, `one_root_with_namespaces` | Closed under the global context (each) |
| C87 | `validate_exact`, `validate_standard`, `validate_refuses`, `validate_invalid`, `all_of_refuted`, `report_names`, `keyword_order`, `references_refuted`, `any_of_types_refuted`, `one_of_types_refuted`, `not_type_refuted`, `definitions_refuted`, `text_items_refuted`, `boolean_bounds_refuted`, `left_out_by_name` | Closed under the global context (each) |
| C88 | `class_validate_exact`, `class_validate_refuses`, `substitutable`, `python_base_inherited`, `extended_keywords_refuted`, `closed_lost_refuted`, `members_unchecked_refuted`, `skipped_keyword_refuted` | Closed under the global context (each) |
| C89 | `relative_url_exact`, `relative_url_anywhere`, `relative_url_hosts`, `relative_url_back`, `relative_url_slash_refuted`, `trailing_slash_refuted`, `working_directory_refuted` | Closed under the global context (each) |
| C90 | `log_list_exact`, `log_map_exact`, `log_text_tells`, `log_text_exact`, `repr_literal`, `log_bounded`, `log_defined`, `log_set_refuted`, `log_deep_refuted`, `log_tuple_refuted`, `log_limit_refuted`, `lazy_first`, `lazy_again_refuted`, `log_deep_shown` | Closed under the global context (each) |
| C91 | `made_exact`, `bound_listed`, `session_argument_refuted`, `get_existing`, `asked_again_refuted`, `default_finds`, `short_names_refuted`, `class_names_refuted`, `loads_accumulate`, `nothing_removed` | Closed under the global context (each) |
| C92 | `stream_exact`, `stream_stops`, `stream_no_depth`, `stream_clean`, `stream_counts`, `text_leaks_refuted`, `text_untrimmed_refuted`, `attributes_lost_refuted` | Closed under the global context (each) |
| C93 | `declared_key`, `primary_keys_refuted`, `unknown_key`, `unknown_schema`, `circular_key`, `instance_declared`, `circular_text_refuted`, `circular_several_refuted`, `any_object_refuted`, `early_use_refuted`, `early_use_then`, `made_key`, `made_key_refuted`, `key_without_schema` | Closed under the global context (each) |
| C94 | `first_print`, `print_after_reading`, `lazy_print_raw`, `print_changes_nothing`, `printed_forever_refuted`, `undeclared_items_unprinted_refuted` | Closed under the global context (each) |
| C95 | `checks_independent`, `check_exact`, `anything_accepted_refuted`, `no_type_checker_refuted` | Closed under the global context (each) |
| C96 | `names_exact`, `long_decorator_refuted`, `async_scope_refuted` | Closed under the global context (each) |
| C97 | `commands_listed`, `listed_name_leads_back`, `camel_case_names`, `listed_commands_run`, `listed_but_missing_refuted`, `capital_names`, `shouted_names`, `acronym_names`, `module_without_command` | Closed under the global context (each) |
| C98 | `namespaces_listed`, `namespaces_sorted`, `definitions_listed`, `definitions_of_name_refuted` | Closed under the global context (each) |
| C99 | `scalar_shown`, `array_shown`, `object_shown`, `built_shown`, `type_first`, `clean_shown`, `instance_property_refuted`, `object_property_refuted`, `array_property_refuted`, `bare_items_refuted` | Closed under the global context (each) |
| C100 | `instance_text_current`, `instance_text_after_change`, `text_after_rename_around_refuted`, `canonical_name_after_change`, `canonical_name_after_rename_around_refuted`, `identity_keys_current`, `identity_keys_given_refuted`, `entity_text_after_reading`, `entity_text_after_change_refuted`, `expression_text_refuted`, `empty_value_text_refuted`, `unnamed_around_refuted`, `texts_separated` | Closed under the global context (each) |
| C101 | `log_defaults_kept`, `log_sections`, `log_section_merged_refuted`, `empty_log_file_refuted`, `log_change_made` | Closed under the global context (each) |
| C102 | `file_commit_refuted`, `file_commit_name_error`, `file_commit_writes_nothing`, `file_commit_retried_refuted`, `file_commit_replaces_refuted`, `file_commit_failed_save`, `file_commit_directories`, `prefixes_are_beginnings`, `file_commit_no_path` | Closed under the global context (each) |
| C103 | `reduce_plain_dictionary`, `reduce_nested_lists_refuted`, `reduce_blank_dictionary_refuted`, `reduce_blank_list_refuted`, `reduce_emptied_stays_refuted`, `reduce_raises_nothing` | Closed under the global context (each) |
