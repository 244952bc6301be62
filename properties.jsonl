{"id": "C01", "title": "Chain-map lookup is first-map-wins", "statement": "Indexing a ReadOnlyChainMap with a key returns the value stored under that key by the earliest of its maps that has the key; it raises KeyError exactly when no map has it; `key in chain` answers True exactly when indexing would succeed.", "quantifier": "every list of (possibly nested) maps and every key", "why_tests_cant": "the number and contents of chained maps are unbounded; tests only sample a couple of overlaps", "anchors": ["ngoschema/utils/utils.py: ReadOnlyChainMap.__getitem__, __contains__"]}
{"id": "C02", "title": "Chain-map iteration lists every key exactly once", "statement": "Iterating a ReadOnlyChainMap yields each key that can be looked up exactly once, in order of first appearance; len() is the number of keys iterated; reversed_keys() yields the same keys, each once; merged is a dict with exactly those keys and the looked-up values.", "quantifier": "every list of maps, nested chain maps included", "why_tests_cant": "depends on arbitrary overlap patterns between arbitrarily many maps", "anchors": ["ngoschema/utils/utils.py: ReadOnlyChainMap.__iter__, __len__, reversed_keys, merged"]}
{"id": "C03", "title": "Flattening a chain of chains preserves lookup, as long as it is fresh", "statement": "maps_flattened of a nested chain map gives a flat list of plain maps whose chained lookup is the same as the nested lookup. After a prepend/append on a Context, the flattened list still reflects the old chain (known deviation).", "quantifier": "every nesting depth and shape", "why_tests_cant": "nesting depth is unbounded", "anchors": ["ngoschema/utils/utils.py: ReadOnlyChainMap.maps_flattened, Context.prepend, Context.append"]}
{"id": "C04", "title": "Child contexts shadow and never disturb their parent", "statement": "A lookup in ctx.create_child(*parents, **local) gives the local value if any, else the first parent's, else what ctx gives; ctx itself is not changed by creating the child nor by prepending/appending maps to the child; creating a child without arguments gives the same context back (so that a prepend on it is visible in ctx).", "quantifier": "every context chain, every set of extra maps and every sequence of create_child/prepend/append operations over a family of contexts", "why_tests_cant": "needs all operation histories over an unbounded family of contexts", "anchors": ["ngoschema/utils/utils.py: Context.__init__, create_child, prepend, append", "ngoschema/protocols/context.py: Context._create_context"]}
{"id": "C05", "title": "Key-normalising dictionaries behave as a map over normalised keys", "statement": "Any sequence of get/set/delete/contains/len operations on a CaseInsensitiveDict (or any key-modifier mapping) gives the same answers as a plain finite map indexed by the normalised key; spelling variants of one key always see the same entry; there are never two entries for equivalent keys.", "quantifier": "every operation sequence, every key, every idempotent or non-idempotent normaliser", "why_tests_cant": "operation histories are unbounded", "anchors": ["ngoschema/utils/utils.py: _KeyModifierMapping, CaseInsensitiveDict, UriDict"]}
{"id": "C06", "title": "Registering in a registry reaches every ancestor registry", "statement": "After register(key, value) the registry and every registry reachable through parents map key to value, every other key and every other registry are unchanged. unregister(key) removes it from the registry and all ancestors when all of them hold it; when an ancestor lacks it, KeyError is raised after part of the registries has already been modified (known deviation).", "quantifier": "every acyclic parent graph, every history of register/unregister", "why_tests_cant": "registry graphs and histories are unbounded", "anchors": ["ngoschema/utils/utils.py: Registry.register, Registry.unregister, GenericClassRegistry.register"]}
{"id": "C07", "title": "Method resolution order is a C3 linearisation", "statement": "mro(*bases) either raises TypeError or returns a tuple that lists every class of the inputs' linearisations exactly once, keeps the relative order of each input linearisation and of the bases themselves; it always terminates; it raises only if at some point every remaining head appears in the tail of a remaining sequence, and in particular it succeeds for a single base with its own linearisation.", "quantifier": "every finite list of base classes and linearisations", "why_tests_cant": "class hierarchies are unbounded; a wrong merge step shows only on particular diamonds", "anchors": ["ngoschema/utils/utils.py: mro"]}
{"id": "C08", "title": "Greatest common superclass", "statement": "gcs(*classes) returns the first class in the first argument's MRO that is a superclass of all arguments; it returns None only when the arguments have no common superclass.", "quantifier": "every non-empty list of classes with arbitrary MROs", "why_tests_cant": "class hierarchies are unbounded", "anchors": ["ngoschema/utils/utils.py: gcs"]}
{"id": "C09", "title": "Topological sort layers a dependency graph", "statement": "Consuming topological_sort(data) yields pairwise disjoint non-empty sets; each item comes strictly after all the (other) items it depends on; if the graph has no cycle (self-loops ignored) the union of the sets is exactly all items and dependencies mentioned and no error is raised; if it has a cycle an AssertionError is raised, after the layers of all items that do not depend on a cycle have been yielded; it always terminates.", "quantifier": "every finite dependency graph", "why_tests_cant": "graphs are unbounded; cycles of every length must be detected", "anchors": ["ngoschema/utils/utils.py: topological_sort"]}
{"id": "C10", "title": "Paging preserves the stream", "statement": "grouper(n, it) yields pages whose concatenation is the input; for n >= 1 all pages but the last have exactly n items and the last has fewer than n (possibly zero); for n = 0 there is a single page with everything.", "quantifier": "every iterable and page size", "why_tests_cant": "sizes are unbounded", "anchors": ["ngoschema/utils/utils.py: grouper"]}
{"id": "C11", "title": "Bracket matching finds exactly the matched pairs", "statement": "find_brackets(text, b) raises IndexError exactly when some prefix of text has more closing than opening brackets; otherwise it returns, in order of closing position, all pairs (open, close) such that the text strictly between is balanced and no closing position is missing; the returned pairs are properly nested or disjoint; unmatched opening brackets are ignored. find_closing_bracket returns the first pair that closes all brackets open so far.", "quantifier": "every text, every bracket kind", "why_tests_cant": "texts are unbounded and nesting arbitrary", "anchors": ["ngoschema/utils/utils.py: Bracket.find_brackets, find_closing_bracket, get_brackets, is_in"]}
{"id": "C12", "title": "Thread-safe counter hands out consecutive unique numbers", "statement": "Whatever the interleaving of threads calling the function returned by threadsafe_counter(init), the values returned are pairwise distinct, consecutive from init, each thread sees increasing values, and at most one thread is between acquire and release.", "quantifier": "every number of threads, every interleaving of their steps", "why_tests_cant": "schedules are unbounded", "anchors": ["ngoschema/utils/utils.py: threadsafe_counter"]}
{"id": "C13", "title": "Path-based access to descendants", "statement": "get_descendant(obj, keys) follows the keys one by one; if every step exists and no intermediate value is falsy it returns the value at the path; if a step is missing it returns None; it never raises for a non-empty key list. A falsy intermediate value is returned in place of the missing deeper value (known deviation). split_path of a dotted path with bracketed indices gives the components in order.", "quantifier": "every nested object and every key list", "why_tests_cant": "nesting depth is unbounded", "anchors": ["ngoschema/utils/utils.py: split_path, get_descendant"]}
{"id": "C14", "title": "Nested dictionary iteration enumerates the leaves", "statement": "nested_dict_iter(d) yields, for each non-mapping leaf, exactly once, the pair (path joined with '.', leaf) in depth-first insertion order; no other pair is produced. With a custom separator only the first join uses it (known deviation).", "quantifier": "every nested dictionary", "why_tests_cant": "nesting depth and width are unbounded", "anchors": ["ngoschema/utils/utils.py: nested_dict_iter"]}
{"id": "C15", "title": "Collection filtering", "statement": "filter_collection(data, but=ks) on a mapping returns a copy without the keys in ks and with all other entries unchanged in value and order; the input is not modified; without only/but the same object is returned. `only` keeps everything (known deviation) and a non-empty sequence raises TypeError (known deviation).", "quantifier": "every mapping, every key set", "why_tests_cant": "inputs are unbounded", "anchors": ["ngoschema/utils/utils.py: filter_collection"]}
{"id": "C16", "title": "List coercions", "statement": "to_list always gives a list (or the default for None), is idempotent and keeps the elements; to_none_single_list gives None for no element, the element for one, the list for more; applying to_list to its result gives back the elements for every list of non-None scalar elements.", "quantifier": "every value", "why_tests_cant": "value shapes are unbounded", "anchors": ["ngoschema/utils/utils.py: to_list, to_none_single_list"]}
{"id": "C17", "title": "String replacement and shortening", "statement": "rreplace(s, old, new, n) replaces exactly the last min(n, count) non-overlapping occurrences found from the right; shorten returns a text of at most max_size characters unchanged and otherwise its first max_size characters followed by '...'; multiple_replace scans once, left to right, and never rewrites a replacement (an empty table raises KeyError, known deviation); split_string cuts at every delimiter and loses nothing else.", "quantifier": "every string", "why_tests_cant": "string contents and lengths are unbounded", "anchors": ["ngoschema/utils/str_utils.py: rreplace, shorten, _multiple_replacer, multiple_replace, split_string"]}
{"id": "C18", "title": "filter and exclude split a query", "statement": "For a fixed criteria set, Query(it).filter(c) yields exactly the truthy objects satisfying c, Query(it).exclude(c) exactly the truthy objects not satisfying it, both in source order; together they are a partition of the truthy objects.", "quantifier": "every iterable of objects and every criteria on plain attributes/operators", "why_tests_cant": "object sets and criteria are unbounded", "anchors": ["ngoschema/query.py: Filter.__call__, Query._filter_or_exclude, filter, exclude"]}
{"id": "C19", "title": "Query criteria: all-of and any-of", "statement": "With plain criteria, filter(k1=v1, ..., kn=vn) keeps an object iff all criteria hold; filter_any_of keeps it iff at least one holds. An object missing one of the attributes is dropped by filter_any_of even if another criterion holds (known deviation). On a mapping, an operator name that is one of its keys names that member instead of a test, and any other operator rejects the object whatever the value (known deviation). Equality is Python's: True equals 1, a tuple and a list are never equal, mappings are compared whatever the order of their keys.", "quantifier": "every object and criteria list", "why_tests_cant": "number of criteria is unbounded", "anchors": ["ngoschema/query.py: Filter.__call__, filter_any_of, exclude_any_of"]}
{"id": "C20", "title": "Criteria parsing splits attribute path and operators", "statement": "Parsing a keyword 'a__b__op1__op2' gives the attribute path ['a','b'] and the operators in written order; the concatenation of both is the keyword's components; the operator part is the longest suffix made of known operators and '@n' tokens.", "quantifier": "every keyword", "why_tests_cant": "keywords are unbounded", "anchors": ["ngoschema/query.py: _sort_criteria"]}
{"id": "C21", "title": "Query result retrieval", "statement": "get() returns the single match, raises when there are none or several; next()/first() return the first match or raise StopIteration/return the default; count is the number of results; indexing and slicing agree with the list of results for non-negative indices; repeated reads of one query give the same results.", "quantifier": "every query and every sequence of reads", "why_tests_cant": "read sequences and result sizes are unbounded", "anchors": ["ngoschema/query.py: Query.get, next, first, count, __getitem__, __len__, __iter__, result_cache"]}
{"id": "C22", "title": "Query set operations", "statement": "union, intersection and difference of two queries contain exactly the objects of either, both, first-only, up to equality. union also modifies the receiver's own cached results (known deviation).", "quantifier": "every pair of queries", "why_tests_cant": "result sizes are unbounded", "anchors": ["ngoschema/query.py: Query.union, intersection, difference"]}
{"id": "C23", "title": "Array deserialisation", "statement": "Array(...) deserialisation always produces a list: None gives the default, a delimited string is split when allowed, a non-sequence is wrapped; joining the split parts with the delimiter and splitting again is stable; lists shorter than minItems are padded to minItems; deserialising an already deserialised value changes nothing.", "quantifier": "every value and every array type configuration", "why_tests_cant": "values are unbounded", "anchors": ["ngoschema/types/array.py: ArrayDeserializer._deserialize, Array"]}
{"id": "C24", "title": "Array size and uniqueness constraints", "statement": "A value whose length is outside [minItems, maxItems] or which repeats an item although uniqueItems is set should be rejected by validation. The code never raises for such values (known deviation).", "quantifier": "every array value and configuration", "why_tests_cant": "needs every list", "anchors": ["ngoschema/types/array.py: ArrayDeserializer._validate, Array._validate"]}
{"id": "C25", "title": "Enum conversion", "statement": "Converting a member of an enum returns it unchanged; converting an index 0 <= i < n that is not itself a member gives the i-th member; the result of a successful conversion is always a member; an index above n raises ConversionError; an index equal to n escapes as IndexError (known deviation).", "quantifier": "every enum list and every value", "why_tests_cant": "enum sizes and integers are unbounded", "anchors": ["ngoschema/types/type.py: Enum._convert"]}
{"id": "C26", "title": "Boolean conversion", "statement": "Conversion to boolean is idempotent; accepts exactly booleans, the configured true/false words in any case, and 0/1; everything else raises ConversionError.", "quantifier": "every value", "why_tests_cant": "strings are unbounded", "anchors": ["ngoschema/types/boolean.py: Boolean._convert"]}
{"id": "C27", "title": "Evaluation order of an object's items", "statement": "The items of an object of a class are evaluated exactly once each, an item after those it depends on, required or not, by the dependencies of its class or by what its value mentions; cyclic dependencies raise AssertionError. A type orders the members of a dictionary with the required ones first, then the others, these after those they depend on.", "quantifier": "every property set, required set and dependency graph", "why_tests_cant": "graphs are unbounded", "anchors": ["ngoschema/types/object.py: ObjectDeserializer._call_order", "ngoschema/protocols/object_protocol.py: ObjectProtocol._call_order"]}
{"id": "C28", "title": "Required properties and additional properties are enforced", "statement": "Validating a mapping whose items are valid raises InvalidValue iff a required property is missing (excluding it from validation changes nothing) or, with additionalProperties false, iff a key is neither declared nor matched by a pattern.", "quantifier": "every mapping, every declaration", "why_tests_cant": "key sets are unbounded", "anchors": ["ngoschema/types/object.py: ObjectDeserializer._validate, Object._validate"]}
{"id": "C29", "title": "Aliases and negated aliases translate on input", "statement": "Deserialising a mapping replaces each translated/aliased key by the declared property name with the same value and each negated alias by the property with the opposite value; other keys are unchanged; serialise-then-deserialise with aliases recovers the data.", "quantifier": "every mapping and alias table", "why_tests_cant": "mappings are unbounded", "anchors": ["ngoschema/protocols/object_protocol.py: ObjectProtocol._deserialize, _serialize", "ngoschema/types/object.py: Object._deserialize, _print_order"]}
{"id": "C30", "title": "A property read returns the evaluation of the latest assignment", "statement": "After any history of assignments and reads on an instance with lazily cached properties, reading a property returns what evaluating its current raw value with the current values of the properties it depends on would return, never a value cached before a dependency was assigned. This takes values of one kind for each property: a value that Python takes for equal to the one before (True for 1) is not noticed (known deviation).", "quantifier": "every acyclic dependency graph and every history of set/get", "why_tests_cant": "histories and graphs are unbounded", "anchors": ["ngoschema/protocols/collection_protocol.py: _items_touch, _set_data, _set_dataValidated, __getitem__", "ngoschema/protocols/object_protocol.py: PropertyDescriptor, __getitem__, __setitem__, _items_touch"]}
{"id": "C31", "title": "Assigning a property invalidates exactly the dependents", "statement": "Assigning a changed value (one not equal to the one before) clears the cached value of that property and of every property that transitively depends on it and of no other; with acyclic dependencies invalidation terminates; with a dependency cycle it never terminates (Python RecursionError, known deviation).", "quantifier": "every dependency graph", "why_tests_cant": "graphs are unbounded", "anchors": ["ngoschema/protocols/collection_protocol.py: _items_touch", "ngoschema/protocols/object_protocol.py: ObjectProtocol._items_touch"]}
{"id": "C32", "title": "Read-only properties keep their value", "statement": "No sequence of attribute or item assignments and deletions changes the stored value of a read-only property; each attempt raises AttributeError and leaves the instance unchanged.", "quantifier": "every operation history", "why_tests_cant": "histories are unbounded", "anchors": ["ngoschema/protocols/object_protocol.py: PropertyDescriptor.__set__, __delete__, ObjectProtocol.__setitem__"]}
{"id": "C33", "title": "Required properties cannot be deleted", "statement": "Deleting a required property by attribute raises AttributeError and leaves the instance unchanged, in every reachable state; a deletion of an optional property removes it from reads.", "quantifier": "every operation history", "why_tests_cant": "histories are unbounded", "anchors": ["ngoschema/protocols/object_protocol.py: PropertyDescriptor.__delete__"]}
{"id": "C34", "title": "Schema inheritance accumulates constraints", "statement": "The required, read-only, not-serialised and not-validated sets of a built class are the union of its own and all its bases'; its properties are the union with the class's own definition winning, then the earlier base; dependencies of a property accumulate.", "quantifier": "every inheritance list", "why_tests_cant": "hierarchies are unbounded", "anchors": ["ngoschema/protocols/object_protocol.py: ObjectProtocol.build"]}
{"id": "C35", "title": "Serialisation includes each property at most once and honours exclusions", "statement": "The print order of an object lists each key at most once, never an excluded key that is not required, and with `only` given nothing outside it; the exclusion list passed by one call must not influence another call (known deviation: a shared default list is extended in place).", "quantifier": "every object, every call sequence", "why_tests_cant": "call histories are unbounded", "anchors": ["ngoschema/types/object.py: ObjectSerializer._print_order, Object._print_order", "ngoschema/protocols/serializer.py: Serializer._is_included"]}
{"id": "C36", "title": "Namespace lookup by canonical name picks the most specific namespace", "statement": "The namespace found for a canonical name is the longest registered namespace name that equals it or is followed by a dot in it; it fails exactly when there is none (in registered namespaces or loaded documents).", "quantifier": "every set of registered namespaces and every name", "why_tests_cant": "names and registries are unbounded", "anchors": ["ngoschema/managers/namespace_manager.py: _find_ns_by_cname"]}
{"id": "C37", "title": "Namespace lookup by URI", "statement": "The namespace found for a URI has a registered uri that is a prefix of it and lookup succeeds whenever such a prefix exists; among several it is chosen by namespace name, not by uri length (known deviation).", "quantifier": "every set of registered namespaces and every uri", "why_tests_cant": "registries are unbounded", "anchors": ["ngoschema/managers/namespace_manager.py: _find_ns_by_uri"]}
{"id": "C38", "title": "Canonical name and identifier correspond", "statement": "For a name registered in a namespace, converting the canonical name to an id and back returns the same canonical name; JSON-pointer '$defs' steps are transparent; the document-level conversion joins namespace and fragment name with a dot (known deviation where it does not).", "quantifier": "every name path", "why_tests_cant": "name depth is unbounded", "anchors": ["ngoschema/managers/namespace_manager.py: _fragment_to_cname, _uri_to_cname, get_id_cname, get_cname_id"]}
{"id": "C39", "title": "Name cleaning yields attribute names", "statement": "clean_js_name keeps only characters of its allowed set, drops everything before the last ':', is idempotent, and is the identity on names made of letters, digits, '.' and '_'.", "quantifier": "every string", "why_tests_cant": "strings are unbounded", "anchors": ["ngoschema/managers/namespace_manager.py: clean_js_name, clean_for_uri"]}
{"id": "C40", "title": "JSON-pointer fragments resolve exactly", "statement": "resolve_fragment(doc, ptr) follows the pointer's tokens (with ~1, ~0 and percent escapes undone) and returns the value found there; it raises InvalidValue exactly when a token does not exist; escaping a key and resolving it finds the key's value, for every key including those with '/' and '~'.", "quantifier": "every document and every pointer", "why_tests_cant": "documents are unbounded", "anchors": ["ngoschema/resolvers/uri_resolver.py: resolve_fragment"]}
{"id": "C41", "title": "Scoping a reference", "statement": "scope(uri, base) leaves a uri without fragment or with its own document part unchanged up to the first two '#' parts, and prefixes a bare '#fragment' with the base document; scoping is idempotent.", "quantifier": "every pair of uris", "why_tests_cant": "uris are unbounded", "anchors": ["ngoschema/resolvers/uri_resolver.py: scope"]}
{"id": "C42", "title": "Resolved documents follow the registered store", "statement": "Resolving a uri should give the document currently registered under it. Because resolution is memoised, a document re-registered or unregistered after its first resolution is still resolved to the old content (known deviation); before the first resolution, it is the last registered.", "quantifier": "every history of register/unregister/resolve", "why_tests_cant": "histories are unbounded", "anchors": ["ngoschema/resolvers/uri_resolver.py: resolve_doc, UriResolver.register, unregister"]}
{"id": "C43", "title": "A type is built once and reused", "statement": "Building the same id repeatedly returns the same class; recursive references during construction yield a proxy to the id rather than looping; building terminates for every finite schema store. If a construction raises, the id stays marked as under construction and all later builds return a proxy (known deviation). Other known deviations: a recursive schema without a type cannot be built, two ids with the same underscored form share one registration, boolean schemas are rebuilt each time.", "quantifier": "every schema store with arbitrary (also cyclic) references, every history of builds", "why_tests_cant": "reference graphs are unbounded", "anchors": ["ngoschema/managers/type_builder.py: TypeBuilder.build, load"]}
{"id": "C44", "title": "Schema expansion follows the extends chain", "statement": "The linearisation of a schema's ancestors lists each ancestor exactly once, in depth-first first-visit order; expansion accumulates required/readOnly sets and lets nearer definitions win; it terminates exactly when the extends graph reachable is acyclic. (Known deviation: called through the builder object the expansion always raises TypeError.)", "quantifier": "every extends graph", "why_tests_cant": "graphs are unbounded", "anchors": ["ngoschema/managers/type_builder.py: TypeBuilder.schema_mro, expand"]}
{"id": "C45", "title": "Session factory options", "statement": "Options given when creating a session override the factory's options, which stay unchanged; 'info' dictionaries are merged with the call's winning; configure() updates options for later sessions only.", "quantifier": "every history of configure/create calls", "why_tests_cant": "histories are unbounded", "anchors": ["ngoschema/session.py: session_maker.__init__, __call__, configure"]}
{"id": "C46", "title": "Scoped sessions: one per scope", "statement": "A scoped session returns the same session for repeated calls in one scope until remove() and different sessions for different scopes; asking for options while a session is present is an error, as is configuring the factory then (known deviation: the latter should only warn).", "quantifier": "every history of calls from every scope", "why_tests_cant": "histories and interleavings are unbounded", "anchors": ["ngoschema/session.py: scoped_session, ThreadLocalRegistry"]}
{"id": "C47", "title": "Memory repository assigns fresh keys and keeps one entry per identity", "statement": "Committing objects with missing integer keys assigns keys not used by any stored object; after any sequence of commits there is at most one stored object per identity and it is the last committed with that identity; lookup by key finds it, provided the keys of stored objects are not changed (known deviation: a changed and recommitted object is found under both keys; a repository for a single object refuses every commit).", "quantifier": "every commit history", "why_tests_cant": "histories are unbounded", "anchors": ["ngoschema/repositories/memory_repository.py: MemoryRepository._commit, resolve_fkey"]}
{"id": "C48", "title": "Foreign key conversion", "statement": "Converting an instance to a foreign key gives its identity keys; converting an already converted key gives it back; negative integers mean no reference. Known deviations: with a single key the conversion is not idempotent when the text holds a comma or spells a negative number; the number of keys is not checked; key 0 never resolves; ForeignKey asks only the first repository while the session asks them in order.", "quantifier": "every key arity and value", "why_tests_cant": "arity is unbounded", "anchors": ["ngoschema/types/foreign_key.py: ForeignKey._convert"]}
{"id": "C49", "title": "Saving a file is idempotent and does not touch unchanged files", "statement": "Writing content to a path makes the path contain that content; when the path already has the content nothing is written; other paths are unchanged; append adds the content at the end. Known deviations: the file is emptied before the content is encoded and written, so a failed or interrupted save loses the previous content; the per-call charset and binary options are not used consistently.", "quantifier": "every file system state and every sequence of saves", "why_tests_cant": "histories are unbounded", "anchors": ["ngoschema/protocols/file_loader.py: FileSaver._write_file, _append_file"]}
{"id": "C50", "title": "XML dictionary conversion round-trips", "statement": "Data made of attributes, children by name, trimmed texts and (after a text and a child, when not pretty-printing) a tail is written to XML without error, and reading it gives it back, with or without pretty-printing; any document is read as its root, whose children of one name are all there in order, as a list when there are several; a dictionary with no or several roots is rejected. The forms outside this (None, a dictionary with only a text, a one-element list, an empty list, a tail alone) come back in a different, stated form, and the XML serializer object itself always raises.", "quantifier": "every data tree of any depth", "why_tests_cant": "trees are unbounded", "anchors": ["ngoschema/utils/xmltodict.py: _DictSAXHandler, _emit, unparse"]}
{"id": "C51", "title": "Array-aware functions map over lists", "statement": "A function decorated with take_arrays applied to a list gives the list of results in order; with two lists it zips them when sizes agree and raises InvalidValue otherwise; flatten concatenates. Known deviations: two one-element lists are not zipped; a second argument passed by keyword raises IndexError.", "quantifier": "every function and list", "why_tests_cant": "lists are unbounded", "anchors": ["ngoschema/decorators.py: take_arrays"]}
{"id": "C52", "title": "Memoised properties are computed once", "statement": "A memoized_property evaluates its getter on the first read of an instance and never again until reset; every read returns the first computed value; instances do not share values. Known deviations: the property can be assigned; a memoized method calling its parent's memoized method leaves the parent's on the instance.", "quantifier": "every history of reads/resets over any number of instances", "why_tests_cant": "histories are unbounded", "anchors": ["ngoschema/decorators.py: memoized_property"]}
{"id": "C53", "title": "Temporary changes are undone", "statement": "working_directory restores the previous directory however the block ends; casted_as restores the instance's class when the block ends normally, but not when it raises (known deviation).", "quantifier": "every nesting of blocks and every outcome", "why_tests_cant": "nesting is unbounded", "anchors": ["ngoschema/utils/utils.py: working_directory, casted_as"]}
{"id": "C54", "title": "Canonical names and dotted access follow the object tree", "statement": "An object made inside any nesting of objects and arrays has as parent the nearest object around it, and as parent instance the nearest instance. The canonical name of an instance is its parent instance's followed by a dot and its own name, so instances with distinct paths of (dot-free) names have distinct canonical names; the root of a node is its topmost ancestor unless an ancestor is empty. Splitting an absolute canonical name gives its components with the positions separated. Reading obj['a.b.c'] gives exactly the value reached by following the properties a, b, c; assigning it changes that value and no other place of the tree. Deviations found: a relative name is split into nothing, names with positions such as a[0].b never resolve, a None on the way makes an assignment do nothing silently, and resolve_cname ignores the name it is given.", "quantifier": "every nesting, every tree of any depth, every path of names, every value", "why_tests_cant": "trees and paths are unbounded", "anchors": ["ngoschema/protocols/object_protocol.py: split_cname, __getitem__, __setitem__, resolve_cname_path, resolve_cname", "ngoschema/models/instances.py: Instance._canonicalName", "ngoschema/contexts/object_protocol_context.py: set_context, _root", "ngoschema/contexts/instance_context.py: set_context"]}
{"id": "C55", "title": "Query operators mean what their names say", "statement": "Filtering with attribute__op=value keeps an object exactly when the test named by the operator holds between the attribute found and the value (and with not, exactly when it does not): eq, ne, neq are Python's equality; lt, le, ge, gt the order of numbers and of texts, and of lists and tuples item by item; in and contains membership, of keys for dictionaries and of pieces for texts; intersects a common item; startswith and endswith, and ieq, istartswith and icontains up to letter case. A test between values that do not fit raises TypeError. size is the number of items and @n the n-th item, from the end when negative. Known deviations: iendswith asks for the whole text, ieq accepts a final newline, regex looks only at the start.", "quantifier": "every attribute path, every pair of values, every operator without a regular expression, and texts without special characters for the case-insensitive ones", "why_tests_cant": "values and texts are unbounded", "anchors": ["ngoschema/query.py: _apply_ops_test, Filter.__call__"]}
{"id": "C56", "title": "Array objects behave as lists of evaluated items", "statement": "An array object built from raw values that its item type accepts answers every history of list operations (reading, assigning, inserting, deleting by index, len, iteration, index, append, extend, pop, remove, reverse, comparison with a sequence) exactly as a list of the evaluated values does, errors included, and a copy of it holds the same items if there are any and at least the minimum number; with 'uniqueItems' this takes values with hashable items; with lazy loading this holds for histories that assign to no existing position. Outside: with lazy loading an assignment to an item already read and reverse() have no visible effect; eager insertion at an index beyond the ends raises IndexError with the item inserted, at a negative index the new item is not checked; a rejected insertion leaves the item in; an IndexError raised by an item's own evaluation silently ends iteration and construction; with 'uniqueItems' appending a number raises TypeError with the number in the array; the copy of an emptied array holds the default items, the copy of a short one is filled with nulls.", "quantifier": "all item types (evaluation functions stable on their results), all raw values, all histories of operations, all indices including negative ones", "why_tests_cant": "The raw data and the evaluated cache are two parallel lists updated by different code paths; only an invariant over every interleaving of operations shows they stay in step.", "anchors": ["ngoschema/protocols/array_protocol.py: ArrayProtocol.insert, __len__, _touch", "ngoschema/protocols/collection_protocol.py: __init__, __getitem__, __setitem__, __delitem__, _set_dataValidated, copy, __eq__"]}
{"id": "C57", "title": "Checked arguments reach the function converted, or it does not run", "statement": "A function or method decorated to check one argument runs exactly as the undecorated one would, except that the explicit value of that parameter, passed by position or by keyword, is replaced by what the checker returns; when the checker rejects it the function does not run and a ValidationError is raised (other failures go through). A parameter left to its default is not checked. Stacked decorators on distinct parameters convert each of them. assert_args=False makes the plain call. (Not so for a method of an instance that is false in the sense of bool(), for a name that is not a parameter, and for position 0 of a method; and assert_args=False only reaches the outermost decorator.)", "quantifier": "all signatures, instances, positional and keyword arguments, checkers and stacks of decorators", "why_tests_cant": "Tests call a few decorated functions; the claim is about every way of passing arguments, any checker and any number of decorators.", "anchors": ["ngoschema/decorators.py: assert_arg", "ngoschema/models/files.py: DocumentRegistry.register_from_file", "ngoschema/session.py: Session.resolve_fkey", "ngoschema/protocols/object_protocol.py: ObjectMetaclass"]}
{"id": "C58", "title": "Scalar evaluation yields a value of the type that satisfies the schema, or raises", "statement": "Evaluating a value for an integer, number or string type gives None, or a value of the type that satisfies every constraint of its schema. A literal evaluates to the value it stands for, is rejected with InvalidValue when that value breaks a constraint, and with ConversionError when it stands for none; None evaluates as the default; the value of an expression or template is read back as text; evaluating a result again changes nothing unless it is itself an expression. (A failing expression is kept as text; raw literals are not checked; booleans are accepted for integers, with the bounds of 1 and 0; types named within a schema are not checked; fractional literals are truncated but fractional expressions rejected; failing under allOf raises TypeError.)", "quantifier": "all values, defaults, schemas built from bounds, lengths, type, allOf, anyOf and not at any depth, and all behaviours of number parsing, printing, expression evaluation and rendering", "why_tests_cant": "The space of values and nested schemas is infinite; tests check a few of each.", "anchors": ["ngoschema/protocols/validator.py: Validator._evaluate, _errors, _validate", "ngoschema/protocols/converter.py: Converter._convert", "ngoschema/types/type.py: Primitive._convert", "ngoschema/types/strings.py: Expr, Pattern, String", "ngoschema/types/numerics.py: Number, Integer"]}
{"id": "C59", "title": "Identifiers name one element of one document and survive being written and read", "statement": "Converting a non-empty value to an identifier gives one element of one document: a full reference is kept, a bare fragment is placed in the current document, and anything that is not a name is a document; converting twice changes nothing. An identifier of the current document is written without the document, others in full, and reading it back in the same namespace gives it again. A canonical name in a registered namespace, converted and written canonically, is the same name, the current namespace included. The check accepts exactly what has a non-empty fragment and, given a context, names the manager can locate. (The identifier of a whole document fails the check; names are never accepted without a context; a plain word is never a document; what follows a second '#' is lost; a local identifier read in another namespace moves to its document.)", "quantifier": "all values, all registries of namespaces, loaded documents and current namespaces", "why_tests_cant": "References, registries and documents are unbounded; tests convert a few ids in one namespace.", "anchors": ["ngoschema/types/uri.py: cn_re, Id._check, Id._convert, Id._serialize, Canonical", "ngoschema/contexts/ns_manager_context.py: find_ns_mgr", "ngoschema/resolvers/uri_resolver.py: scope"]}
{"id": "C60", "title": "Importable values stand for what their dotted name leads to, and survive being written", "statement": "Converting a dotted name that is not a builtin gives what its longest importable prefix leads to by attributes that are not false, if the type accepts it, and raises ConversionError otherwise; a name that leads nowhere is returned unchanged if the type accepts strings. A result is None or accepted by the type; objects and None are returned as they are; only ConversionError is raised, or TypeError for an unhashable object; converting a result that is not a string again changes nothing. A module, and an object its module leads to by its qualified name, are written as a name that converts back to them, unless a longer prefix of the name can be imported. (False attributes cannot be imported, a submodule hides an object of the same name, builtins hide modules, string constants are imported again.)", "quantifier": "all dotted names, and all interpreters: importable modules, attributes, builtins, truth values", "why_tests_cant": "The behaviour depends on everything that can be imported; tests import two or three names.", "anchors": ["ngoschema/types/symbols.py: Symbol._convert, Symbol._serialize, check_symbol"]}
{"id": "C61", "title": "Dates, times and datetimes are what their value stands for, and survive being written", "statement": "Converting to a date gives the day a date, a datetime at midnight, the words now and today, or a text in one of the formats (the usual ones first, then the alternative ones) stands for; converting to a time gives the time of day likewise, from a datetime only on day 1-1-1; converting to a datetime combines the date part and the time part of a text. None stays None, a result has the right kind, every other value raises, and converting a result again changes nothing. A value written without a format is read back whenever the formats can read the ISO form. (Unreadable dates and times raise IndexError instead of InvalidValue, datetimes with a time of day raise AssertionError, dates and numbers become None as datetimes, None cannot be written with a format.)", "quantifier": "all values, all date parsers, printers and clocks", "why_tests_cant": "The set of texts and the clock are unbounded; tests try a handful of literals in one time zone.", "anchors": ["ngoschema/types/datetime.py: Date._convert, Time._convert, Datetime._convert, _dt_serialize", "ngoschema/config/settings.py: DATE_FORMATS, ALT_DATE_FORMATS, ALT_TIME_FORMATS"]}
{"id": "C62", "title": "An object belongs to the nearest session given around it", "statement": "An object made without a session has the session of the context it is made in; an object given a (true) session has that one; making objects never changes the session of the objects that exist. In objects nested to any depth each one's session is the nearest one given, or that of the outermost context. As long as no array is given a session and none adopts the object, its session never changes. An entity given by its key is looked up in the session of its context. (An array given a session sets it for everything that shares its context, up to the default context of all objects; a session without data is ignored; an entity given by its key without such a session raises AttributeError.)", "quantifier": "all histories of making objects and arrays and inserting into arrays, all nestings, all given sessions", "why_tests_cant": "The default context is shared by the whole process: which session is found depends on everything made before.", "anchors": ["ngoschema/protocols/context.py: Context._create_context, Context.set_context, Context.session", "ngoschema/protocols/collection_protocol.py: CollectionProtocol.__init__", "ngoschema/protocols/array_protocol.py: ArrayProtocol.insert", "ngoschema/models/instances.py: Entity.__new__, Entity.__init__"]}
{"id": "C63", "title": "Loading schemas registers each under its own URI, and one bad file does not stop the others", "statement": "A schema is registered under its id ($id before id) without trailing hashes or, if that is empty, under its title made an identifier; it is then found under every spelling of that URI in the main store and under exactly that URI in the caller's store, and no other URI changes. Loading fails only for lack of a URI. After loading a folder every URI gives the schema of the last file that has it (a file without $id has its own name as id), or what it gave before; files that cannot be loaded change nothing; files with different URIs may come in any order. A file asked for as module/path is the first found in the folders of that module when it is registered, and otherwise the first found in any folder; folders are registered once and only if they exist. (A schema with a title and no id raises AttributeError; a file with id but no $id is registered under the file's name; a registered module hides equally named subfolders.)", "quantifier": "all schemas, file lists, stores, URI normalisations, registered modules and folders, names", "why_tests_cant": "What is found depends on all the files loaded before, in every order the file system lists them.", "anchors": ["ngoschema/loaders/schemas.py: load_schema, load_schema_file", "ngoschema/loaders/module.py: load_module_schemas, GenericModuleFileLoader.register, GenericModuleFileLoader.find_one", "ngoschema/resolvers/uri_resolver.py: UriResolver.register_doc"]}
{"id": "C64", "title": "Walking a nested collection reaches every member once, and scoping references changes nothing but references", "statement": "Applying a replacing function through a nested collection replaces every member at every depth exactly once, before its own members, with the right level and position, and ends; only the function itself raises. Making the references of a schema absolute changes exactly the reference texts of dictionaries that are the value of a key, each to its scoped form; every other text, number, key and position stays, and doing it again, even with another id, changes nothing. (References of list items, as in allOf, and of the schema itself are not scoped; a function that deletes list items makes the walk miss the next ones.)", "quantifier": "all nested collections of any depth, all replacing functions that do not make values bigger, all ids, all paths", "why_tests_cant": "Depth and shape of schemas are unbounded; tests use one or two nested literals.", "anchors": ["ngoschema/utils/utils.py: apply_through_collection", "ngoschema/managers/type_builder.py: TypeBuilder.expand", "ngoschema/resolvers/uri_resolver.py: scope"]}
{"id": "C65", "title": "What a document shows of nested objects", "statement": "Serialising an object writes every member that is shown at its place, at every depth: a member is shown when it is not null (unless defaults are asked for), differs from its default, and its name is left out neither by the options nor by the classes of the objects around it. Nothing else is written but null for a required member that is left out and the name of the class of an object whose class is not the declared one. A name left out by the options has no value anywhere in the document, and what a class does not serialise has no value in the part of the document written for its objects, at any depth. Two objects that differ only in what is not shown, or in members other than the keys of entities written by their keys, give the same document. Objects of their declared types are always written. 'only' and 'schema' apply to the object asked for, not within it.", "quantifier": "all values (objects, arrays, at any depth), all classes and array types, all options, all paths", "why_tests_cant": "documents nest without bound and what is left out depends on every object around a member", "anchors": ["ngoschema/protocols/object_protocol.py ObjectProtocol._serialize", "ngoschema/protocols/collection_protocol.py CollectionProtocol._serialize, do_serialize", "ngoschema/types/collection.py Collection._serialize", "ngoschema/types/object.py Object._print_order, ObjectSerializer._serialize", "ngoschema/types/array.py ArraySerializer._serialize", "ngoschema/models/instances.py Entity._serialize"]}
{"id": "C66", "title": "The inputs of an expression or template", "statement": "The inputs found in an expression are exactly the (possibly dotted) names that stand in its text as whole words, without those of builtins. They suffice: two contexts that agree on them and on builtins give the expression the same value. So after any history of assignments, deletions and reads, reading a property given by an expression gives the value of the expression with the current value of every name in it. The inputs of a template are the references within its variables, up to their filter, in order and without 'this.' or 'self.'. A text with '{{' or '{%' is taken for a template, another one that starts with a backquote for an expression, anything else has no inputs.", "quantifier": "all texts and expressions of any depth and any semantics of their operators, all sets of builtins, all streams of template tokens, all histories of an instance", "why_tests_cant": "names, expressions and histories are unbounded; a test that reads twice cannot tell that no forgotten input leaves a stale value", "anchors": ["ngoschema/types/strings.py Expr.inputs, Pattern.inputs", "ngoschema/types/type.py Primitive.inputs", "ngoschema/utils/jinja2.py get_variables", "ngoschema/protocols/collection_protocol.py _items_inputs"]}
{"id": "C67", "title": "Evaluating nested values", "statement": "Evaluating a value by a type whose properties and items have types in turn, to any depth, converts every scalar given by the type of its place, replaces nulls by defaults, and returns the result only if at every depth the scalars are valid, the required properties are there, every property has a type and the keywords hold; otherwise it raises. The order of members is the required ones first, then as given. The result passes validation, and evaluating it again changes nothing when scalars and defaults are stable. Every scalar of the result was given at the same place or belongs to a default that replaces a null around it. The recursion limit can only turn an outcome into an error.", "quantifier": "all families of (possibly mutually recursive) object, array and scalar types, all values, all places in them, all recursion limits", "why_tests_cant": "types and values nest without bound and types may contain themselves; the claim is about every place of every value", "anchors": ["ngoschema/types/collection.py: Collection._convert, Collection._validate, Collection._evaluate", "ngoschema/types/object.py: ObjectDeserializer, Object._items_type, Object._validate", "ngoschema/types/array.py: ArrayDeserializer, Array._items_type, Array._items_types", "ngoschema/protocols/validator.py: Validator._evaluate, Validator.evaluate"]}
{"id": "C68", "title": "Equality of objects and arrays", "statement": "Comparing two values with == always gives an answer, and equality is an equivalence. Two arrays are equal exactly when they have the same class and pairwise equal items. Membership and position in an array are by this equality, the position being the first. Two objects with the same class and members should be equal; the code compares the parent of the one with the first key of the other, so that objects with members are equal only when they are the same instance.", "quantifier": "all values nested to any depth of objects, arrays, lists, dictionaries and scalars, all class hierarchies, all recursion limits above the depth", "why_tests_cant": "values and classes nest without bound; symmetry and transitivity range over pairs and triples of values", "anchors": ["ngoschema/protocols/collection_protocol.py: CollectionProtocol.__eq__, copy", "ngoschema/protocols/object_protocol.py: ObjectProtocol.__getitem__, _check", "ngoschema/types/array.py: Array._check", "ngoschema/protocols/checker.py: Checker._check"]}
{"id": "C69", "title": "Relationships between classes", "statement": "Loading a class whose schema declares relationships or foreign keys loads every class they lead to, directly or through other classes, whatever the cycles between them and whatever was loaded before, and leaves none unfinished. A finished class lists every relationship its schema asks for under its name: the declared ones, those written beside a foreign key, and a pointer named after each foreign key without any; each is the one registered for it, names the class its reference leads to, has the cardinality and keys of the schema, and by default the primary keys of the other class (none when that class is still under construction). Loading more never replaces a class or a relationship. Deviations: a relationship that asks for one back raises TypeError unless the other class is still under construction, and then gets none; a class whose construction raised is never finished, whatever is done; the one-to-many flag is true exactly for the cardinalities that are not one-to-something; the descriptor of a pointer reads the item of its own name instead of the foreign key; a relationship loaded by its own identifier before its class ends up as two different classes.", "quantifier": "all documents of class schemas (any number of classes, any cyclic references), all histories of loads (failing or not), all relationship schemas", "why_tests_cant": "Whether every class is completed depends on the order in which cyclic references are first met and on everything loaded before; tests load a fixed set in one order.", "anchors": ["ngoschema/managers/relationship_builder.py:RelationshipBuilder.build", "ngoschema/managers/relationship_builder.py:RelationshipBuilder.load", "ngoschema/managers/relationship_builder.py:RelationshipDescriptor", "ngoschema/managers/type_builder.py:TypeBuilder.load", "ngoschema/protocols/object_protocol.py:ObjectProtocol.build", "ngoschema/protocols/type_protocol.py:TypeProtocol.build"]}
{"id": "C70", "title": "Loading, saving and committing values", "statement": "Loading with many=True gives one loaded value (deserialised, then given to the instance class) for every value held by the argument, in the same order, and fails as soon as one of them cannot be loaded; a comma-separated text stands for its trimmed parts. Loading one value deserialises it and gives it to the class; with deserialize=False the class gets the value itself. A commit returns the content it leaves, or raises and changes nothing; a repository of many holds the elements of everything saved in the order of the commits, a repository of one the last value saved, and membership is equality with an element. What is dumped from a repository of many can be loaded again when each element can. Findings: calling a loader, a saver or a resolver as a function never returns (it raises its result); committing a mapping to a repository of many adds its keys; membership in an empty repository of one raises; Transformer.transform(convert=True) converts twice.", "quantifier": "all values, all deserialisers, serialisers, instance classes and conversions, all histories of commits of any length", "why_tests_cant": "The content of a repository depends on its whole history of commits, some of which fail, and loading depends on every element; tests take a few short histories with one serialiser.", "anchors": ["ngoschema/protocols/loader.py:Loader._load", "ngoschema/protocols/loader.py:Saver._save", "ngoschema/protocols/repository.py:Repository._commit", "ngoschema/protocols/repository.py:Repository.__contains__", "ngoschema/protocols/transformer.py:Transformer.transform", "ngoschema/protocols/resolver.py:Resolver.__call__"]}
{"id": "C71", "title": "The class of a new object", "statement": "Calling a class with data that names no schema makes an object of that class, initialised once with that data, which is left as it was. Data that names a schema makes an object of the class of that schema, and its data is the data without the name; a name that cannot be resolved raises. Calling an entity class with a key, in a context with a session, makes a new object of the class of the instance kept under the key in the first suitable repository. Findings: naming a schema removes the name from the caller's own data, so the same data used again makes an object of the class called; the object made need not be an instance of the class called; an object of a subclass is initialised twice; data given as value=... does not choose the class; properties called value, items, validate, context, session or lazyLoading cannot be set by keywords; an instance of a subclass kept in the repository of its base class cannot be made from its key, nor can one with several primary keys, nor one whose key is 0 or an empty text; when two repositories use the same key the object may have the class of one instance and the data of the other; without a session in the context it raises.", "quantifier": "all class hierarchies, schema names, data, keys, sessions with any repositories", "why_tests_cant": "The class and the data depend on the hierarchy, on what the repositories of the session hold and on whether the data was used before; tests construct a few classes once.", "anchors": ["ngoschema/protocols/object_protocol.py:ObjectProtocol.__new__", "ngoschema/models/instances.py:Entity.__new__", "ngoschema/models/instances.py:Entity.__init__", "ngoschema/protocols/collection_protocol.py:CollectionProtocol.__init__", "ngoschema/session.py:Session.resolve_fkey"]}
{"id": "C72", "title": "Size and digest of files", "statement": "The size for people of a file below 1024 TB is in the largest unit that is not more than the size and to the nearest tenth of it; below 1024 bytes it is exact, and in one unit a larger size is never shown smaller. The SHA-1 digest of a file or of an address is that of its whole content, whatever the size of the blocks and however they arrive, so equal contents have equal digests. Findings: from 1024 TB on a bare number is given; just below a unit the text is 1024.0 of the smaller one; without a file or an address the digest is that of nothing.", "quantifier": "all sizes below 2^53, all contents of any length, all block sizes and schedules of arrival", "why_tests_cant": "Rounding depends on every size and the digest on every content length and every way the blocks arrive; tests take one small file.", "anchors": ["ngoschema/models/files.py:FileInfo.get_contentSizeHuman", "ngoschema/models/files.py:FileInfo.get_sha1"]}
{"id": "C73", "title": "Resolvers of references do not change the registered documents", "statement": "Making resolvers (UriResolver.create) and resolving references with them never changes a registered document and only adds documents that were downloaded, provided at least one document is registered. A resolver made for the schema of an unregistered URI works on its own copy: whatever is registered, unregistered, made or resolved afterwards, it gives the same answers; it finds its own schema, whole or at a fragment, and every document registered when it was made under its normalised URI. A resolver made for a registered document ignores the schema given with it and sees the documents registered now in any spelling, until it has answered a reference once. A file given by URI has as content the registered document or its fragment; with downloads, a fragment registers its document, all failures are InvalidValue. (Known deviations: on an empty store the schema is written into the shared store; the private copy only finds URIs spelled in normal form; a resolver made for a fragment of an unregistered document does not find its own local references; a resolver repeats its first answer after the document has changed; an unknown URI gives None instead of an error.)", "quantifier": "all histories of registering, unregistering, resolving and making resolvers, all URIs, schemas, documents and downloads, every key normalisation and every way of joining URIs", "why_tests_cant": "the store is shared by all the classes built in a process; whether a resolver leaks into it depends on the history of registrations", "anchors": ["ngoschema/resolvers/uri_resolver.py: UriResolver.__init__, create, register_doc, unregister_doc, _resolve", "ngoschema/utils/utils.py: UriDict"]}
{"id": "C74", "title": "The data of new objects", "statement": "A new object has every property given, by its own name, a translated name, an alias or (with the opposite sign) a negated alias; every declared property not given has its default, or is null when it has none; there is no other item. A property comes after those it depends on. It is refused exactly when a negated alias has a value without opposite, a default needed cannot be made or the dependencies have a cycle. Making an object from the items of another gives the same items. Over any history of making and changing objects of classes that declare properties, each object has what it was made of, changed by what was done to it only.", "quantifier": "all classes, all data given, all histories of creations, assignments and deletions", "why_tests_cant": "the combinations of names, defaults and dependencies are unbounded, and sharing of data between objects shows only in histories that tests do not enumerate", "anchors": ["ngoschema/protocols/collection_protocol.py:CollectionProtocol.__init__", "ngoschema/protocols/object_protocol.py:ObjectProtocol._deserialize", "ngoschema/types/object.py:Object._deserialize", "ngoschema/types/collection.py:Collection._deserialize"]}
{"id": "C75", "title": "What printing an object shows, and what it does to the process", "statement": "The text of an object shows each member that is required or has a value other than its default once: ten at most, then the number of the rest, each value cut to forty characters; str also shows read-only members. Printing again gives the same text. Printing an object changes no data. But repr of an object of a class with a read-only member x hides members named x, of every class that does not require them, from every text made later in the process, and from dictionaries serialised through their type (refuted: the text depends on the object only); and a text is kept when a member is added or read or an object it shows changes (refuted: the text shows the present state); assigning a declared member drops it.", "quantifier": "all classes, objects and references between them, all orders of sets, all histories of printing, assigning, adding and reading members", "why_tests_cant": "the text depends on what was printed before anywhere in the process; the list of hidden names grows with the history and the texts kept depend on the order of operations", "anchors": ["ngoschema/protocols/object_protocol.py:ObjectProtocol.__repr__", "ngoschema/protocols/object_protocol.py:ObjectProtocol.__str__", "ngoschema/types/object.py:ObjectSerializer._print_order", "ngoschema/types/object.py:Object._print_order", "ngoschema/utils/str_utils.py:shorten"]}
{"id": "C76", "title": "What an item name of an object refers to does not depend on earlier lookups", "statement": "For instances of schema classes, obj[name] and obj[name] = value reach the item the class declares for that name (a property, a translated name, an alias, a negated alias, an additional item), whatever names have been looked up before on this and other classes. This holds when related classes agree on the name, and with single inheritance an answer once given never changes. It fails otherwise: looking a name up on a base class first makes a derived class forget its own alias of that name, looking it up on the derived class can give the alias to the base class, and with two base classes an answer can change.", "quantifier": "every family of classes and inheritance, every history of lookups, every name", "why_tests_cant": "The answer is cached in a class attribute that derived classes inherit, so it depends on the order in which classes and names are first used, which a test fixes.", "anchors": ["ngoschema/protocols/object_protocol.py:ObjectProtocol._properties_raw_trans", "ngoschema/protocols/object_protocol.py:ObjectProtocol.__getitem__", "ngoschema/protocols/object_protocol.py:ObjectProtocol.__setitem__"]}
{"id": "C77", "title": "The type of an item is the one its class declares", "statement": "The type with which an item of an object is checked, converted and written is the one its class declares for that name: the type of the property, else of the first pattern the name matches, else the type of additional properties, else KeyError. A negated alias has the type of its property. A property that refers to a type still under construction gets that type as soon as it is built. The answer is the same whatever items were asked for before.", "quantifier": "every class (properties, patterns, additional properties, aliases), every item name, every sequence of lookups and constructions of types before", "why_tests_cant": "The answers are kept in a cache shared by all the instances of the class, filled in any order before and after the types referred to are built; tests look up a few names of finished classes.", "anchors": ["ngoschema/protocols/object_protocol.py: ObjectProtocol._items_type", "ngoschema/types/object.py: Object._items_type", "ngoschema/protocols/type_proxy.py: TypeProxy"]}
{"id": "C78", "title": "Types by name", "statement": "Asking whether a value is of a type by its name gives the answer of the type registered last under that name, accepts exactly the Python values the name stands for (booleans count as integers and numbers, texts and tuples as arrays), raises for a name never registered, and registering a type changes no other name. The type detected for a value is the first registered one that accepts it.", "quantifier": "every value, every name, every registry", "why_tests_cant": "Holds for every value and every set of registered types; tests check a few pairs.", "anchors": ["ngoschema/managers/type_builder.py: TypeBuilder.register_type, is_type, detect_type, get_type", "ngoschema/types/constants.py", "ngoschema/types/type.py: Enum._check"]}
{"id": "C79", "title": "Schemas given with types in them", "statement": "Where a schema given in code holds a type (a class of types or an instance), the schema used has the reference to it, when it has an identifier, or else its schema; everything else stays where it is, nothing is added, a schema without types is unchanged and doing it twice is doing it once.", "quantifier": "every nested schema, every position reached through mappings", "why_tests_cant": "Schemas nest without bound; tests show a few.", "anchors": ["ngoschema/managers/type_builder.py: untype_schema"]}
{"id": "C80", "title": "Classes cast to a parent, and class properties", "statement": "A class cast to one of its parents has the public attributes of the parent and, for the rest, its own: private names keep the value of the class, and names the parent does not have are those of the class; casting to anything else raises AttributeError. A class property read through a class or an instance is what its function gives for that very class, and assigning it through an instance calls its setter, or raises AttributeError without change.", "quantifier": "all class hierarchies, attribute names and values, all property functions and states", "why_tests_cant": "Hierarchies and attribute sets are unbounded; the tests cast one class with one attribute.", "anchors": ["ngoschema/utils/utils.py: class_casted_as", "ngoschema/decorators.py: ClassPropertyDescriptor, classproperty"]}
{"id": "C81", "title": "Attributes and items of an object are the same data", "statement": "Whatever a program has assigned, through attributes or items and under property names, translated names or aliases, reading obj.name gives what obj['name'] gives, and a property holds the value of the last assignment under any of its names. A property is an attribute under its translated name in its class and in the classes below unless a method of every object, an inherited method or an inner definition has its name; then the attribute reads that instead. Names of no property give None as an attribute and KeyError as an item when additional properties are allowed, and AttributeError and KeyError when not. Private names never change an item.", "quantifier": "all chains of classes, tables of names, programs of assignments and names read", "why_tests_cant": "the agreement depends on four name tables, the attributes of every class of the chain and the whole history of assignments; tests try a few names of one class", "anchors": ["ngoschema/protocols/object_protocol.py: ObjectProtocol.__getattr__, __setattr__, __getitem__, __setitem__, PropertyDescriptor, ObjectProtocol.build (671, 778-784)"]}
{"id": "C82", "title": "Logging a call does not change what it does", "statement": "A function decorated to log its calls (or an initialisation decorated to log itself) runs at most once, with the arguments of the call, and ends as the undecorated function would, with the same effects, as long as printing the instance and the arguments neither fails nor changes anything visible; the journal then gets one line for the call and one more exactly when it raised. A result is never made up: any other ending is the failure of a printing. Not in general: a positional argument that is a tuple of other than one item makes every logged call fail without running (it is taken for the values of the message), as does a function called with no instance and no argument, or an instance that cannot be printed; and an exception of the function is replaced by that of a failing printing.", "quantifier": "every decorated function, instance, argument list, keyword dictionary and state, and every behaviour of repr and str", "why_tests_cant": "The wrapper prints arbitrary user objects before and after arbitrary user code; a test only fixes one function and well-behaved arguments.", "anchors": ["ngoschema/decorators.py: _format_call_msg, log_exceptions, log_init", "ngoschema/protocols/object_protocol.py: ObjectProtocol.build (627-651)"]}
{"id": "C83", "title": "Reading XML documents one after the other", "statement": "A fresh XML reader returns the content of the root element of any document, whatever its name; what was written is read back. The reader remembers the root of the first document it reads, for the rest of the process: in any later sequence exactly the documents with that root are read, each as if alone, and every other document is refused with a missing key. So documents with one and the same root can be read in any order, and reading documents with different roots depends on the history (finding).", "quantifier": "every document (any names, attributes, nesting and texts), every sequence of documents, every remembered tag, every choice of tags forced to lists", "why_tests_cant": "The result of a read depends on the whole sequence of earlier reads; unit tests read one document per reader or one kind of document.", "anchors": ["ngoschema/serializers/xml_serializer.py: XmlDeserializer._deserialize_xml, XmlSerializer._tag", "ngoschema/utils/xmltodict.py: parse", "ngoschema/protocols/serializer.py: Deserializer.deserialize", "ngoschema/protocols/file_loader.py: FileLoader._load_file"]}
{"id": "C84", "title": "Values and accessors a class gives to its properties", "statement": "When a class is built, a class attribute (not a method) or else a keyword of the schema with the name of a property, own or inherited, becomes the default of that property in that class and its subclasses, converted by its type, unless the class itself declares the property by a schema of its own, in which case the value is checked and dropped (finding); nothing else of the type changes, and all other properties keep theirs. The class is refused exactly when such a value is not accepted by the property. The properties counted as having a default are exactly those of the bases, those given a value, and the own ones with a true default. The get_, set_ and del_ functions used for a property are looked up, class first and then its bases, from the most derived class that declares the property or gives it a value; a function defined further down is ignored (finding).", "quantifier": "every class body and schema, every list of base classes and extended schemas, every line of classes of any length, every property type with its checks and conversions", "why_tests_cant": "Which default and which accessor apply depends on the whole hierarchy; tests fix a few classes.", "anchors": ["ngoschema/protocols/object_protocol.py: ObjectProtocol.build, PropertyDescriptor", "ngoschema/protocols/type_protocol.py: TypeProtocol.has_default", "ngoschema/config/settings.py: SCHEMA_DEF_KEYS, GETTER_PREFIX"]}
{"id": "C85", "title": "Scalar types made of schemas", "statement": "Loading a scalar type from a schema, after any others, gives a type that has for each keyword (bounds, pattern, enumeration, description...) the value its schema gives or else that of the schema it refers to by $ref, and so on, and no others; its default is the one so given or else the first value of the nearest enumeration. Whatever is loaded afterwards, in particular types referring to it, the type stays the same, with the same keywords and default. A schema that only refers to another is that very type. Every chain of references that ends at a known type or an enumeration loads. A property whose type has no keywords beside its $ref holds its value as the type evaluates it; one whose type has keywords beside its $ref never holds a value: it raises or holds a type (finding). A default of the referred type wins over the narrower enumeration even when not a member (finding); extending a scalar type and an enumeration of type enum are refused (findings).", "quantifier": "every set of scalar schemas and references among them, every chain length, every order in which types are loaded, every starting set of types", "why_tests_cant": "Keywords and defaults come from chains of schemas of any length, loaded in any order and shared through a registry; tests load a few schemas in one order.", "anchors": ["ngoschema/protocols/type_protocol.py: TypeProtocol.build, TypeProtocol.extend_type, TypeProtocol.__init__", "ngoschema/managers/type_builder.py: TypeBuilder.load, TypeBuilder.build", "ngoschema/types/type.py: Enum", "ngoschema/protocols/collection_protocol.py: CollectionProtocol._set_data"]}
{"id": "C86", "title": "Names in XML namespaces", "statement": "Reading a document with namespaces gives, for every element and attribute, the key written for the namespace its prefix stands for where it is used (declarations of the elements around it, the innermost first; an attribute without prefix is in no namespace), or the short name given to that namespace. A document is accepted exactly when every prefix in it is declared, declarations are in order and no two attributes of an element stand for the same name. Declarations are found under @xmlns of the element that makes them when it has an attribute; otherwise on the next element that has one, or they are lost (findings). Writing with prefixes changes names only: same document as without prefixes, each name in its prefix. Data written with prefixes and their declarations on the root reads back as it was, pretty-printed or not. A name in a namespace given no prefix is written out of it, and an attribute loses its first letter as well (findings).", "quantifier": "every document (any depth, any declarations and shadowing), every separator not in xmlns, every table of short names, every table of prefixes, every dictionary of the supported form", "why_tests_cant": "The meaning of a prefix depends on all declarations around it and pending declarations travel through the document; tests have one or two namespaces on the root.", "anchors": ["ngoschema/utils/xmltodict.py: _DictSAXHandler._build_name, startNamespaceDecl, startElement, _process_namespace, _emit, parse, unparse"]}
{"id": "C87", "title": "What validating a value against a schema accepts", "statement": "Validating a value returns it unchanged exactly when every keyword of the schema that is not left out holds of it, through properties, items, alternatives, negations, conditions and dependencies to any depth; otherwise it raises. Where the schema names no types, references or definitions, and array keywords meet no texts and bounds no booleans, that is the meaning JSON Schema gives to the keywords. A refusal is InvalidValue, and the report names a keyword exactly when that keyword fails, unless a position of allOf or of a list of items takes part: failing under allOf raises TypeError. The order of the keywords does not matter. (Deviations: a schema with $ref checks nothing; types are not looked at, so a choice of types accepts anything, an exclusive choice of types or an excluded type refuses everything; definitions are applied as properties; a text counts as the array of its characters, a boolean as a number.)", "quantifier": "every schema of the registered keywords to any depth, every nested value, every set of left-out keywords, every regular expression matcher", "why_tests_cant": "a schema nests to any depth and each keyword interacts with its siblings and with negation; tests see a few schemas", "anchors": ["ngoschema/protocols/validator.py: Validator._errors, _format_errors, _validate", "ngoschema/managers/jsch_validators.py: jsch_validators_registry", "ngoschema/managers/type_builder.py: TypeBuilder.is_type, DefaultValidator"]}
{"id": "C88", "title": "Which data a class made of a schema accepts, with its ancestors", "statement": "Class.validate(data), for a class made of a schema that inherits from others (as Python bases or by \"extends\", at any depth), returns the data unchanged exactly when: every name required by the class or an ancestor is present; if the schema of the class itself has additionalProperties false, every name is declared or matched by a pattern of the class or an ancestor; and the other keywords in force (its own, else those of the first Python base that has one) hold as in C87. Everything else raises InvalidValue or TypeError. Where the base is open and its keywords stay in force, data accepted by the derived class is accepted by the base. Contrary to what inheritance suggests: additionalProperties false is not inherited; keywords such as minProperties of an extended schema are not looked at, those of a Python base are; the values of the members are looked at by no type; a name in notValidated switches off the keyword of that name.", "quantifier": "every table of classes with any inheritance graph, every class, every schema, every list of excluded names, every mapping", "why_tests_cant": "inheritance graphs, schemas and data are unbounded, and the answer depends on how the filtering of bases, the unions and the chained keywords combine along every path", "anchors": ["ngoschema/protocols/object_protocol.py: ObjectProtocol.build", "ngoschema/protocols/collection_protocol.py: CollectionProtocol._validate", "ngoschema/types/object.py: Object._validate, ObjectDeserializer._validate", "ngoschema/types/collection.py: Collection._validate"]}
{"id": "C89", "title": "Relative URLs lead back to their target", "statement": "relative_url(target, base), for URLs of the same host whose paths are made of plain names, goes up from the directory of the base to the longest common part and down to the target, whatever the directory the program runs in; joining it to the base gives the path of the target, except when the target is the directory of the base or above it, where a slash is added at the end. URLs of different hosts raise ValueError. A slash at the end of the target is lost, and a target that climbs above the root gives an answer that depends on the working directory.", "quantifier": "every pair of paths of any length, every host, every working directory", "why_tests_cant": "paths have unbounded length and the result mixes three path algorithms (dirname, relpath, urljoin) whose corner cases differ", "anchors": ["ngoschema/resolvers/uri_resolver.py: relative_url"]}
{"id": "C90", "title": "Values in log messages", "statement": "log_format shows a text of fewer than forty characters by its repr and a longer one by the repr of its first forty characters with the number of those left out, so that two texts look the same exactly when they are as long and begin with the same forty characters. A list or mapping nested at most two deep is shown as repr shows its first ten members, members of mappings in alphabetical order, with the number of those left out from ten on, and any line for a list, tuple or mapping is cut to at most 1204 characters. What str gives of a lazy_format message has the arguments asked for formatted in this way. Refuted: sets raise TypeError; what is nested three deep is not shown; a tuple is shown as a list; a text of exactly forty characters is marked as longer; asking a lazy message for its text a second time, as a second log handler does, never gives the same text.", "quantifier": "all texts, lists, tuples, mappings and sets of any size and nesting; all lazy messages with one formatted argument", "why_tests_cant": "Bounds on the length of log lines and the claim that lines tell values apart are about every value of every size; tests try a few.", "anchors": ["ngoschema/utils/str_utils.py:PrettyShortPrinter._format", "ngoschema/utils/str_utils.py:log_format", "ngoschema/utils/str_utils.py:lazy_format.__str__"]}
{"id": "C91", "title": "Sessions and their repositories", "statement": "A new repository is listed, last, by exactly one session: the one given in meta_opts, or else the default session; it is bound to that session, and nothing else changes. Whatever is done with sessions and repositories, every repository is listed by the session it is bound to, and none is ever removed. get_or_create_repo gives the first listed repository whose class has the name asked for. Refuted: a repository made with session=s is listed by the default session and not by s; so a session other than the default one, asked n times for a registered name, makes n repositories and lists none of them; the names under which the library registers its classes are not those looked for, so that a registered name always makes a new repository and the name of a class raises TypeError until one is there; every file loaded leaves one more repository in the default session.", "quantifier": "all histories of making sessions and repositories, binding, asking and loading files; all names and registries", "why_tests_cant": "What a session lists depends on everything made before, in any session; a test sees one history.", "anchors": ["ngoschema/session.py:Session.bind_repo", "ngoschema/session.py:Session.get_or_create_repo", "ngoschema/protocols/repository.py:Repository.__init__", "ngoschema/repositories/memory_repository.py:MemoryRepository.__init__", "ngoschema/repositories/file_repositories.py:load_object_from_file"]}
{"id": "C92", "title": "Reading XML in pieces", "statement": "With item_depth=d (d at least 1) parse calls item_callback once for every element at depth d and no other, in order of the document, with the names and attributes from the root to it, and returns None. It is given the children of the element by name, exactly as parse gives them, or else its text, or None when there is none. The calls stop at the first one that is refused, which raises ParsingInterrupted; they are the first calls of the whole reading. With item_depth=0 there is no call and the result is that of a plain reading. Refuted: that an element is given as parse gives it: text of the elements above that comes just before (indentation included) is put before its own, its text is not trimmed, its attributes are only in the path, and its own text is lost when it has children.", "quantifier": "all documents, depths, callbacks (deciding on all the calls so far) and force_list settings", "why_tests_cant": "The content of a call depends on everything read since the last closed element, at any depth; tests read a few small documents.", "anchors": ["ngoschema/utils/xmltodict.py:_DictSAXHandler.startElement", "ngoschema/utils/xmltodict.py:_DictSAXHandler.endElement", "ngoschema/utils/xmltodict.py:parse"]}
{"id": "C93", "title": "What a foreign key refers to", "statement": "A type with a foreignKey refers for ever to the class of its foreignSchema when that class is there: its keys are the declared foreignKeys, with the types they have in that class; a key the class does not know, a schema of which no type can be made and a missing foreignSchema raise AssertionError, UnboundLocalError and TypeError. A key to a schema under construction (a class referring to itself) can always be made, and refers to the class when it is first used once the class is there. Refuted: without declared foreignKeys the key is id, not the primary keys of the class; for a schema under construction the types of the keys are not those of the class but one integer, so that a text key is refused and of several keys only the first is kept; used twice before the class is there, it takes objects of any class for ever; so does a ForeignKey made by a call while the class is not there or is no entity, by the attribute id.", "quantifier": "all declarations, classes, key types, and all histories of the schema (unknown, under construction, built) and of uses of the key", "why_tests_cant": "What the key refers to depends on when it is made and used relative to the construction of the other class; a test sees one order.", "anchors": ["ngoschema/protocols/type_protocol.py:TypeProtocol.build", "ngoschema/types/foreign_key.py:ForeignKey.__init__", "ngoschema/types/foreign_key.py:ForeignKey.set_foreignSchema", "ngoschema/types/foreign_key.py:ForeignKey.set_foreignClass", "ngoschema/types/foreign_key.py:ForeignKey.get_foreignClass", "ngoschema/types/foreign_key.py:ForeignKey._convert"]}
{"id": "C94", "title": "Printing an array shows the items it has", "statement": "The first time an array is printed, after any history of list operations, the text shows between brackets one value per item in their order, ten at most, each cut to forty characters, then how many are left out; repr is the class name around that text. Each value is the item or a raw value that evaluates to it, and once the items have been read only a false item (0, '', None) is shown by its raw value; with lazy loading it is the raw values that are shown. Printing never changes the results of list operations. But once printed, an array prints the same text for ever, whatever is inserted, assigned or deleted; and items beyond the item types declared one by one are neither shown nor counted.", "quantifier": "all item evaluations, all raw values, all histories of list operations with printing anywhere among them", "why_tests_cant": "A test prints a small array once; that the text is exact for every length and history, and that no later operation ever refreshes it, is about all histories.", "anchors": ["ngoschema/protocols/array_protocol.py:ArrayProtocol._str_list", "ngoschema/protocols/array_protocol.py:ArrayProtocol.__repr__", "ngoschema/protocols/array_protocol.py:ArrayProtocol.__str__", "ngoschema/protocols/array_protocol.py:ArrayProtocol.insert", "ngoschema/protocols/collection_protocol.py:CollectionProtocol._touch", "ngoschema/utils/str_utils.py:shorten", "ngoschema/types/array.py:Array._items_types"]}
{"id": "C95", "title": "Which schemas are refused when a type is made", "statement": "check_schema, run each time a type is made with a schema, refuses a schema exactly when it, or one of its 'definitions' in any depth, gives a 'complexTypes' that is not one of the eight known texts, and reports such a place. Checking leaves the shared validator as it was, whatever comes out of it, so schemas checked one after the other are checked as if each came first. Nothing else is ever refused: wrong keywords ('type': 7, 'minimum': 'low'), and anything under '$defs' or 'properties', are accepted, because references are not followed and types are not checked. With the type checker jsonschema gives by default, checking fails with UnknownType for every schema.", "quantifier": "all nested values given as schemas, all sequences of schemas; for the shared scopes: all meta-schemas, document stores and type checkers", "why_tests_cant": "A test gives a few wrong schemas; that no other schema in any depth is refused, and that the shared scopes are restored after every outcome, are about all schemas.", "anchors": ["ngoschema/managers/type_builder.py:TypeBuilder.check_schema", "ngoschema/protocols/validator.py:Validator.__init__", "ngoschema/managers/jsch_validators.py:recursive_ref", "ngoschema/managers/jsch_validators.py:default_meta_validator", "ngoschema/schemas/ngo-draft-06.json"]}
{"id": "C96", "title": "Qualified names found in the source", "statement": "For an object without __qualname__, qualname finds by its line the dotted path of the definition that line belongs to: the names of the enclosing classes and functions, with <locals> after each function, then its own. A definition owns its first line, its decorator lines and the first line after them; any other line has no name and raises AttributeError. So a class whose decorator goes over several lines is not found by its own line, and what is defined in an asynchronous function is named as if the function were not there.", "quantifier": "every syntax tree of nested functions, classes and other nodes, every file (which lines start with @), every line", "why_tests_cant": "The names come from a walk with a stack that every branch must restore, over trees of any depth; a second pass spreads names over lines and could overwrite those of other definitions.", "anchors": ["ngoschema/utils/_qualname.py:qualname", "ngoschema/utils/_qualname.py:_Visitor"]}
{"id": "C97", "title": "The commands of a command line", "statement": "The commands listed by a command line are those of the files cmd_*.py of its folder, one for each, with dashes for underscores, in order. The name listed for a file leads back to the module of that file exactly when the file name has neither a dash nor an upper case letter, and then asking for it gives what that module defines, or its error. A name typed in camel case leads to the file named with underscores. A file with a dash or an upper case letter in its name is listed although its command gives nothing.", "quantifier": "every folder content, every file name and command name, every outcome of importing a module", "why_tests_cant": "Listing and looking up are two separate transformations of names that must be inverse of each other for every possible file name.", "anchors": ["ngoschema/cli/__init__.py:ComplexCLI.list_commands", "ngoschema/cli/__init__.py:ComplexCLI.get_command"]}
{"id": "C98", "title": "Listing namespaces, and the definitions of one", "statement": "The listing of a namespace manager gives each name it knows exactly once, in increasing order, with where it leads: the local entry of the name, else that of the first parent knowing it, else that of the type builder, else the last loaded document that would be called so. With a text given, exactly the names that contain it are kept. The definitions of a document that is opened for a name are listed under dotted names, those under definitions winning over those under $defs. Asking for the definitions of a namespace by its name does not open the document the name leads to, but takes the name itself for an identifier.", "quantifier": "every manager (local names, any number of parents, names of the type builder, documents), every text, every name and every resolver of documents", "why_tests_cant": "which of several registries wins depends on all of them at once, and the documents sharing a name can be any number", "anchors": ["ngoschema/managers/namespace_manager.py: NamespaceManager.namespaces", "ngoschema/managers/namespace_manager.py: NamespaceManager.available_namespaces", "ngoschema/managers/namespace_manager.py: NamespaceManager.get_cname_definitions"]}
{"id": "C99", "title": "The schema a type shows", "statement": "A type shows the keywords it was given, and those of its class where it was given none, the type keyword first. Arrays add the schemas of their items, their limits, uniqueness and the way texts are split; objects add the required and read-only names, their properties and whether others are accepted. Types made from schemas show the same schema by themselves and by their class, and a schema whose arrays have instances of types for items holds no type. An instance of a type given for a property of an object type loses the keywords it was given, an object type given so loses everything and an array type given so is refused; a class or a constant for items stands in the schema in place of its own schema.", "quantifier": "every type, nested to any depth, every keyword and every keyword value", "why_tests_cant": "types nest without bound and keywords combine freely; tests show a handful of schemas", "anchors": ["ngoschema/protocols/validator.py: Validator._repr_schema, repr_schema", "ngoschema/types/array.py: Array._repr_schema", "ngoschema/types/object.py: Object._repr_schema, __init__", "ngoschema/managers/type_builder.py: untype_schema"]}
{"id": "C100", "title": "The text, canonical name and identity keys of an instance follow its values", "statement": "Over any history of assignments, reads and requests for texts on any tree of instances: the text of an instance shows its canonical name and its required values as they are, as long as no instance with others inside it is renamed, and in any case right after one of its own values changed; the canonical name read after its own name changed is the current one; reading the identity keys of an entity whose class declares its primary keys gives their current values, and its text, asked after that, shows them; asking for the text of an entity never fails. Deviations found: renaming an instance around another leaves the text and the canonical name of the inner one as they were once they have been asked for; a primary key changed since the identity keys were last read is not shown in the text; primary keys given when the entity is made, to a class without any, give identity keys that stay those of its making for ever; a text asked before an expression is evaluated keeps showing the expression.", "quantifier": "every tree of instances, every history of operations, every instance, every value", "why_tests_cant": "histories, depths and trees are unbounded, and a text kept too long shows only after particular sequences", "anchors": ["ngoschema/models/instances.py: Instance.__str__, Instance.get_canonicalName, Instance._canonicalName, Entity.__init__, Entity.__str__, Entity.get_identityKeys", "ngoschema/protocols/collection_protocol.py: _touch, _items_touch, _set_data, _set_dataValidated, _is_outdated", "ngoschema/protocols/object_protocol.py: PropertyDescriptor.__get__, PropertyDescriptor.__set__"]}
{"id": "C101", "title": "Loading a configuration of logs leaves the default configuration alone", "statement": "Over any history of loads and of changes made to the configurations returned (values put, dictionaries shared between them), the default configuration looks as it did at the start. After any history, the configuration a file gives has the sections of the file and the default sections the file does not name, and is returned unless logging refuses it. Deviations found: a section of the file replaces the whole default section, so that handlers or loggers it does not repeat are lost; an empty file raises TypeError.", "quantifier": "every default configuration of any depth, every file, every history of loads and changes", "why_tests_cant": "sharing of nested dictionaries shows only after particular changes, and depths and histories are unbounded", "anchors": ["ngoschema/config/utils.py: load_log_config"]}
{"id": "C102", "title": "Committing to a repository of files always fails, after having done its work", "statement": "For every saver, encoder, value, path and state of the files: a commit to a repository of files never returns, it raises the error of the save, of the encoding or of making directories, and NameError when all these succeed. Over any history of commits without saving, no file is written or changed, and directories are only added. A commit whose save succeeds changes the contents of the repository although it fails: in a repository of many values each new try adds the items again, in a repository of one value it replaces it. The directories on the way to the file are made. A save that fails leaves the contents as they were.", "quantifier": "every value, path, state of the files, behaviour of the saver and the encoder, and every history of commits", "why_tests_cant": "that no input makes it succeed, and what every failed try leaves behind, are statements on all inputs and histories", "anchors": ["ngoschema/repositories/file_repositories.py: FileRepository._commit", "ngoschema/protocols/repository.py: Repository._commit"]}
{"id": "C103", "title": "Reducing a collection deletes empty values only where nothing else is around", "statement": "For every dictionary of plain values, reduce_coll deletes exactly the empty ones, keeps the others and their order. No collection makes it raise, and each key still occurs once afterwards. What its documentation promises fails elsewhere, for all sizes: of n lists of one item within each other half stay; of n empty values in a list half stay; a dictionary all of whose values are empty is replaced by a view of its keys instead of being deleted; and a dictionary emptied by the deletion of what was in it stays, empty, at any depth.", "quantifier": "every dictionary of plain values, every depth of nesting, every length of list", "why_tests_cant": "lists of any length and nestings of any depth; tests on short lists and one level show the promised result", "anchors": ["ngoschema/utils/utils.py: reduce_coll, to_none_single_list, apply_through_collection"]}
