{"id": "C01", "title": "Ordered maps behave like an insertion-ordered association list", "statement": "Starting from a fresh map, after any sequence of Put, PutIfNotNil, ReplaceOrPut, ReplaceIfExists, Delete and SerializeOrdered, every answer of Get, GetOpt, Has, Len, At, IndexOf and ForEach is the answer of a plain list of key/value pairs on which the same operations were performed (a put removes the key and appends at the end, a replace overwrites in place, a delete removes).", "quantifier": "all operation sequences of any length, all string keys, all values, all probe points in between", "why_tests_cant": "two redundant structures (slice and hash index) are kept by hand; a drift between them may only show after a particular long history", "anchors": ["v0/pkg/raml/AnyMap.go: implAnyMap and the 20 generated siblings (StringMap.go, UntypedMap.go, DataTypeMap.go, PropertyMap.go, FacetMap.go, AnnotationMap.go, *ExampleMap.go)"]}
{"id": "C02", "title": "A map never holds a key twice and its two views agree", "statement": "After any sequence of operations no two positions of the map hold the same key, Has(k) holds exactly when some position holds k, IndexOf(k) is that position (and -1 otherwise), and Len is the number of keys present.", "quantifier": "all operation sequences, all keys", "why_tests_cant": "an invariant of every reachable state", "anchors": ["v0/pkg/raml/AnyMap.go: implAnyMap and the 20 generated siblings (StringMap.go, UntypedMap.go, DataTypeMap.go, PropertyMap.go, FacetMap.go, AnnotationMap.go, *ExampleMap.go)", "Has, IndexOf, Len, At"]}
{"id": "C03", "title": "Put appends and moves", "statement": "After Put(k, v), Get(k) is v, k is at the last position, every other key keeps its value, and the other keys keep their relative order; Len grows by one exactly if k was absent.", "quantifier": "all reachable maps, all keys and values", "why_tests_cant": "must hold in every reachable state", "anchors": ["v0/pkg/raml/AnyMap.go: implAnyMap and the 20 generated siblings (StringMap.go, UntypedMap.go, DataTypeMap.go, PropertyMap.go, FacetMap.go, AnnotationMap.go, *ExampleMap.go)", "Put"]}
{"id": "C04", "title": "Replace keeps the position", "statement": "ReplaceIfExists(k, v) on a present key changes only the value of k and leaves every key at its position; on an absent key it changes nothing. ReplaceOrPut is ReplaceIfExists if k is present and Put otherwise.", "quantifier": "all reachable maps, all keys and values", "why_tests_cant": "must hold in every reachable state", "anchors": ["v0/pkg/raml/AnyMap.go: implAnyMap and the 20 generated siblings (StringMap.go, UntypedMap.go, DataTypeMap.go, PropertyMap.go, FacetMap.go, AnnotationMap.go, *ExampleMap.go)", "ReplaceIfExists, ReplaceOrPut"]}
{"id": "C05", "title": "Delete removes exactly one key", "statement": "Delete(k) removes k and nothing else, keeps the order and the values of the rest, does nothing if k is absent, and doing it twice is the same as doing it once.", "quantifier": "all reachable maps, all keys", "why_tests_cant": "must hold in every reachable state", "anchors": ["v0/pkg/raml/AnyMap.go: implAnyMap and the 20 generated siblings (StringMap.go, UntypedMap.go, DataTypeMap.go, PropertyMap.go, FacetMap.go, AnnotationMap.go, *ExampleMap.go)", "Delete"]}
{"id": "C06", "title": "String-keyed maps never panic", "statement": "No sequence of operations on a map with string keys ever panics, in particular the 'invalid map state, out of sync' panic can never fire; the only operation that can panic is At with an index outside 0..Len-1, and it panics exactly then.", "quantifier": "all operation sequences", "why_tests_cant": "absence of a crash over all histories", "anchors": ["v0/pkg/raml/AnyMap.go: implAnyMap and the 20 generated siblings (StringMap.go, UntypedMap.go, DataTypeMap.go, PropertyMap.go, FacetMap.go, AnnotationMap.go, *ExampleMap.go)", "IndexOf, At"]}
{"id": "C07", "title": "PutIfNotNil skips nil and dereferences", "statement": "PutIfNotNil with a nil pointer, slice or interface leaves the map exactly as it was; with a non-nil pointer it is Put of the pointed-to value.", "quantifier": "all reachable maps, all keys, all optional values", "why_tests_cant": "must hold in every state", "anchors": ["v0/pkg/raml/AnyMap.go: implAnyMap and the 20 generated siblings (StringMap.go, UntypedMap.go, DataTypeMap.go, PropertyMap.go, FacetMap.go, AnnotationMap.go, *ExampleMap.go)", "PutIfNotNil"]}
{"id": "C08", "title": "ForEach visits every entry once, in order", "statement": "ForEach with a callback that does not change the map calls it Len times, with exactly the entries At(0), ..., At(Len-1) in that order.", "quantifier": "all reachable maps, all callbacks over any accumulator", "why_tests_cant": "over all sizes and states", "anchors": ["v0/pkg/raml/AnyMap.go: implAnyMap and the 20 generated siblings (StringMap.go, UntypedMap.go, DataTypeMap.go, PropertyMap.go, FacetMap.go, AnnotationMap.go, *ExampleMap.go)", "ForEach"]}
{"id": "C09", "title": "ForEach tolerates a callback that edits the map", "statement": "A ForEach callback may delete entries of the map it iterates over: each remaining entry is still visited once and nothing panics.", "quantifier": "all maps, all callbacks that edit the map", "why_tests_cant": "depends on how the iteration interleaves with edits", "anchors": ["v0/pkg/raml/AnyMap.go: implAnyMap and the 20 generated siblings (StringMap.go, UntypedMap.go, DataTypeMap.go, PropertyMap.go, FacetMap.go, AnnotationMap.go, *ExampleMap.go)", "ForEach, Delete, Put, ReplaceIfExists"]}
{"id": "C10", "title": "YAML output of a map keeps all entries in order", "statement": "Converting a map to YAML gives, with SerializeOrdered(false), one mapping with the entries in map order, and with SerializeOrdered(true), an !!omap sequence of one-entry mappings in map order; no entry is lost, duplicated or reordered, and conversion does not change the map.", "quantifier": "all reachable maps, both settings", "why_tests_cant": "over all sizes and histories", "anchors": ["v0/pkg/raml/AnyMap.go: implAnyMap and the 20 generated siblings (StringMap.go, UntypedMap.go, DataTypeMap.go, PropertyMap.go, FacetMap.go, AnnotationMap.go, *ExampleMap.go)", "ToYAML, MarshalYAML, SerializeOrdered"]}
{"id": "C11", "title": "String and untyped maps survive a write and a read", "statement": "Writing a StringMap or UntypedMap with SerializeOrdered(false) and reading the result into a fresh map of the same kind gives the same entries in the same order.", "quantifier": "all reachable maps with node values", "why_tests_cant": "round trip over all contents", "anchors": ["v0/pkg/raml/AnyMap.go: implAnyMap and the 20 generated siblings (StringMap.go, UntypedMap.go, DataTypeMap.go, PropertyMap.go, FacetMap.go, AnnotationMap.go, *ExampleMap.go)", "v0/internal/raml/util-str-map.go: UnmarshalStringMapRAML", "v0/internal/raml/util-untyped-map.go: UnmarshalUntypedMapRAML", "v0/internal/util/assign/any-map.go: ToStringMap, ToUntypedMap"]}
{"id": "C12", "title": "JSON of a string-keyed map does not depend on Go's map iteration order", "statement": "With SerializeOrdered(false) the JSON object of a string-keyed map has exactly the map's entries whatever order the runtime enumerates the index in; with SerializeOrdered(true) it is the array of the entries in map order.", "quantifier": "all reachable maps, all enumeration orders", "why_tests_cant": "the runtime's enumeration order is random: a test sees one", "anchors": ["v0/pkg/raml/AnyMap.go: implAnyMap and the 20 generated siblings (StringMap.go, UntypedMap.go, DataTypeMap.go, PropertyMap.go, FacetMap.go, AnnotationMap.go, *ExampleMap.go)", "MarshalJSON"]}
{"id": "C13", "title": "JSON of an AnyMap is deterministic and complete", "statement": "With SerializeOrdered(false) the JSON object of an AnyMap has one member per entry and does not depend on the enumeration order of the index.", "quantifier": "all AnyMaps with keys of any type, all enumeration orders", "why_tests_cant": "depends on random enumeration order and on colliding printed keys", "anchors": ["v0/pkg/raml/AnyMap.go: MarshalJSON"]}
{"id": "C14", "title": "AnyMap works for any key", "statement": "Put(k, v) followed by Has(k) answers true for every key value k, and no operation panics whatever the key.", "quantifier": "all key values of an interface{} key, all histories", "why_tests_cant": "Go's == is not reflexive on NaN and panics on unhashable values", "anchors": ["v0/pkg/raml/AnyMap.go: implAnyMap"]}
{"id": "C15", "title": "Deleting from a map does not disturb copies of its contents", "statement": "A map value captured earlier (the dereferenced copy that PutIfNotNil stores when a type is marshalled) keeps its entries when the original map is edited afterwards.", "quantifier": "all maps, all later edits, all slice growth policies", "why_tests_cant": "slice backing arrays are shared: the corruption depends on capacity and on the later edits", "anchors": ["v0/pkg/raml/AnyMap.go: implAnyMap and the 20 generated siblings (StringMap.go, UntypedMap.go, DataTypeMap.go, PropertyMap.go, FacetMap.go, AnnotationMap.go, *ExampleMap.go)", "Delete: append(ordered[:pos], ordered[pos+1:]...)", "v0/internal/raml/x-gen-type-string.go: marshal"]}
{"id": "C16", "title": "Assignment helpers are all or nothing", "statement": "AsBool, AsBoolPtr, AsString, AsStringPtr, AsStringList, AsInt64Ptr, AsFloat64Ptr, ToUint and AsUintPtr either succeed and set the target to the node's value, or fail and leave the target as it was.", "quantifier": "all nodes, all previous target values", "why_tests_cant": "over all inputs, including lists that fail at any position", "anchors": ["v0/internal/util/assign: bool.go, string.go, string-list.go, int64.go, float64.go, uint.go"]}
{"id": "C17", "title": "Map readers insert every pair in document order, and stop at the first bad pair", "statement": "Reading a mapping into a StringMap, UntypedMap, AnnotationMap or DataTypeMap leaves the map as if each pair had been Put in document order; if a pair is not acceptable, an error is returned and exactly the pairs before it have been put.", "quantifier": "all mappings, all previous map contents, every failing position", "why_tests_cant": "error position and previous contents range over all documents", "anchors": ["v0/internal/util/assign/any-map.go", "v0/internal/raml/util-*.go"]}
{"id": "C18", "title": "String facets accept exactly strings", "statement": "A string-valued facet is accepted exactly when the node is a YAML string and a string-list facet exactly when the node is a sequence of YAML strings, and the stored value has the same characters, elements and order.", "quantifier": "all nodes", "why_tests_cant": "over all inputs", "anchors": ["v0/internal/util/assign/string.go", "v0/internal/util/assign/string-list.go"]}
{"id": "C19", "title": "Unsigned facets never misrepresent the document", "statement": "Reading an unsigned facet (minLength, maxLength, minItems, maxItems, minProperties, maxProperties) either fails or stores exactly the integer in the document.", "quantifier": "all integer nodes", "why_tests_cant": "sign wrap-around only shows for negative values", "anchors": ["v0/internal/util/assign/uint.go: ToUint, AsUintPtr"]}
{"id": "C20", "title": "Integer facets are exact on the whole int64 range and reject everything else", "statement": "Reading an integer facet accepts a decimal integer exactly if it lies in -2^63..2^63-1, and then stores exactly that integer; writing it and reading it again gives the same integer.", "quantifier": "all decimal numerals", "why_tests_cant": "boundaries and all magnitudes", "anchors": ["v0/internal/util/assign/int64.go: AsInt64Ptr", "v0/internal/raml/x-gen-type-integer.go"]}
{"id": "C21", "title": "A type named by a string is classified by its text", "statement": "A type definition that is a string yields: the built-in kind for the thirteen built-in names; otherwise an include if it starts with '!include ', otherwise a union if it contains '|', otherwise a custom type; it never fails, and for the non built-in cases Type() is the string itself, for built-ins the built-in's name.", "quantifier": "all strings", "why_tests_cant": "over all strings", "anchors": ["v0/internal/raml/fn-sorting-hat-type.go: TypeSortingHat, typeToKind"]}
{"id": "C22", "title": "An expanded type definition is classified by its first type key, else by its shape", "statement": "The kind of a type definition given as a mapping is decided by the value of its first `type` or `schema` key; without one it is object if there is a `properties` key, else array if there is an `items` key, else string. Other keys and their order have no influence.", "quantifier": "all mappings", "why_tests_cant": "over all key orders and combinations", "anchors": ["v0/internal/raml/fn-sorting-hat-type.go: siftType"]}
{"id": "C23", "title": "Accepted type definition forms", "statement": "A type definition may be empty (null), a string, an include or a mapping; a sequence and any other scalar are rejected with an error; the empty definition is a string type.", "quantifier": "all nodes", "why_tests_cant": "over all inputs", "anchors": ["v0/internal/raml/fn-sorting-hat-type.go: TypeSortingHat, badTypeDefType"]}
{"id": "C24", "title": "Type() is the declared type and Kind() fits it", "statement": "After reading an expanded type definition whose type is given once, Type() is that string, and Kind() is the kind that string denotes.", "quantifier": "all mappings with one type or schema key", "why_tests_cant": "over all documents", "anchors": ["v0/internal/raml/DataType.go: assign, Type, Kind", "v0/internal/raml/fn-sorting-hat-type.go"]}
{"id": "C25", "title": "Each declared facet reaches its getter", "statement": "Reading a facet of a type kind (minLength, maxLength, pattern, minItems, maxItems, uniqueItems, items, minimum, maximum, multipleOf, format, fileTypes, minProperties, maxProperties, additionalProperties, discriminator, discriminatorValue, properties, enum, required, displayName, description) sets exactly the field behind the facet's getter to the value in the document and changes no other field.", "quantifier": "all type kinds, all previous states, all values", "why_tests_cant": "fourteen generated types with their own tables; each pair of facet and kind must be right for every value and state", "anchors": ["v0/internal/raml/x-gen-type-*.go: assign", "v0/internal/raml/type-datatype-ext.go: assign"]}
{"id": "C26", "title": "Unknown facets are kept", "statement": "A key that is not a facet of the type kind is put, with its value node unchanged, in ExtraFacets, in document order, and changes nothing else; so no key of a type definition is silently dropped.", "quantifier": "all type kinds, all non-reserved keys, all values, all documents", "why_tests_cant": "over all documents", "anchors": ["v0/internal/raml/DataType.go: assign", "v0/internal/raml/in-components.go: hasExtra.in"]}
{"id": "C27", "title": "The default facet is readable", "statement": "After reading a type definition with a `default` facet, Default() returns that value, and a later SetDefault determines what is written.", "quantifier": "all type kinds, all default values", "why_tests_cant": "needs the whole read/modify/write history", "anchors": ["v0/internal/raml/x-gen-type-*.go: assign, Default, SetDefault, marshal", "v0/pkg/raml/rmeta/keys.go: KeyDefault"]}
{"id": "C28", "title": "Absent facets have the documented defaults", "statement": "Reading a type definition that does not mention a facet leaves the facet at the RAML default (required true, additionalProperties true, uniqueItems false, minItems 0, maxItems 2147483647, file minLength 0 and maxLength 2147483647, string minLength 0, everything else unset), whatever else the definition holds.", "quantifier": "all type definitions", "why_tests_cant": "over all documents", "anchors": ["v0/internal/raml/x-gen-type-*.go: New*Type", "v0/pkg/raml/rmeta/defaults.go"]}
{"id": "C29", "title": "Reading never panics", "statement": "Reading any YAML document as an API document, a library or a type definition returns a value or an error; it never panics.", "quantifier": "all documents", "why_tests_cant": "absence of a crash over all inputs", "anchors": ["v0/internal/raml/APISpec.go: assign", "v0/internal/raml/Library.go: assign", "v0/internal/raml/in-components.go: hasAnnotations.in", "v0/internal/raml/x-gen-ex-*.go: assign", "v0/internal/raml/util-dt-map.go: UnmarshalPropertyMapRAML"]}
{"id": "C30", "title": "Whatever was read can be written", "statement": "If a document was read successfully as a type definition, an API document or a library, writing it succeeds (no error, no panic).", "quantifier": "all documents that are read successfully", "why_tests_cant": "over all documents", "anchors": ["v0/internal/raml/DataType.go: ToYAML", "v0/internal/raml/APISpec.go: MarshalYAML", "v0/internal/raml/Library.go: MarshalYAML"]}
{"id": "C31", "title": "Type definitions survive writing and reading", "statement": "Writing a type definition and reading the result gives an equal type definition.", "quantifier": "all type definitions that can be built or read, of every kind and nesting depth", "why_tests_cant": "round trip over all values and depths", "anchors": ["v0/internal/raml/DataType.go: ToYAML, MarshalRAML", "v0/internal/raml/x-gen-type-*.go: marshal, assign", "v0/internal/raml/fn-sorting-hat-type.go"]}
{"id": "C32", "title": "Reading, writing and reading again is stable", "statement": "If a document is read as a type definition and written, then reading what was written gives the same type definition as the first reading.", "quantifier": "all documents", "why_tests_cant": "composition over all documents and depths", "anchors": ["v0/internal/raml/fn-sorting-hat-type.go: TypeSortingHat", "v0/internal/raml/DataType.go: ToYAML"]}
{"id": "C33", "title": "The short form is used exactly for types that have nothing but a type", "statement": "A type definition is written as a bare scalar exactly when nothing but its type would be written, and then the scalar is its Type() string (or the include); otherwise a mapping is written.", "quantifier": "all type definitions", "why_tests_cant": "over all states", "anchors": ["v0/internal/raml/DataType.go: MarshalRAML, ToYAML"]}
{"id": "C34", "title": "Only non-default facets are written, each once and in a fixed order", "statement": "In the written mapping of a type each key occurs once, the facets come in the fixed order of the type kind whatever the order in the document they were read from, and a facet that has its default value is not written.", "quantifier": "all type definitions", "why_tests_cant": "over all states and read orders", "anchors": ["v0/internal/raml/x-gen-type-*.go: marshal", "v0/internal/raml/type-datatype-ext.go: marshal"]}
{"id": "C35", "title": "Unions, customs and built-ins keep their kind across a write", "statement": "The kind of a type definition after writing and reading is the kind it had before, whatever type string was set.", "quantifier": "all kinds, all SetType arguments", "why_tests_cant": "over all strings", "anchors": ["v0/internal/raml/x-gen-type-*.go: SetType", "v0/internal/raml/fn-sorting-hat-type.go: typeToKind"]}
{"id": "C36", "title": "Every type kind accepts an example", "statement": "A type definition of any kind with an `example` facet of a fitting value is read without error and Example() gives the value.", "quantifier": "all type kinds, all values", "why_tests_cant": "one generated table of kinds; every kind and value", "anchors": ["v0/internal/raml/fn-sorting-hat-example.go: ExampleSortingHat", "v0/internal/raml/x-gen-type-*.go: assign"]}
{"id": "C37", "title": "An example's value is read whatever its form", "statement": "An example given directly or as the `value` of an expanded example is available from Value() afterwards, and displayName, description, strict, annotations and unknown keys of an expanded example are available from their getters.", "quantifier": "all example kinds, all nodes", "why_tests_cant": "over all documents", "anchors": ["v0/internal/raml/x-gen-ex-*.go: UnmarshalRAML, assign, assignVal"]}
{"id": "C38", "title": "Examples survive writing and reading", "statement": "Writing an example and reading the result gives an equal example.", "quantifier": "all examples of every kind", "why_tests_cant": "round trip over all values", "anchors": ["v0/internal/raml/x-gen-ex-*.go: ToYAML, MarshalRAML, UnmarshalRAML"]}
{"id": "C39", "title": "Includes are kept", "statement": "A type given as `!include path`, either as the whole definition or as the `type` of an expanded definition, is read as an include of that path and written back as the same include.", "quantifier": "all paths, both forms", "why_tests_cant": "over all paths", "anchors": ["v0/internal/raml/fn-sorting-hat-type.go", "v0/internal/raml/x-gen-type-include.go: marshal", "v0/internal/raml/DataType.go: assign"]}
{"id": "C40", "title": "A property may have any type", "statement": "An object property may be declared with any type definition that is acceptable as a type.", "quantifier": "all type definitions", "why_tests_cant": "one interface assertion that fails for some kinds only", "anchors": ["v0/internal/raml/util-dt-map.go: UnmarshalPropertyMapRAML", "v0/internal/raml/fn-sorting-hat-property.go"]}
{"id": "C41", "title": "Annotations and facet definitions survive writing and reading", "statement": "Annotations and user-defined facet definitions of a type that was read are, after writing and reading, the same.", "quantifier": "all type definitions with annotations or facet definitions", "why_tests_cant": "round trip over all contents", "anchors": ["v0/internal/raml/in-components.go", "v0/internal/raml/util-facet-map.go", "v0/internal/raml/type-datatype-ext.go: marshal"]}
{"id": "C42", "title": "XML settings survive", "statement": "The XML settings of a type, through their own marshal and unmarshal functions and through the write and read of the type they belong to, come back equal.", "quantifier": "all XML settings", "why_tests_cant": "round trip over all contents", "anchors": ["v0/internal/raml/type-xml.go", "v0/internal/raml/type-datatype-ext.go: marshal"]}
{"id": "C43", "title": "Documentation survives", "statement": "The user documentation entries of an API, through their own marshal and unmarshal functions and through the write and read of the API document, come back equal.", "quantifier": "all documentation entries", "why_tests_cant": "round trip over all contents", "anchors": ["v0/internal/raml/Documentation.go", "v0/internal/raml/APISpec.go: MarshalYAML"]}
{"id": "C44", "title": "Enumerations keep their order and multiplicity", "statement": "Enum() after reading an `enum` facet is the list of the document's values in order with duplicates kept; one bad element makes the whole definition fail.", "quantifier": "all type kinds with an enum facet, all lists", "why_tests_cant": "all lengths and failing positions", "anchors": ["v0/internal/raml/x-gen-type-*.go: assign KeyEnum"]}
{"id": "C45", "title": "Formats are kept verbatim", "statement": "A date, integer or number format is accepted exactly when it is a string, is stored with the same characters whether or not it is one of the known formats, and is written back the same.", "quantifier": "all strings", "why_tests_cant": "over all strings", "anchors": ["v0/internal/raml/fn-sorting-hat-*-format.go", "v0/internal/raml/enum-*-format.go"]}
{"id": "C46", "title": "Getters answer the last setter, independently", "statement": "After any sequence of setters and unsetters on a type, an API document, a library, an example, XML settings or a documentation entry, each getter answers what the last setter of the same field set (or the initial value), whatever was done to the other fields.", "quantifier": "all setter sequences", "why_tests_cant": "all histories", "anchors": ["v0/internal/raml/x-gen-type-*.go", "v0/internal/raml/APISpec.go", "v0/internal/raml/Library.go", "v0/internal/raml/x-gen-ex-*.go", "v0/internal/raml/type-xml.go"]}
{"id": "C47", "title": "Setting a map to nil is unsetting it, and an unset map behaves like a new object's", "statement": "SetX(nil) has the same effect as UnsetX() for every map-valued field, and after it the object behaves like one on which the field was never touched.", "quantifier": "all objects, all map-valued fields, all later operations", "why_tests_cant": "needs later operations and a write to show", "anchors": ["v0/internal/raml/APISpec.go: SetTypes, UnsetTypes, SetUses, UnsetUses, ...", "v0/internal/raml/Library.go", "v0/internal/raml/x-gen-type-*.go: UnsetExamples, UnsetProperties", "v0/internal/raml/x-gen-ex-*.go: UnsetAnnotations"]}
{"id": "C48", "title": "Every top-level key of an API document lands in exactly one place", "statement": "Reading an API document puts every key that starts with '/' in Resources with its value unchanged and in document order, every key that starts with '(' in Annotations, every known key in its field, and every other key with its value unchanged in ExtraFacets in document order; no key influences another field.", "quantifier": "all documents", "why_tests_cant": "over all documents", "anchors": ["v0/internal/raml/APISpec.go: assign"]}
{"id": "C49", "title": "Written API documents are complete and ordered", "statement": "The written API document starts with the title, has every key once, has the resources and unknown keys with their values unchanged and in order, and has a section for a map-valued field exactly when the map is not empty.", "quantifier": "all API documents", "why_tests_cant": "over all states", "anchors": ["v0/internal/raml/APISpec.go: MarshalYAML"]}
{"id": "C50", "title": "API documents survive writing and reading", "statement": "Writing an API document and reading the result gives an equal API document.", "quantifier": "all API documents", "why_tests_cant": "round trip over all contents", "anchors": ["v0/internal/raml/APISpec.go: MarshalYAML, UnmarshalYAML"]}
{"id": "C51", "title": "`types` and `schemas` are synonyms", "statement": "In an API document or a library, and `type` and `schema` in a type definition, replacing one key by its synonym gives the same result.", "quantifier": "all documents", "why_tests_cant": "over all documents", "anchors": ["v0/internal/raml/APISpec.go: assign", "v0/internal/raml/Library.go: assign", "v0/internal/raml/fn-sorting-hat-type.go: siftType", "v0/internal/raml/DataType.go: assign"]}
{"id": "C52", "title": "A single media type is written as a string", "statement": "An API document with one media type is written with a scalar mediaType, one with several with a list; in both cases reading gives the same list.", "quantifier": "all media type lists", "why_tests_cant": "over all lists", "anchors": ["v0/internal/raml/APISpec.go: MarshalYAML, assign", "v0/pkg/raml/APISpec.go: MediaTypes"]}
{"id": "C53", "title": "Every top-level key of a library lands in its own field", "statement": "Reading a library puts usage, uses, types, resourceTypes, traits, securitySchemes and annotationTypes in the field behind the getter of that name, keys that start with '(' in Annotations, and any other key in ExtraFacets.", "quantifier": "all documents", "why_tests_cant": "over all documents", "anchors": ["v0/internal/raml/Library.go: assign"]}
{"id": "C54", "title": "Libraries survive writing and reading", "statement": "Writing a library and reading the result gives an equal library.", "quantifier": "all libraries", "why_tests_cant": "round trip over all contents", "anchors": ["v0/internal/raml/Library.go: MarshalYAML, UnmarshalYAML"]}
{"id": "C55", "title": "Written documents start with the RAML header of their kind", "statement": "The bytes WriteRAML writes start with the RAML 1.0 header line of the fragment kind (plain for API documents, 'Library' for libraries), and the header of a module type is the base header for the root and the base header, a space and the type name otherwise; different module types have different headers.", "quantifier": "all documents and module types", "why_tests_cant": "over all contents", "anchors": ["v0/internal/raml/APISpec.go: WriteRAML", "v0/internal/raml/Library.go: WriteRAML", "v0/pkg/raml/rmeta/headers.go", "v0/pkg/raml/rmod/ex-const-types.go: ToHeader"]}
{"id": "C56", "title": "A failing writer is reported", "statement": "If the destination fails at any byte, WriteRAML returns an error; if it fails on the header, a library writes nothing further; if marshalling fails, an API document writes nothing at all.", "quantifier": "all documents, all failure points of the writer", "why_tests_cant": "every crash point", "anchors": ["v0/internal/raml/APISpec.go: WriteRAML", "v0/internal/raml/Library.go: WriteRAML"]}
{"id": "C57", "title": "Empty input", "statement": "Parsing an empty stream as a library gives an empty library without error; parsing it as an API document gives an error; every other decoding error is returned with no document by both.", "quantifier": "all decoder outcomes", "why_tests_cant": "over all decoder outcomes", "anchors": ["v0/pkg/raml/rparse/parse-api.go: ParseApiDoc", "v0/pkg/raml/rparse/parse-lib.go: ParseLibrary"]}
{"id": "C58", "title": "For a repeated key the last value counts", "statement": "If a facet key occurs twice in a type definition, example or API document, the result is as if only the last occurrence was there.", "quantifier": "all documents with repeated keys", "why_tests_cant": "over all documents", "anchors": ["v0/internal/raml/x-gen-type-*.go: assign", "v0/internal/raml/APISpec.go: assign"]}
{"id": "C59", "title": "The order of keys does not matter", "statement": "Two type definitions (or API documents) that differ only in the order of their keys, with no key repeated, read to the same result up to the order of the ordered collections (extra facets, annotations, resources).", "quantifier": "all documents, all permutations of their keys", "why_tests_cant": "factorially many orders of unboundedly many keys", "anchors": ["v0/internal/raml/fn-sorting-hat-type.go", "v0/internal/raml/x-gen-type-*.go: assign", "v0/internal/raml/APISpec.go: assign"]}
{"id": "C60", "title": "Nested definitions are read at every depth", "statement": "For every path of property names (and array items) through a type definition, the type found by walking Properties()/Items() along the path is exactly the type that the node at that path reads to on its own.", "quantifier": "all documents, all paths of any length", "why_tests_cant": "unbounded nesting depth", "anchors": ["v0/internal/raml/util-dt-map.go", "v0/internal/raml/x-gen-type-object.go: assign", "v0/internal/raml/x-gen-type-array.go: assign"]}
{"id": "C61", "title": "For a repeated key of a library the last value counts", "statement": "If a top-level key occurs twice in a library document, the result is as if only the last occurrence was there.", "quantifier": "all library documents with repeated keys", "why_tests_cant": "over all documents", "anchors": ["v0/internal/raml/Library.go: assign"]}
{"id": "C62", "title": "The order of keys in a library does not matter", "statement": "Two library documents that differ only in the order of their keys, with no key repeated, read to the same result up to the order of annotations and extra facets.", "quantifier": "all library documents, all permutations of their keys", "why_tests_cant": "factorially many orders of unboundedly many keys", "anchors": ["v0/internal/raml/Library.go: assign"]}
{"id": "C63", "title": "A type definition used in several places is one object", "statement": "When a type definition object is used in several places (as property, items or facet of several definitions), a setter called on it shows in all of those places with exactly the effect the setter has on the definition, all places always agree, and no definition that does not contain the object changes.", "quantifier": "all type definitions built by any sequence of constructor, setter and map calls, all places at any depth", "why_tests_cant": "unboundedly many sharing structures and call histories", "anchors": ["v0/internal/raml/x-gen-type-object.go", "v0/internal/raml/x-gen-type-array.go", "v0/pkg/raml/DataTypeMap.go", "v0/internal/raml/DataType.go: ToYAML"]}
{"id": "C64", "title": "Writing a built type definition ends", "statement": "Converting a type definition built by any sequence of constructor, setter and map calls to YAML ends with a node or an error.", "quantifier": "all type definitions built by any sequence of calls", "why_tests_cant": "unboundedly many structures, and termination is not observable by a test", "anchors": ["v0/internal/raml/DataType.go: ToYAML, MarshalRAML", "v0/internal/raml/x-gen-type-object.go: marshal", "v0/pkg/raml/DataTypeMap.go: ToYAML"]}
{"id": "C65", "title": "Load, edit, save, load again", "statement": "When a type definition, an API document or a library is loaded, any of its setters are called any number of times, and it is saved and loaded again, then each getter answers what the last call of its setter said, and getters whose setter was not called answer what they answered after the first load.", "quantifier": "all YAML documents that load, all sequences of setter calls with all arguments, all getters", "why_tests_cant": "unboundedly many documents, arguments and call sequences; edits can interfere with each other and with what is written", "anchors": ["v0/internal/raml/x-gen-type-object.go", "v0/internal/raml/APISpec.go: UnmarshalRAML, MarshalRAML, setters", "v0/internal/raml/Library.go: UnmarshalRAML, MarshalRAML, setters", "v0/internal/raml/fn-sorting-hat-type.go"]}
{"id": "C66", "title": "Getters of maps return the object's own map", "statement": "The map that a getter of an API document, library, documentation item, example or type definition returns is the map of that object: edits made through it, at any later time, show in every getter and in the object that is written, exactly and in order, until the map is replaced by a setter; edits of a map never change an object that does not have it, and edits of a map that was replaced or unset do not show.", "quantifier": "all objects, all map getters, all later histories of map edits and setter calls on any objects", "why_tests_cant": "unboundedly many histories; aliasing errors show only in particular interleavings of edits and setters", "anchors": ["v0/internal/raml/APISpec.go: getters, Set*, Unset*", "v0/internal/raml/Library.go", "v0/internal/raml/x-gen-ex-string.go", "v0/internal/raml/x-gen-type-object.go", "v0/internal/raml/Documentation.go", "v0/pkg/raml/in-dry.go: ExtraFacets"]}
{"id": "C67", "title": "Maps are shared only where the program shares them", "statement": "Two getters, of one object or of two, return the same map only if the program set that map itself: what constructors and Unset methods put there is new each time. A program that does not set one map twice sees objects as independent values: nothing done to one shows in another. If it does, the objects share the map, and edits through either show in both.", "quantifier": "all histories of constructors, readers, setters and edits of maps, over any number of objects", "why_tests_cant": "unboundedly many histories and pairs of objects", "anchors": ["v0/internal/raml/APISpec.go: NewAPISpec, Unset*", "v0/internal/raml/Library.go: NewLibrary, Unset*", "v0/internal/raml/x-gen-type-object.go", "v0/internal/raml/x-gen-ex-string.go"]}
{"id": "C68", "title": "Formatting is idempotent", "statement": "Loading a document (a type definition, an API document, a library) and saving it, and then loading and saving the result, gives the same document as doing it once, whenever both succeed.", "quantifier": "all YAML documents", "why_tests_cant": "unboundedly many documents; what the second load makes of a document depends on the order, tags and nesting of everything the first save wrote", "anchors": ["v0/internal/raml/APISpec.go: UnmarshalYAML, MarshalYAML", "v0/internal/raml/Library.go: UnmarshalYAML, MarshalYAML", "v0/internal/raml/fn-sorting-hat-type.go: TypeSortingHat", "v0/internal/raml/x-gen-type-string.go", "v0/pkg/raml/rparse/parse-api.go: ParseApiDoc"]}
{"id": "C69", "title": "Exactly which documents survive is known", "statement": "A document that was loaded comes back as the same value from saving and loading again exactly if it has nothing of the following. In a type definition, at any depth: annotations, facet definitions, non-empty XML settings, examples in short form (without metadata), negative bounds that are read as large numbers, extra facets with an empty name or one that begins with a parenthesis (unless the type is nil), a type string that does not name the kind of the type, extra facets beside an include, floating-point numbers whose text means another number. In an API document further: annotations, documentation entries with a title or content. In a library further: annotation types. Extra entries of API documents, libraries and examples whose key is a floating-point number need a text that means that number.", "quantifier": "all YAML documents that load", "why_tests_cant": "an equivalence over all documents: neither that everything else survives nor that each of these is lost can be tested for every nesting and combination", "anchors": ["v0/internal/raml/APISpec.go: UnmarshalYAML, MarshalYAML", "v0/internal/raml/Library.go: UnmarshalYAML, MarshalYAML", "v0/internal/raml/fn-sorting-hat-type.go: TypeSortingHat", "v0/internal/raml/x-gen-type-string.go", "v0/internal/raml/x-gen-ex-string.go"]}
{"id": "C70", "title": "Exactly which documents load, are rejected, or crash the loader is known", "statement": "Loading a document has three outcomes, and which one is decided by the shape of the document alone. A type definition loads exactly if it is a string, an include, or a mapping in which every entry has the form its key calls for in a type of that kind: `type` and `schema` strings, each facet of the kind a value of its sort, `items` and facet definitions type definitions that load, `properties` type definitions that load and are neither nil nor include, annotations mappings from strings. Loading panics exactly if the first entry that does not load is an entry with an empty key, an example (or one of the examples) whose first bad entry has an empty key, a property that loads as nil or include, or a type definition within that panics. Everything else is rejected with an error. The same for API documents and libraries, whose entries must be of the sort their key calls for, and which panic exactly if the first entry that does not load is one with an empty key or a `types` or `schemas` mapping whose first bad type definition panics. What was in the object before plays no part.", "quantifier": "all YAML documents, and all objects to load an API document or library into", "why_tests_cant": "an equivalence over all documents of unbounded depth: tests can show single documents that load, fail or crash, not that there are no others", "anchors": ["v0/internal/raml/fn-sorting-hat-type.go: TypeSortingHat", "v0/internal/raml/x-gen-type-object.go: assign", "v0/internal/raml/x-gen-ex-string.go: UnmarshalRAML", "v0/internal/raml/APISpec.go: UnmarshalYAML, assign", "v0/internal/raml/Library.go: UnmarshalYAML, assign"]}
{"id": "C71", "title": "A map nobody changes may be read from any number of goroutines", "statement": "If goroutines only ask a map (Len, Has, Get, GetOpt, At, IndexOf, ForEach, writing it as YAML or JSON), then however their steps are interleaved the memory of the map stays as it is, no two of them race, each gets the results it would get alone, and each ends after a number of its own steps that does not depend on the others. Readers of a string-keyed map that do not call At with a bad index never panic.", "quantifier": "every map and memory that holds it, every number of goroutines running any programs of reading calls (each call may depend on the earlier answers), every schedule of their memory accesses", "why_tests_cant": "The number of interleavings grows exponentially with the length of the programs and the scheduler picks one; a test sees a handful.", "anchors": ["v0/pkg/raml/AnyMap.go: implAnyMap and the 20 generated siblings (StringMap.go, UntypedMap.go, DataTypeMap.go, PropertyMap.go, FacetMap.go, AnnotationMap.go, *ExampleMap.go)"]}
{"id": "C72", "title": "Goroutines may share a map while some of them change it", "statement": "Goroutines use one map at the same time, some of them changing it. Whatever the schedule, no call panics that would not in some order of the calls, and when all have ended the map is one that some sequence of calls builds, its order and its index agreeing. At the least this holds if each call is made under one mutex: then every call returns what it returns in one sequential order of the calls, in which each goroutine makes its calls in its own order.", "quantifier": "every map, every number of goroutines running any programs of calls, every schedule of their memory accesses", "why_tests_cant": "A lost update needs one particular interleaving of a few memory accesses; a test that passes a thousand times says nothing about the next schedule.", "anchors": ["v0/pkg/raml/AnyMap.go: implAnyMap and the 20 generated siblings (StringMap.go, UntypedMap.go, DataTypeMap.go, PropertyMap.go, FacetMap.go, AnnotationMap.go, *ExampleMap.go)"]}
{"id": "C73", "title": "Reading a document into an object that already holds something lays it over", "statement": "Reading a document into an API, library, type, example, XML or documentation object that already holds something succeeds, is rejected or panics exactly when reading it into a new object does. If it succeeds, each setting the document gives is the document's and each other setting is the old one; the entries of a map are the old ones whose keys the document does not give, followed by the document's; documentation, enum values and media types given as strings are added at the end. A string read into a type changes only its type name and never what kind of type it is; a bare value read into an example changes only its value.", "quantifier": "every document and every object, whatever was read into it or set before", "why_tests_cant": "It is about every pair of an object and a document; the fields interact through one loop over the keys.", "anchors": ["v0/internal/raml/APISpec.go: UnmarshalYAML, assign", "v0/internal/raml/Library.go: UnmarshalYAML, assign", "v0/internal/raml/DataType.go: UnmarshalRAML", "v0/internal/raml/x-gen-type-*.go: assign", "v0/internal/raml/x-gen-ex-*.go: UnmarshalRAML, assign", "v0/internal/raml/type-xml.go: UnmarshalRAML", "v0/internal/raml/Documentation.go: UnmarshalRAML", "v0/internal/raml/util-*-map.go"]}
{"id": "C74", "title": "A reading that fails leaves the object as it was", "statement": "If reading a document into an API, library, type, example, XML or documentation object is rejected or panics, the object holds what it held before.", "quantifier": "every document that does not load and every object", "why_tests_cant": "The bad entry can be at any depth and behind any number of good ones.", "anchors": ["v0/internal/raml/APISpec.go: UnmarshalYAML, assign", "v0/internal/raml/Library.go: UnmarshalYAML, assign", "v0/internal/raml/DataType.go: UnmarshalRAML", "v0/internal/raml/x-gen-type-*.go: assign", "v0/internal/raml/x-gen-ex-*.go: UnmarshalRAML, assign", "v0/internal/raml/type-xml.go: UnmarshalRAML", "v0/internal/raml/Documentation.go: UnmarshalRAML", "v0/internal/raml/util-*-map.go"]}
{"id": "C75", "title": "What is put into a getter's map is saved", "statement": "A program makes and loads documents, libraries and types, calls their setters, edits the maps that their getters return, and uses one map in several objects. Whenever it saves an object, what is saved can be loaded, and every getter of the loaded object answers as that of the saved object did: in particular each entry put into a map through a getter is there.", "quantifier": "every sequence of calls on any number of objects and maps, every entry, every moment at which an object is saved", "why_tests_cant": "Edits interact: the same map may be in several objects and places, and names put into different maps end up in one mapping.", "anchors": ["v0/internal/raml/APISpec.go: getters, MarshalYAML, UnmarshalYAML", "v0/internal/raml/Library.go: getters, MarshalYAML, UnmarshalYAML", "v0/internal/raml/DataType.go", "v0/internal/raml/type-datatype-ext.go", "v0/internal/raml/x-gen-type-*.go: MarshalRAML, UnmarshalRAML", "v0/pkg/raml/*Map.go: Put, Delete, SerializeOrdered"]}
{"id": "C76", "title": "A definition got from a document is part of it, at any depth", "statement": "A program reads and makes documents, walks from them through getters (a.Types().Get(\"A\").Properties().Get(\"b\").Items(), FacetDefinitions(), ...) and edits what it reaches, giving each setter and each Put an object of its own. Every such edit changes the document exactly in the place that the getters lead to: the same getters lead to the edited definition or map, all other getters answer as before, no other document changes, and the document is saved with the change. At any time the definitions of a document are finite.", "quantifier": "every sequence of documents read, chains of getters of any length, setters and map methods; every document that can be read", "why_tests_cant": "Every object is reached through pointers that are shared with the document; whether two chains lead to one object depends on the whole history of the program.", "anchors": ["v0/internal/raml/APISpec.go: Types, SetTypes, MarshalYAML", "v0/internal/raml/Library.go: Types, SetTypes, MarshalYAML", "v0/internal/raml/x-gen-type-array.go: Items, SetItems", "v0/internal/raml/x-gen-type-object.go: Properties, SetProperties", "v0/internal/raml/type-datatype-ext.go: FacetDefinitions, SetFacetDefinitions", "v0/pkg/raml/DataTypeMap.go, PropertyMap.go, FacetMap.go: Get, Put, Delete, ReplaceOrPut"]}
{"id": "C77", "title": "What is saved alike is alike", "statement": "If two API documents, two libraries or two types that were loaded or built are saved as the same YAML, then every getter of the one answers as that of the other, at every depth: saving merges no two different documents.", "quantifier": "every pair of documents, libraries and types that can be loaded or built", "why_tests_cant": "It compares all pairs of documents; a fact that saving drops shows only when another document differs in nothing else.", "anchors": ["v0/internal/raml/APISpec.go: MarshalYAML", "v0/internal/raml/Library.go: MarshalYAML", "v0/internal/raml/x-gen-type-*.go: MarshalRAML", "v0/internal/raml/Documentation.go: MarshalRAML", "v0/internal/raml/type-xml.go: MarshalRAML"]}
{"id": "C78", "title": "Whatever can be loaded can be built", "statement": "For every API document, library and type that can be loaded from YAML, a program can build one with the same answers from all getters by calling the library's constructors (rbuild.New..., raml.New...Map), setters and the methods of maps, without loading any YAML.", "quantifier": "every document, library and type that can be loaded; all sequences of constructor, setter and map calls", "why_tests_cant": "It asks of every loadable document that some sequence of calls exists; that none exists for some document is a statement about all sequences.", "anchors": ["v0/pkg/raml/rbuild/new.go", "v0/pkg/raml/*Map.go: New...Map, Put, SerializeOrdered", "v0/internal/raml/APISpec.go: setters", "v0/internal/raml/Library.go: setters", "v0/internal/raml/x-gen-type-*.go: setters", "v0/pkg/raml/ArrayType.go, ObjectType.go, Example.go, XML.go, Documentation.go"]}
{"id": "C79", "title": "Everything got from a document is part of it", "statement": "A program reads or makes API documents, libraries, type definitions and examples and then calls setters and map methods on anything that getters lead to from them, to any depth: definitions, examples, XML settings, documentation entries, annotations and every other map. Each call is an edit of the document at exactly that place: the same getters then lead to the edited object, getters that lead elsewhere lead to the same unchanged objects as before, no other document changes, and the document is saved with the edit.", "quantifier": "every program, every chain of getters of any length, every setter and map method, every moment", "why_tests_cant": "There are unboundedly many chains of getters and orders of edits; that nothing else changes is a statement about all other places.", "anchors": ["v0/internal/raml/APISpec.go: getters, setters, MarshalYAML", "v0/internal/raml/Library.go: getters, setters, MarshalYAML", "v0/internal/raml/x-gen-type-*.go: getters, setters, MarshalRAML", "v0/internal/raml/x-gen-ex-*.go: getters, setters", "v0/internal/raml/type-xml.go: setters", "v0/internal/raml/Documentation.go: getters, setters", "v0/pkg/raml/*Map.go: Get, Put, PutIfNotNil, ReplaceOrPut, ReplaceIfExists, Delete"]}
{"id": "C80", "title": "Those who use documents of their own do not disturb each other", "statement": "Several goroutines each read or make documents of their own and get, edit and save things in them, in any interleaving of their calls. Each has then exactly what it would have had running alone, and no call writes to an object that another goroutine can reach, so that no lock is needed.", "quantifier": "every number of goroutines, every program of each, every interleaving of their calls", "why_tests_cant": "It ranges over all interleavings; hidden sharing between separately loaded documents shows only under some of them.", "anchors": ["v0/internal/raml/APISpec.go", "v0/internal/raml/Library.go", "v0/internal/raml/x-gen-type-*.go", "v0/internal/raml/x-gen-ex-*.go", "v0/pkg/raml/*Map.go", "v0/pkg/raml/rbuild/new.go"]}
{"id": "C81", "title": "A call changes what is saved only where it is made", "statement": "A setter or a map method is called on something that getters lead to, to any depth, from an API document, a library or a type definition. If the document can be saved before and after, the two results are the same but for the place of the call: on the way there every mapping has the same keys in the same order and the same values off the way; in the mapping of the object called, only the entry of the setter's field or of the map's key (for annotations and extra facets, the entries of their names) can appear, go or have another value, and all others are the same in the same order. A call on an example, XML settings or documentation can change the entry in which it is saved; a map that is or becomes empty, and SerializeOrdered, the entry of the map. A definition with nothing but its type is saved as the type, and with the entry of the call and the type otherwise. Excepted are annotations and extra facets called `type`, which take the place of the type of their definition. What other documents are saved as does not change.", "quantifier": "every program, every chain of getters of any length, every setter and map method with every argument, every moment", "why_tests_cant": "That nothing else changes is a statement about all other places of all documents, for each of more than a hundred setters and map methods at any depth.", "anchors": ["v0/internal/raml/x-gen-type-*.go", "v0/internal/raml/DataType.go", "v0/internal/raml/type-datatype-ext.go", "v0/internal/raml/APISpec.go", "v0/internal/raml/Library.go", "v0/pkg/raml/*Map.go"]}
{"id": "C82", "title": "A change of a document changes what is loaded only there", "statement": "Two API documents, or two type definitions, both load and are the same but for the entries with one key in one mapping, at any depth: other values, more or fewer of them, in other places. What is loaded is then the same but for what these entries say: in the object of that mapping only the getter of the key (for annotations, resources and extra facets: only the entry with its name) can show something else; on the way there every getter off the way shows the same, every map has the same keys in the same order, and the values of the other keys are the same. Excepted are the entries type, schema, properties and items, which may make their definition one of another kind. (Where the way leads into an example, XML settings, documentation or a map of interface{} values, the change shows in that entry.)", "quantifier": "every two such documents, every path of any length, every key and every change of its entries", "why_tests_cant": "That nothing else changes is a statement about all pairs of documents and all getters at any depth; tests compare single documents.", "anchors": ["v0/internal/raml/APISpec.go", "v0/internal/raml/DataType.go", "v0/internal/raml/x-gen-type-*.go", "v0/internal/raml/fn-sorting-hat-type.go", "v0/pkg/raml/*Map.go"]}
{"id": "C83", "title": "A change of a library changes what is loaded only there", "statement": "As C82, for libraries: when two libraries are the same but for the entries with one key in one mapping, what is loaded is the same but for what these entries say; an entry annotationTypes shows in the annotation types and nowhere else.", "quantifier": "every two such libraries, every path of any length, every key and every change of its entries", "why_tests_cant": "It compares every getter, at any depth, of all pairs of libraries that differ in one entry.", "anchors": ["v0/internal/raml/Library.go", "v0/internal/raml/DataType.go", "v0/internal/raml/x-gen-type-*.go", "v0/internal/raml/fn-sorting-hat-type.go", "v0/pkg/raml/*Map.go"]}
{"id": "C84", "title": "Calls that have nothing to do with each other can be made in either order", "statement": "In any program, two calls in a row on different documents, on objects that chains of getters lead to which part from each other, on one object but about different getters or keys (SetX and UnsetX are about X, SetSchemas is about Types), or one on an object and the other on something reached from it by a getter or key the first is not about, can change places: every document ends up the same, and is saved as the same. Excepted are two calls that may both add a key to one map, since keys are kept in the order they were added in. Hence two parties that edit one document by calls none of which is related to any of the other's get the same outcome however their calls (each in its own order) are interleaved.", "quantifier": "every program over any number of documents, every chain of getters of any length, every pair of setters and map methods, every interleaving", "why_tests_cant": "There are thousands of pairs of methods, on objects at unbounded depth, and exponentially many interleavings.", "anchors": ["v0/internal/raml/APISpec.go", "v0/internal/raml/Library.go", "v0/internal/raml/x-gen-type-*.go", "v0/internal/raml/Example.go", "v0/internal/raml/XML.go", "v0/internal/raml/UserDocumentation.go", "v0/pkg/raml/*Map.go"]}
{"id": "C85", "title": "A call made twice is made once, and a call makes void what it replaces", "statement": "In any program, a setter, Put, ReplaceOrPut, ReplaceIfExists, Delete or SerializeOrdered called twice in a row with the same arguments on the same object leaves everything as if called once. A setter, Put, PutIfNotNil of a value, Delete or SerializeOrdered leaves everything as if the calls it overrides had not been made before it: calls on the same object about the same getter or key, and calls on whatever that getter or key led on to, also when unrelated calls (C84) were made in between. Excepted are keys that are not equal to themselves (floats that are not numbers).", "quantifier": "every program over any number of documents, every object at any depth, every setter and map method with any arguments", "why_tests_cant": "It relates all histories of calls to shorter ones; tests run single histories.", "anchors": ["v0/internal/raml/APISpec.go", "v0/internal/raml/Library.go", "v0/internal/raml/x-gen-type-*.go", "v0/internal/raml/Example.go", "v0/internal/raml/XML.go", "v0/internal/raml/UserDocumentation.go", "v0/pkg/raml/*Map.go"]}
{"id": "C86", "title": "An object that is put into several places is one object", "statement": "A program may give setters and map methods (Put, PutIfNotNil, ReplaceOrPut, ReplaceIfExists) objects that are already part of something, and keep objects that getters return. Wherever an object then is, it is the same object: a call on it, however it was reached, shows at every place that leads to it, in getters and in what is saved, and nowhere else; putting it somewhere shows there as putting its value there would. Everything a program holds can be saved unless some object in it contains itself; that happens when an object is put into something it leads to, and then saving does not end.", "quantifier": "every program over any number of variables, all setters and map methods, all chains of getters of any length, any number of places of an object", "why_tests_cant": "Which places share an object depends on the whole history; the number of graphs of objects is unbounded.", "anchors": ["v0/internal/raml/APISpec.go", "v0/internal/raml/Library.go", "v0/internal/raml/x-gen-type-*.go", "v0/internal/raml/Example.go", "v0/pkg/raml/*Map.go"]}
{"id": "C87", "title": "Saving does not blow up a document", "statement": "Whatever document is loaded, what is saved afterwards has at most three times as many YAML nodes (keys, values, items, mappings, sequences) as the document that was loaded. This holds for API documents, libraries and single type definitions, and no smaller factor holds for all documents.", "quantifier": "every YAML document that can be loaded and saved, of any size and depth", "why_tests_cant": "It bounds the size of the outcome for documents of every size and depth; default values, expanded forms and ordered maps could multiply at every level.", "anchors": ["v0/internal/raml/APISpec.go", "v0/internal/raml/Library.go", "v0/internal/raml/DataType.go", "v0/internal/raml/x-gen-type-*.go", "v0/internal/raml/x-gen-ex-*.go", "v0/pkg/raml/*Map.go"]}
{"id": "C88", "title": "Formatting again and again comes to rest", "statement": "Loading a document and saving it, then loading and saving the outcome, and so on, comes to rest: after as many rounds as the first document has YAML nodes, and one, every further round gives the same document, or fails as the rounds before it did. This holds for API documents, libraries and single type definitions, provided that the text written for a floating-point number that was read means that number again. No fixed number of rounds does for all documents.", "quantifier": "every YAML document, of any size and depth, and any number of rounds", "why_tests_cant": "One round can change what the next one reads (C68), at every depth; that it ends, and when, is a statement on unbounded sequences of rounds from documents of every depth.", "anchors": ["v0/internal/raml/APISpec.go", "v0/internal/raml/Library.go", "v0/internal/raml/DataType.go", "v0/internal/raml/fn-sorting-hat-type.go", "v0/internal/raml/x-gen-type-*.go", "v0/internal/raml/x-gen-ex-*.go"]}
{"id": "C89", "title": "What does not load has a small part that does not load", "statement": "If loading a document is rejected, there is a part of it, made by leaving out entries of mappings and items of sequences, whose loading is rejected as well and whose number of YAML nodes is at most four times the number of levels of the document, however wide the document is. If loading panics, there is such a part at which loading panics. This holds for API documents, libraries and type definitions.", "quantifier": "every YAML document, of any size and depth, that is rejected or at which the loader panics, loaded into any object", "why_tests_cant": "It speaks about all rejected documents; that what is wrong never needs many entries together is a statement on every place at which an error can arise, at every depth.", "anchors": ["v0/internal/raml/APISpec.go", "v0/internal/raml/Library.go", "v0/internal/raml/DataType.go", "v0/internal/raml/fn-sorting-hat-type.go", "v0/internal/raml/x-gen-type-*.go", "v0/internal/raml/x-gen-ex-*.go", "v0/internal/util/assign"]}
{"id": "C90", "title": "What loads still loads when something is left out", "statement": "If a document loads, every document made from it by leaving out entries of mappings and items of sequences, at any depth, loads too. This holds for API documents, libraries and type definitions.", "quantifier": "every YAML document that loads, and every choice of entries and items to leave out", "why_tests_cant": "It quantifies over all documents and over all subsets of their entries, at every depth.", "anchors": ["v0/internal/raml/APISpec.go", "v0/internal/raml/Library.go", "v0/internal/raml/DataType.go", "v0/internal/raml/fn-sorting-hat-type.go", "v0/internal/raml/x-gen-type-*.go", "v0/internal/raml/x-gen-ex-*.go", "v0/internal/util/assign"]}
{"id": "C91", "title": "What the tests check holds for all keys and values", "statement": "Every check that the repository's four map test files make for particular keys and values (Put, Delete, Has, Get, GetOpt, ForEach, MarshalYAML, ToYAML, PutIfNotNil, ReplaceIfExists, ReplaceOrPut and MarshalJSON, each with the calls of its test) holds for all values and for all keys that a Go map takes and that equal themselves, as long as keys that differ in the test differ.", "quantifier": "every choice of the keys and values of the tests, for string maps with any type of values and for AnyMap with keys of any type", "why_tests_cant": "The tests use one literal for each key and value; this is the statement for all of them.", "anchors": ["v0/pkg/raml/StringMap_test.go", "v0/pkg/raml/UntypedMap_test.go", "v0/pkg/raml/AnyExampleMap_test.go", "v0/pkg/raml/AnyMap_test.go", "v0/pkg/raml/StringMap.go", "v0/pkg/raml/AnyMap.go"]}
{"id": "C92", "title": "The example program prints the whole document or panics", "statement": "The example program ends normally exactly when it fetched a document that loads and can be written and the standard output took all of its text; what it printed is then the text of that document with its header. In all other cases it panics. If there is no document to print it has printed nothing; if there is one, it has printed a beginning of its text.", "quantifier": "every response (none, an empty body, a body that is not YAML, every YAML document) and every behaviour of the standard output, failing at any byte of any write", "why_tests_cant": "It quantifies over all documents and over all points at which the output can fail.", "anchors": ["v0/cmd/example/main.go", "v0/pkg/raml/rparse/parse-api.go", "v0/internal/raml/APISpec.go", "readme.adoc"]}
{"id": "C93", "title": "JSON and YAML of a map say the same", "statement": "For every map with string keys that can be written as YAML, MarshalJSON succeeds too, and both list the same keys; under each key the JSON value is the value that the YAML has there.", "quantifier": "every StringMap and UntypedMap that a history of calls or loading a document leads to, with values of all types, ordered or not, and every enumeration order of Go maps", "why_tests_cant": "It compares two writers over all maps and all values.", "anchors": ["v0/pkg/raml/StringMap.go", "v0/pkg/raml/UntypedMap.go", "v0/pkg/raml/AnyMap.go", "v0/internal/raml/util-untyped-map.go", "v0/internal/raml/util-str-map.go"]}
{"id": "C94", "title": "No method of a map looks at an entry twice", "statement": "As the notes on IndexOf say of that method, no method of a map goes through its entries more than once: each call looks at every entry at most once. Get, GetOpt, Has, Len and SerializeOrdered look at none; At looks at the one it returns; IndexOf, ReplaceIfExists and ReplaceOrPut look at the entries up to the one with the key, and at none if there is none; Put and Delete look at each entry once if the key is there and at none otherwise. A program that makes n calls on a new map looks at entries at most n*n/4 times in all.", "quantifier": "every map in any state, every key including those that cannot be hashed or are not equal to themselves, every method, every history", "why_tests_cant": "Tests do not see how often an entry is read, and the bound is for all histories.", "anchors": ["v0/pkg/raml/AnyMap.go:IndexOf", "v0/pkg/raml/AnyMap.go:Delete", "v0/pkg/raml/AnyMap.go:Put", "v0/pkg/raml/StringMap.go"]}
{"id": "C95", "title": "What is saved loads again, with nil in a map too", "statement": "If a program put nil into a map (Put takes it; PutIfNotNil is there to leave it out) and the object is saved without an error, then what was saved loads again, with the same keys.", "quantifier": "every map with nil under any number of keys, in every place of a document that has maps", "why_tests_cant": "It quantifies over all maps and all documents they can stand in.", "anchors": ["v0/pkg/raml/DataTypeMap.go", "v0/pkg/raml/AnnotationMap.go", "v0/pkg/raml/UntypedMap.go", "v0/internal/raml/util-dt-map.go", "v0/internal/raml/util-ann-map.go", "v0/internal/raml/util-facet-map.go", "v0/internal/raml/util-ex-map.go"]}
{"id": "C96", "title": "OverrideType changes the type and nothing else", "statement": "OverrideType(t), on a type definition of any kind, makes Type() and Schema() answer t and changes no other getter and not Kind(). Whether the definition can be saved does not depend on t, and what is saved is the same but for the type, which is t (`!include t` in an include). Excepted are definitions with an extra facet or annotation called `type`: they are saved the same whatever t is. If what is saved loads, it is of the kind that the name t denotes, and an include stays one; a definition with nothing else set does load, and its Type() is t.", "quantifier": "every type definition of every kind with any settings, and every text t", "why_tests_cant": "It quantifies over all definitions, to any depth, and all texts.", "anchors": ["v0/internal/raml/DataType.go:OverrideType", "v0/pkg/raml/DataType.go:DataType", "v0/internal/raml/x-gen-type-include.go:marshal", "v0/internal/raml/fn-sorting-hat-type.go"]}
{"id": "C97", "title": "Loading takes work proportional to the document", "statement": "There is a number c such that loading any document, as a type definition, an API or a library, takes at most c looks per node of the document, where a look is at an entry or item of the document or at an entry of a map that is being filled.", "quantifier": "every YAML document, of any size and shape, and the three loaders", "why_tests_cant": "A bound on the growth of the work is about documents of every size; a test has one.", "anchors": ["v0/internal/raml/APISpec.go:UnmarshalRAML", "v0/internal/raml/Library.go:UnmarshalRAML", "v0/internal/raml/fn-sorting-hat-type.go:TypeSortingHat", "v0/pkg/raml/AnyMap.go:Put", "v0/pkg/raml/AnyMap.go:Delete"]}
{"id": "C98", "title": "Saving takes work proportional to the object", "statement": "There is a number c such that saving any type definition, API document or library, loaded or built, takes at most c looks per thing in it (a value, an entry of a map, an item of a list), where a look is at an entry or item that is written or at an entry of the map that is filled for it.", "quantifier": "every type definition, API document and library, of any size, depth and content", "why_tests_cant": "A bound on the growth of the work is about objects of every size; a test has one.", "anchors": ["v0/internal/raml/DataType.go:ToYAML", "v0/internal/raml/APISpec.go:MarshalYAML", "v0/internal/raml/Library.go:MarshalYAML", "v0/pkg/raml/AnyMap.go:Put", "v0/pkg/raml/AnyMap.go:ToYAML"]}
{"id": "C99", "title": "An alias is the same as what it stands for", "statement": "A document with anchors, aliases and merge keys (a type definition, an API document or a library) loads like the same document with every alias replaced by what it stands for and every merge key by the entries it brings.", "quantifier": "every document, every set of anchored parts, every place at which an alias or a merge key can stand", "why_tests_cant": "Aliases can stand in the place of any node of any document; no test has one.", "anchors": ["v0/internal/raml/fn-sorting-hat-type.go:TypeSortingHat", "v0/internal/raml/fn-sorting-hat-type.go:siftType", "v0/internal/raml/APISpec.go:UnmarshalYAML", "v0/internal/raml/Library.go:UnmarshalYAML", "v0/internal/raml/util-untyped-map.go:UnmarshalUntypedMapRAML", "v0/internal/raml/Documentation.go:UnmarshalRAML"]}
{"id": "C100", "title": "Reading into one object leaves all other lists as they are", "statement": "A program makes lists, gets them from API documents and type definitions (Protocols, MediaTypes, SecuredBy, Documentation, Enum, FileTypes), sets them, writes to their elements, appends to them, cuts them, and reads documents into the objects, in any order. Reading into one object never changes what is in a list of another object or in a list the program holds.", "quantifier": "every such program, every document read, whether the reading succeeds or stops half way, every way in which append makes room", "why_tests_cant": "Whether two lists share memory depends on everything the program did with them before and on how append grows a list.", "anchors": ["v0/internal/raml/APISpec.go:assign", "v0/internal/raml/APISpec.go:SetMediaTypes", "v0/internal/raml/APISpec.go:Documentation", "v0/internal/raml/x-gen-type-string.go:SetEnum", "v0/internal/raml/x-gen-type-string.go:assign", "v0/internal/raml/x-gen-type-file.go:SetFileTypes", "v0/internal/util/assign/string-list.go:AsStringList"]}
{"id": "C101", "title": "Several documents from one reader", "statement": "A program calls ParseApiDoc or ParseLibrary again and again on the same reader. The n-th call gives what is in the n-th document of the stream, or an error if that document is broken; after the last document each call says that the stream has ended. No part of the stream is dropped without an error.", "quantifier": "every stream of documents, good or broken, every way in which the reader hands it over in pieces, every number of calls, readers that fail", "why_tests_cant": "How much one call takes from the reader depends on how the reader cuts the stream into pieces; a test reads one document from one string.", "anchors": ["v0/pkg/raml/rparse/parse-api.go:ParseApiDoc", "v0/pkg/raml/rparse/parse-lib.go:ParseLibrary"]}
{"id": "C102", "title": "Several documents to one writer", "statement": "API documents and libraries that are written one after another to the same writer with WriteRAML can be read back one after another from what was written, each as it was written.", "quantifier": "every list of documents, every writer that takes all of it, every encoder and scanner that keep the contracts of DESIGN.md", "why_tests_cant": "A test writes one document to one buffer; what several of them become together depends on the contents of all of them.", "anchors": ["v0/internal/raml/APISpec.go:WriteRAML", "v0/internal/raml/Library.go:WriteRAML", "v0/pkg/raml/rparse/parse-api.go:ParseApiDoc", "v0/pkg/raml/rparse/parse-lib.go:ParseLibrary"]}
{"id": "C103", "title": "What API documents and libraries have in common is treated alike", "statement": "A document that has only entries both kinds of document know, or neither of them knows (types, schemas, traits, resourceTypes, annotationTypes, securitySchemes, uses, annotations, anything else), is accepted as an API document exactly if it is accepted as a library, and Types, Traits, ResourceTypes, AnnotationTypes, SecuritySchemes, Uses, Annotations and ExtraFacets then answer the same on both. An API document and a library on which these answer the same are saved with the same entries, apart from those only one of them has.", "quantifier": "every such document, read into new objects or into objects that answer the same; every API document and library", "why_tests_cant": "The two readers and the two writers are separate code; that they agree is a statement about all documents.", "anchors": ["v0/internal/raml/APISpec.go:assign", "v0/internal/raml/APISpec.go:MarshalYAML", "v0/internal/raml/Library.go:assign", "v0/internal/raml/Library.go:MarshalYAML"]}
{"id": "C104", "title": "What all kinds of types have in common is treated alike", "statement": "Two type definitions that differ only in the type they name, and otherwise have only entries that are not particular to some kinds (displayName, description, required, facets, xml, annotations, unknown facets), are both accepted or both rejected, and neither crashes unless the other does. When accepted, DisplayName, Description, Required, FacetDefinitions, XML, Annotations and ExtraFacets answer the same for both, and they are saved with the same entries, but for the type.", "quantifier": "every two type names, built in or not, every sequence of such entries before and after the type, under the key type or schema", "why_tests_cant": "Fifteen generated files each have their own reader and writer; a test compares two kinds on one definition, while the property is about every pair of kinds and every definition.", "anchors": ["v0/internal/raml/fn-sorting-hat-type.go:siftType", "v0/internal/raml/fn-sorting-hat-type.go:typeToKind", "v0/internal/raml/type-datatype-ext.go:assign", "v0/internal/raml/type-datatype-ext.go:marshal", "v0/internal/raml/DataType.go:assign", "v0/internal/raml/x-gen-type-string.go:assign", "v0/internal/raml/x-gen-type-nil.go"]}
{"id": "C105", "title": "The names of what an API document defines do not matter", "statement": "Giving other names to the types, traits, resource types, annotation types, security schemes, used libraries and base URI parameters that an API document defines, one to one in each section, gives a document that loads exactly if the original loads and crashes the loader exactly if the original does. What is loaded is the same but for those names: the same definitions in the same order. What is then saved is the same too but for those names. References to a definition are text to the library and stay as they are.", "quantifier": "every document, every one-to-one change of names for each section (types and schemas are one section)", "why_tests_cant": "A test uses a few names; a name that happens to mean something somewhere, or two names that fall together, are not among them.", "anchors": ["v0/internal/raml/APISpec.go:assign", "v0/internal/raml/APISpec.go:MarshalYAML", "v0/internal/raml/util-dt-map.go", "v0/internal/raml/util-untyped-map.go"]}
{"id": "C106", "title": "The names of what a library defines do not matter", "statement": "Giving other names to the types, traits, resource types, annotation types, security schemes and used libraries that a library document defines, one to one in each section, gives a document that loads exactly if the original loads and crashes the loader exactly if the original does. What is loaded, and what is then saved, is the same but for those names: the same definitions in the same order. References to a definition are text to the library and stay as they are.", "quantifier": "every library document, every one-to-one change of names for each section (types and schemas are one section)", "why_tests_cant": "A test uses a few names; a name that happens to mean something somewhere, or two names that fall together, are not among them.", "anchors": ["v0/internal/raml/Library.go:assign", "v0/internal/raml/Library.go:MarshalYAML", "v0/internal/raml/util-ann-map.go"]}
{"id": "C107", "title": "Reading a document twice is as reading it once", "statement": "Reading a document that can be read into an API, library, type, example, XML or documentation object a second time into the same object succeeds and changes nothing: every getter answers as after the first reading, with the same entries in the same order.", "quantifier": "every document, every object of these kinds, whatever it held before", "why_tests_cant": "The tests read each document once, into a new object; which settings are replaced and which are added to shows only when something is there already, for every key and every kind of object.", "anchors": ["v0/internal/raml/APISpec.go:UnmarshalYAML", "v0/internal/raml/APISpec.go:assign", "v0/internal/raml/Library.go:UnmarshalYAML", "v0/internal/raml/DataType.go:UnmarshalRAML", "v0/internal/raml/type-datatype-ext.go:assign"]}
{"id": "C108", "title": "The names in a type definition do not matter", "statement": "Giving the properties of an object type, and the facet definitions and examples of a type of any kind, other names (different ones for different things) changes nothing but the names: the definition is accepted or rejected as before, is of the same kind, has the same properties, facets and examples under the new names in the same order and everything else as before, and is saved as before but for the names.", "quantifier": "every type definition, every one-to-one change of the names", "why_tests_cant": "The tests use a few names; that no name is treated specially (as the names of the settings are) and that the order is not that of the names can be seen only over all names.", "anchors": ["v0/internal/raml/fn-sorting-hat-type.go:TypeSortingHat", "v0/internal/raml/DataType.go:UnmarshalRAML", "v0/internal/raml/DataType.go:MarshalRAML", "v0/internal/raml/type-datatype-ext.go:assign", "v0/internal/raml/x-gen-type-object.go:assign"]}
{"id": "C109", "title": "The names of annotations and the paths of resources do not matter", "statement": "Giving the annotations of an API other names, and its resources other paths (different ones for different things), changes nothing but these: the document is accepted or rejected as before, the API has the same annotations and resources under the new names and paths in the same order and everything else as before, and it is saved as before but for the names and paths.", "quantifier": "every API document, every one-to-one change of the names of annotations and of the paths", "why_tests_cant": "The tests use a few names and paths; that none is treated specially, that none hides a setting or another entry, and that the order does not come from the names can be seen only over all of them.", "anchors": ["v0/internal/raml/APISpec.go:UnmarshalYAML", "v0/internal/raml/APISpec.go:assign", "v0/internal/raml/APISpec.go:MarshalYAML"]}
{"id": "C110", "title": "The names of annotations and unknown facets in a type definition do not matter", "statement": "Giving the annotations of a type definition other names, and its unknown facets other names that have no meaning either (for the kind of type, or for finding the kind), different ones for different things, changes nothing but these names: the definition is read as the same kind, with the same annotations and extra facets under the new names in the same order and everything else as before, and is saved as before but for the names.", "quantifier": "every type definition that can be read, every one-to-one change of these names", "why_tests_cant": "The tests use a few names; that none of the others is treated specially, hides a setting or is hidden by one when the type is saved can be seen only over all names and all kinds.", "anchors": ["v0/internal/raml/fn-sorting-hat-type.go:TypeSortingHat", "v0/internal/raml/DataType.go:assign", "v0/internal/raml/DataType.go:MarshalRAML", "v0/internal/raml/type-datatype-ext.go:assign", "v0/internal/raml/type-datatype-ext.go:marshal"]}
{"id": "C111", "title": "The names of annotations in a library do not matter", "statement": "Giving the annotations of a library other names (different ones for different annotations) changes nothing but these names: the library is accepted or rejected as before, has the same annotations under the new names in the same order and everything else as before, and is saved as before but for the names.", "quantifier": "every library document, every one-to-one change of the names of its annotations", "why_tests_cant": "The tests use a few names; that none meets the name of something else in the library can be seen only over all documents and all names.", "anchors": ["v0/internal/raml/Library.go:UnmarshalYAML", "v0/internal/raml/Library.go:assign", "v0/internal/raml/Library.go:MarshalYAML"]}
{"id": "C112", "title": "The names of unknown entries of an API do not matter", "statement": "Giving the unknown entries of an API document other names that are unknown too (different ones for different entries) changes nothing but these names: the document is accepted or rejected as before, the API has the same extra entries under the new names in the same order and everything else as before, and it is saved as before but for the names.", "quantifier": "every API document, every one-to-one change of the names of unknown entries", "why_tests_cant": "The tests use a few unknown names, if any; that every name but those of the settings is treated alike can be seen only over all of them.", "anchors": ["v0/internal/raml/APISpec.go:UnmarshalYAML", "v0/internal/raml/APISpec.go:assign", "v0/internal/raml/APISpec.go:MarshalYAML"]}
