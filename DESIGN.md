# Formal model of lib-go-raml in Rocq

The model is in `rocq/theories`. It is written as total, executable Gallina functions that follow the Go
code function by function; each definition cites the file and lines it models. The theorems that settle
the properties of `properties.jsonl` are in the `Properties*.v` files, which hold only theorem statements closed by
`exact` and `Print Assumptions`.

## 1. Trusted base

* Coq 8.16.1's kernel (and `coqchk`), the standard library. No axioms: every `Print Assumptions` in the
  `Properties*.v` files prints `Closed under the global context`.
* The reading of the Go code that the model's definitions encode (this is the only tie to the code).
* The contracts of the libraries the code calls, listed in section 3. They are written as definitions in `Yaml.v` and
  `Values.v` (never as axioms), except floating point text conversion, which is a record of two unconstrained
  functions (`FloatIO`) that every theorem quantifies over.
* Go semantics as modelled: strings are byte strings (`string` of `ascii`), `int64`/`uint` are
  mathematical integers with the wrap written out where the code converts, a nil pointer is `None`, a panic is the
  outcome `Panic`, an error is the outcome `Err`.

## 2. What is modelled

| File | Models |
|---|---|
| `Base.v` | outcomes `Ok / Err / Panic`, sequencing |
| `OMap.v` | the 21 generated ordered maps of `pkg/raml/*Map.go`: slice + hash index + `outOrder`, all operations, for any key type with Go's `==` (partial equivalence, so that NaN is covered) and hashability |
| `OMapSpec.v` | the specification of those maps: a list of pairs |
| `Slice.v` | Go slices with shared backing arrays, for `Put`/`Delete` and the struct copy taken by `PutIfNotNil` |
| `Lists.v` | the lists of API documents and type definitions (`Protocols`, `MediaTypes`, `SecuredBy`, `Documentation`, `Enum`, `FileTypes`) as Go slices: getters, setters, reading, and what a program does with slices |
| `OMapJson.v` | `MarshalJSON`, over every enumeration order of the Go map |
| `Yaml.v` | YAML nodes and the `xyml` contracts |
| `Values.v` | Go values stored in maps, conversion to nodes (`xyml.ToYamlNode`), `ToYAML` of maps |
| `Meta.v` | `rmeta` keys, kinds, defaults, headers; `rmod` |
| `Assign.v` | `internal/util/assign`, `util-str-map.go`, `util-untyped-map.go`, `util-ann-map.go` |
| `Xml.v`, `Doc.v`, `Example.v` | `type-xml.go`, `Documentation.go`, the 14 `x-gen-ex-*.go` |
| `DataType.v` | `DataType.go`, `type-datatype-ext.go`, the 16 `x-gen-type-*.go` (state, constructors, `assign`), the sorting hats, `util-dt-map.go`, `util-facet-map.go`, `util-ex-map.go` |
| `Marshal.v` | `marshal`, `MarshalRAML`, `ToYAML` of types and examples |
| `Api.v`, `Library.v` | `APISpec.go`, `Library.go`: state, constructors, reading, writing to a node |
| `Writer.v` | `WriteRAML` to a writer that may fail at any byte, `rparse` on an empty, broken or good stream, the header comment |
| `Reader.v` | `rparse` on a reader: what one call takes from it, and calls that follow each other on the same reader |
| `Several.v` | `WriteRAML` of several documents to one writer |
| `Setters.v` | every setter and unsetter of types, examples, XML settings, documentation entries, API documents and libraries |
| `Heap.v` | type definitions as objects behind references: constructors, setters, edits of property and facet maps, `ToYAML` with a finite stack |
| `Live.v` | the maps of documents, libraries, documentation items, examples and types behind references: getters, setters, edits of maps |
| `Conc.v` | the methods of the maps as sequences of single memory accesses, goroutines that interleave them, with and without a mutex around each call |
| `Into.v` | UnmarshalYAML and UnmarshalRAML on objects that hold something already, with what is left of the object when they fail |
| `Num.v`, `Formats.v`, `Keys.v`, `Out.v` | decimal text, format tables, Go keys and their equality, the map the marshal functions fill |

Specifications (vocabulary of the theorems, independent of the code): `OMapSpec.v`, `Fields.v`, `FacetSpec.v`, `WriteSpec.v`, `RoundSpec.v`, `Same.v`, `ApiFields.v`,
`ApiSpec.v`, `ApiRoundSpec.v`, `SetterSpec.v`, `HeapSpec.v`, `ConcSpec.v`, `IntoSpec.v`, `LiveSaveSpec.v`, `Deep.v` (model and vocabulary of C76), `BuildSpec.v` (what programs can build, C78), `Objects.v` (model and vocabulary of C79 and C80: every object behind a reference), `Places.v` (documents that are the same but for a place, and the place of each call; C81), `Independent.v` (which calls have to do with each other, C84 and C85), `Sizes.v` (number of nodes, C87), `Settle.v` (rounds of formatting, C88), `Cuts.v` (parts of documents, C89 and C90), `RepoTests.v` (the repository's tests as statements, C91), `Program.v` (model of the example program and vocabulary of C92), `Sharing.v` (model and vocabulary of C86: calls given an object that is already there), `Changes.v` (what is loaded that is the same but for a place; C82, C83).

Proofs: `OMapProofs.v`, `MapFacts.v`, `AssignProofs.v`, `TypeFacts.v`, `FieldProofs.v`, `FacetProofs.v`, `InsertProofs.v`, `OrderProofs.v`, `PathProofs.v`, `DocProofs.v`,
`ReadInv.v`, `WasRead.v`, `Crash.v`, `Writable.v`, `WriteProofs.v`, `TypeSegs.v`, `TypeWrite.v`, `Segs.v`, `Lens.v`, `Parts.v`, `ExProofs.v`, `ExRound.v`, `XmlProofs.v`,
`RoundProofs.v`, `Stable.v`, `Lost.v`, `ApiProofs.v`, `ApiWrite.v`, `ApiRound.v`, `ApiMore.v`, `ApiOrder.v`, `ApiReadRound.v`, `LibProofs.v`, `LibRound.v`, `LibAll.v`, `LibOrder.v`,
`LibReadRound.v`, `ReaderSpec.v`, `SeveralSpec.v`, `CommonSpec.v`, `TypesCommonSpec.v`, `RenameSpec.v`, `RenameTopSpec.v`, `RenameFreeSpec.v`, `RenameUnknownSpec.v`, `WriterProofs.v`, `SetterProofs.v`, `HeapProofs.v`, `HeapEdit.v`, `HeapLoop.v`, `HeapMap.v`, `HeapSet.v`, `HeapWhole.v`, `Exact.v`, `ApiExact.v`, `Grammar.v`, `ConcProofs.v`, `IntoProofs.v`, `LiveSave.v`, `DeepProofs.v`, `DeepMore.v`, `Faithful.v`, `Build.v`, `ObjProofs.v`, `ObjHeap.v`, `ObjPrograms.v`, `ObjLoad.v`, `PlaceProofs.v`, `ChangeProofs.v`, `IndependentProofs.v`, `SharingProofs.v`, `SizeProofs.v`, `SettleProofs.v`, `SettleDocs.v`, `CutProofs.v`, `TrimProofs.v`, `MapExact.v`, `JsonValues.v` (with its model and specification), `Looks.v` (the same), `NilEntries.v`, `Override.v`, `Cost.v`, `CostProofs.v`, `CostFlat.v`, `CostHigh.v`, `WriteExact.v`, `SaveCost.v`, `SaveCostProofs.v`, `SaveCostHigh.v`, `AliasSpec.v`, `AliasProofs.v`, `ListSpec.v`, `ListProofs.v` (the same).

Theorems: `PropertiesMaps.v` (C01-C15), `PropertiesAssign.v` (C16-C20, C45), `PropertiesTypes*.v` (C21-C44, C58-C60), `PropertiesApi.v` (C29, C30, C43, C48-C54, C58, C59),
`PropertiesWrite.v` (C50, C54-C57), `PropertiesReader.v` (C101), `PropertiesSeveral.v` (C102), `PropertiesCommon.v` (C103), `PropertiesTypesCommon.v` (C104), `PropertiesRename.v` (C105, C106), `PropertiesTwice.v` (C107), `PropertiesRenameTypes.v` (C108), `PropertiesRenameTop.v` (C109), `PropertiesRenameFree.v` (C110), `PropertiesRenameMarks.v` (C111), `PropertiesRenameUnknown.v` (C112), `PropertiesSetters.v` (C46, C47), `PropertiesLib.v` (C53, C54, C61, C62), `PropertiesHeap.v` (C63, C64), `PropertiesEdit.v` (C65), `PropertiesLive.v` (C66, C67), `PropertiesIdem.v` (C68), `PropertiesExact.v` (C69), `PropertiesGrammar.v` (C70), `PropertiesConc.v` (C71, C72), `PropertiesInto.v` (C73, C74), `PropertiesLiveSave.v` (C75), `PropertiesDeep.v` (C76), `PropertiesFaithful.v` (C77), `PropertiesBuild.v` (C78), `PropertiesObjects.v` (C79, C80), `PropertiesPlaces.v` (C81), `PropertiesChanges.v` (C82, C83), `PropertiesIndependent.v` (C84, C85), `PropertiesSharing.v` (C86), `PropertiesSizes.v` (C87), `PropertiesSettle.v` (C88), `PropertiesCuts.v` (C89, C90), `PropertiesTests.v` (C91, C92), `PropertiesMapsExact.v` (more about C09, C13, C14), `PropertiesJson.v` (C93), `PropertiesLooks.v` (C94), `PropertiesNil.v`, `PropertiesOverride.v`, `PropertiesCost.v` (C97), `PropertiesSaveCost.v` (C98), `PropertiesAlias.v` (C99), `PropertiesLists.v` (C100), `PropertiesWriteExact.v` (C33, C34, C49) (C95).

`tools/mutate.py` applies wrong edits to a scratch copy and reports which theorems stop proving; `seeded/LOG.jsonl` holds the results.

Above `OMap.v` the maps are represented by their specification (a list of entries and the `outOrder` flag);
the refinement theorem of C01 is what justifies that step.

### Not modelled

* YAML text: scanning, parsing, tag resolution and emission by `gopkg.in/yaml.v3`. The model starts and ends at the node tree.
  Line/column numbers, comments and scalar styles are left out of nodes (they only occur in error texts), as are anchors and aliases
  (the repository never handles alias nodes; what follows from that is in `AliasSpec.v`, C99). A mapping node has an even number of children.
* Error message texts (only the fact of an error).
* `logrus` logging, option wrappers of `goop` (an optional value is an `option`), `ToRAML` (`panic("implement me")`), the interfaces of
  `pkg/raml` without implementation (`Body`, `Method`, `Response`, `Overlay`, root resources).
* Sharing of objects by pointer is modelled for type definitions, their property maps and facet definitions (`Heap.v`), for the maps that getters return (`Live.v`), and for the backing arrays of maps (`Slice.v`).
  In `Objects.v` every object that a getter returns is behind a reference, and no object is put into two places; in `Sharing.v` setters and map methods can be given an object that is already somewhere (but not through the documentation slice). Values in maps of strings and of `interface{}` values, slices of strings and of enum values are values everywhere but in `Lists.v`, where slices are windows into shared memory (C100).
* `gen/` and `tools` (code generators).

## 3. Assumed contracts of external libraries

`xyml` (`lib-go-yaml` v1.4.0), `yaml.v3`, `gomp` and `goop` are not in the sandbox. The model assumes:

1. `IsString(n)` iff the resolved tag of `n` is `!!str`; `RequireString` fails exactly when `IsString` is false; `ToString` is
   `RequireString` and then the node's value.
2. `IsMap(n)` / `IsSequence(n)` iff the node kind is mapping / sequence. `MapForEach(n, f)` fails unless `n` is a mapping, calls `f` on each
   pair in document order and stops with the first error. `SequenceForEach` likewise.
3. `ToInt(n, 10)` requires tag `!!int` and is `strconv.ParseInt(value, 10, 64)`. `ToBoolean(n)` requires tag `!!bool` and is `strconv.ParseBool(value)`.
   `ToFloat(n)` is an unknown function of tag and value (`FloatIO`).
4. `ToScalarValue(n)`: string, int64, bool, float64 or nil according to the tag of a scalar; an error for anything else (sequences, mappings, other tags, values that
   do not parse).
5. `ToYamlNode(v)`: a node (or a pointer to one) is used as is; a value with a `ToYAML` method is converted by it; strings, booleans, integers, floats, nil give scalars with
   the matching tag and canonical text; a slice gives a sequence; a struct with unexported fields only gives an empty mapping. `MapAppend(n, k, v)` appends `ToYamlNode` of
   both. `NewOrderedMapNode` is a sequence with tag `!!omap`.
6. `gomp.IsNil` is true exactly for nil interfaces/pointers/slices/maps; `gomp.Deref` follows a pointer.
7. `Decode` of an empty stream gives `io.EOF`; otherwise it passes the document's root node to `UnmarshalYAML`. A panic inside `UnmarshalYAML` that is not a yaml error is not recovered. A null root node is not
   passed on: the object stays as it is and there is no error.
8. `Encode` returns the error of the writer or of `MarshalYAML`. The head comment of a document node is written first, followed by a newline. Nothing is flushed
   before `MarshalYAML` has returned. The bytes of a document are otherwise an unknown function of the node (`Encoder`), which the theorems quantify over.
9. `json.Marshal` writes a `*yaml.Node`, which has no `MarshalJSON`, as an object with its exported fields; strings, booleans, integers, nil and lists as themselves; it fails on the
   infinities and NaN. A slice of entries is an array of objects with the members of the struct tags; a `map[string]interface{}` is an object with its keys sorted.
10. An alias is a node of a kind of its own, with no children and the name as its value. The refutations of C99 hold whatever tag `IsString` and the like see on it; its other theorems
   take the field `Tag`, which yaml.v3 leaves empty.
11. A decoder reads until it has the first document and can see its end; what it has read beyond that stays in its buffer. It does not look at what follows the first document, and an
   empty text is an empty stream. These laws are `lawful` in `ReaderSpec.v`, a hypothesis of the theorems of C101; where a document ends in a text is left open.
12. The texts of block mappings that follow each other, with comments and nothing else between them, are the text of one mapping with the entries of all. C102 takes this as a hypothesis
   about the documents at hand (`one_mapping` in `SeveralSpec.v`).

## 4. Properties: what is modelled and how it is proved

Statuses are in `MANIFEST.json`. A property that is false of the code has a theorem `..._refuted` with a witness, and, beside it, the strongest
true statement I could prove (under an explicit boolean condition, shown satisfiable by an `Example`).

| Properties | Model | Proof |
|---|---|---|
| C01-C08 | `OMap.v` against `OMapSpec.v` | simulation invariant (index and slice agree), induction over operation lists; algebra of the list spec |
| C09 | `ForEach` as a loop with the callback acting on the map, as in Go (`range` evaluates the length once) | refuted by a deleting callback, for every map with two or more entries; proved for callbacks that only replace or put; `PropertiesMapsExact.v` has the exact boundary |
| C10, C11 | `Values.v`, `Assign.v` | induction over entries |
| C12, C13 | `OMapJson.v`: fold over any permutation of the index | permutation invariance; refuted for AnyMap by keys 1 and "1" |
| C14 | `OMap.v` with non-reflexive / unhashable keys | refuted for every other key; refinement proved for all reflexive hashable keys |
| C15 | `Slice.v`: memory of backing arrays | refuted by a witness; proved that the map's own view is right under every growth policy |
| C16-C20 | `Assign.v`, `Yaml.v` | case analysis, decimal codec lemmas; C19 refuted by -1 (stored value is z mod 2^64) |
| C21-C28, C36, C39, C40, C44, C45 | `DataType.v` | case analysis over the kind tables, induction over pairs |
| C29 | all readers | refuted by the empty key and by a nil-typed property; proved for documents that satisfy a syntactic predicate |
| C30-C35 | `DataType.v`, `Marshal.v` | nested induction over types; explicit round-trip condition |
| C37, C38, C41-C43 | `Example.v`, `Xml.v`, `Doc.v` | induction over entries; refuted where the writer's form is not read back |
| C46, C47 | `Setters.v` | induction over setter histories |
| C48-C54 | `Api.v`, `Library.v` | induction over pairs; round trip from the type level |
| C55-C57 | `Api.v`, `Library.v`: writer with arbitrary failure point, decoder outcome | case analysis |
| C58, C59, C61, C62 | readers | permutation/commutation of assignments |
| C60 | `DataType.v` | induction over paths |
| C63 | `Heap.v` | two worlds that agree below a reference have the same definition there; induction over paths |
| C64 | `Heap.v` | refuted by a cycle; a definition without a cycle is no deeper than the number of types, and only such definitions are written |
| C65 | `Setters.v`, and the readers and writers | refuted by a default, documentation and annotations; setters keep what C31, C50 and C54 need, composed with these and C46 |
| C66 | `Live.v` | an invariant: each address an object holds is that of a map of the right type; an object is its maps and the rest; then each call |
| C67 | `Live.v` | an invariant: no address is held twice; simulation of the objects behind references by objects as values |
| C68 | `IdemSpec.v` | refuted by three documents; for regular type definitions by induction over the definition and field by field over what was written; for API documents and libraries from the round trip of all fields but the types |
| C69 | `Stable.v`, `ApiExact.v` | one direction from the round trip of everything that returns (`Stable.v`); the other by induction over the document: each field of the value that was read again is looked up in what was written, and each lost thing leaves a field that differs |
| C70 | `GrammarSpec.v` | a judgement with two sides (when a reader succeeds, when it panics) that composes along the readers; by induction over the document |
| C71 | `Conc.v`, `ConcSpec.v` | each method, run alone, computes the sequential model's answer; readers' code only makes accesses that leave the memory alone, an invariant of every interleaving |
| C72 | `Conc.v`, `ConcSpec.v` | refuted by two schedules; with a mutex, an invariant over schedules that carries the sequential history and the state of the goroutine inside |
| C73 | `Into.v`, `IntoSpec.v` | two folds over the same entries, from the old object and from a new one, related field by field after every prefix |
| C74 | `Into.v`, `IntoSpec.v` | refuted by one bad entry behind a good one; where the loop stopped, and where the loop inside the entry stopped, gives what is left |
| C75 | `Live.v`, `LiveSaveSpec.v` | coming back (C31, C43, C52) splits into a condition on each map and one on the rest; each call keeps both for every object that has the map, so it is an invariant of memory; refuted by a facet definition put into a new type |
| C76 | `Deep.v`, `Heap.v` | each document is a tree of heap objects that no other place uses (ownership with disjoint footprints), an invariant of all programs; an edit changes objects of one footprint only |
| C77 | `Marshal.v`, `Api.v`, `Library.v` | refuted by documentation pages and XML settings; for what comes back (C31, C50, C54): agreement of getters is symmetric and transitive, and both agree with what is read from the one saved document |
| C78 | `BuildSpec.v` (constructors of rbuild/new.go, setters, map edits) | refuted by object types; otherwise an explicit list of calls makes any loaded document of buildable kinds, and everything in a built document is of those kinds |
| C79 | `Objects.v` (a heap of objects of all kinds; calls on what chains of getters lead to) | separation: each variable owns a set of addresses, a tree of objects without sharing; one lemma says a call on the object reached is the edit of the value at that place; induction over programs |
| C80 | the same programs, with variables divided among goroutines | the values of a goroutine's variables depend on its own calls only; ownership of addresses gives freedom from races |
| C81 | the setters and map methods of C79 with the writers of C50-C57 and C61; `place` gives for each call the keys to the mapping it is made in and its entries there, `differ` the documents that are the same elsewhere | each writer is a list of segments, one for each field (`PlaceProofs.v`); a setter changes one segment; induction over the chain of getters |
| C82 | the loaders of C21-C31, C50; `edited` relates documents that are the same but for the entries of a key at the end of a path, `same_but_at` what is loaded from them | the field of an entry depends on its key and the kind only, so the loop over the entries splits by fields (`FieldProofs.v`, `ApiFields.v`), and each field's loop keeps the relation (`ChangeProofs.v`); induction over the path for definitions, maps of them and facets together |
| C83 | as C82, for libraries | refuted: `annotationTypes` goes to the annotations; proved for all other entries |
| C84 | `edit_at` and programs over the heap of `Objects.v`; what each call is about (`Independent.v`) | calls of different topics commute on one object, getters and calls apart commute; lifted along common prefixes, to memory by C79, to interleavings by adjacent swaps |
| C85 | as C84 | idempotence of each call; overriding of entries, fields and what is below; lifted as in C84 |
| C86 | `Sharing.v`: the heap of `Objects.v` with calls that store a pointer to an object that is already there | `is_at`, a value at an address whose parts may be anywhere, is a function of the address; invariant that every object has pointers of the right kinds; a change of one object is followed through everything that leads to it by induction on sizes; finite or circular by following chains through unseen objects |
| C87 | `Sizes.v`: the number of nodes of a document | every field has a cost, which bounds what its entries add to the written mapping; assigning one entry `k: v` adds at most 3·nodes v + 1 to the sum of the costs, by induction on the size of v for the definitions in it; an empty document reaches the factor |
| C88 | `Settle.v`: rounds of loading and saving; the condition on float64 texts | a measure counts what can change at every depth (a type given more than once, keys that are not strings but look like annotations, floating-point keys whose text is an integer, `annotationTypes` of a library); a round either makes it smaller or gives a document that C68's argument shows to be settled; the measure is less than the number of nodes; nested definitions that give their type twice need one round for every level |
| C89 | `Cuts.v`: a document with entries and items left out; number of levels | induction on the size of the document: reading stops at one entry or item, and how an entry ends does not depend on what was read before it but for the kind of the type (C70); that entry alone, together with the emptied entry that decides the kind, ends in the same way |
| C90 | `Cuts.v`: the same, and the variant that keeps the keys that decide the kind of a type | false: without its `type` the other entries of a definition can mean something that is rejected or at which the loader panics (witnesses). Proved: with those keys kept at every depth everything still loads, by monotonicity of the grammar of C70; any top-level entries can be left out; and any entries of a definition whose kind stays |
| C91 | `RepoTests.v`: each test of the four `_test.go` files, with its calls and checks, with variables for the literals | proved for string keys and any values, and for AnyMap with all keys that are hashable and equal themselves. It also shows that the model passes the repository's tests. |
| C92 | `Program.v`: `cmd/example/main.go` on the parser of C57 and the writer of C56; the HTTP request gives any result | proved: when it ends normally and what it printed; otherwise a panic, and a beginning of the text or nothing. `C92_readme`: the model prints the document that readme.adoc shows as the output of a run. |
| C93 | `JsonValues.v`: `json.Marshal` on the values of a map (a `*yaml.Node` is a struct whose fields are written); `shows` says when a JSON value is the value of a node | false: for every entry of every loaded UntypedMap, by counting the parts of a node and of its JSON. Proved for all maps of strings and of plain values, in both forms |
| C94 | `Looks.v`: the operations of `OMap.v` with the positions of the slice that are read | proved for all maps in any state, with the exact positions for reachable maps and the bound n*n/4 for n calls, which is reached |
| C95 | `NilEntries.v`: maps whose values may be nil, written as null | false for every map of types, properties, facet definitions, annotations and most examples that holds nil, in every document; proved for untyped maps |
| C96 | `Override.v`: OverrideType, Type and Schema; the two maps filled by marshal compared put by put | proved for definitions of every kind |
| C97 | `Cost.v`: the looks of every loader, step by step; bounds by induction on the nodes, with what is already in each map | refuted (repeated keys); square bound for all documents, linear for those that repeat no key |
| C98 | `SaveCost.v`: the Put calls of every marshal function as a tree, what carrying them out gives (shown to be what saving gives) and how many looks it takes; bounds by induction on the tree | refuted (annotations and extra facets with the same names); square bound for all objects, linear for those without two things under one key |
| C99 | `AliasSpec.v`: documents with anchors, aliases and merge keys, the nodes the readers are given for them, and the document written out in full; by induction on the document each reader gives the same on both where it keeps aliases | refuted (types, merge keys, examples, pages); proved for the other places |
| C100 | `Lists.v`: slices as headers into a memory of arrays, in variables of the program and in fields of objects; programs of get, set, write, append, cut and read | refuted by witnesses; the frame of a reading in any program; an invariant (the spare capacity of an owner is in no other list) for careful ones |
| C101 | `Reader.v`: a reader as the pieces its Reads hand over, a decoder that reads until it has enough, and calls that follow each other on one reader | refuted for every scanner that meets contract 11; the first call by induction on the pieces; many calls by induction on their number and on the pieces left |
| C102 | `Several.v`: WriteRAML again and again on the same writer | refuted by a witness, under contract 12; the bytes by induction on the documents; what is read back by the laws of folds and C73 |
| C103 | `Api.v`, `Library.v` side by side | refuted by two documents with `annotationTypes`; reading by a simulation, entry by entry; saving by following the puts of the two writers, up to their order |
| C104 | `DataType.v`, `Marshal.v`, two definitions side by side | refuted by `nil`; reading by a simulation, entry by entry; saving through C96 (what OverrideType does to what is saved) |
| C105 | `Api.v`, a document and the same with other names | reading and saving commute with a one-to-one change of names: by induction on the entries, and by following the puts of the writer |
| C106 | `Library.v`, a document and the same with other names | refuted by an annotation type that gets the name `types`; else as C105 |
| C107 | the readers of `Into.v`, run twice | refuted by an API document and a type definition; else from C73, as laying the same thing over twice is laying it over once |
| C108 | `hat`, `to_yaml`; renaming in `RenameSpec.v` | step by step: reading an entry and then renaming is renaming and then reading; saving as in C105, with the invariant that unknown facets are not called as sections are |
| C109 | `api_unmarshal`, `api_marshal`; renaming in `RenameTopSpec.v` | as C105; the keys that are saved are renamed one to one, as unknown entries never start with a parenthesis or a slash |
| C110 | `hat`, `to_yaml`; renaming in `RenameFreeSpec.v` | every test of a key gives the same for the other name; saving with the invariants that extra facets have strings as names and no default is set |
| C111 | `lib_unmarshal`, `lib_marshal`; renaming in `RenameTopSpec.v` | refuted by an annotation that gets the name of an annotation type; else as C109 |
| C112 | `api_unmarshal`, `api_marshal`; the settings and renaming in `RenameUnknownSpec.v` | as C109, with the invariant that annotations start with a parenthesis and resources with a slash |

## 5. Disagreements between the code and the properties (findings)

Each is a consequence of the model, hence of my reading of the code and of the contracts in section 3. The code was not run.

1. An example in short form is written as a mapping with the key "" and reading that panics (C38, C31).
2. An empty string as a key panics in API documents, libraries, expanded types and examples (C29).
3. A property whose type is `nil` or an include panics (C40, C29).
4. A type of kind `any` rejects `example` (C36).
5. A null type definition is rejected (C23).
6. An expanded definition with `type: !include x` is rejected (C39).
7. `default` ends up among the extra facets; the getter never answers it (C27).
8. Annotations and facet definitions are written as ordered-map sequences, which the readers reject. Scalar and null annotations are rejected (C41, C50, C54).
9. The contents of XML settings and documentation entries are lost on writing (C42, C43).
10. A library's `annotationTypes` go into its annotations (C53).
11. A negative number for an unsigned facet wraps around (C19).
12. An unset map of an API document, library or example, and the examples and properties of a type, are written as sequences from then on (C47).
13. An object example given directly as a mapping goes into the extra facets (C37).
14. A single media type is written as a sequence (C52).
15. A callback of `ForEach` that deletes entries makes it panic (C09).
16. The JSON of an AnyMap with keys such as 1 and "1" loses an entry and depends on the enumeration order (C13).
17. NaN and unhashable keys break an AnyMap (C14); a repeated NaN key in an example's extras is not replaced.
18. A deletion shows through a copy of a map's contents (C15).
19. Repeated `enum`, `documentation`, `mediaType` and map sections add up instead of the last one counting (C58).
20. `SetType` to a name of another kind changes the kind after a write and a read (C35).
21. Timestamps, integers and floats are rejected where a string is needed. Keys of extra facets that are not strings become strings.
22. An extra facet named `type` takes part in the short form. An extra named like a section (`title`) replaces that section when a built API document is written (C49).
23. A built type with an extra facet named like a facet loses that facet on writing (C33, C34).
24. A null root document is read as an empty API document or library without an error (C57).
25. With both `type` and `schema`, or both `types` and `schemas`, the order of the keys matters (C59).
26. An empty, non-nil documentation list comes back as nil.
27. In a library, an annotation and an annotation type of the same name share one entry; which of them stays depends on the order of the keys (C53, C62).
28. A type definition that contains itself, such as a type that is one of its own properties, overflows the stack when it is written (C64).
29. Formatting twice can change a document again: keys that are not strings but read like annotations, `type` and `schema` that disagree, annotation types of libraries (C68).
30. Maps are not safe for concurrent use and nothing says so: two Puts at once can leave a key in the index but not in the order, and every later Put, Delete or IndexOf of that key panics (C72).
31. A reading that fails leaves the object half changed: the entries before the bad one, and the items before the bad one of a map or list, have been read; the value of an array example is emptied before it is known whether the new one is a list (C74). A string read into an existing type changes its type name but not its kind (C73).
32. The map that `FacetDefinitions()` of a new or loaded type returns is to be written in order: what is put into it is saved as a list, which the library itself rejects. The program must call `SerializeOrdered(false)` on it first (C75).
33. `rbuild` has constructors of six of the type kinds only, and none of examples, XML settings and documentation entries; so most of what can be loaded cannot be built by a program (C78).
34. The JSON of an UntypedMap that was loaded from a document is a dump of YAML nodes (`Kind`, `Style`, `Tag`, `Value`, ...), not of the document's values (C93).
35. Put takes nil. A map of types, properties, facets or annotations with nil in it is saved without an error as a document that does not load (C95).
36. A document that repeats its keys takes time that grows with the square of its size to load: each repeated key makes Put go through the whole map (C97).
37. An object whose annotations and extra facets have the same names takes time that grows with the square of their number to save (C98).
38. Aliases and merge keys are not followed: a definition that is an alias is rejected, a merge key is quietly kept as an extra facet (C99).
39. Lists share memory between objects and with the program: reading `mediaType`, `documentation` or `enum` into one object can change the list of another (C100).
40. A second document in the same reader is lost; `ParseLibrary` then gives empty libraries without an error for ever (C101).
41. Documents written to one writer run into one: what is read back is a mixture of them, without an error (C102).
42. An annotation type of a library is saved at the top level under its own name: one called `types` makes the saved library unreadable (C106).
43. Reading a document twice into one object doubles its documentation, its media types and its enums (C107).
