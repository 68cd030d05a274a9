{
 "claims": [
  {
   "property": "C01",
   "status": "proved",
   "theorems": [
    "C01_map_is_association_list"
   ],
   "note": "simulation of slice+index by a plain list, all histories, any value type"
  },
  {
   "property": "C02",
   "status": "proved",
   "theorems": [
    "C02_keys_unique"
   ],
   "note": "invariant of every reachable state"
  },
  {
   "property": "C03",
   "status": "proved",
   "theorems": [
    "C03_put_appends"
   ],
   "note": ""
  },
  {
   "property": "C04",
   "status": "proved",
   "theorems": [
    "C04_replace_keeps_position"
   ],
   "note": ""
  },
  {
   "property": "C05",
   "status": "proved",
   "theorems": [
    "C05_delete_removes_one"
   ],
   "note": ""
  },
  {
   "property": "C06",
   "status": "proved",
   "theorems": [
    "C06_string_maps_never_panic"
   ],
   "note": ""
  },
  {
   "property": "C07",
   "status": "proved",
   "theorems": [
    "C07_put_if_not_nil"
   ],
   "note": ""
  },
  {
   "property": "C08",
   "status": "proved",
   "theorems": [
    "C08_for_each_in_order"
   ],
   "note": ""
  },
  {
   "property": "C09",
   "status": "partial",
   "theorems": [
    "C09_for_each_editing_refuted",
    "C09_for_each_editing_partial",
    "C09_deleting_refuted",
    "C09_putting_refuted",
    "C09_deleting_nothing_partial"
   ],
   "note": "REFUTED, for every map with two or more entries: deleting the given entry in the callback panics, putting it again skips the second entry. Proved for callbacks that replace, add or look; callbacks that delete nothing never make it panic."
  },
  {
   "property": "C10",
   "status": "proved",
   "theorems": [
    "C10_map_to_yaml"
   ],
   "note": ""
  },
  {
   "property": "C100",
   "status": "partial",
   "theorems": [
    "C100_refuted",
    "C100_copied_refuted",
    "C100_where_partial",
    "C100_careful_partial",
    "C100_api_partial",
    "C100_type_partial",
    "C100_shared"
   ],
   "note": "REFUTED: setters keep the slice they are given, getters return the internal one, and reading mediaType, documentation and enum appends in place where there is spare capacity. Two API documents given one list, or an enum copied with t.SetEnum(u.Enum()), and what is read into the second replaces what was read into the first. Proved: in any program a list is changed only if one of its elements lies in the spare capacity of a list of the object read into; no list is changed in programs that give each list away at most once or without spare capacity; and there the object's own lists become those of the readers on values."
  },
  {
   "property": "C101",
   "status": "partial",
   "theorems": [
    "C101_refuted",
    "C101_library_refuted",
    "C101_broken_refuted",
    "C101_first_partial",
    "C101_one_for_each_partial",
    "C101_stops_partial",
    "C101_failure_partial"
   ],
   "note": "REFUTED: each call makes a decoder of its own, and what that has read beyond its document is lost. A second API document in the same Read is lost, and broken text after the first document is not noticed; with libraries the second and all later calls give an empty library and no error, so that reading until an error never stops. Proved: the first result is that of the text, however it is cut into pieces and whatever follows the first document; where each Read hands over one document the calls give one after another; reading API documents until an error stops; a reader that fails is never taken for one that has ended."
  },
  {
   "property": "C102",
   "status": "partial",
   "theorems": [
    "C102_refuted",
    "C102_first",
    "C102_written_partial",
    "C102_joined_partial",
    "C102_two_partial",
    "C102_separated_partial"
   ],
   "note": "REFUTED: nothing is written between two documents, so that their texts are one mapping, and reading it gives one document without an error that is none of those written. Proved: what is written is the texts of the documents one directly after the other; what is read back is each of them laid over those before it, for two API documents field by field with the relation of C73; and where the program writes a separator after each document and each Read hands over one of them, they are read back one after another."
  },
  {
   "property": "C103",
   "status": "partial",
   "theorems": [
    "C103_refuted",
    "C103_read_partial",
    "C103_other",
    "C103_saved_partial"
   ],
   "note": "REFUTED: annotationTypes. A document with the annotation type note: string is accepted as an API document and rejected as a library; where both accept it, the library has its annotation types among the annotations. Proved: without annotationTypes such a document is accepted, rejected or crashes alike and all common getters answer the same; and an API document and a library that answer the same (names of annotations in parentheses) save the same entries, but for those under keys only one of them has."
  },
  {
   "property": "C104",
   "status": "partial",
   "theorems": [
    "C104_refuted",
    "C104_read_partial",
    "C104_saved_partial",
    "C104_bare"
   ],
   "note": "REFUTED: nil. A definition with `required: perhaps` is rejected as a string and accepted as nil, and the displayName of a nil definition is an extra facet. Proved: all other names (but strings that look like an include, which are as nil) are treated alike in reading and saving (floats not written as strings); nil and such includes accept every such definition and have all entries among the extra facets."
  },
  {
   "property": "C105",
   "status": "proved",
   "theorems": [
    "C105_read",
    "C105_saved"
   ],
   "note": "Saving: under the assumption that floats are not written as strings (the tag of yaml.v3 for them is !!float)."
  },
  {
   "property": "C106",
   "status": "partial",
   "theorems": [
    "C106_refuted",
    "C106_read_partial",
    "C106_saved_partial"
   ],
   "note": "REFUTED: annotationTypes. An annotation type of a library is an annotation of it, and is saved at the top level under its own name; one called `types` is saved as the types section, and the library does not load again. Proved: all other names in reading, and in saving if there are no annotation types (floats not written as strings)."
  },
  {
   "property": "C107",
   "status": "partial",
   "theorems": [
    "C107_refuted",
    "C107_api_partial",
    "C107_library_partial",
    "C107_type_partial",
    "C107_example_partial",
    "C107_documentation_partial",
    "C107_xml"
   ],
   "note": "REFUTED: documentation, media types given as strings and enum values are there twice. Proved: nothing else changes, in objects of all six kinds, where no unknown entry has a key that is not a number (.nan is equal to no key, so its entry is added again); bare strings and values read into types and examples are the subject of C73."
  },
  {
   "property": "C108",
   "status": "proved",
   "theorems": [
    "C108_read",
    "C108_saved"
   ],
   "note": "Saving: under the assumption that floats are not written as strings (the tag of yaml.v3 for them is !!float)."
  },
  {
   "property": "C109",
   "status": "proved",
   "theorems": [
    "C109_read",
    "C109_saved"
   ],
   "note": "Saving: under the assumption that floats are not written as strings (the tag of yaml.v3 for them is !!float)."
  },
  {
   "property": "C11",
   "status": "proved",
   "theorems": [
    "C11_string_and_untyped_maps"
   ],
   "note": ""
  },
  {
   "property": "C110",
   "status": "proved",
   "theorems": [
    "C110_read",
    "C110_saved"
   ],
   "note": ""
  },
  {
   "property": "C111",
   "status": "partial",
   "theorems": [
    "C111_refuted",
    "C111_read_partial",
    "C111_saved_partial"
   ],
   "note": "REFUTED: annotation types are kept among the annotations, so an annotation that gets the name of an annotation type takes its place. Proved: libraries without annotation types; saving under the assumption that floats are not written as strings (the tag of yaml.v3 for them is !!float)."
  },
  {
   "property": "C112",
   "status": "proved",
   "theorems": [
    "C112_read",
    "C112_saved"
   ],
   "note": "Saving: under the assumption that floats are not written as strings (the tag of yaml.v3 for them is !!float)."
  },
  {
   "property": "C12",
   "status": "proved",
   "theorems": [
    "C12_json_of_string_maps"
   ],
   "note": ""
  },
  {
   "property": "C13",
   "status": "partial",
   "theorems": [
    "C13_any_map_json_refuted",
    "C13_any_map_json_partial",
    "C13_deterministic_partial",
    "C13_complete_partial"
   ],
   "note": "REFUTED: keys 1 and \"1\" collide. Proved when the texts of the keys differ; it is deterministic exactly when keys with one text have one value, and complete exactly when no two keys have one text."
  },
  {
   "property": "C14",
   "status": "partial",
   "theorems": [
    "C14_any_key_refuted",
    "C14_any_key_partial",
    "C14_other_keys_refuted"
   ],
   "note": "REFUTED for NaN and for every unhashable key, in every map. Proved for all other keys."
  },
  {
   "property": "C15",
   "status": "partial",
   "theorems": [
    "C15_copies_refuted",
    "C15_copies_partial"
   ],
   "note": "REFUTED: a struct copy shares the slice and the index. Proved: own view right for every growth policy, frame, append-only edits."
  },
  {
   "property": "C16",
   "status": "proved",
   "theorems": [
    "C16_helpers_all_or_nothing"
   ],
   "note": ""
  },
  {
   "property": "C17",
   "status": "proved",
   "theorems": [
    "C17_map_readers"
   ],
   "note": "for every reader of values; where reading a value can panic (type definitions, C29) the panic goes through"
  },
  {
   "property": "C18",
   "status": "proved",
   "theorems": [
    "C18_strings_only"
   ],
   "note": ""
  },
  {
   "property": "C19",
   "status": "partial",
   "theorems": [
    "C19_unsigned_refuted",
    "C19_unsigned_partial"
   ],
   "note": "REFUTED: -1 is stored as 2^64-1. Proved for non-negative integers; negative ones always wrap."
  },
  {
   "property": "C20",
   "status": "proved",
   "theorems": [
    "C20_integers_exact"
   ],
   "note": ""
  },
  {
   "property": "C21",
   "status": "proved",
   "theorems": [
    "C21_string_classified"
   ],
   "note": "[named] is an independent relation between texts and kinds"
  },
  {
   "property": "C22",
   "status": "proved",
   "theorems": [
    "C22_expanded_classified"
   ],
   "note": ""
  },
  {
   "property": "C23",
   "status": "partial",
   "theorems": [
    "C23_forms_refuted",
    "C23_forms_partial"
   ],
   "note": "REFUTED: an empty (null) definition is rejected with an error. Proved: strings and includes accepted, sequences and other scalars rejected with an error."
  },
  {
   "property": "C24",
   "status": "proved",
   "theorems": [
    "C24_type_and_kind_fit"
   ],
   "note": ""
  },
  {
   "property": "C25",
   "status": "partial",
   "theorems": [
    "C25_facets_reach_getters_refuted",
    "C25_facets_reach_getters_partial"
   ],
   "note": "REFUTED: a negative number for an unsigned facet is stored modulo 2^64 (C19). Otherwise proved, per key and per document, for all facets of all kinds; field_ext shows the getters cover the whole type."
  },
  {
   "property": "C26",
   "status": "partial",
   "theorems": [
    "C26_unknown_facets_kept_refuted",
    "C26_unknown_facets_kept_partial"
   ],
   "note": "REFUTED: the empty key panics, and a key that is not a string is kept as its text. Proved for every other key."
  },
  {
   "property": "C27",
   "status": "partial",
   "theorems": [
    "C27_default_refuted",
    "C27_default_partial"
   ],
   "note": "REFUTED: Default() is unset after every reading, and a default that was read wins over SetDefault on writing. Proved: SetDefault determines what is written when the document had no default."
  },
  {
   "property": "C28",
   "status": "proved",
   "theorems": [
    "C28_absent_facets_default"
   ],
   "note": ""
  },
  {
   "property": "C29",
   "status": "partial",
   "theorems": [
    "C29_never_panics_refuted",
    "C29_types_partial",
    "C29_api_library_refuted",
    "C29_api_partial",
    "C29_library_partial"
   ],
   "note": "REFUTED: an empty key, and a property of type nil or include, panic. Proved for type definitions, API documents and libraries without one of those at any depth."
  },
  {
   "property": "C30",
   "status": "proved",
   "theorems": [
    "C30_types",
    "C30_api",
    "C30_library"
   ],
   "note": ""
  },
  {
   "property": "C31",
   "status": "partial",
   "theorems": [
    "C31_round_trip_refuted",
    "C31_round_trip_partial"
   ],
   "note": "REFUTED: annotations that were read, XML settings and short examples. Proved for every type definition, of every kind and depth, that satisfies type_returns (RoundSpec.v)."
  },
  {
   "property": "C32",
   "status": "partial",
   "theorems": [
    "C32_stable_refuted",
    "C32_stable_partial"
   ],
   "note": "REFUTED: short examples, negative lengths, XML settings. Proved, as equality, for all documents read as a settled type definition (Stable.v)."
  },
  {
   "property": "C33",
   "status": "partial",
   "theorems": [
    "C33_exact",
    "C33_extra_named_type_refuted",
    "C33_short_form_partial",
    "C33_C34_read_types_tidy"
   ],
   "note": "REFUTED: a built type with an extra facet named `type` is written in short form as that extra's value. Proved when no extra facet and no annotation uses the key of a facet or of each other, which holds of every type read from a document whose keys that begin with a parenthesis are strings. C33_exact says for every other definition what is written."
  },
  {
   "property": "C34",
   "status": "partial",
   "theorems": [
    "C34_exact",
    "C34_facet_order_refuted",
    "C34_facet_order_partial",
    "C33_C34_read_types_tidy"
   ],
   "note": "REFUTED: an extra facet named like a facet replaces it when a built type is written. Proved under the same restriction as C33. C34_exact: for every definition, of equal keys the last is written; C34 holds exactly of those whose keys are all different."
  },
  {
   "property": "C35",
   "status": "partial",
   "theorems": [
    "C35_kind_survives_refuted",
    "C35_kind_survives_partial"
   ],
   "note": "REFUTED: SetType on a built-in type changes the kind that is read back. Proved: the kind is kept exactly when the type string names a type of the kind."
  },
  {
   "property": "C36",
   "status": "partial",
   "theorems": [
    "C36_example_accepted_refuted",
    "C36_example_accepted_partial"
   ],
   "note": "REFUTED: a definition of kind any with an example is always rejected (fn-sorting-hat-example.go has no case for it). Proved for all other kinds and values that are not mappings."
  },
  {
   "property": "C37",
   "status": "partial",
   "theorems": [
    "C37_example_forms_refuted",
    "C37_example_forms_partial"
   ],
   "note": "REFUTED: the example of an object given directly as a mapping is read as an expanded example; Value() is unset. Proved: all other direct forms, and the exact result of every expanded example."
  },
  {
   "property": "C38",
   "status": "partial",
   "theorems": [
    "C38_example_round_trip_refuted",
    "C38_example_round_trip_partial"
   ],
   "note": "REFUTED: an example without metadata is written as a mapping with the empty key, which panics on reading. Proved for expanded examples whose annotations are written as mappings."
  },
  {
   "property": "C39",
   "status": "partial",
   "theorems": [
    "C39_includes_refuted",
    "C39_includes_partial"
   ],
   "note": "REFUTED: an include as the type of an expanded definition is always rejected; a string '!include x' is written as !include \"!include x\". Proved for the include as whole definition."
  },
  {
   "property": "C40",
   "status": "partial",
   "theorems": [
    "C40_property_types_refuted",
    "C40_property_types_partial"
   ],
   "note": "REFUTED: nil and include properties panic. Proved for every other type."
  },
  {
   "property": "C41",
   "status": "partial",
   "theorems": [
    "C41_annotations_refuted",
    "C41_facets_refuted",
    "C41_survive_partial"
   ],
   "note": "REFUTED, for every type definition that was read with at least one annotation or facet definition. Proved for maps that are written as maps."
  },
  {
   "property": "C42",
   "status": "partial",
   "theorems": [
    "C42_xml_refuted",
    "C42_xml_partial"
   ],
   "note": "REFUTED: unknown settings are not written, and a type writes an empty map for its settings. Proved for the settings' own functions without unknown settings."
  },
  {
   "property": "C43",
   "status": "partial",
   "theorems": [
    "C43_documentation_refuted",
    "C43_documentation_partial"
   ],
   "note": "REFUTED: an API document writes an empty mapping for every entry. Proved for the entries' own functions."
  },
  {
   "property": "C44",
   "status": "proved",
   "theorems": [
    "C44_enum_in_order"
   ],
   "note": ""
  },
  {
   "property": "C45",
   "status": "proved",
   "theorems": [
    "C45_formats_verbatim"
   ],
   "note": ""
  },
  {
   "property": "C46",
   "status": "proved",
   "theorems": [
    "C46_types",
    "C46_types_reachable",
    "C46_api",
    "C46_library",
    "C46_examples",
    "C46_xml",
    "C46_documentation",
    "C46_one_answer"
   ],
   "note": "Every getter after every sequence of setters; types are those reachable from New<Kind>Type."
  },
  {
   "property": "C47",
   "status": "partial",
   "theorems": [
    "C47_nil_unsets",
    "C47_unset_is_new_refuted",
    "C47_unset_is_new_partial",
    "C47_contents_partial"
   ],
   "note": "SetX(nil) = UnsetX() is proved for every map-valued field. REFUTED: the second half. An unset map of an API document, a library, an example, or the examples and properties of a type is written as a sequence, unlike the one of a new object, and is then not read back. It holds for annotations, facet definitions and extra facets of types; elsewhere only the contents agree."
  },
  {
   "property": "C48",
   "status": "proved",
   "theorems": [
    "C48_api_read",
    "C48_api_only_mappings",
    "C48_api_unique",
    "C48_api_in_order"
   ],
   "note": "[api_document] (ApiSpec.v) says field by field what the document means"
  },
  {
   "property": "C49",
   "status": "partial",
   "theorems": [
    "C49_exact",
    "C49_library_exact",
    "C49_api_written_refuted",
    "C49_api_written_partial",
    "C49_api_read_tidy",
    "C49_api_writes_mapping"
   ],
   "note": "REFUTED: an extra facet named like a section replaces that section when a built document is written. Proved when no annotation, extra facet or resource has the name of a section or of another of them, which every document that was read meets. For the presence of a section, float64 keys are assumed not to be written as strings. C49_exact: for every document, of equal keys the last is written; each key of the document is written in its place exactly if all are different."
  },
  {
   "property": "C50",
   "status": "partial",
   "theorems": [
    "C50_api_round_trip_refuted",
    "C50_api_round_trip_partial",
    "C50_api_read_round_trip_partial",
    "C50_write_parse_partial"
   ],
   "note": "REFUTED: annotations that were read and documentation entries. Proved for every document that satisfies api_returns (ApiRoundSpec.v)."
  },
  {
   "property": "C51",
   "status": "proved",
   "theorems": [
    "C51_synonyms_api",
    "C51_synonyms_library",
    "C51_synonyms_type"
   ],
   "note": ""
  },
  {
   "property": "C52",
   "status": "partial",
   "theorems": [
    "C52_media_type_refuted",
    "C52_media_type_partial"
   ],
   "note": "REFUTED: one media type is written as a list. Proved: every list is written as a list and read back."
  },
  {
   "property": "C53",
   "status": "partial",
   "theorems": [
    "C53_library_read_refuted",
    "C53_library_read_partial",
    "C53_library_read_all_partial"
   ],
   "note": "REFUTED: annotationTypes go to Annotations. Proved for libraries without annotationTypes; for every other document the result is described exactly, with that one deviation."
  },
  {
   "property": "C54",
   "status": "partial",
   "theorems": [
    "C54_library_round_trip_refuted",
    "C54_library_round_trip_partial",
    "C54_library_read_round_trip_partial",
    "C54_library_written",
    "C54_write_parse_partial"
   ],
   "note": "REFUTED: annotation types, and annotations that were read. Proved for every library that satisfies lib_returns (ApiRoundSpec.v), which read documents without annotations and annotation types do."
  },
  {
   "property": "C55",
   "status": "proved",
   "theorems": [
    "C55_api_header",
    "C55_library_header",
    "C55_api_header_prefix",
    "C55_library_header_prefix",
    "C55_to_header",
    "C55_module_headers",
    "C55_header_constants",
    "C55_headers_differ",
    "C55_library_module_header"
   ],
   "note": "For API documents under comment_first, the contract that the YAML encoder writes the head comment of a document first (DESIGN.md, contract 8)."
  },
  {
   "property": "C56",
   "status": "proved",
   "theorems": [
    "C56_api_success",
    "C56_library_success",
    "C56_failure_is_error",
    "C56_api_full",
    "C56_library_full",
    "C56_nothing_further",
    "C56_stops",
    "C56_crash"
   ],
   "note": "For every destination, as a function of what it was handed before; the encoder's text and its division into writes are arbitrary."
  },
  {
   "property": "C57",
   "status": "proved",
   "theorems": [
    "C57_parsing",
    "C57_one_result"
   ],
   "note": ""
  },
  {
   "property": "C58",
   "status": "partial",
   "theorems": [
    "C58_last_wins_refuted",
    "C58_last_wins_partial",
    "C58_api_repeated_refuted",
    "C58_api_repeated_partial"
   ],
   "note": "REFUTED: repeated enum, properties, facets and examples add up; for repeated type the kind comes from the first; mediaType, documentation and the map-valued sections of API documents add up. Proved for all other keys of types, examples and API documents."
  },
  {
   "property": "C59",
   "status": "partial",
   "theorems": [
    "C59_key_order_types_refuted",
    "C59_key_order_types_partial",
    "C59_key_order_api_refuted",
    "C59_key_order_api_partial"
   ],
   "note": "REFUTED: with both `type` and `schema`, or both `types` and `schemas`, the order matters. Proved for definitions and documents with at most one of each."
  },
  {
   "property": "C60",
   "status": "proved",
   "theorems": [
    "C60_nested_types"
   ],
   "note": "For all documents and all paths; the second part says that a path of the document can be walked."
  },
  {
   "property": "C61",
   "status": "partial",
   "theorems": [
    "C61_library_repeated_refuted",
    "C61_library_repeated_partial"
   ],
   "note": "REFUTED: repeated sections add up. Proved for every other key."
  },
  {
   "property": "C62",
   "status": "partial",
   "theorems": [
    "C62_library_key_order_refuted",
    "C62_library_key_order_partial"
   ],
   "note": "REFUTED: with both `types` and `schemas`, or an annotation and an annotation type of one name, the order matters. Proved for all other documents."
  },
  {
   "property": "C63",
   "status": "proved",
   "theorems": [
    "C63_places_agree",
    "C63_setter_in_every_place",
    "C63_nothing_else",
    "C63_property_added",
    "C63_not_copied",
    "C63_new_object"
   ],
   "note": "For every setter, including those that take a definition or a map of definitions (same_call in HeapSpec.v), where the given definition does not contain the one it is set in."
  },
  {
   "property": "C64",
   "status": "partial",
   "theorems": [
    "C64_writing_ends_refuted",
    "C64_writing_ends_partial",
    "C64_cycles_not_written",
    "C64_property_cycle"
   ],
   "note": "REFUTED: a definition that contains itself overflows the stack. Proved for every definition that does not contain itself; no other definition is ever written."
  },
  {
   "property": "C65",
   "status": "partial",
   "theorems": [
    "C65_types_refuted",
    "C65_types_partial",
    "C65_types_built_partial",
    "C65_api_refuted",
    "C65_api_partial",
    "C65_api_built_partial",
    "C65_library_refuted",
    "C65_library_partial",
    "C65_library_built_partial"
   ],
   "note": "REFUTED: a default and documentation that were set, and annotations that were loaded, do not come back. Proved for every document and every sequence of setters with arguments that come back themselves (EditSpec.v)."
  },
  {
   "property": "C66",
   "status": "proved",
   "theorems": [
    "C66_live",
    "C66_edit",
    "C66_edit_elsewhere",
    "C66_set",
    "C66_unset",
    "C66_set_map",
    "C66_object",
    "C66_map_methods"
   ],
   "note": "What is inside a map is a value here; types behind references are in C63. That a reader or constructor makes new maps is part of the model (Live.v, Make)."
  },
  {
   "property": "C67",
   "status": "proved",
   "theorems": [
    "C67_own_maps",
    "C67_values",
    "C67_shared"
   ],
   "note": "That a reader or constructor makes new maps is part of the model (Live.v, Make); what it means for everything done afterwards is what is proved."
  },
  {
   "property": "C68",
   "status": "partial",
   "theorems": [
    "C68_type_key_refuted",
    "C68_type_schema_refuted",
    "C68_type_partial",
    "C68_api_refuted",
    "C68_api_partial",
    "C68_library_refuted",
    "C68_library_annotation_types_refuted",
    "C68_library_partial"
   ],
   "note": "REFUTED: a key that is not a string but reads like an annotation, a `type` and a `schema` that disagree, and a library's annotation types change again the second time. Proved for every document whose type definitions are regular (IdemSpec.v) and, for libraries, that has no annotation types."
  },
  {
   "property": "C69",
   "status": "proved",
   "theorems": [
    "C69_type",
    "C69_type_otherwise",
    "C69_example",
    "C69_api",
    "C69_library"
   ],
   "note": "Surviving is equivalent to settled (Stable.v), settled_api, settled_lib (ApiExact.v), which list these. For libraries, whose keys are told by their text alone, the conversion of floating-point numbers must not write one like a key of a library (tame_floats)."
  },
  {
   "property": "C70",
   "status": "proved",
   "theorems": [
    "C70_type_loads",
    "C70_type_panics",
    "C70_type_rejected",
    "C70_api_loads",
    "C70_api_panics",
    "C70_api_rejected",
    "C70_library_loads",
    "C70_library_panics",
    "C70_library_rejected"
   ],
   "note": "The grammar (GrammarSpec.v) is stated over nodes; which floating-point texts can be read is the conversion's (FloatIO). The YAML parser itself, which makes the nodes, is not modelled."
  },
  {
   "property": "C71",
   "status": "proved",
   "theorems": [
    "C71_readers",
    "C71_readers_end",
    "C71_string_maps"
   ],
   "note": "Each access to the slice header, an entry, the Go map or the flag is one step (Conc.v); race: two goroutines whose next accesses meet at one place, one of them writing."
  },
  {
   "property": "C72",
   "status": "partial",
   "theorems": [
    "C72_consistent_refuted",
    "C72_no_panic_refuted",
    "C72_locked_partial",
    "C72_locked_strings_partial"
   ],
   "note": "REFUTED: two concurrent Puts lose an entry from the order but not from the index, after which the map panics; IndexOf panics while another goroutine deletes the key. Proved for programs that make every call under one mutex: every schedule is a sequential history, and string-keyed maps do not panic."
  },
  {
   "property": "C73",
   "status": "proved",
   "theorems": [
    "C73_readers",
    "C73_api",
    "C73_library",
    "C73_type",
    "C73_type_string",
    "C73_type_other",
    "C73_example",
    "C73_example_value",
    "C73_xml",
    "C73_documentation"
   ],
   "note": "The relations api_over, lib_over, type_over, ex_over, xml_over and doc_over (IntoSpec.v) say field by field what is laid over. Types: those with the facets of their kind (shaped), as all are that the library makes. C73_readers: these readers are the ones the other properties are about."
  },
  {
   "property": "C74",
   "status": "partial",
   "theorems": [
    "C74_unchanged_refuted",
    "C74_api_partial",
    "C74_library_partial",
    "C74_type_partial",
    "C74_example_partial",
    "C74_xml_partial",
    "C74_documentation_partial"
   ],
   "note": "REFUTED: the entries before the bad one stay in the object, and of a map or list that is read item by item (uses, types, enum, ...) the items before the bad one; the value of an array example is lost. Proved: exactly this is what happens (the relations leaves and ex_leaves, IntoSpec.v), for every document and every object."
  },
  {
   "property": "C75",
   "status": "partial",
   "theorems": [
    "C75_refuted",
    "C75_history_partial",
    "C75_made_partial"
   ],
   "note": "REFUTED: a facet definition put into the map of a new type is saved in a form that is rejected (the map is to be written in order); C75_conditions has others (the name of a section among the extra facets, annotation types of a library, ...). Proved for every program that keeps to calls_save (LiveSaveSpec.v): what it makes comes back (C75_made_partial: new objects, and loaded ones as in C41, C50, C54), and so does every entry it puts into a map that is in some object."
  },
  {
   "property": "C76",
   "status": "proved",
   "theorems": [
    "C76_edit",
    "C76_nowhere",
    "C76_begin",
    "C76_set_types",
    "C76_always",
    "C76_saved",
    "C76_read"
   ],
   "note": "Programs that give each place its own object; what happens when one definition is in several places is C63 and C64. Definitions, maps of definitions and FacetMaps are references; other maps are values here (they are C66, C67, C75)."
  },
  {
   "property": "C77",
   "status": "partial",
   "theorems": [
    "C77_refuted",
    "C77_api_partial",
    "C77_library_partial",
    "C77_type_partial",
    "C77_loaded_partial"
   ],
   "note": "REFUTED: the pages of the documentation and XML settings are not saved, so documents that differ only there are saved alike. Proved for everything, loaded or built, that comes back from what it is saved as (C31, C50, C54); loaded documents that survive (C69) are even equal."
  },
  {
   "property": "C78",
   "status": "partial",
   "theorems": [
    "C78_refuted",
    "C78_type_partial",
    "C78_api_partial",
    "C78_library_partial"
   ],
   "note": "REFUTED: rbuild has no constructor of object types (nor of date, file, union, custom, nil and include types, examples, XML settings and documentation entries). Proved: a loaded type, document or library can be built if and only if it is made of the six kinds that rbuild makes, without examples, XML settings and documentation entries; then the very same can be built, not only one whose getters agree."
  },
  {
   "property": "C79",
   "status": "proved",
   "theorems": [
    "C79_edit",
    "C79_nowhere",
    "C79_open",
    "C79_always",
    "C79_saved",
    "C79_same_objects",
    "C79_one_chain",
    "C79_loaded",
    "C79_made"
   ],
   "note": "Programs that give each place its own object (what happens when one object is in several places is C63, C64 and C66). Values in maps of strings and of interface{} values are values."
  },
  {
   "property": "C80",
   "status": "proved",
   "theorems": [
    "C80_alone",
    "C80_no_race",
    "C80_no_sharing"
   ],
   "note": "One call is one step. C80_no_race is what makes this no restriction: a call writes only to the object it is made on and to new ones, and no other goroutine reaches these. Logging (logrus) is not modelled."
  },
  {
   "property": "C81",
   "status": "proved",
   "theorems": [
    "C81_edit",
    "C81_program",
    "C81_others",
    "C81_nowhere"
   ],
   "note": "C81_edit for one call, C81_program at any moment of any program in memory, and for the other documents. C81_others and C81_nowhere say what being the same but for some entries gives. Hypothesis: floats are not written as strings (the tag of yaml.v3 for them is !!float)."
  },
  {
   "property": "C82",
   "status": "proved",
   "theorems": [
    "C82_definitions",
    "C82_api",
    "C82_one_type"
   ],
   "note": "Both documents load (which documents load is C31, C50 and C54). C82_one_type spells out the case of a change in one of the types of an API document."
  },
  {
   "property": "C83",
   "status": "partial",
   "theorems": [
    "C83_library_refuted",
    "C83_library_partial"
   ],
   "note": "REFUTED: the entry annotationTypes of a library is loaded into its annotations, under the names of the annotation types (C83_library_refuted; lib_assign, Library.go:212-246). Proved for a change of or inside any other entry."
  },
  {
   "property": "C84",
   "status": "proved",
   "theorems": [
    "C84_calls",
    "C84_programs",
    "C84_saved",
    "C84_interleaved"
   ],
   "note": "C84_calls for one object and all below it; C84_programs for the memory of any program, C84_saved for what is saved, C84_interleaved for two parties. Values given to calls are new objects (once_use, as in C79)."
  },
  {
   "property": "C85",
   "status": "proved",
   "theorems": [
    "C85_twice",
    "C85_twice_programs",
    "C85_void",
    "C85_void_programs"
   ],
   "note": "The object has the method (has_method: for a type definition, its kind has the setter and it has the shape of its kind, which all made or loaded ones have)."
  },
  {
   "property": "C86",
   "status": "proved",
   "theorems": [
    "C86_always",
    "C86_endless",
    "C86_one",
    "C86_call",
    "C86_give",
    "C86_cycle",
    "C86_elsewhere",
    "C86_take",
    "C86_new"
   ],
   "note": "C86_call for calls with new arguments, C86_give for calls given an object that is there; C86_always and C86_endless for what can be saved, C86_cycle for how it comes that something cannot. Values given to calls as new objects have every key once in their maps, as all values that can be built or loaded do (C79_made, C79_loaded). The documentation slice is not given."
  },
  {
   "property": "C87",
   "status": "proved",
   "theorems": [
    "C87_api",
    "C87_library",
    "C87_type",
    "C87_best"
   ],
   "note": "Nodes are those of the parsed document and of the node tree handed to the YAML library."
  },
  {
   "property": "C88",
   "status": "proved",
   "theorems": [
    "C88_type",
    "C88_api",
    "C88_library",
    "C88_unbounded"
   ],
   "note": "floats_return is a statement on the float64 conversions of the YAML library and strconv, which are parameters of the model (FloatIO); without it floats could change for ever. A round that fails or crashes is the last one."
  },
  {
   "property": "C89",
   "status": "proved",
   "theorems": [
    "C89_type_rejected",
    "C89_type_panics",
    "C89_api_rejected",
    "C89_api_panics",
    "C89_library_rejected",
    "C89_library_panics"
   ],
   "note": ""
  },
  {
   "property": "C90",
   "status": "partial",
   "theorems": [
    "C90_refuted",
    "C90_type_partial",
    "C90_api_partial",
    "C90_library_partial",
    "C90_api_entries_partial",
    "C90_library_entries_partial",
    "C90_type_entries_partial"
   ],
   "note": "REFUTED: leaving out the type of a definition can make its other entries mean something that is rejected ({type: object, minLength: x}) or at which the loader panics ({type: string, properties: {a: nil}}). Proved: nothing else goes wrong. As long as no entry with a key that can decide the kind (type, schema, properties, items) is left out, at any depth, what is left loads and is of the same kind; any top-level entries of API documents and libraries can be left out; and any entries of a definition that stays of its kind."
  },
  {
   "property": "C91",
   "status": "proved",
   "theorems": [
    "C91_string_keys",
    "C91_any_keys"
   ],
   "note": "\"ShouldPointTo, test\" (a call returns its receiver) is built into the model: an operation gives the changed map."
  },
  {
   "property": "C92",
   "status": "proved",
   "theorems": [
    "C92_prints",
    "C92_panics",
    "C92_prefix"
   ],
   "note": "The HTTP request is not modelled; its result is any. C92_readme checks that the model prints the document shown in readme.adoc."
  },
  {
   "property": "C93",
   "status": "partial",
   "theorems": [
    "C93_strings_partial",
    "C93_plain_partial",
    "C93_nodes_refuted",
    "C93_loaded_refuted",
    "C93_numbers_refuted"
   ],
   "note": "REFUTED: an UntypedMap that was loaded from a document holds YAML nodes, and encoding/json writes the fields of the node (Kind, Tag, Value, ...) instead of its value: C93_loaded_refuted shows it for every entry of every loaded map. Also, the infinities and NaN are written as YAML and are an error in JSON. Proved: it holds for every StringMap, and for every UntypedMap whose values are nil, strings, booleans, integers, the other numbers, and lists of them."
  },
  {
   "property": "C94",
   "status": "proved",
   "theorems": [
    "C94_once",
    "C94_strings",
    "C94_any",
    "C94_history",
    "C94_reached"
   ],
   "note": "C94_reached: the bound n*n/4 is reached. What append and Go's own maps do inside is not counted."
  },
  {
   "property": "C95",
   "status": "partial",
   "theorems": [
    "C95_types_refuted",
    "C95_in_types_refuted",
    "C95_annotations_refuted",
    "C95_untyped_partial"
   ],
   "note": "REFUTED for every map of types, properties, facet definitions or annotations that holds nil, and for examples of types whose examples cannot be null: nil is saved as null, and no document with it loads. Proved for the untyped maps, where nil comes back as the node null."
  },
  {
   "property": "C96",
   "status": "proved",
   "theorems": [
    "C96_getters",
    "C96_saved",
    "C96_hidden",
    "C96_loads",
    "C96_plain"
   ],
   "note": "Definitions with the facets of their kind (shaped), as all are that the library makes. Hypothesis: floats are not written as strings (the tag of yaml.v3 for them is !!float)."
  },
  {
   "property": "C97",
   "status": "partial",
   "theorems": [
    "C97_refuted",
    "C97_square_partial",
    "C97_tidy_partial",
    "C97_api_partial",
    "C97_library_partial",
    "C97_put",
    "C97_put_any"
   ],
   "note": "REFUTED: Put of a key that is in the map looks at all its entries, and the loaders take documents with repeated keys; a mapping of k keys, each twice, takes k*k looks. Proved: never more than N*(N+3) looks for N nodes, and at most 2*N if no mapping has a key twice and each map is filled from one place."
  },
  {
   "property": "C98",
   "status": "partial",
   "theorems": [
    "C98_refuted",
    "C98_counted",
    "C98_square_partial",
    "C98_clear_partial",
    "C98_loaded_partial"
   ],
   "note": "REFUTED: an object with k annotations and k extra facets of the same names takes k*k looks, since Put of a key that is there goes through the whole map. Proved: never more than the square of what there is, and at most two looks at each thing if no object has two things to write under one key; what was loaded is such if no annotation has the name of an extra facet. C98_counted: the calls that are counted are those that give what is saved."
  },
  {
   "property": "C99",
   "status": "partial",
   "theorems": [
    "C99_refuted",
    "C99_merge_refuted",
    "C99_places_refuted",
    "C99_type_partial",
    "C99_api_partial",
    "C99_library_partial"
   ],
   "note": "REFUTED: the readers do not follow aliases. A type that is an alias is rejected (or read as the name of a type, whatever tag the alias is seen with), a merge key is kept as an extra facet and what it should bring is missing, an example or the title or content of a page that is an alias is read as something else. Proved for documents without merge keys and without aliases in those places: whatever loads is what the document written out in full loads as, where values that are kept as nodes are written out too."
  }
 ]
}