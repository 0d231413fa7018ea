{
 "claims": [
  {
   "property": "C01",
   "status": "proved",
   "theorems": [
    "C01_file_with_extension"
   ],
   "note": "All file names and extensions."
  },
  {
   "property": "C02",
   "status": "proved",
   "theorems": [
    "C02_to_title_runes",
    "C02_to_title_bytes",
    "C02_to_title_idempotent",
    "C02_to_title_well_formed"
   ],
   "note": "Exact rune-level and byte-level characterisation. Idempotence needs a Unicode table that is idempotent on its image (hypothesis upper_idempotent, shown satisfiable)."
  },
  {
   "property": "C03",
   "status": "proved",
   "theorems": [
    "C03_no_capitals_no_hyphens",
    "C03_only_separators",
    "C03_exact",
    "C03_exact_ascii",
    "C03_idempotent"
   ],
   "note": "Exact position-by-position characterisation of the inserted separators; idempotence under a lower-casing table whose image is fixed."
  },
  {
   "property": "C04",
   "status": "proved",
   "theorems": [
    "C04_stack_is_lifo"
   ],
   "note": "Every finite history."
  },
  {
   "property": "C05",
   "status": "proved",
   "theorems": [
    "C05_qualified",
    "C05_other"
   ],
   "note": "Every string."
  },
  {
   "property": "C06",
   "status": "proved",
   "theorems": [
    "C06_builtin_resolves",
    "C06_representation",
    "C06_any_simple_type_refuted"
   ],
   "note": "All 45 XSD built-ins that BuildInTypes lists; C06_any_simple_type_refuted records that anySimpleType is missing from the table."
  },
  {
   "property": "C07",
   "status": "proved",
   "theorems": [
    "C07_builtin_verbatim",
    "C07_captured_refuted"
   ],
   "note": "Rendered verbatim by the field-type renderers. C07_captured_refuted: a tree component called like a target type captures it when the generators resolve a second time."
  },
  {
   "property": "C08",
   "status": "partial",
   "theorems": [
    "C08_go_fits",
    "C08_rust_fits_partial",
    "C08_rust_byte_refuted",
    "C08_java_signed_fits",
    "C08_java_unsigned_refuted",
    "C08_c_long_refuted",
    "C08_exact_partial"
   ],
   "note": "C08_exact_partial says for every language and integer type whether it fits. It holds for Go, for all Rust types but byte and for Java's signed types; false for Rust byte (u8), Java unsigned types, C long and unsignedLong, and 64-bit types in TypeScript."
  },
  {
   "property": "C09",
   "status": "proved",
   "theorems": [
    "C09_union_order"
   ],
   "note": "Sorted permutation, unique for every iteration order and sorting algorithm."
  },
  {
   "property": "C10",
   "status": "proved",
   "theorems": [
    "C10_comment_lines",
    "C10_comment_stays",
    "C10_carriage_return_refuted"
   ],
   "note": "Proved for LF as line separator (the property as stated). A lone carriage return, which Java and TypeScript treat as line terminator, escapes (C10_carriage_return_refuted)."
  },
  {
   "property": "C11",
   "status": "proved",
   "theorems": [
    "C11_element_occurs",
    "C11_choice_occurs"
   ],
   "note": "Element and choice start tags, every value; an element inside a plural choice is plural whatever its own value says."
  },
  {
   "property": "C12",
   "status": "proved",
   "theorems": [
    "C12_choices_inherit"
   ],
   "note": "Every prefix of a document with well-nested choices."
  },
  {
   "property": "C13",
   "status": "proved",
   "theorems": [
    "C13_element_in_complex",
    "C13_joined_keeps"
   ],
   "note": "Every state with an open complex type."
  },
  {
   "property": "C14",
   "status": "proved",
   "theorems": [
    "C14_attribute_start",
    "C14_attribute_start_total",
    "C14_attribute_order"
   ],
   "note": "Every attribute list; order independence when at most one attribute gives the name and at most one the type."
  },
  {
   "property": "C15",
   "status": "proved",
   "theorems": [
    "C15_enumeration",
    "C15_enumeration_total"
   ],
   "note": "Every token sequence of enumerations, unknown tags, text and comments. Text that is not white space may change the documentation of the simple type (enumeration documentation overwrites it)."
  },
  {
   "property": "C16",
   "status": "proved",
   "theorems": [
    "C16_terminates"
   ],
   "note": "Every file system, import/include graph, iteration order and failure pattern; the nesting depth is bounded by the number of files not parsed yet plus 2."
  },
  {
   "property": "C17",
   "status": "proved",
   "theorems": [
    "C17_extract_no_effect"
   ],
   "note": "Every document and world."
  },
  {
   "property": "C18",
   "status": "proved",
   "theorems": [
    "C18_no_stale_state",
    "C18_output_independent",
    "C18_stale_tree_refuted"
   ],
   "note": "All per-document fields but ProtoTree, and the global counter. C18_stale_tree_refuted: a ProtoTree left over from before the call is visible to a document that imports itself (the property does not claim otherwise)."
  },
  {
   "property": "C19",
   "status": "proved",
   "theorems": [
    "C19_locations",
    "C19_import_tag",
    "C19_attribute_order_refuted"
   ],
   "note": "Every parse; C19_import_tag gives the exact effect of one tag. C19_attribute_order_refuted: the tag is ignored for its namespace when schemaLocation precedes namespace."
  },
  {
   "property": "C20",
   "status": "proved",
   "theorems": [
    "C20_document_no_panic",
    "C20_parse_no_panic"
   ],
   "note": "Every document of the shape, all nested parses included."
  },
  {
   "property": "C21",
   "status": "proved",
   "theorems": [
    "C21_groups"
   ],
   "note": "Every token stream, including ill-formed ones."
  },
  {
   "property": "C22",
   "status": "partial",
   "theorems": [
    "C22_tokens_partial",
    "C22_parse_partial",
    "C22_lost_type_refuted",
    "C22_overwritten_member_refuted",
    "C22_inline_simple_type_refuted",
    "C22_leftover_element_refuted",
    "C22_leaked_values_refuted",
    "C22_nested_union_refuted",
    "C22_foreign_documentation_refuted"
   ],
   "note": "Proved for every schema of the grammar in SpecDecl.v, of any size and depth, with documentation texts at every place and where each of them ends up, with other tags, blank text and comments anywhere, in documents that import and include nothing (C51 has those that do), and for any resolver that leaves the shared state alone. Elements, local and top-level, may have an inline restricted type with facets or no type at all; the grammar then says what such an element takes from the declarations after it (texts, and the base of a simple type with facets, which itself disappears). Missing: inline types of elements without facets or with a list or union; groups and inline attribute types after an element whose tag has no type; simple types after an inline enumeration; unions with facets after such an element; inline attribute types and restrictions inside the anonymous type of a top-level element; unions and lists with nested anonymous lists or unions. The refutations show where the result is not what a reader of the schema expects: a top-level element without type makes a later simple type disappear and takes the documentation of later types, an inline attribute type overwrites the last member, an inline simple type cuts its complex type short or makes a later simple type disappear or leaks its values into one, a union inside a union forgets the outer members."
  },
  {
   "property": "C23",
   "status": "partial",
   "theorems": [
    "C23_truncation_unreported",
    "C23_malformed_refuted"
   ],
   "note": "False: no decoder error is reported. C23_truncation_unreported proves that every truncation of an acceptable document is accepted, C23_malformed_refuted gives a document whose truncation is accepted and written out."
  },
  {
   "property": "C24",
   "status": "partial",
   "theorems": [
    "C24_member_partial",
    "C24_missing_file_partial",
    "C24_nested_error_refuted"
   ],
   "note": "Proved for a schema file that does not exist (or cannot be examined) and is needed by the first reference of a tag, in every place where a schema refers to a type, or by a later member of a union (C24_member_partial). False for schema files that exist but cannot be parsed (C24_nested_error_refuted); C52 says which errors are returned."
  },
  {
   "property": "C25",
   "status": "proved",
   "theorems": [
    "C25_only_output",
    "C25_output_written",
    "C25_all_effects"
   ],
   "note": "Documents without import and include (fuel <> 0 only excludes the model's empty budget); C25_all_effects covers every document. The output file and its text are specified in SpecFile.v."
  },
  {
   "property": "C26",
   "status": "partial",
   "theorems": [
    "C26_tool_inside_partial",
    "C26_tool_outside_refuted",
    "C26_walk_partial",
    "C26_end_refuted",
    "C26_output_inside_partial",
    "C26_outside_refuted"
   ],
   "note": "Proved for Parse when the relative part of FilePath, walked along, never leaves OutputDir and ends below it (C26_walk_partial; so in particular without '..' components), and for the tool run on a directory other than '.' given by a clean path. False otherwise: the output is outside if the walk ends where it started (C26_end_refuted) or higher (C26_outside_refuted); C26_tool_outside_refuted: the tool writes outside its output directory for the input './../x', for a file '...' in '.', and for a schemaLocation with '..'."
  },
  {
   "property": "C27",
   "status": "proved",
   "theorems": [
    "C27_spacing",
    "C27_same_output"
   ],
   "note": "Every document, all nested schemas included; the generated files are the same."
  },
  {
   "property": "C28",
   "status": "proved",
   "theorems": [
    "C28_help_version",
    "C28_rejected",
    "C28_missing_input",
    "C28_files",
    "C28_first_failure",
    "C28_terminates",
    "C28_no_panic",
    "C28_arguments",
    "C28_unknown_flag"
   ],
   "note": "Every flag combination, argument list, file list and failing position. A panic inside Parse ends the process with exit code 2 (C28_no_panic gives a condition under which it does not happen)."
  },
  {
   "property": "C29",
   "status": "partial",
   "theorems": [
    "C29_interleaved_partial",
    "C29_one_after_the_other_partial",
    "C29_shared_name_refuted",
    "C29_lost_number_refuted",
    "C29_accesses_partial",
    "C29_both_started_partial",
    "C29_entries_are_accesses_partial",
    "C29_zero_refuted",
    "C29_both_numbered_refuted",
    "C29_race_refuted"
   ],
   "note": "The shared counter fieldNameCount is the only shared state of two Parse calls on separate Options. Two models: steps that are whole entries, and steps that are single accesses (load of the variable, read, store, load, read). Proved: with entries as steps, no interference in any interleaving when no identifier is taken twice, and none at all when the runs follow each other; with accesses as steps, no interference when no identifier is taken twice and no run starts in the middle of an entry of the other; every interleaving of entries is one of accesses. Refuted in general: a shared name is numbered in the second run or in both, the reset by the other run loses numbers, and a run that starts between the two lines of an entry makes it declare a name with the number 0. C29_race_refuted: for any two runs that each number an identifier, some order has both about to store into the same map at once, which the Go runtime may abort; that abort, and weak memory, are not modelled."
  },
  {
   "property": "C30",
   "status": "proved",
   "theorems": [
    "C30_first_of_each_name",
    "C30_every_tree",
    "C30_repeated_ignored"
   ],
   "note": "C30_first_of_each_name: every tree whose names and types contain no line feed (tree_ok), in every language, read off the outline of the generated text; C30_every_tree: every tree, with the text as a concatenation of the texts of these components."
  },
  {
   "property": "C31",
   "status": "partial",
   "theorems": [
    "C31_distinct_names",
    "C31_numbered_partial",
    "C31_numbered_kinds",
    "C31_number_clash_refuted",
    "C31_not_numbered_refuted"
   ],
   "note": "The pairs (name, number) are distinct, and names of the numbered kinds get distinct numbers; the identifiers themselves can clash (C31_number_clash_refuted) and some kinds are not numbered at all (C31_not_numbered_refuted)."
  },
  {
   "property": "C32",
   "status": "partial",
   "theorems": [
    "C32_same_identifier_partial",
    "C32_declared_and_referenced_partial",
    "C32_number_refuted",
    "C32_placeholder_refuted",
    "C32_leading_hyphen_refuted"
   ],
   "note": "Every well-formed name under the stated guards whose identifier is not empty (and in TypeScript not Any): C32_placeholder_refuted shows that those names are always referred to by a placeholder. In the text: if identifiers do not collide; a second declaration gets a number that the reference does not follow (C32_number_refuted). A leading hyphen is refuted as well (C32_leading_hyphen_refuted)."
  },
  {
   "property": "C33",
   "status": "partial",
   "theorems": [
    "C33_import_block",
    "C33_no_unused_import",
    "C33_time_imported_partial",
    "C33_missing_import_refuted"
   ],
   "note": "The import block is characterised exactly and nothing is imported without being used; the converse holds for members of complex types of type time.Time and fails for aliases and for members of type xml.Name (C33_missing_import_refuted)."
  },
  {
   "property": "C34",
   "status": "partial",
   "theorems": [
    "C34_elements_partial",
    "C34_typescript_refuted",
    "C34_c_refuted",
    "C34_rust_optional"
   ],
   "note": "Every element of every complex type, but for plural built-in types in TypeScript (C34_typescript_refuted: always written like a singular one), array types in C (C34_c_refuted) and singular elements marked optional in Rust (C34_rust_optional; the parser never makes them)."
  },
  {
   "property": "C35",
   "status": "partial",
   "theorems": [
    "C35_complex_attributes",
    "C35_group_attributes_partial",
    "C35_marker_distinguishes",
    "C35_groups_refuted"
   ],
   "note": "Complex types: every language. Attribute groups: Go, C, TypeScript, and optional attributes in Rust; false for every attribute in Java and for every required attribute in Rust (C35_groups_refuted gives all rows)."
  },
  {
   "property": "C36",
   "status": "proved",
   "theorems": [
    "C36_rust_field_not_reserved"
   ],
   "note": "All names; reserved words of Rust 2021 listed independently in SpecStr.v."
  },
  {
   "property": "C37",
   "status": "proved",
   "theorems": [
    "C37_outline",
    "C37_go_columns"
   ],
   "note": "C37_outline: the exact lines of every component in every language against an independent specification. C37_go_columns reads the columns of Go structures back."
  },
  {
   "property": "C38",
   "status": "partial",
   "theorems": [
    "C38_nested_partial",
    "C38_values_partial",
    "C38_direct_partial",
    "C38_late_refuted",
    "C38_include_order_partial",
    "C38_include_order_refuted",
    "C38_exact_partial"
   ],
   "note": "Proved when the included schemas agree on the type and one of them is included directly, or none has it (C38_include_order_partial); with schemas that include others and a bound for the loop: C38_nested_partial. C38_exact_partial: for included schemas that include nothing further, the results over all orders are exactly the types that the included schemas give (the name itself if none does), so the result is independent of the order exactly if they agree. C38_values_partial: in general every result is a type that one of them gives, or the name if none of those included directly has it; C38_direct_partial: every type that a directly included schema gives is the result in some order, so if the order does not matter those agree. Refuted for disagreement (C38_include_order_refuted) and for a type that only a schema included by an included schema has (C38_late_refuted)."
  },
  {
   "property": "C39",
   "status": "proved",
   "theorems": [
    "C39_typescript_enum",
    "C39_every_tree"
   ],
   "note": "Every enumeration and base type, repeated names included; C39_every_tree without assumption on the names."
  },
  {
   "property": "C40",
   "status": "proved",
   "theorems": [
    "C40_foreign"
   ],
   "note": "Every document, all nested schemas included."
  },
  {
   "property": "C41",
   "status": "proved",
   "theorems": [
    "C41_preamble",
    "C41_failure",
    "C41_unknown_language",
    "C41_marker_and_package"
   ],
   "note": "For every outcome of the code generators; Parse hands the text on (C25). When gofmt rejects the text, the file is written without the marker and Parse fails."
  },
  {
   "property": "C42",
   "status": "proved",
   "theorems": [
    "C42_file",
    "C42_missing",
    "C42_directory"
   ],
   "note": "Every tree-shaped file system. With unreadable directories the list is still sorted, duplicate-free and contains only existing paths below the directory. The directory itself is listed twice, before and after its contents."
  },
  {
   "property": "C43",
   "status": "proved",
   "theorems": [
    "C43_only_create_fails",
    "C43_nil_entries"
   ],
   "note": "Every tree."
  },
  {
   "property": "C44",
   "status": "proved",
   "theorems": [
    "C44_first_declaration"
   ],
   "note": "Every name and tree."
  },
  {
   "property": "C45",
   "status": "partial",
   "theorems": [
    "C45_xml_attributes_refuted",
    "C45_ordinary_parse_refuted"
   ],
   "note": "False: C45_xml_attributes_refuted (extraction) and C45_ordinary_parse_refuted (the xml namespace has no known location) show that the local name is returned instead of a string type, for every document."
  },
  {
   "property": "C46",
   "status": "partial",
   "theorems": [
    "C46_text_types_partial",
    "C46_exact_partial",
    "C46_text_types_refuted"
   ],
   "note": "False for Rust date/dateTime (u8) and Java anyURI (QName), true for everything else (C46_exact_partial)."
  },
  {
   "property": "C47",
   "status": "proved",
   "theorems": [
    "C47_bad_occurs"
   ],
   "note": "Every document, world and Options."
  },
  {
   "property": "C48",
   "status": "proved",
   "theorems": [
    "C48_words",
    "C48_declared"
   ],
   "note": "Every well-formed name; needs a Unicode table that is idempotent on its image (upper_idempotent) and produces no ASCII layout characters (case_tables_ok), both shown satisfiable."
  },
  {
   "property": "C49",
   "status": "partial",
   "theorems": [
    "C49_outputs",
    "C49_location_partial",
    "C49_nothing_else",
    "C49_unclean_input_refuted"
   ],
   "note": "Every flag combination and file system; the file is at the -o string joined with what is left of its path when the -i string is removed from its front. That is its relative path, under the output directory, for a clean -i (C26_tool_inside_partial); not in general: C49_unclean_input_refuted shows that ./in and in lead to different outputs, C26_tool_outside_refuted that the output can leave the output directory."
  },
  {
   "property": "C50",
   "status": "proved",
   "theorems": [
    "C50_parse",
    "C50_outputs",
    "C50_succeeds",
    "C50_nothing_else"
   ],
   "note": "Whole runs: directory walk, parser, name resolution, generator and file system together. The grammar and its limits are those of C22."
  },
  {
   "property": "C51",
   "status": "proved",
   "theorems": [
    "C51_parse",
    "C51_tool",
    "C51_directory",
    "C51_prefix_refuted",
    "C51_order_refuted",
    "C51_own_names_refuted",
    "C51_other_directory_refuted"
   ],
   "note": "Schemas of the grammar of SpecDecl.v with imports and includes before the components, in one directory; imports may go round in circles as long as every reference back leads to a schema that all references come through. Also for a run of the tool on a directory in which every schema is the root of such a project. Refuted without its assumptions: a tag of an imported schema can change the meaning of a prefix in the importing schema, the order of declarations in an imported schema matters, the names of a root that others import get a location only when one of the others has been parsed, and a location that the root gives is used unchanged by a schema in another directory."
  },
  {
   "property": "C52",
   "status": "proved",
   "theorems": [
    "C52_parse_error",
    "C52_parse_exit",
    "C52_tool"
   ],
   "note": "Every error of Parse and every exit code 1 of the tool, for every document, file system and environment. For references that need a missing file the cause names the token, the state before it and the name asked for."
  },
  {
   "property": "C53",
   "status": "proved",
   "theorems": [
    "C53_components",
    "C53_declarations",
    "C53_imports",
    "C53_tool"
   ],
   "note": "Components: every document in extract mode, and schemas without imports and includes otherwise, for every file system and environment. Generated code: every tree with plain names (imports: every tree). Runs of the tool on schemas without imports and includes: C53_tool."
  },
  {
   "property": "C54",
   "status": "proved",
   "theorems": [
    "C54_text_kept",
    "C54_any_order",
    "C54_new_name_refuted",
    "C54_same_identifier_refuted"
   ],
   "note": "Every tree, permutation and language; both conditions are shown to be needed."
  },
  {
   "property": "C55",
   "status": "proved",
   "theorems": [
    "C55_separate",
    "C55_fresh_output"
   ],
   "note": "C55_separate and C55_fresh_output; C55_hidden_refuted, C55_extension_refuted and C55_directory_refuted show that the conditions on names are needed."
  },
  {
   "property": "C56",
   "status": "proved",
   "theorems": [
    "C56_tree_parse",
    "C56_tree",
    "C56_kinds"
   ],
   "note": "For Parse, for the tool with any arguments, and for the kinds of all places."
  },
  {
   "property": "C57",
   "status": "proved",
   "theorems": [
    "C57_again",
    "C57_list",
    "C57_twice"
   ],
   "note": "C57_again for any list of files, C57_list for the list, C57_twice for both; C57_in_place_refuted shows that the directories have to be apart."
  },
  {
   "property": "C58",
   "status": "proved",
   "theorems": [
    "C58_flags",
    "C58_files",
    "C58_no_silent_success"
   ],
   "note": "Standard output as one string per run; the texts of standard-library errors are parameters; the flag package's own messages and panics go to the standard error, which is not modelled."
  },
  {
   "property": "C59",
   "status": "proved",
   "theorems": [
    "C59_attributes",
    "C59_same_output",
    "C59_all_needed",
    "C59_order_needed"
   ],
   "note": "All documents; the namespace of attributes on the schema tag is not covered by the exchange of namespaces, since it tells declarations of prefixes apart."
  },
  {
   "property": "C60",
   "status": "proved",
   "theorems": [
    "C60_components_stay",
    "C60_longer_document"
   ],
   "note": "All token sequences. The beginning of a document is run by the token loop of the model, as it is by Parse."
  },
  {
   "property": "C61",
   "status": "proved",
   "theorems": [
    "C61_source",
    "C61_one_per_end_tag"
   ],
   "note": "All token sequences. What the types of elements and attributes are is the subject of other claims (C22, C26, C53)."
  },
  {
   "property": "C62",
   "status": "proved",
   "theorems": [
    "C62_types",
    "C62_alone"
   ],
   "note": "For any set of names that is large enough for all files, including files that xgen itself writes, if they were read as schemas."
  },
  {
   "property": "C63",
   "status": "partial",
   "theorems": [
    "C63_settled",
    "C63_table",
    "C63_exact_partial",
    "C63_ordinary_partial",
    "C63_captured_refuted",
    "C63_uri_refuted",
    "C63_include_refuted"
   ],
   "note": "False in general, since the target type is resolved once more: C63_captured_refuted (a component called like the target type), C63_uri_refuted (anyURI in Java), C63_include_refuted (an included schema that cannot be read). True without conditions exactly for the target types in `settled` (C63_settled, C63_table). Exact in extract mode (C63_exact_partial); in an ordinary parse under the conditions of C63_ordinary_partial. Missing: the exact result in an ordinary parse when the default namespace has a location or schemas are included."
  },
  {
   "property": "C64",
   "status": "partial",
   "theorems": [
    "C64_program_partial",
    "C64_file_partial",
    "C64_names",
    "C64_types_partial",
    "C64_underscore_refuted",
    "C64_empty_list_refuted",
    "C64_array_refuted",
    "C64_void_refuted",
    "C64_self_refuted",
    "C64_value_refuted"
   ],
   "note": "C64_program_partial: a program of the grammar in SpecSyntax.v for trees with ordinary names and types (tree_fine, manageable); C64_names holds for every ordinary name. The conditions are needed: C64_underscore_refuted, C64_empty_list_refuted, C64_array_refuted, C64_void_refuted, C64_self_refuted, C64_value_refuted give output that is no program. The grammars cover the declarations that can occur, not the languages; anything beyond ASCII counts as a letter. Missing: uniqueness of members (C65), types that are declared nowhere (C66), and the lines in front of the declarations (C41)."
  },
  {
   "property": "C65",
   "status": "partial",
   "theorems": [
    "C65_groups",
    "C65_told_apart_partial",
    "C65_unique_partial",
    "C65_types_refuted",
    "C65_inline_refuted",
    "C65_group_refuted"
   ],
   "note": "C65_groups holds for every document. C65_told_apart_partial and C65_unique_partial need that no restriction ends inside a complex type: C65_inline_refuted shows an element with an inline type that is listed twice with the same type. C65_types_refuted: a name with two types is listed twice, and a repetition of the second is not merged. C65_group_refuted: elements of a group are not compared."
  },
  {
   "property": "C66",
   "status": "partial",
   "theorems": [
    "C66_closed_partial",
    "C66_file_partial",
    "C66_undeclared_refuted",
    "C66_bool_refuted",
    "C66_attributes_refuted",
    "C66_hidden_refuted"
   ],
   "note": "C66_closed_partial needs that types are names of components (C66_undeclared_refuted: otherwise the name is used all the same), that in Rust the first component with the name is no element or attribute (C66_hidden_refuted: an element and its type of the same name), and in Java that attribute groups have no attributes (C66_attributes_refuted: StringAttr). C bool and Java QName count as declared though the files do not include or import them (C66_bool_refuted). Qualified names in Go rely on the imports of C33."
  },
  {
   "property": "C67",
   "status": "partial",
   "theorems": [
    "C67_components_partial",
    "C67_failures_partial",
    "C67_repeated_refuted",
    "C67_include_refuted"
   ],
   "note": "C67_components_partial and C67_failures_partial need documents without import and include (C67_include_refuted: a type named like a built-in type) and without repeated elements in a complex type (C67_repeated_refuted: int and long are one type in TypeScript, two in Go, so elements are merged in one language only)."
  },
  {
   "property": "C68",
   "status": "partial",
   "theorems": [
    "C68_components",
    "C68_tool_partial",
    "C68_closed_partial",
    "C68_undeclared_refuted",
    "C68_project_components",
    "C68_project_partial",
    "C68_project_closed_partial"
   ],
   "note": "C68_components and C68_project_components (schemas that import and include others) have no further conditions, except that in projects declared attributes have types. C68_tool_partial, C68_project_partial and the theorems on closed programs need that the components are manageable (C64 and C66 show what the generators cannot handle); C68_closed_partial needs that types are declared by the same schema (C68_undeclared_refuted), C68_project_closed_partial that those that remain in the components are declared by a file of the project."
  },
  {
   "property": "C69",
   "status": "partial",
   "theorems": [
    "C69_fields_partial",
    "C69_unique_partial",
    "C69_file_partial",
    "C69_names",
    "C69_attribute_refuted",
    "C69_suffix_refuted",
    "C69_hyphen_refuted",
    "C69_value_refuted",
    "C69_content_refuted",
    "C69_case_refuted"
   ],
   "note": "False for other names: names that differ in hyphens, in dots or in the case of a letter (C69_hyphen_refuted, C69_case_refuted), an element named like an attribute member (C69_suffix_refuted), in Rust an attribute named like an element (C69_attribute_refuted), the content of an extended type beside a member called value (C69_value_refuted, C69_content_refuted). C69_fields_partial needs names without blanks, tabs, semicolons, brackets and stars."
  },
  {
   "property": "C70",
   "status": "partial",
   "theorems": [
    "C70_ordered_partial",
    "C70_file_partial",
    "C70_later_refuted",
    "C70_recursive_refuted",
    "C70_extends_refuted",
    "C70_same_refuted",
    "C70_target_refuted"
   ],
   "note": "False in general: the order of the schema is kept, so C and TypeScript programs use what is declared later (C70_later_refuted, C70_extends_refuted), recursive types contain themselves (C70_recursive_refuted), and a later component of the same name, or one with the name of a target type, takes the place of an earlier type (C70_same_refuted, C70_target_refuted). Proved for component lists without these, within the conditions of C66."
  },
  {
   "property": "C71",
   "status": "partial",
   "theorems": [
    "C71_names_partial",
    "C71_determined_partial",
    "C71_file_partial",
    "C71_rust_refuted",
    "C71_names_refuted",
    "C71_group_refuted",
    "C71_union_refuted",
    "C71_tool_partial",
    "C71_project_partial"
   ],
   "note": "Go, Java and Rust, for lists of components, for Parse, and for runs of the tool on ordinary schemas and projects. C and TypeScript programs do not have the names (C71_names_refuted), nor do Go structures for groups (C71_group_refuted); Rust does not tell attributes from elements (C71_rust_refuted) and gives all members of a union the name of the union (C71_union_refuted). Names and types without tabs, quotation marks and commas."
  },
  {
   "property": "C72",
   "status": "partial",
   "theorems": [
    "C72_components_partial",
    "C72_files_partial",
    "C72_failures_partial",
    "C72_ref_refuted",
    "C72_base_refuted",
    "C72_nameless_refuted",
    "C72_import_refuted",
    "C72_tool_partial"
   ],
   "note": "Documents without imports and includes, for components, for Parse and for runs of the tool. With an import it is false: the imported schema binds prefixes for the importing one too (C72_import_refuted). False also for ref, whose prefix becomes a part of the name (C72_ref_refuted), and for the base of types without a name (C72_base_refuted, C72_nameless_refuted)."
  },
  {
   "property": "C73",
   "status": "partial",
   "theorems": [
    "C73_alone_partial",
    "C73_failed_partial",
    "C73_import_refuted"
   ],
   "note": "Runs over schemas without imports and includes, with separate output files; if the first run fails, for the files before the failing one (C73_failed_partial). False with imports: the program of an imported schema can replace that of another schema of the run (C73_import_refuted)."
  },
  {
   "property": "C74",
   "status": "proved",
   "theorems": [
    "C74_parse",
    "C74_tool",
    "C74_safe",
    "C74_schema_names",
    "C74_languages",
    "C74_overwritten_refuted"
   ],
   "note": "A schema file whose own name ends with the extension can be overwritten by its program (C74_overwritten_refuted)."
  },
  {
   "property": "C75",
   "status": "partial",
   "theorems": [
    "C75_same_partial",
    "C75_untyped_refuted",
    "C75_include_refuted"
   ],
   "note": "Documents without imports and includes, and without components of an empty type at any point. False otherwise: a reference to an attribute without a type is an empty type in extract mode and the name in an ordinary parse (C75_untyped_refuted), and types of included schemas are only found by an ordinary parse (C75_include_refuted)."
  }
 ]
}
