# Formal model of xuri/xgen in Rocq (Coq 8.16.1)

## 1. What is modelled and how

Everything lives in `rocq/theories`. Strings are Coq `string`s, i.e. byte
sequences, like Go strings. Go maps are association lists with first-match
lookup; the iteration order of a Go map is an input (oracle), never fixed.
Every definition of the model carries the file and lines it was read from.

Model:

| file | models |
|---|---|
| `GoStr.v` | the part of Go's `strings`, `strconv`, `unicode/utf8` the code uses |
| `GoPath.v` | `path/filepath` `Clean`, `Join`, `Dir` (Unix) |
| `Stack.v` | stack.go on container/list |
| `Base.v` | association maps, the environment of oracles, tokens, proto-tree data types (proto.go) |
| `Utils.v` | utils.go, schema.go, FileWithExtension, built-in type tables |
| `GenGo.v` `GenC.v` `GenJava.v` `GenRust.v` `GenTS.v` | the five generators, statement by statement |
| `World.v` | file system, shared maps, outcome monad (value / Go error / panic / os.Exit / out of fuel), PrepareOutputDir, os.Create + write |
| `Handlers.v` | the On*/End* handlers of xml*.go, reflection dispatch, the token loop |
| `Parser.v` | `GetValueType`, `Parse`, generation, file output |
| `Cli.v` | cmd/xgen/xgen.go: flag.Parse, parseFlags, main; GetFileList and filepath.Walk |
| `Terminal.v` | what cmd/xgen prints on its standard output |
| `Concurrent.v` | two generator runs that share fieldNameCount |

Specifications (they do not use model functions; of the model they use data
types, the string library and the file-system vocabulary):

| file | specifies |
|---|---|
| `SpecStr.v` | string-level properties |
| `SpecTables.v` | stacks, orders, integer ranges, lookups |
| `SpecDoc.v` | tags, token streams, nesting, white space |
| `SpecDecl.v` | a grammar of schemas and the components each schema declares, by structural recursion |
| `SpecFile.v` | name and text of the output file, what may change in the file system |
| `SpecParse.v` | related documents and worlds, schema locations |
| `SpecGen.v` `SpecOut.v` | a reader of generated text; the outline, identifiers, types and preamble expected for a tree |
| `SpecCli.v` | flags, trees of directories, files to be written |
| `SpecWhole.v` | schema files, outputs that can be written, separate outputs |
| `SpecConc.v` | identifiers taken from the counter, runs that start while the other is in the middle of an entry |
| `SpecProject.v` | projects of schemas with imports and includes: what their names stand for, what they declare, which schemas they need |
| `SpecBare.v` | components and outlines without documentation |
| `SpecAttr.v` | which attributes of a tag matter, and in which order |
| `SpecStay.v` | components that stay when a document goes on |
| `SpecSource.v` | where the texts of components were written, and which end tags make components |
| `SpecOrigin.v` | what a schema refers to, and types that come from there or from the tables |
| `SpecRestrict.v` | types with a new base, target types that are built-in names themselves |
| `SpecSyntax.v` | grammars of the generated programs, trees with ordinary names and types |
| `SpecUnique.v` | repeated members of a complex type |
| `SpecClosed.v` | programs that declare the types they use |
| `SpecLang.v` | components but for the types of the target language |
| `SpecFine.v` | schemas with ordinary names and types |
| `SpecMembers.v` | members of generated structures and their names |
| `SpecOrder.v` | programs that declare before they use |
| `SpecBinding.v` | XML names in tags and annotations |
| `SpecInside.v` | paths that stay in a directory |
| `SpecPrefix.v` | documents with other namespace prefixes |
| `SpecTouched.v` | what a run can do to a place of the file system |
| `SpecMissing.v` | references resolved one after the other |
| `SpecIncludes.v` | included schemas that include others and need not agree |
| `SpecExtract.v` | reading a document for its types only |
| `SpecLocal.v` | names and identifiers of a tree, names of output files |
| `SpecError.v` | why Parse returns an error or ends the process. The exception: a cause that lies in a reference speaks of the state that the parser reaches before the token |

Proofs: `*Lemmas.v`, `*Proofs.v`, `Reify.v`, `Termination.v`, `ParseFacts.v`,
`GenText.v`, `GenOutline.v`, `GenRun.v`, `GenRuns.v`, `GenNames.v`,
`GenFacts.v`, `Effects.v`. Property theorems only: `Properties*.v`, each theorem with `Print
Assumptions`, plus an example on concrete values. `Fixture.v` is a test: the
repository's own base64.xsd fixture is run through the model and compared with
the repository's expected outputs. `Demo.v` holds small worlds for examples.

### Oracles (class `Env`; every theorem quantifies over it)

unicode.ToUpper / ToLower on non-ASCII runes; encoding/xml's decoder (file
bytes to the token sequence before the first nil token); url.Parse on strings
that contain ':'; go/format.Source; which key a `range` over IncludeMap visits
next; whether stat/open/create/mkdir fails on a path; which bytes of a write
land.

### Simplifications

* The I/O failure oracles depend on the path only, not on time.
* A file's content is taken when the file is opened.
* When a handler fails, the parser's own fields are dropped: nobody reads them.
* No symbolic links. Paths are looked up after lexical cleaning. A relative and
  an absolute path are never the same file. ".", "/" and chains of ".." are
  always directories. A trailing slash on a file is not distinguished.
* The maps in Options are never nil.
* filepath.Walk is modelled by recursion over the flat file system; theorems
  about it need a file system that is a tree (`tree_shaped`).
* A Go panic ends the process with exit code 2, os.Exit(1) with 1.
* Two generator runs are interleaved twice: with whole entries as steps and
  with single accesses to fieldNameCount and its map as steps. Accesses are
  atomic and in program order; the runtime's abort with "concurrent map writes"
  is left out.
* Fields of proto.go structs that no code reads or writes are left out (listed
  in `Base.v`).
* Recursion of Parse has a depth budget and a budget for each include loop.
  C16 shows that a large enough budget always exists, and that the result does
  not depend on it.

### Not modelled

fetchSchema (dead code), RemoteSchema (never read), charset conversion (part
of the decoder oracle), the standard error, the texts of library errors
(parameters in `Terminal.v`), concurrent modification of the file system by others, memory and stack limits.

## 2. Trusted base

* The Coq 8.16.1 kernel including `vm_compute`.
* The reading of the Go code at the cited lines, and of the Go standard library
  in `GoStr.v`, `GoPath.v` and the flag parser in `Cli.v`.
* The oracles above stand for the parts outside the repository.

Assumptions per theorem: `Print Assumptions` answers "Closed under the global
context" for every theorem in the table below. No axiom is used, neither from
the standard library nor own. (A scan of the loaded libraries lists the
parameters of `Coq.ssr.ssrunder`, which `Lia` and friends load; no theorem
depends on them.)

## 3. Theorems

`_partial`: the property under a guard; `_refuted`: a witness that the property
fails without the guard. What is missing is said in `MANIFEST.json`.

| property | title | status | theorems |
|---|---|---|---|
| C01 | FileWithExtension yields a file name carrying the extension exactly once | proved | `C01_file_with_extension` |
| C02 | ToTitle upper-cases the first rune and nothing else | proved | `C02_to_title_runes`, `C02_to_title_bytes`, `C02_to_title_idempotent`, `C02_to_title_well_formed` |
| C03 | ToSnakeCase produces lower-case, hyphen-free names and only inserts separators | proved | `C03_no_capitals_no_hyphens`, `C03_only_separators`, `C03_exact`, `C03_exact_ascii`, `C03_idempotent` |
| C04 | Stack is a LIFO stack | proved | `C04_stack_is_lifo` |
| C05 | A qualified name is split into namespace prefix and local name without loss | proved | `C05_qualified`, `C05_other` |
| C06 | Every XSD built-in type has a target type in every supported language | proved | `C06_builtin_resolves`, `C06_representation`, `C06_any_simple_type_refuted` |
| C07 | Built-in target types reach the generated code unchanged | proved | `C07_builtin_verbatim`, `C07_captured_refuted` |
| C08 | Bounded XSD integer types fit into their target integer types | partial | `C08_go_fits`, `C08_rust_fits_partial`, `C08_rust_byte_refuted`, `C08_java_signed_fits`, `C08_java_unsigned_refuted`, `C08_c_long_refuted`, `C08_exact_partial` |
| C09 | Union members are emitted in one order regardless of map iteration order | proved | `C09_union_order` |
| C10 | Schema documentation stays inside the generated comment | proved | `C10_comment_lines`, `C10_comment_stays`, `C10_carriage_return_refuted` |
| C11 | maxOccurs decides plurality exactly | proved | `C11_element_occurs`, `C11_choice_occurs` |
| C12 | Plurality is inherited from every enclosing choice | proved | `C12_choices_inherit` |
| C13 | Repeating an element inside a complex type merges it and never loses plurality | proved | `C13_element_in_complex`, `C13_joined_keeps` |
| C14 | An attribute is optional unless use="required" | proved | `C14_attribute_start`, `C14_attribute_start_total`, `C14_attribute_order` |
| C15 | Enumeration values are kept completely and in document order | proved | `C15_enumeration`, `C15_enumeration_total` |
| C16 | Parse terminates for every import/include graph | proved | `C16_terminates` |
| C17 | Extract mode has no side effects on files | proved | `C17_extract_no_effect` |
| C18 | A parse does not depend on stale per-document parser state | proved | `C18_no_stale_state`, `C18_output_independent`, `C18_stale_tree_refuted` |
| C19 | The first local schemaLocation for a namespace wins and URLs are never recorded | proved | `C19_locations`, `C19_import_tag`, `C19_attribute_order_refuted` |
| C20 | Parse does not panic on structurally valid schemas | proved | `C20_document_no_panic`, `C20_parse_no_panic` |
| C21 | Group nesting bookkeeping is consistent | proved | `C21_groups` |
| C22 | Parsing a schema yields exactly the components it declares | partial | `C22_tokens_partial`, `C22_parse_partial`, `C22_lost_type_refuted`, `C22_overwritten_member_refuted`, `C22_inline_simple_type_refuted`, `C22_leftover_element_refuted`, `C22_leaked_values_refuted`, `C22_nested_union_refuted`, `C22_foreign_documentation_refuted` |
| C23 | Malformed XML is reported | partial | `C23_truncation_unreported`, `C23_malformed_refuted` |
| C24 | A failing nested schema makes Parse fail | partial | `C24_member_partial`, `C24_missing_file_partial`, `C24_nested_error_refuted` |
| C25 | Parse only writes the generated file | proved | `C25_only_output`, `C25_output_written`, `C25_all_effects` |
| C26 | The output is placed inside OutputDir | partial | `C26_tool_inside_partial`, `C26_tool_outside_refuted`, `C26_walk_partial`, `C26_end_refuted`, `C26_output_inside_partial`, `C26_outside_refuted` |
| C27 | White space, comments and processing instructions never change the result | proved | `C27_spacing`, `C27_same_output` |
| C28 | The command line tool validates its flags and stops at the first failure | proved | `C28_help_version`, `C28_rejected`, `C28_missing_input`, `C28_files`, `C28_first_failure`, `C28_terminates`, `C28_no_panic`, `C28_arguments`, `C28_unknown_flag` |
| C29 | Concurrent parses do not influence each other's output | partial | `C29_interleaved_partial`, `C29_one_after_the_other_partial`, `C29_shared_name_refuted`, `C29_lost_number_refuted`, `C29_accesses_partial`, `C29_both_started_partial`, `C29_entries_are_accesses_partial`, `C29_zero_refuted`, `C29_both_numbered_refuted`, `C29_race_refuted` |
| C30 | Each component name is declared exactly once, first declaration wins, order is kept | proved | `C30_first_of_each_name`, `C30_every_tree`, `C30_repeated_ignored` |
| C31 | Different components get different identifiers | partial | `C31_distinct_names`, `C31_numbered_partial`, `C31_numbered_kinds`, `C31_number_clash_refuted`, `C31_not_numbered_refuted` |
| C32 | A reference to a type uses the identifier the type is declared with | partial | `C32_same_identifier_partial`, `C32_declared_and_referenced_partial`, `C32_number_refuted`, `C32_placeholder_refuted`, `C32_leading_hyphen_refuted` |
| C33 | Generated Go code imports exactly the packages it uses | partial | `C33_import_block`, `C33_no_unused_import`, `C33_time_imported_partial`, `C33_missing_import_refuted` |
| C34 | Plural elements become collections in every language | partial | `C34_elements_partial`, `C34_typescript_refuted`, `C34_c_refuted`, `C34_rust_optional` |
| C35 | Optional attributes are marked optional and required ones are not | partial | `C35_complex_attributes`, `C35_group_attributes_partial`, `C35_marker_distinguishes`, `C35_groups_refuted` |
| C36 | Rust field names are never Rust keywords | proved | `C36_rust_field_not_reserved` |
| C37 | Generated structures list exactly the members of the component | proved | `C37_outline`, `C37_go_columns` |
| C38 | Type resolution does not depend on the order in which included schemas are visited | partial | `C38_nested_partial`, `C38_values_partial`, `C38_direct_partial`, `C38_late_refuted`, `C38_include_order_partial`, `C38_include_order_refuted`, `C38_exact_partial` |
| C39 | TypeScript enumerations list all values | proved | `C39_typescript_enum`, `C39_every_tree` |
| C40 | Elements unknown to xgen are transparent | proved | `C40_foreign` |
| C41 | Output is prefixed by the generated-code marker and the requested package | proved | `C41_preamble`, `C41_failure`, `C41_unknown_language`, `C41_marker_and_package` |
| C42 | GetFileList lists every file below a directory | proved | `C42_file`, `C42_missing`, `C42_directory` |
| C43 | Generation never fails on or is stopped by odd proto trees | proved | `C43_only_create_fails`, `C43_nil_entries` |
| C44 | Type resolution in the proto tree finds the first matching declaration | proved | `C44_first_declaration` |
| C45 | xml:lang and friends resolve to strings | partial | `C45_xml_attributes_refuted`, `C45_ordinary_parse_refuted` |
| C46 | Text types become the string type of the target language | partial | `C46_text_types_partial`, `C46_exact_partial`, `C46_text_types_refuted` |
| C47 | An invalid maxOccurs stops the parse before anything is written for the document | proved | `C47_bad_occurs` |
| C48 | Type identifiers are the capitalised words of the XML name | proved | `C48_words`, `C48_declared` |
| C49 | A successful run of the tool leaves an output file for every schema file and changes nothing else | partial | `C49_outputs`, `C49_location_partial`, `C49_nothing_else`, `C49_unclean_input_refuted` |
| C50 | From schema files to programs | proved | `C50_parse`, `C50_outputs`, `C50_succeeds`, `C50_nothing_else` |
| C51 | Programs for a project of schemas that import and include each other | proved | `C51_parse`, `C51_tool`, `C51_directory`, `C51_prefix_refuted`, `C51_order_refuted`, `C51_own_names_refuted`, `C51_other_directory_refuted` |
| C52 | Every error has a cause in the document, a missing schema file or the output | proved | `C52_parse_error`, `C52_parse_exit`, `C52_tool` |
| C53 | Character data influences documentation only | proved | `C53_components`, `C53_declarations`, `C53_imports`, `C53_tool` |
| C54 | Generated text is local: later components and another order leave the text of a component as it is | proved | `C54_text_kept`, `C54_any_order`, `C54_new_name_refuted`, `C54_same_identifier_refuted` |
| C55 | Outputs of a run over a directory do not collide, and a run into a fresh directory delivers every program | proved | `C55_separate`, `C55_fresh_output` |
| C56 | The file system stays a tree, and nothing changes between file and directory | proved | `C56_tree_parse`, `C56_tree`, `C56_kinds` |
| C57 | Running the tool twice is running it once | proved | `C57_again`, `C57_list`, `C57_twice` |
| C58 | One message per run, and no silent success | proved | `C58_flags`, `C58_files`, `C58_no_silent_success` |
| C59 | Only the attributes a handler looks at matter | proved | `C59_attributes`, `C59_same_output`, `C59_all_needed`, `C59_order_needed` |
| C60 | Declared components stay | proved | `C60_components_stay`, `C60_longer_document` |
| C61 | Nothing is invented | proved | `C61_source`, `C61_one_per_end_tag` |
| C62 | Types come from the tables or from the schemas | proved | `C62_types`, `C62_alone` |
| C63 | A type derived from a built-in type is based on its target type | partial | `C63_settled`, `C63_table`, `C63_exact_partial`, `C63_ordinary_partial`, `C63_captured_refuted`, `C63_uri_refuted`, `C63_include_refuted` |
| C64 | Generated programs are syntactically well-formed | partial | `C64_program_partial`, `C64_file_partial`, `C64_names`, `C64_types_partial`, `C64_underscore_refuted`, `C64_empty_list_refuted`, `C64_array_refuted`, `C64_void_refuted`, `C64_self_refuted`, `C64_value_refuted` |
| C65 | A complex type lists a group once and an element once per type | partial | `C65_groups`, `C65_told_apart_partial`, `C65_unique_partial`, `C65_types_refuted`, `C65_inline_refuted`, `C65_group_refuted` |
| C66 | Every type used in a generated program is declared | partial | `C66_closed_partial`, `C66_file_partial`, `C66_undeclared_refuted`, `C66_bool_refuted`, `C66_attributes_refuted`, `C66_hidden_refuted` |
| C67 | Components do not depend on the target language but for types | partial | `C67_components_partial`, `C67_failures_partial`, `C67_repeated_refuted`, `C67_include_refuted` |
| C68 | Ordinary schemas give well-formed programs that declare the types they use | partial | `C68_components`, `C68_tool_partial`, `C68_closed_partial`, `C68_undeclared_refuted`, `C68_project_components`, `C68_project_partial`, `C68_project_closed_partial` |
| C69 | The members of a generated structure have different names | partial | `C69_fields_partial`, `C69_unique_partial`, `C69_file_partial`, `C69_names`, `C69_attribute_refuted`, `C69_suffix_refuted`, `C69_hyphen_refuted`, `C69_value_refuted`, `C69_content_refuted`, `C69_case_refuted` |
| C70 | Types are declared before they are used | partial | `C70_ordered_partial`, `C70_file_partial`, `C70_later_refuted`, `C70_recursive_refuted`, `C70_extends_refuted`, `C70_same_refuted`, `C70_target_refuted` |
| C71 | The XML names of attributes and elements can be read back from the program | partial | `C71_names_partial`, `C71_determined_partial`, `C71_file_partial`, `C71_rust_refuted`, `C71_names_refuted`, `C71_group_refuted`, `C71_union_refuted`, `C71_tool_partial`, `C71_project_partial` |
| C72 | Namespace prefixes of references do not matter in a document that needs no other | partial | `C72_components_partial`, `C72_files_partial`, `C72_failures_partial`, `C72_ref_refuted`, `C72_base_refuted`, `C72_nameless_refuted`, `C72_import_refuted`, `C72_tool_partial` |
| C73 | Schemas that need no others do not influence each other | partial | `C73_alone_partial`, `C73_failed_partial`, `C73_import_refuted` |
| C74 | Only files with the extension of the target language are overwritten | proved | `C74_parse`, `C74_tool`, `C74_safe`, `C74_schema_names`, `C74_languages`, `C74_overwritten_refuted` |
| C75 | Reading a document for its types finds the components that parsing it finds | partial | `C75_same_partial`, `C75_untyped_refuted`, `C75_include_refuted` |

## 4. Findings

Behaviour of the code that the proofs forced into the open. Each is stated as a
refutation or visible in the specification.

Parsing
* Decoder errors end the token loop silently (C23). Errors of nested schemas
  are swallowed (C24).
* A top-level element without a type is pushed twice on the Element stack; a
  later simple type with a facet then disappears (C22_lost_type_refuted).
* EndRestriction of an inline attribute type overwrites the last element of the
  complex type (C22_overwritten_member_refuted).
* An inline simple type without facets in a local element pops the enclosing
  complex type early (C22_inline_simple_type_refuted).
- A local element with an inline simple type stays on the element stack: a later simple type with a facet disappears
  (C22_leftover_element_refuted). The documentation of a complex type goes to an earlier element without a type
  (C22_foreign_documentation_refuted). The values of an inline enumeration end up in a later simple type
  (C22_leaked_values_refuted).
- A union inside a union forgets the outer members, and the outer type is recorded at the end of the inner one
  (C22_nested_union_refuted).
* A group with an inline complex type or simple type is never emitted.
* An attributeGroup reference inside a top-level attributeGroup is declared as
  its own component.
* Documentation goes to the wrong place: that of a local element overwrites the
  complex type's, that of an attribute inside an attribute group goes to the
  group, that of a complex type inside a top-level element goes to the element,
  enumeration documentation overwrites that of the simple type.
* The plurality of a choice leaks into anonymous complex types nested in it.
* OnRestriction and OnExtension resolve the base twice.
* An import whose schemaLocation precedes namespace is recorded for the wrong
  namespace (C19_attribute_order_refuted).
* Locations are shared by all nested parses: a relative location given by the
  root is used unchanged by a schema in another directory
  (C51_other_directory_refuted).
- When a schema that others import is parsed as the root, its own names are looked up in it only after one of the others
  has been parsed (C51_own_names_refuted).
* The result depends on the iteration order of IncludeMap when two included
  schemas declare the same name (C38_include_order_refuted), and when only a schema
  that an included schema includes declares it: the loop adds to the map it walks over
  (C38_late_refuted).
* xml:lang and friends lose their prefix before the table lookup and resolve to
  "lang", "space", "base", "id" (C45).
* The Optional field of an element is never set.
* The namespace of an attribute is not looked at: ecore:name renames an element
  (C59_example). An element with an attribute ref takes its name from whichever
  of ref and name comes last (C59_order_needed).

Generation
* Identifiers can clash: item, Item and Item2 (C31); elements in Go, C and Rust
  and attributes in Rust do not use the counter at all. References do not
  follow the numbers (C32_number_refuted).
* genGoFieldName and genGoFieldType disagree on a leading '-' or '.' (C32).
* A Go list of a non-built-in type becomes `[]**Foo`.
* Go imports are missing for aliases of time.Time and for xml.Name (C33).
* TypeScript: plural built-in types are not arrays; "any" and "Any" are the
  same type; enumerations are not recorded in StructAST, so they repeat.
* C: plural array types lose a dimension; simple types and attributes use the
  unnumbered name in the typedef.
* Rust: RustGroup uses the plurality of the group for its members; a required
  attribute of a group becomes Vec<T>; RustElement and RustAttribute declare a
  struct with a snake-case name.
* Java: JavaAttributeGroup appends "Attr" to the type instead of the name.
* A lone CR, U+2028 and U+2029 in documentation end a comment in Java and
  TypeScript (C10_carriage_return_refuted).
* An attribute and an element of one name give two fields of one name in Rust, as
  does an attribute named value beside simple content (C69).
* C programs keep the order of the schema: a type may be used before its definition,
  and recursive types contain themselves (C70).
* Rust structures do not tell attributes from elements, and all members of a Rust union
  are called like the union (C71).
* The prefix of a ref, and that of the base of a simple type without a name, become a
  part of the name of the component (C72). The prefixes bound in an imported schema
  replace those of the importing one (C72).
* Extract mode, which is used for included schemas, does not follow their own includes,
  and returns an empty type for a reference to an attribute without a type (C75).
* The program of an imported schema is also written to a path that has the input
  directory in it, and can replace the program of another schema there (C73).
* Rust byte is u8, Java unsigned types are too small, C long is int (C08); Rust
  date and dateTime are u8, Java anyURI is QName (C46).

Runs
* fieldNameCount is a global map, replaced at each start of a generator (C29).
* Nested schemas are written to Join(OutputDir, FilePath) with package
  "schema", whatever -p says.
* A single file as input is written to OutputDir plus the extension.
* "./in" and "in" as -i lead to different outputs (C49).
* path traversal: a schemaLocation with '..' makes the tool write outside -o, as
  does an unclean -i (C26_tool_outside_refuted).
* An output file of a nested schema that cannot be made is not an error, a
  directory of it that cannot be made ends the process (C52_example).
* Positional arguments are ignored; an unknown Lang is not an error of Parse.
* GetFileList lists the directory itself twice.
* With -i "." the program for a hidden file .x.xsd goes to the output of x.xsd; a
  file named a.h and a file named a share one C header; a directory named with
  the extension of the output makes the run fail (C55).
* With one directory for input and output the second run of the C generator
  overwrites every header with an empty one (C57_in_place_refuted).

## 5. Mutation tests

`seeded/LOG.jsonl` has one line per wrong program: the definition edited in a
scratch copy, the claim it should break, the proofs that failed, the property
theorems that rest on them, and the theorems added or tightened if the first
attempt went unnoticed.
