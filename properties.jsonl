{"id": "C01", "title": "FileWithExtension yields a file name carrying the extension exactly once", "statement": "For every file name and extension, CodeGenerator.FileWithExtension returns a name that starts with the configured file name and ends with the dotted extension; it is the unchanged file name iff that already ends with the dotted extension; giving the extension with or without the leading dot makes no difference; applying it again changes nothing.", "quantifier": "every file name string and every extension string", "why_tests_cant": "four table cases cannot cover names that contain, repeat or partially overlap the extension", "anchors": ["genGo.go:FileWithExtension"]}
{"id": "C02", "title": "ToTitle upper-cases the first rune and nothing else", "statement": "ToTitle / MakeFirstUpperCase maps the first rune through unicode.ToUpper and leaves every later rune as it was; well-formed UTF-8 that starts with an ASCII letter keeps all its other bytes; it is idempotent; the empty string is preserved.", "quantifier": "every byte string, every Unicode case table that is idempotent on its image", "why_tests_cant": "strings are unbounded and the interesting cases (multi-byte, ill-formed UTF-8) are exactly the ones a table of samples misses", "anchors": ["utils.go:ToTitle", "utils.go:MakeFirstUpperCase"]}
{"id": "C03", "title": "ToSnakeCase produces lower-case, hyphen-free names and only inserts separators", "statement": "ToSnakeCase output contains no ASCII upper-case letter and no '-'; erasing the separators '_' and '-' from the input and lower-casing gives the same string as erasing '_' from the output; it is idempotent.", "quantifier": "every ASCII string for the exact characterisation, every byte string for the absence of '-' and capitals", "why_tests_cant": "the two regular expressions interact over unbounded overlapping contexts", "anchors": ["utils.go:ToSnakeCase", "utils.go:matchFirstCap", "utils.go:matchAllCap"]}
{"id": "C04", "title": "Stack is a LIFO stack", "statement": "Any sequence of Push, Pop, Peek, Len and Empty on a stack from NewStack returns exactly what a mathematical LIFO sequence returns; Pop and Peek on an empty stack return nil and change nothing.", "quantifier": "every finite history of stack operations", "why_tests_cant": "histories are unbounded", "anchors": ["stack.go:NewStack", "stack.go:Push", "stack.go:Pop", "stack.go:Peek", "stack.go:Len", "stack.go:Empty"]}
{"id": "C05", "title": "A qualified name is split into namespace prefix and local name without loss", "statement": "For a name with exactly one ':' the prefix and the local part used for type resolution recombine to the name and contain no ':'; for any other name the prefix is empty and the local part is the whole name.", "quantifier": "every string", "why_tests_cant": "strings are unbounded", "anchors": ["utils.go:getNSPrefix", "utils.go:trimNSPrefix"]}
{"id": "C06", "title": "Every XSD built-in type has a target type in every supported language", "statement": "For every built-in type name in BuildInTypes and each of Go, TypeScript, C, Java and Rust, GetValueType returns the table's non-empty entry for that language without error, without reading or writing any file and without changing any parser map, whatever the proto tree contains and whatever namespace prefix the name carries; a document cannot redefine a built-in name.", "quantifier": "every built-in name, every language, every prefix without ':', every proto tree, every file-system state", "why_tests_cant": "the claim ranges over all trees, prefixes and world states, not over the 50 names only", "anchors": ["utils.go:BuildInTypes", "utils.go:getBuildInTypeByLang", "parser.go:GetValueType"]}
{"id": "C07", "title": "Built-in target types reach the generated code unchanged", "statement": "The type that GetValueType returns for an XSD built-in in a language is rendered verbatim by that language's field-type renderer (it is never capitalised, prefixed with a pointer star or otherwise renamed).", "quantifier": "every built-in name and every supported language", "why_tests_cant": "a test compares a handful of types; the claim is about the whole product of two tables kept in different files", "anchors": ["utils.go:BuildInTypes", "genGo.go:genGoFieldType", "genC.go:genCFieldType", "genJava.go:genJavaFieldType", "genRust.go:genRustFieldType", "genTypeScript.go:genTypeScriptFieldType"]}
{"id": "C08", "title": "Bounded XSD integer types fit into their target integer types", "statement": "Every value of an XSD integer type with a finite range is representable in the fixed-width integer type the generated code uses for it.", "quantifier": "every finite-range XSD integer type, every value in its range, languages with fixed-width targets (Go, Rust)", "why_tests_cant": "quantifies over all values of the types", "anchors": ["utils.go:BuildInTypes"]}
{"id": "C09", "title": "Union members are emitted in one order regardless of map iteration order", "statement": "The member list that the generators emit for a union is a permutation of the member map, sorted by type and then by descending member name, and is the same list for every iteration order of the Go map and every correct sorting algorithm.", "quantifier": "every member map, every iteration order of the map, every sorting algorithm", "why_tests_cant": "Go randomises map iteration; a test run sees one order", "anchors": ["utils.go:toSortedPairs", "utils.go:kvPairList.Less"]}
{"id": "C10", "title": "Schema documentation stays inside the generated comment", "statement": "Whatever the documentation text is, every line of the generated doc comment (lines separated by LF) starts with the comment prefix, so documentation can never become code.", "quantifier": "every documentation string, every identifier without line breaks, every comment prefix", "why_tests_cant": "documentation is arbitrary text", "anchors": ["utils.go:genFieldComment"]}
{"id": "C11", "title": "maxOccurs decides plurality exactly", "statement": "Parsing an element or choice start tag with a maxOccurs value marks it plural iff the value is 'unbounded' or a decimal integer greater than 1, and fails iff the value is neither 'unbounded' nor a decimal int64.", "quantifier": "every maxOccurs attribute value string", "why_tests_cant": "values are arbitrary strings", "anchors": ["xmlElement.go:OnElement", "xmlChoice.go:OnChoice"]}
{"id": "C12", "title": "Plurality is inherited from every enclosing choice", "statement": "At every point of a document, the parser's current choice is plural iff some currently open choice element carries a plural maxOccurs, and an element that starts there is recorded plural if so, however deep choices are nested.", "quantifier": "every token stream with well-nested choice tags, every nesting depth", "why_tests_cant": "nesting depth and position are unbounded", "anchors": ["xmlChoice.go:OnChoice", "xmlChoice.go:EndChoice", "xmlElement.go:OnElement"]}
{"id": "C13", "title": "Repeating an element inside a complex type merges it and never loses plurality", "statement": "When an element starts inside a complex type, the type's element list either keeps its names and order with exactly the first same-named entry's plurality or-ed (same type) or grows by exactly that element at the end; no other entry changes and no entry becomes less plural.", "quantifier": "every parser state with an open complex type, every element start tag", "why_tests_cant": "element lists and contents are unbounded", "anchors": ["xmlElement.go:OnElement", "xmlElement.go:findElement"]}
{"id": "C14", "title": "An attribute is optional unless use=\"required\"", "statement": "An attribute start tag records an attribute that is optional iff no use attribute has the value 'required', with the given name and resolved type, whatever the order of the XML attributes when their kinds are distinct.", "quantifier": "every list of XML attributes", "why_tests_cant": "attribute lists are unbounded and their order is free", "anchors": ["xmlAttribute.go:OnAttribute"]}
{"id": "C15", "title": "Enumeration values are kept completely and in document order", "statement": "Processing any sequence of enumeration elements inside a simple type appends exactly their values in document order to that type's enumeration and leaves every other simple-type field alone.", "quantifier": "every finite sequence of enumeration elements, every prior state with an open simple type", "why_tests_cant": "sequences are unbounded", "anchors": ["xmlEnumeration.go:OnEnumeration", "xmlEnumeration.go:EndEnumeration"]}
{"id": "C16", "title": "Parse terminates for every import/include graph", "statement": "For every finite file system, Parse (including the nested parses it starts for imported and included schemas, cyclic or self-importing ones too) finishes after finitely many steps for every map iteration order; the depth of nested parses is bounded by the number of existing files that have not been parsed yet.", "quantifier": "every finite file system, every file contents, every import/include graph, every map iteration order, every I/O failure pattern", "why_tests_cant": "a test can only try a few graphs and cannot observe non-termination in general", "anchors": ["parser.go:Parse", "parser.go:GetValueType"]}
{"id": "C17", "title": "Extract mode has no side effects on files", "statement": "Parse with Extract=true never creates, modifies or deletes a file or directory, never records anything in ParseFileList or ParseFileMap and never starts a nested parse, whatever the document contains.", "quantifier": "every document, every world state", "why_tests_cant": "documents are unbounded", "anchors": ["parser.go:Parse", "parser.go:GetValueType"]}
{"id": "C18", "title": "A parse does not depend on stale per-document parser state", "statement": "The result of Parse does not depend on the values that InElement, CurrentEle, InGroup, InUnion, InAttributeGroup and the seven stacks had before the call; and a sequential Parse does not depend on identifiers generated by an earlier one (the global identifier counter is reset).", "quantifier": "every prior state (hence every history of earlier calls)", "why_tests_cant": "histories are unbounded", "anchors": ["parser.go:Parse", "utils.go:fieldNameCount", "genGo.go:GenGo", "genC.go:GenC", "genJava.go:GenJava", "genRust.go:GenRust", "genTypeScript.go:GenTypeScript"]}
{"id": "C19", "title": "The first local schemaLocation for a namespace wins and URLs are never recorded", "statement": "During any parse, an entry of NSSchemaLocationMap, once present, is never changed or removed, and no entry whose value is a URL is ever added; IncludeMap entries are never removed.", "quantifier": "every document, every history of nested parses", "why_tests_cant": "it is an invariant over all executions", "anchors": ["schema.go:prepareNSSchemaLocationMap", "xmlImport.go:OnImport", "xmlInclude.go:OnInclude"]}
{"id": "C20", "title": "Parse does not panic on structurally valid schemas", "statement": "Parse never panics on a document in which every complexType either is named and not nested inside another complexType, or directly follows (apart from annotations and text) the start of an element that has neither type nor ref, and which has no element called charData.", "quantifier": "every token stream with that shape, of any length and depth", "why_tests_cant": "documents are unbounded; panics hide in rare stack states", "anchors": ["xmlComplexType.go:OnComplexType", "xmlGroup.go:OnGroup", "utils.go:callFuncByName"]}
{"id": "C21", "title": "Group nesting bookkeeping is consistent", "statement": "In every reachable parser state InGroup is never negative and is positive iff exactly one group is open on the group stack, so a nested group always finds its parent.", "quantifier": "every token stream, including ill-formed ones", "why_tests_cant": "an invariant over all executions", "anchors": ["xmlGroup.go:OnGroup", "xmlGroup.go:EndGroup"]}
{"id": "C22", "title": "Parsing a schema yields exactly the components it declares", "statement": "For every schema built from top-level simple types (restriction, list, union), complex types (attributes, attribute groups, group references, sequences, all, nested choices, local elements (typed, without a type, or with an inline restricted type), anonymous local complex types, extension bases), top-level elements (typed, without a type, with an inline restricted type, with an anonymous complex type), attributes, groups and attribute groups, the proto tree after Parse is exactly the declared list of components with their names, order, members, resolved types, optionality and plurality.", "quantifier": "every schema of the grammar, of any size and nesting depth, in every supported language", "why_tests_cant": "the grammar is infinite", "anchors": ["parser.go:Parse", "xmlComplexType.go", "xmlElement.go", "xmlSimpleType.go", "xmlRestriction.go", "xmlAttribute.go", "xmlAttributeGroup.go", "xmlGroup.go", "xmlChoice.go", "xmlExtension.go", "xmlList.go", "xmlUnion.go"]}
{"id": "C23", "title": "Malformed XML is reported", "statement": "When the XML decoder stops with an error before the end of the document, Parse returns an error.", "quantifier": "every document", "why_tests_cant": "every possible truncation point would have to be tried", "anchors": ["parser.go:Parse"]}
{"id": "C24", "title": "A failing nested schema makes Parse fail", "statement": "If a schema that is needed to resolve a type cannot be found or cannot be parsed, Parse returns an error.", "quantifier": "every document and import graph", "why_tests_cant": "failure points are unbounded", "anchors": ["parser.go:GetValueType"]}
{"id": "C25", "title": "Parse only writes the generated file", "statement": "For a schema that needs no other schema, Parse with Extract=false leaves every regular file other than OutputDir/<FilePath minus InputDir>.<ext> exactly as it was, never removes anything and creates only directories that lead to that file; and if it returns nil for a supported language the file exists and holds exactly the generated text.", "quantifier": "every document without import/include, every file-system state, every Options value", "why_tests_cant": "frame conditions quantify over all other paths", "anchors": ["parser.go:Parse", "utils.go:PrepareOutputDir", "genGo.go:GenGo"]}
{"id": "C26", "title": "The output is placed inside OutputDir", "statement": "The file Parse generates lies below OutputDir.", "quantifier": "every FilePath, InputDir and OutputDir", "why_tests_cant": "paths are arbitrary strings", "anchors": ["parser.go:Parse"]}
{"id": "C27", "title": "White space, comments and processing instructions never change the result", "statement": "Inserting or removing white-space-only character data, comments, processing instructions or directives anywhere in a document changes neither the resulting components nor the generated file nor the error status.", "quantifier": "every token stream, every set of insertion points", "why_tests_cant": "insertion points are unbounded", "anchors": ["parser.go:Parse", "xmlCharData.go:OnCharData"]}
{"id": "C28", "title": "The command line tool validates its flags and stops at the first failure", "statement": "xgen exits 0 for -h/-v without touching files, exits 1 without touching files when -i or -l is missing or the language is unsupported, and otherwise processes the files in list order, exiting 1 after the first file whose parse fails without touching later ones, and printing done only if all succeeded.", "quantifier": "every combination of flag values, every file list, every failing position", "why_tests_cant": "the product of flag values and failure positions is unbounded", "anchors": ["cmd/xgen/xgen.go:parseFlags", "cmd/xgen/xgen.go:main", "utils.go:GetFileList"]}
{"id": "C29", "title": "Concurrent parses do not influence each other's output", "statement": "Two Parse calls on independent Options running concurrently produce the same files as running them one after the other.", "quantifier": "every pair of schemas, every interleaving", "why_tests_cant": "schedules are unbounded and data races are invisible to most runs", "anchors": ["utils.go:fieldNameCount", "genGo.go:genGoFieldName"]}
{"id": "C30", "title": "Each component name is declared exactly once, first declaration wins, order is kept", "statement": "For every proto tree and language, the generated declarations are those of the first component of each name, in tree order; later components with an already declared name contribute nothing (TypeScript enumerations excepted); every named component's name is declared.", "quantifier": "every proto tree, every language", "why_tests_cant": "trees are unbounded", "anchors": ["genGo.go", "genC.go", "genJava.go", "genRust.go", "genTypeScript.go"]}
{"id": "C31", "title": "Different components get different identifiers", "statement": "The identifiers declared by the generated code are pairwise different.", "quantifier": "every proto tree, every language", "why_tests_cant": "name collisions come from unbounded combinations", "anchors": ["genGo.go:genGoFieldName", "genC.go:genCFieldName", "genJava.go:genJavaFieldName", "genRust.go:genRustStructName", "genTypeScript.go:genTypeScriptFieldName"]}
{"id": "C32", "title": "A reference to a type uses the identifier the type is declared with", "statement": "For every type name without ':' that does not begin with '.' or '-' and is no built-in of the language, the identifier rendered in a reference to the type equals the identifier rendered in its (first) declaration, up to the pointer star in Go.", "quantifier": "every name, every language", "why_tests_cant": "names are arbitrary strings and the two renderers are separate code", "anchors": ["genGo.go:genGoFieldName", "genGo.go:genGoFieldType", "genC.go:genCFieldType", "genJava.go:genJavaFieldType", "genRust.go:genRustFieldType", "genTypeScript.go:genTypeScriptFieldType"]}
{"id": "C33", "title": "Generated Go code imports exactly the packages it uses", "statement": "GenGo requests the import of time (encoding/xml) only if the generated declarations mention time.Time (xml.Name), and whenever they do.", "quantifier": "every proto tree", "why_tests_cant": "trees are unbounded", "anchors": ["genGo.go:GenGo", "genGo.go:GoComplexType", "genGo.go:GoSimpleType"]}
{"id": "C34", "title": "Plural elements become collections in every language", "statement": "A plural element of a complex type is rendered with a collection type ([]T in Go, T name[] in C, List<T> in Java, Vec<T> in Rust, Array<T> in TypeScript) and a singular one with the plain type.", "quantifier": "every complex type, every element in it, every language", "why_tests_cant": "trees are unbounded", "anchors": ["genGo.go:GoComplexType", "genC.go:CComplexType", "genJava.go:JavaComplexType", "genRust.go:RustComplexType", "genTypeScript.go:TypeScriptComplexType"]}
{"id": "C35", "title": "Optional attributes are marked optional and required ones are not", "statement": "In every language an attribute of a complex type or attribute group is rendered with the language's optional marker iff the attribute is optional, and with the attribute's own type.", "quantifier": "every complex type and attribute group, every attribute, every language", "why_tests_cant": "trees are unbounded", "anchors": ["genGo.go", "genC.go", "genJava.go", "genRust.go", "genTypeScript.go"]}
{"id": "C36", "title": "Rust field names are never Rust keywords", "statement": "The field name generated for any XML name is not a reserved word of Rust.", "quantifier": "every name string", "why_tests_cant": "names are arbitrary strings", "anchors": ["genRust.go:genRustFieldName", "genRust.go:rustKeywords"]}
{"id": "C37", "title": "Generated structures list exactly the members of the component", "statement": "Reading the generated structure text of a complex type back (field identifier, field type, XML tag) gives exactly: attribute groups, attributes, groups, elements and base of the component, in that order, each with its XML name and type; nothing is dropped, duplicated or merged. Likewise for groups and attribute groups, in every language.", "quantifier": "every component whose names and types contain no layout characters, every language", "why_tests_cant": "components are unbounded", "anchors": ["genGo.go:GoComplexType", "genC.go:CComplexType", "genJava.go:JavaComplexType", "genRust.go:RustComplexType", "genTypeScript.go:TypeScriptComplexType"]}
{"id": "C38", "title": "Type resolution does not depend on the order in which included schemas are visited", "statement": "The type that GetValueType finds in the included schemas is the same for every iteration order of the include map.", "quantifier": "every set of included schemas, every iteration order", "why_tests_cant": "Go randomises map iteration; a test run sees one order", "anchors": ["parser.go:GetValueType"]}
{"id": "C39", "title": "TypeScript enumerations list all values", "statement": "For a non-union, non-list simple type with enumeration values, TypeScript output is an enum with one member per value, in order, whose right-hand side is the value (quoted unless the base type is number).", "quantifier": "every enumeration list, every base type", "why_tests_cant": "lists are unbounded", "anchors": ["genTypeScript.go:TypeScriptSimpleType"]}
{"id": "C40", "title": "Elements unknown to xgen are transparent", "statement": "Start and end tags of XML elements for which xgen has no handler (sequence, all, annotation, documentation, appinfo, any, simpleContent, ...) can be added anywhere inside the schema element without changing the resulting components or error status.", "quantifier": "every token stream, every set of insertion points, every handler-less name", "why_tests_cant": "streams are unbounded", "anchors": ["parser.go:Parse", "utils.go:callFuncByName"]}
{"id": "C41", "title": "Output is prefixed by the generated-code marker and the requested package", "statement": "On success every generated file starts with the 'Code generated by xgen. DO NOT EDIT.' marker (for Go: the text handed to gofmt does) and Go and Java files declare the requested package, 'schema' if none was given.", "quantifier": "every proto tree, package name and language", "why_tests_cant": "trees are unbounded", "anchors": ["genGo.go:GenGo", "genJava.go:GenJava", "genC.go:GenC", "genRust.go:GenRust", "genTypeScript.go:GenTypeScript"]}
{"id": "C42", "title": "GetFileList lists every file below a directory", "statement": "For a regular file GetFileList returns exactly that path; for a directory it returns every existing path below it exactly once; for a missing path it fails.", "quantifier": "every file-system state, every path", "why_tests_cant": "directory trees are unbounded", "anchors": ["utils.go:GetFileList"]}
{"id": "C43", "title": "Generation never fails on or is stopped by odd proto trees", "statement": "For every proto tree, including trees with nil entries, the generators for C, Java, Rust and TypeScript process every entry and fail only if the output file cannot be created; nil entries contribute nothing.", "quantifier": "every proto tree", "why_tests_cant": "trees are unbounded", "anchors": ["genGo.go:GenGo", "genC.go:GenC", "genJava.go:GenJava", "genRust.go:GenRust", "genTypeScript.go:GenTypeScript"]}
{"id": "C44", "title": "Type resolution in the proto tree finds the first matching declaration", "statement": "Resolving a name against a proto tree returns the base/type of the first simple type (neither list nor union), attribute or element with that name and the name itself if there is none; complex types, groups and attribute groups never capture a name; appending declarations never changes an already resolved name.", "quantifier": "every name, every proto tree", "why_tests_cant": "trees are unbounded", "anchors": ["utils.go:getBasefromSimpleType"]}
{"id": "C45", "title": "xml:lang and friends resolve to strings", "statement": "A reference to xml:lang, xml:space, xml:base or xml:id resolves to the string type of the target language.", "quantifier": "every language, every proto tree", "why_tests_cant": "claim about the combination of prefix trimming and table for all trees", "anchors": ["utils.go:BuildInTypes", "parser.go:GetValueType"]}
{"id": "C46", "title": "Text types become the string type of the target language", "statement": "Every text-valued XSD built-in type (string, token, date, anyURI, ...) is mapped to the target language's string type (string, string, char, String, String).", "quantifier": "every text-valued built-in type, every supported language", "why_tests_cant": "The tests only cover the types that occur in the fixtures; a wrong table entry for any other type goes unnoticed.", "anchors": ["utils.go:BuildInTypes"]}
{"id": "C47", "title": "An invalid maxOccurs stops the parse before anything is written for the document", "statement": "A document with an element or choice whose maxOccurs is neither 'unbounded' nor a decimal int64 never parses successfully, and Parse writes nothing for it (only nested parses of other, not yet parsed files may have written their own output).", "quantifier": "every document with such a tag anywhere, every world, every Options value", "why_tests_cant": "the tag can be anywhere in an unbounded document and the frame condition ranges over all paths", "anchors": ["xmlElement.go:OnElement", "xmlChoice.go:OnChoice", "parser.go:Parse"]}
{"id": "C48", "title": "Type identifiers are the capitalised words of the XML name", "statement": "The identifier that a type is declared with is the name split at ':' and '.', each part with its first letter in upper case, joined, without '-' (and without '_' in Go and Rust).", "quantifier": "every well-formed UTF-8 name, every language", "why_tests_cant": "names are arbitrary strings", "anchors": ["utils.go:MakeFirstUpperCase", "genGo.go:genGoFieldName", "genC.go:genCFieldName", "genJava.go:genJavaFieldName", "genRust.go:genRustStructName", "genTypeScript.go:genTypeScriptFieldName"]}
{"id": "C49", "title": "A successful run of the tool leaves an output file for every schema file and changes nothing else", "statement": "If xgen exits 0 with 'done', every regular file that was listed has an output file under the output directory, at its path relative to the input directory with the language's extension; however the run ends, only output files (of listed files and of schemas they refer to) and the directories above them change.", "quantifier": "every flag combination, every file-system state", "why_tests_cant": "directory trees are unbounded and the frame condition ranges over all paths", "anchors": ["cmd/xgen/xgen.go:main", "parser.go:Parse", "utils.go:GetFileList"]}
{"id": "C50", "title": "From schema files to programs", "statement": "Running xgen over a directory of schema files that import and include nothing, written in the supported grammar, with separate output locations, leaves for every schema file an output file whose text is the program for exactly the components that the schema declares; the run succeeds whenever the output files can be created and gofmt accepts the programs; no other file changes.", "quantifier": "every schema of the grammar (any size and depth), every directory tree, every target language, every file-system state", "why_tests_cant": "the composition of directory walk, parser, and generator over all schemas and all directory trees is unbounded", "anchors": ["cmd/xgen/xgen.go:main", "parser.go:Parse", "genGo.go:GenGo", "utils.go:PrepareOutputDir"]}
{"id": "C51", "title": "Programs for a project of schemas that import and include each other", "statement": "If all schemas of a project use the same prefixes for the same namespaces and give the same locations for namespaces, and references go down or back to a schema that all references come through (of which only what it declares on its own is then known), parsing the root succeeds: its components are those obtained by resolving every name first among the built-in types, then in the schema itself, then in the schema that owns the namespace of its prefix, then in the included schemas; every schema that a component depends on gets its own program as its output, and nothing else is written. The order in which included schemas are visited does not matter. A run of the tool on a directory in which every schema is the root of such a project succeeds and leaves exactly the programs of the roots and of the schemas they need.", "quantifier": "every project of schemas of the grammar, of any size and import depth, every target language, every file-system state, every map iteration order", "why_tests_cant": "import graphs, schema sizes and map iteration orders are unbounded; nested parses share mutable maps with the outer parse", "anchors": ["parser.go:GetValueType", "parser.go:Parse", "xmlImport.go:OnImport", "xmlInclude.go:OnInclude", "xmlSchema.go:OnSchema"]}
{"id": "C52", "title": "Every error has a cause in the document, a missing schema file or the output", "statement": "Whenever Parse returns an error, it is the error of examining or opening its own file, of a maxOccurs value in its own document that is no number, of a schema file that does not exist and that a reference of its own document needs, of creating its own output file, or of gofmt rejecting the program for its own components after it was written; an error of a nested parse is never returned. Parse ends the process only if a directory for its own output or for that of a schema it refers to cannot be made. The tool with acceptable flags exits with 1 only if the input does not exist or the first file that fails has such a cause.", "quantifier": "every document, file-system state, import graph, environment fault, target language and run of the tool", "why_tests_cant": "it excludes every other error over unboundedly many documents, import graphs and I/O faults; tests only see the faults they inject", "anchors": ["parser.go:Parse", "parser.go:GetValueType", "cmd/xgen/xgen.go:main"]}
{"id": "C53", "title": "Character data influences documentation only", "statement": "Two schemas that differ only in character data, comments, processing instructions and directives (added, removed or changed anywhere) are parsed into the same components up to the documentation strings, with the same errors and crashes; only gofmt may reject the one program and not the other. Components that differ in documentation only give programs with the same declarations and members that differ in comments only, and Go programs with the same imports.", "quantifier": "every document in extract mode, every schema without imports and includes otherwise; every file system, environment and target language; every tree of components", "why_tests_cant": "character data may stand between any two tags and be arbitrary text; tests only try a few places and texts", "anchors": ["parser.go:Parse", "xmlCharData.go:OnCharData", "genGo.go:GenGo"]}
{"id": "C54", "title": "Generated text is local: later components and another order leave the text of a component as it is", "statement": "Components that are appended to the tree and give no new name a simple type leave the generated text as it is and append theirs. If no two components have names that become one identifier, every component has a text of its own, and for every order of the components the generated text is the concatenation of these texts in that order. Neither holds without these conditions.", "quantifier": "every tree of components, every permutation, every target language", "why_tests_cant": "it compares the outputs for all extensions and all permutations of all trees", "anchors": ["genGo.go:GenGo", "genC.go:GenC", "genJava.go:GenJava", "genRust.go:GenRust", "genTypeScript.go:GenTypeScript", "utils.go:getBasefromSimpleType"]}
{"id": "C55", "title": "Outputs of a run over a directory do not collide, and a run into a fresh directory delivers every program", "statement": "The tool run over a directory, given by a clean path with or without a trailing slash (but not \".\"), with an output directory: if no directory or file name in the paths of the listed files ends with the extension of the target language, then no output is one of the inputs, no two files have one output, and no output lies where a directory is needed for another. If moreover all listed files are schemas of the grammar, no file system operation fails for a reason of its own and the output directory is empty or can be made, then the tool exits with 0 and every schema file has the program for its components as its output, unless gofmt rejects a program. Each of the conditions on the names is needed: for the input \".\" a hidden file and its namesake share one output, a file named with the extension shares the output of another file, and a directory named with the extension makes the run fail.", "quantifier": "every tree of files and directories, every input and output directory, every target language, every choice of generated text", "why_tests_cant": "it speaks about all trees of file names; collisions only show for particular pairs of names", "anchors": ["parser.go:Parse", "utils.go:FileWithExtension", "utils.go:PrepareOutputDir", "utils.go:GetFileList", "cmd/xgen/xgen.go:main"]}
{"id": "C56", "title": "The file system stays a tree, and nothing changes between file and directory", "statement": "If every name occurs once in the file system and lies below directories only, then this holds after Parse and after the tool, however they end. Every directory is a directory afterwards and every file is a file.", "quantifier": "every file system, every command line, all options of Parse, every failure of a file system operation", "why_tests_cant": "it covers all ends of all runs, with failures at any point", "anchors": ["utils.go:PrepareOutputDir", "parser.go:Parse", "cmd/xgen/xgen.go:main", "genGo.go:GenGo", "genC.go:GenC", "genJava.go:GenJava", "genRust.go:GenRust", "genTypeScript.go:GenTypeScript"]}
{"id": "C57", "title": "Running the tool twice is running it once", "statement": "After a successful run of the tool over a readable directory of schema files of the grammar, into an output directory apart from the input directory (no path inside the input directory is the output directory, above it or inside it), with names as in C55: the list of input files is unchanged, and a second run with the same options exits with 0 and leaves every file and directory as it is. If the outputs go into the input directory this fails: the second run of the generator for C overwrites every header with an empty one.", "quantifier": "every tree of files and directories, every input and output directory apart from each other, every target language, all map iteration orders and counters of both runs", "why_tests_cant": "the second run starts from the world the first one leaves; all worlds are covered", "anchors": ["cmd/xgen/xgen.go:main", "parser.go:Parse", "utils.go:GetFileList", "utils.go:PrepareOutputDir", "utils.go:FileWithExtension"]}
{"id": "C58", "title": "One message per run, and no silent success", "statement": "The tool prints exactly one message on its standard output. -h prints a usage text that names every flag and every language, -v the version, and flags that are rejected the first objection: missing -i, missing -l, unsupported language (named). With accepted flags: the error of -i if it cannot be listed; \"done\" if and only if every file was parsed; otherwise the first file that failed together with its error, the files before it having been parsed; if an output directory cannot be made, its error alone without a file; nothing after a panic. A run that exits with 0 has printed something, except for the built-in -help, which changes nothing.", "quantifier": "all command lines, worlds, documents, budgets and texts of library errors", "why_tests_cant": "relates the text to the outcome of an arbitrary sequence of parses", "anchors": ["cmd/xgen/xgen.go:main", "cmd/xgen/xgen.go:parseFlags", "parser.go:Parse"]}
{"id": "C59", "title": "Only the attributes a handler looks at matter", "statement": "For every tag there is a list of local names such that attributes with other names (id, minOccurs, form, xml:lang, ...) can be added or removed anywhere, the namespace of any attribute can be changed (except for declarations of prefixes on the schema tag), and attributes can be reordered except for nine listed pairs (such as ref before or after name, namespace before or after schemaLocation), in the schema and in all schemas it imports or includes, without changing the components, the error, the crash or any generated file. Both lists are minimal: dropping a listed attribute, or swapping a listed pair, changes some result. In particular an attribute of another namespace that happens to be called name, type, ... is taken for the one of XML Schema.", "quantifier": "all documents, including imported and included ones, all attribute lists, all target languages, extract mode on and off, all map iteration orders", "why_tests_cant": "quantifies over all documents and all ways to decorate their tags", "anchors": ["parser.go:Parse", "schema.go:prepareNSSchemaLocationMap", "schema.go:prepareLocalNameNSMap", "xmlElement.go:OnElement", "xmlAttribute.go:OnAttribute", "xmlAttributeGroup.go:OnAttributeGroup", "xmlGroup.go:OnGroup", "xmlImport.go:OnImport", "xmlChoice.go:OnChoice", "xmlUnion.go:OnUnion"]}
{"id": "C60", "title": "Declared components stay", "statement": "However a document goes on, the components declared by its beginning are the first components of the whole document, in the same order: none is removed, reordered, renamed or changed in plurality or members. Only the documentation and the type of an element can still change, and only if an element is waiting for more when the beginning ends. The same holds for two files of which one goes on where the other ends, when they are read for their types.", "quantifier": "all documents and all places to cut them, including malformed ones, all target languages, all imported and included schemas, all map iteration orders", "why_tests_cant": "quantifies over all documents and all continuations", "anchors": ["parser.go:Parse", "xmlElement.go:EndElement", "xmlComplexType.go:EndComplexType", "xmlSimpleType.go:EndSimpleType", "xmlGroup.go:EndGroup", "xmlAttributeGroup.go:EndAttributeGroup", "xmlCharData.go:OnCharData"]}
{"id": "C61", "title": "Nothing is invented", "statement": "Every name of a component, of its elements, attributes and groups, every documentation text, enumeration value and union member in the components of a document was written in that document, in an attribute of a tag of the right kind: names of elements, attributes and groups in name or ref of their own tag; names of complex types in their name, in name or ref of an element, or in the base of an extension; names of simple types in their name or in the base of a restriction. The components are in the order of the end tags that made them, each end tag makes at most one, and of its kind, except that the end of a simple type can make a complex type and that the end of a complex type, simple type or group can make an empty entry.", "quantifier": "all documents, including malformed ones, all target languages, all imported and included schemas, all map iteration orders", "why_tests_cant": "quantifies over all documents", "anchors": ["parser.go:Parse", "xmlElement.go:OnElement", "xmlElement.go:EndElement", "xmlAttribute.go:OnAttribute", "xmlCharData.go:OnCharData", "xmlComplexType.go:OnComplexType", "xmlSimpleType.go:EndSimpleType", "xmlExtension.go:OnExtension", "xmlRestriction.go:OnRestriction", "xmlUnion.go:OnUnion", "xmlEnumeration.go:OnEnumeration"]}
{"id": "C62", "title": "Types come from the tables or from the schemas", "statement": "Every type in the components of a schema (of elements, attributes and members at any depth, bases of simple and complex types, references of groups, members of unions) is empty, the representation of a built-in type in the target language, or, without its prefix, a name that some schema file refers to: in an attribute type, ref, base, itemType or memberTypes of a tag that has it, or as the name of an element. For a schema that is read for its types only, it is a name that this schema itself refers to.", "quantifier": "all documents, including malformed ones, all imported and included schemas, all target languages, all map iteration orders", "why_tests_cant": "quantifies over all documents and all ways in which they import each other", "anchors": ["parser.go:GetValueType", "parser.go:Parse", "utils.go:getBasefromSimpleType", "utils.go:getBuildInTypeByLang", "xmlElement.go:OnElement", "xmlUnion.go:OnUnion", "xmlRestriction.go:OnRestriction"]}
{"id": "C63", "title": "A type derived from a built-in type is based on its target type", "statement": "A restriction or extension whose base is a built-in type gives the open simple or complex type the target type of the language as its base, whatever else is declared, imported or included.", "quantifier": "every language, every built-in type with or without a prefix, every parser state, every world and set of options", "why_tests_cant": "quantifies over all states of the parser, all declarations before the type and all imported and included schemas", "anchors": ["xmlRestriction.go:OnRestriction", "xmlExtension.go:OnExtension", "parser.go:GetValueType", "utils.go:getBuildInTypeByLang"]}
{"id": "C64", "title": "Generated programs are syntactically well-formed", "statement": "What is generated for a component list with ordinary names and types is a sequence of declarations of the target language: names are identifiers and no keywords, types are type expressions, every member is well-formed and stands in a declaration that is opened and closed.", "quantifier": "every language, every component list, every Unicode case table with idempotent upper-casing", "why_tests_cant": "quantifies over all component lists and all names; a test compiles the output of single schemas", "anchors": ["genGo.go", "genC.go", "genJava.go", "genRust.go", "genTypeScript.go", "utils.go:MakeFirstUpperCase", "utils.go:ToSnakeCase"]}
{"id": "C65", "title": "A complex type lists a group once and an element once per type", "statement": "The components of a document never have a complex type that refers to two groups of the same name, and an element of a complex type that repeats the name of earlier elements differs in type from the first of them; so if equal names have equal types, every member name occurs once.", "quantifier": "all documents, including malformed ones, all options, all file systems, all map iteration orders; for elements, all documents in which no restriction ends inside a complex type", "why_tests_cant": "quantifies over all documents and all orders in which elements are repeated, also in nested choices and sequences", "anchors": ["xmlElement.go:OnElement", "xmlElement.go:findElement", "xmlGroup.go:OnGroup", "xmlGroup.go:inGroups", "xmlRestriction.go:EndRestriction"]}
{"id": "C66", "title": "Every type used in a generated program is declared", "statement": "If the types in a component list are built in or are names of its components, then every type that the generated program uses, in members, aliases, base classes and embedded fields, is predeclared in the target language or declared in the same program under exactly the name with which it is used.", "quantifier": "every language, every component list with ordinary names, every Unicode case table with idempotent upper-casing", "why_tests_cant": "quantifies over all component lists and all names; declared and referenced names are computed by different code and numbered separately", "anchors": ["genGo.go", "genC.go", "genJava.go", "genRust.go", "genTypeScript.go", "utils.go:MakeFirstUpperCase", "utils.go:getBasefromSimpleType"]}
{"id": "C67", "title": "Components do not depend on the target language but for types", "statement": "Parsing the same self-contained document for two target languages yields component lists that agree in everything but the names of types: the same components in the same order, with the same names, documentation, flags, members, enumerations, and a type missing in the one list exactly where it is missing in the other; and an error about a length facet or a panic in the one language is there in the other.", "quantifier": "all documents without import or include in which no element is repeated within a complex type, including malformed ones, all pairs of languages, all file systems, all map iteration orders", "why_tests_cant": "quantifies over all documents and pairs of languages; the type of an element takes part in merging repeated elements and in finding the element that an inline restriction belongs to", "anchors": ["xmlElement.go:OnElement", "xmlRestriction.go:EndRestriction", "xmlAttribute.go", "xmlSimpleType.go", "utils.go:getBasefromSimpleType", "parser.go:GetValueType"]}
{"id": "C68", "title": "Ordinary schemas give well-formed programs that declare the types they use", "statement": "If a schema gives every declaration an ordinary name and refers only to built-in types or to types with ordinary names, then after a successful run its output file is the preamble followed by a well-formed program of the target language; if the types referred to are moreover declared by the schema, the program declares every type it uses.", "quantifier": "all schemas of the grammar of SpecDecl.v, of any size and nesting, alone or in projects that import and include each other (SpecProject.v), all languages, all file systems, all flags, all Unicode case tables with idempotent upper-casing", "why_tests_cant": "quantifies over all schemas; a name passes through the handlers, the resolution of types, in part twice, and the generators, and an inline type can end up at another element", "anchors": ["parser.go:GetValueType", "xmlElement.go", "xmlRestriction.go", "xmlAttribute.go", "xmlUnion.go", "genGo.go", "genC.go", "genJava.go", "genRust.go", "genTypeScript.go"]}
{"id": "C69", "title": "The members of a generated structure have different names", "statement": "If the elements and groups of every component have different names, its attributes have different names, and what a complex type extends has yet another name, then no structure, class or enumeration in the generated program declares two members of one name; the declared names are those of the members of the component, one by one and in order.", "quantifier": "all component lists of any length whose names are letters and digits (small ones in Rust) and no attribute-member names, all languages, all Unicode case tables, and all output files of successful parses with such components", "why_tests_cant": "quantifies over all component lists and names; two names collide only after mangling, suffixes and reserved words, which differ between languages", "anchors": ["genGo.go:GoComplexType", "genC.go:CComplexType", "genJava.go:JavaComplexType", "genRust.go:RustComplexType", "genTypeScript.go:TypeScriptComplexType", "utils.go:MakeFirstUpperCase", "utils.go:ToSnakeCase"]}
{"id": "C70", "title": "Types are declared before they are used", "statement": "If every component refers only to built-in types and to components before it, no two components have the same name and none has the name of a target type, then every declaration in the generated program uses only predeclared types and types declared before it.", "quantifier": "all component lists of any length with such references, all languages, all Unicode case tables, and all output files of successful parses with such components", "why_tests_cant": "quantifies over all component lists and orders; references are resolved through components anywhere in the list, so a single late component can change an early declaration", "anchors": ["genC.go:GenC", "genC.go:CComplexType", "genC.go:CElement", "genTypeScript.go:TypeScriptComplexType", "utils.go:getBasefromSimpleType"]}
{"id": "C71", "title": "The XML names of attributes and elements can be read back from the program", "statement": "The struct tags in Go, the annotations in Java and the renames in Rust name exactly the attributes and elements of each component as they are called in XML, one by one and in order; two component lists with the same generated text have the same XML names.", "quantifier": "all component lists of any length without tabs, quotation marks and commas in names and types, Go, Java and Rust, all Unicode case tables, and all output files of successful parses with such components", "why_tests_cant": "quantifies over all component lists and names; the identifiers are mangled, so that only the tags keep the names apart", "anchors": ["genGo.go:GoComplexType", "genGo.go:GoAttributeGroup", "genJava.go:JavaComplexType", "genRust.go:RustComplexType", "genRust.go:RustSimpleType"]}
{"id": "C72", "title": "Namespace prefixes of references do not matter in a document that needs no other", "statement": "Two documents that differ only in the prefixes of the values of type, itemType, memberTypes and base and in the attributes of schema tags, where prefixes are bound, have the same components and the same generated file.", "quantifier": "all documents without imports and includes, of any length and nesting, all languages, all worlds and options; elements have names, and the prefix of the base of a nameless simple type is kept", "why_tests_cant": "quantifies over pairs of documents of any size and over all ways to rename prefixes", "anchors": ["utils.go:getNSPrefix", "utils.go:trimNSPrefix", "parser.go:GetValueType", "xmlRestriction.go:OnRestriction", "xmlExtension.go:OnExtension", "xmlUnion.go:OnUnion", "xmlElement.go:OnElement", "xmlSchema.go:OnSchema"]}
{"id": "C73", "title": "Schemas that need no others do not influence each other", "statement": "In two successful runs of the tool for one language and package, a document that occurs in both gets the same program in both, whatever other files are processed, in whatever order, and wherever the files are.", "quantifier": "all pairs of worlds and flags with one language and package, all directories or files whose schemas need no imports or includes and have separate output files, all documents", "why_tests_cant": "quantifies over pairs of whole runs of the tool, with any other files processed before and after", "anchors": ["cmd/xgen/xgen.go:main", "parser.go:NewParser", "parser.go:Parse", "utils.go:GetFileList"]}
{"id": "C74", "title": "Only files with the extension of the target language are overwritten", "statement": "However a parse or a run of the tool ends and whatever the schemas import or include, every change of the file system is a new directory or a file whose name ends with the extension of the target language; schema files named .xsd and the programs for other languages stay as they are.", "quantifier": "all documents, import graphs, worlds, options and command lines, including failing and panicking runs", "why_tests_cant": "quantifies over all file systems, import graphs and paths (with dot-dot, empty and rooted parts) and over every way a run can end", "anchors": ["parser.go:Parse", "utils.go:FileWithExtension", "utils.go:PrepareOutputDir", "genGo.go:GenGo", "genC.go:GenC", "genJava.go:GenJava", "genRust.go:GenRust", "genTypeScript.go:GenTypeScript", "cmd/xgen/xgen.go:main"]}
{"id": "C75", "title": "Reading a document for its types finds the components that parsing it finds", "statement": "For a document without imports and includes in which no component has an empty type, extract mode returns the same components as an ordinary parse of the same bytes, whatever the shared maps contain, and both refuse the same documents: a bad maxOccurs or a panic occurs in both or in neither.", "quantifier": "all documents without imports and includes whose components have types, all languages, options, worlds and budgets", "why_tests_cant": "quantifies over all documents and over pairs of worlds; extract mode is only used internally, for included schemas", "anchors": ["parser.go:Parse", "parser.go:GetValueType", "utils.go:getBasefromSimpleType"]}
