(** utils.go, schema.go:44-46, genGo.go:330-338 (FileWithExtension), and the
    built-in type tables of the generators. *)

From Coq Require Import String Ascii List NArith ZArith Bool Sorting.Permutation.
From Verif Require Import GoStr Base.
Import ListNotations.
Local Open Scope string_scope.

Section Utils.
Context {E : Env}.

(** unicode.ToUpper: ASCII fast path of the Go library, oracle above it. *)
Definition to_upper_rune (r : N) : N :=
  if (r <? 128)%N then (if (97 <=? r)%N && (r <=? 122)%N then (r - 32)%N else r)
  else env_upper r.

(** unicode.ToLower, likewise. *)
Definition to_lower_rune (r : N) : N :=
  if (r <? 128)%N then (if (65 <=? r)%N && (r <=? 90)%N then (r + 32)%N else r)
  else env_lower r.

(** strings.ToLower *)
Definition to_lower (s : string) : string :=
  sconcat (map (fun p => encode_rune (to_lower_rune (fst p))) (segs s)).

(** utils.go:191-203 ToTitle (MakeFirstUpperCase, utils.go:187-189, is the
    same function): the loop writes every rune of the [range], the one at
    byte offset 0 upper-cased. *)
Definition to_title (s : string) : string :=
  match segs s with
  | [] => ""
  | (r, _) :: rest =>
      encode_rune (to_upper_rune r) ++ sconcat (map (fun p => encode_rune (fst p)) rest)
  end.

(** utils.go:28 matchFirstCap.ReplaceAllString(input, "${1}_${2}"): leftmost
    non-overlapping matches of [A-Z][A-Z][a-z]. *)
Fixpoint snake_first_cap (s : string) : string :=
  match s with
  | EmptyString => EmptyString
  | String a r =>
      match r with
      | String b (String c t) =>
          if is_upper a && is_upper b && is_lower c
          then String a (String "_" (String b (String c (snake_first_cap t))))
          else String a (snake_first_cap r)
      | _ => String a (snake_first_cap r)
      end
  end.

(** utils.go:29 matchAllCap.ReplaceAllString(output, "${1}_${2}"): leftmost
    non-overlapping matches of [a-z0-9][A-Z]. *)
Fixpoint snake_all_cap (s : string) : string :=
  match s with
  | EmptyString => EmptyString
  | String a r =>
      match r with
      | String b t =>
          if (is_lower a || is_digit a) && is_upper b
          then String a (String "_" (String b (snake_all_cap t)))
          else String a (snake_all_cap r)
      | EmptyString => String a EmptyString
      end
  end.

(** utils.go:34-39 ToSnakeCase *)
Definition to_snake_case (input : string) : string :=
  let output := snake_first_cap input in
  let output := snake_all_cap output in
  let output := replace_char "-" "_" output in
  to_lower output.

(** utils.go:79-129 BuildInTypes (columns: Go, TypeScript, C, Java, Rust) *)
Definition build_in_types : smap (list string) :=
  [("anyType", ["string"; "string"; "char"; "String"; "String"]);
   ("ENTITIES", ["[]string"; "Array<string>"; "char[]"; "List<String>"; "Vec<String>"]);
   ("ENTITY", ["string"; "string"; "char"; "String"; "String"]);
   ("ID", ["string"; "string"; "char"; "String"; "String"]);
   ("IDREF", ["string"; "string"; "char"; "String"; "String"]);
   ("IDREFS", ["[]string"; "Array<string>"; "char[]"; "List<String>"; "Vec<String>"]);
   ("NCName", ["string"; "string"; "char"; "String"; "String"]);
   ("NMTOKEN", ["string"; "string"; "char"; "String"; "String"]);
   ("NMTOKENS", ["[]string"; "Array<string>"; "char[]"; "List<String>"; "Vec<String>"]);
   ("NOTATION", ["[]string"; "Array<string>"; "char[]"; "List<String>"; "Vec<String>"]);
   ("Name", ["string"; "string"; "char"; "String"; "String"]);
   ("QName", ["xml.Name"; "any"; "char"; "String"; "String"]);
   ("anyURI", ["string"; "string"; "char"; "QName"; "String"]);
   ("base64Binary", ["string"; "Uint8Array"; "char[]"; "List<Byte>"; "String"]);
   ("boolean", ["bool"; "boolean"; "bool"; "Boolean"; "bool"]);
   ("byte", ["int8"; "any"; "char[]"; "Byte"; "u8"]);
   ("date", ["string"; "string"; "char"; "String"; "u8"]);
   ("dateTime", ["string"; "string"; "char"; "String"; "u8"]);
   ("decimal", ["float64"; "number"; "float"; "Float"; "f64"]);
   ("double", ["float64"; "number"; "float"; "Float"; "f64"]);
   ("duration", ["string"; "string"; "char"; "String"; "String"]);
   ("float", ["float32"; "number"; "float"; "Float"; "f64"]);
   ("gDay", ["string"; "string"; "char"; "String"; "String"]);
   ("gMonth", ["string"; "string"; "char"; "String"; "String"]);
   ("gMonthDay", ["string"; "string"; "char"; "String"; "String"]);
   ("gYear", ["string"; "string"; "char"; "String"; "String"]);
   ("gYearMonth", ["string"; "string"; "char"; "String"; "String"]);
   ("hexBinary", ["string"; "Uint8Array"; "char[]"; "List<Byte>"; "String"]);
   ("int", ["int"; "number"; "int"; "Integer"; "i32"]);
   ("integer", ["int"; "number"; "int"; "Integer"; "i32"]);
   ("language", ["string"; "string"; "char"; "String"; "String"]);
   ("long", ["int64"; "number"; "int"; "Long"; "i64"]);
   ("negativeInteger", ["int"; "number"; "int"; "Integer"; "i32"]);
   ("nonNegativeInteger", ["int"; "number"; "int"; "Integer"; "u32"]);
   ("normalizedString", ["string"; "string"; "char"; "String"; "String"]);
   ("nonPositiveInteger", ["int"; "number"; "int"; "Integer"; "i32"]);
   ("positiveInteger", ["int"; "number"; "int"; "Integer"; "u32"]);
   ("short", ["int16"; "number"; "int"; "Integer"; "i16"]);
   ("string", ["string"; "string"; "char"; "String"; "String"]);
   ("time", ["time.Time"; "string"; "char"; "String"; "String"]);
   ("token", ["string"; "string"; "char"; "String"; "String"]);
   ("unsignedByte", ["uint8"; "any"; "char"; "Byte"; "u8"]);
   ("unsignedInt", ["uint32"; "number"; "unsigned int"; "Integer"; "u32"]);
   ("unsignedLong", ["uint64"; "number"; "unsigned int"; "Long"; "u64"]);
   ("unsignedShort", ["uint16"; "number"; "unsigned int"; "Short"; "u16"]);
   ("xml:lang", ["string"; "string"; "char"; "String"; "String"]);
   ("xml:space", ["string"; "string"; "char"; "String"; "String"]);
   ("xml:base", ["string"; "string"; "char"; "String"; "String"]);
   ("xml:id", ["string"; "string"; "char"; "String"; "String"])].

(** utils.go:132-138 supportLang: the column of a language; a Go map yields 0
    for an unknown language. *)
Definition lang_index (lang : string) : nat :=
  if String.eqb lang "Go" then 0
  else if String.eqb lang "TypeScript" then 1
  else if String.eqb lang "C" then 2
  else if String.eqb lang "Java" then 3
  else if String.eqb lang "Rust" then 4
  else 0.

(** utils.go:131-145 getBuildInTypeByLang: [None] is ok=false.  The inner
    [None] of [nth_error] would be an index panic; every row has five columns
    (see [build_in_rows_full] in TableProofs.v). *)
Definition get_build_in_type (value lang : string) : option string :=
  match get value build_in_types with
  | None => None
  | Some row => nth_error row (lang_index lang)
  end.

(** utils.go:147-165 getBasefromSimpleType *)
Fixpoint get_base (name : string) (schema : list proto) : string :=
  match schema with
  | [] => name
  | PSimple v :: r =>
      if negb (st_list v) && negb (st_union v) && String.eqb (st_name v) name
      then st_base v else get_base name r
  | PAttribute v :: r => if String.eqb (at_name v) name then at_type v else get_base name r
  | PElement v :: r => if String.eqb (el_name v) name then el_type v else get_base name r
  | _ :: r => get_base name r
  end.

(** utils.go:167-174 getNSPrefix *)
Definition get_ns_prefix (s : string) : string :=
  match split_on ":" s with
  | [p; _] => p
  | _ => ""
  end.

(** utils.go:176-184 trimNSPrefix *)
Definition trim_ns_prefix (s : string) : string :=
  match split_on ":" s with
  | [_; n] => n
  | _ => s
  end.

(** utils.go:224-236 isValidURL.  A string without ':' has no scheme, so
    url.Parse reports an empty scheme (or ParseRequestURI fails) and the result
    is false; otherwise the URL parser decides. *)
Definition is_valid_url (s : string) : bool := has_char ":" s && env_valid_url s.

(** utils.go:257-263 genFieldComment.  strings.NewReplacer("\n", "\r\n"+prefix+" ", "\t", ""). *)
Fixpoint comment_replace (prefix s : string) : string :=
  match s with
  | EmptyString => EmptyString
  | String a r =>
      if Ascii.eqb a "010" then CRNL ++ prefix ++ " " ++ comment_replace prefix r
      else if Ascii.eqb a "009" then comment_replace prefix r
      else String a (comment_replace prefix r)
  end.

Definition gen_field_comment (name doc prefix : string) : string :=
  if String.eqb doc "" then CRNL ++ prefix ++ " " ++ name ++ " ..." ++ CRNL
  else CRNL ++ prefix ++ " " ++ name ++ " is " ++ comment_replace prefix doc ++ CRNL.

(** utils.go:275-277 kvPairList.Less on (key, value) pairs: by value, then by
    key descending. *)
Definition str_ltb (a b : string) : bool :=
  match String.compare a b with Lt => true | _ => false end.

Definition kv_less (a b : string * string) : bool :=
  str_ltb (snd a) (snd b) || (String.eqb (snd a) (snd b) && str_ltb (fst b) (fst a)).

(** utils.go:281-289 toSortedPairs.  sort.Sort is modelled by insertion sort;
    C09 shows that any correct sorting algorithm gives the same list. *)
Fixpoint kv_insert (x : string * string) (l : list (string * string)) : list (string * string) :=
  match l with
  | [] => [x]
  | y :: r => if kv_less x y then x :: l else y :: kv_insert x r
  end.

Definition to_sorted_pairs (m : smap string) : list (string * string) :=
  fold_right kv_insert [] m.

(** genGo.go:330-338 CodeGenerator.FileWithExtension *)
Definition file_with_extension (file ext : string) : string :=
  let ext := if has_prefix ext "." then ext else "." ++ ext in
  if has_suffix file ext then file else file ++ ext.

(** utils.go:27 copyright *)
Definition copyright : string := "// Code generated by xgen. DO NOT EDIT.".

(** The name mangling shared by all generators, e.g. genGo.go:99-106: split at
    ':' and capitalise each part, then the same at '.'. *)
Definition title_join (c : ascii) (s : string) : string :=
  sconcat (map to_title (split_on c s)).

(** genGo.go:108-113 (same in genC.go:75-80, genJava.go:76-81,
    genRust.go:151-156, genTypeScript.go:60-65): the counter in the global map
    fieldNameCount is bumped and appended from the second use on. *)
Definition uniq_name (counts : smap Z) (n : string) : string * smap Z :=
  let c := (match get n counts with Some c => c | None => 0 end + 1)%Z in
  (if (c =? 1)%Z then n else n ++ itoa_int c, put n c counts).

(** State of a CodeGenerator run (genGo.go:21-30): Field, StructAST,
    ImportTime, ImportEncodingXML, and the global fieldNameCount. *)
Record GState : Type := mkG {
  g_field : string;
  g_ast : smap string;
  g_time : bool;
  g_xml : bool;
  g_count : smap Z
}.

Definition g_init : GState := mkG "" [] false false [].

Definition declared (name : string) (g : GState) : bool := has_key name (g_ast g).

(** gen.StructAST[name] = content; gen.Field += text; fieldNameCount = counts *)
Definition emit (name content text : string) (counts : smap Z) (g : GState) : GState :=
  mkG (g_field g ++ text) (put name content (g_ast g)) (g_time g) (g_xml g) counts.

Definition set_time (b : bool) (g : GState) : GState :=
  mkG (g_field g) (g_ast g) (g_time g || b) (g_xml g) (g_count g).

Definition set_xml (b : bool) (g : GState) : GState :=
  mkG (g_field g) (g_ast g) (g_time g) (g_xml g || b) (g_count g).

End Utils.
