(** genRust.go *)

From Coq Require Import String Ascii List NArith ZArith Bool.
From Verif Require Import GoStr Base Utils.
Import ListNotations.
Local Open Scope string_scope.

(** genRust.go:19-40 rustBuildinType *)
Definition rust_buildin_type : list string :=
  ["i8"; "i16"; "i32"; "i64"; "i128"; "isize"; "u8"; "u16"; "u32"; "u64"; "u128"; "usize"; "f32"; "f64"; "Vec<char>"; "Vec<String>"; "Vec<u8>"; "bool"; "char"; "String"].

(** genRust.go:41-93 rustKeywords *)
Definition rust_keywords : list string :=
  ["as"; "break"; "const"; "continue"; "crate"; "dyn"; "else"; "enum"; "extern"; "false"; "fn"; "for"; "if"; "impl"; "in"; "let"; "loop"; "match"; "mod"; "move"; "mut"; "pub"; "ref"; "return"; "Self"; "self"; "static"; "struct"; "super"; "trait"; "true"; "type"; "unsafe"; "use"; "where"; "while"; "abstract"; "async"; "await"; "become"; "box"; "do"; "final"; "macro"; "override"; "priv"; "try"; "typeof"; "unsized"; "virtual"; "yield"].

(** genRust.go:266-269 *)
Definition is_rust_builtin (t : string) : bool := in_set t rust_buildin_type.

Section GenRust.
Context {E : Env}.

(** genRust.go:124-138 genRustFieldName *)
Definition rust_field_name (name : string) : string :=
  let n := to_snake_case (remove_char "-" (title_join "." (title_join ":" name))) in
  if in_set n rust_keywords then n ++ "_attr" else n.

(** genRust.go:141-150, unique = false *)
Definition rust_struct_name (name : string) : string :=
  remove_char "_" (remove_char "-" (title_join "." (title_join ":" name))).

(** genRust.go:141-158, unique = true *)
Definition rust_unique_name (name : string) (counts : smap Z) : string * smap Z :=
  uniq_name counts (rust_struct_name name).

(** genRust.go:161-170 genRustFieldType *)
Definition rust_field_type (name : string) : string :=
  if in_set name rust_buildin_type then name
  else
    let t := rust_struct_name name in
    if String.eqb t "" then "char" else t.

Definition rust_member_type (pt : list proto) (t : string) : string :=
  rust_field_type (get_base (trim_ns_prefix t) pt).

(** "\t#[serde(rename = \"%s\")]\n\tpub %s: %s,\n" *)
Definition rust_field (rename name t : string) : string :=
  TAB ++ "#[serde(rename = " ++ DQ ++ rename ++ DQ ++ ")]" ++ NL
  ++ TAB ++ "pub " ++ name ++ ": " ++ t ++ "," ++ NL.

Definition rust_vec (t : string) : string := "Vec<" ++ t ++ ">".
Definition rust_option (t : string) : string := "Option<" ++ t ++ ">".

(** "#[derive(Debug, Deserialize, Serialize, PartialEq)]\npub struct %s {\n%s}\n" *)
Definition rust_struct (fieldName content : string) : string :=
  "#[derive(Debug, Deserialize, Serialize, PartialEq)]" ++ NL
  ++ "pub struct " ++ fieldName ++ " {" ++ NL ++ content ++ "}" ++ NL.

(** "\n%s" ++ struct, e.g. genRust.go:181 *)
Definition rust_decl (fieldName doc content : string) : string :=
  NL ++ gen_field_comment fieldName doc "//" ++ rust_struct fieldName content.

(** genRust.go:188-196: every member is renamed to the name of the union *)
Definition rust_union_member (pt : list proto) (union : string) (m : string * string) : string :=
  let memberName := fst m in
  let memberType := if String.eqb (snd m) "" then get_base memberName pt else snd m in
  rust_field union (rust_field_name memberName) (rust_field_type memberType).

(** genRust.go:174-209 RustSimpleType *)
Definition rust_simple_type (pt : list proto) (v : SimpleType) (g : GState) : GState :=
  if st_list v && negb (declared (st_name v) g) then
    let fieldType := rust_member_type pt (st_base v) in
    let content := rust_field (st_name v) (rust_field_name (st_name v)) (rust_vec fieldType) in
    let '(fieldName, counts) := rust_unique_name (st_name v) (g_count g) in
    emit (st_name v) content (rust_decl fieldName (st_doc v) content) counts g
  else if st_union v && negb (Nat.eqb (length (st_members v)) 0) then
    if negb (declared (st_name v) g) then
      let content := sconcat (map (rust_union_member pt (st_name v)) (to_sorted_pairs (st_members v))) in
      let '(fieldName, counts) := rust_unique_name (st_name v) (g_count g) in
      emit (st_name v) content (NL ++ rust_struct fieldName content) counts g
    else g
  else if negb (declared (st_name v) g) then
    let fieldType := rust_member_type pt (st_base v) in
    let content := rust_field (st_name v) (rust_field_name (st_name v)) fieldType in
    let '(fieldName, counts) := rust_unique_name (st_name v) (g_count g) in
    emit (st_name v) content (rust_decl fieldName (st_doc v) content) counts g
  else g.

(** genRust.go:216-219 *)
Definition rust_attrgroup_line (pt : list proto) (a : AttributeGroup) : string :=
  rust_field (ag_name a) (rust_field_name (ag_name a)) (rust_vec (rust_member_type pt (ag_ref a))).

(** genRust.go:220-227 *)
Definition rust_attribute_line (pt : list proto) (a : Attribute) : string :=
  let t := rust_member_type pt (at_type a) in
  rust_field (at_name a) (rust_field_name (at_name a)) (if at_optional a then rust_option t else t).

(** genRust.go:228-236 (and 284-292 with the plurality of the enclosing group) *)
Definition rust_group_line (pt : list proto) (plural : bool) (x : Group) : string :=
  let t := rust_member_type pt (gr_ref x) in
  rust_field (gr_name x) (rust_field_name (gr_name x)) (if plural then rust_vec t else t).

(** genRust.go:237-249 *)
Definition rust_element_line (pt : list proto) (e : Element) : string :=
  let t := rust_member_type pt (el_type e) in
  rust_field (el_name e) (rust_field_name (el_name e))
    (if el_plural e then rust_vec t else if el_optional e then rust_option t else t).

(** genRust.go:250-259 *)
Definition rust_base_line (pt : list proto) (base : string) : string :=
  if Nat.ltb 0 (String.length base) then
    let t := rust_member_type pt base in
    if is_rust_builtin base
    then rust_field "$value" "value" t
    else TAB ++ "#[serde(flatten)]" ++ NL ++ TAB ++ "pub " ++ rust_field_name t ++ ": " ++ t ++ "," ++ NL
  else "".

(** genRust.go:213-264 RustComplexType *)
Definition rust_complex_type (pt : list proto) (v : ComplexType) (g : GState) : GState :=
  if negb (declared (ct_name v) g) then
    let content := sconcat (map (rust_attrgroup_line pt) (ct_attrgroups v))
                   ++ sconcat (map (rust_attribute_line pt) (ct_attributes v))
                   ++ sconcat (map (fun x => rust_group_line pt (gr_plural x) x) (ct_groups v))
                   ++ sconcat (map (rust_element_line pt) (ct_elements v))
                   ++ rust_base_line pt (ct_base v) in
    let '(fieldName, counts) := rust_unique_name (ct_name v) (g_count g) in
    emit (ct_name v) content (rust_decl fieldName (ct_doc v) content) counts g
  else g.

(** genRust.go:275-283: an element of a group, plural iff the group is *)
Definition rust_group_element_line (pt : list proto) (plural : bool) (e : Element) : string :=
  let t := rust_member_type pt (el_type e) in
  rust_field (el_name e) (rust_field_name (el_name e)) (if plural then rust_vec t else t).

(** genRust.go:272-297 RustGroup *)
Definition rust_group (pt : list proto) (v : Group) (g : GState) : GState :=
  if negb (declared (gr_name v) g) then
    let content := sconcat (map (rust_group_element_line pt (gr_plural v)) (gr_elements v))
                   ++ sconcat (map (rust_group_line pt (gr_plural v)) (gr_groups v)) in
    let '(fieldName, counts) := rust_unique_name (gr_name v) (g_count g) in
    emit (gr_name v) content (rust_decl fieldName (gr_doc v) content) counts g
  else g.

(** genRust.go:304-310: a required attribute of an attribute group becomes Vec *)
Definition rust_group_attribute_line (pt : list proto) (a : Attribute) : string :=
  let t := rust_member_type pt (at_type a) in
  rust_field (at_name a) (rust_field_name (at_name a))
    (if at_optional a then rust_option t else rust_vec t).

(** genRust.go:301-315 RustAttributeGroup *)
Definition rust_attribute_group (pt : list proto) (v : AttributeGroup) (g : GState) : GState :=
  if negb (declared (ag_name v) g) then
    let content := sconcat (map (rust_group_attribute_line pt) (ag_attributes v)) in
    let '(fieldName, counts) := rust_unique_name (ag_name v) (g_count g) in
    emit (ag_name v) content (rust_decl fieldName (ag_doc v) content) counts g
  else g.

(** genRust.go:318-329 RustElement: the struct gets the (snake case) field name,
    the counter is not used *)
Definition rust_element (pt : list proto) (v : Element) (g : GState) : GState :=
  if negb (declared (el_name v) g) then
    let t := rust_member_type pt (el_type v) in
    let fieldName := rust_field_name (el_name v) in
    let content := rust_field (el_name v) fieldName (if el_plural v then rust_vec t else t) in
    emit (el_name v) content (rust_decl fieldName (el_doc v) content) (g_count g) g
  else g.

(** genRust.go:332-343 RustAttribute, likewise *)
Definition rust_attribute (pt : list proto) (v : Attribute) (g : GState) : GState :=
  if negb (declared (at_name v) g) then
    let t := rust_member_type pt (at_type v) in
    let fieldName := rust_field_name (at_name v) in
    let content := rust_field (at_name v) fieldName (if at_plural v then rust_vec t else t) in
    emit (at_name v) content (rust_decl fieldName (at_doc v) content) (g_count g) g
  else g.

(** genRust.go:100-106 *)
Definition rust_entry (pt : list proto) (g : GState) (p : proto) : GState :=
  match p with
  | PNil => g
  | PSimple v => rust_simple_type pt v g
  | PComplex v => rust_complex_type pt v g
  | PElement v => rust_element pt v g
  | PAttribute v => rust_attribute pt v g
  | PGroup v => rust_group pt v g
  | PAttrGroup v => rust_attribute_group pt v g
  end.

(** genRust.go:112-117 *)
Definition rust_extern : string :=
  sjoin NL
    ["#[macro_use]"; "extern crate serde_derive;"; "extern crate serde;";
     "extern crate serde_xml_rs;"; ""; "use serde_xml_rs::from_reader;"].

(** genRust.go:118 *)
Definition rust_source (g : GState) : string :=
  copyright ++ NL ++ NL ++ rust_extern ++ NL ++ g_field g.

End GenRust.
