(** genGo.go *)

From Coq Require Import String Ascii List NArith ZArith Bool.
From Verif Require Import GoStr Base Utils.
Import ListNotations.
Local Open Scope string_scope.

(** genGo.go:32-57 goBuildinType *)
Definition go_buildin_type : list string :=
  ["xml.Name"; "byte"; "[]byte"; "bool"; "[]bool"; "complex64"; "complex128"; "float32"; "float64"; "int"; "int8"; "int16"; "int32"; "int64"; "interface"; "[]interface{}"; "string"; "[]string"; "time.Time"; "uint"; "uint8"; "uint16"; "uint32"; "uint64"].

(** genGo.go:243-246 *)
Definition is_go_builtin (t : string) : bool := in_set t go_buildin_type.

Section GenGo.
Context {E : Env}.

(** genGo.go:98-107, unique = false *)
Definition go_field_name (name : string) : string :=
  remove_char "_" (remove_char "-" (title_join "." (title_join ":" name))).

(** genGo.go:98-115, unique = true *)
Definition go_unique_name (name : string) (counts : smap Z) : string * smap Z :=
  uniq_name counts (go_field_name name).

(** genGo.go:117-130 genGoFieldType *)
Definition go_field_type (name : string) : string :=
  if in_set name go_buildin_type then name
  else
    let t := remove_char "_" (to_title (remove_char "-" (title_join "." name))) in
    if String.eqb t "" then "interface{}" else "*" ++ t.

(** The type of a member: genGoFieldType(getBasefromSimpleType(trimNSPrefix(t), gen.ProtoTree)) *)
Definition go_member_type (pt : list proto) (t : string) : string :=
  go_field_type (get_base (trim_ns_prefix t) pt).

Definition plural_brackets (b : bool) : string := if b then "[]" else "".

(** fmt.Sprintf("%stype %s%s", genFieldComment(fieldName, doc, "//"), fieldName, content) *)
Definition go_decl (fieldName doc content : string) : string :=
  gen_field_comment fieldName doc "//" ++ "type " ++ fieldName ++ content.

(** genGo.go:185-188 (and 152-155, 253-256, 285-288) *)
Definition go_xmlname (fieldName name : string) : string :=
  if String.eqb fieldName name then ""
  else TAB ++ "XMLName" ++ TAB ++ "xml.Name" ++ TAB ++ "`xml:" ++ DQ ++ name ++ DQ ++ "`" ++ NL.

(** genGo.go:156-164: one member of a union *)
Definition go_union_member (pt : list proto) (m : string * string) : string :=
  let memberName := fst m in
  let memberType := if String.eqb (snd m) "" then get_base memberName pt else snd m in
  TAB ++ go_field_name memberName ++ TAB ++ go_field_type memberType ++ NL.

(** genGo.go:134-177 GoSimpleType *)
Definition go_simple_type (pt : list proto) (v : SimpleType) (g : GState) : GState :=
  if st_list v && negb (declared (st_name v) g) then
    let fieldType := go_member_type pt (st_base v) in
    let g := set_time (String.eqb fieldType "time.Time") g in
    let content := " []" ++ go_field_type fieldType ++ NL in
    let '(fieldName, counts) := go_unique_name (st_name v) (g_count g) in
    emit (st_name v) content (go_decl fieldName (st_doc v) content) counts g
  else if st_union v && negb (Nat.eqb (length (st_members v)) 0) then
    if negb (declared (st_name v) g) then
      let '(fieldName, counts) := go_unique_name (st_name v) (g_count g) in
      let g := set_xml (negb (String.eqb fieldName (st_name v))) g in
      let content := " struct {" ++ NL ++ go_xmlname fieldName (st_name v)
                     ++ sconcat (map (go_union_member pt) (to_sorted_pairs (st_members v)))
                     ++ "}" ++ NL in
      emit (st_name v) content (go_decl fieldName (st_doc v) content) counts g
    else g
  else if negb (declared (st_name v) g) then
    let content := " " ++ go_member_type pt (st_base v) ++ NL in
    let '(fieldName, counts) := go_unique_name (st_name v) (g_count g) in
    emit (st_name v) content (go_decl fieldName (st_doc v) content) counts g
  else g.

(** genGo.go:189-195: one attribute group of a complex type *)
Definition go_attrgroup_line (pt : list proto) (a : AttributeGroup) : string :=
  let fieldType := get_base (trim_ns_prefix (ag_ref a)) pt in
  TAB ++ go_field_name (ag_name a) ++ TAB ++ go_field_type fieldType ++ NL.

Definition go_attrgroup_time (pt : list proto) (a : AttributeGroup) : bool :=
  String.eqb (get_base (trim_ns_prefix (ag_ref a)) pt) "time.Time".

(** genGo.go:197-207 and 289-295: one attribute *)
Definition go_attribute_line (pt : list proto) (a : Attribute) : string :=
  let optional := if at_optional a then ",omitempty" else "" in
  TAB ++ go_field_name (at_name a) ++ "Attr" ++ TAB ++ go_member_type pt (at_type a) ++ TAB
  ++ "`xml:" ++ DQ ++ at_name a ++ ",attr" ++ optional ++ DQ ++ "`" ++ NL.

Definition go_attribute_time (pt : list proto) (a : Attribute) : bool :=
  String.eqb (go_member_type pt (at_type a)) "time.Time".

(** genGo.go:208-214 and 265-271: one group reference *)
Definition go_group_line (pt : list proto) (x : Group) : string :=
  TAB ++ go_field_name (gr_name x) ++ TAB ++ plural_brackets (gr_plural x)
  ++ go_member_type pt (gr_ref x) ++ NL.

(** genGo.go:216-226: one element of a complex type *)
Definition go_element_line (pt : list proto) (e : Element) : string :=
  TAB ++ go_field_name (el_name e) ++ TAB ++ plural_brackets (el_plural e)
  ++ go_member_type pt (el_type e) ++ TAB
  ++ "`xml:" ++ DQ ++ el_name e ++ DQ ++ "`" ++ NL.

Definition go_element_time (pt : list proto) (e : Element) : bool :=
  String.eqb (go_member_type pt (el_type e)) "time.Time".

(** genGo.go:227-236 *)
Definition go_base_line (base : string) : string :=
  if Nat.ltb 0 (String.length base) then
    if is_go_builtin base
    then TAB ++ "Value" ++ TAB ++ go_field_type base ++ TAB ++ "`xml:" ++ DQ ++ ",chardata" ++ DQ ++ "`" ++ NL
    else TAB ++ go_field_type base ++ NL
  else "".

(** genGo.go:181-241 GoComplexType *)
Definition go_complex_type (pt : list proto) (v : ComplexType) (g : GState) : GState :=
  if negb (declared (ct_name v) g) then
    let '(fieldName, counts) := go_unique_name (ct_name v) (g_count g) in
    let g := set_xml (negb (String.eqb fieldName (ct_name v))) g in
    let g := set_time (existsb (go_attrgroup_time pt) (ct_attrgroups v)) g in
    let g := set_time (existsb (go_attribute_time pt) (ct_attributes v)) g in
    let g := set_time (existsb (go_element_time pt) (ct_elements v)) g in
    let content := " struct {" ++ NL ++ go_xmlname fieldName (ct_name v)
                   ++ sconcat (map (go_attrgroup_line pt) (ct_attrgroups v))
                   ++ sconcat (map (go_attribute_line pt) (ct_attributes v))
                   ++ sconcat (map (go_group_line pt) (ct_groups v))
                   ++ sconcat (map (go_element_line pt) (ct_elements v))
                   ++ go_base_line (ct_base v)
                   ++ "}" ++ NL in
    emit (ct_name v) content (go_decl fieldName (ct_doc v) content) counts g
  else g.

(** genGo.go:257-263: one element of a group *)
Definition go_group_element_line (pt : list proto) (e : Element) : string :=
  TAB ++ go_field_name (el_name e) ++ TAB ++ plural_brackets (el_plural e)
  ++ go_member_type pt (el_type e) ++ NL.

(** genGo.go:249-277 GoGroup *)
Definition go_group (pt : list proto) (v : Group) (g : GState) : GState :=
  if negb (declared (gr_name v) g) then
    let '(fieldName, counts) := go_unique_name (gr_name v) (g_count g) in
    let g := set_xml (negb (String.eqb fieldName (gr_name v))) g in
    let content := " struct {" ++ NL ++ go_xmlname fieldName (gr_name v)
                   ++ sconcat (map (go_group_element_line pt) (gr_elements v))
                   ++ sconcat (map (go_group_line pt) (gr_groups v))
                   ++ "}" ++ NL in
    emit (gr_name v) content (go_decl fieldName (gr_doc v) content) counts g
  else g.

(** genGo.go:281-300 GoAttributeGroup *)
Definition go_attribute_group (pt : list proto) (v : AttributeGroup) (g : GState) : GState :=
  if negb (declared (ag_name v) g) then
    let '(fieldName, counts) := go_unique_name (ag_name v) (g_count g) in
    let g := set_xml (negb (String.eqb fieldName (ag_name v))) g in
    let content := " struct {" ++ NL ++ go_xmlname fieldName (ag_name v)
                   ++ sconcat (map (go_attribute_line pt) (ag_attributes v))
                   ++ "}" ++ NL in
    emit (ag_name v) content (go_decl fieldName (ag_doc v) content) counts g
  else g.

(** genGo.go:303-314 GoElement (unique = false: the counter is not used) *)
Definition go_element (pt : list proto) (v : Element) (g : GState) : GState :=
  if negb (declared (el_name v) g) then
    let content := TAB ++ plural_brackets (el_plural v) ++ go_member_type pt (el_type v) ++ NL in
    let fieldName := go_field_name (el_name v) in
    emit (el_name v) content (go_decl fieldName (el_doc v) content) (g_count g) g
  else g.

(** genGo.go:317-328 GoAttribute *)
Definition go_attribute (pt : list proto) (v : Attribute) (g : GState) : GState :=
  if negb (declared (at_name v) g) then
    let content := TAB ++ plural_brackets (at_plural v) ++ go_member_type pt (at_type v) ++ NL in
    let '(fieldName, counts) := go_unique_name (at_name v) (g_count g) in
    emit (at_name v) content (go_decl fieldName (at_doc v) content) counts g
  else g.

(** genGo.go:63-69: dispatch on the dynamic type; nil entries are skipped *)
Definition go_entry (pt : list proto) (g : GState) (p : proto) : GState :=
  match p with
  | PNil => g
  | PSimple v => go_simple_type pt v g
  | PComplex v => go_complex_type pt v g
  | PElement v => go_element pt v g
  | PAttribute v => go_attribute pt v g
  | PGroup v => go_group pt v g
  | PAttrGroup v => go_attribute_group pt v g
  end.

(** genGo.go:75-84 *)
Definition go_imports (g : GState) : string :=
  let packages := (if g_time g then TAB ++ DQ ++ "time" ++ DQ ++ NL else "")
                  ++ (if g_xml g then TAB ++ DQ ++ "encoding/xml" ++ DQ ++ NL else "") in
  if String.eqb packages "" then "" else "import (" ++ NL ++ packages ++ ")".

(** genGo.go:85-88 (and genJava.go:48-51) *)
Definition package_name (pkg : string) : string := if String.eqb pkg "" then "schema" else pkg.

(** genGo.go:89: the text handed to format.Source *)
Definition go_source (pkg : string) (g : GState) : string :=
  copyright ++ NL ++ NL ++ "package " ++ package_name pkg ++ NL ++ go_imports g ++ g_field g.

(** genGo.go:91: the text written when format.Source fails *)
Definition go_fallback (pkg : string) (g : GState) : string :=
  "package " ++ package_name pkg ++ NL ++ go_imports g ++ g_field g.

End GenGo.
