(** genC.go *)

From Coq Require Import String Ascii List NArith ZArith Bool.
From Verif Require Import GoStr Base Utils.
Import ListNotations.
Local Open Scope string_scope.

(** genC.go:18-35 cBuildInType *)
Definition c_buildin_type : list string :=
  ["bool"; "char"; "unsigned char"; "signed char"; "char[]"; "float"; "double"; "long double"; "int"; "unsigned int"; "short"; "unsigned short"; "long"; "unsigned long"; "void"; "enum"].

Section GenC.
Context {E : Env}.

(** genC.go:58-63 innerArray *)
Definition inner_array (t : string) : string * bool :=
  if has_suffix t "[]" then (trim_suffix t "[]", true) else (t, false).

(** genC.go:65-74, unique = false *)
Definition c_field_name (name : string) : string :=
  remove_char "-" (title_join "." (title_join ":" name)).

(** genC.go:65-82, unique = true *)
Definition c_unique_name (name : string) (counts : smap Z) : string * smap Z :=
  uniq_name counts (c_field_name name).

(** genC.go:84-97 genCFieldType *)
Definition c_field_type (name : string) : string :=
  if in_set name c_buildin_type then name
  else
    let t := to_title (remove_char "-" (title_join "." name)) in
    if String.eqb t "" then "void" else t.

Definition c_member_type (pt : list proto) (t : string) : string :=
  c_field_type (get_base (trim_ns_prefix t) pt).

Definition c_brackets (b : bool) : string := if b then "[]" else "".

(** genC.go:115-128: one member of a union *)
Definition c_union_member (pt : list proto) (m : string * string) : string :=
  let memberName := fst m in
  let memberType := if String.eqb (snd m) "" then get_base memberName pt else snd m in
  let '(fieldType, ok) := inner_array (c_field_type memberType) in
  TAB ++ fieldType ++ " " ++ c_field_name memberName ++ c_brackets ok ++ ";" ++ NL.

(** fmt.Sprintf("%stypedef %s %s;\n", comment, content, fieldName), e.g. genC.go:132 *)
Definition c_struct_decl (fieldName doc content : string) : string :=
  gen_field_comment fieldName doc "//" ++ "typedef " ++ content ++ " " ++ fieldName ++ ";" ++ NL.

(** genC.go:101-146 CSimpleType *)
Definition c_simple_type (pt : list proto) (v : SimpleType) (g : GState) : GState :=
  if st_list v && negb (declared (st_name v) g) then
    let fieldType := c_member_type pt (st_base v) in
    let content := c_field_type fieldType ++ " " ++ c_field_name (st_name v) ++ "[];" ++ NL in
    let '(fieldName, counts) := c_unique_name (st_name v) (g_count g) in
    emit (st_name v) content
      (gen_field_comment fieldName (st_doc v) "//" ++ "typedef " ++ content) counts g
  else if st_union v && negb (Nat.eqb (length (st_members v)) 0) then
    if negb (declared (st_name v) g) then
      let content := "struct {" ++ NL
                     ++ sconcat (map (c_union_member pt) (to_sorted_pairs (st_members v))) ++ "}" in
      let '(fieldName, counts) := c_unique_name (st_name v) (g_count g) in
      emit (st_name v) content (c_struct_decl fieldName (st_doc v) content) counts g
    else g
  else if negb (declared (st_name v) g) then
    let '(fieldType, ok) := inner_array (c_member_type pt (st_base v)) in
    let content := fieldType ++ " " ++ c_field_name (st_name v) ++ c_brackets ok in
    let '(fieldName, counts) := c_unique_name (st_name v) (g_count g) in
    emit (st_name v) content
      (gen_field_comment fieldName (st_doc v) "//" ++ "typedef " ++ content ++ ";" ++ NL) counts g
  else g.

(** genC.go:153-156 *)
Definition c_attrgroup_line (pt : list proto) (a : AttributeGroup) : string :=
  TAB ++ c_member_type pt (ag_ref a) ++ " " ++ c_field_name (ag_name a) ++ ";" ++ NL.

(** genC.go:158-169 and 228-238 *)
Definition c_attribute_line (pt : list proto) (a : Attribute) : string :=
  let optional := if at_optional a then ", optional" else "" in
  let '(fieldType, ok) := inner_array (c_member_type pt (at_type a)) in
  TAB ++ fieldType ++ " " ++ c_field_name (at_name a) ++ "Attr" ++ c_brackets ok
  ++ "; // attr" ++ optional ++ NL.

(** genC.go:171-177 and 208-214 *)
Definition c_group_line (pt : list proto) (x : Group) : string :=
  TAB ++ c_member_type pt (gr_ref x) ++ " " ++ c_field_name (gr_name x)
  ++ c_brackets (gr_plural x) ++ ";" ++ NL.

(** genC.go:179-186 *)
Definition c_element_line (pt : list proto) (e : Element) : string :=
  let '(fieldType, ok) := inner_array (c_member_type pt (el_type e)) in
  TAB ++ fieldType ++ " " ++ c_field_name (el_name e) ++ c_brackets (ok || el_plural e) ++ ";" ++ NL.

(** genC.go:150-194 CComplexType *)
Definition c_complex_type (pt : list proto) (v : ComplexType) (g : GState) : GState :=
  if negb (declared (ct_name v) g) then
    let content := "struct {" ++ NL
                   ++ sconcat (map (c_attrgroup_line pt) (ct_attrgroups v))
                   ++ sconcat (map (c_attribute_line pt) (ct_attributes v))
                   ++ sconcat (map (c_group_line pt) (ct_groups v))
                   ++ sconcat (map (c_element_line pt) (ct_elements v))
                   ++ "}" in
    let '(fieldName, counts) := c_unique_name (ct_name v) (g_count g) in
    emit (ct_name v) content (c_struct_decl fieldName (ct_doc v) content) counts g
  else g.

(** genC.go:200-206 *)
Definition c_group_element_line (pt : list proto) (e : Element) : string :=
  TAB ++ c_member_type pt (el_type e) ++ " " ++ c_field_name (el_name e)
  ++ c_brackets (el_plural e) ++ ";" ++ NL.

(** genC.go:197-221 CGroup *)
Definition c_group (pt : list proto) (v : Group) (g : GState) : GState :=
  if negb (declared (gr_name v) g) then
    let content := "struct {" ++ NL
                   ++ sconcat (map (c_group_element_line pt) (gr_elements v))
                   ++ sconcat (map (c_group_line pt) (gr_groups v))
                   ++ "}" in
    let '(fieldName, counts) := c_unique_name (gr_name v) (g_count g) in
    emit (gr_name v) content (c_struct_decl fieldName (gr_doc v) content) counts g
  else g.

(** genC.go:225-244 CAttributeGroup *)
Definition c_attribute_group (pt : list proto) (v : AttributeGroup) (g : GState) : GState :=
  if negb (declared (ag_name v) g) then
    let content := "struct {" ++ NL
                   ++ sconcat (map (c_attribute_line pt) (ag_attributes v))
                   ++ "}" in
    let '(fieldName, counts) := c_unique_name (ag_name v) (g_count g) in
    emit (ag_name v) content (c_struct_decl fieldName (ag_doc v) content) counts g
  else g.

(** genC.go:247-257 CElement (no comment, counter not used) *)
Definition c_element (pt : list proto) (v : Element) (g : GState) : GState :=
  if negb (declared (el_name v) g) then
    let '(fieldType, ok) := inner_array (c_member_type pt (el_type v)) in
    let content := fieldType ++ " " ++ c_field_name (el_name v) ++ c_brackets (ok || el_plural v) in
    emit (el_name v) content (NL ++ "typedef " ++ content ++ ";" ++ NL) (g_count g) g
  else g.

(** genC.go:260-271 CAttribute *)
Definition c_attribute (pt : list proto) (v : Attribute) (g : GState) : GState :=
  if negb (declared (at_name v) g) then
    let '(fieldType, ok) := inner_array (c_member_type pt (at_type v)) in
    let content := fieldType ++ " " ++ c_field_name (at_name v) ++ c_brackets (ok || at_plural v) in
    let '(fieldName, counts) := c_unique_name (at_name v) (g_count g) in
    emit (at_name v) content
      (gen_field_comment fieldName (at_doc v) "//" ++ "typedef " ++ content ++ ";" ++ NL) counts g
  else g.

(** genC.go:41-47 *)
Definition c_entry (pt : list proto) (g : GState) (p : proto) : GState :=
  match p with
  | PNil => g
  | PSimple v => c_simple_type pt v g
  | PComplex v => c_complex_type pt v g
  | PElement v => c_element pt v g
  | PAttribute v => c_attribute pt v g
  | PGroup v => c_group pt v g
  | PAttrGroup v => c_attribute_group pt v g
  end.

(** genC.go:53 *)
Definition c_source (g : GState) : string := copyright ++ NL ++ g_field g.

End GenC.
