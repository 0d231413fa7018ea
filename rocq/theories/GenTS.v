(** genTypeScript.go *)

From Coq Require Import String Ascii List NArith ZArith Bool.
From Verif Require Import GoStr Base Utils.
Import ListNotations.
Local Open Scope string_scope.

(** genTypeScript.go:18-26 typeScriptBuildInType *)
Definition ts_buildin_type : list string :=
  ["boolean"; "number"; "string"; "void"; "null"; "undefined"; "Uint8Array"].

(** genTypeScript.go:189-192 *)
Definition is_ts_builtin (t : string) : bool := in_set t ts_buildin_type.

Section GenTS.
Context {E : Env}.

(** genTypeScript.go:50-59, unique = false *)
Definition ts_field_name (name : string) : string :=
  remove_char "-" (title_join "." (title_join ":" name)).

(** genTypeScript.go:50-67, unique = true *)
Definition ts_unique_name (name : string) (counts : smap Z) : string * smap Z :=
  uniq_name counts (ts_field_name name).

(** genTypeScript.go:69-85 genTypeScriptFieldType: built-in types return before
    plurality is looked at *)
Definition ts_field_type (name : string) (plural : bool) : string :=
  if in_set name ts_buildin_type then name
  else
    let t := to_title (remove_char "-" (title_join "." name)) in
    let t := if String.eqb t "" || String.eqb t "Any" then "any" else t in
    if plural then "Array<" ++ t ++ ">" else t.

Definition ts_member_type (pt : list proto) (t : string) (plural : bool) : string :=
  ts_field_type (get_base (trim_ns_prefix t) pt) plural.

(** "\t%s: %s;\n" *)
Definition ts_field (name t : string) : string := TAB ++ name ++ ": " ++ t ++ ";" ++ NL.

(** genTypeScript.go:103-111 *)
Definition ts_union_member (pt : list proto) (m : string * string) : string :=
  let memberName := fst m in
  let memberType := if String.eqb (snd m) "" then get_base memberName pt else snd m in
  ts_field (ts_field_name memberName) (ts_field_type memberType false).

Definition ts_class (fieldName doc ext content : string) : string :=
  gen_field_comment fieldName doc "//" ++ "export class " ++ fieldName ++ ext ++ content.

(** genTypeScript.go:122-131: one enumeration member *)
Definition ts_enum_member (baseType enum : string) : string :=
  if String.eqb baseType "string" then TAB ++ enum ++ " = '" ++ enum ++ "'," ++ NL
  else if String.eqb baseType "number" then TAB ++ "Enum" ++ enum ++ " = " ++ enum ++ "," ++ NL
  else TAB ++ "Enum" ++ enum ++ " = '" ++ enum ++ "'," ++ NL.

(** gen.Field += text; fieldNameCount = counts (StructAST untouched) *)
Definition emit_anon (text : string) (counts : smap Z) (g : GState) : GState :=
  mkG (g_field g ++ text) (g_ast g) (g_time g) (g_xml g) counts.

(** genTypeScript.go:89-142 TypeScriptSimpleType *)
Definition ts_simple_type (pt : list proto) (v : SimpleType) (g : GState) : GState :=
  if st_list v && negb (declared (st_name v) g) then
    let content := " = " ++ ts_member_type pt (st_base v) true ++ ";" ++ NL in
    let '(fieldName, counts) := ts_unique_name (st_name v) (g_count g) in
    emit (st_name v) content
      (gen_field_comment fieldName (st_doc v) "//" ++ "export type " ++ fieldName ++ content) counts g
  else if st_union v && negb (Nat.eqb (length (st_members v)) 0) then
    if negb (declared (st_name v) g) then
      let content := " {" ++ NL
                     ++ sconcat (map (ts_union_member pt) (to_sorted_pairs (st_members v)))
                     ++ "}" ++ NL in
      let '(fieldName, counts) := ts_unique_name (st_name v) (g_count g) in
      emit (st_name v) content (ts_class fieldName (st_doc v) "" content) counts g
    else g
  else if negb (Nat.eqb (length (st_enum v)) 0) then
    let baseType := ts_member_type pt (st_base v) false in
    let content := sconcat (map (ts_enum_member baseType) (st_enum v)) in
    let '(fieldName, counts) := ts_unique_name (st_name v) (g_count g) in
    emit_anon (gen_field_comment fieldName (st_doc v) "//" ++ "export enum " ++ fieldName ++ " {" ++ NL
               ++ content ++ "}" ++ NL) counts g
  else if negb (declared (st_name v) g) then
    let content := " " ++ ts_member_type pt (st_base v) false ++ ";" ++ NL in
    let '(fieldName, counts) := ts_unique_name (st_name v) (g_count g) in
    emit (st_name v) content
      (gen_field_comment fieldName (st_doc v) "//" ++ "export type " ++ fieldName ++ " =" ++ content)
      counts g
  else g.

(** genTypeScript.go:149-152 *)
Definition ts_attrgroup_line (pt : list proto) (a : AttributeGroup) : string :=
  ts_field (ts_field_name (ag_name a)) (ts_member_type pt (ag_ref a) false).

(** genTypeScript.go:154-161 and 218-224 *)
Definition ts_attribute_line (pt : list proto) (a : Attribute) : string :=
  let optional := if at_optional a then " | null" else "" in
  ts_field (ts_field_name (at_name a) ++ "Attr") (ts_member_type pt (at_type a) (at_plural a) ++ optional).

(** genTypeScript.go:162-164 and 202-204 *)
Definition ts_group_line (pt : list proto) (x : Group) : string :=
  ts_field (ts_field_name (gr_name x)) (ts_member_type pt (gr_ref x) (gr_plural x)).

(** genTypeScript.go:166-169 and 198-200 *)
Definition ts_element_line (pt : list proto) (e : Element) : string :=
  ts_field (ts_field_name (el_name e)) (ts_member_type pt (el_type e) (el_plural e)).

(** genTypeScript.go:171-174 *)
Definition ts_value_line (pt : list proto) (base : string) : string :=
  if Nat.ltb 0 (String.length base) && is_ts_builtin base
  then ts_field "Value" (ts_member_type pt base false)
  else "".

(** genTypeScript.go:178-183 (the [content +=] at line 181 is dead: content is
    not used after it was stored) *)
Definition ts_extension (pt : list proto) (base : string) : string :=
  if Nat.ltb 0 (String.length base) && negb (is_ts_builtin base)
  then " extends " ++ ts_member_type pt base false ++ " "
  else "".

(** genTypeScript.go:146-187 TypeScriptComplexType *)
Definition ts_complex_type (pt : list proto) (v : ComplexType) (g : GState) : GState :=
  if negb (declared (ct_name v) g) then
    let content := " {" ++ NL
                   ++ sconcat (map (ts_attrgroup_line pt) (ct_attrgroups v))
                   ++ sconcat (map (ts_attribute_line pt) (ct_attributes v))
                   ++ sconcat (map (ts_group_line pt) (ct_groups v))
                   ++ sconcat (map (ts_element_line pt) (ct_elements v))
                   ++ ts_value_line pt (ct_base v)
                   ++ "}" ++ NL in
    let '(fieldName, counts) := ts_unique_name (ct_name v) (g_count g) in
    emit (ct_name v) content
      (ts_class fieldName (ct_doc v) (ts_extension pt (ct_base v)) content) counts g
  else g.

(** genTypeScript.go:195-211 TypeScriptGroup *)
Definition ts_group (pt : list proto) (v : Group) (g : GState) : GState :=
  if negb (declared (gr_name v) g) then
    let content := " {" ++ NL
                   ++ sconcat (map (ts_element_line pt) (gr_elements v))
                   ++ sconcat (map (ts_group_line pt) (gr_groups v))
                   ++ "}" ++ NL in
    let '(fieldName, counts) := ts_unique_name (gr_name v) (g_count g) in
    emit (gr_name v) content (ts_class fieldName (gr_doc v) "" content) counts g
  else g.

(** genTypeScript.go:215-230 TypeScriptAttributeGroup *)
Definition ts_attribute_group (pt : list proto) (v : AttributeGroup) (g : GState) : GState :=
  if negb (declared (ag_name v) g) then
    let content := " {" ++ NL
                   ++ sconcat (map (ts_attribute_line pt) (ag_attributes v))
                   ++ "}" ++ NL in
    let '(fieldName, counts) := ts_unique_name (ag_name v) (g_count g) in
    emit (ag_name v) content (ts_class fieldName (ag_doc v) "" content) counts g
  else g.

(** "%sexport type %s =%s" *)
Definition ts_alias (fieldName doc content : string) : string :=
  gen_field_comment fieldName doc "//" ++ "export type " ++ fieldName ++ " =" ++ content.

(** genTypeScript.go:233-239 TypeScriptElement *)
Definition ts_element (pt : list proto) (v : Element) (g : GState) : GState :=
  if negb (declared (el_name v) g) then
    let content := " " ++ ts_member_type pt (el_type v) (el_plural v) ++ ";" ++ NL in
    let '(fieldName, counts) := ts_unique_name (el_name v) (g_count g) in
    emit (el_name v) content (ts_alias fieldName (el_doc v) content) counts g
  else g.

(** genTypeScript.go:242-248 TypeScriptAttribute *)
Definition ts_attribute (pt : list proto) (v : Attribute) (g : GState) : GState :=
  if negb (declared (at_name v) g) then
    let content := " " ++ ts_member_type pt (at_type v) (at_plural v) ++ ";" ++ NL in
    let '(fieldName, counts) := ts_unique_name (at_name v) (g_count g) in
    emit (at_name v) content (ts_alias fieldName (at_doc v) content) counts g
  else g.

(** genTypeScript.go:32-38 *)
Definition ts_entry (pt : list proto) (g : GState) (p : proto) : GState :=
  match p with
  | PNil => g
  | PSimple v => ts_simple_type pt v g
  | PComplex v => ts_complex_type pt v g
  | PElement v => ts_element pt v g
  | PAttribute v => ts_attribute pt v g
  | PGroup v => ts_group pt v g
  | PAttrGroup v => ts_attribute_group pt v g
  end.

(** genTypeScript.go:44 *)
Definition ts_source (g : GState) : string := copyright ++ NL ++ g_field g.

End GenTS.
