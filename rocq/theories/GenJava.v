(** genJava.go *)

From Coq Require Import String Ascii List NArith ZArith Bool.
From Verif Require Import GoStr Base Utils GenGo.
Import ListNotations.
Local Open Scope string_scope.

(** genJava.go:18-30 javaBuildInType *)
Definition java_buildin_type : list string :=
  ["Boolean"; "Byte"; "Character"; "List<String>"; "List<Byte>"; "Float"; "Integer"; "Short"; "String"; "QName"; "Long"].

(** genJava.go:194-197 *)
Definition is_java_builtin (t : string) : bool := in_set t java_buildin_type.

Section GenJava.
Context {E : Env}.

(** genJava.go:66-75, unique = false *)
Definition java_field_name (name : string) : string :=
  remove_char "-" (title_join "." (title_join ":" name)).

(** genJava.go:66-83, unique = true *)
Definition java_unique_name (name : string) (counts : smap Z) : string * smap Z :=
  uniq_name counts (java_field_name name).

(** genJava.go:85-98 genJavaFieldType *)
Definition java_field_type (name : string) : string :=
  if in_set name java_buildin_type then name
  else
    let t := to_title (remove_char "-" (title_join "." name)) in
    if String.eqb t "" then "void" else t.

Definition java_member_type (pt : list proto) (t : string) : string :=
  java_field_type (get_base (trim_ns_prefix t) pt).

Definition java_list (plural : bool) (t : string) : string :=
  if plural then "List<" ++ t ++ ">" else t.

(** "\tprotected %s %s;\n" *)
Definition java_field (t name : string) : string :=
  TAB ++ "protected " ++ t ++ " " ++ name ++ ";" ++ NL.

(** genJava.go:115-124 *)
Definition java_union_member (pt : list proto) (m : string * string) : string :=
  let memberName := fst m in
  let memberType := if String.eqb (snd m) "" then get_base memberName pt else snd m in
  TAB ++ "@XmlElement(required = true)" ++ NL
  ++ java_field (java_field_type memberType) (java_field_name memberName).

(** "%spublic class %s%s" *)
Definition java_class (fieldName doc ext content : string) : string :=
  gen_field_comment fieldName doc "//" ++ "public class " ++ fieldName ++ ext ++ content.

(** "@XmlAccessorType(XmlAccessType.FIELD)\n@<ann>(required = true, name = \"%s\")\npublic class %s {\n%s}\n" *)
Definition java_wrapper (ann name fieldName content : string) : string :=
  "@XmlAccessorType(XmlAccessType.FIELD)" ++ NL ++ "@" ++ ann ++ "(required = true, name = "
  ++ DQ ++ name ++ DQ ++ ")" ++ NL ++ "public class " ++ fieldName ++ " {" ++ NL ++ content ++ "}" ++ NL.

(** genJava.go:102-139 JavaSimpleType *)
Definition java_simple_type (pt : list proto) (v : SimpleType) (g : GState) : GState :=
  if st_list v && negb (declared (st_name v) g) then
    let fieldType := java_member_type pt (st_base v) in
    let content := java_field ("List<" ++ fieldType ++ ">") (java_field_name (st_name v)) in
    let '(fieldName, counts) := java_unique_name (st_name v) (g_count g) in
    emit (st_name v) content
      (NL ++ java_wrapper "XmlAttribute" (st_name v) fieldName content) counts g
  else if st_union v && negb (Nat.eqb (length (st_members v)) 0) then
    if negb (declared (st_name v) g) then
      let content := " {" ++ NL
                     ++ sconcat (map (java_union_member pt) (to_sorted_pairs (st_members v)))
                     ++ "}" ++ NL in
      let '(fieldName, counts) := java_unique_name (st_name v) (g_count g) in
      emit (st_name v) content (java_class fieldName (st_doc v) "" content) counts g
    else g
  else if negb (declared (st_name v) g) then
    let content := java_field (java_member_type pt (st_base v)) (java_field_name (st_name v)) in
    let '(fieldName, counts) := java_unique_name (st_name v) (g_count g) in
    emit (st_name v) content
      (gen_field_comment fieldName (st_doc v) "//"
       ++ java_wrapper "XmlAttribute" (st_name v) fieldName content) counts g
  else g.

(** genJava.go:146-149 *)
Definition java_attrgroup_line (pt : list proto) (a : AttributeGroup) : string :=
  TAB ++ "@XmlElement(required = true)" ++ NL
  ++ java_field (java_member_type pt (ag_ref a)) (java_field_name (ag_name a)).

Definition java_required (optional : bool) : string :=
  if optional then "" else ", required = true".

(** "\t@XmlAttribute(name = \"%s\"%s)\n" *)
Definition java_attribute_annotation (a : Attribute) : string :=
  TAB ++ "@XmlAttribute(name = " ++ DQ ++ at_name a ++ DQ ++ java_required (at_optional a) ++ ")" ++ NL.

(** genJava.go:151-158 *)
Definition java_attribute_line (pt : list proto) (a : Attribute) : string :=
  java_attribute_annotation a
  ++ java_field (java_member_type pt (at_type a)) (java_field_name (at_name a) ++ "Attr").

(** genJava.go:159-165 and 211-217 *)
Definition java_group_line (pt : list proto) (x : Group) : string :=
  java_field (java_list (gr_plural x) (java_member_type pt (gr_ref x))) (java_field_name (gr_name x)).

(** genJava.go:167-173 and 203-209 *)
Definition java_element_line (pt : list proto) (e : Element) : string :=
  TAB ++ "@XmlElement(required = true, name = " ++ DQ ++ el_name e ++ DQ ++ ")" ++ NL
  ++ java_field (java_list (el_plural e) (java_member_type pt (el_type e))) (java_field_name (el_name e)).

(** genJava.go:175-178 *)
Definition java_value_line (pt : list proto) (base : string) : string :=
  if Nat.ltb 0 (String.length base) && is_java_builtin base
  then TAB ++ "@XmlValue" ++ NL ++ java_field (java_member_type pt base) "value"
  else "".

(** genJava.go:184-188 *)
Definition java_extension (pt : list proto) (base : string) : string :=
  if Nat.ltb 0 (String.length base) && negb (is_java_builtin base)
  then " extends " ++ java_member_type pt base ++ " "
  else "".

(** genJava.go:143-192 JavaComplexType *)
Definition java_complex_type (pt : list proto) (v : ComplexType) (g : GState) : GState :=
  if negb (declared (ct_name v) g) then
    let content := " {" ++ NL
                   ++ sconcat (map (java_attrgroup_line pt) (ct_attrgroups v))
                   ++ sconcat (map (java_attribute_line pt) (ct_attributes v))
                   ++ sconcat (map (java_group_line pt) (ct_groups v))
                   ++ sconcat (map (java_element_line pt) (ct_elements v))
                   ++ java_value_line pt (ct_base v)
                   ++ "}" ++ NL in
    let '(fieldName, counts) := java_unique_name (ct_name v) (g_count g) in
    emit (ct_name v) content
      (java_class fieldName (ct_doc v) (java_extension pt (ct_base v)) content) counts g
  else g.

(** genJava.go:200-224 JavaGroup *)
Definition java_group (pt : list proto) (v : Group) (g : GState) : GState :=
  if negb (declared (gr_name v) g) then
    let content := " {" ++ NL
                   ++ sconcat (map (java_element_line pt) (gr_elements v))
                   ++ sconcat (map (java_group_line pt) (gr_groups v))
                   ++ "}" ++ NL in
    let '(fieldName, counts) := java_unique_name (gr_name v) (g_count g) in
    emit (gr_name v) content (java_class fieldName (gr_doc v) "" content) counts g
  else g.

(** genJava.go:231-238: here "Attr" is appended to the type, not to the name *)
Definition java_group_attribute_line (pt : list proto) (a : Attribute) : string :=
  java_attribute_annotation a
  ++ java_field (java_member_type pt (at_type a) ++ "Attr") (java_field_name (at_name a)).

(** genJava.go:228-244 JavaAttributeGroup *)
Definition java_attribute_group (pt : list proto) (v : AttributeGroup) (g : GState) : GState :=
  if negb (declared (ag_name v) g) then
    let content := " {" ++ NL
                   ++ sconcat (map (java_group_attribute_line pt) (ag_attributes v))
                   ++ "}" ++ NL in
    let '(fieldName, counts) := java_unique_name (ag_name v) (g_count g) in
    emit (ag_name v) content (java_class fieldName (ag_doc v) "" content) counts g
  else g.

(** genJava.go:247-257 JavaElement *)
Definition java_element (pt : list proto) (v : Element) (g : GState) : GState :=
  if negb (declared (el_name v) g) then
    let content := java_field (java_list (el_plural v) (java_member_type pt (el_type v)))
                     (java_field_name (el_name v)) in
    let '(fieldName, counts) := java_unique_name (el_name v) (g_count g) in
    emit (el_name v) content (NL ++ java_wrapper "XmlElement" (el_name v) fieldName content) counts g
  else g.

(** genJava.go:260-270 JavaAttribute *)
Definition java_attribute (pt : list proto) (v : Attribute) (g : GState) : GState :=
  if negb (declared (at_name v) g) then
    let content := java_field (java_list (at_plural v) (java_member_type pt (at_type v)))
                     (java_field_name (at_name v)) in
    let '(fieldName, counts) := java_unique_name (at_name v) (g_count g) in
    emit (at_name v) content (NL ++ java_wrapper "XmlAttribute" (at_name v) fieldName content) counts g
  else g.

(** genJava.go:36-42 *)
Definition java_entry (pt : list proto) (g : GState) (p : proto) : GState :=
  match p with
  | PNil => g
  | PSimple v => java_simple_type pt v g
  | PComplex v => java_complex_type pt v g
  | PElement v => java_element pt v g
  | PAttribute v => java_attribute pt v g
  | PGroup v => java_group pt v g
  | PAttrGroup v => java_attribute_group pt v g
  end.

(** genJava.go:52-60 *)
Definition java_import_package : string :=
  sjoin NL
    ["import java.util.ArrayList;";
     "import java.util.List;";
     "import javax.xml.bind.annotation.XmlAccessType;";
     "import javax.xml.bind.annotation.XmlAccessorType;";
     "import javax.xml.bind.annotation.XmlAttribute;";
     "import javax.xml.bind.annotation.XmlElement;";
     "import javax.xml.bind.annotation.XmlSchemaType;";
     "import javax.xml.bind.annotation.XmlType;";
     "import javax.xml.bind.annotation.XmlValue;"].

(** genJava.go:62 *)
Definition java_source (pkg : string) (g : GState) : string :=
  copyright ++ NL ++ NL ++ "package " ++ package_name pkg ++ ";" ++ NL ++ NL
  ++ java_import_package ++ NL ++ g_field g.

End GenJava.
