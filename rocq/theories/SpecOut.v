(** What surrounds the declarations in a generated file. *)

From Coq Require Import String Ascii List NArith Bool.
From Verif Require Import GoStr Base Utils SpecStr SpecGen.
Import ListNotations.
Local Open Scope string_scope.

Local Infix "+++" := app (at level 60, right associativity).

(** The value of the -l flag that selects a language, first letter capitalised. *)
Definition lname (l : lang) : string :=
  match l with Go => "Go" | C => "C" | Java => "Java" | Rust => "Rust" | TypeScript => "TypeScript" end.

Definition extension (l : lang) : string :=
  match l with Go => ".go" | C => ".h" | Java => ".java" | Rust => ".rs" | TypeScript => ".ts" end.

(** Text made of complete lines. *)
Definition text_lines (ls : list string) : string := sconcat (map (fun s => s ++ NL) ls).

Definition marker : string := "// Code generated by xgen. DO NOT EDIT.".

Definition package (pkg : string) : string := match pkg with EmptyString => "schema" | _ => pkg end.

(** The import block of a Go file: present iff something is imported. *)
Definition import_block (pkgs : list string) : string :=
  match pkgs with
  | [] => ""
  | _ => "import (" ++ NL ++ text_lines (map (fun p => TAB ++ quoted p) pkgs) ++ ")"
  end.

(** The lines before the first declaration. *)
Definition preamble (l : lang) (pkg : string) (imports : list string) : string :=
  match l with
  | Go => text_lines [marker; ""; "package " ++ package pkg] ++ import_block imports
  | C | TypeScript => text_lines [marker]
  | Java => text_lines [marker; ""; "package " ++ package pkg ++ ";"; "";
      "import java.util.ArrayList;"; "import java.util.List;";
      "import javax.xml.bind.annotation.XmlAccessType;"; "import javax.xml.bind.annotation.XmlAccessorType;";
      "import javax.xml.bind.annotation.XmlAttribute;"; "import javax.xml.bind.annotation.XmlElement;";
      "import javax.xml.bind.annotation.XmlSchemaType;"; "import javax.xml.bind.annotation.XmlType;";
      "import javax.xml.bind.annotation.XmlValue;"]
  | Rust => text_lines [marker; ""; "#[macro_use]"; "extern crate serde_derive;"; "extern crate serde;";
      "extern crate serde_xml_rs;"; ""; "use serde_xml_rs::from_reader;"]
  end.

Section Spec.
Context {E : Env}.

(** ** Imports of a Go file *)

Definition is_time (t : string) : bool := if string_dec t "time.Time" then true else false.

(** A component makes the generator import "time". *)
Definition asks_time (pt : list proto) (p : proto) : bool :=
  match p with
  | PSimple v => st_list v && is_time (shown Go pt (st_base v))
  | PComplex v => existsb (fun a => is_time (shown Go pt (ag_ref a))) (ct_attrgroups v)
                  || existsb (fun a => is_time (shown Go pt (at_type a))) (ct_attributes v)
                  || existsb (fun e => is_time (shown Go pt (el_type e))) (ct_elements v)
  | _ => false
  end.

(** A component declared as [id] makes the generator import "encoding/xml":
    structures whose name is not their identifier. *)
Definition asks_xml (p : proto) (id : string) : bool :=
  match p with
  | PSimple v => negb (st_list v) && is_union v && (if string_dec id (st_name v) then false else true)
  | PComplex v => if string_dec id (ct_name v) then false else true
  | PGroup v => if string_dec id (gr_name v) then false else true
  | PAttrGroup v => if string_dec id (ag_name v) then false else true
  | _ => false
  end.

Definition imports (pt : list proto) : list string :=
  let ps := map fst (rendered Go [] pt) in
  (if existsb (asks_time pt) ps then ["time"] else [])
  +++ (if existsb (fun x => asks_xml (fst x) (snd x)) (combine ps (identifiers Go [] ps)) then ["encoding/xml"] else []).

(** The rows of an outline. *)
Definition all_rows (its : list item) : list string := flat_map rows its.

(** Tree without its nil entries. *)
Definition without_nil (pt : list proto) : list proto :=
  filter (fun p => match p with PNil => false | _ => true end) pt.

(** [p] is the first component of the tree with its name. *)
Definition first_of (p : proto) (pt : list proto) : Prop :=
  exists pre post n, pt = pre +++ p :: post /\ proto_name p = Some n /\ forall q, In q pre -> proto_name q <> Some n.

(** A collection of [t]s ([C] puts the brackets behind the name). *)
Definition many (l : lang) (t : string) : string :=
  match l with
  | Go => "[]" ++ t
  | C => t
  | Java => "List<" ++ t ++ ">"
  | Rust => "Vec<" ++ t ++ ">"
  | TypeScript => "Array<" ++ t ++ ">"
  end.

(** The rows of an element of a complex type. *)
Definition element_rows (l : lang) (pt : list proto) (e : Element) : list string :=
  let t := shown l pt (el_type e) in
  let t := if el_plural e then many l t else t in
  let id := member_ident l (el_name e) in
  match l with
  | Go => [id ++ TAB ++ t ++ TAB ++ "`xml:" ++ quoted (el_name e) ++ "`"]
  | C => [t ++ " " ++ id ++ (if el_plural e then "[]" else "") ++ ";"]
  | Java => ["@XmlElement(required = true, name = " ++ quoted (el_name e) ++ ")"; "protected " ++ t ++ " " ++ id ++ ";"]
  | Rust => ["#[serde(rename = " ++ quoted (el_name e) ++ ")]"; "pub " ++ id ++ ": " ++ t ++ ","]
  | TypeScript => [id ++ ": " ++ t ++ ";"]
  end.

(** The rows of an attribute.  Java marks the required ones. *)
Definition attribute_rows (l : lang) (pt : list proto) (a : Attribute) : list string :=
  let t := shown l pt (at_type a) in
  let id := member_ident l (at_name a) in
  match l with
  | Go => [id ++ "Attr" ++ TAB ++ t ++ TAB
           ++ (if at_optional a then "`xml:" ++ quoted (at_name a ++ ",attr,omitempty") ++ "`"
               else "`xml:" ++ quoted (at_name a ++ ",attr") ++ "`")]
  | C => [t ++ " " ++ id ++ "Attr" ++ (if at_optional a then "; // attr, optional" else "; // attr")]
  | Java => [(if at_optional a then "@XmlAttribute(name = " ++ quoted (at_name a) ++ ")"
              else "@XmlAttribute(name = " ++ quoted (at_name a) ++ ", required = true)");
             "protected " ++ t ++ " " ++ id ++ "Attr;"]
  | Rust => ["#[serde(rename = " ++ quoted (at_name a) ++ ")]";
             "pub " ++ id ++ ": " ++ (if at_optional a then "Option<" ++ t ++ ">" else t) ++ ","]
  | TypeScript => [id ++ "Attr: " ++ (if at_optional a then t ++ " | null" else t) ++ ";"]
  end.

(** C writes array types around the name: [char name[]]. *)
Definition array_type (t : string) : Prop := exists u, t = u ++ "[]".

(** [sub] is a contiguous part of [l]. *)
Definition contains {A : Type} (l sub : list A) : Prop := exists a b, l = a +++ sub +++ b.

(** The star that Go puts before a reference. *)
Definition star (l : lang) (id : string) : string := match l with Go => "*" ++ id | _ => id end.

(** Character [c] occurs in no name or type of the component. *)
Definition component_free (c : ascii) (p : proto) : Prop :=
  match p with
  | PNil => True
  | PSimple v => free_of c (st_name v) /\ free_of c (st_base v) /\
      Forall (fun m => free_of c (fst m) /\ free_of c (snd m)) (st_members v)
  | PComplex v => free_of c (ct_name v) /\ free_of c (ct_base v) /\
      Forall (fun a => free_of c (ag_name a) /\ free_of c (ag_ref a)) (ct_attrgroups v) /\
      Forall (fun a => free_of c (at_name a) /\ free_of c (at_type a)) (ct_attributes v) /\
      Forall (fun x => free_of c (gr_name x) /\ free_of c (gr_ref x)) (ct_groups v) /\
      Forall (fun e => free_of c (el_name e) /\ free_of c (el_type e)) (ct_elements v)
  | PElement v => free_of c (el_name v) /\ free_of c (el_type v)
  | PAttribute v => free_of c (at_name v) /\ free_of c (at_type v)
  | PGroup v => free_of c (gr_name v) /\
      Forall (fun x => free_of c (gr_name x) /\ free_of c (gr_ref x)) (gr_groups v) /\
      Forall (fun e => free_of c (el_name e) /\ free_of c (el_type e)) (gr_elements v)
  | PAttrGroup v => free_of c (ag_name v) /\
      Forall (fun a => free_of c (at_name a) /\ free_of c (at_type a)) (ag_attributes v)
  end.
Definition tree_free (c : ascii) (pt : list proto) : Prop := Forall (component_free c) pt.

(** The fields of a Go structure as columns: identifier, type, tag. *)
Definition go_fields (pt : list proto) (id : string) (v : ComplexType) : list (list string) :=
  (if string_dec id (ct_name v) then [] else [["XMLName"; "xml.Name"; "`xml:" ++ quoted (ct_name v) ++ "`"]])
  +++ map (fun a => [member_ident Go (ag_name a); shown Go pt (ag_ref a)]) (ct_attrgroups v)
  +++ map (fun a => [member_ident Go (at_name a) ++ "Attr"; shown Go pt (at_type a);
                     "`xml:" ++ quoted (at_name a ++ (if at_optional a then ",attr,omitempty" else ",attr")) ++ "`"])
          (ct_attributes v)
  +++ map (fun x => [member_ident Go (gr_name x); (if gr_plural x then "[]" else "") ++ shown Go pt (gr_ref x)])
          (ct_groups v)
  +++ map (fun e => [member_ident Go (el_name e); (if el_plural e then "[]" else "") ++ shown Go pt (el_type e);
                     "`xml:" ++ quoted (el_name e) ++ "`"]) (ct_elements v)
  +++ match ct_base v with
      | EmptyString => []
      | _ => if builtin Go (ct_base v) then [["Value"; ct_base v; "`xml:" ++ quoted ",chardata" ++ "`"]]
             else [[type_name Go (ct_base v)]]
      end.

End Spec.
