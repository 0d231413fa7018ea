(** Grammars of the generated programs, and trees whose programs are in them
    (C64, C66).  A program is a list of declarations; comments do not matter. *)

From Coq Require Import String Ascii List NArith Bool.
From Verif Require Import GoStr Base Utils SpecStr SpecTables SpecGen SpecOut.
Import ListNotations.
Local Open Scope string_scope.

(** * Identifiers.  Everything beyond ASCII counts as a letter. *)

Fixpoint every (P : ascii -> bool) (s : string) : Prop :=
  match s with EmptyString => True | String c r => P c = true /\ every P r end.

Definition letter (c : ascii) : bool := is_upper c || is_lower c || (128 <=? N_of_ascii c)%N.
Definition ident_char (c : ascii) : bool := letter c || is_digit c || Ascii.eqb c "_".
Definition ident (s : string) : Prop := exists a r, s = String a r /\ letter a = true /\ every ident_char r.

Definition keywords (l : lang) : list string :=
  match l with
  | Go =>
      ["break"; "case"; "chan"; "const"; "continue"; "default"; "defer"; "else"; "fallthrough"; "for"; "func"; "go"; "goto"; "if";
       "import"; "interface"; "map"; "package"; "range"; "return"; "select"; "struct"; "switch"; "type"; "var"]
  | C =>
      ["auto"; "break"; "case"; "char"; "const"; "continue"; "default"; "do"; "double"; "else"; "enum"; "extern"; "float"; "for"; "goto";
       "if"; "inline"; "int"; "long"; "register"; "restrict"; "return"; "short"; "signed"; "sizeof"; "static"; "struct"; "switch";
       "typedef"; "union"; "unsigned"; "void"; "volatile"; "while"; "_Bool"; "_Complex"; "_Imaginary"]
  | Java =>
      ["abstract"; "assert"; "boolean"; "break"; "byte"; "case"; "catch"; "char"; "class"; "const"; "continue"; "default"; "do"; "double";
       "else"; "enum"; "extends"; "final"; "finally"; "float"; "for"; "goto"; "if"; "implements"; "import"; "instanceof"; "int";
       "interface"; "long"; "native"; "new"; "package"; "private"; "protected"; "public"; "return"; "short"; "static"; "strictfp"; "super";
       "switch"; "synchronized"; "this"; "throw"; "throws"; "transient"; "try"; "void"; "volatile"; "while"; "true"; "false"; "null"]
  | Rust => rust_reserved
  | TypeScript =>
      ["break"; "case"; "catch"; "class"; "const"; "continue"; "debugger"; "default"; "delete"; "do"; "else"; "enum"; "export"; "extends";
       "false"; "finally"; "for"; "function"; "if"; "import"; "in"; "instanceof"; "new"; "null"; "return"; "super"; "switch"; "this";
       "throw"; "true"; "try"; "typeof"; "var"; "void"; "while"; "with"]
  end.

Definition identifier (l : lang) (s : string) : Prop := ident s /\ ~ In s (keywords l).

(** * Types *)

(** The names that may be used as types. *)
Class Scope := known : lang -> string -> Prop.

(** The names of types that need no declaration (in Go and Java with the
    imports that a generated file has), and those that the generators use though they do. *)
Definition predeclared (l : lang) : list string :=
  match l with
  | Go =>
      ["bool"; "byte"; "complex64"; "complex128"; "error"; "float32"; "float64"; "int"; "int8"; "int16"; "int32"; "int64"; "rune"; "string";
       "uint"; "uint8"; "uint16"; "uint32"; "uint64"; "uintptr"; "time.Time"; "xml.Name"]
  | C => []
  | Java => ["Boolean"; "Byte"; "Character"; "Double"; "Float"; "Integer"; "Long"; "Object"; "Short"; "String"; "Void"; "List"; "ArrayList"]
  | Rust =>
      ["bool"; "char"; "f32"; "f64"; "i8"; "i16"; "i32"; "i64"; "i128"; "isize"; "str"; "u8"; "u16"; "u32"; "u64"; "u128"; "usize"; "String"]
  | TypeScript => ["any"; "boolean"; "never"; "number"; "object"; "string"; "undefined"; "unknown"; "Uint8Array"]
  end.
Definition missing (l : lang) : list string := match l with C => ["bool"] | Java => ["QName"] | _ => [] end.
Definition standard (l : lang) : list string := (predeclared l ++ missing l)%list.

(** Any name (C64). *)
Definition any_name : Scope := fun _ _ => True.

Section Grammar.
Context {S : Scope}.

Inductive typing : lang -> string -> Prop :=
| ty_name l s : identifier l s -> known l s -> typing l s
| ty_qualified a b : identifier Go a -> identifier Go b -> known Go (a ++ "." ++ b) -> typing Go (a ++ "." ++ b)
| ty_interface : typing Go "interface{}"
| ty_pointer t : typing Go t -> typing Go ("*" ++ t)
| ty_slice t : typing Go t -> typing Go ("[]" ++ t)
| ty_words s : In s ["char"; "signed char"; "unsigned char"; "short"; "unsigned short"; "int"; "unsigned int"; "long"; "unsigned long";
                     "float"; "double"; "long double"; "void"] -> typing C s
| ty_list t : typing Java t -> typing Java ("List<" ++ t ++ ">")
| ty_vec t : typing Rust t -> typing Rust ("Vec<" ++ t ++ ">")
| ty_option t : typing Rust t -> typing Rust ("Option<" ++ t ++ ">")
| ty_special s : In s ["void"; "null"] -> typing TypeScript s
| ty_array t : typing TypeScript t -> typing TypeScript ("Array<" ++ t ++ ">")
| ty_or_null t : typing TypeScript t -> typing TypeScript (t ++ " | null").

(** * Members *)

(** Text between quotes or back quotes. *)
Definition literal (s : string) : Prop := free_of """" s /\ free_of "`" s /\ free_of "'" s /\ free_of "\" s /\ free_of LF s.

(** What may stand in front of a member. *)
Inductive annotation : lang -> string -> Prop :=
| an_element : annotation Java "@XmlElement(required = true)"
| an_element_name n : literal n -> annotation Java ("@XmlElement(required = true, name = " ++ quoted n ++ ")")
| an_attribute n : literal n -> annotation Java ("@XmlAttribute(name = " ++ quoted n ++ ")")
| an_required n : literal n -> annotation Java ("@XmlAttribute(name = " ++ quoted n ++ ", required = true)")
| an_value : annotation Java "@XmlValue"
| an_rename n : literal n -> annotation Rust ("#[serde(rename = " ++ quoted n ++ ")]")
| an_flatten : annotation Rust "#[serde(flatten)]".

Inductive member : lang -> string -> Prop :=
| me_go i t : identifier Go i -> typing Go t -> member Go (i ++ TAB ++ t)
| me_go_tag i t s : identifier Go i -> typing Go t -> literal s -> member Go (i ++ TAB ++ t ++ TAB ++ "`xml:" ++ quoted s ++ "`")
| me_go_embedded i : identifier Go i -> known Go i -> member Go ("*" ++ i)
| me_c t i rest : typing C t -> identifier C i -> In rest [";"; "; // attr"; "; // attr, optional"] -> member C (t ++ " " ++ i ++ rest)
| me_c_array t i rest : typing C t -> identifier C i -> In rest [";"; "; // attr"; "; // attr, optional"] ->
    member C (t ++ " " ++ i ++ "[]" ++ rest)
| me_java t i : typing Java t -> identifier Java i -> member Java ("protected " ++ t ++ " " ++ i ++ ";")
| me_rust t i : typing Rust t -> identifier Rust i -> member Rust ("pub " ++ i ++ ": " ++ t ++ ",")
| me_ts t i : typing TypeScript t -> identifier TypeScript i -> member TypeScript (i ++ ": " ++ t ++ ";").

Inductive members (l : lang) : list string -> Prop :=
| ms_nil : members l []
| ms_member m r : member l m -> members l r -> members l (m :: r)
| ms_annotated a m r : annotation l a -> member l m -> members l r -> members l (a :: m :: r).

(** A value of a TypeScript enumeration. *)
Inductive enumerator : string -> Prop :=
| en_text i s : ident i -> literal s -> enumerator (i ++ " = '" ++ s ++ "',")
| en_number i s : ident i -> s <> "" -> every is_digit s -> enumerator (i ++ " = " ++ s ++ ",").

(** * Declarations *)

(** A declaration of a name. *)
Inductive declaration : lang -> string -> list item -> Prop :=
| de_go_struct ns i ms : identifier Go i -> members Go ms ->
    declaration Go i [mkItem ns ("type " ++ i ++ " struct {") ms; mkItem [] "}" []]
| de_go_type ns i t gap : identifier Go i -> typing Go t -> In gap [" "; TAB] -> declaration Go i [mkItem ns ("type " ++ i ++ gap ++ t) []]
| de_c_struct ns i ms : identifier C i -> members C ms -> declaration C i [mkItem ns "typedef struct {" ms; mkItem [] ("} " ++ i ++ ";") []]
| de_c_type ns i t : identifier C i -> typing C t -> declaration C i [mkItem ns ("typedef " ++ t ++ " " ++ i ++ ";") []]
| de_c_array ns i t : identifier C i -> typing C t -> declaration C i [mkItem ns ("typedef " ++ t ++ " " ++ i ++ "[];") []]
| de_java_class ns i ms : identifier Java i -> members Java ms ->
    declaration Java i [mkItem ns ("public class " ++ i ++ " {") ms; mkItem [] "}" []]
| de_java_extends ns i t ms : identifier Java i -> typing Java t -> members Java ms ->
    declaration Java i [mkItem ns ("public class " ++ i ++ " extends " ++ t ++ "  {") ms; mkItem [] "}" []]
| de_java_annotated ns k n i it r : In k ["XmlElement"; "XmlAttribute"] -> literal n -> declaration Java i (it :: r) -> notes it = [] ->
    declaration Java i (mkItem ns "@XmlAccessorType(XmlAccessType.FIELD)" []
                      :: mkItem [] ("@" ++ k ++ "(required = true, name = " ++ quoted n ++ ")") [] :: it :: r)
| de_rust ns i ms : identifier Rust i -> members Rust ms ->
    declaration Rust i [mkItem ns "#[derive(Debug, Deserialize, Serialize, PartialEq)]" []; mkItem [] ("pub struct " ++ i ++ " {") ms;
                      mkItem [] "}" []]
| de_ts_class ns i ms : identifier TypeScript i -> members TypeScript ms ->
    declaration TypeScript i [mkItem ns ("export class " ++ i ++ " {") ms; mkItem [] "}" []]
| de_ts_extends ns i t ms : identifier TypeScript i -> typing TypeScript t -> members TypeScript ms ->
    declaration TypeScript i [mkItem ns ("export class " ++ i ++ " extends " ++ t ++ "  {") ms; mkItem [] "}" []]
| de_ts_type ns i t : identifier TypeScript i -> typing TypeScript t ->
    declaration TypeScript i [mkItem ns ("export type " ++ i ++ " = " ++ t ++ ";") []]
| de_ts_enum ns i vs : identifier TypeScript i -> Forall enumerator vs ->
    declaration TypeScript i [mkItem ns ("export enum " ++ i ++ " {") vs; mkItem [] "}" []].

Definition program (l : lang) (its : list item) : Prop :=
  exists ds, its = concat (map snd ds) /\ Forall (fun d => declaration l (fst d) (snd d)) ds.

End Grammar.

(** * Trees *)

(** Names as in XML, but not beginning with an underscore. *)
Definition name_char (c : ascii) : bool := ident_char c || Ascii.eqb c "-" || Ascii.eqb c "." || Ascii.eqb c ":".
Definition name_ok (n : string) : Prop := exists a r, n = String a r /\ letter a = true /\ every name_char r.

(** The types that a tree may refer to. *)
Class Pool := pooled : lang -> string -> Prop.
Definition any_type : Pool := fun _ _ => True.

Section Trees.
Context {E : Env} {P : Pool}.

(** Target types of the built-in types. *)
Definition targets (l : lang) : list string :=
  flat_map (fun n => match representation (lname l) n with Some t => [t] | None => [] end) xsd_builtin.

(** Names that some generator takes for a type of its language though they
    cannot stand there, or that become a keyword. *)
Definition improper (l : lang) (t : string) : Prop :=
  match l with Go => t = "interface" | C => t = "enum" | Rust => solid t = "Self" | _ => False end.

Definition type_ok (l : lang) (t : string) : Prop := In t (targets l) \/ (name_ok t /\ free_of ":" t /\ ~ improper l t /\ pooled l t).

(** No type at all is possible except in Java. *)
Definition maybe_type (l : lang) (t : string) : Prop := (t = "" /\ l <> Java) \/ type_ok l t.

Definition attribute_fine (l : lang) (a : Attribute) : Prop := name_ok (at_name a) /\ maybe_type l (at_type a).
Definition element_fine (l : lang) (e : Element) : Prop := name_ok (el_name e) /\ maybe_type l (el_type e).
Definition group_fine (l : lang) (x : Group) : Prop := name_ok (gr_name x) /\ maybe_type l (gr_ref x).
Definition attrgroup_fine (l : lang) (a : AttributeGroup) : Prop := name_ok (ag_name a) /\ maybe_type l (ag_ref a).
Definition member_fine (l : lang) (m : string * string) : Prop :=
  name_ok (fst m) /\ free_of ":" (fst m) /\ ~ improper l (fst m) /\ (snd m = "" -> pooled l (fst m)) /\ (snd m = "" \/ type_ok l (snd m)).

(** Names and types as one expects them. *)
Definition component_fine (l : lang) (p : proto) : Prop :=
  match p with
  | PNil => True
  | PSimple v => name_ok (st_name v) /\ Forall (member_fine l) (st_members v) /\
      (maybe_type l (st_base v) \/ (st_list v = false /\ is_union v = true))
  | PComplex v => name_ok (ct_name v) /\ (ct_base v = "" \/ type_ok l (ct_base v)) /\
      Forall (attrgroup_fine l) (ct_attrgroups v) /\ Forall (attribute_fine l) (ct_attributes v) /\
      Forall (group_fine l) (ct_groups v) /\ Forall (element_fine l) (ct_elements v)
  | PElement v => element_fine l v
  | PAttribute v => attribute_fine l v
  | PGroup v => name_ok (gr_name v) /\ Forall (element_fine l) (gr_elements v) /\ Forall (group_fine l) (gr_groups v)
  | PAttrGroup v => name_ok (ag_name v) /\ Forall (attribute_fine l) (ag_attributes v)
  end.
Definition tree_fine (l : lang) (pt : list proto) : Prop := Forall (component_fine l) pt.

(** What the generators cannot handle. *)
Definition value_fine (base value : string) : Prop :=
  if string_dec base "string" then ident value
  else if string_dec base "number" then value <> "" /\ every is_digit value
  else every ident_char value.

Definition manageable (l : lang) (pt : list proto) (p : proto) : Prop :=
  match l, p with
  | Go, PSimple v => st_list v = true -> resolved pt (local_part (st_base v)) <> ""
  | C, PSimple v => st_list v = true -> ~ array_type (shown C pt (st_base v))
  | C, PComplex v => Forall (fun a => ~ array_type (shown C pt (ag_ref a))) (ct_attrgroups v) /\
                     Forall (fun x => ~ array_type (shown C pt (gr_ref x))) (ct_groups v)
  | C, PGroup v => Forall (fun e => ~ array_type (shown C pt (el_type e))) (gr_elements v) /\
                   Forall (fun x => ~ array_type (shown C pt (gr_ref x))) (gr_groups v)
  | Java, PAttrGroup v => Forall (fun a => free_of "<" (shown Java pt (at_type a))) (ag_attributes v)
  | Rust, PSimple v => type_ident Rust (st_name v) <> "Self"
  | Rust, PComplex v => type_ident Rust (ct_name v) <> "Self" /\
                        (ct_base v = "" \/ builtin Rust (ct_base v) = true \/ free_of "<" (shown Rust pt (ct_base v)))
  | Rust, PGroup v => type_ident Rust (gr_name v) <> "Self"
  | Rust, PAttrGroup v => type_ident Rust (ag_name v) <> "Self"
  | TypeScript, PSimple v => enumerated TypeScript p = true -> Forall (value_fine (shown_ts pt (st_base v) false)) (st_enum v)
  | _, _ => True
  end.

End Trees.
