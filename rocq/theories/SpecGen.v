(** Specification vocabulary for the generated code (C30-C41).  A reader that
    is independent of the generators turns generated text back into an outline:
    comments, declaration lines and the indented member lines below them. *)

From Coq Require Import String Ascii List NArith Bool.
From Verif Require Import GoStr Base Utils GenGo GenC GenJava GenRust GenTS SpecStr.
Import ListNotations.
Local Open Scope string_scope.

Local Infix "+++" := app (at level 60, right associativity).

(** * Reading *)

Record item : Type := mkItem {
  notes : list string;    (* comment lines in front of it *)
  head : string;          (* a line that starts in the first column *)
  rows : list string      (* the lines below it that start with a tab, without the tab *)
}.

Definition reading : Type := (list string * list item)%type.

(** Lines are read from the last to the first.  Empty lines are skipped. *)
Definition read_line (l : string) (r : reading) : reading :=
  match l with
  | EmptyString => r
  | String "013" EmptyString => r
  | String "009" row => (row :: fst r, snd r)
  | String "/" (String "/" _) =>
      match snd r with
      | it :: its => (fst r, mkItem (l :: notes it) (head it) (rows it) :: its)
      | [] => r
      end
  | _ => ([], mkItem [] l (fst r) :: snd r)
  end.

Definition read_text (s : string) : reading := fold_right read_line ([], []) (split_on LF s).

(** The outline of a text: no member line may stand in front of the first
    declaration line. *)
Definition outline (s : string) : option (list item) :=
  match read_text s with
  | ([], its) => Some its
  | _ => None
  end.

(** * Which components contribute *)

Inductive lang : Type := Go | C | Java | Rust | TypeScript.

(** [Some u] if [t = u ++ suf]. *)
Fixpoint strip_suffix (t suf : string) : option string :=
  if string_dec t suf then Some ""
  else match t with
       | EmptyString => None
       | String a r => option_map (String a) (strip_suffix r suf)
       end.

Section Spec.
Context {E : Env}.

Definition entry_of (l : lang) : list proto -> GState -> proto -> GState :=
  match l with Go => go_entry | C => c_entry | Java => java_entry | Rust => rust_entry | TypeScript => ts_entry end.

(** A union with at least one member. *)
Definition is_union (v : SimpleType) : bool :=
  st_union v && match st_members v with [] => false | _ => true end.

(** TypeScript renders these as enum and never records that it did. *)
Definition enumerated (l : lang) (p : proto) : bool :=
  match l, p with
  | TypeScript, PSimple v => negb (is_union v) && match st_enum v with [] => false | _ => true end
  | _, _ => false
  end.

Definition listed (p : proto) : bool := match p with PSimple v => st_list v | _ => false end.

(** The components that are rendered, in order; [true]: as TypeScript enum. *)
Fixpoint rendered (l : lang) (seen : list string) (tree : list proto) : list (proto * bool) :=
  match tree with
  | [] => []
  | p :: r =>
      match proto_name p with
      | None => rendered l seen r
      | Some n =>
          if in_dec string_dec n seen then
            if enumerated l p then (p, true) :: rendered l seen r else rendered l seen r
          else if enumerated l p && negb (listed p) then (p, true) :: rendered l seen r
          else (p, false) :: rendered l (n :: seen) r
      end
  end.

(** * Names *)

(** First rune upper-cased. *)
Definition capital (s : string) : string :=
  match runes s with
  | [] => ""
  | r :: t => encode_rune (rune_upper r) ++ sconcat (map encode_rune t)
  end.

(** The words between the separators, capitalised and joined. *)
Definition joined (sep : ascii) (s : string) : string := sconcat (map capital (split_on sep s)).
Definition camel (s : string) : string := erase "-" (joined "." (joined ":" s)).
Definition solid (s : string) : string := erase "_" (camel s).

Definition lowered (s : string) : string := sconcat (map (fun r => encode_rune (rune_lower r)) (runes s)).
Definition snake (s : string) : string :=
  let n := lowered (separated (camel s)) in
  if in_dec string_dec n rust_reserved then n ++ "_attr" else n.

(** The identifier of a type and of a member. *)
Definition type_ident (l : lang) (name : string) : string :=
  match l with Go | Rust => solid name | _ => camel name end.
Definition member_ident (l : lang) (name : string) : string :=
  match l with Rust => snake name | _ => type_ident l name end.

Definition plain_ident (l : lang) (p : proto) : string :=
  let n := match proto_name p with Some n => n | None => "" end in
  match l, p with
  | Rust, PElement _ | Rust, PAttribute _ => member_ident l n
  | _, _ => type_ident l n
  end.

(** * Identifiers *)

(** Does the component advance the counter of its name. *)
Definition counting (l : lang) (p : proto) : bool :=
  match l, p with
  | Go, PElement _ | C, PElement _ | Rust, PElement _ | Rust, PAttribute _ => false
  | _, _ => true
  end.

(** [k]-th use of a name. *)
Definition numbered (n : string) (k : nat) : string :=
  if Nat.eqb k 1 then n else n ++ itoa (N.of_nat k).

Definition uses (n : string) (used : list string) : nat := count_occ string_dec used n.

(** The identifiers with their numbers, given the counted uses so far. *)
Fixpoint identifiers (l : lang) (used : list string) (ps : list proto) : list string :=
  match ps with
  | [] => []
  | p :: r =>
      let n := plain_ident l p in
      if counting l p then numbered n (S (uses n used)) :: identifiers l (n :: used) r
      else n :: identifiers l used r
  end.

(** * What a component looks like *)

(** The type names that are used as they are. *)
Definition builtins (l : lang) : list string :=
  match l with
  | Go =>
      ["int"; "int8"; "int16"; "int32"; "int64"; "uint"; "uint8"; "uint16"; "uint32"; "uint64"; "float32"; "float64";
       "complex64"; "complex128"; "byte"; "bool"; "string"; "interface"; "[]byte"; "[]bool"; "[]string"; "[]interface{}";
       "xml.Name"; "time.Time"]
  | C =>
      ["char"; "signed char"; "unsigned char"; "short"; "unsigned short"; "int"; "unsigned int"; "long"; "unsigned long";
       "float"; "double"; "long double"; "bool"; "void"; "enum"; "char[]"]
  | Java => ["Byte"; "Short"; "Integer"; "Long"; "Float"; "Boolean"; "Character"; "String"; "QName"; "List<Byte>"; "List<String>"]
  | Rust =>
      ["i8"; "i16"; "i32"; "i64"; "i128"; "isize"; "u8"; "u16"; "u32"; "u64"; "u128"; "usize"; "f32"; "f64"; "bool"; "char";
       "String"; "Vec<u8>"; "Vec<char>"; "Vec<String>"]
  | TypeScript => ["number"; "string"; "boolean"; "Uint8Array"; "void"; "null"; "undefined"]
  end.
Definition builtin (l : lang) (t : string) : bool := if in_dec string_dec t (builtins l) then true else false.

(** How a reference to another type is written. *)
Definition reference (l : lang) (t : string) : string :=
  let bare := capital (erase "-" (joined "." t)) in
  let id := match l with Go => erase "_" bare | Rust => solid t | _ => bare end in
  if string_dec id "" then
    match l with Go => "interface{}" | C | Java => "void" | Rust => "char" | TypeScript => "any" end
  else
    match l with
    | Go => "*" ++ id
    | TypeScript => if string_dec id "Any" then "any" else id
    | _ => id
    end.

Definition type_name (l : lang) (t : string) : string := if builtin l t then t else reference l t.

(** What a name stands for: the base of the first simple type (that is no list
    or union), the type of the first element or attribute, declared with it. *)
Definition stands_for (p : proto) : list (string * string) :=
  match p with
  | PSimple v => if st_list v || st_union v then [] else [(st_name v, st_base v)]
  | PAttribute v => [(at_name v, at_type v)]
  | PElement v => [(el_name v, el_type v)]
  | _ => []
  end.
Definition resolved (tree : list proto) (name : string) : string :=
  match find (fun x => if string_dec (fst x) name then true else false) (flat_map stands_for tree) with
  | Some (_, t) => t
  | None => name
  end.

(** A reference to type [t] in [tree]. *)
Definition shown (l : lang) (tree : list proto) (t : string) : string :=
  type_name l (resolved tree (local_part t)).

(** TypeScript: an array unless the type is built in. *)
Definition array (plural : bool) (t : string) : string :=
  if plural then if builtin TypeScript t then type_name TypeScript t else "Array<" ++ type_name TypeScript t ++ ">"
  else type_name TypeScript t.
Definition shown_ts (tree : list proto) (t : string) (plural : bool) : string :=
  array plural (resolved tree (local_part t)).

Definition member_type (tree : list proto) (m : string * string) : string :=
  if string_dec (snd m) "" then resolved tree (fst m) else snd m.

Definition comment (id doc : string) : list string :=
  map (fun l => "// " ++ l ++ CR) (comment_text id doc).

Definition quoted (s : string) : string := DQ ++ s ++ DQ.

(** ** Go *)
Definition cols (l : list string) : string := sjoin TAB l.
Definition when (b : bool) (s : string) : string := if b then s else "".
Definition xml_tag (s : string) : string := "`xml:" ++ quoted s ++ "`".

Definition go_struct (id doc : string) (members : list string) : list item :=
  [mkItem (comment id doc) ("type " ++ id ++ " struct {") members; mkItem [] "}" []].
Definition go_alias (id doc rest : string) : list item :=
  [mkItem (comment id doc) ("type " ++ id ++ rest) []].

Definition go_name_row (id name : string) : list string :=
  if string_dec id name then [] else [cols ["XMLName"; "xml.Name"; xml_tag name]].
Definition go_attribute_row (pt : list proto) (a : Attribute) : string :=
  cols [member_ident Go (at_name a) ++ "Attr"; shown Go pt (at_type a);
        xml_tag (at_name a ++ ",attr" ++ when (at_optional a) ",omitempty")].
Definition go_group_row (pt : list proto) (x : Group) : string :=
  cols [member_ident Go (gr_name x); when (gr_plural x) "[]" ++ shown Go pt (gr_ref x)].
Definition go_base_row (base : string) : list string :=
  match base with
  | EmptyString => []
  | _ => if builtin Go base
         then [cols ["Value"; base; xml_tag ",chardata"]]
         else [type_name Go base]
  end.

Definition go_items (pt : list proto) (p : proto) (id : string) : list item :=
  match p with
  | PNil => []
  | PSimple v =>
      if st_list v then go_alias id (st_doc v) (" []" ++ type_name Go (shown Go pt (st_base v)))
      else if is_union v then
        go_struct id (st_doc v)
          (go_name_row id (st_name v)
           +++ map (fun m => cols [member_ident Go (fst m); type_name Go (member_type pt m)])
                  (to_sorted_pairs (st_members v)))
      else go_alias id (st_doc v) (" " ++ shown Go pt (st_base v))
  | PComplex v =>
      go_struct id (ct_doc v)
        (go_name_row id (ct_name v)
         +++ map (fun a => cols [member_ident Go (ag_name a); shown Go pt (ag_ref a)]) (ct_attrgroups v)
         +++ map (go_attribute_row pt) (ct_attributes v)
         +++ map (go_group_row pt) (ct_groups v)
         +++ map (fun e => cols [member_ident Go (el_name e); when (el_plural e) "[]" ++ shown Go pt (el_type e);
                                xml_tag (el_name e)]) (ct_elements v)
         +++ go_base_row (ct_base v))
  | PElement v => go_alias id (el_doc v) (TAB ++ when (el_plural v) "[]" ++ shown Go pt (el_type v))
  | PAttribute v => go_alias id (at_doc v) (TAB ++ when (at_plural v) "[]" ++ shown Go pt (at_type v))
  | PGroup v =>
      go_struct id (gr_doc v)
        (go_name_row id (gr_name v)
         +++ map (fun e => cols [member_ident Go (el_name e); when (el_plural e) "[]" ++ shown Go pt (el_type e)])
                (gr_elements v)
         +++ map (go_group_row pt) (gr_groups v))
  | PAttrGroup v =>
      go_struct id (ag_doc v) (go_name_row id (ag_name v) +++ map (go_attribute_row pt) (ag_attributes v))
  end.

(** ** C *)

(** The member declaration of [name] with type [t]; an array type has its
    brackets behind the name. *)
Definition c_declarator (t name : string) (plural : bool) : string :=
  match strip_suffix t "[]" with
  | Some u => u ++ " " ++ name ++ "[]"
  | None => t ++ " " ++ name ++ when plural "[]"
  end.

Definition c_struct (id doc : string) (members : list string) : list item :=
  [mkItem (comment id doc) "typedef struct {" members; mkItem [] ("} " ++ id ++ ";") []].

Definition c_attribute_row (pt : list proto) (a : Attribute) : string :=
  c_declarator (shown C pt (at_type a)) (member_ident C (at_name a) ++ "Attr") false
  ++ "; // attr" ++ when (at_optional a) ", optional".
Definition c_group_row (pt : list proto) (x : Group) : string :=
  shown C pt (gr_ref x) ++ " " ++ member_ident C (gr_name x) ++ when (gr_plural x) "[]" ++ ";".

Definition c_items (pt : list proto) (p : proto) (id : string) : list item :=
  match p with
  | PNil => []
  | PSimple v =>
      if st_list v then
        [mkItem (comment id (st_doc v))
           ("typedef " ++ type_name C (shown C pt (st_base v)) ++ " " ++ plain_ident C p ++ "[];") []]
      else if is_union v then
        c_struct id (st_doc v)
          (map (fun m => c_declarator (type_name C (member_type pt m)) (member_ident C (fst m)) false ++ ";")
               (to_sorted_pairs (st_members v)))
      else
        [mkItem (comment id (st_doc v))
           ("typedef " ++ c_declarator (shown C pt (st_base v)) (plain_ident C p) false ++ ";") []]
  | PComplex v =>
      c_struct id (ct_doc v)
        (map (fun a => shown C pt (ag_ref a) ++ " " ++ member_ident C (ag_name a) ++ ";") (ct_attrgroups v)
         +++ map (c_attribute_row pt) (ct_attributes v)
         +++ map (c_group_row pt) (ct_groups v)
         +++ map (fun e => c_declarator (shown C pt (el_type e)) (member_ident C (el_name e)) (el_plural e) ++ ";")
                (ct_elements v))
  | PElement v =>
      [mkItem [] ("typedef " ++ c_declarator (shown C pt (el_type v)) id (el_plural v) ++ ";") []]
  | PAttribute v =>
      [mkItem (comment id (at_doc v))
         ("typedef " ++ c_declarator (shown C pt (at_type v)) (plain_ident C p) (at_plural v) ++ ";") []]
  | PGroup v =>
      c_struct id (gr_doc v)
        (map (fun e => shown C pt (el_type e) ++ " " ++ member_ident C (el_name e) ++ when (el_plural e) "[]" ++ ";")
             (gr_elements v)
         +++ map (c_group_row pt) (gr_groups v))
  | PAttrGroup v => c_struct id (ag_doc v) (map (c_attribute_row pt) (ag_attributes v))
  end.

(** ** Java *)
Definition j_list (plural : bool) (t : string) : string := if plural then "List<" ++ t ++ ">" else t.
Definition j_field (t name : string) : string := "protected " ++ t ++ " " ++ name ++ ";".
Definition j_class (ns : list string) (id ext : string) (members : list string) : list item :=
  [mkItem ns ("public class " ++ id ++ ext ++ " {") members; mkItem [] "}" []].
Definition j_wrapper (ns : list string) (annotation name id field : string) : list item :=
  mkItem ns "@XmlAccessorType(XmlAccessType.FIELD)" []
  :: mkItem [] ("@" ++ annotation ++ "(required = true, name = " ++ quoted name ++ ")") []
  :: j_class [] id "" [field].

Definition j_attribute_mark (a : Attribute) : string :=
  "@XmlAttribute(name = " ++ quoted (at_name a) ++ (if at_optional a then "" else ", required = true") ++ ")".
Definition j_group_rows (pt : list proto) (x : Group) : list string :=
  [j_field (j_list (gr_plural x) (shown Java pt (gr_ref x))) (member_ident Java (gr_name x))].
Definition j_element_rows (pt : list proto) (e : Element) : list string :=
  ["@XmlElement(required = true, name = " ++ quoted (el_name e) ++ ")";
   j_field (j_list (el_plural e) (shown Java pt (el_type e))) (member_ident Java (el_name e))].

Definition java_items (pt : list proto) (p : proto) (id : string) : list item :=
  match p with
  | PNil => []
  | PSimple v =>
      if st_list v then
        j_wrapper [] "XmlAttribute" (st_name v) id
          (j_field (j_list true (shown Java pt (st_base v))) (plain_ident Java p))
      else if is_union v then
        j_class (comment id (st_doc v)) id ""
          (flat_map (fun m => ["@XmlElement(required = true)";
                               j_field (type_name Java (member_type pt m)) (member_ident Java (fst m))])
                    (to_sorted_pairs (st_members v)))
      else
        j_wrapper (comment id (st_doc v)) "XmlAttribute" (st_name v) id
          (j_field (shown Java pt (st_base v)) (plain_ident Java p))
  | PComplex v =>
      let value := builtin Java (ct_base v) in
      j_class (comment id (ct_doc v)) id
        (if value then "" else match ct_base v with
                               | EmptyString => ""
                               | _ => " extends " ++ shown Java pt (ct_base v) ++ " "
                               end)
        (flat_map (fun a => ["@XmlElement(required = true)";
                             j_field (shown Java pt (ag_ref a)) (member_ident Java (ag_name a))]) (ct_attrgroups v)
         +++ flat_map (fun a => [j_attribute_mark a;
                                j_field (shown Java pt (at_type a)) (member_ident Java (at_name a) ++ "Attr")])
                     (ct_attributes v)
         +++ flat_map (j_group_rows pt) (ct_groups v)
         +++ flat_map (j_element_rows pt) (ct_elements v)
         +++ (if value then ["@XmlValue"; j_field (shown Java pt (ct_base v)) "value"] else []))
  | PElement v =>
      j_wrapper [] "XmlElement" (el_name v) id
        (j_field (j_list (el_plural v) (shown Java pt (el_type v))) (plain_ident Java p))
  | PAttribute v =>
      j_wrapper [] "XmlAttribute" (at_name v) id
        (j_field (j_list (at_plural v) (shown Java pt (at_type v))) (plain_ident Java p))
  | PGroup v =>
      j_class (comment id (gr_doc v)) id ""
        (flat_map (j_element_rows pt) (gr_elements v) +++ flat_map (j_group_rows pt) (gr_groups v))
  | PAttrGroup v =>
      j_class (comment id (ag_doc v)) id ""
        (flat_map (fun a => [j_attribute_mark a;
                             j_field (shown Java pt (at_type a) ++ "Attr") (member_ident Java (at_name a))])
                  (ag_attributes v))
  end.

(** ** Rust *)
Definition r_field (name id t : string) : list string :=
  ["#[serde(rename = " ++ quoted name ++ ")]"; "pub " ++ id ++ ": " ++ t ++ ","].
Definition r_vec (plural : bool) (t : string) : string := if plural then "Vec<" ++ t ++ ">" else t.
Definition r_struct (ns : list string) (id : string) (members : list string) : list item :=
  [mkItem ns "#[derive(Debug, Deserialize, Serialize, PartialEq)]" [];
   mkItem [] ("pub struct " ++ id ++ " {") members; mkItem [] "}" []].
Definition r_group_rows (pt : list proto) (plural : bool) (x : Group) : list string :=
  r_field (gr_name x) (member_ident Rust (gr_name x)) (r_vec plural (shown Rust pt (gr_ref x))).

Definition rust_items (pt : list proto) (p : proto) (id : string) : list item :=
  match p with
  | PNil => []
  | PSimple v =>
      if st_list v then
        r_struct (comment id (st_doc v)) id
          (r_field (st_name v) (member_ident Rust (st_name v)) (r_vec true (shown Rust pt (st_base v))))
      else if is_union v then
        r_struct [] id
          (flat_map (fun m => r_field (st_name v) (member_ident Rust (fst m)) (type_name Rust (member_type pt m)))
                    (to_sorted_pairs (st_members v)))
      else
        r_struct (comment id (st_doc v)) id
          (r_field (st_name v) (member_ident Rust (st_name v)) (shown Rust pt (st_base v)))
  | PComplex v =>
      r_struct (comment id (ct_doc v)) id
        (flat_map (fun a => r_field (ag_name a) (member_ident Rust (ag_name a)) (r_vec true (shown Rust pt (ag_ref a))))
                  (ct_attrgroups v)
         +++ flat_map (fun a => r_field (at_name a) (member_ident Rust (at_name a))
                                 (if at_optional a then "Option<" ++ shown Rust pt (at_type a) ++ ">"
                                  else shown Rust pt (at_type a))) (ct_attributes v)
         +++ flat_map (fun x => r_group_rows pt (gr_plural x) x) (ct_groups v)
         +++ flat_map (fun e => r_field (el_name e) (member_ident Rust (el_name e))
                                 (if el_plural e then r_vec true (shown Rust pt (el_type e))
                                  else if el_optional e then "Option<" ++ shown Rust pt (el_type e) ++ ">"
                                  else shown Rust pt (el_type e))) (ct_elements v)
         +++ match ct_base v with
            | EmptyString => []
            | _ => if builtin Rust (ct_base v)
                   then r_field "$value" "value" (shown Rust pt (ct_base v))
                   else ["#[serde(flatten)]";
                         "pub " ++ member_ident Rust (shown Rust pt (ct_base v)) ++ ": " ++ shown Rust pt (ct_base v) ++ ","]
            end)
  | PElement v =>
      r_struct (comment id (el_doc v)) id (r_field (el_name v) id (r_vec (el_plural v) (shown Rust pt (el_type v))))
  | PAttribute v =>
      r_struct (comment id (at_doc v)) id (r_field (at_name v) id (r_vec (at_plural v) (shown Rust pt (at_type v))))
  | PGroup v =>
      r_struct (comment id (gr_doc v)) id
        (flat_map (fun e => r_field (el_name e) (member_ident Rust (el_name e))
                              (r_vec (gr_plural v) (shown Rust pt (el_type e)))) (gr_elements v)
         +++ flat_map (r_group_rows pt (gr_plural v)) (gr_groups v))
  | PAttrGroup v =>
      r_struct (comment id (ag_doc v)) id
        (flat_map (fun a => r_field (at_name a) (member_ident Rust (at_name a))
                              (if at_optional a then "Option<" ++ shown Rust pt (at_type a) ++ ">"
                               else r_vec true (shown Rust pt (at_type a)))) (ag_attributes v))
  end.

(** ** TypeScript *)
Definition t_field (name t : string) : string := name ++ ": " ++ t ++ ";".
Definition t_class (id doc ext : string) (members : list string) : list item :=
  [mkItem (comment id doc) ("export class " ++ id ++ ext ++ " {") members; mkItem [] "}" []].
Definition t_alias (id doc t : string) : list item :=
  [mkItem (comment id doc) ("export type " ++ id ++ " = " ++ t ++ ";") []].
Definition t_enum_row (base value : string) : string :=
  if string_dec base "string" then value ++ " = '" ++ value ++ "',"
  else "Enum" ++ value ++ " = " ++ (if string_dec base "number" then value else "'" ++ value ++ "'") ++ ",".
Definition t_attribute_row (pt : list proto) (a : Attribute) : string :=
  t_field (member_ident TypeScript (at_name a) ++ "Attr")
    (shown_ts pt (at_type a) (at_plural a) ++ when (at_optional a) " | null").
Definition t_group_row (pt : list proto) (x : Group) : string :=
  t_field (member_ident TypeScript (gr_name x)) (shown_ts pt (gr_ref x) (gr_plural x)).
Definition t_element_row (pt : list proto) (e : Element) : string :=
  t_field (member_ident TypeScript (el_name e)) (shown_ts pt (el_type e) (el_plural e)).

Definition ts_items (pt : list proto) (p : proto) (id : string) (enum : bool) : list item :=
  match p with
  | PNil => []
  | PSimple v =>
      if enum then
        [mkItem (comment id (st_doc v)) ("export enum " ++ id ++ " {")
           (map (t_enum_row (shown_ts pt (st_base v) false)) (st_enum v)); mkItem [] "}" []]
      else if st_list v then t_alias id (st_doc v) (shown_ts pt (st_base v) true)
      else if is_union v then
        t_class id (st_doc v) ""
          (map (fun m => t_field (member_ident TypeScript (fst m)) (type_name TypeScript (member_type pt m)))
               (to_sorted_pairs (st_members v)))
      else t_alias id (st_doc v) (shown_ts pt (st_base v) false)
  | PComplex v =>
      let value := builtin TypeScript (ct_base v) in
      t_class id (ct_doc v)
        (if value then "" else match ct_base v with
                               | EmptyString => ""
                               | _ => " extends " ++ shown_ts pt (ct_base v) false ++ " "
                               end)
        (map (fun a => t_field (member_ident TypeScript (ag_name a)) (shown_ts pt (ag_ref a) false)) (ct_attrgroups v)
         +++ map (t_attribute_row pt) (ct_attributes v)
         +++ map (t_group_row pt) (ct_groups v)
         +++ map (t_element_row pt) (ct_elements v)
         +++ (if value then [t_field "Value" (shown_ts pt (ct_base v) false)] else []))
  | PElement v => t_alias id (el_doc v) (shown_ts pt (el_type v) (el_plural v))
  | PAttribute v => t_alias id (at_doc v) (shown_ts pt (at_type v) (at_plural v))
  | PGroup v =>
      t_class id (gr_doc v) ""
        (map (t_element_row pt) (gr_elements v) +++ map (t_group_row pt) (gr_groups v))
  | PAttrGroup v => t_class id (ag_doc v) "" (map (t_attribute_row pt) (ag_attributes v))
  end.

Definition items_of (l : lang) (pt : list proto) (p : proto) (enum : bool) (id : string) : list item :=
  match l with
  | Go => go_items pt p id
  | C => c_items pt p id
  | Java => java_items pt p id
  | Rust => rust_items pt p id
  | TypeScript => ts_items pt p id enum
  end.

(** The outline of the whole tree. *)
Definition expected (l : lang) (pt : list proto) : list item :=
  let ps := rendered l [] pt in
  concat (map (fun x => items_of l pt (fst (fst x)) (snd (fst x)) (snd x))
              (combine ps (identifiers l [] (map fst ps)))).

(** * Well-behaved names: no line feed in anything but the documentation. *)

Definition one_line (s : string) : Prop := free_of LF s.

Definition attribute_ok (a : Attribute) : Prop := one_line (at_name a) /\ one_line (at_type a).
Definition element_ok (e : Element) : Prop := one_line (el_name e) /\ one_line (el_type e).
Definition group_ref_ok (x : Group) : Prop := one_line (gr_name x) /\ one_line (gr_ref x).

Definition component_ok (p : proto) : Prop :=
  match p with
  | PNil => True
  | PSimple v => one_line (st_name v) /\ one_line (st_base v) /\ Forall one_line (st_enum v) /\
      Forall (fun m => one_line (fst m) /\ one_line (snd m)) (st_members v)
  | PComplex v => one_line (ct_name v) /\ one_line (ct_base v) /\
      Forall (fun a => one_line (ag_name a) /\ one_line (ag_ref a)) (ct_attrgroups v) /\
      Forall attribute_ok (ct_attributes v) /\ Forall group_ref_ok (ct_groups v) /\ Forall element_ok (ct_elements v)
  | PElement v => element_ok v
  | PAttribute v => attribute_ok v
  | PGroup v => one_line (gr_name v) /\ Forall element_ok (gr_elements v) /\ Forall group_ref_ok (gr_groups v)
  | PAttrGroup v => one_line (ag_name v) /\ Forall attribute_ok (ag_attributes v)
  end.

Definition tree_ok (pt : list proto) : Prop := Forall component_ok pt.

(** The case mappings of a non-ASCII rune are non-ASCII runes or ASCII letters
    (as they are in the Unicode tables). *)
Definition ascii_letter (r : N) : Prop := (65 <= r <= 90 \/ 97 <= r <= 122)%N.
Definition case_tables_ok : Prop :=
  forall r, (128 <= r)%N -> ((128 <= env_upper r)%N \/ ascii_letter (env_upper r)) /\
                            ((128 <= env_lower r)%N \/ ascii_letter (env_lower r)).

(** * What a text declares *)

(** Names without characters that mean something in the places where the
    generators put names. *)
Definition plain_name (n : string) : Prop :=
  free_of " " n /\ free_of "009" n /\ free_of "[" n /\ free_of ";" n.

Definition tree_plain (pt : list proto) : Prop :=
  Forall (fun p => match proto_name p with Some n => plain_name n | None => True end) pt.

Definition word (k : nat) (s : string) : string := nth k (split_on " " s) "".
Definition last_word (s : string) : string := last (split_on " " s) "".
Definition until (c : ascii) (s : string) : string := match split_on c s with h :: _ => h | [] => "" end.

(** The identifier that a declaration line introduces. *)
Definition declares (l : lang) (it : item) : list string :=
  match l with
  | Go => if prefix "type " (head it) then [until "009" (word 1 (head it))] else []
  | C => if string_dec (head it) "typedef struct {" then []
         else [until "[" (until ";" (last_word (head it)))]
  | Java => if prefix "public class " (head it) then [word 2 (head it)] else []
  | Rust => if prefix "pub struct " (head it) then [word 2 (head it)] else []
  | TypeScript => if prefix "export " (head it) then [word 2 (head it)] else []
  end.

(** Does the declaration of [p] carry the number of the identifier. *)
Definition tagged (l : lang) (p : proto) : bool :=
  counting l p && match l, p with
                  | C, PSimple v => negb (st_list v) && is_union v
                  | C, PAttribute _ => false
                  | _, _ => true
                  end.

Definition ends_in_digit (s : string) : Prop := exists t c, s = t ++ String c "" /\ is_digit c = true.

(** [sub] occurs in [text]. *)
Definition mentions (text sub : string) : Prop := exists a b, text = a ++ sub ++ b.

(** [a] is [b] with some entries left out. *)
Inductive subsequence {A : Type} : list A -> list A -> Prop :=
| sub_nil : subsequence [] []
| sub_keep : forall x a b, subsequence a b -> subsequence (x :: a) (x :: b)
| sub_drop : forall x a b, subsequence a b -> subsequence a (x :: b).

End Spec.
