(** Specification vocabulary for C71: the XML names in a generated program. *)

From Coq Require Import String Ascii List NArith Bool.
From Verif Require Import GoStr Base Utils SpecStr SpecGen SpecOut.
Import ListNotations.
Local Open Scope string_scope.

Local Infix "+++" := app (at level 60, right associativity).

(** What a member is in XML: an element (in Go also the component itself), an
    attribute, the character data, or, in Rust, something with a name. *)
Inductive binding : Type :=
| Elem (n : string)
| Attr (n : string)
| Content
| Field (n : string).

(** * Reading *)

(** The text between two quotation marks. *)
Definition in_quotes (s : string) : option string := match split_on """" s with [_; n; _] => Some n | _ => None end.

(** Go: the third column, [`xml:"name,attr,omitempty"`]. *)
Definition go_binding (row : string) : list binding :=
  match split_on "009" row with
  | [_; _; tag] =>
      match in_quotes tag with
      | Some s => match split_on "," s with
                  | [n] => [Elem n]
                  | n :: k :: _ => if string_dec k "attr" then [Attr n] else [Content]
                  | [] => []
                  end
      | None => []
      end
  | _ => []
  end.

(** Java: the annotations. *)
Definition java_binding (row : string) : list binding :=
  if prefix "@XmlValue" row then [Content]
  else match in_quotes row with
       | Some n => if prefix "@XmlAttribute(" row then [Attr n] else if prefix "@XmlElement(" row then [Elem n] else []
       | None => []
       end.

(** Rust: the names in the serialised form. *)
Definition rust_binding (row : string) : list binding :=
  if prefix "#[serde(rename = " row then match in_quotes row with Some n => [Field n] | None => [] end else [].

Definition bindings (l : lang) (its : list item) : list binding :=
  flat_map (match l with Go => go_binding | Java => java_binding | Rust => rust_binding | C | TypeScript => fun _ => [] end)
    (flat_map rows its).

(** * The XML names of a component *)

Definition own_name (id name : string) : list binding := if string_dec id name then [] else [Elem name].
Definition content (l : lang) (base : string) : list binding :=
  if builtin l base then [match l with Rust => Field "$value" | _ => Content end] else [].

Definition xml_names (l : lang) (p : proto) (id : string) : list binding :=
  match l, p with
  | Go, PComplex v => own_name id (ct_name v) +++ map (fun a => Attr (at_name a)) (ct_attributes v)
      +++ map (fun e => Elem (el_name e)) (ct_elements v) +++ content Go (ct_base v)
  | Java, PComplex v => map (fun a => Attr (at_name a)) (ct_attributes v) +++ map (fun e => Elem (el_name e)) (ct_elements v)
      +++ content Java (ct_base v)
  | Rust, PComplex v => map Field (map ag_name (ct_attrgroups v) +++ map at_name (ct_attributes v) +++ map gr_name (ct_groups v)
      +++ map el_name (ct_elements v)) +++ content Rust (ct_base v)
  | Go, PGroup v => own_name id (gr_name v)
  | Java, PGroup v => map (fun e => Elem (el_name e)) (gr_elements v)
  | Rust, PGroup v => map Field (map el_name (gr_elements v) +++ map gr_name (gr_groups v))
  | Go, PAttrGroup v => own_name id (ag_name v) +++ map (fun a => Attr (at_name a)) (ag_attributes v)
  | Java, PAttrGroup v => map (fun a => Attr (at_name a)) (ag_attributes v)
  | Rust, PAttrGroup v => map (fun a => Field (at_name a)) (ag_attributes v)
  | Go, PSimple v => if st_list v then [] else if is_union v then own_name id (st_name v) else []
  | Rust, PSimple v => if st_list v then [Field (st_name v)]
      else if is_union v then map (fun _ => Field (st_name v)) (to_sorted_pairs (st_members v)) else [Field (st_name v)]
  | Rust, PElement v => [Field (el_name v)]
  | Rust, PAttribute v => [Field (at_name v)]
  | _, _ => []
  end.

(** No tabs, quotation marks and commas in names and types. *)
Definition unmarked (pt : list proto) : Prop := tree_free "009" pt /\ tree_free """" pt /\ tree_free "," pt.

(** The items come from the components one by one, and those of each component
    tell its XML names. *)
Definition tells_names {E : Env} (l : lang) (pt : list proto) (its : list item) : Prop :=
  exists blocks, its = concat blocks /\
    map (bindings l) blocks =
    map (fun x => xml_names l (fst (fst x)) (snd x)) (combine (rendered l [] pt) (identifiers l [] (map fst (rendered l [] pt)))).
