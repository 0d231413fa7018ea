(** The outline of generated text in terms of the model's own name and type
    functions; an intermediate step between the model and SpecGen.v. *)

From Coq Require Import String Ascii List NArith Bool.
From Verif Require Import GoStr Base Utils GenGo GenC GenJava GenRust GenTS SpecStr SpecGen.
Import ListNotations.
Local Open Scope string_scope.

Local Infix "+++" := app (at level 60, right associativity).

Section Text.
Context {E : Env}.

(** The name an identifier is made from. *)
Definition plain_ident (l : lang) (p : proto) : string :=
  let n := match proto_name p with Some n => n | None => "" end in
  match l with
  | Go => go_field_name n
  | C => c_field_name n
  | Java => java_field_name n
  | Rust => match p with PElement _ | PAttribute _ => rust_field_name n | _ => rust_struct_name n end
  | TypeScript => ts_field_name n
  end.

(** The identifiers with their numbers, given the counted uses so far. *)
Fixpoint identifiers (l : lang) (used : list string) (ps : list proto) : list string :=
  match ps with
  | [] => []
  | p :: r =>
      let n := plain_ident l p in
      if counting l p then numbered n (S (uses n used)) :: identifiers l (n :: used) r
      else n :: identifiers l used r
  end.

(** * What a component looks like *)

Definition type_name (l : lang) (t : string) : string :=
  match l with
  | Go => go_field_type t
  | C => c_field_type t
  | Java => java_field_type t
  | Rust => rust_field_type t
  | TypeScript => ts_field_type t false
  end.

(** A reference to type [t] in [tree]. *)
Definition shown (l : lang) (tree : list proto) (t : string) : string :=
  type_name l (get_base (trim_ns_prefix t) tree).
Definition shown_ts (tree : list proto) (t : string) (plural : bool) : string :=
  ts_field_type (get_base (trim_ns_prefix t) tree) plural.

Definition member_type (tree : list proto) (m : string * string) : string :=
  match snd m with EmptyString => get_base (fst m) tree | _ => snd m end.

Definition go_name_row (id name : string) : list string :=
  if String.eqb id name then [] else [cols ["XMLName"; "xml.Name"; xml_tag name]].
Definition go_attribute_row (pt : list proto) (a : Attribute) : string :=
  cols [go_field_name (at_name a) ++ "Attr"; shown Go pt (at_type a);
        xml_tag (at_name a ++ ",attr" ++ when (at_optional a) ",omitempty")].
Definition go_group_row (pt : list proto) (x : Group) : string :=
  cols [go_field_name (gr_name x); when (gr_plural x) "[]" ++ shown Go pt (gr_ref x)].
Definition go_base_row (base : string) : list string :=
  match base with
  | EmptyString => []
  | _ => if in_dec string_dec base go_buildin_type
         then [cols ["Value"; base; xml_tag ",chardata"]]
         else [go_field_type base]
  end.

Definition go_items (pt : list proto) (p : proto) (id : string) : list item :=
  match p with
  | PNil => []
  | PSimple v =>
      if st_list v then go_alias id (st_doc v) (" []" ++ go_field_type (shown Go pt (st_base v)))
      else if is_union v then
        go_struct id (st_doc v)
          (go_name_row id (st_name v)
           +++ map (fun m => cols [go_field_name (fst m); go_field_type (member_type pt m)])
                  (to_sorted_pairs (st_members v)))
      else go_alias id (st_doc v) (" " ++ shown Go pt (st_base v))
  | PComplex v =>
      go_struct id (ct_doc v)
        (go_name_row id (ct_name v)
         +++ map (fun a => cols [go_field_name (ag_name a); shown Go pt (ag_ref a)]) (ct_attrgroups v)
         +++ map (go_attribute_row pt) (ct_attributes v)
         +++ map (go_group_row pt) (ct_groups v)
         +++ map (fun e => cols [go_field_name (el_name e); when (el_plural e) "[]" ++ shown Go pt (el_type e);
                                xml_tag (el_name e)]) (ct_elements v)
         +++ go_base_row (ct_base v))
  | PElement v => go_alias id (el_doc v) (TAB ++ when (el_plural v) "[]" ++ shown Go pt (el_type v))
  | PAttribute v => go_alias id (at_doc v) (TAB ++ when (at_plural v) "[]" ++ shown Go pt (at_type v))
  | PGroup v =>
      go_struct id (gr_doc v)
        (go_name_row id (gr_name v)
         +++ map (fun e => cols [go_field_name (el_name e); when (el_plural e) "[]" ++ shown Go pt (el_type e)])
                (gr_elements v)
         +++ map (go_group_row pt) (gr_groups v))
  | PAttrGroup v =>
      go_struct id (ag_doc v) (go_name_row id (ag_name v) +++ map (go_attribute_row pt) (ag_attributes v))
  end.

Definition c_attribute_row (pt : list proto) (a : Attribute) : string :=
  c_declarator (shown C pt (at_type a)) (c_field_name (at_name a) ++ "Attr") false
  ++ "; // attr" ++ when (at_optional a) ", optional".
Definition c_group_row (pt : list proto) (x : Group) : string :=
  shown C pt (gr_ref x) ++ " " ++ c_field_name (gr_name x) ++ when (gr_plural x) "[]" ++ ";".

Definition c_items (pt : list proto) (p : proto) (id : string) : list item :=
  match p with
  | PNil => []
  | PSimple v =>
      if st_list v then
        [mkItem (comment id (st_doc v))
           ("typedef " ++ c_field_type (shown C pt (st_base v)) ++ " " ++ plain_ident C p ++ "[];") []]
      else if is_union v then
        c_struct id (st_doc v)
          (map (fun m => c_declarator (c_field_type (member_type pt m)) (c_field_name (fst m)) false ++ ";")
               (to_sorted_pairs (st_members v)))
      else
        [mkItem (comment id (st_doc v))
           ("typedef " ++ c_declarator (shown C pt (st_base v)) (plain_ident C p) false ++ ";") []]
  | PComplex v =>
      c_struct id (ct_doc v)
        (map (fun a => shown C pt (ag_ref a) ++ " " ++ c_field_name (ag_name a) ++ ";") (ct_attrgroups v)
         +++ map (c_attribute_row pt) (ct_attributes v)
         +++ map (c_group_row pt) (ct_groups v)
         +++ map (fun e => c_declarator (shown C pt (el_type e)) (c_field_name (el_name e)) (el_plural e) ++ ";")
                (ct_elements v))
  | PElement v =>
      [mkItem [] ("typedef " ++ c_declarator (shown C pt (el_type v)) id (el_plural v) ++ ";") []]
  | PAttribute v =>
      [mkItem (comment id (at_doc v))
         ("typedef " ++ c_declarator (shown C pt (at_type v)) (plain_ident C p) (at_plural v) ++ ";") []]
  | PGroup v =>
      c_struct id (gr_doc v)
        (map (fun e => shown C pt (el_type e) ++ " " ++ c_field_name (el_name e) ++ when (el_plural e) "[]" ++ ";")
             (gr_elements v)
         +++ map (c_group_row pt) (gr_groups v))
  | PAttrGroup v => c_struct id (ag_doc v) (map (c_attribute_row pt) (ag_attributes v))
  end.

Definition j_group_rows (pt : list proto) (x : Group) : list string :=
  [j_field (j_list (gr_plural x) (shown Java pt (gr_ref x))) (java_field_name (gr_name x))].
Definition j_element_rows (pt : list proto) (e : Element) : list string :=
  ["@XmlElement(required = true, name = " ++ quoted (el_name e) ++ ")";
   j_field (j_list (el_plural e) (shown Java pt (el_type e))) (java_field_name (el_name e))].

Definition java_items (pt : list proto) (p : proto) (id : string) : list item :=
  match p with
  | PNil => []
  | PSimple v =>
      if st_list v then
        j_wrapper [] "XmlAttribute" (st_name v) id
          (j_field (j_list true (shown Java pt (st_base v))) (plain_ident Java p))
      else if is_union v then
        j_class (comment id (st_doc v)) id ""
          (flat_map (fun m => ["@XmlElement(required = true)";
                               j_field (java_field_type (member_type pt m)) (java_field_name (fst m))])
                    (to_sorted_pairs (st_members v)))
      else
        j_wrapper (comment id (st_doc v)) "XmlAttribute" (st_name v) id
          (j_field (shown Java pt (st_base v)) (plain_ident Java p))
  | PComplex v =>
      let value := if in_dec string_dec (ct_base v) java_buildin_type then true else false in
      j_class (comment id (ct_doc v)) id
        (if value then "" else match ct_base v with
                               | EmptyString => ""
                               | _ => " extends " ++ shown Java pt (ct_base v) ++ " "
                               end)
        (flat_map (fun a => ["@XmlElement(required = true)";
                             j_field (shown Java pt (ag_ref a)) (java_field_name (ag_name a))]) (ct_attrgroups v)
         +++ flat_map (fun a => [j_attribute_mark a;
                                j_field (shown Java pt (at_type a)) (java_field_name (at_name a) ++ "Attr")])
                     (ct_attributes v)
         +++ flat_map (j_group_rows pt) (ct_groups v)
         +++ flat_map (j_element_rows pt) (ct_elements v)
         +++ (if value then ["@XmlValue"; j_field (shown Java pt (ct_base v)) "value"] else []))
  | PElement v =>
      j_wrapper [] "XmlElement" (el_name v) id
        (j_field (j_list (el_plural v) (shown Java pt (el_type v))) (plain_ident Java p))
  | PAttribute v =>
      j_wrapper [] "XmlAttribute" (at_name v) id
        (j_field (j_list (at_plural v) (shown Java pt (at_type v))) (plain_ident Java p))
  | PGroup v =>
      j_class (comment id (gr_doc v)) id ""
        (flat_map (j_element_rows pt) (gr_elements v) +++ flat_map (j_group_rows pt) (gr_groups v))
  | PAttrGroup v =>
      j_class (comment id (ag_doc v)) id ""
        (flat_map (fun a => [j_attribute_mark a;
                             j_field (shown Java pt (at_type a) ++ "Attr") (java_field_name (at_name a))])
                  (ag_attributes v))
  end.

Definition r_group_rows (pt : list proto) (plural : bool) (x : Group) : list string :=
  r_field (gr_name x) (rust_field_name (gr_name x)) (r_vec plural (shown Rust pt (gr_ref x))).

Definition rust_items (pt : list proto) (p : proto) (id : string) : list item :=
  match p with
  | PNil => []
  | PSimple v =>
      if st_list v then
        r_struct (comment id (st_doc v)) id
          (r_field (st_name v) (rust_field_name (st_name v)) (r_vec true (shown Rust pt (st_base v))))
      else if is_union v then
        r_struct [] id
          (flat_map (fun m => r_field (st_name v) (rust_field_name (fst m)) (rust_field_type (member_type pt m)))
                    (to_sorted_pairs (st_members v)))
      else
        r_struct (comment id (st_doc v)) id
          (r_field (st_name v) (rust_field_name (st_name v)) (shown Rust pt (st_base v)))
  | PComplex v =>
      r_struct (comment id (ct_doc v)) id
        (flat_map (fun a => r_field (ag_name a) (rust_field_name (ag_name a)) (r_vec true (shown Rust pt (ag_ref a))))
                  (ct_attrgroups v)
         +++ flat_map (fun a => r_field (at_name a) (rust_field_name (at_name a))
                                 (if at_optional a then "Option<" ++ shown Rust pt (at_type a) ++ ">"
                                  else shown Rust pt (at_type a))) (ct_attributes v)
         +++ flat_map (fun x => r_group_rows pt (gr_plural x) x) (ct_groups v)
         +++ flat_map (fun e => r_field (el_name e) (rust_field_name (el_name e))
                                 (if el_plural e then r_vec true (shown Rust pt (el_type e))
                                  else if el_optional e then "Option<" ++ shown Rust pt (el_type e) ++ ">"
                                  else shown Rust pt (el_type e))) (ct_elements v)
         +++ match ct_base v with
            | EmptyString => []
            | _ => if in_dec string_dec (ct_base v) rust_buildin_type
                   then r_field "$value" "value" (shown Rust pt (ct_base v))
                   else ["#[serde(flatten)]";
                         "pub " ++ rust_field_name (shown Rust pt (ct_base v)) ++ ": " ++ shown Rust pt (ct_base v) ++ ","]
            end)
  | PElement v =>
      r_struct (comment id (el_doc v)) id (r_field (el_name v) id (r_vec (el_plural v) (shown Rust pt (el_type v))))
  | PAttribute v =>
      r_struct (comment id (at_doc v)) id (r_field (at_name v) id (r_vec (at_plural v) (shown Rust pt (at_type v))))
  | PGroup v =>
      r_struct (comment id (gr_doc v)) id
        (flat_map (fun e => r_field (el_name e) (rust_field_name (el_name e))
                              (r_vec (gr_plural v) (shown Rust pt (el_type e)))) (gr_elements v)
         +++ flat_map (r_group_rows pt (gr_plural v)) (gr_groups v))
  | PAttrGroup v =>
      r_struct (comment id (ag_doc v)) id
        (flat_map (fun a => r_field (at_name a) (rust_field_name (at_name a))
                              (if at_optional a then "Option<" ++ shown Rust pt (at_type a) ++ ">"
                               else r_vec true (shown Rust pt (at_type a)))) (ag_attributes v))
  end.

Definition t_attribute_row (pt : list proto) (a : Attribute) : string :=
  t_field (ts_field_name (at_name a) ++ "Attr")
    (shown_ts pt (at_type a) (at_plural a) ++ when (at_optional a) " | null").
Definition t_group_row (pt : list proto) (x : Group) : string :=
  t_field (ts_field_name (gr_name x)) (shown_ts pt (gr_ref x) (gr_plural x)).
Definition t_element_row (pt : list proto) (e : Element) : string :=
  t_field (ts_field_name (el_name e)) (shown_ts pt (el_type e) (el_plural e)).

Definition ts_items (pt : list proto) (p : proto) (id : string) (enum : bool) : list item :=
  match p with
  | PNil => []
  | PSimple v =>
      if enum then
        [mkItem (comment id (st_doc v)) ("export enum " ++ id ++ " {")
           (map (t_enum_row (shown_ts pt (st_base v) false)) (st_enum v)); mkItem [] "}" []]
      else if st_list v then t_alias id (st_doc v) (shown_ts pt (st_base v) true)
      else if is_union v then
        t_class id (st_doc v) ""
          (map (fun m => t_field (ts_field_name (fst m)) (ts_field_type (member_type pt m) false))
               (to_sorted_pairs (st_members v)))
      else t_alias id (st_doc v) (shown_ts pt (st_base v) false)
  | PComplex v =>
      let value := if in_dec string_dec (ct_base v) ts_buildin_type then true else false in
      t_class id (ct_doc v)
        (if value then "" else match ct_base v with
                               | EmptyString => ""
                               | _ => " extends " ++ shown_ts pt (ct_base v) false ++ " "
                               end)
        (map (fun a => t_field (ts_field_name (ag_name a)) (shown_ts pt (ag_ref a) false)) (ct_attrgroups v)
         +++ map (t_attribute_row pt) (ct_attributes v)
         +++ map (t_group_row pt) (ct_groups v)
         +++ map (t_element_row pt) (ct_elements v)
         +++ (if value then [t_field "Value" (shown_ts pt (ct_base v) false)] else []))
  | PElement v => t_alias id (el_doc v) (shown_ts pt (el_type v) (el_plural v))
  | PAttribute v => t_alias id (at_doc v) (shown_ts pt (at_type v) (at_plural v))
  | PGroup v =>
      t_class id (gr_doc v) ""
        (map (t_element_row pt) (gr_elements v) +++ map (t_group_row pt) (gr_groups v))
  | PAttrGroup v => t_class id (ag_doc v) "" (map (t_attribute_row pt) (ag_attributes v))
  end.

Definition items_of (l : lang) (pt : list proto) (p : proto) (enum : bool) (id : string) : list item :=
  match l with
  | Go => go_items pt p id
  | C => c_items pt p id
  | Java => java_items pt p id
  | Rust => rust_items pt p id
  | TypeScript => ts_items pt p id enum
  end.

Definition expected (l : lang) (pt : list proto) : list item :=
  let ps := rendered l [] pt in
  concat (map (fun x => items_of l pt (fst (fst x)) (snd (fst x)) (snd x))
              (combine ps (identifiers l [] (map fst ps)))).


End Text.
