(** A grammar of schemas, and the components that a schema declares, by
    recursion over its structure (no stacks, no tokens).  Model functions are
    not used.

    What a type name stands for is a parameter: [res name tree] is the resolved
    name when the components [tree] have been declared before.  [many v] is the
    meaning of maxOccurs, [None] for a value that is no number. *)

From Coq Require Import String Ascii List NArith ZArith Bool.
From Verif Require Import GoStr Base Utils SpecStr SpecDoc SpecTables SpecParse.
Import ListNotations.
Local Open Scope string_scope.

Local Infix "+++" := app (at level 60, right associativity).

(** * Schemas.  Every node carries the XML attributes of its tag; [docs] are the
    texts between a tag and the next one. *)

(** An enumeration value, a pattern, a length, ... *)
Inductive facet : Type := Facet (local : string) (l : list xattr) (docs : list string).

(** <restriction> with facets, or <list> *)
Inductive derivation : Type :=
| Restricted (l : list xattr) (docs : list string) (facets : list facet)
| ListOf (l : list xattr) (docs : list string).

(** <simpleType> without a name, inside an attribute or a union *)
Inductive inline_type : Type := Inline (l : list xattr) (docs : list string) (d : derivation).

Inductive attribute_decl : Type :=
  AttributeDecl (l : list xattr) (docs : list string) (inline : option inline_type).

(** The inside of a simple type. *)
Inductive simple_body : Type :=
| Derived (d : derivation)
| UnionOf (l : list xattr) (docs : list string) (members : list inline_type).

(** The inside of a complex type.  Tags without handler (sequence, all,
    simpleContent, complexContent, annotation, ...) can be added anywhere: C40. *)
Inductive body : Type :=
| BEnd
| BText (d : string) (rest : body)
| BAttribute (a : attribute_decl) (rest : body)
| BAttributeGroup (l : list xattr) (docs : list string) (rest : body)
| BGroup (l : list xattr) (docs : list string) (rest : body)
| BElement (l : list xattr) (docs : list string) (rest : body)
| BAnonymous (l : list xattr) (docs : list string) (ct : list xattr) (inner rest : body)   (* <element><complexType> *)
| BInline (l : list xattr) (docs : list string) (i : inline_type) (rest : body)            (* <element><simpleType> *)
| BChoice (l : list xattr) (inner rest : body)
| BExtension (l : list xattr) (inner rest : body)
| BRestriction (l : list xattr) (inner rest : body)
| BFacet (f : facet) (rest : body).

(** The inside of a group. *)
Inductive part : Type :=
| GEnd
| GText (d : string) (rest : part)
| GElement (l : list xattr) (docs : list string) (rest : part)
| GGroup (l : list xattr) (docs : list string) (rest : part)
| GChoice (l : list xattr) (inner rest : part).

Inductive component : Type :=
| DText (d : string)                                      (* between components *)
| DSimple (l : list xattr) (docs : list string) (s : simple_body)
| DComplex (l : list xattr) (b : body)
| DElement (l : list xattr) (docs : list string)
| DAnonymous (l : list xattr) (docs : list string) (ct : list xattr) (b : body)            (* <element><complexType> *)
| DInline (l : list xattr) (docs : list string) (i : inline_type)                          (* <element><simpleType> *)
| DAttribute (a : attribute_decl)
| DGroup (l : list xattr) (g : part)
| DAttributeGroup (l : list xattr) (docs : list string) (ats : list attribute_decl).

(** * Their tokens *)

Definition facet_tokens (f : facet) : list token :=
  let 'Facet local l docs := f in TStart local l :: map TChar docs +++ [TEnd local].

Definition derivation_tokens (d : derivation) : list token :=
  match d with
  | Restricted l docs fs =>
      TStart "restriction" l :: map TChar docs +++ flat_map facet_tokens fs +++ [TEnd "restriction"]
  | ListOf l docs => TStart "list" l :: map TChar docs +++ [TEnd "list"]
  end.

Definition inline_tokens (i : inline_type) : list token :=
  let 'Inline l docs d := i in
  TStart "simpleType" l :: map TChar docs +++ derivation_tokens d +++ [TEnd "simpleType"].

Definition attribute_tokens (a : attribute_decl) : list token :=
  let 'AttributeDecl l docs inline := a in
  TStart "attribute" l :: map TChar docs +++
  (match inline with None => [] | Some i => inline_tokens i end) +++ [TEnd "attribute"].

Definition simple_tokens (s : simple_body) : list token :=
  match s with
  | Derived d => derivation_tokens d
  | UnionOf l docs ms => TStart "union" l :: map TChar docs +++ flat_map inline_tokens ms +++ [TEnd "union"]
  end.

Fixpoint body_tokens (b : body) : list token :=
  match b with
  | BEnd => []
  | BText d r => TChar d :: body_tokens r
  | BAttribute a r => attribute_tokens a +++ body_tokens r
  | BAttributeGroup l docs r =>
      TStart "attributeGroup" l :: map TChar docs +++ TEnd "attributeGroup" :: body_tokens r
  | BGroup l docs r => TStart "group" l :: map TChar docs +++ TEnd "group" :: body_tokens r
  | BElement l docs r => TStart "element" l :: map TChar docs +++ TEnd "element" :: body_tokens r
  | BAnonymous l docs ct i r =>
      TStart "element" l :: map TChar docs +++ TStart "complexType" ct :: body_tokens i +++
      TEnd "complexType" :: TEnd "element" :: body_tokens r
  | BInline l docs i r => TStart "element" l :: map TChar docs +++ inline_tokens i +++ TEnd "element" :: body_tokens r
  | BChoice l i r => TStart "choice" l :: body_tokens i +++ TEnd "choice" :: body_tokens r
  | BExtension l i r => TStart "extension" l :: body_tokens i +++ TEnd "extension" :: body_tokens r
  | BRestriction l i r => TStart "restriction" l :: body_tokens i +++ TEnd "restriction" :: body_tokens r
  | BFacet f r => facet_tokens f +++ body_tokens r
  end.

Fixpoint part_tokens (g : part) : list token :=
  match g with
  | GEnd => []
  | GText d r => TChar d :: part_tokens r
  | GElement l docs r => TStart "element" l :: map TChar docs +++ TEnd "element" :: part_tokens r
  | GGroup l docs r => TStart "group" l :: map TChar docs +++ TEnd "group" :: part_tokens r
  | GChoice l i r => TStart "choice" l :: part_tokens i +++ TEnd "choice" :: part_tokens r
  end.

Definition component_tokens (d : component) : list token :=
  match d with
  | DText d => [TChar d]
  | DSimple l docs s => TStart "simpleType" l :: map TChar docs +++ simple_tokens s +++ [TEnd "simpleType"]
  | DComplex l b => TStart "complexType" l :: body_tokens b +++ [TEnd "complexType"]
  | DElement l docs => TStart "element" l :: map TChar docs +++ [TEnd "element"]
  | DAnonymous l docs ct b =>
      TStart "element" l :: map TChar docs +++
      TStart "complexType" ct :: body_tokens b +++ [TEnd "complexType"; TEnd "element"]
  | DInline l docs i => TStart "element" l :: map TChar docs +++ inline_tokens i +++ [TEnd "element"]
  | DAttribute a => attribute_tokens a
  | DGroup l g => TStart "group" l :: part_tokens g +++ [TEnd "group"]
  | DAttributeGroup l docs ats =>
      TStart "attributeGroup" l :: map TChar docs +++ flat_map attribute_tokens ats +++ [TEnd "attributeGroup"]
  end.

Definition schema_tokens (l : list xattr) (ds : list component) : list token :=
  TStart "schema" l :: flat_map component_tokens ds +++ [TEnd "schema"].

(** * What they declare *)

Definition counts (many : string -> option bool) : Prop := forall v,
  match many v with
  | Some b => occurs_ok v /\ (b = true <-> occurs_many v)
  | None => ~ occurs_ok v
  end.

Definition otherwise (d : string) (o : option string) : string := match o with Some v => v | None => d end.

(** The last text that is not blank, without the white space around it; what was
    there before if there is none. *)
Definition latest (docs : list string) (before : string) : string :=
  last (filter (fun d => negb (String.eqb d "")) (map trim_space docs)) before.
Definition doc_of (docs : list string) : string := latest docs "".

(** The texts inside a node, in their order. *)
Definition facet_texts (f : facet) : list string := let 'Facet _ _ docs := f in docs.
Definition derivation_texts (d : derivation) : list string :=
  match d with Restricted _ docs fs => docs +++ flat_map facet_texts fs | ListOf _ docs => docs end.
Definition inline_texts (i : inline_type) : list string := let 'Inline _ docs d := i in docs +++ derivation_texts d.
Definition attribute_texts (a : attribute_decl) : list string :=
  let 'AttributeDecl _ docs inline := a in docs +++ match inline with None => [] | Some i => inline_texts i end.
Definition simple_texts (s : simple_body) : list string :=
  match s with Derived d => derivation_texts d | UnionOf _ docs ms => docs +++ flat_map inline_texts ms end.

Definition facet_locals : list string :=
  ["enumeration"; "pattern"; "fractionDigits"; "length"; "maxExclusive"; "maxInclusive"; "maxLength"; "minExclusive";
   "minInclusive"; "minLength"; "totalDigits"; "whiteSpace"].
Definition facet_ok (f : facet) : bool :=
  let 'Facet local _ _ := f in if in_dec string_dec local facet_locals then true else false.
Definition facets_ok (fs : list facet) : bool := forallb facet_ok fs.
Definition facet_values (fs : list facet) : list string :=
  flat_map (fun f => let 'Facet local l _ := f in if string_dec local "enumeration" then values "value" l else []) fs.

(** Elements with the same name and type are one member, plural if one of them is. *)
Fixpoint record (e : Element) (l : list Element) : list Element :=
  match l with
  | [] => [e]
  | x :: r =>
      if string_dec (el_name x) (el_name e) then
        if string_dec (el_type x) (el_type e) then with_plural (el_plural x || el_plural e) x :: r else x :: r +++ [e]
      else x :: record e r
  end.

(** A second reference to a group is ignored. *)
Definition record_group (g : Group) (l : list Group) : list Group :=
  if in_dec string_dec (gr_name g) (map gr_name l) then l else l +++ [g].

Section Declared.
Variable res : string -> list proto -> string.
Variable many : string -> option bool.

Definition type_in (l : list xattr) (tree : list proto) : string :=
  match last_of ["type"; "ref"] l with Some v => res v tree | None => "" end.
Definition name_in (l : list xattr) : string := otherwise "" (last_of ["name"; "ref"] l).
Definition ref_in (l : list xattr) (tree : list proto) : string :=
  match last_of ["ref"] l with Some v => res v tree | None => "" end.

(** Restriction and extension bases are resolved twice. *)
Definition base_in (l : list xattr) (tree : list proto) : string :=
  match last_of ["base"] l with Some v => res (res v tree) tree | None => "" end.

(** An element: [None] if maxOccurs is no number. *)
Definition element_plural (l : list xattr) : option bool :=
  fold_right (fun v o => match many v, o with Some b, Some c => Some (b || c) | _, _ => None end)
             (Some (existsb (fun v => negb (String.eqb v "0")) (values "unbounded" l)))
             (values "maxOccurs" l).

(** [typed]: whether the tag itself gives the type. *)
Definition element_in (l : list xattr) (plural : bool) (tree : list proto) : option (Element * bool) :=
  match element_plural l with
  | None => None
  | Some b =>
      let t := type_in l tree in
      if string_dec t "" then Some (mkElement "" (name_in l) (res (name_in l) tree) (b || plural) false, false)
      else Some (mkElement "" (name_in l) t (b || plural) false, true)
  end.

(** The last maxOccurs counts; all must be numbers. *)
Definition choice_in (l : list xattr) : option bool :=
  fold_left (fun o v => match o with Some _ => many v | None => None end) (values "maxOccurs" l) (Some false).

Definition group_in (l : list xattr) (plural : bool) (tree : list proto) : Group :=
  mkGroup "" (name_in l) [] []
    (existsb (fun v => negb (String.eqb v "0")) (values "maxOccurs" l) || plural) (ref_in l tree).

Definition attrgroup_in (l : list xattr) (doc : string) (ats : list Attribute) (tree : list proto) : AttributeGroup :=
  mkAttrGroup doc (name_in l) (ref_in l tree) ats.

Definition item_in (l : list xattr) (tree : list proto) : option string :=
  option_map (fun v => res v tree) (last_of ["itemType"] l).

(** The type of an attribute with an inline type. *)
Definition inline_in (i : inline_type) (tree : list proto) : option string :=
  let 'Inline _ _ d := i in
  match d with
  | Restricted l _ fs => if facets_ok fs then Some (res (base_in l tree) tree) else None
  | ListOf l _ => Some (otherwise "" (item_in l tree))
  end.

(** [own]: its texts are its documentation. *)
Definition attribute_in (own : bool) (a : attribute_decl) (tree : list proto) : option Attribute :=
  let 'AttributeDecl l _ inline := a in
  let opt := negb (existsb (String.eqb "required") (values "use" l)) in
  let doc := if own then doc_of (attribute_texts a) else "" in
  match inline with
  | None => Some (mkAttribute (name_in l) doc (type_in l tree) false opt)
  | Some i => option_map (fun t => mkAttribute (name_in l) doc t false opt) (inline_in i tree)
  end.

(** A simple type after one more restriction or list.  Those of the members of a
    union go to the union itself. *)
Definition derive (d : derivation) (tree : list proto) (v : SimpleType) : option SimpleType :=
  match d with
  | Restricted l _ fs =>
      if facets_ok fs then
        Some (mkSimple (st_doc v) (st_name v)
                (match last_of ["base"] l with Some _ => base_in l tree | None => st_base v end)
                (st_list v) (st_union v) (st_members v) (st_enum v +++ facet_values fs))
      else None
  | ListOf l _ =>
      Some (mkSimple (st_doc v) (st_name v) (otherwise (st_base v) (item_in l tree)) true (st_union v) (st_members v) (st_enum v))
  end.

Fixpoint members_in (ms : list inline_type) (tree : list proto) (v : SimpleType) : option SimpleType :=
  match ms with
  | [] => Some v
  | Inline l _ d :: r =>
      match last_of ["name"] l, derive d tree v with
      | None, Some v' => members_in r tree v'
      | _, _ => None
      end
  end.

Definition simple_in (name doc : string) (s : simple_body) (tree : list proto) : option SimpleType :=
  match s with
  | Derived d => derive d tree (mkSimple doc name "" false false [] [])
  | UnionOf l _ ms =>
      members_in ms tree
        (mkSimple doc name "" false true
           (fold_left (fun m v => put (local_part v) (res v tree) m) (flat_map (split_on " ") (values "memberTypes" l)) []) [])
  end.

(** An element whose tag does not give its type takes the texts that follow it,
    even after its end.  [who]: its place among the components; [None] if it is a
    member of a type, which nobody looks at again.  [open]: the values of an
    inline enumeration may be left over as well. *)
Record leftover : Type := mkLeft { who : option nat; open : bool }.

Fixpoint edit (k : nat) (f : Element -> Element) (tree : list proto) : list proto :=
  match tree, k with
  | PElement e :: r, O => PElement (f e) :: r
  | p :: r, S k => p :: edit k f r
  | _, _ => tree
  end.
Definition edit_left (f : Element -> Element) (x : leftover) (tree : list proto) : list proto :=
  match who x with Some k => edit k f tree | None => tree end.
Definition redocument (docs : list string) : leftover -> list proto -> list proto :=
  edit_left (fun e => mkElement (latest docs (el_doc e)) (el_name e) (el_type e) (el_plural e) (el_optional e)).
Definition retype (t : string) : leftover -> list proto -> list proto :=
  edit_left (fun e => mkElement (el_doc e) (el_name e) t (el_plural e) (el_optional e)).

Definition is_enumeration (f : facet) : bool := let 'Facet local _ _ := f in String.eqb local "enumeration".

(** Who is documented by a text inside a complex type: the type, or its last
    attribute if it has attributes already; the element around it; nobody; an
    element that is left over. *)
Inductive listener : Type := ToType | ToElement | ToNobody | ToLeft (x : leftover).

(** The inside of a complex type so far: the components declared on the way, the
    complex type with its members, and the documentation of the element around it. *)
Record inside : Type := mkInside {
  i_tree : list proto;
  i_type : ComplexType;
  i_to : listener;
  i_doc : string
}.
Definition with_type (f : ComplexType -> ComplexType) (s : inside) : inside :=
  mkInside (i_tree s) (f (i_type s)) (i_to s) (i_doc s).

Definition document (docs : list string) (c : ComplexType) : ComplexType :=
  match rev (ct_attributes c) with
  | [] => mkComplex (latest docs (ct_doc c)) (ct_name c) (ct_base c) (ct_elements c) (ct_attributes c) (ct_groups c) (ct_attrgroups c)
  | a :: r =>
      mkComplex (ct_doc c) (ct_name c) (ct_base c) (ct_elements c)
        (rev (mkAttribute (at_name a) (latest docs (at_doc a)) (at_type a) (at_plural a) (at_optional a) :: r))
        (ct_groups c) (ct_attrgroups c)
  end.

Definition tell (docs : list string) (s : inside) : inside :=
  match i_to s with
  | ToType => with_type (document docs) s
  | ToElement => mkInside (i_tree s) (i_type s) (i_to s) (latest docs (i_doc s))
  | ToNobody => s
  | ToLeft x => mkInside (redocument docs x (i_tree s)) (i_type s) (i_to s) (i_doc s)
  end.

(** After an anonymous type and after an inline type, the type around it does
    not listen any more. *)
Definition no_longer (to : listener) : listener := match to with ToElement | ToLeft _ => to | _ => ToNobody end.

(** A local element that does not give its type in its own tag is left over.
    Not supported below an element. *)
Definition lost (o : bool) (s : inside) : option inside :=
  match i_to s with ToElement => None | _ => Some (mkInside (i_tree s) (i_type s) (ToLeft (mkLeft None o)) (i_doc s)) end.
Definition opened (to : listener) : bool := match to with ToLeft x => open x | _ => false end.

Definition has_inline (a : attribute_decl) : bool :=
  let 'AttributeDecl _ _ inline := a in match inline with Some _ => true | None => false end.

Definition add_attribute (x : Attribute) (c : ComplexType) : ComplexType :=
  mkComplex (ct_doc c) (ct_name c) (ct_base c) (ct_elements c) (ct_attributes c +++ [x]) (ct_groups c) (ct_attrgroups c).
Definition add_attrgroup (x : AttributeGroup) (c : ComplexType) : ComplexType :=
  mkComplex (ct_doc c) (ct_name c) (ct_base c) (ct_elements c) (ct_attributes c) (ct_groups c) (ct_attrgroups c +++ [x]).
Definition add_group (x : Group) (c : ComplexType) : ComplexType :=
  mkComplex (ct_doc c) (ct_name c) (ct_base c) (ct_elements c) (ct_attributes c) (record_group x (ct_groups c)) (ct_attrgroups c).
Definition add_member (x : Element) (c : ComplexType) : ComplexType :=
  mkComplex (ct_doc c) (ct_name c) (ct_base c) (record x (ct_elements c)) (ct_attributes c) (ct_groups c) (ct_attrgroups c).
Definition based_on (l : list xattr) (tree : list proto) (c : ComplexType) : ComplexType :=
  mkComplex (ct_doc c) (ct_name c) (match last_of ["base"] l with Some _ => base_in l tree | None => ct_base c end)
    (ct_elements c) (ct_attributes c) (ct_groups c) (ct_attrgroups c).

(** An element with an inline type: a restriction with a facet.  All texts inside
    are its documentation. *)
Definition inline_element (e : Element) (docs : list string) (i : inline_type) (tree : list proto) : option Element :=
  match i with
  | Inline _ _ (Restricted lr _ (f :: fs)) =>
      match last_of ["base"] lr with
      | Some _ =>
          if facets_ok (f :: fs)
          then Some (mkElement (doc_of (docs +++ inline_texts i)) (el_name e) (res (base_in lr tree) tree) (el_plural e) false)
          else None
      | None => None
      end
  | _ => None
  end.

(** As a member it needs a new name. *)
Definition inline_member (e : Element) (docs : list string) (i : inline_type) (tree : list proto) (c : ComplexType) : option Element :=
  if in_dec string_dec (el_name e) (map el_name (ct_elements c)) then None else inline_element e docs i tree.

Definition only_values (i : inline_type) : bool :=
  match i with Inline _ _ (Restricted _ _ fs) => forallb is_enumeration fs | _ => false end.

(** [plural]: within a repeated choice.  Not supported where the texts go to an
    element: inline types of attributes, restrictions, facets. *)
Fixpoint body_in (b : body) (plural : bool) (s : inside) : option inside :=
  match b with
  | BEnd => Some s
  | BText d r => body_in r plural (tell [d] s)
  | BAttribute a r =>
      match i_to s with
      | ToElement | ToLeft _ =>
          if has_inline a then None
          else match attribute_in false a (i_tree s) with
               | None => None
               | Some x => body_in r plural (with_type (add_attribute x) (tell (attribute_texts a) s))
               end
      | to =>
          match attribute_in true a (i_tree s) with
          | None => None
          | Some x =>
              let s' := with_type (add_attribute x) s in
              body_in r plural (mkInside (i_tree s') (i_type s') (if has_inline a then ToNobody else to) (i_doc s'))
          end
      end
  | BAttributeGroup l docs r =>
      body_in r plural (tell docs (with_type (add_attrgroup (attrgroup_in l "" [] (i_tree s))) s))
  | BGroup l docs r => body_in r plural (tell docs (with_type (add_group (group_in l plural (i_tree s))) s))
  | BElement l docs r =>
      match element_in l plural (i_tree s) with
      | Some (e, true) => body_in r plural (tell docs (with_type (add_member e) s))
      | Some (e, false) => match lost (opened (i_to s)) (with_type (add_member e) s) with None => None | Some s' => body_in r plural s' end
      | None => None
      end
  | BAnonymous l docs ct i r =>
      match element_in l plural (i_tree s) with
      | Some (e, false) =>
          match body_in i plural (mkInside (i_tree s) (mkComplex "" (name_in l) "" [] [] [] []) (i_to s) (i_doc s)) with
          | None => None
          | Some s' =>
              body_in r plural
                (mkInside (i_tree s' +++ [PComplex (i_type s')]) (add_member e (i_type s))
                   (match i_to s' with ToLeft x => ToLeft x | _ => no_longer (i_to s) end) (i_doc s'))
          end
      | _ => None
      end
  | BInline l docs i r =>
      match element_in l plural (i_tree s) with
      | Some (e, false) =>
          match inline_member e docs i (i_tree s) (i_type s) with
          | None => None
          | Some x => match lost (only_values i) (with_type (add_member x) s) with None => None | Some s' => body_in r plural s' end
          end
      | _ => None
      end
  | BChoice l i r =>
      match choice_in l with
      | None => None
      | Some b => match body_in i (b || plural) s with None => None | Some s' => body_in r plural s' end
      end
  | BExtension l i r =>
      if string_dec (ct_name (i_type s)) "" then None
      else match body_in i plural (with_type (based_on l (i_tree s)) s) with None => None | Some s' => body_in r plural s' end
  | BRestriction l i r =>
      match i_to s with
      | ToElement | ToLeft _ => None
      | _ =>
          match body_in i plural s with
          | None => None
          | Some s' => match i_to s' with ToLeft _ => None | _ => body_in r plural s' end
          end
      end
  | BFacet f r =>
      match i_to s with
      | ToElement | ToLeft _ => None
      | _ => if facet_ok f then body_in r plural (tell (facet_texts f) s) else None
      end
  end.

(** Nobody is documented by a text in a group. *)
Fixpoint part_in (p : part) (plural : bool) (tree : list proto) (g : Group) : option Group :=
  match p with
  | GEnd => Some g
  | GText _ r => part_in r plural tree g
  | GElement l _ r =>
      match element_in l plural tree with
      | Some (e, true) => part_in r plural tree
          (mkGroup (gr_doc g) (gr_name g) (gr_elements g +++ [e]) (gr_groups g) (gr_plural g) (gr_ref g))
      | _ => None
      end
  | GGroup l _ r => part_in r plural tree
      (mkGroup (gr_doc g) (gr_name g) (gr_elements g) (gr_groups g +++ [group_in l plural tree]) (gr_plural g) (gr_ref g))
  | GChoice l i r =>
      match choice_in l with
      | None => None
      | Some b =>
          match part_in i (b || plural) tree g with
          | None => None
          | Some g' => part_in r plural tree g'
          end
      end
  end.

Fixpoint attributes_in (ats : list attribute_decl) (tree : list proto) : option (list Attribute) :=
  match ats with
  | [] => Some []
  | a :: r =>
      match attribute_in false a tree, attributes_in r tree with
      | Some x, Some xs => Some (x :: xs)
      | _, _ => None
      end
  end.

(** * A simple type after an element that is left over

    Its texts go to that element. *)

Definition derive_left (d : derivation) (x : leftover) (tree : list proto) (v : SimpleType) : option (list proto * SimpleType) :=
  match d with
  | Restricted _ _ (_ :: _) => None
  | _ => option_map (fun v' => (redocument (derivation_texts d) x tree, v')) (derive d tree v)
  end.

Fixpoint members_left (ms : list inline_type) (x : leftover) (tree : list proto) (v : SimpleType) : option (list proto * SimpleType) :=
  match ms with
  | [] => Some (tree, v)
  | Inline l docs d :: r =>
      match last_of ["name"] l, derive_left d x (redocument docs x tree) v with
      | None, Some (tree', v') => members_left r x tree' v'
      | _, _ => None
      end
  end.

(** With a facet, the type itself gets lost and its base becomes the type of that
    element: up to the first facet that is no enumeration value. *)
Fixpoint swallow (base : string) (fs : list facet) (x : leftover) (tree : list proto) : list proto :=
  match fs with
  | [] => tree
  | Facet local l docs :: r =>
      let heard := redocument docs x tree in
      let typed := retype (res base heard) x heard in
      if is_enumeration (Facet local l docs) then swallow base r x typed else redocument (flat_map facet_texts r) x typed
  end.

Definition simple_left (name : string) (docs : list string) (s : simple_body) (x : leftover) (tree : list proto)
  : option (list proto * leftover) :=
  let tree := redocument docs x tree in
  match s with
  | Derived (Restricted l docs' (f :: fs)) =>
      if facets_ok (f :: fs)
      then Some (swallow (base_in l tree) (f :: fs) x (redocument docs' x tree), mkLeft (who x) (forallb is_enumeration (f :: fs)))
      else None
  | Derived d =>
      option_map (fun r => (fst r +++ [PSimple (snd r)], x)) (derive_left d x tree (mkSimple "" name "" false false [] []))
  | UnionOf l docs' ms =>
      option_map (fun r => (fst r +++ [PSimple (snd r)], x))
        (members_left ms x (redocument docs' x tree)
           (mkSimple "" name "" false true
              (fold_left (fun m v => put (local_part v) (res v tree) m) (flat_map (split_on " ") (values "memberTypes" l)) []) []))
  end.

(** The components after one more declaration.  [before]: the element that is left
    over, if any.  Groups and inline types of attributes are not supported then,
    nor simple types when values are left over. *)
Definition component_in (d : component) (tree : list proto) (before : option leftover) : option (list proto * option leftover) :=
  let o := match before with Some x => open x | None => false end in
  match d with
  | DText d => Some (match before with Some x => redocument [d] x tree | None => tree end, before)
  | DSimple l docs s =>
      let name := otherwise "" (last_of ["name"] l) in
      if string_dec name "" then None
      else match before with
           | None => option_map (fun v => (tree +++ [PSimple v], before)) (simple_in name (doc_of (docs +++ simple_texts s)) s tree)
           | Some x => if open x then None else option_map (fun r => (fst r, Some (snd r))) (simple_left name docs s x tree)
           end
  | DComplex l b =>
      let name := otherwise "" (last_of ["name"] l) in
      if string_dec name "" then None
      else option_map (fun r => (i_tree r +++ [PComplex (i_type r)], match i_to r with ToLeft x => Some x | _ => None end))
             (body_in b false (mkInside tree (mkComplex "" name "" [] [] [] []) (match before with Some x => ToLeft x | None => ToType end) ""))
  | DElement l docs =>
      match element_in l false tree with
      | Some (e, typed) =>
          Some (tree +++ [PElement (mkElement (doc_of docs) (el_name e) (el_type e) (el_plural e) false)],
                if typed then before else Some (mkLeft (Some (length tree)) o))
      | None => None
      end
  | DAnonymous l docs ct b =>
      match element_in l false tree, last_of ["name"] ct with
      | Some (e, false), None =>
          option_map (fun r =>
              (i_tree r +++ [PComplex (i_type r); PElement (mkElement (i_doc r) (el_name e) (el_type e) (el_plural e) false)], before))
            (body_in b false (mkInside tree (mkComplex "" (name_in l) "" [] [] [] []) ToElement (doc_of docs)))
      | _, _ => None
      end
  | DInline l docs i =>
      match element_in l false tree with
      | Some (e, false) =>
          option_map (fun x => (tree +++ [PElement x], Some (mkLeft (Some (length tree)) (only_values i)))) (inline_element e docs i tree)
      | _ => None
      end
  | DAttribute a =>
      match before with
      | None => option_map (fun v => (tree +++ [PAttribute v], before)) (attribute_in true a tree)
      | Some x =>
          if has_inline a then None
          else option_map (fun v => (redocument (attribute_texts a) x tree +++ [PAttribute v], before)) (attribute_in false a tree)
      end
  | DGroup l g =>
      match before with
      | None => option_map (fun v => (tree +++ [PGroup v], before)) (part_in g false tree (group_in l false tree))
      | Some _ => None
      end
  | DAttributeGroup l docs ats =>
      if match before with Some _ => existsb has_inline ats | None => false end then None
      else option_map (fun xs =>
             (tree +++ [PAttrGroup (attrgroup_in l (doc_of (docs +++ flat_map attribute_texts ats)) xs tree)], before))
           (attributes_in ats tree)
  end.

Fixpoint schema_from (ds : list component) (tree : list proto) (before : option leftover) : option (list proto) :=
  match ds with
  | [] => Some tree
  | d :: r => match component_in d tree before with None => None | Some (tree', before') => schema_from r tree' before' end
  end.
Definition schema_in (ds : list component) (tree : list proto) : option (list proto) := schema_from ds tree None.

End Declared.

(** * What a type name stands for *)

(** A built-in type (the table is data, specified by C06 and C46), else what the first
    declaration of the name among the components so far gives, else the name
    itself.  Nothing is imported or included. *)
Definition resolution (extract : bool) (lang : string) (res : string -> list proto -> string) : Prop := forall v tree,
  let n := local_part v in
  match representation lang n with
  | Some t => res v tree = t
  | None =>
      (forall b, first_gives n tree b -> b <> "" -> res v tree = b) /\
      (first_gives n tree "" -> res v tree = if extract then "" else n) /\
      (none_gives n tree -> res v tree = n)
  end.

(** * Schemas as they are written: other tags (sequence, all, annotation,
    simpleContent, ...), blank texts, comments and processing instructions
    anywhere. *)
Definition written_as {E : Env} (core ts : list token) : Prop :=
  exists mid, padded foreign core mid /\ padded spacing mid ts.
