(** Components but for the types of the target language (C67). *)

From Coq Require Import String Ascii List NArith ZArith Bool.
From Verif Require Import GoStr Base World Handlers Parser SpecDoc.
Import ListNotations.
Local Open Scope string_scope.

(** Whether there is a type, not which. *)
Definition some_type (t : string) : string := if String.eqb t "" then "" else "?".

Definition shape_attribute (a : Attribute) : Attribute :=
  mkAttribute (at_name a) (at_doc a) (some_type (at_type a)) (at_plural a) (at_optional a).
Definition shape_element (e : Element) : Element :=
  mkElement (el_doc e) (el_name e) (some_type (el_type e)) (el_plural e) (el_optional e).
Fixpoint shape_group (g : Group) : Group :=
  mkGroup (gr_doc g) (gr_name g) (map shape_element (gr_elements g)) (map shape_group (gr_groups g)) (gr_plural g) (some_type (gr_ref g)).
Definition shape_attrgroup (a : AttributeGroup) : AttributeGroup :=
  mkAttrGroup (ag_doc a) (ag_name a) (some_type (ag_ref a)) (map shape_attribute (ag_attributes a)).
Definition shape_simple (s : SimpleType) : SimpleType :=
  mkSimple (st_doc s) (st_name s) (some_type (st_base s)) (st_list s) (st_union s)
    (map (fun m => (fst m, some_type (snd m))) (st_members s)) (st_enum s).
Definition shape_complex (c : ComplexType) : ComplexType :=
  mkComplex (ct_doc c) (ct_name c) (some_type (ct_base c)) (map shape_element (ct_elements c)) (map shape_attribute (ct_attributes c))
    (map shape_group (ct_groups c)) (map shape_attrgroup (ct_attrgroups c)).

Definition shape (p : proto) : proto :=
  match p with
  | PNil => PNil
  | PSimple v => PSimple (shape_simple v)
  | PComplex v => PComplex (shape_complex v)
  | PElement v => PElement (shape_element v)
  | PAttribute v => PAttribute (shape_attribute v)
  | PGroup v => PGroup (shape_group v)
  | PAttrGroup v => PAttrGroup (shape_attrgroup v)
  end.

(** Equal but for the types. *)
Definition same_but_types (t t' : list proto) : Prop := map shape t = map shape t'.

(** The same options for another language. *)
Definition in_language (lang : string) (o : Options) : Options :=
  mkO (o_file o) (o_input o) (o_output o) (o_extract o) lang (o_package o) (o_ps o).

(** What the tag of an element calls it, and whether the tag gives a type. *)
Definition element_name (l : list xattr) : string :=
  fold_left (fun n x => if existsb (String.eqb (a_local x)) ["name"; "ref"] then a_value x else n) l "".
Definition gives_type (l : list xattr) : bool := existsb (fun x => existsb (String.eqb (a_local x)) ["type"; "ref"]) l.

(** Within a complex type no element has the name of an earlier one.  [st]:
    the names in the complex types that are open, [all]: all names so far,
    [own]: the last element was declared in the complex type that is open and
    its tag gives no type.  The end of a restriction in a complex type puts
    some earlier element in the place of the last one; if the restriction
    belongs to the last element, it is that element. *)
Fixpoint members_apart {E : Env} (all : list string) (own : bool) (st : list (list string)) (ts : list token) : Prop :=
  match ts with
  | [] => True
  | TStart local l :: r =>
      if tag "ComplexType" local then members_apart all false ([] :: st) r
      else if tag "Element" local then
        let n := element_name l in
        match st with
        | [] => members_apart (n :: all) false [] r
        | ns :: st' => ~ In n ns /\ members_apart (n :: all) (negb (gives_type l)) ((n :: ns) :: st') r
        end
      else members_apart all own st r
  | TEnd local :: r =>
      if tag "ComplexType" local then members_apart all false (tl st) r
      else if tag "Restriction" local then
        members_apart all own (match st with [] => [] | ns :: st' => (if own then ns else all ++ ns)%list :: st' end) r
      else members_apart all own st r
  | _ :: r => members_apart all own st r
  end.
