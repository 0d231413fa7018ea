(** Where the texts in the components of a document come from (C61). *)

From Coq Require Import String Ascii List NArith ZArith Bool.
From Verif Require Import GoStr Base Utils.
Import ListNotations.
Local Open Scope string_scope.

Section Source.
Context {E : Env}.
Variable ts : list token.

(** [v] is the value of an attribute called one of [keys] of a tag that is
    handled as [h]. *)
Definition written (h : string) (keys : list string) (v : string) : Prop :=
  exists local l x, In (TStart local l) ts /\ to_title local = h /\ In x l /\ In (a_local x) keys /\ a_value x = v.

Definition name_from (l : list (string * list string)) (n : string) : Prop :=
  n = "" \/ exists h keys, In (h, keys) l /\ written h keys n.

(** A text of the document without the white space around it. *)
Definition doc_from (d : string) : Prop := d = "" \/ exists data, In (TChar data) ts /\ trim_space data = d.

(** A member of a union is one of the words of its list of members, without
    its prefix. *)
Definition member_from (k : string) : Prop :=
  exists words m, written "Union" ["memberTypes"] words /\ In m (split_on " " words) /\ k = trim_ns_prefix m.

Definition element_names := [("Element", ["name"; "ref"])].
Definition attribute_names := [("Attribute", ["name"; "ref"])].
Definition attrgroup_names := [("AttributeGroup", ["name"; "ref"])].
Definition group_names := [("Group", ["name"; "ref"])].
Definition complex_names := [("ComplexType", ["name"]); ("Element", ["name"; "ref"]); ("Extension", ["base"])].
Definition simple_names := [("SimpleType", ["name"]); ("Restriction", ["base"])].

Definition element_from (e : Element) : Prop := name_from element_names (el_name e) /\ doc_from (el_doc e).
Definition attribute_from (a : Attribute) : Prop := name_from attribute_names (at_name a) /\ doc_from (at_doc a).
Definition attrgroup_from (g : AttributeGroup) : Prop :=
  name_from attrgroup_names (ag_name g) /\ doc_from (ag_doc g) /\ Forall attribute_from (ag_attributes g).
Inductive group_from : Group -> Prop :=
| gf g : name_from group_names (gr_name g) -> gr_doc g = "" -> Forall element_from (gr_elements g) ->
    Forall group_from (gr_groups g) -> group_from g.
Definition complex_from (c : ComplexType) : Prop :=
  name_from complex_names (ct_name c) /\ doc_from (ct_doc c) /\ Forall element_from (ct_elements c) /\
  Forall attribute_from (ct_attributes c) /\ Forall group_from (ct_groups c) /\ Forall attrgroup_from (ct_attrgroups c).
Definition simple_from (s : SimpleType) : Prop :=
  name_from simple_names (st_name s) /\ doc_from (st_doc s) /\ Forall (written "Enumeration" ["value"]) (st_enum s) /\
  Forall (fun m => member_from (fst m)) (st_members s).

Definition comp_from (c : proto) : Prop :=
  match c with
  | PNil => True
  | PSimple v => simple_from v
  | PComplex v => complex_from v
  | PGroup v => group_from v
  | PAttrGroup v => attrgroup_from v
  | PElement v => element_from v
  | PAttribute v => attribute_from v
  end.

End Source.

(** The components that the end of a tag handled as [h] may add. *)
Definition made_by (h : string) (c : proto) : Prop :=
  match c with
  | PNil => h = "SimpleType" \/ h = "ComplexType" \/ h = "Group"
  | PSimple _ => h = "SimpleType"
  | PComplex _ => h = "ComplexType" \/ h = "SimpleType"
  | PGroup _ => h = "Group"
  | PAttrGroup _ => h = "AttributeGroup"
  | PElement _ => h = "Element"
  | PAttribute _ => h = "Attribute"
  end.

(** What one token adds: at most one component, and only at the end of a tag. *)
Definition adds {E : Env} (t : token) (new : list proto) : Prop :=
  new = [] \/ exists local c, t = TEnd local /\ new = [c] /\ made_by (to_title local) c.
