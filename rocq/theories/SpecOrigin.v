(** Where the types in the components of a document come from (C62). *)

From Coq Require Import String Ascii List NArith ZArith Bool.
From Verif Require Import GoStr Base Utils World SpecStr SpecTables SpecParse.
Import ListNotations.
Local Open Scope string_scope.

Section Origin.
Context {E : Env}.

(** The document refers to [v]: in an attribute that refers to a type, or, for
    want of a type, by the name of an element.  Unions refer to the words of
    their list. *)
Definition refers (ts : list token) (v : string) : Prop :=
  exists local l x, In (TStart local l) ts /\ In x l /\
    ((exists h ks, In (h, ks) reference_attributes /\ to_title local = h /\ In (a_local x) ks /\
        (if String.eqb h "Union" then In v (split_on " " (a_value x)) else v = a_value x)) \/
     to_title local = "Element" /\ a_local x = "name" /\ v = a_value x).

Variable lang : string.
Variable names : string -> Prop.

(** A type of the target language for a built-in type, or a name without its
    prefix. *)
Definition type_from (t : string) : Prop :=
  t = "" \/ (exists n, representation lang n = Some t) \/ (exists n, names n /\ t = local_part n).

Definition element_types (e : Element) : Prop := type_from (el_type e).
Definition attribute_types (a : Attribute) : Prop := type_from (at_type a).
Definition attrgroup_types (g : AttributeGroup) : Prop := type_from (ag_ref g) /\ Forall attribute_types (ag_attributes g).
Inductive group_types : Group -> Prop :=
| gt g : type_from (gr_ref g) -> Forall element_types (gr_elements g) -> Forall group_types (gr_groups g) -> group_types g.
Definition complex_types (c : ComplexType) : Prop :=
  type_from (ct_base c) /\ Forall element_types (ct_elements c) /\ Forall attribute_types (ct_attributes c) /\
  Forall group_types (ct_groups c) /\ Forall attrgroup_types (ct_attrgroups c).
Definition simple_types (s : SimpleType) : Prop := type_from (st_base s) /\ Forall (fun m => type_from (snd m)) (st_members s).

Definition comp_types (c : proto) : Prop :=
  match c with
  | PNil => True
  | PSimple v => simple_types v
  | PComplex v => complex_types v
  | PGroup v => group_types v
  | PAttrGroup v => attrgroup_types v
  | PElement v => element_types v
  | PAttribute v => attribute_types v
  end.

(** All that the files and the parsed schemas of a world refer to is in
    [names]. *)
Definition files_refer (w : World) : Prop :=
  forall path bytes v, get path (w_fs w) = Some (NFile bytes) -> refers (env_tokens bytes) v -> names v.
Definition trees_refer (w : World) : Prop :=
  forall file tree, get file (w_pmap w) = Some tree -> Forall comp_types tree.
(** So is all that a generated program would refer to if it were read as a
    schema. *)
Definition programs_refer : Prop := forall file text v, refers (env_tokens (env_write file text)) v -> names v.

End Origin.
