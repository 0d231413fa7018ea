(** Components without their documentation (C53). *)

From Coq Require Import String Ascii List NArith ZArith Bool.
From Verif Require Import GoStr Base World Handlers Parser SpecParse SpecGen.
Import ListNotations.
Local Open Scope string_scope.

Definition bare_attribute (a : Attribute) : Attribute :=
  mkAttribute (at_name a) "" (at_type a) (at_plural a) (at_optional a).
Definition bare_element (e : Element) : Element :=
  mkElement "" (el_name e) (el_type e) (el_plural e) (el_optional e).
Fixpoint bare_group (g : Group) : Group :=
  mkGroup "" (gr_name g) (map bare_element (gr_elements g)) (map bare_group (gr_groups g)) (gr_plural g) (gr_ref g).
Definition bare_attrgroup (a : AttributeGroup) : AttributeGroup :=
  mkAttrGroup "" (ag_name a) (ag_ref a) (map bare_attribute (ag_attributes a)).
Definition bare_simple (s : SimpleType) : SimpleType :=
  mkSimple "" (st_name s) (st_base s) (st_list s) (st_union s) (st_members s) (st_enum s).
Definition bare_complex (c : ComplexType) : ComplexType :=
  mkComplex "" (ct_name c) (ct_base c) (map bare_element (ct_elements c)) (map bare_attribute (ct_attributes c))
    (map bare_group (ct_groups c)) (map bare_attrgroup (ct_attrgroups c)).

Definition bare (p : proto) : proto :=
  match p with
  | PNil => PNil
  | PSimple v => PSimple (bare_simple v)
  | PComplex v => PComplex (bare_complex v)
  | PElement v => PElement (bare_element v)
  | PAttribute v => PAttribute (bare_attribute v)
  | PGroup v => PGroup (bare_group v)
  | PAttrGroup v => PAttrGroup (bare_attrgroup v)
  end.

(** Equal but for documentation. *)
Definition same_but_docs (t t' : list proto) : Prop := map bare t = map bare t'.

(** Character data of any kind, comments, processing instructions, directives. *)
Inductive text_token : token -> Prop :=
| tt_char data : text_token (TChar data)
| tt_other : text_token TOther.

(** The outcome of Parse: the same up to documentation. *)
Inductive same_but_docs_outcome : out PState -> out PState -> Prop :=
| sb_ret p p' w w' : same_but_docs (freeze p) (freeze p') -> same_but_docs_outcome (Ret p w) (Ret p' w')
| sb_fail e w w' : same_but_docs_outcome (Fail e w) (Fail e w')
| sb_crash c w w' : same_but_docs_outcome (Crash c w) (Crash c w').

(** An item of generated text without the comment in front of it. *)
Definition no_notes (it : item) : item := mkItem [] (head it) (rows it).
