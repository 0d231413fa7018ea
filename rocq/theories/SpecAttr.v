(** Which attributes of a tag xgen looks at, and in which order (C59). *)

From Coq Require Import String Ascii List NArith ZArith Bool.
From Verif Require Import GoStr Base World Handlers SpecDoc SpecParse.
Import ListNotations.
Local Open Scope string_scope.

(** The local names of the attributes that the handler of a tag looks at.  The
    namespace of an attribute is never looked at, but for declarations of
    prefixes on the schema tag. *)
Definition consulted : list (string * list string) :=
  [("Attribute", ["ref"; "name"; "type"; "use"]); ("AttributeGroup", ["name"; "ref"]); ("Choice", ["maxOccurs"]);
   ("ComplexType", ["name"]); ("Element", ["ref"; "name"; "type"; "maxOccurs"; "unbounded"]);
   ("Enumeration", ["value"]); ("Extension", ["base"]); ("Group", ["name"; "ref"; "maxOccurs"]);
   ("Import", ["namespace"; "schemaLocation"]); ("Include", ["schemaLocation"]); ("List", ["itemType"]);
   ("Restriction", ["base"]); ("SimpleType", ["name"]); ("Union", ["memberTypes"])].

Definition is_consulted {E : Env} (local : string) (x : xattr) : Prop :=
  (exists h ks, In (h, ks) consulted /\ tag h local = true /\ In (a_local x) ks) \/
  tag "Schema" local = true /\ a_space x = "xmlns".

(** Pairs of attributes of different names whose order can be observed: an
    attribute ref also sets what name and type set, a namespace is used for the
    locations that follow it, and the first failure is the one reported. *)
Definition order_matters : list (string * list (string * string)) :=
  [("Attribute", [("ref", "name"); ("ref", "type")]); ("AttributeGroup", [("ref", "name")]);
   ("Element", [("ref", "name"); ("ref", "type"); ("ref", "maxOccurs"); ("type", "maxOccurs")]);
   ("Group", [("ref", "name")]); ("Import", [("namespace", "schemaLocation")])].

Definition interchangeable {E : Env} (local : string) (x y : xattr) : Prop :=
  a_local x <> a_local y /\ tag "Schema" local = false /\
  forall h ps, In (h, ps) order_matters -> tag h local = true ->
    ~ In (a_local x, a_local y) ps /\ ~ In (a_local y, a_local x) ps.

(** Lists of attributes of a tag [local] that differ in attributes that are not
    looked at, in namespaces, and in the order of attributes that do not
    interact. *)
Inductive same_attrs {E : Env} (local : string) : list xattr -> list xattr -> Prop :=
| sa_same l : same_attrs local l l
| sa_extra l1 x l2 : ~ is_consulted local x -> same_attrs local (l1 ++ x :: l2) (l1 ++ l2)
| sa_space l1 sp sp' k v l2 : tag "Schema" local = false ->
    same_attrs local (l1 ++ mkAttr sp k v :: l2) (l1 ++ mkAttr sp' k v :: l2)
| sa_order l1 x y l2 : interchangeable local x y -> same_attrs local (l1 ++ x :: y :: l2) (l1 ++ y :: x :: l2)
| sa_back l l' : same_attrs local l l' -> same_attrs local l' l
| sa_then l l' l'' : same_attrs local l l' -> same_attrs local l' l'' -> same_attrs local l l''.

Inductive same_tag {E : Env} : token -> token -> Prop :=
| stg_start local l l' : same_attrs local l l' -> same_tag (TStart local l) (TStart local l')
| stg_same t : same_tag t t.

(** Documents that differ in the attributes of their tags, in these ways. *)
Definition same_tags {E : Env} : list token -> list token -> Prop := Forall2 same_tag.
