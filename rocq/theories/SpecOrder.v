(** Specification vocabulary for C70: types are declared before they are used. *)

From Coq Require Import String Ascii List NArith Bool.
From Verif Require Import GoStr Utf8 Base Utils SpecStr SpecGen SpecOut SpecSyntax SpecClosed.
Import ListNotations.
Local Open Scope string_scope.

Local Infix "+++" := app (at level 60, right associativity).

(** Each declaration uses only the types [std] and those declared before it. *)
Definition ordered_program (std : list string) (l : lang) (its : list item) : Prop :=
  exists ds, its = concat (map snd ds) /\
    forall pre d post, ds = pre +++ d :: post -> declaration (S := in_scope l std (map fst pre)) l (fst d) (snd d).

(** Each component refers only to built-in types and to components before it. *)
Definition ordered_tree {E : Env} (l : lang) (pt : list proto) : Prop :=
  forall pre p post, pt = pre +++ p :: post -> component_fine (P := components pre) l p.

(** No two components have the same name, and none that of a target type. *)
Definition own_names (l : lang) (pt : list proto) : Prop :=
  NoDup (map proto_name pt) /\ forall t, In t (targets l) -> ~ In (Some t) (map proto_name pt).
