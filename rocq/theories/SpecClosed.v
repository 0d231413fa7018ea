(** Specification vocabulary for C66: the types that a generated program uses. *)

From Coq Require Import String Ascii List NArith Bool.
From Verif Require Import GoStr Utf8 Base Utils SpecStr SpecGen SpecOut SpecSyntax.
Import ListNotations.
Local Open Scope string_scope.

(** The names [std] and those declared; asked in language [l] only. *)
Definition in_scope (l : lang) (std declared : list string) : Scope := fun l' s => l' = l -> In s std \/ In s declared.

(** Declarations that use only the types [std] and those that they declare. *)
Definition closed_program (std : list string) (l : lang) (its : list item) : Prop :=
  exists ds, its = concat (map snd ds) /\
    Forall (fun d => declaration (S := in_scope l std (map fst ds)) l (fst d) (snd d)) ds.

(** Rust writes elements and attributes with small letters. *)
Definition small (l : lang) (p : proto) : Prop :=
  match l, p with Rust, PElement _ | Rust, PAttribute _ => True | _, _ => False end.

(** The names of components of a tree. *)
Definition components (pt : list proto) : Pool :=
  fun l t => well_formed t /\ exists p, first_of p pt /\ proto_name p = Some t /\ ~ small l p.

(** Java adds to the types of the attributes of attribute groups. *)
Definition no_group_attributes (pt : list proto) : Prop := forall v, In (PAttrGroup v) pt -> ag_attributes v = [].
