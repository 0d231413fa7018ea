(** Components that stay when a document goes on (C60). *)

From Coq Require Import String List Bool.
From Verif Require Import Base.
Import ListNotations.

(** The same component, up to the documentation and the type of an element. *)
Inductive kept : proto -> proto -> Prop :=
| k_same p : kept p p
| k_element e e' : el_name e = el_name e' -> el_plural e = el_plural e' -> el_optional e = el_optional e' ->
    kept (PElement e) (PElement e').

(** [b] begins with the components [a]. *)
Definition stay (a b : list proto) : Prop := exists c rest, b = (c ++ rest)%list /\ Forall2 kept a c.
