(** Specification for C24: references that are resolved one after the other. *)

From Coq Require Import String List.
From Verif Require Import Base World Parser.
Import ListNotations.

Inductive references_resolved {E : Env} (d fuel : nat) (o : Options) (tree : list proto) : list string -> World -> World -> Prop :=
| rr_nil w : references_resolved d fuel o tree [] w w
| rr_cons m ms t w w1 w2 : get_value_type (parse d fuel) fuel o m tree w = Ret t w1 -> references_resolved d fuel o tree ms w1 w2 ->
    references_resolved d fuel o tree (m :: ms) w w2.
