(** Specification for C38: included schemas that include others and need not agree. *)

From Coq Require Import String List.
From Verif Require Import GoPath Base World Handlers Parser SpecTables SpecParse.
Import ListNotations.
Local Open Scope string_scope.

(** Every schema included under a name of [K] can be parsed, includes only
    schemas of [K], and resolves [name] to what [gives] says. *)
Definition included_within {E : Env} (d fuel : nat) (o : Options) (w : World) (K : list string) (name : string)
    (gives : string -> option string) : Prop :=
  forall k w1, In k K -> w_fs w1 = w_fs w ->
    exists p w2, parse d fuel (nested o (join2 (dir (o_file o)) k) true) w1 = Ret p w2 /\
      (forall x, In x (w_inc w2) -> In x (w_inc w1) \/ In x K) /\
      match gives k with
      | Some t => first_gives name (freeze p) t /\ t <> name /\ t <> ""
      | None => none_gives name (freeze p)
      end.
