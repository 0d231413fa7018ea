(** Specification vocabulary for C26: paths with "..". *)

From Coq Require Import String List.
From Verif Require Import GoStr.
Import ListNotations.
Local Open Scope string_scope.

(** How deep one is after walking along the components of a relative path,
    beginning at depth [n]; nothing if the walk leaves the directory where it
    began, even for a while. *)
Fixpoint walk (n : nat) (cs : list string) : option nat :=
  match cs with
  | [] => Some n
  | c :: r =>
      if string_dec c ".." then match n with O => None | S m => walk m r end
      else if string_dec c "" then walk n r
      else if string_dec c "." then walk n r
      else walk (S n) r
  end.
