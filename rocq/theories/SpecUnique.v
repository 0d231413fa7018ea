(** Repeated members of a complex type. *)

From Coq Require Import String List Arith Bool.
From Verif Require Import GoStr Base World SpecStr SpecDoc.
Import ListNotations.
Local Open Scope string_scope.

(** What an element is called, and its type. *)
Definition name_and_type (e : Element) : string * string := (el_name e, el_type e).

(** The type of the first member called [n]. *)
Fixpoint first_type (n : string) (l : list (string * string)) : option string :=
  match l with
  | [] => None
  | (n', t) :: r => if string_dec n' n then Some t else first_type n r
  end.

(** A member that repeats the name of earlier ones differs in type from the
    first of them. *)
Definition told_apart (l : list (string * string)) : Prop :=
  forall pre n t post, l = (pre ++ (n, t) :: post)%list -> first_type n pre <> Some t.

(** Among these members the name decides the type. *)
Definition name_decides (l : list (string * string)) : Prop :=
  forall n t t', In (n, t) l -> In (n, t') l -> t = t'.

(** No restriction ends while [k] complex types are open, [k] counting the
    start tags that no end tag has closed. *)
Fixpoint restrictions_outside {E : Env} (k : nat) (ts : list token) : Prop :=
  match ts with
  | [] => True
  | TStart local _ :: r => restrictions_outside (if tag "ComplexType" local then S k else k) r
  | TEnd local :: r => (tag "Restriction" local = true -> k = 0) /\
                       restrictions_outside (if tag "ComplexType" local then pred k else k) r
  | _ :: r => restrictions_outside k r
  end.
