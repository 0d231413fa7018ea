(** Specification for C74: what a run can do to a place of the file system. *)

From Coq Require Import String List.
From Verif Require Import World SpecStr SpecGen SpecOut.
Local Open Scope string_scope.

(** Nothing, a new directory, or a file with the extension of the language. *)
Definition touched (l : lang) (c : string) (before after : option node) : Prop :=
  after = before \/ (before = None /\ after = Some NDir) \/
  (ends_with c (extension l) /\ before <> Some NDir /\ exists bytes, after = Some (NFile bytes)).
