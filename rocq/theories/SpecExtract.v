(** Specification for C75: reading a document for its types only. *)

From Coq Require Import String List.
From Verif Require Import Base World Handlers Parser SpecTables SpecParse.
Import ListNotations.
Local Open Scope string_scope.

(** The same options, reading for the types only. *)
Definition extracting (o : Options) : Options :=
  mkO (o_file o) (o_input o) (o_output o) true (o_lang o) (o_package o) (o_ps o).

(** Wherever reading [ts] stops, no component gives its name an empty type. *)
Definition typed_throughout {E : Env} (o : Options) (ts : list token) : Prop :=
  forall before after p w w', ts = (before ++ after)%list ->
    run_tokens (get_value_type (fun _ w => Crash NoFuel w) 0 (extracting o)) before p_init w = Ret p w' ->
    forall n, ~ first_gives n (freeze p) "".
