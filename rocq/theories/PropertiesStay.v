(** Property theorems about documents that go on: C60. *)

From Coq Require Import String Ascii List NArith ZArith Bool.
From Verif Require Import GoStr GoPath Base World Handlers Parser SpecDoc SpecParse SpecStay StayProofs Demo PropertiesAttr.
Import ListNotations.
Local Open Scope string_scope.

(** C60.  The components [freeze p] declared by the beginning [before] of a
    document are the first components of the whole document, in their order, up
    to the documentation and the type of elements; exactly so if no element is
    waiting for more. *)
Theorem C60_components_stay : forall (E : Env) d fuel o w bytes before after q w', o_extract o = false ->
  stat (o_file o) w = SFile bytes -> env_tokens bytes = (before ++ after)%list -> parse (S d) fuel o w = Ret q w' ->
  exists p w1, run_tokens (get_value_type (parse d fuel) fuel o) before p_init (register o (freeze (o_ps o)) w) = Ret p w1 /\
    stay (freeze p) (freeze q) /\ (p_element p = [] -> exists rest, freeze q = (freeze p ++ rest)%list).
Proof. exact @parse_stay. Qed.
Print Assumptions C60_components_stay.

(** Two files of which one goes on where the other ends, read for their types
    only. *)
Theorem C60_longer_document : forall (E : Env) d fuel o w bytes bytes' rest p w', o_extract o = true ->
  stat (o_file o) w = SFile bytes -> parse d fuel o w = Ret p w' ->
  env_tokens bytes = (env_tokens bytes' ++ rest)%list ->
  forall w2, stat (o_file o) w2 = SFile bytes' -> exists p2 w2', parse d fuel o w2 = Ret p2 w2' /\ stay (freeze p2) (freeze p).
Proof. exact @truncation_stay. Qed.
Print Assumptions C60_longer_document.

(** An element keeps its place and its name, but not its type. *)
Definition stay_before : list token :=
  (TStart "schema" [] :: [TStart "element" [att "name" "x"]; TEnd "element"] ++ d_element "y" "string")%list.
Definition stay_after : list token :=
  [TStart "simpleType" [att "name" "S"]; TStart "restriction" [att "base" "integer"]; TStart "length" [att "value" "3"]; TEnd "length";
   TEnd "restriction"; TEnd "simpleType"; TStart "element" [att "name" "z"; att "type" "string"]; TEnd "element"; TEnd "schema"].

Example C60_example :
  result stay_before = Comps [PElement (mkElement "" "x" "x" false false); PElement (mkElement "" "y" "string" false false)] /\
  result (stay_before ++ stay_after) =
    Comps [PElement (mkElement "" "x" "int" false false); PElement (mkElement "" "y" "string" false false);
           PElement (mkElement "" "z" "string" false false)].
Proof. split; vm_compute; reflexivity. Qed.
