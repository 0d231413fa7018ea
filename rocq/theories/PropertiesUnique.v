(** Property theorems about repeated members of a complex type: C65. *)

From Coq Require Import String Ascii List NArith ZArith Bool.
From Verif Require Import GoStr GoPath Base Utils World Handlers Parser SpecDoc SpecParse SpecUnique UniqueProofs Demo PropertiesAttr.
Import ListNotations.
Local Open Scope string_scope.

(** C65.  A complex type does not refer to a group twice, whatever the document. *)
Theorem C65_groups : forall (E : Env) d fuel o w bytes q w' c, stat (o_file o) w = SFile bytes -> parse d fuel o w = Ret q w' ->
  In (PComplex c) (freeze q) -> NoDup (map gr_name (ct_groups c)).
Proof.
  intros E d fuel o w bytes q w' c Hs H Hc. apply (parse_unique E False d fuel o w bytes q w' Hs H); [intros []|exact Hc].
Qed.
Print Assumptions C65_groups.

(** C65.  In a document without restrictions inside complex types, an element
    of a complex type that repeats a name differs in type from the first
    element of that name.  Missing: restrictions inside complex types
    (C65_inline_refuted). *)
Theorem C65_told_apart_partial : forall (E : Env) d fuel o w bytes q w' c, stat (o_file o) w = SFile bytes ->
  parse d fuel o w = Ret q w' -> restrictions_outside 0 (env_tokens bytes) -> In (PComplex c) (freeze q) ->
  told_apart (map name_and_type (ct_elements c)).
Proof.
  intros E d fuel o w bytes q w' c Hs H Hr Hc. apply (parse_unique E True d fuel o w bytes q w' Hs H); [intros _; exact Hr|exact Hc|exact Logic.I].
Qed.
Print Assumptions C65_told_apart_partial.

(** Hence in such a document, if equal names have equal types in a complex
    type, each name is there once.  Missing: as above, and names with several
    types (C65_types_refuted). *)
Theorem C65_unique_partial : forall (E : Env) d fuel o w bytes q w' c, stat (o_file o) w = SFile bytes ->
  parse d fuel o w = Ret q w' -> restrictions_outside 0 (env_tokens bytes) -> In (PComplex c) (freeze q) ->
  name_decides (map name_and_type (ct_elements c)) -> NoDup (map el_name (ct_elements c)).
Proof.
  intros E d fuel o w bytes q w' c Hs H Hr Hc Hd.
  assert (Hn := apart_nodup _ (C65_told_apart_partial E d fuel o w bytes q w' c Hs H Hr Hc) Hd).
  rewrite map_map in Hn. exact Hn.
Qed.
Print Assumptions C65_unique_partial.

Definition in_type (body : list token) : list token :=
  d_schema [] (TStart "complexType" [att "name" "C"] :: body ++ [TEnd "complexType"])%list.

(** Three elements of the same name and type become one that is repeated; two
    references to a group become one. *)
Definition unique_doc : list token :=
  d_schema [] (d_simple "S" "integer" ++ TStart "complexType" [att "name" "C"] ::
    d_element "a" "string" ++ d_element "b" "S" ++ d_element "a" "string" ++
    [TStart "element" [att "name" "a"; att "type" "string"; att "maxOccurs" "2"]; TEnd "element";
     TStart "group" [att "ref" "g"]; TEnd "group"; TStart "group" [att "ref" "h"]; TEnd "group"; TStart "group" [att "ref" "g"]; TEnd "group";
     TEnd "complexType"])%list.

Example C65_example : result unique_doc =
  Comps [PSimple (mkSimple "" "S" "int" false false [] []);
         PComplex (mkComplex "" "C" "" [mkElement "" "a" "string" true false; mkElement "" "b" "int" false false] []
           [mkGroup "" "g" [] [] false "g"; mkGroup "" "h" [] [] false "h"] [])].
Proof. vm_compute. reflexivity. Qed.

Example C65_example_outside : restrictions_outside (E := demo [] first_choice) 0 unique_doc.
Proof. vm_compute. repeat split; intros H; (reflexivity || discriminate H). Qed.

(** An element that is declared with two types is there twice, and if the
    second declaration is repeated, it is there three times. *)
Theorem C65_types_refuted : exists ts c, restrictions_outside (E := demo [] first_choice) 0 ts /\ result ts = Comps [PComplex c] /\
  map name_and_type (ct_elements c) = [("a", "string"); ("a", "int"); ("a", "int")].
Proof.
  exists (in_type (d_element "a" "string" ++ d_element "a" "integer" ++ d_element "a" "integer")%list). eexists.
  split; [vm_compute; repeat split; intros H; (reflexivity || discriminate H)|]. split; [vm_compute; reflexivity|reflexivity].
Qed.
Print Assumptions C65_types_refuted.

(** An element whose type is written inside it. *)
Definition inline (n : string) : list token :=
  [TStart "element" [att "name" n]; TStart "simpleType" []; TStart "restriction" [att "base" "integer"];
   TStart "minLength" [att "value" "1"]; TEnd "minLength"; TEnd "restriction"; TEnd "simpleType"; TEnd "element"].

(** Such an element, declared twice, is there twice with the same type: the
    type is stored into the last entry after the two have been compared. *)
Theorem C65_inline_refuted : exists ts c, ~ restrictions_outside (E := demo [] first_choice) 0 ts /\ result ts = Comps [PComplex c] /\
  map name_and_type (ct_elements c) = [("a", "int"); ("a", "int")].
Proof.
  exists (in_type (inline "a" ++ inline "a")%list). eexists.
  split; [vm_compute; intros H; decompose [and] H|split; [vm_compute; reflexivity|reflexivity]].
  match goal with Hr : true = true -> _ |- _ => discriminate (Hr eq_refl) end.
Qed.
Print Assumptions C65_inline_refuted.

(** The elements of a group are not compared. *)
Theorem C65_group_refuted : exists ts g, restrictions_outside (E := demo [] first_choice) 0 ts /\ result ts = Comps [PGroup g] /\
  map name_and_type (gr_elements g) = [("a", "string"); ("a", "string")].
Proof.
  exists (d_schema [] (TStart "group" [att "name" "G"] :: d_element "a" "string" ++ d_element "a" "string" ++ [TEnd "group"])%list). eexists.
  split; [vm_compute; repeat split; intros H; (reflexivity || discriminate H)|]. split; [vm_compute; reflexivity|reflexivity].
Qed.
Print Assumptions C65_group_refuted.
