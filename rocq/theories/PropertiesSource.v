(** Property theorems about where components come from: C61. *)

From Coq Require Import String Ascii List NArith ZArith Bool.
From Verif Require Import GoStr GoPath Base Utils World Handlers Parser SpecDoc SpecParse SpecSource SourceProofs Demo PropertiesAttr.
Import ListNotations.
Local Open Scope string_scope.

(** C61.  Every name, documentation, enumeration value and union member in a
    component of a document was written in that document, in an attribute of a
    tag of the right kind. *)
Theorem C61_source : forall (E : Env) d fuel o w bytes q w', stat (o_file o) w = SFile bytes -> parse d fuel o w = Ret q w' ->
  Forall (comp_from (env_tokens bytes)) (freeze q).
Proof. exact parse_source. Qed.
Print Assumptions C61_source.

(** The components are in the order of the end tags that made them: each end
    tag makes at most one, of its kind. *)
Theorem C61_one_per_end_tag : forall (E : Env) d fuel o w bytes q w', stat (o_file o) w = SFile bytes -> parse d fuel o w = Ret q w' ->
  exists news, freeze q = concat news /\ Forall2 adds (env_tokens bytes) news.
Proof. exact parse_ends. Qed.
Print Assumptions C61_one_per_end_tag.

(** A document in which names come from all the places that [comp_from] lists:
    a complex type from the element around it, a simple type from the base of
    its restriction, a complex type from the base of its extension. *)
Definition source_doc : list token :=
  ([TStart "schema" []; TStart "element" [att "name" "e"]; TStart "complexType" []; TStart "attribute" [att "ref" "p:a"; att "type" "string"];
    TChar "  text "; TEnd "attribute"; TEnd "complexType"; TEnd "element";
    TStart "element" []; TStart "complexType" []; TStart "extension" [att "base" "p:b"]; TEnd "extension"; TEnd "complexType"; TEnd "element";
    TStart "simpleType" []; TStart "restriction" [att "base" "p:c"]; TStart "enumeration" [att "value" "v"]; TEnd "enumeration"; TEnd "restriction";
    TEnd "simpleType"; TStart "simpleType" [att "name" "u"]; TStart "union" [att "memberTypes" "p:m n"]; TEnd "union"; TEnd "simpleType";
    TStart "simpleType" [att "name" "u"]; TEnd "simpleType"; TEnd "schema"])%list.

(** The text goes to the element that is still waiting, not to the attribute. *)
Example C61_example : result source_doc =
  Comps [PComplex (mkComplex "" "e" "" [] [mkAttribute "p:a" "" "string" false true] [] []);
         PElement (mkElement "text" "e" "e" false false);
         PComplex (mkComplex "" "p:b" "b" [] [] [] []);
         PElement (mkElement "" "" "" false false);
         PSimple (mkSimple "" "p:c" "c" false false [] ["v"]);
         PSimple (mkSimple "" "u" "" false true [("m", "m"); ("n", "n")] []);
         PSimple (mkSimple "" "u" "" false false [] [])].
Proof. vm_compute. reflexivity. Qed.

(** A simple type inside a complex type: its end makes the complex type, and the
    end of the complex type makes an empty entry. *)
Example C61_example_complex : result
  [TStart "schema" []; TStart "complexType" [att "name" "C"]; TStart "simpleType" [att "name" "S"]; TEnd "simpleType"; TEnd "complexType"; TEnd "schema"] =
  Comps [PComplex (mkComplex "" "C" "" [] [] [] []); PNil].
Proof. vm_compute. reflexivity. Qed.
