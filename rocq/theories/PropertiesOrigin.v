(** Property theorems about where types come from: C62. *)

From Coq Require Import String Ascii List NArith ZArith Bool.
From Verif Require Import GoStr GoPath Base Utils World Handlers Parser SpecStr SpecTables SpecDoc SpecParse SpecOrigin OriginProofs Demo PropertiesAttr.
Import ListNotations.
Local Open Scope string_scope.

(** C62.  [names] holds all that the schema files of [w] refer to.  Every type in
    the components is empty, the representation of a built-in type, or one of
    [names] without its prefix. *)
Theorem C62_types : forall (E : Env) names d fuel o w q w', files_refer names w -> trees_refer (o_lang o) names w -> programs_refer names ->
  Forall (comp_types (o_lang o) names) (freeze (o_ps o)) -> parse d fuel o w = Ret q w' ->
  Forall (comp_types (o_lang o) names) (freeze q).
Proof. exact parse_types. Qed.
Print Assumptions C62_types.

(** Read for its types only, a schema has no types but those it refers to
    itself. *)
Theorem C62_alone : forall (E : Env) d fuel o w bytes q w', o_extract o = true -> stat (o_file o) w = SFile bytes ->
  parse d fuel o w = Ret q w' -> Forall (comp_types (o_lang o) (refers (env_tokens bytes))) (freeze q).
Proof. exact extract_types. Qed.
Print Assumptions C62_alone.

(** Types of an imported schema, of no schema, and built in; the members of a
    union. *)
Definition origin_doc : list token :=
  ([TStart "schema" [xmlns "x" "urn:x"]] ++ d_import "urn:x" "x.xsd" ++ d_element "a" "x:T" ++ d_element "b" "y:U" ++ d_element "c" "xs:decimal" ++
   [TStart "simpleType" [att "name" "V"]; TStart "union" [att "memberTypes" "x:T V"]; TEnd "union"; TEnd "simpleType"; TEnd "schema"])%list.
Definition origin_docs : smap (list token) := [("A", origin_doc); ("X", d_schema [] (d_simple "T" "integer"))].
Definition origin_world : World := demo_world [("a.xsd", "A"); ("x.xsd", "X")].

Example C62_example : forall (E := demo origin_docs first_choice),
  let names v := In v (attribute_values origin_doc) \/ In v (attribute_values (d_schema [] (d_simple "T" "integer"))) in
  files_refer names origin_world /\ trees_refer "Go" names origin_world /\ programs_refer names /\
  see (parse 3 3 (demo_opts "a.xsd" "Go" false) origin_world) =
    Comps [PElement (mkElement "" "a" "int" false false); PElement (mkElement "" "b" "U" false false);
           PElement (mkElement "" "c" "float64" false false);
           PSimple (mkSimple "" "V" "" false true [("T", "int"); ("V", "V")] [])].
Proof.
  intros E names.
  assert (H : forall b v, refers (env_tokens b) v -> names v).
  { intros b v Hv. apply refers_values in Hv. cbn [env_tokens E demo] in Hv. unfold origin_docs in Hv. cbn [get] in Hv.
    destruct (String.eqb _ _); [now left|]. destruct (String.eqb _ _); [now right|]. destruct Hv. }
  split; [intros path b v _; apply H|]. split; [discriminate|]. split; [intros f text v; apply H|]. vm_compute. reflexivity.
Qed.
