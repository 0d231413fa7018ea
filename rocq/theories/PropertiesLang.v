(** Property theorems about the components for several languages: C67. *)

From Coq Require Import String Ascii List NArith ZArith Bool.
From Verif Require Import GoStr GoPath Base Utils World Handlers Parser SpecDoc SpecParse SpecLang LangProofs LangNames LangParse Demo PropertiesAttr.
Import ListNotations.
Local Open Scope string_scope.

(** C67.  A document that needs no other and that does not declare an element
    twice in a complex type has the same components for all languages but for
    the types.  Missing: documents that import or include schemas
    (C67_include_refuted) and repeated elements (C67_repeated_refuted). *)
Theorem C67_components_partial : forall (E : Env) d fuel d' fuel' lang o w bytes q w1 q' w2, o_extract o = false -> fuel <> 0 -> fuel' <> 0 ->
  stat (o_file o) w = SFile bytes -> self_contained (env_tokens bytes) -> members_apart [] false [] (env_tokens bytes) ->
  w_nsl w = [] -> w_inc w = [] -> stat (join2 (dir (o_file o)) "") w = SDir ->
  parse d fuel o w = Ret q w1 -> parse d' fuel' (in_language lang o) w = Ret q' w2 -> same_but_types (freeze q) (freeze q').
Proof.
  intros E d fuel d' fuel' lang o w bytes q w1 q' w2 He Hf Hf' Hs Hc Hm Hn Hi Hd.
  now apply (languages_same d fuel d' fuel' lang o w bytes).
Qed.
Print Assumptions C67_components_partial.

(** Numbers that cannot be read are reported, and panics happen, for all
    languages or for none. *)
Theorem C67_failures_partial : forall (E : Env) d fuel d' fuel' lang o w bytes, o_extract o = false -> fuel <> 0 -> fuel' <> 0 ->
  stat (o_file o) w = SFile bytes -> self_contained (env_tokens bytes) -> members_apart [] false [] (env_tokens bytes) ->
  w_nsl w = [] -> w_inc w = [] -> stat (join2 (dir (o_file o)) "") w = SDir ->
  (forall x v, parse (S d) fuel o w = Fail (EAtoi x) v -> exists v', parse (S d') fuel' (in_language lang o) w = Fail (EAtoi x) v') /\
  (forall v, parse (S d) fuel o w = Crash Panic v -> exists v', parse (S d') fuel' (in_language lang o) w = Crash Panic v').
Proof.
  intros E d fuel d' fuel' lang o w bytes He Hf Hf' Hs Hc Hm Hn Hi Hd. now apply (languages_refuse d fuel d' fuel' lang o w bytes).
Qed.
Print Assumptions C67_failures_partial.

(** Types written inside elements and attributes, an inner complex type, an
    extension, a name that is used in two complex types.  The attribute's type
    ends up at an element, for every language. *)
Definition inner (base : string) : list token :=
  [TStart "simpleType" []; TStart "restriction" [att "base" base]; TStart "minLength" [att "value" "1"]; TEnd "minLength";
   TEnd "restriction"; TEnd "simpleType"].
Definition lang_doc : list token :=
  d_schema [] (d_simple "S" "xs:short" ++
    [TStart "complexType" [att "name" "C"]; TStart "element" [att "name" "a"]] ++ inner "xs:integer" ++ [TEnd "element"] ++
    d_element "b" "xs:long" ++ [TStart "attribute" [att "name" "x"]] ++ inner "xs:time" ++ [TEnd "attribute"; TEnd "complexType"] ++
    [TStart "complexType" [att "name" "D"]; TStart "complexContent" []; TStart "extension" [att "base" "C"]] ++ d_element "a" "S" ++
    [TStart "element" [att "name" "c"]; TStart "complexType" []] ++ d_element "a" "xs:byte" ++ [TEnd "complexType"; TEnd "element"] ++
    d_element "b" "xs:QName" ++ [TEnd "extension"; TEnd "complexContent"; TEnd "complexType"])%list.

Example C67_example : let E := demo [("D", lang_doc)] first_choice in
  members_apart [] false [] lang_doc /\
  (forall local l, In (TStart local l) lang_doc -> tag "Import" local = false /\ tag "Include" local = false) /\
  (let e n t := mkElement "" n t false false in
   see (parse (E := E) 2 2 (demo_opts "d.xsd" "Go" false) (demo_world [("d.xsd", "D")])) =
     Comps [PSimple (mkSimple "" "S" "int16" false false [] []);
            PComplex (mkComplex "" "C" "" [e "a" "int"; e "a" "time.Time"] [mkAttribute "x" "" "" false true] [] []);
            PComplex (mkComplex "" "c" "" [e "a" "int8"] [] [] []);
            PComplex (mkComplex "" "D" "C" [e "a" "int16"; e "c" "c"; e "b" "xml.Name"] [] [] [])] /\
   see (parse (E := E) 2 2 (in_language "Rust" (demo_opts "d.xsd" "Go" false)) (demo_world [("d.xsd", "D")])) =
     Comps [PSimple (mkSimple "" "S" "i16" false false [] []);
            PComplex (mkComplex "" "C" "" [e "a" "i32"; e "a" "String"] [mkAttribute "x" "" "" false true] [] []);
            PComplex (mkComplex "" "c" "" [e "a" "u8"] [] [] []);
            PComplex (mkComplex "" "D" "C" [e "a" "i16"; e "c" "c"; e "b" "String"] [] [] [])]).
Proof.
  cbv zeta. split; [|split; [|split; vm_compute; reflexivity]].
  - vm_compute. repeat split; intros H; repeat (destruct H as [H|H]; [discriminate H|]); exact H.
  - intros local l H. vm_compute in H. repeat (destruct H as [H|H]; [try discriminate; injection H as <- <-; split; vm_compute; reflexivity|]). destruct H.
Qed.

(** An element that is declared with two types is there twice for Go and once
    for TypeScript, where the two types are the same. *)
Theorem C67_repeated_refuted : exists ts, let E := demo [("D", ts)] first_choice in
  self_contained ts /\
  let o := demo_opts "d.xsd" "Go" false in let w := demo_world [("d.xsd", "D")] in
  exists c c', see (parse (E := E) 2 2 o w) = Comps [PComplex c] /\ see (parse (E := E) 2 2 (in_language "TypeScript" o) w) = Comps [PComplex c'] /\
    length (ct_elements c) = 2 /\ length (ct_elements c') = 1.
Proof.
  exists (d_schema [] (TStart "complexType" [att "name" "C"] :: d_element "a" "xs:int" ++ d_element "a" "xs:long" ++ [TEnd "complexType"])%list).
  cbv zeta. split.
  - intros local l H. vm_compute in H. repeat (destruct H as [H|H]; [try discriminate; injection H as <- <-; split; vm_compute; reflexivity|]). destruct H.
  - eexists. eexists. split; [vm_compute; reflexivity|]. split; [vm_compute; reflexivity|]. now split.
Qed.
Print Assumptions C67_repeated_refuted.

(** With an included schema that cannot be read a type has a base for Go and
    none for Java. *)
Theorem C67_include_refuted : exists ts, let E := demo [("D", ts)] first_choice in
  members_apart [] false [] ts /\
  let o := demo_opts "d.xsd" "Go" false in let w := demo_world [("d.xsd", "D")] in
  exists s s', see (parse (E := E) 2 2 o w) = Comps [PSimple s] /\ see (parse (E := E) 2 2 (in_language "Java" o) w) = Comps [PSimple s'] /\
    ~ same_but_types [PSimple s] [PSimple s'].
Proof.
  exists (d_schema [] (d_include "gone.xsd" ++ d_simple "Text" "xs:string")). cbv zeta. split; [vm_compute; exact Logic.I|].
  eexists. eexists. split; [vm_compute; reflexivity|]. split; [vm_compute; reflexivity|]. discriminate.
Qed.
Print Assumptions C67_include_refuted.
