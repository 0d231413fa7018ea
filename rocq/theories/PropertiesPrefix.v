(** Property theorems about namespace prefixes: C72. *)

From Coq Require Import String Ascii List NArith ZArith Bool.
From Verif Require Import GoStr GoPath Base Utils World Handlers Parser SpecStr SpecTables SpecOut SpecFile SpecDoc SpecParse SpecLang SpecPrefix
  LangParse PrefixProofs Demo PropertiesAttr.
Import ListNotations.
Local Open Scope string_scope.

(** C72.  Two documents that need no others and that differ in the prefixes
    of type, itemType, memberTypes and base and in what is written in schema
    tags only have the same components.  Missing: the prefix of ref
    (C72_ref_refuted) and that of base where the type has no name
    (C72_base_refuted, C72_nameless_refuted), and documents with imports
    (C72_import_refuted). *)
Theorem C72_components_partial : forall (E : Env) d fuel d' fuel' o w w' bytes bytes' q w1 q' w2, o_extract o = false -> fuel <> 0 -> fuel' <> 0 ->
  stat (o_file o) w = SFile bytes -> stat (o_file o) w' = SFile bytes' ->
  same_document true (env_tokens bytes) (env_tokens bytes') -> self_contained (env_tokens bytes) -> elements_named (env_tokens bytes) ->
  w_nsl w = [] -> w_inc w = [] -> stat (join2 (dir (o_file o)) "") w = SDir ->
  w_nsl w' = [] -> w_inc w' = [] -> stat (join2 (dir (o_file o)) "") w' = SDir ->
  parse d fuel o w = Ret q w1 -> parse d' fuel' o w' = Ret q' w2 -> freeze q = freeze q'.
Proof.
  intros E d fuel d' fuel' o w w' bytes bytes' q w1 q' w2 He Hf Hf' Hs Hs' Hd Hc Hn A1 A2 A3 B1 B2 B3 H1 H2. f_equal.
  now apply (prefix_same d fuel d' fuel' o w w' bytes bytes' q w1 q' w2).
Qed.
Print Assumptions C72_components_partial.

(** The generated files are the same, too. *)
Theorem C72_files_partial : forall (E : Env) d fuel d' fuel' o w w' bytes bytes' q w1 q' w2 l, o_extract o = false -> fuel <> 0 -> fuel' <> 0 ->
  stat (o_file o) w = SFile bytes -> stat (o_file o) w' = SFile bytes' ->
  same_document true (env_tokens bytes) (env_tokens bytes') -> self_contained (env_tokens bytes) -> elements_named (env_tokens bytes) ->
  w_nsl w = [] -> w_inc w = [] -> stat (join2 (dir (o_file o)) "") w = SDir ->
  w_nsl w' = [] -> w_inc w' = [] -> stat (join2 (dir (o_file o)) "") w' = SDir -> selects (o_lang o) l ->
  parse d fuel o w = Ret q w1 -> parse d' fuel' o w' = Ret q' w2 ->
  forall f, output_file o l f -> exists text, get (clean f) (w_fs w1) = Some (NFile text) /\ get (clean f) (w_fs w2) = Some (NFile text).
Proof.
  intros E d fuel d' fuel' o w w' bytes bytes' q w1 q' w2 l He Hf Hf' Hs Hs' Hd Hc Hn A1 A2 A3 B1 B2 B3 Hl H1 H2.
  now apply (prefix_files d fuel d' fuel' o w w' bytes bytes' q w1 q' w2 l).
Qed.
Print Assumptions C72_files_partial.

(** Numbers that cannot be read are reported, and panics happen, with both
    documents or with none. *)
Theorem C72_failures_partial : forall (E : Env) d fuel d' fuel' o w w' bytes bytes', o_extract o = false -> fuel <> 0 -> fuel' <> 0 ->
  stat (o_file o) w = SFile bytes -> stat (o_file o) w' = SFile bytes' ->
  same_document true (env_tokens bytes) (env_tokens bytes') -> self_contained (env_tokens bytes) -> elements_named (env_tokens bytes) ->
  w_nsl w = [] -> w_inc w = [] -> stat (join2 (dir (o_file o)) "") w = SDir ->
  w_nsl w' = [] -> w_inc w' = [] -> stat (join2 (dir (o_file o)) "") w' = SDir ->
  (forall x v, parse (S d) fuel o w = Fail (EAtoi x) v -> exists v', parse (S d') fuel' o w' = Fail (EAtoi x) v') /\
  (forall v, parse (S d) fuel o w = Crash Panic v -> exists v', parse (S d') fuel' o w' = Crash Panic v').
Proof.
  intros E d fuel d' fuel' o w w' bytes bytes' He Hf Hf' Hs Hs' Hd Hc Hn A1 A2 A3 B1 B2 B3.
  now apply (prefix_refuse d fuel d' fuel' o w w' bytes bytes').
Qed.
Print Assumptions C72_failures_partial.

(** A document with the prefix [x] for XML Schema and [t] for itself: a simple
    type, a list, a union, an extension, elements, an attribute.  *)
Definition prefix_doc (ns : list xattr) (x t : string) : list token :=
  (TStart "schema" ns :: d_simple "S" (x ++ "short") ++
    [TStart "simpleType" [att "name" "L"]; TStart "list" [att "itemType" (t ++ "S")]; TEnd "list"; TEnd "simpleType";
     TStart "simpleType" [att "name" "U"]; TStart "union" [att "memberTypes" (x ++ "date " ++ t ++ "L")]; TEnd "union"; TEnd "simpleType";
     TStart "complexType" [att "name" "C"]] ++ d_element "a" (t ++ "U") ++
    [TStart "attribute" [att "name" "k"; att "type" (x ++ "ID")]; TEnd "attribute"; TEnd "complexType";
     TStart "complexType" [att "name" "D"]; TStart "complexContent" []; TStart "extension" [att "base" (t ++ "C")]] ++ d_element "b" (x ++ "byte") ++
    [TEnd "extension"; TEnd "complexContent"; TEnd "complexType"; TEnd "schema"])%list.

Example C72_example :
  let doc := prefix_doc [xmlns "xs" "http://www.w3.org/2001/XMLSchema"; xmlns "t" "urn:t"] "xs:" "t:" in
  let doc' := prefix_doc [att "xmlns" "urn:t"; xmlns "q" "http://www.w3.org/2001/XMLSchema"] "q:" "" in
  let E := demo [("D", doc); ("D'", doc')] first_choice in
  same_document true doc doc' /\ doc <> doc' /\
  (forall local l, In (TStart local l) doc -> tag "Import" local = false /\ tag "Include" local = false) /\ elements_named doc /\
  exists c c1 c2 c3 c4, let r := Comps [c; c1; c2; c3; c4] in
  see (parse (E := E) 2 2 (demo_opts "d.xsd" "Go" false) (demo_world [("d.xsd", "D")])) = r /\
  see (parse (E := E) 2 2 (demo_opts "d.xsd" "Go" false) (demo_world [("d.xsd", "D'")])) = r /\
  c4 = PComplex (mkComplex "" "D" "C" [mkElement "" "b" "int8" false false] [] [] []).
Proof.
  cbv zeta. split; [|split; [|split; [|split]]].
  - vm_compute. repeat split; auto; right; repeat (constructor; [repeat split; try reflexivity; repeat constructor|]); constructor.
  - discriminate.
  - intros local l H. vm_compute in H. repeat (destruct H as [H|H]; [try discriminate; injection H as <- <-; split; vm_compute; reflexivity|]). destruct H.
  - intros local l H. vm_compute in H. repeat (destruct H as [H|H]; [try discriminate; injection H as <- <-; vm_compute; discriminate|]). destruct H.
  - do 5 eexists. split; [vm_compute; reflexivity|]. split; vm_compute; reflexivity.
Qed.

(** What a document [doc v] with a value [v] in it is turned into. *)
Definition comes_to (doc : string -> list token) (v : string) : seen :=
  let E := demo [("D", doc v)] first_choice in
  see (parse (E := E) 2 2 (demo_opts "d.xsd" "Go" false) (demo_world [("d.xsd", "D")])).

(** The prefix of a ref becomes a part of the name. *)
Theorem C72_ref_refuted : let doc v := d_schema [] (d_element "e" "xs:int" ++ [TStart "complexType" [att "name" "C"]; TStart "element" [att "ref" v];
    TEnd "element"; TEnd "complexType"])%list in
  let c v := PComplex (mkComplex "" "C" "" [mkElement "" v "int" false false] [] [] []) in
  let e := PElement (mkElement "" "e" "int" false false) in
  comes_to doc "t:e" = Comps [e; c "t:e"] /\ comes_to doc "e" = Comps [e; c "e"].
Proof. cbv zeta. split; vm_compute; reflexivity. Qed.
Print Assumptions C72_ref_refuted.

(** The base of a simple type without a name becomes its name. *)
Theorem C72_base_refuted : let doc v := d_schema [] [TStart "element" [att "name" "e"]; TStart "simpleType" [];
    TStart "restriction" [att "base" v]; TEnd "restriction"; TEnd "simpleType"; TEnd "element"] in
  exists r r', comes_to doc "xs:int" = Comps (PSimple (mkSimple "" "xs:int" "int" false false [] []) :: r) /\
    comes_to doc "int" = Comps (PSimple (mkSimple "" "int" "int" false false [] []) :: r').
Proof. cbv zeta. eexists. eexists. split; vm_compute; reflexivity. Qed.
Print Assumptions C72_base_refuted.

(** Likewise for a complex type in an element without a name. *)
Theorem C72_nameless_refuted : let doc v := d_schema [] [TStart "element" []; TStart "complexType" []; TStart "simpleContent" [];
    TStart "extension" [att "base" v]; TEnd "extension"; TEnd "simpleContent"; TEnd "complexType"; TEnd "element"] in
  exists c c' e, comes_to doc "xs:int" = Comps [PComplex c; e] /\ comes_to doc "int" = Comps [PComplex c'; e] /\ ct_name c = "xs:int" /\ ct_name c' = "int".
Proof. cbv zeta. do 3 eexists. split; [vm_compute; reflexivity|]. split; [vm_compute; reflexivity|]. now split. Qed.
Print Assumptions C72_nameless_refuted.

(** With imports prefixes matter even if they are renamed everywhere in the
    document: an imported schema binds prefixes for its importer, too. *)
Definition importer (p : string) : list token :=
  d_schema [xmlns p "urn:1"; xmlns "z" "urn:2"]
    (d_import "urn:1" "one.xsd" ++ d_import "urn:2" "two.xsd" ++ d_element "e" (p ++ ":T") ++ d_element "f" (p ++ ":U"))%list.
Definition imported1 : list token := d_schema [xmlns "a" "urn:2"] (d_simple "T" "xs:int" ++ d_simple "U" "xs:long")%list.
Definition imported2 : list token := d_schema [] (d_simple "U" "xs:date").

Theorem C72_import_refuted :
  let E p := demo [("D", importer p); ("1", imported1); ("2", imported2)] first_choice in
  let w := demo_world [("d.xsd", "D"); ("one.xsd", "1"); ("two.xsd", "2")] in
  let e n t := PElement (mkElement "" n t false false) in
  same_document (E := E "c") true (importer "c") (importer "a") /\
  see (parse (E := E "c") 5 5 (demo_opts "d.xsd" "Go" false) w) = Comps [e "e" "int"; e "f" "int64"] /\
  see (parse (E := E "a") 5 5 (demo_opts "d.xsd" "Go" false) w) = Comps [e "e" "int"; e "f" "string"].
Proof.
  cbv zeta. split; [|split; vm_compute; reflexivity].
  vm_compute. repeat split; auto; right; repeat (constructor; [repeat split; try reflexivity; repeat constructor|]); constructor.
Qed.
Print Assumptions C72_import_refuted.
