(** Property theorems about types derived from built-in types: C63. *)

From Coq Require Import String Ascii List NArith ZArith Bool.
From Verif Require Import GoStr GoPath Base Utils World Handlers Parser SpecStr SpecTables SpecDoc SpecRestrict RestrictProofs Fixture Demo.
Import ListNotations.
Local Open Scope string_scope.

(** C63.  The base of a restriction or an extension is resolved, and the result
    is resolved again.  Target types that are names of built-in types with the
    same target type survive, whatever has been declared, imported or included. *)
Theorem C63_settled : forall (E : Env) lang name t, In lang languages -> In name xsd_builtin -> representation lang name = Some t ->
  In t (settled lang) ->
  forall rec fuel o l v p w, o_lang o = lang -> calls v name -> values "base" l = [v] ->
  on_restriction (get_value_type rec fuel o) l p w = Ret (restricted v t p) w /\
  on_extension (get_value_type rec fuel o) l p w = Ret (extended v t p) w.
Proof. exact @settled_base. Qed.
Print Assumptions C63_settled.

(** There are no others, and one built-in type turns into the target type of
    another one. *)
Theorem C63_table : forall lang name t, In lang languages -> In name xsd_builtin -> representation lang name = Some t ->
  (representation lang t = Some t <-> In t (settled lang)) /\
  (forall u, representation lang t = Some u -> u <> t -> lang = "Java" /\ name = "anyURI" /\ t = "QName" /\ u = "String").
Proof. exact settled_table. Qed.
Print Assumptions C63_table.

(** In a schema that is read for its types: exactly. *)
Theorem C63_exact_partial : forall (E : Env) lang name t, In lang languages -> In name xsd_builtin -> representation lang name = Some t ->
  forall rec fuel o l v p w, o_lang o = lang -> o_extract o = true -> calls v name -> values "base" l = [v] ->
  exists u, second_look lang t (freeze p) u /\
    on_restriction (get_value_type rec fuel o) l p w = Ret (restricted v u p) w /\
    on_extension (get_value_type rec fuel o) l p w = Ret (extended v u p) w.
Proof. exact @extract_base. Qed.
Print Assumptions C63_exact_partial.

(** Otherwise: the target type, if no component of that name was declared, no
    location is known for the default namespace and nothing is included. *)
Theorem C63_ordinary_partial : forall (E : Env) lang name t, In lang languages -> In name xsd_builtin -> representation lang name = Some t ->
  representation lang t = None ->
  forall rec fuel o l v p w, o_lang o = lang -> calls v name -> values "base" l = [v] -> none_gives t (freeze p) ->
  get "" (w_lns w) = None -> get "" (w_nsl w) = None -> w_inc w = [] -> stat (join2 (dir (o_file o)) "") w = SDir -> fuel <> 0 ->
  on_restriction (get_value_type rec fuel o) l p w = Ret (restricted v t p) w /\
  on_extension (get_value_type rec fuel o) l p w = Ret (extended v t p) w.
Proof. exact @ordinary_base. Qed.
Print Assumptions C63_ordinary_partial.

(** A component that is called like a target type captures it. *)
Theorem C63_captured_refuted : forall (E : Env) lang name t, In lang languages -> In name xsd_builtin -> representation lang name = Some t ->
  representation lang t = None ->
  forall rec fuel o l v p w u, o_lang o = lang -> calls v name -> values "base" l = [v] -> first_gives t (freeze p) u -> u <> t -> u <> "" ->
  on_restriction (get_value_type rec fuel o) l p w = Ret (restricted v u p) w /\
  on_extension (get_value_type rec fuel o) l p w = Ret (extended v u p) w.
Proof. exact @captured_base. Qed.
Print Assumptions C63_captured_refuted.

(** In Java a type derived from anyURI is based on another type than a member
    of type anyURI has. *)
Theorem C63_uri_refuted : forall (E : Env) rec fuel o l v p w, o_lang o = "Java" -> calls v "anyURI" -> values "base" l = [v] ->
  get_value_type rec fuel o v (freeze p) w = Ret "QName" w /\
  on_restriction (get_value_type rec fuel o) l p w = Ret (restricted v "String" p) w /\
  on_extension (get_value_type rec fuel o) l p w = Ret (extended v "String" p) w.
Proof. exact @uri_base. Qed.
Print Assumptions C63_uri_refuted.

Example C63_example : In "unsignedByte" xsd_builtin /\ representation "Go" "nonNegativeInteger" = Some "int" /\ In "int" (settled "Go") /\
  calls "xs:token" "token" /\ values "base" [att "id" "i"; att "base" "xs:token"] = ["xs:token"] /\
  representation "Rust" "date" = Some "u8" /\ representation "Rust" "u8" = None.
Proof.
  split; [cbn; tauto|]. split; [reflexivity|]. split; [cbn; tauto|]. split; [|repeat split; reflexivity].
  right. exists "xs". split; [|reflexivity]. intros a b. destruct a as [|x [|y [|z a]]]; discriminate.
Qed.

(** The same restriction before and after a component called like the target
    type; a restriction and an element of type anyURI; the settled types are
    not captured. *)
Definition derive_doc : list token :=
  d_schema [] (d_simple "Before" "xs:int" ++ d_simple "Integer" "xs:string" ++ d_simple "After" "xs:int" ++
               d_simple "Site" "xs:anyURI" ++ d_element "home" "xs:anyURI" ++ d_element "string" "xs:decimal" ++ d_simple "Text" "xs:token").

Example C63_document_example :
  let E := demo [("D", derive_doc)] first_choice in
  let w := demo_world [("d.xsd", "D")] in
  let s n b := PSimple (mkSimple "" n b false false [] []) in let e n t := PElement (mkElement "" n t false false) in
  see (parse (E := E) 3 3 (demo_opts "d.xsd" "Java" false) w) =
    Comps [s "Before" "Integer"; s "Integer" "String"; s "After" "String"; s "Site" "String"; e "home" "QName"; e "string" "Float"; s "Text" "String"] /\
  see (parse (E := E) 3 3 (demo_opts "d.xsd" "Go" false) w) =
    Comps [s "Before" "int"; s "Integer" "string"; s "After" "int"; s "Site" "string"; e "home" "string"; e "string" "float64"; s "Text" "string"].
Proof. split; vm_compute; reflexivity. Qed.

(** With an included schema that cannot be read, a type derived from xs:string
    is based on nothing in Java, while an element of that type is a String. *)
Definition include_doc : list token := d_schema [] (d_include "gone.xsd" ++ d_simple "Text" "xs:string" ++ d_element "e" "xs:string").

Theorem C63_include_refuted :
  let E := demo [("D", include_doc)] first_choice in
  let w := demo_world [("d.xsd", "D")] in
  see (parse (E := E) 3 3 (demo_opts "d.xsd" "Java" false) w) =
    Comps [PSimple (mkSimple "" "Text" "" false false [] []); PElement (mkElement "" "e" "String" false false)] /\
  see (parse (E := E) 3 3 (demo_opts "d.xsd" "Go" false) w) =
    Comps [PSimple (mkSimple "" "Text" "string" false false [] []); PElement (mkElement "" "e" "string" false false)].
Proof. split; vm_compute; reflexivity. Qed.
Print Assumptions C63_include_refuted.
