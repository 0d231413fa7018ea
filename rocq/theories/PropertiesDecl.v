(** Property theorems about the components a schema declares: C22.  The grammar
    of [SpecDecl] leaves out (hence "partial"): inline types of elements without
    facets, groups and inline attribute types after an element without a type in
    its tag, simple types after an inline enumeration, unions inside unions.
    Where an element is left over on the stack, the grammar says what becomes of
    the declarations after it. *)

From Coq Require Import String Ascii List Arith NArith ZArith Bool Lia.
From Verif Require Import GoStr GoPath Base Utils World Handlers Parser SpecDoc SpecTables SpecParse SpecDecl
  ParserProofs DocLemmas HandlerProofs DocProofs DeclProofs Fixture Demo.
Import ListNotations.
Local Open Scope string_scope.

(** C22 for one document and any way of resolving names that does not change
    the shared state.  [w1]: after the start tag of the schema, which only
    changes the table of prefixes. *)
Theorem C22_tokens_partial : forall (E : Env) gvt w res many l ds ts tree,
  let w1 := out_world (on_token gvt (TStart "schema" l) p_init w) in
  (forall v t, gvt v t w1 = Ret (res v t) w1) -> counts many ->
  schema_in res many ds [] = Some tree -> written_as (schema_tokens l ds) ts -> named_tags ts ->
  (exists p, run_tokens gvt ts p_init w = Ret p w1 /\ freeze p = tree) /\ exists m, w1 = set_lns m w.
Proof.
  intros E gvt w res many l ds ts tree w1 Hres Hmany Hs Hwr Hn. split.
  - destruct (schema_run gvt w res many l ds tree Hres Hmany Hs) as [p [Hp Hf]].
    destruct (written_run gvt _ ts w p _ Hwr Hn Hp) as [p' [Hp' Hf']]. exists p'. split; [exact Hp'|congruence].
  - eexists. reflexivity.
Qed.
Print Assumptions C22_tokens_partial.

(** C22 for Parse, without imports and includes.  Only writing the output can
    fail. *)
Theorem C22_parse_partial : forall (E : Env) d fuel o w bytes res many l ds tree,
  stat (o_file o) w = SFile bytes -> env_open_fail (o_file o) = false ->
  (o_extract o = false -> w_inc w = [] /\ w_nsl w = [] /\ stat (join2 (dir (o_file o)) "") w = SDir) ->
  written_as (schema_tokens l ds) (env_tokens bytes) -> named_tags (env_tokens bytes) ->
  resolution (o_extract o) (o_lang o) res -> counts many -> schema_in res many ds [] = Some tree ->
  let r := parse (S d) (S fuel) o w in
  (forall p w', r = Ret p w' -> freeze p = tree) /\
  (o_extract o = true -> exists p w', r = Ret p w') /\
  (o_extract o = false -> get (o_file o) (w_pmap (out_world r)) = Some tree) /\
  (forall e w', r = Fail e w' -> e = EGofmt \/ exists path, e = ECreate path) /\
  (forall c w', r = Crash c w' -> c = Exit1).
Proof.
  intros E d fuel o w bytes res many l ds tree Hst Hop Hw Hwr Hn Hres Hmany Hs. cbv zeta.
  destruct (parse_finish d fuel o w bytes res many l ds tree Hst Hop Hw Hwr Hn Hres Hmany Hs) as [p' [w1 [-> [Hf' _]]]].
  destruct (o_extract o) eqn:He.
  { rewrite finish_extract by exact He. split; [|split; [|split; [|split]]]; try discriminate.
    - intros q w' H. injection H as <- <-. exact Hf'.
    - intros _. now exists p', w1. }
  destruct (finish_effect o p' w1 He) as [Hc1 [Hc2 [_ [_ [_ [_ [_ [Hpm [_ Hret]]]]]]]]].
  split; [|split; [discriminate|split; [|split]]].
  - intros q w' H. destruct (Hret q w' H) as [-> _]. exact Hf'.
  - intros _. cbv zeta in Hpm. rewrite Hpm, Hf'. clear. induction (w_pmap w1) as [|[k v] m IH]; cbn; [now rewrite String.eqb_refl|].
    destruct (String.eqb k (o_file o)) eqn:Hk; cbn; [now rewrite String.eqb_refl|]. now rewrite Hk.
  - intros e w' H. unfold finish in H. rewrite He in H. cbv zeta in H. destruct (prepare_output_dir _ _) as [w2 [|]]; [|discriminate].
    unfold generate, gen_go, gen_plain in H. cbv zeta in H.
    repeat match type of H with context [if String.eqb ?a ?b then _ else _] => destruct (String.eqb a b) end;
      repeat match type of H with context [match ?x with Some _ => _ | None => _ end] => destruct x end;
      cbn [bind] in H; try discriminate; injection H as <- _; eauto.
  - intros c w' H. destruct c; [now apply Hc2 in H|reflexivity|now apply Hc1 in H].
Qed.
Print Assumptions C22_parse_partial.

(** The repository's fixture base64.xsd, all of it. *)
Definition base64_attrs : list xattr :=
  [mkAttr "" "xmlns" "http://www.w3.org/2001/XMLSchema"; mkAttr "xmlns" "here" "http://example.org/"; mkAttr "" "targetNamespace" "http://example.org/"].
Definition named (n t : string) : list xattr := [att "name" n; att "type" t].
Definition base64_schema : list component :=
  [DSimple [att "name" "myType1"] [] (Derived (Restricted [att "base" "base64Binary"] [] [Facet "length" [att "value" "10"] []]));
   DComplex [att "name" "myType2"]
     (BExtension [att "base" "base64Binary"] (BAttribute (AttributeDecl (named "length" "int") [] None) BEnd) BEnd);
   DComplex [att "name" "myType3"]
     (BExtension [att "base" "date"] (BAttribute (AttributeDecl (named "length" "int") [] None) BEnd) BEnd);
   DComplex [att "name" "myType4"]
     (BElement (named "title" "string") [] (BElement (named "blob" "base64Binary") [] (BElement (named "timestamp" "dateTime") [] BEnd)));
   DSimple [att "name" "myType5"] [] (Derived (Restricted [att "base" "gDay"] [] []));
   DComplex [att "name" "MyType6"]
     (BAttribute (AttributeDecl [att "name" "code"] []
        (Some (Inline [] [] (Restricted [att "base" "string"] [] [Facet "enumeration" [att "value" "value1"] []; Facet "enumeration" [att "value" "value2"] []]))))
     (BAttribute (AttributeDecl (named "identifier" "int") [] None) BEnd));
   DComplex [att "name" "MyType7"]
     (BExtension [att "base" "string"]
        (BAttribute (AttributeDecl [att "type" "string"; att "name" "origin"; att "use" "required"] [] None) BEnd) BEnd);
   DAnonymous [att "name" "TopLevel"] [] []
     (BExtension [att "base" "here:MyType6"]
        (BElement (named "nested" "here:MyType7" ++ [att "minOccurs" "0"; att "maxOccurs" "1"]) []
        (BChoice [att "minOccurs" "0"; att "maxOccurs" "unbounded"]
           (BElement (named "myType1" "here:myType1") [] (BElement (named "myType2" "here:myType2") [] BEnd))
        (BAttribute (AttributeDecl (named "cost" "double") [] None)
        (BAttribute (AttributeDecl (named "LastUpdated" "dateTime") [] None) BEnd)))) BEnd)].

Definition opt_attr (n t : string) : Attribute := mkAttribute n "" t false true.
Definition el (n t : string) (pl : bool) : Element := mkElement "" n t pl false.

(** Leaving out the tokens that are not [kept]. *)
Lemma padded_filter : forall (P : token -> Prop) (kept drop : token -> bool) ts, (forall t, drop t = true -> P t) ->
  forallb (fun t => kept t || drop t) ts = true -> padded P (filter kept ts) ts.
Proof.
  intros P kept drop ts Hp. induction ts as [|t ts IH]; intros H; [constructor|]. cbn [forallb] in H. apply andb_true_iff in H as [Ht H].
  cbn [filter]. destruct (kept t); constructor; [now apply IH|now apply Hp|now apply IH].
Qed.

Definition spacing_token (t : token) : bool :=
  match t with TOther => true | TChar data => String.eqb (trim_space data) "" | _ => false end.
Lemma spacing_token_true : forall t, spacing_token t = true -> spacing t.
Proof.
  intros [local l|local|data|] H; try discriminate; [|constructor]. constructor. apply blank_trim. now apply String.eqb_eq.
Qed.

Definition foreign_token {E : Env} (t : token) : bool :=
  match t with
  | TStart local _ => negb (String.eqb local "") && forallb (fun h => negb (tag h local)) (start_tags ++ end_tags)
  | TEnd local => forallb (fun h => negb (tag h local)) (start_tags ++ end_tags)
  | _ => false
  end.
Lemma foreign_token_true : forall (E : Env) t, foreign_token t = true -> foreign t.
Proof.
  intros E t. assert (U : forall local, forallb (fun h => negb (tag h local)) (start_tags ++ end_tags) = true -> unknown local).
  { intros local H h Hh. rewrite forallb_forall in H. apply negb_true_iff, H. apply in_app_iff. exact Hh. }
  destruct t as [local l|local|data|]; intros H; try discriminate.
  - apply andb_true_iff in H as [Hn H]. constructor; [now apply U|]. intros ->. discriminate.
  - constructor. now apply U.
Qed.

Lemma base64_written : written_as (E := fixture_env) (schema_tokens base64_attrs base64_schema) fixture_tokens.
Proof.
  exists (filter (fun t => negb (spacing_token t)) fixture_tokens). split.
  - replace (schema_tokens base64_attrs base64_schema) with
      (filter (fun t => negb (foreign_token (E := fixture_env) t)) (filter (fun t => negb (spacing_token t)) fixture_tokens))
      by (vm_compute; reflexivity).
    apply (padded_filter _ _ (foreign_token (E := fixture_env))); [apply foreign_token_true|vm_compute; reflexivity].
  - apply (padded_filter _ _ spacing_token); [apply spacing_token_true|vm_compute; reflexivity].
Qed.

Lemma named_tags_check : forall ts, forallb (fun t => match t with TStart local _ => negb (String.eqb local "") | _ => true end) ts = true -> named_tags ts.
Proof. intros ts H local l Hl. rewrite forallb_forall in H. specialize (H _ Hl). cbn in H. intros ->. discriminate. Qed.

Example C22_example :
  let tree :=
    [PSimple (mkSimple "" "myType1" "string" false false [] []);
     PComplex (mkComplex "" "myType2" "string" [] [opt_attr "length" "int"] [] []);
     PComplex (mkComplex "" "myType3" "string" [] [opt_attr "length" "int"] [] []);
     PComplex (mkComplex "" "myType4" "" [el "title" "string" false; el "blob" "string" false; el "timestamp" "string" false] [] [] []);
     PSimple (mkSimple "" "myType5" "string" false false [] []);
     PComplex (mkComplex "" "MyType6" "" [] [opt_attr "code" "string"; opt_attr "identifier" "int"] [] []);
     PComplex (mkComplex "" "MyType7" "string" [] [mkAttribute "origin" "" "string" false false] [] []);
     PComplex (mkComplex "" "TopLevel" "MyType6"
       [el "nested" "MyType7" false; el "myType1" "string" true; el "myType2" "myType2" true]
       [opt_attr "cost" "float64"; opt_attr "LastUpdated" "string"] [] []);
     PElement (el "TopLevel" "TopLevel" false)] in
  let o := mkO "test/xsd/base64.xsd" "test/xsd" "test/out" false "Go" "" p_init in
  written_as (E := fixture_env) (schema_tokens base64_attrs base64_schema) fixture_tokens /\ named_tags fixture_tokens /\
  resolution false "Go" (resolve_in false "Go") /\ counts max_occurs /\
  schema_in (resolve_in false "Go") max_occurs base64_schema [] = Some tree /\
  stat (E := fixture_env) (join2 (dir (o_file o)) "") fixture_world = SDir /\
  see (parse (E := fixture_env) 2 2 o fixture_world) = Comps tree.
Proof.
  cbv zeta. split; [exact base64_written|]. split; [apply named_tags_check; vm_compute; reflexivity|].
  split; [apply resolve_in_resolution|]. split; [apply max_occurs_counts|]. split; [vm_compute; reflexivity|]. split; vm_compute; reflexivity.
Qed.

(** Every construct of the grammar. *)
Definition rich_schema : list component :=
  [DText "The schema";
   DSimple [att "name" "Code"] ["A "; "  ";" code"]
     (Derived (Restricted [att "base" "xs:string"] [] [Facet "enumeration" [att "value" "a"] ["letter a"]; Facet "enumeration" [att "value" "b"] []]));
   DSimple [att "name" "Codes"] [] (Derived (ListOf [att "itemType" "Code"] ["some codes"]));
   DSimple [att "name" "Any"] ["anything"] (UnionOf [att "memberTypes" "xs:int t:Code Codes"] []
     [Inline [] [] (Restricted [att "base" "xs:date"] [] [Facet "enumeration" [att "value" "c"] []]);
      Inline [] ["or this"] (Restricted [att "base" "Code"] [] [Facet "enumeration" [att "value" "d"] []; Facet "pattern" [] []])]);
   DAttribute (AttributeDecl (named "lang" "xs:language") ["Lang"] None);
   DAttributeGroup [att "name" "Common"] ["Doc"] [AttributeDecl (named "id" "xs:ID") [] None;
     AttributeDecl [att "ref" "lang"; att "use" "required"] ["of the group"] None;
     AttributeDecl [att "name" "kind"] [] (Some (Inline [] [] (Restricted [att "base" "Code"] [] [Facet "pattern" [att "value" "x"] []; Facet "maxLength" [] []])))];
   DGroup [att "name" "G"] (GText "lost" (GElement (named "g1" "Code") ["lost"] (GChoice [att "maxOccurs" "2"]
     (GElement (named "g2" "xs:int") [] (GGroup [att "ref" "H"] ["lost"] GEnd)) GEnd)));
   DElement (named "top" "t:Code") ["Top"];
   DComplex [att "name" "Outer"]
     (BText "Outer type"
     (BElement (named "w" "Code") ["still the type"]
     (BAttribute (AttributeDecl (named "a" "xs:boolean") ["flag"] None)
     (BAttributeGroup [att "ref" "Common"] ["still the attribute"]
     (BAttribute (AttributeDecl [att "name" "b"] ["one"] (Some (Inline [] [] (ListOf [att "itemType" "Code"] ["or more"]))))
     (BGroup [att "ref" "G"; att "maxOccurs" "unbounded"] ["lost"]
     (BGroup [att "ref" "G"] []
     (BElement (named "x" "Code") []
     (BChoice [att "maxOccurs" "unbounded"]
        (BElement (named "x" "Code") [] (BChoice [] (BElement (named "y" "Any") [] BEnd) BEnd))
     (BAnonymous [att "name" "inner"] ["lost"] []
        (BElement (named "z" "xs:int") [] (BAnonymous [att "name" "deep"; att "maxOccurs" "3"] [] [] BEnd BEnd))
     (BElement (named "last" "Outer") [] BEnd)))))))))));
   DComplex [att "name" "Mid"]
     (BRestriction [att "base" "Outer"]
        (BFacet (Facet "minLength" [att "value" "1"] ["at least one"])
        (BAnonymous [att "name" "part"] [] [] (BText "A part" BEnd) (BText "lost" BEnd))) BEnd);
   DAnonymous [att "name" "root"] ["Root"] []
     (BExtension [att "base" "Outer"]
        (BElement (named "m" "xs:date") ["when"] (BAttribute (AttributeDecl (named "v" "xs:int") ["version"] None)
        (BAnonymous [att "name" "leaf"] [] [] (BText " leaf" BEnd) BEnd))) BEnd)].

Example C22_rich_example :
  schema_in (resolve_in false "Java") max_occurs rich_schema [] = Some
    [PSimple (mkSimple "letter a" "Code" "String" false false [] ["a"; "b"]);
     PSimple (mkSimple "some codes" "Codes" "String" true false [] []);
     PSimple (mkSimple "or this" "Any" "String" false true [("int", "Integer"); ("Code", "String"); ("Codes", "Codes")] ["c"; "d"]);
     PAttribute (mkAttribute "lang" "Lang" "String" false true);
     PAttrGroup (mkAttrGroup "of the group" "Common" "" [opt_attr "id" "String"; mkAttribute "lang" "" "String" false false; opt_attr "kind" "String"]);
     PGroup (mkGroup "" "G" [el "g1" "String" false; el "g2" "Integer" true] [mkGroup "" "H" [] [] true "H"] false "");
     PElement (mkElement "Top" "top" "String" false false);
     PComplex (mkComplex "" "deep" "" [] [] [] []);
     PComplex (mkComplex "" "inner" "" [el "z" "Integer" false; el "deep" "deep" true] [] [] []);
     PComplex (mkComplex "still the type" "Outer" ""
       [el "w" "String" false; el "x" "String" true; el "y" "Any" true; el "inner" "inner" false; el "last" "Outer" false]
       [mkAttribute "a" "still the attribute" "Boolean" false true; mkAttribute "b" "or more" "String" false true]
       [mkGroup "" "G" [] [] true "G"] [mkAttrGroup "" "Common" "Common" []]);
     PComplex (mkComplex "A part" "part" "" [] [] [] []);
     PComplex (mkComplex "at least one" "Mid" "" [el "part" "part" false] [] [] []);
     PComplex (mkComplex "" "leaf" "" [] [] [] []);
     PComplex (mkComplex "" "root" "Outer" [el "m" "String" false; el "leaf" "leaf" false] [opt_attr "v" "Integer"] [] []);
     PElement (mkElement "leaf" "root" "root" false false)] /\
  let docs := [("S", schema_tokens [] rich_schema)] in
  Some (see (parse (E := demo docs first_choice) 2 2 (demo_opts "s.xsd" "Java" false) (demo_world [("s.xsd", "S")]))) =
  option_map Comps (schema_in (resolve_in false "Java") max_occurs rich_schema []).
Proof. split; vm_compute; reflexivity. Qed.

(** Elements with inline types.  From the first on, texts of complex types and
    attributes are lost. *)
Definition inline_schema : list component :=
  [DSimple [att "name" "Code"] [] (Derived (Restricted [att "base" "xs:token"] [] []));
   DComplex [att "name" "Car"]
     (BText "A car" (BAttribute (AttributeDecl (named "id" "xs:ID") ["plate"] None)
     (BElement (named "maker" "Code") ["who"]
     (BInline [att "name" "color"] ["paint"]
        (Inline [] [] (Restricted [att "base" "Code"] []
           [Facet "enumeration" [att "value" "red"] ["like blood"]; Facet "enumeration" [att "value" "blue"] []]))
     (BText "lost" (BAttribute (AttributeDecl (named "at" "xs:int") ["lost"] None)
     (BChoice [att "maxOccurs" "unbounded"]
        (BInline [att "name" "speed"] [] (Inline [] ["how fast"] (Restricted [att "base" "xs:int"] []
           [Facet "maxInclusive" [att "value" "9"] []; Facet "pattern" [att "value" "."] []])) (BElement [att "name" "thing"] ["lost"] BEnd))
     (BAnonymous [att "name" "part"] [] []
        (BInline [att "name" "size"] [] (Inline [] [] (Restricted [att "base" "xs:int"] [] [Facet "enumeration" [att "value" "3"] []])) BEnd)
        BEnd))))))));
   DText "lost";
   DElement (named "car" "Car") ["kept"];
   DComplex [att "name" "Road"] (BText "lost" (BElement (named "lane" "xs:int") [] BEnd));
   DAnonymous [att "name" "map"] ["kept too"] [] (BElement (named "road" "Road") [] BEnd);
   DAttribute (AttributeDecl (named "north" "xs:boolean") ["lost"] None);
   DAttributeGroup [att "name" "Both"] ["of the group"] [AttributeDecl (named "x" "xs:int") [] None]].

Example C22_inline_example :
  schema_in (resolve_in false "TypeScript") max_occurs inline_schema [] = Some
    [PSimple (mkSimple "" "Code" "string" false false [] []);
     PComplex (mkComplex "" "part" "" [el "size" "number" false] [] [] []);
     PComplex (mkComplex "A car" "Car" ""
       [el "maker" "string" false; mkElement "like blood" "color" "string" false false; mkElement "how fast" "speed" "number" true false;
        el "thing" "thing" true; el "part" "part" false]
       [mkAttribute "id" "who" "string" false true; opt_attr "at" "number"] [] []);
     PElement (mkElement "kept" "car" "Car" false false);
     PComplex (mkComplex "" "Road" "" [el "lane" "number" false] [] [] []);
     PComplex (mkComplex "" "map" "" [el "road" "Road" false] [] [] []);
     PElement (mkElement "kept too" "map" "map" false false);
     PAttribute (opt_attr "north" "boolean");
     PAttrGroup (mkAttrGroup "of the group" "Both" "" [opt_attr "x" "number"])] /\
  let docs := [("S", schema_tokens [] inline_schema)] in
  Some (see (parse (E := demo docs first_choice) 2 2 (demo_opts "s.xsd" "TypeScript" false) (demo_world [("s.xsd", "S")]))) =
  option_map Comps (schema_in (resolve_in false "TypeScript") max_occurs inline_schema []).
Proof. split; vm_compute; reflexivity. Qed.

(** Top-level elements without a type and with an inline type take the texts and
    the types with facets that follow. *)
Definition leftover_schema : list component :=
  [DSimple [att "name" "Code"] ["short"] (Derived (Restricted [att "base" "xs:token"] [] [Facet "maxLength" [att "value" "3"] []]));
   DElement [att "name" "any"] ["anything"];
   DComplex [att "name" "Road"] (BText "taken" (BElement (named "lane" "xs:int") [] (BElement [att "name" "bump"] [] (BText "lost" BEnd))));
   DInline [att "name" "color"] ["paint"]
     (Inline [] [] (Restricted [att "base" "Code"] [] [Facet "enumeration" [att "value" "red"] []; Facet "pattern" [att "value" "."] ["one letter"]]));
   DSimple [att "name" "Sizes"] ["taken, too"] (Derived (ListOf [att "itemType" "xs:int"] []));
   DSimple [att "name" "Either"] [] (UnionOf [att "memberTypes" "Code xs:int"] [] [Inline [] [] (Restricted [att "base" "xs:date"] ["or a day"] [])]);
   DSimple [att "name" "Year"] [] (Derived (Restricted [att "base" "xs:int"] [] [Facet "minInclusive" [att "value" "1"] ["at least"]; Facet "maxInclusive" [att "value" "9"] []]));
   DElement (named "road" "Road") ["kept"];
   DSimple [att "name" "Days"] [] (Derived (Restricted [att "base" "xs:boolean"] ["which"] [Facet "enumeration" [att "value" "false"] []]));
   DAttribute (AttributeDecl (named "north" "xs:boolean") ["where"] None);
   DAnonymous [att "name" "map"] ["kept too"] [] (BElement (named "road" "Road") [] BEnd);
   DText "the end"].

Example C22_leftover_example :
  schema_in (resolve_in false "TypeScript") max_occurs leftover_schema [] = Some
    [PSimple (mkSimple "short" "Code" "string" false false [] []);
     PElement (mkElement "taken" "any" "any" false false);
     PComplex (mkComplex "" "Road" "" [el "lane" "number" false; el "bump" "bump" false] [] [] []);
     PElement (mkElement "the end" "color" "boolean" false false);
     PSimple (mkSimple "" "Sizes" "number" true false [] []);
     PSimple (mkSimple "" "Either" "string" false true [("Code", "string"); ("int", "number")] []);
     PElement (mkElement "kept" "road" "Road" false false);
     PAttribute (opt_attr "north" "boolean");
     PComplex (mkComplex "" "map" "" [el "road" "Road" false] [] [] []);
     PElement (mkElement "kept too" "map" "map" false false)] /\
  let docs := [("S", schema_tokens [] leftover_schema)] in
  Some (see (parse (E := demo docs first_choice) 2 2 (demo_opts "s.xsd" "TypeScript" false) (demo_world [("s.xsd", "S")]))) =
  option_map Comps (schema_in (resolve_in false "TypeScript") max_occurs leftover_schema []).
Proof. split; vm_compute; reflexivity. Qed.

(** The grammar follows the code also where a reader of the schema expects
    something else.  A top-level element without a type stays on the element
    stack, and a facet of a later simple type then discards that simple type. *)
Theorem C22_lost_type_refuted :
  let ts := d_schema [] ([TStart "element" [att "name" "any"]; TEnd "element"; TStart "simpleType" [att "name" "T"];
    TStart "restriction" [att "base" "string"]; TStart "maxLength" [att "value" "3"]; TEnd "maxLength"; TEnd "restriction"; TEnd "simpleType"]) in
  see (parse (E := demo [("S", ts)] first_choice) 2 2 (demo_opts "s.xsd" "Go" false) (demo_world [("s.xsd", "S")])) =
    Comps [PElement (el "any" "string" false)].
Proof. vm_compute. reflexivity. Qed.
Print Assumptions C22_lost_type_refuted.

(** An attribute with an inline type in the inline complex type of a top-level
    element: the last member [b] of the complex type is replaced by the
    top-level element itself. *)
Theorem C22_overwritten_member_refuted :
  let ts := d_schema [] ([TStart "element" [att "name" "root"]; TStart "complexType" [];
    TStart "element" (named "a" "int"); TEnd "element"; TStart "element" (named "b" "int"); TEnd "element";
    TStart "attribute" [att "name" "k"]; TStart "simpleType" []; TStart "restriction" [att "base" "string"]; TEnd "restriction"; TEnd "simpleType";
    TEnd "attribute"; TEnd "complexType"; TEnd "element"]) in
  see (parse (E := demo [("S", ts)] first_choice) 2 2 (demo_opts "s.xsd" "Go" false) (demo_world [("s.xsd", "S")])) =
    Comps [PComplex (mkComplex "" "root" "" [el "a" "int" false; el "root" "root" false] [opt_attr "k" "string"] [] []);
           PElement (el "root" "root" false)].
Proof. vm_compute. reflexivity. Qed.
Print Assumptions C22_overwritten_member_refuted.

(** A local element with an inline simple type without facets: its complex type
    ends there, and the members after it are lost. *)
Theorem C22_inline_simple_type_refuted :
  let ts := d_schema [] ([TStart "complexType" [att "name" "C"];
    TStart "element" (named "a" "int"); TEnd "element";
    TStart "element" [att "name" "b"]; TStart "simpleType" []; TStart "restriction" [att "base" "int"]; TEnd "restriction"; TEnd "simpleType"; TEnd "element";
    TStart "element" (named "c" "int"); TEnd "element"; TEnd "complexType"]) in
  exists members rest, see (parse (E := demo [("S", ts)] first_choice) 2 2 (demo_opts "s.xsd" "Go" false) (demo_world [("s.xsd", "S")])) =
    Comps (PComplex (mkComplex "" "C" "" members [] [] []) :: rest) /\ ~ In "c" (map el_name members).
Proof.
  cbv zeta. do 2 eexists. split; [vm_compute; reflexivity|]. cbn. intros H. repeat (destruct H as [H|H]; [discriminate|]). destruct H.
Qed.
Print Assumptions C22_inline_simple_type_refuted.

(** A local element with an inline simple type stays on the element stack after
    its complex type: the simple type that follows is lost, and the
    documentation of the next complex type is lost, too. *)
Theorem C22_leftover_element_refuted :
  let ts := d_schema [] ([TStart "complexType" [att "name" "C"];
    TStart "element" [att "name" "b"]; TStart "simpleType" []; TStart "restriction" [att "base" "int"]; TStart "maxInclusive" []; TEnd "maxInclusive";
    TEnd "restriction"; TEnd "simpleType"; TEnd "element"; TEnd "complexType";
    TStart "simpleType" [att "name" "S"]; TStart "restriction" [att "base" "string"]; TStart "pattern" []; TEnd "pattern"; TEnd "restriction"; TEnd "simpleType";
    TStart "complexType" [att "name" "D"]; TChar "About D"; TEnd "complexType"]) in
  see (parse (E := demo [("S", ts)] first_choice) 2 2 (demo_opts "s.xsd" "Go" false) (demo_world [("s.xsd", "S")])) =
    Comps [PComplex (mkComplex "" "C" "" [el "b" "int" false] [] [] []); PComplex (mkComplex "" "D" "" [] [] [] [])].
Proof. vm_compute. reflexivity. Qed.
Print Assumptions C22_leftover_element_refuted.

(** The values of an inline type are kept for a later simple type. *)
Theorem C22_leaked_values_refuted :
  let ts := d_schema [] ([TStart "complexType" [att "name" "C"];
    TStart "element" [att "name" "color"]; TStart "simpleType" []; TStart "restriction" [att "base" "string"]; TStart "enumeration" [att "value" "red"];
    TEnd "enumeration"; TEnd "restriction"; TEnd "simpleType"; TEnd "element"; TEnd "complexType";
    TStart "simpleType" [att "name" "Sizes"]; TStart "list" [att "itemType" "int"]; TEnd "list"; TEnd "simpleType"]) in
  see (parse (E := demo [("S", ts)] first_choice) 2 2 (demo_opts "s.xsd" "Go" false) (demo_world [("s.xsd", "S")])) =
    Comps [PComplex (mkComplex "" "C" "" [el "color" "string" false] [] [] []); PSimple (mkSimple "" "Sizes" "int" true false [] ["red"])].
Proof. vm_compute. reflexivity. Qed.
Print Assumptions C22_leaked_values_refuted.

(** A union inside a union: the outer members are forgotten, and the outer type is
    recorded at the end of the inner one. *)
Theorem C22_nested_union_refuted :
  let ts := d_schema [] ([TStart "simpleType" [att "name" "U"]; TStart "union" [att "memberTypes" "int"];
    TStart "simpleType" []; TStart "union" [att "memberTypes" "string"]; TEnd "union"; TEnd "simpleType";
    TStart "simpleType" []; TStart "restriction" [att "base" "boolean"]; TEnd "restriction"; TEnd "simpleType";
    TEnd "union"; TEnd "simpleType"]) in
  see (parse (E := demo [("S", ts)] first_choice) 2 2 (demo_opts "s.xsd" "Go" false) (demo_world [("s.xsd", "S")])) =
    Comps [PSimple (mkSimple "" "U" "" false true [("string", "string")] []); PSimple (mkSimple "" "boolean" "bool" false false [] [])].
Proof. vm_compute. reflexivity. Qed.
Print Assumptions C22_nested_union_refuted.

(** The documentation of a complex type goes to the element without a type that
    was declared before it. *)
Theorem C22_foreign_documentation_refuted :
  let ts := d_schema [] ([TStart "element" [att "name" "any"]; TEnd "element";
    TStart "complexType" [att "name" "D"]; TChar "About D"; TEnd "complexType"]) in
  see (parse (E := demo [("S", ts)] first_choice) 2 2 (demo_opts "s.xsd" "Go" false) (demo_world [("s.xsd", "S")])) =
    Comps [PElement (mkElement "About D" "any" "any" false false); PComplex (mkComplex "" "D" "" [] [] [] [])].
Proof. vm_compute. reflexivity. Qed.
Print Assumptions C22_foreign_documentation_refuted.
