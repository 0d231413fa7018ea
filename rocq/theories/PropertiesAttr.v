(** Property theorems about the attributes of tags: C59. *)

From Coq Require Import String Ascii List NArith ZArith Bool.
From Verif Require Import GoStr GoPath Base World Handlers Parser SpecDoc SpecParse SimProofs SpecAttr AttrProofs ParserProofs Demo.
Import ListNotations.
Local Open Scope string_scope.

(** C59.  [w] and [w'] differ in attributes that are not looked at, in the
    namespaces of attributes, in the order of attributes that do not interact,
    and in the global identifier counter. *)
Theorem C59_attributes : forall (E : Env) (S : string -> Prop) d fuel o w w', same_world same_tags S w w' ->
  same_outcome (same_world same_tags S) (parse d fuel o w) (parse d fuel o w').
Proof.
  intros E S d fuel o w w' H. rewrite <- (with_ps_id o) at 2. apply parse_irrelevant; [|reflexivity|exact H].
  intros ts ts' gvt w1 Ht. now apply tags_TE.
Qed.
Print Assumptions C59_attributes.

(** Documents changed at the paths [S] only: all other files end up the same. *)
Theorem C59_same_output : forall (E : Env) (S : string -> Prop) d fuel o w w' c, same_world same_tags S w w' -> ~ S c ->
  get c (w_fs (out_world (parse d fuel o w))) = get c (w_fs (out_world (parse d fuel o w'))).
Proof.
  intros E S d fuel o w w' c H Hc. pose proof (C59_attributes E S d fuel o w w' H) as HS.
  destruct HS as [p p' a b Hp Hab|e a b Hab|x a b Hab]; cbn; destruct Hab as [_ [_ [_ [_ [_ [_ Hn]]]]]];
    (destruct (Hn c) as [->|[Hs _]]; [reflexivity|contradiction]).
Qed.
Print Assumptions C59_same_output.

(** The components of a document [ts] beside a document x.xsd that declares a
    simple type T. *)
Definition result (ts : list token) : seen :=
  see (parse (E := demo [("A", ts); ("X", d_schema [] (d_simple "T" "integer"))] first_choice) 3 3
         (demo_opts "a.xsd" "Go" false) (demo_world [("a.xsd", "A"); ("x.xsd", "X")])).

(** The tables of SpecAttr are not too large: dropping an attribute that is
    listed can change the result, and so can swapping two that are listed. *)
Theorem C59_all_needed : forall h ks k, In (h, ks) consulted -> In k ks ->
  exists pre local l1 x l2 post, tag (E := demo [] first_choice) h local = true /\ a_local x = k /\
    result (pre ++ TStart local (l1 ++ x :: l2) :: post) <> result (pre ++ TStart local (l1 ++ l2) :: post).
Proof.
  set (S0 := TStart "schema" [xmlns "b" "urn:b"]). set (S1 := TEnd "schema").
  set (C0 := TStart "complexType" [att "name" "C"]). set (C1 := TEnd "complexType").
  set (D0 := TStart "simpleType" [att "name" "D"]). set (D1 := TEnd "simpleType").
  Ltac needed pre local l1 x l2 post :=
    exists pre, local, l1, x, l2, post; split; [vm_compute; reflexivity|split; [reflexivity|vm_compute; discriminate]].
  intros h ks k Hh Hk. cbn in Hh.
  repeat match type of Hh with _ \/ _ => destruct Hh as [Hh|Hh] end; [..|contradiction];
    injection Hh as <- <-; cbn in Hk;
    repeat match type of Hk with _ \/ _ => destruct Hk as [<-|Hk] end; try contradiction.
  - needed [S0; C0] "attribute" (@nil xattr) (att "ref" "string") (@nil xattr) [TEnd "attribute"; C1; S1].
  - needed [S0; C0] "attribute" [att "type" "string"] (att "name" "n") (@nil xattr) [TEnd "attribute"; C1; S1].
  - needed [S0; C0] "attribute" [att "name" "n"] (att "type" "string") (@nil xattr) [TEnd "attribute"; C1; S1].
  - needed [S0; C0] "attribute" [att "name" "n"] (att "use" "required") (@nil xattr) [TEnd "attribute"; C1; S1].
  - needed [S0] "attributeGroup" (@nil xattr) (att "name" "n") (@nil xattr) [TEnd "attributeGroup"; S1].
  - needed [S0; C0] "attributeGroup" (@nil xattr) (att "ref" "n") (@nil xattr) [TEnd "attributeGroup"; C1; S1].
  - needed [S0; C0] "choice" (@nil xattr) (att "maxOccurs" "2") (@nil xattr)
      ((d_element "x" "string") ++ [TEnd "choice"; C1; S1])%list.
  - needed [S0] "complexType" (@nil xattr) (att "name" "n") (@nil xattr) [C1; S1].
  - needed [S0] "element" (@nil xattr) (att "ref" "string") (@nil xattr) [TEnd "element"; S1].
  - needed [S0] "element" [att "type" "string"] (att "name" "n") (@nil xattr) [TEnd "element"; S1].
  - needed [S0] "element" [att "name" "n"] (att "type" "string") (@nil xattr) [TEnd "element"; S1].
  - needed [S0] "element" [att "name" "n"; att "type" "string"] (att "maxOccurs" "2") (@nil xattr) [TEnd "element"; S1].
  - needed [S0] "element" [att "name" "n"; att "type" "string"] (att "unbounded" "1") (@nil xattr) [TEnd "element"; S1].
  - needed [S0; D0; TStart "restriction" [att "base" "string"]] "enumeration" (@nil xattr) (att "value" "v") (@nil xattr)
      [TEnd "enumeration"; TEnd "restriction"; D1; S1].
  - needed [S0; C0; TStart "simpleContent" []] "extension" (@nil xattr) (att "base" "string") (@nil xattr)
      [TEnd "extension"; TEnd "simpleContent"; C1; S1].
  - needed [S0] "group" (@nil xattr) (att "name" "n") (@nil xattr) [TEnd "group"; S1].
  - needed [S0; C0] "group" (@nil xattr) (att "ref" "n") (@nil xattr) [TEnd "group"; C1; S1].
  - needed [S0; C0] "group" [att "ref" "n"] (att "maxOccurs" "2") (@nil xattr) [TEnd "group"; C1; S1].
  - needed [S0] "import" (@nil xattr) (att "namespace" "urn:b") [att "schemaLocation" "x.xsd"]
      (TEnd "import" :: d_element "x" "b:T" ++ [S1])%list.
  - needed [S0] "import" [att "namespace" "urn:b"] (att "schemaLocation" "x.xsd") (@nil xattr)
      (TEnd "import" :: d_element "x" "b:T" ++ [S1])%list.
  - needed [S0] "include" (@nil xattr) (att "schemaLocation" "x.xsd") (@nil xattr)
      (TEnd "include" :: d_element "x" "T" ++ [S1])%list.
  - needed [S0; D0] "list" (@nil xattr) (att "itemType" "string") (@nil xattr) [TEnd "list"; D1; S1].
  - needed [S0; D0] "restriction" (@nil xattr) (att "base" "string") (@nil xattr) [TEnd "restriction"; D1; S1].
  - needed [S0] "simpleType" (@nil xattr) (att "name" "n") (@nil xattr) [TStart "list" []; TEnd "list"; D1; S1].
  - needed [S0; D0] "union" (@nil xattr) (att "memberTypes" "string integer") (@nil xattr) [TEnd "union"; D1; S1].
Qed.
Print Assumptions C59_all_needed.

Theorem C59_order_needed : forall h ps k k', In (h, ps) order_matters -> In (k, k') ps ->
  exists pre local l1 x y l2 post, tag (E := demo [] first_choice) h local = true /\ a_local x = k /\ a_local y = k' /\
    result (pre ++ TStart local (l1 ++ x :: y :: l2) :: post) <> result (pre ++ TStart local (l1 ++ y :: x :: l2) :: post).
Proof.
  set (S0 := TStart "schema" [xmlns "b" "urn:b"; xmlns "m" "urn:m"]). set (S1 := TEnd "schema").
  set (C0 := TStart "complexType" [att "name" "C"]). set (C1 := TEnd "complexType").
  Ltac swapped pre local x y post :=
    exists pre, local, (@nil xattr), x, y, (@nil xattr), post;
    split; [vm_compute; reflexivity|split; [reflexivity|split; [reflexivity|vm_compute; discriminate]]].
  intros h ps k k' Hh Hk. cbn in Hh.
  repeat match type of Hh with _ \/ _ => destruct Hh as [Hh|Hh] end; [..|contradiction];
    injection Hh as <- <-; cbn in Hk;
    repeat match type of Hk with _ \/ _ => destruct Hk as [Hk|Hk] end; try contradiction; injection Hk as <- <-.
  - swapped [S0; C0] "attribute" (att "ref" "string") (att "name" "n") [TEnd "attribute"; C1; S1].
  - swapped [S0; C0] "attribute" (att "ref" "string") (att "type" "integer") [TEnd "attribute"; C1; S1].
  - swapped [S0; C0] "attributeGroup" (att "ref" "g") (att "name" "n") [TEnd "attributeGroup"; C1; S1].
  - swapped [S0] "element" (att "ref" "string") (att "name" "n") [TEnd "element"; S1].
  - swapped [S0] "element" (att "ref" "string") (att "type" "integer") [TEnd "element"; S1].
  - swapped (S0 :: d_import "urn:m" "missing.xsd") "element" (att "ref" "m:n") (att "maxOccurs" "many") [TEnd "element"; S1].
  - swapped (S0 :: d_import "urn:m" "missing.xsd") "element" (att "type" "m:n") (att "maxOccurs" "many") [TEnd "element"; S1].
  - swapped [S0; C0] "group" (att "ref" "g") (att "name" "n") [TEnd "group"; C1; S1].
  - swapped [S0] "import" (att "namespace" "urn:b") (att "schemaLocation" "x.xsd") (TEnd "import" :: d_element "x" "b:T" ++ [S1])%list.
Qed.
Print Assumptions C59_order_needed.

(** An element written in two ways, and one with an attribute of another
    namespace that is called name (as EMF's ecore:name): that attribute, which
    XML Schema has tools ignore, renames the element. *)
Definition attr_a : list token :=
  d_schema [] [TStart "element" [att "name" "order"; att "type" "string"]; TEnd "element"].
Definition attr_b : list token :=
  d_schema [] [TStart "element" [att "id" "e1"; att "type" "string"; att "minOccurs" "0"; att "name" "order"]; TEnd "element"].
Definition attr_c : list token :=
  d_schema [] [TStart "element" [att "name" "order"; att "type" "string"; mkAttr "http://www.eclipse.org/emf/2002/Ecore" "name" "purchase"]; TEnd "element"].
Definition attr_docs : smap (list token) := [("A", attr_a); ("B", attr_b)].

Example C59_example :
  let E := demo attr_docs first_choice in
  same_world same_tags (fun c => c = "in/a.xsd") (demo_world [("a.xsd", "A")]) (demo_world [("a.xsd", "B")]) /\
  result attr_b = Comps [PElement (mkElement "" "order" "string" false false)] /\
  result attr_c = Comps [PElement (mkElement "" "purchase" "string" false false)].
Proof.
  intros E. split; [|split; vm_compute; reflexivity]. repeat split. intros c. unfold demo_world. cbn [w_fs map fst snd append].
  unfold same_node. cbn [get]. destruct (String.eqb "in" c); [now left|].
  destruct (String.eqb_spec "in/a.xsd" c) as [<-|_]; [|now left]. right. split; [reflexivity|]. exists "A", "B".
  split; [reflexivity|]. split; [reflexivity|].
  change (same_tags (E := E) attr_a attr_b). unfold attr_a, attr_b, d_schema. cbn [app].
  constructor; [apply stg_same|]. constructor; [|repeat (constructor; [apply stg_same|]); constructor].
  apply stg_start.
  assert (N : forall k v, In k ["id"; "minOccurs"] -> ~ is_consulted (E := E) "element" (att k v)).
  { intros k v Hk [[h [ks [Hh [Ht Hi]]]]|[_ Hx]]; [|discriminate Hx]. cbn [a_local att] in Hi. cbn in Hh.
    repeat match type of Hh with _ \/ _ => destruct Hh as [Hh|Hh] end; [..|contradiction];
      injection Hh as <- <-; try (vm_compute in Ht; discriminate Ht).
    destruct Hk as [<-|[<-|[]]]; cbn in Hi; intuition discriminate. }
  eapply sa_then; [|apply sa_back; apply (sa_extra "element" []); apply N; cbn; tauto]. cbn [app].
  eapply sa_then; [|apply sa_back; apply (sa_extra "element" [att "type" "string"] (att "minOccurs" "0") [att "name" "order"]); apply N; cbn; tauto].
  cbn [app]. apply (sa_order "element" [] (att "name" "order") (att "type" "string") []).
  split; [discriminate|]. split; [vm_compute; reflexivity|]. intros h ps Hh Ht. cbn in Hh.
  repeat match type of Hh with _ \/ _ => destruct Hh as [Hh|Hh] end; [..|contradiction];
    injection Hh as <- <-; try (vm_compute in Ht; discriminate Ht). cbn. intuition discriminate.
Qed.
