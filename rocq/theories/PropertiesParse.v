(** Property theorems about whole parses: C16, C17, C18, C19, C20, C23, C24,
    C25, C26, C27, C38, C40, C47. *)

From Coq Require Import String Ascii List Arith NArith ZArith Bool Lia.
From Verif Require Import GoStr GoPath Utf8 Base Utils SpecStr GenGo GenC GenJava GenRust GenTS World Handlers Parser
  SpecDoc SpecTables SpecGen SpecOut SpecFile SpecParse DocLemmas DocProofs Reify ParserProofs Termination SimProofs ParseFacts IncludeProofs FileProofs Demo.
Import ListNotations.
Local Open Scope string_scope.

(** C16.  [L] bounds the files that can still be parsed for the first time. *)
Theorem C16_terminates : forall (E : Env) o w L,
  (forall c b, get c (w_fs w) = Some (NFile b) -> get c (w_pmap w) = None -> In c L) ->
  exists fuel r, (forall w', r <> Crash NoFuel w') /\
    forall d f, length L + 2 <= d -> fuel <= f -> parse d f o w = r.
Proof. exact @parse_terminates. Qed.
Print Assumptions C16_terminates.

(** Two schemas that import each other, and two that include each other. *)
Definition cyclic_docs : smap (list token) :=
  [("A", d_schema [xmlns "b" "urn:b"] (d_import "urn:b" "b.xsd" ++ d_element "x" "b:T"));
   ("B", d_schema [xmlns "a" "urn:a"] (d_import "urn:a" "a.xsd" ++ d_element "y" "a:x" ++ d_simple "T" "string"));
   ("C", d_schema [] (d_include "d.xsd" ++ d_element "x" "T"));
   ("D", d_schema [] (d_include "c.xsd" ++ d_include "d.xsd" ++ d_simple "T" "integer"))].
Definition cyclic_world : World :=
  demo_world [("a.xsd", "A"); ("b.xsd", "B"); ("c.xsd", "C"); ("d.xsd", "D")].

Example C16_example :
  (forall c b, get c (w_fs cyclic_world) = Some (NFile b) -> get c (w_pmap cyclic_world) = None ->
     In c ["in/a.xsd"; "in/b.xsd"; "in/c.xsd"; "in/d.xsd"]) /\
  see (parse (E := demo cyclic_docs first_choice) 6 9 (demo_opts "a.xsd" "Go" false) cyclic_world)
    = Comps [PElement (mkElement "" "x" "string" false false)] /\
  see (parse (E := demo cyclic_docs first_choice) 6 9 (demo_opts "c.xsd" "Go" false) cyclic_world)
    = Comps [PElement (mkElement "" "x" "int" false false)].
Proof.
  split; [|split; vm_compute; reflexivity].
  intros c b H _. unfold cyclic_world, demo_world in H. cbn [w_fs map fst snd append get] in H.
  repeat match type of H with context [String.eqb ?x ?y] => destruct (String.eqb_spec x y) as [<-|_]; [first [discriminate|cbn; tauto]|] end.
  discriminate.
Qed.

(** C17.  With budget 1 a nested parse would run out of budget. *)
Theorem C17_extract_no_effect : forall (E : Env) o w, o_extract o = true ->
  let r := parse 1 0 o w in
  w_fs (out_world r) = w_fs w /\ w_plist (out_world r) = w_plist w /\ w_pmap (out_world r) = w_pmap w /\
  w_count (out_world r) = w_count w /\ (forall w', r <> Crash NoFuel w') /\
  forall d fuel, parse (S d) fuel o w = r.
Proof.
  intros E o w He r. subst r. cbn [parse]. destruct (body_extract_effect (parse 0 0) 0 o w He) as [[H1 [H2 [H3 [H4 H5]]]] H6].
  repeat split; try assumption.
  - intros w' H. apply H6 in H. discriminate.
  - intros d fuel. now apply body_extract.
Qed.
Print Assumptions C17_extract_no_effect.

Example C17_example :
  let r := parse (E := demo cyclic_docs first_choice) 1 0 (demo_opts "a.xsd" "Go" true) cyclic_world in
  see r = Comps [PElement (mkElement "" "x" "T" false false)] /\ w_fs (out_world r) = w_fs cyclic_world /\
  w_nsl (out_world r) = [("urn:b", "b.xsd")].
Proof. vm_compute. auto. Qed.

(** C18.  [ps]: the fields the parser is started with; the same tree, anything
    else may differ. *)
Theorem C18_no_stale_state : forall (E : Env) d fuel o ps w count, freeze (o_ps o) = freeze ps ->
  same_outcome (same_world eq (fun _ => False)) (parse d fuel o w) (parse d fuel (with_ps ps o) (set_count count w)).
Proof.
  intros E d fuel o ps w count Hps. apply parse_irrelevant; [|exact Hps|].
  - intros ts ts' gvt w1 ->. destruct (run_tokens gvt ts' p_init w1); constructor; reflexivity.
  - repeat split. intros c. now left.
Qed.
Print Assumptions C18_no_stale_state.

(** The generated text of a component list does not depend on the counter
    either. *)
Theorem C18_output_independent : forall (E : Env) d fuel o ps w count p w1, o_extract o = false ->
  freeze (o_ps o) = freeze ps -> parse d fuel o w = Ret p w1 ->
  exists p' w2, parse d fuel (with_ps ps o) (set_count count w) = Ret p' w2 /\ freeze p' = freeze p /\
    forall c, get c (w_fs w2) = get c (w_fs w1).
Proof.
  intros E d fuel o ps w count p w1 He Hps H. pose proof (C18_no_stale_state E d fuel o ps w count Hps) as Hs.
  rewrite H in Hs. inversion Hs as [a b x y Hab Hxy| |]; subst. exists b, y. split; [reflexivity|]. split; [congruence|].
  intros c. destruct Hxy as [_ [_ [_ [_ [_ [_ Hc]]]]]]. now destruct (Hc c) as [<-|[[] _]].
Qed.
Print Assumptions C18_output_independent.

Definition stale : PState :=
  mkP [] [] "element" "complexType" 3 true true [] [] [] [] [] [] [true].

Example C18_example :
  let o := demo_opts "a.xsd" "Go" false in
  freeze (o_ps o) = freeze stale /\
  see (parse (E := demo cyclic_docs first_choice) 6 9 (with_ps stale o) (set_count [("X", 7%Z)] cyclic_world))
    = see (parse (E := demo cyclic_docs first_choice) 6 9 o cyclic_world).
Proof. split; vm_compute; reflexivity. Qed.

(** The tree left over from an earlier parse is consulted when the document
    refers to itself through an import. *)
Definition self_docs : smap (list token) :=
  [("S", d_schema [xmlns "s" "urn:s"] (d_import "urn:s" "s.xsd" ++ d_element "x" "s:T"))].
Definition stale_tree : PState :=
  mkP [PN (PSimple (mkSimple "" "T" "int" false false [] []))] [] "" "" 0 false false [] [] [] [] [] [] [].

Theorem C18_stale_tree_refuted : exists (E : Env) d fuel o ps w,
  (forall w', parse d fuel o w <> Crash NoFuel w') /\
  see (parse d fuel o w) = Comps [PElement (mkElement "" "x" "T" false false)] /\
  see (parse d fuel (with_ps ps o) w) = Comps [PElement (mkElement "" "x" "int" false false)].
Proof.
  exists (demo self_docs first_choice), 4, 4, (demo_opts "s.xsd" "Go" false), stale_tree, (demo_world [("s.xsd", "S")]).
  split; [|split; vm_compute; reflexivity]. vm_compute. discriminate.
Qed.
Print Assumptions C18_stale_tree_refuted.

(** C19 *)
Theorem C19_locations : forall (E : Env) d fuel o w,
  let w' := out_world (parse d fuel o w) in
  (forall ns loc, get ns (w_nsl w) = Some loc -> get ns (w_nsl w') = Some loc) /\
  (forall ns loc, get ns (w_nsl w') = Some loc -> get ns (w_nsl w) = Some loc \/ ~ is_url loc) /\
  (forall k, In k (w_inc w) -> In k (w_inc w')).
Proof. exact @parse_locations. Qed.
Print Assumptions C19_locations.

(** One import tag with the namespace before the location. *)
Theorem C19_import_tag : forall (E : Env) gvt local l1 l2 l3 sp sp' ns loc p w,
  tag "Import" local = true -> lacks "schemaLocation" l1 -> lacks "namespace" l2 -> lacks "schemaLocation" l2 ->
  lacks "schemaLocation" l3 ->
  exists w', on_token gvt (TStart local (l1 ++ mkAttr sp "namespace" ns :: l2 ++ mkAttr sp' "schemaLocation" loc :: l3)) p w
      = Ret (set_in_element local p) w' /\
    w_fs w' = w_fs w /\ w_inc w' = w_inc w /\ w_lns w' = w_lns w /\
    (forall ns', ns' <> ns -> get ns' (w_nsl w') = get ns' (w_nsl w)) /\
    (get ns (w_nsl w) <> None -> get ns (w_nsl w') = get ns (w_nsl w)) /\
    (get ns (w_nsl w) = None -> is_url loc -> get ns (w_nsl w') = None) /\
    (get ns (w_nsl w) = None -> ~ is_url loc -> get ns (w_nsl w') = Some loc).
Proof. exact @import_tag. Qed.
Print Assumptions C19_import_tag.

Example C19_example :
  let r l := match on_token (E := demo [] first_choice) (fun v _ w => Ret v w) (TStart "import" l) p_init (demo_world []) with
             | Ret _ w => w_nsl w | _ => [] end in
  @tag (demo [] first_choice) "Import" "import" = true /\
  r [att "namespace" "urn:b"; att "id" "i"; att "schemaLocation" "b.xsd"] = [("urn:b", "b.xsd")] /\
  r [att "namespace" "urn:b"; att "schemaLocation" "http://b/b.xsd"] = [].
Proof. vm_compute. auto. Qed.

(** With the location first it is recorded for no namespace. *)
Theorem C19_attribute_order_refuted : exists (E : Env) gvt p w l l',
  (forall x, In x l <-> In x l') /\
  get "urn:b" (w_nsl (out_world (on_token gvt (TStart "import" l) p w))) = Some "b.xsd" /\
  get "urn:b" (w_nsl (out_world (on_token gvt (TStart "import" l') p w))) = None.
Proof.
  exists (demo [] first_choice), (fun v _ w => Ret v w), p_init, (demo_world []),
    [att "namespace" "urn:b"; att "schemaLocation" "b.xsd"], [att "schemaLocation" "b.xsd"; att "namespace" "urn:b"].
  split; [intros x; cbn; tauto|]. vm_compute. auto.
Qed.
Print Assumptions C19_attribute_order_refuted.

(** C20.  [fits 0 false ts]: every complexType is named and at depth 0, or
    directly follows the start of an element with neither type nor ref; no
    element is called charData (SpecDoc.v).  What Parse writes may be read
    back as a schema, hence the first hypothesis. *)
Theorem C20_parse_no_panic : forall (E : Env),
  (forall path s, SpecDoc.fits 0 false (env_tokens (env_write path s))) ->
  forall d fuel o w, (forall path b, get path (w_fs w) = Some (NFile b) -> SpecDoc.fits 0 false (env_tokens b)) ->
  forall w', parse d fuel o w <> Crash Panic w'.
Proof.
  intros E Hwr d fuel o w Hw w' H. destruct (parse_no_panic Hwr d fuel o w Hw) as [_ Hc]. rewrite H in Hc. now apply Hc.
Qed.
Print Assumptions C20_parse_no_panic.

Definition panic_docs : smap (list token) :=
  [("P", d_schema [] [TStart "complexType" []; TEnd "complexType"]);
   ("Q", d_schema [] [TStart "element" [att "name" "x"]; TStart "complexType" []; TStart "sequence" [];
           TStart "element" [att "name" "y"; att "type" "string"]; TEnd "element"; TEnd "sequence"; TEnd "complexType"; TEnd "element"])].

(** An anonymous complex type at top level does panic; the usual nesting does not. *)
Example C20_example :
  let P := parse (E := demo panic_docs first_choice) 3 3 in
  SpecDoc.fits (E := demo panic_docs first_choice) 0 false (d_schema [] (d_element "x" "string")) /\
  see (P (demo_opts "p.xsd" "Go" true) (demo_world [("p.xsd", "P")])) = Crashed Panic /\
  see (P (demo_opts "q.xsd" "Go" true) (demo_world [("q.xsd", "Q")])) =
    Comps [PComplex (mkComplex "" "x" "" [mkElement "" "y" "string" false false] [] [] []); PElement (mkElement "" "x" "x" false false)].
Proof. split; [|split; vm_compute; reflexivity]. vm_compute. intuition. Qed.

(** C23.  The token loop stops at the first nil token whatever the reason, so
    a truncated document is an acceptable document. *)
Theorem C23_truncation_unreported : forall (E : Env) d fuel o w bytes bytes' rest p w', o_extract o = true ->
  stat (o_file o) w = SFile bytes -> parse d fuel o w = Ret p w' ->
  env_tokens bytes = (env_tokens bytes' ++ rest)%list ->
  forall w2, stat (o_file o) w2 = SFile bytes' -> exists p2 w2', parse d fuel o w2 = Ret p2 w2'.
Proof. exact @truncation. Qed.
Print Assumptions C23_truncation_unreported.

(** Start and end tags match up. *)
Inductive balanced : list token -> Prop :=
| ba_nil : balanced []
| ba_other t ts : match t with TChar _ | TOther => True | _ => False end -> balanced ts -> balanced (t :: ts)
| ba_tag local l a b : balanced a -> balanced b -> balanced (TStart local l :: a ++ TEnd local :: b).

Theorem C23_malformed_refuted : exists (E : Env) d fuel o w bytes p w', stat (o_file o) w = SFile bytes /\
  ~ balanced (env_tokens bytes) /\ o_extract o = false /\ parse d fuel o w = Ret p w' /\
  get "out/t.xsd.go" (w_fs w') <> None.
Proof.
  set (docs := [("T", [TStart "schema" []; TStart "element" [att "name" "x"; att "type" "string"]])]).
  exists (demo docs first_choice), 2, 2, (demo_opts "t.xsd" "Go" false), (demo_world [("t.xsd", "T")]), "T".
  eexists. eexists. split; [reflexivity|]. split.
  - intros H. assert (L : forall ts, balanced ts -> Nat.even (length (filter (fun t => match t with TStart _ _ => true | TEnd _ => true | _ => false end) ts)) = true /\
        length (filter (fun t => match t with TStart _ _ => true | _ => false end) ts) = length (filter (fun t => match t with TEnd _ => true | _ => false end) ts)).
    { intros ts Hb. induction Hb as [|t ts Ht Hb IH|local l a b Ha IHa Hb IHb]; [now split| |].
      - destruct t; try contradiction; exact IH.
      - cbn. rewrite !filter_app. cbn. rewrite !app_length. cbn. destruct IHa as [A1 A2], IHb as [B1 B2].
        split; [|lia]. rewrite Nat.add_succ_r. change (Nat.even (S (S (length (filter (fun t => match t with TStart _ _ => true | TEnd _ => true | _ => false end) a) + length (filter (fun t => match t with TStart _ _ => true | TEnd _ => true | _ => false end) b)))) = true).
        change (Nat.even (length (filter (fun t => match t with TStart _ _ => true | TEnd _ => true | _ => false end) a) + length (filter (fun t => match t with TStart _ _ => true | TEnd _ => true | _ => false end) b)) = true).
        now rewrite Nat.even_add, A1, B1. }
    apply L in H as [_ H]. discriminate.
  - split; [reflexivity|]. split; [vm_compute; reflexivity|]. vm_compute. discriminate.
Qed.
Print Assumptions C23_malformed_refuted.

(** C24.  What holds: a referenced schema file that does not exist, wherever the
    reference stands.  [q], [w1]: the state reached before the tag. *)
Theorem C24_missing_file_partial : forall (E : Env) d fuel o w bytes before local l v after q w1 file,
  o_extract o = false -> stat (o_file o) w = SFile bytes -> env_open_fail (o_file o) = false ->
  env_tokens bytes = (before ++ TStart local l :: after)%list -> first_reference local l v -> in_place before local ->
  run_tokens (get_value_type (parse d fuel) fuel o) before p_init (register o (freeze (o_ps o)) w) = Ret q w1 ->
  missing_reference o v (freeze q) w1 file ->
  parse (S d) fuel o w = Fail (EStat file) w1.
Proof. exact @missing_file. Qed.
Print Assumptions C24_missing_file_partial.

Definition missing_docs : smap (list token) :=
  [("M", d_schema [xmlns "b" "urn:b"] (d_import "urn:b" "b.xsd" ++ d_element "x" "b:T"));
   ("B", d_schema [] (d_element "y" "string" ++
           [TStart "element" [att "name" "z"; att "type" "string"; att "maxOccurs" "many"]; TEnd "element"]))].

Example C24_example :
  see (parse (E := demo missing_docs first_choice) 4 4 (demo_opts "m.xsd" "Go" false) (demo_world [("m.xsd", "M")]))
    = Error (EStat "in/b.xsd").
Proof. vm_compute. reflexivity. Qed.

(** The same in every other place. *)
Definition missing_in (ts : list token) : smap (list token) :=
  [("M", d_schema [xmlns "b" "urn:b"] (d_import "urn:b" "b.xsd" ++ ts))].
Definition place_tag (local : string) (l : list xattr) : list token := [TStart local l; TEnd local].
Definition within (local : string) (ts : list token) : list token := (TStart local [att "name" "t"] :: ts ++ [TEnd local])%list.
Definition missing_places : list (list token) :=
  [place_tag "element" [att "ref" "b:T"];
   within "complexType" (place_tag "attribute" [att "name" "a"; att "type" "b:T"]);
   within "complexType" (place_tag "attribute" [att "ref" "b:T"; att "use" "required"]);
   within "complexType" (place_tag "attributeGroup" [att "ref" "b:T"]);
   within "complexType" (place_tag "group" [att "maxOccurs" "2"; att "ref" "b:T"]);
   within "complexType" (place_tag "extension" [att "base" "b:T"]);
   within "simpleType" (place_tag "restriction" [att "base" "b:T"]);
   within "simpleType" (place_tag "list" [att "itemType" "b:T"]);
   within "simpleType" (place_tag "union" [att "memberTypes" "b:T xs:string"])].
Example C24_places_example :
  Forall (fun ts => see (parse (E := demo (missing_in ts) first_choice) 4 4 (demo_opts "m.xsd" "Go" false) (demo_world [("m.xsd", "M")]))
    = Error (EStat "in/b.xsd")) missing_places.
Proof. unfold missing_places. repeat constructor; vm_compute; reflexivity. Qed.

(** What does not: the imported schema exists but parsing it fails. *)
Theorem C24_nested_error_refuted : exists (E : Env) d fuel o file w,
  (exists e w1, parse d fuel (for_schema o file) w = Fail e w1) /\
  (exists w', parse d fuel o w = Ret (mkP [PRef 0] [mkElement "" "x" "T" false false] "element" "" 0 false false [] [] [] [] [] [] []) w' /\
     get file (w_pmap w') <> None).
Proof.
  exists (demo missing_docs first_choice), 4, 4, (demo_opts "m.xsd" "Go" false), "in/b.xsd", (demo_world [("m.xsd", "M"); ("b.xsd", "B")]).
  split; [vm_compute; eauto|]. eexists. split; [vm_compute; reflexivity|]. vm_compute. discriminate.
Qed.
Print Assumptions C24_nested_error_refuted.

(** C25.  A document that needs no other schema: nothing changes but the output
    directories and the output file. *)
Theorem C25_only_output : forall (E : Env) d fuel o w bytes, o_extract o = false ->
  stat (o_file o) w = SFile bytes -> stat (join2 (dir (o_file o)) "") w = SDir ->
  w_nsl w = [] -> w_inc w = [] -> self_contained (env_tokens bytes) -> fuel <> 0 ->
  let w' := out_world (parse d fuel o w) in
  forall c, get c (w_fs w') = get c (w_fs w) \/
    exists pt, get (o_file o) (w_pmap w') = Some pt /\ output_change o pt c (get c (w_fs w)) (get c (w_fs w')).
Proof. exact @single_changes. Qed.
Print Assumptions C25_only_output.

(** Success: the output file holds the text for the components. *)
Theorem C25_output_written : forall (E : Env) d fuel o w bytes p w' l, o_extract o = false ->
  stat (o_file o) w = SFile bytes -> parse d fuel o w = Ret p w' -> selects (o_lang o) l ->
  exists f text, output_file o l f /\ file_text l (o_package o) (freeze p) text true /\
    get (clean f) (w_fs w') = Some (NFile (env_write f text)).
Proof. exact @parse_writes. Qed.
Print Assumptions C25_output_written.

(** Every document: whatever changes is the output of this parse or of a
    nested parse of a file that had not been parsed before. *)
Theorem C25_all_effects : forall (E : Env) d fuel o w, o_extract o = false ->
  let w' := out_world (parse d fuel o w) in
  forall c, get c (w_fs w') = get c (w_fs w) \/
    (exists pt, get (o_file o) (w_pmap w') = Some pt /\ output_change o pt c (get c (w_fs w)) (get c (w_fs w'))) \/
    exists f pt, f <> o_file o /\ get f (w_pmap w) = None /\ get f (w_pmap w') = Some pt /\
      output_change (for_schema o f) pt c (get c (w_fs w)) (get c (w_fs w')).
Proof. exact @parse_changes. Qed.
Print Assumptions C25_all_effects.

Definition plain_docs : smap (list token) := [("E", d_schema [] (d_element "x" "string"))].
Definition plain_world : World := set_fs (w_fs (demo_world [("e.xsd", "E")]) ++ [("other", NFile "keep")])%list (demo_world []).

Example C25_example :
  let w' := out_world (parse (E := demo plain_docs first_choice) 2 2 (demo_opts "e.xsd" "TypeScript" false) plain_world) in
  self_contained (E := demo plain_docs first_choice) (d_schema [] (d_element "x" "string")) /\
  get "other" (w_fs w') = Some (NFile "keep") /\ get "out" (w_fs w') = Some NDir /\
  get "out/e.xsd.ts" (w_fs w') =
    Some (NFile ("// Code generated by xgen. DO NOT EDIT." ++ NL ++ CR ++ NL ++ "// X ..." ++ CR ++ NL ++ "export type X = string;" ++ NL)).
Proof.
  split; [|vm_compute; auto]. intros local l H. cbn in H.
  destruct H as [H|[H|[H|[H|[]]]]]; try discriminate; injection H as <- <-; split; vm_compute; reflexivity.
Qed.

(** C26.  The part of FilePath after InputDir has a component that is a name
    and none that is "..". *)
Theorem C26_output_inside_partial : forall (E : Env) o rel l f, o_output o <> "" -> relative (o_input o) (o_file o) rel ->
  (forall x, In x (split_on "/" rel) -> x <> "..") -> (exists x, In x (split_on "/" rel) /\ x <> "" /\ x <> ".") ->
  selects (o_lang o) l -> output_file o l f -> inside (o_output o) (clean f).
Proof. exact @file_inside. Qed.
Print Assumptions C26_output_inside_partial.

Definition dots_world : World := mkW [("in", NDir); ("in/e.xsd", NFile "E"); ("e.xsd", NFile "E")] [] [] [] [] [] 0 [].

Example C26_example :
  let o := demo_opts "e.xsd" "go" false in
  selects (E := demo plain_docs first_choice) (o_lang o) Go /\ output_file o Go "out/e.xsd.go" /\ inside "out" "out/e.xsd.go".
Proof.
  split; [reflexivity|]. split; [now apply output_file_spec|].
  exists "e.xsd.go". split; [discriminate|]. split; [reflexivity|]. split; [|reflexivity]. intros x [<-|[]]. split; discriminate.
Qed.

(** ".." components lead out of OutputDir; so does an empty relative part. *)
Theorem C26_outside_refuted : exists (E : Env) d fuel o o' w,
  (exists p w' f, parse d fuel o w = Ret p w' /\ output_file o Go f /\ get (clean f) (w_fs w') <> None /\ ~ inside (o_output o) (clean f)) /\
  (exists p w' f, parse d fuel o' w = Ret p w' /\ output_file o' Go f /\ get (clean f) (w_fs w') <> None /\ ~ inside (o_output o') (clean f)).
Proof.
  exists (demo plain_docs first_choice), 2, 2, (mkO "in/../e.xsd" "in" "out" false "Go" "" p_init),
    (mkO "in/e.xsd" "in/e.xsd" "out" false "Go" "" p_init), dots_world.
  assert (N : forall c, has_prefix (clean c) "out/" = false -> ~ inside "out" c).
  { intros c Hc [rest [_ [_ [_ H]]]]. rewrite H in Hc. now vm_compute in Hc. }
  split; (eexists; eexists; eexists; split; [vm_compute; reflexivity|]; split; [apply output_file_spec; vm_compute; reflexivity|];
    split; [vm_compute; discriminate|now apply N]).
Qed.
Print Assumptions C26_outside_refuted.

(** C27.  [w] and [w'] differ in the spacing of documents and in the global
    identifier counter. *)
Theorem C27_spacing : forall (E : Env) d fuel o w w', same_world (same_core spacing) (fun _ => True) w w' ->
  same_outcome (same_world (same_core spacing) (fun _ => True)) (parse d fuel o w) (parse d fuel o w').
Proof.
  intros E d fuel o w w' H. rewrite <- (with_ps_id o) at 2. apply parse_irrelevant; [|reflexivity|exact H].
  intros ts ts' gvt w1 Ht. now apply spacing_TE.
Qed.
Print Assumptions C27_spacing.

(** Spacing changed at the paths [S] only: all other files end up the same,
    the generated ones in particular. *)
Theorem C27_same_output : forall (E : Env) (S : string -> Prop) d fuel o w w' c,
  same_world (same_core spacing) S w w' -> ~ S c ->
  get c (w_fs (out_world (parse d fuel o w))) = get c (w_fs (out_world (parse d fuel o w'))).
Proof.
  intros E S d fuel o w w' c H Hc.
  assert (HS : same_outcome (same_world (same_core spacing) S) (parse d fuel o w) (parse d fuel o w')).
  { rewrite <- (with_ps_id o) at 2. apply parse_irrelevant; [|reflexivity|exact H].
    intros ts ts' gvt w1 Ht. now apply spacing_TE. }
  destruct HS as [p p' a b Hp Hab|e a b Hab|x a b Hab]; cbn; destruct Hab as [_ [_ [_ [_ [_ [_ Hn]]]]]];
    (destruct (Hn c) as [->|[Hs _]]; [reflexivity|contradiction]).
Qed.
Print Assumptions C27_same_output.

Definition spaced : list token :=
  [TOther; TStart "schema" []; TChar (NL ++ "  "); TStart "element" [att "name" "x"; att "type" "string"]; TOther; TEnd "element"; TChar NL; TEnd "schema"; TChar NL].
Definition space_docs : smap (list token) := [("E", d_schema [] (d_element "x" "string")); ("F", spaced)].

Ltac pads := repeat first [apply pad_nil | apply pad_keep | apply pad_add; [first [apply sp_other | apply sp_char; vm_compute; repeat constructor]|]].

Example C27_example :
  let E := demo space_docs first_choice in
  same_world (same_core spacing) (fun c => c = "in/e.xsd") (demo_world [("e.xsd", "E")]) (demo_world [("e.xsd", "F")]) /\
  get "out/e.xsd.go" (w_fs (out_world (parse 2 2 (demo_opts "e.xsd" "Go" false) (demo_world [("e.xsd", "F")])))) =
    Some (NFile ("// Code generated by xgen. DO NOT EDIT." ++ NL ++ NL ++ "package schema" ++ NL ++ CR ++ NL ++ "// X ..." ++ CR ++ NL ++ "type X" ++ TAB ++ "string" ++ NL)).
Proof.
  intros E. split; [|vm_compute; reflexivity]. repeat split. intros c. unfold demo_world. cbn [w_fs map fst snd append].
  unfold same_node. cbn [get]. destruct (String.eqb "in" c); [now left|].
  destruct (String.eqb_spec "in/e.xsd" c) as [<-|_]; [|now left]. right. split; [reflexivity|]. exists "E", "F".
  split; [reflexivity|]. split; [reflexivity|]. exists (d_schema [] (d_element "x" "string")).
  split; [pads|]. unfold E. cbn. unfold spaced. pads.
Qed.

(** C38.  [found k]: the schema included as [k] declares the type. *)
Theorem C38_include_order_partial : forall (E : Env) d fuel o v tree w loc K T found,
  o_extract o = false -> representation (o_lang o) (local_part v) = None -> none_gives (local_part v) tree ->
  location v w loc -> ~ is_url loc -> stat (join2 (dir (o_file o)) loc) w = SDir ->
  included_schemas d fuel o w K (local_part v) T found -> incl (w_inc w) K -> T <> local_part v ->
  ((exists k, In k (w_inc w) /\ found k = true) \/ (forall k, In k K -> found k = false)) ->
  exists R, (R = T \/ R = local_part v) /\
    forall ch, match get_value_type (E := with_choose E ch) (parse (E := with_choose E ch) d fuel) fuel o v tree w with
    | Ret t _ => t = R
    | Fail _ _ => False
    | Crash c _ => c = NoFuel
    end.
Proof. exact @include_order. Qed.
Print Assumptions C38_include_order_partial.

Definition inc_docs : smap (list token) :=
  [("I", d_schema [] (d_include "j.xsd" ++ d_include "k.xsd" ++ d_element "x" "T"));
   ("J", d_schema [] (d_simple "T" "string")); ("K", d_schema [] (d_simple "T" "integer"))].
Definition last_choice (n : nat) : nat := Nat.sub 1 n.

Example C38_example :
  let E := demo inc_docs first_choice in
  let w := set_inc ["j.xsd"] (demo_world [("i.xsd", "I"); ("j.xsd", "J"); ("k.xsd", "K")]) in
  included_schemas 3 3 (demo_opts "i.xsd" "Go" false) w ["j.xsd"] "T" "string" (fun _ => true) /\
  forall ch, see (parse (E := with_choose E ch) 3 3 (demo_opts "j.xsd" "Go" false) w) =
    Comps [PSimple (mkSimple "" "T" "string" false false [] [])].
Proof.
  intros E w. split.
  - intros k w1 [<-|[]] Hw. unfold w in Hw. cbn in Hw. destruct w1 as [fs inc lns nsl plist pmap tick count]. cbn in Hw. subst fs.
    eexists. eexists. split; [vm_compute; reflexivity|]. split; [intros x Hx; now left|].
    exists [], (PSimple (mkSimple "" "T" "string" false false [] [])), []. split; [vm_compute; reflexivity|].
    split; [now apply gives_simple|intros q u []].
  - intros ch. vm_compute. reflexivity.
Qed.

(** Two included schemas that disagree. *)
Theorem C38_include_order_refuted : exists (E : Env) ch ch' d fuel o w t t',
  see (parse (E := with_choose E ch) d fuel o w) = Comps [PElement (mkElement "" "x" t false false)] /\
  see (parse (E := with_choose E ch') d fuel o w) = Comps [PElement (mkElement "" "x" t' false false)] /\ t <> t'.
Proof.
  exists (demo inc_docs first_choice), first_choice, last_choice, 4, 4, (demo_opts "i.xsd" "Go" false),
    (demo_world [("i.xsd", "I"); ("j.xsd", "J"); ("k.xsd", "K")]), "int", "string".
  split; [vm_compute; reflexivity|]. split; [vm_compute; reflexivity|discriminate].
Qed.
Print Assumptions C38_include_order_refuted.

(** Which values there are: those of the included schemas, and the name itself
    only if none of them declares it.  So the order matters exactly if two of
    them disagree. *)
Theorem C38_exact_partial : forall (E : Env) d fuel o v tree w loc gives,
  o_extract o = false -> representation (o_lang o) (local_part v) = None -> none_gives (local_part v) tree ->
  location v w loc -> ~ is_url loc -> stat (join2 (dir (o_file o)) loc) w = SDir ->
  included_exactly d fuel o w (local_part v) gives -> NoDup (w_inc w) -> length (w_inc w) < fuel ->
  let value ch := get_value_type (E := with_choose E ch) (parse (E := with_choose E ch) d fuel) fuel o v tree w in
  (forall ch, exists t w', value ch = Ret t w') /\
  (forall t, (exists ch w', value ch = Ret t w') <->
    (exists k, In k (w_inc w) /\ gives k = Some t) \/
    t = local_part v /\ forall k, In k (w_inc w) -> gives k = None) /\
  ((exists t, forall ch, exists w', value ch = Ret t w') <->
    forall k k' t t', In k (w_inc w) -> In k' (w_inc w) -> gives k = Some t -> gives k' = Some t' -> t = t').
Proof.
  intros E d fuel o v tree w loc gives He Hb Hg Hloc Hu Hs Hk Hnd Hfuel value.
  destruct (include_exact d fuel o v tree w loc gives He Hb Hg Hloc Hu Hs Hk Hnd Hfuel) as [H1 H2].
  split; [exact H1|]. split; [exact H2|]. split.
  - intros [t0 Ht0] k k' t t' Hi Hi' Hgv Hgv'.
    destruct (proj2 (H2 t) (or_introl (ex_intro _ k (conj Hi Hgv)))) as [ch [w1 Hv]].
    destruct (proj2 (H2 t') (or_introl (ex_intro _ k' (conj Hi' Hgv')))) as [ch' [w2 Hv']].
    destruct (Ht0 ch) as [w3 Hv3]. destruct (Ht0 ch') as [w4 Hv4]. unfold value in Hv3, Hv4. rewrite Hv in Hv3. rewrite Hv' in Hv4.
    injection Hv3 as -> _. now injection Hv4 as -> _.
  - intros Hagree. destruct (H1 (fun _ => 0)) as [t [w1 Hv]]. exists t. intros ch. destruct (H1 ch) as [t' [w2 Hv']].
    exists w2. unfold value. rewrite Hv'. f_equal.
    destruct (proj1 (H2 t) (ex_intro _ _ (ex_intro _ w1 Hv))) as [[k [Hi Hgv]]|[-> Hn]];
      destruct (proj1 (H2 t') (ex_intro _ _ (ex_intro _ w2 Hv'))) as [[k' [Hi' Hgv']]|[-> Hn']].
    + exact (Hagree k' k t' t Hi' Hi Hgv' Hgv).
    + rewrite (Hn' k Hi) in Hgv. discriminate.
    + rewrite (Hn k' Hi') in Hgv'. discriminate.
    + reflexivity.
Qed.
Print Assumptions C38_exact_partial.

Definition two_includes : World :=
  set_inc ["j.xsd"; "k.xsd"] (demo_world [("i.xsd", "I"); ("j.xsd", "J"); ("k.xsd", "K")]).

Example C38_exact_example :
  let E := demo inc_docs first_choice in
  let gives k := if String.eqb k "j.xsd" then Some "string" else Some "int" in
  let o := demo_opts "i.xsd" "Go" false in
  included_exactly 3 3 o two_includes "T" gives /\
  forall t, (exists ch w', get_value_type (E := with_choose E ch) (parse (E := with_choose E ch) 3 3) 3 o "T" [] two_includes = Ret t w') <->
    t = "string" \/ t = "int".
Proof.
  intros E gives o.
  assert (H : included_exactly 3 3 o two_includes "T" gives).
  { intros k w1 [<-|[<-|[]]] Hw Hi; destruct w1 as [fs inc lns nsl plist pmap tick count]; cbn in Hw, Hi; subst fs inc;
      (eexists; eexists; split; [vm_compute; reflexivity|]; split; [reflexivity|]; cbn [gives String.eqb]);
      (split; [|split; discriminate]).
    - exists [], (PSimple (mkSimple "" "T" "string" false false [] [])), []. split; [vm_compute; reflexivity|].
      split; [now apply gives_simple|intros q u []].
    - exists [], (PSimple (mkSimple "" "T" "int" false false [] [])), []. split; [vm_compute; reflexivity|].
      split; [now apply gives_simple|intros q u []]. }
  split; [exact H|]. intros t.
  destruct (C38_exact_partial E 3 3 o "T" [] two_includes "" gives) as [_ [Hx _]]; try reflexivity.
  - intros q u [].
  - exists "". split; right; now split.
  - intros Hu. now apply url_spec in Hu.
  - exact H.
  - repeat constructor; cbn; intuition discriminate.
  - cbn. lia.
  - rewrite Hx. cbn. split.
    + intros [[k [[<-|[<-|[]]] Hgv]]|[-> Hn]].
      * left. now injection Hgv as <-.
      * right. now injection Hgv as <-.
      * specialize (Hn "j.xsd" (or_introl eq_refl)). discriminate.
    + intros [-> | ->]; left; [exists "j.xsd"|exists "k.xsd"]; cbn; auto.
Qed.

(** C40.  [w] and [w'] differ in tags without handler, and in the global
    identifier counter. *)
Definition foreign_docs {E : Env} (ts ts' : list token) : Prop := named_tags ts /\ same_core foreign ts ts'.

Theorem C40_foreign : forall (E : Env) (S : string -> Prop) d fuel o w w', same_world foreign_docs S w w' ->
  same_outcome (same_world foreign_docs S) (parse d fuel o w) (parse d fuel o w').
Proof.
  intros E S d fuel o w w' H. rewrite <- (with_ps_id o) at 2. apply parse_irrelevant; [|reflexivity|exact H].
  intros ts ts' gvt w1 Ht. now apply foreign_TE.
Qed.
Print Assumptions C40_foreign.

Definition wrapped : list token :=
  d_schema [] ([TStart "annotation" []; TStart "appinfo" [att "source" "s"]; TEnd "appinfo"; TEnd "annotation"; TStart "element" [att "name" "x"; att "type" "string"]] ++
    [TStart "unique" []; TEnd "unique"; TEnd "element"]).
Definition wrap_docs : smap (list token) := [("E", d_schema [] (d_element "x" "string")); ("F", wrapped)].

Example C40_example :
  let E := demo wrap_docs first_choice in
  foreign_docs (d_schema [] (d_element "x" "string")) wrapped /\
  see (parse 2 2 (demo_opts "e.xsd" "Go" false) (demo_world [("e.xsd", "F")])) =
    Comps [PElement (mkElement "" "x" "string" false false)].
Proof.
  intros E. split; [|vm_compute; reflexivity].
  assert (U : forall local, forallb (fun h => negb (tag h local)) (start_tags ++ end_tags) = true -> unknown local).
  { intros local H h Hh. rewrite forallb_forall in H. apply negb_true_iff, H. apply in_app_iff. exact Hh. }
  split.
  - intros local l H. cbn in H. destruct H as [H|[H|[H|[H|[]]]]]; try discriminate; injection H as <- <-; discriminate.
  - exists (d_schema [] (d_element "x" "string")). split; [repeat constructor|].
    unfold wrapped, d_schema, d_element. cbn [app].
    apply pad_keep.
    do 4 (apply pad_add; [first [apply fo_start; [apply U; vm_compute; reflexivity|discriminate] | apply fo_end; apply U; vm_compute; reflexivity]|]).
    apply pad_keep.
    do 2 (apply pad_add; [first [apply fo_start; [apply U; vm_compute; reflexivity|discriminate] | apply fo_end; apply U; vm_compute; reflexivity]|]).
    repeat constructor.
Qed.

(** C47 *)
Theorem C47_bad_occurs : forall (E : Env) d fuel o w bytes t, stat (o_file o) w = SFile bytes ->
  In t (env_tokens bytes) -> bad_occurs t ->
  (forall p w', parse d fuel o w <> Ret p w') /\
  (o_extract o = false -> forall c, get c (w_fs (out_world (parse d fuel o w))) = get c (w_fs w) \/
    exists f pt, f <> o_file o /\ get f (w_pmap w) = None /\ get f (w_pmap (out_world (parse d fuel o w))) = Some pt /\
      output_change (for_schema o f) pt c (get c (w_fs w)) (get c (w_fs (out_world (parse d fuel o w))))).
Proof. exact @bad_occurs_changes. Qed.
Print Assumptions C47_bad_occurs.

Example C47_example :
  let r := parse (E := demo missing_docs first_choice) 3 3 (demo_opts "b.xsd" "Go" false) (demo_world [("b.xsd", "B")]) in
  see r = Error (EAtoi "many") /\ w_fs (out_world r) = w_fs (demo_world [("b.xsd", "B")]) /\ max_occurs "many" = None.
Proof. vm_compute. auto. Qed.
