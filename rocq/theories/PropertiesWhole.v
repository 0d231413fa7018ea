(** Property theorems about runs from schema files to output files: C50. *)

From Coq Require Import String Ascii List Arith NArith ZArith Bool Lia.
From Verif Require Import GoStr GoPath Base Utils World Handlers Parser Cli SpecDoc SpecTables SpecGen SpecOut SpecFile SpecParse SpecCli
  SpecDecl SpecWhole StrLemmas DocLemmas ParserProofs ParseFacts FileProofs CliProofs DeclProofs WholeProofs Demo PropertiesDecl PropertiesCli.
Import ListNotations.
Local Open Scope string_scope.

(** Parse of one schema file: only the output and directories above it change,
    the output is the program for the declared components, and Parse succeeds
    if the output can be written and gofmt accepts the program. *)
Theorem C50_parse : forall (E : Env) d fuel o w l tree, o_extract o = false -> selects (o_lang o) l -> w_inc w = [] -> w_nsl w = [] ->
  schema_file (o_lang o) w (o_file o) tree ->
  let r := parse (S d) (S fuel) o w in
  (forall c, output_change o tree c (get c (w_fs w)) (get c (w_fs (out_world r)))) /\
  (forall p w', r = Ret p w' -> exists name text, output_file o l name /\
     file_text l (o_package o) tree text true /\ get (clean name) (w_fs w') = Some (NFile (env_write name text))) /\
  (can_write o l w -> ~ unformatted l (o_package o) tree -> exists p w', r = Ret p w').
Proof.
  intros E d fuel o w l tree He Hl Hi Hn Hs r. destruct (schema_parsed d fuel o w l tree He Hl Hi Hn Hs) as [H1 [H2 H3]].
  split; [exact H1|]. split; [exact H2|]. intros Hc Hu. destruct (H3 Hc) as [w' [[p H]|[H _]]]; [now exists p, w'|contradiction].
Qed.
Print Assumptions C50_parse.

(** The files of a run that are not directories. *)
Definition listed {E : Env} (files : list string) (w : World) (x : string) : Prop := In x files /\ exists b, stat x w = SFile b.

(** After a successful run over schema files whose outputs are separate, every
    schema file has as its output the program for the components it declares. *)
Theorem C50_outputs : forall (E : Env) d fuel f w w' files l trees, accepted f -> lname l = fl_l f ->
  get_file_list (fl_i f) w = Some files ->
  (forall x, In x files -> stat x w = SDir \/ schema_file (fl_l f) w x (trees x)) ->
  separate_outputs f l (listed files w) ->
  main (S d) (S fuel) f w = CExit 0 true w' ->
  forall x, listed files w x -> exists name text, output_file (tool_options f x) l name /\
    file_text l (o_package (tool_options f x)) (trees x) text true /\ get (clean name) (w_fs w') = Some (NFile (env_write name text)).
Proof.
  intros E d fuel f w w' files l trees Ha Hl Hfiles Hgood Hsep H x [Hin [b Hb]].
  pose proof (C28_files E (S d) (S fuel) f w files Ha Hfiles) as Hr. rewrite H in Hr.
  destruct Hr as [[_ [_ Hr]]|[[H0 _]|[H0 _]]]; [|discriminate|discriminate].
  apply (tool_outputs d fuel f l trees (listed files w) Hl Hsep files w w' Hr) with (b := b); [|exact Hin|exact Hb].
  intros y Hy. destruct (Hgood y Hy) as [Hd|Hs]; [now left|right]. split; [|exact Hs].
  split; [exact Hy|]. destruct Hs as [c [_ [_ [_ [_ [Hs _]]]]]]. now exists c.
Qed.
Print Assumptions C50_outputs.

(** The run succeeds if the outputs can be written, unless gofmt rejects a
    program. *)
Theorem C50_succeeds : forall (E : Env) d fuel f w files l trees, accepted f -> lname l = fl_l f ->
  get_file_list (fl_i f) w = Some files ->
  (forall x, In x files -> stat x w = SDir \/ schema_file (fl_l f) w x (trees x)) ->
  separate_outputs f l (listed files w) -> (forall x, listed files w x -> can_write (tool_options f x) l w) ->
  exists w', main (S d) (S fuel) f w = CExit 0 true w' \/
    exists x, In x files /\ unformatted l (o_package (tool_options f x)) (trees x) /\ main (S d) (S fuel) f w = CExit 1 false w'.
Proof.
  intros E d fuel f w files l trees [H1 [H2 [H3 H4]]] Hl Hfiles Hgood Hsep Hcan. rewrite main_accepted by assumption. rewrite Hfiles.
  apply (tool_run d fuel f l trees (listed files w) Hl Hsep files w).
  - intros y Hy. destruct (Hgood y Hy) as [Hd|Hs]; [now left|right]. split; [|exact Hs].
    split; [exact Hy|]. destruct Hs as [c [_ [_ [_ [_ [Hs _]]]]]]. now exists c.
  - intros y b Hy Hb. apply Hcan. split; [exact Hy|]. now exists b.
Qed.
Print Assumptions C50_succeeds.

(** However the run ends, files and directories are only made where the outputs
    are, directories stay directories, and no other file changes. *)
Theorem C50_nothing_else : forall (E : Env) d fuel f w files l trees, accepted f -> lname l = fl_l f ->
  get_file_list (fl_i f) w = Some files ->
  (forall x, In x files -> stat x w = SDir \/ schema_file (fl_l f) w x (trees x)) ->
  separate_outputs f l (listed files w) ->
  match main (S d) (S fuel) f w with CExit _ _ w' | CNoFuel w' =>
    forall c, get c (w_fs w') = get c (w_fs w) \/ exists x, listed files w x /\
      ((exists p, output_place (tool_options f x) p /\ In c (lineage (dir p)) /\ get c (w_fs w) = None /\ get c (w_fs w') = Some NDir) \/
       (exists name b, output_file (tool_options f x) l name /\ c = clean name /\ get c (w_fs w) <> Some NDir /\
          get c (w_fs w') = Some (NFile b)))
  end.
Proof.
  intros E d fuel f w files l trees [H1 [H2 [H3 H4]]] Hl Hfiles Hgood Hsep. rewrite main_accepted by assumption. rewrite Hfiles.
  destruct (tool_run d fuel f l trees (listed files w) Hl Hsep files w) as [Hs _].
  { intros y Hy. destruct (Hgood y Hy) as [Hd|Hs]; [now left|right]. split; [|exact Hs].
    split; [exact Hy|]. destruct Hs as [c [_ [_ [_ [_ [Hs _]]]]]]. now exists c. }
  assert (Hout : forall w', steps (tool_options f) l (listed files w) w w' ->
    forall c, get c (w_fs w') = get c (w_fs w) \/ exists x, listed files w x /\
      ((exists p, output_place (tool_options f x) p /\ In c (lineage (dir p)) /\ get c (w_fs w) = None /\ get c (w_fs w') = Some NDir) \/
       (exists name b, output_file (tool_options f x) l name /\ c = clean name /\ get c (w_fs w) <> Some NDir /\
          get c (w_fs w') = Some (NFile b)))).
  { intros w' Hst c. destruct (Hst c) as [He|[[Hn [Hd [x [p [Hx [Hp Hi]]]]]]|[Hn [[b Hb] [x [n [Hx [Ho Hc]]]]]]]]; [now left|right|right].
    - exists x. split; [exact Hx|left]. now exists p.
    - exists x. split; [exact Hx|right]. now exists n, b. }
  destruct (process (S d) (S fuel) (tool_config f) files w) as [code done w'|w']; now apply Hout.
Qed.
Print Assumptions C50_nothing_else.

Lemma written_check : forall (E : Env) ts us,
  ts = filter (fun t => negb (foreign_token t)) (filter (fun t => negb (spacing_token t)) us) -> written_as ts us.
Proof.
  intros E ts us ->. exists (filter (fun t => negb (spacing_token t)) us). split.
  - apply (padded_filter _ _ foreign_token); [apply foreign_token_true|]. apply forallb_forall. intros t _. now destruct (foreign_token t).
  - apply (padded_filter _ _ spacing_token); [apply spacing_token_true|]. apply forallb_forall. intros t _. now destruct (spacing_token t).
Qed.

Lemma written_same : forall (E : Env) ts us, ts = us -> written_as ts us.
Proof.
  intros E ts us ->. assert (H : forall P, padded P us us) by (intros P; induction us; now constructor).
  exists us. split; apply H.
Qed.

(** Two schemas, one of them in a subdirectory, with tags that xgen ignores. *)
Definition pair_schema : list component :=
  [DComplex [att "name" "Pair"] (BElement (named "left" "xs:int") [] (BElement (named "right" "Pair") [] BEnd))].
Definition whole_docs : smap (list token) :=
  [("A", d_schema [] [TChar "  "; TStart "complexType" [att "name" "Pair"]; TStart "sequence" []; TStart "element" (named "left" "xs:int"); TEnd "element";
          TOther; TStart "element" (named "right" "Pair"); TEnd "element"; TEnd "sequence"; TEnd "complexType"]);
   ("B", schema_tokens [] rich_schema)].
Definition whole_world : World :=
  mkW [("in", NDir); ("in/a.xsd", NFile "A"); ("in/sub", NDir); ("in/sub/b.xsd", NFile "B"); ("out", NDir); ("out/old", NFile "O")] [] [] [] [] [] 0 [].
Definition whole_flags : flags := mkFlags "in" "out" "" "Rust" false false.
Definition whole_tree (x : string) : list proto :=
  let ds := if String.eqb x "in/a.xsd" then pair_schema else rich_schema in
  match schema_in (resolve_in false "Rust") max_occurs ds [] with Some tree => tree | None => [] end.

(** The program for the first schema. *)
Definition pair_program : string :=
"// Code generated by xgen. DO NOT EDIT.

#[macro_use]
extern crate serde_derive;
extern crate serde;
extern crate serde_xml_rs;

use serde_xml_rs::from_reader;

" ++ String "013" "
// Pair ..." ++ String "013" "
#[derive(Debug, Deserialize, Serialize, PartialEq)]
pub struct Pair {
	#[serde(rename = ""left"")]
	pub left: i32,
	#[serde(rename = ""right"")]
	pub right: Pair,
}
".

Lemma whole_listed : forall (E := demo whole_docs first_choice) x,
  listed ["in"; "in/a.xsd"; "in/sub"; "in/sub/b.xsd"; "in"] whole_world x -> x = "in/a.xsd" \/ x = "in/sub/b.xsd".
Proof. intros E x [[<-|[<-|[<-|[<-|[<-|[]]]]]] [b Hb]]; auto; vm_compute in Hb; discriminate. Qed.

Lemma whole_output : forall (E := demo whole_docs first_choice) x n, x = "in/a.xsd" \/ x = "in/sub/b.xsd" ->
  output_file (tool_options whole_flags x) Rust n ->
  (x = "in/a.xsd" /\ n = "out/a.xsd.rs") \/ (x = "in/sub/b.xsd" /\ n = "out/sub/b.xsd.rs").
Proof. intros E x n [->| ->] H; apply output_file_spec in H; vm_compute in H; auto. Qed.

Example C50_example :
  let E := demo whole_docs first_choice in
  let files := ["in"; "in/a.xsd"; "in/sub"; "in/sub/b.xsd"; "in"] in
  get_file_list "in" whole_world = Some files /\ accepted whole_flags /\
  (forall x, In x files -> stat x whole_world = SDir \/ schema_file "Rust" whole_world x (whole_tree x)) /\
  separate_outputs whole_flags Rust (listed files whole_world) /\
  (forall x, listed files whole_world x -> can_write (tool_options whole_flags x) Rust whole_world) /\
  exists w', main 1 1 whole_flags whole_world = CExit 0 true w' /\ length (whole_tree "in/sub/b.xsd") = 15 /\
    get "out/a.xsd.rs" (w_fs w') = Some (NFile pair_program) /\ get "out/sub" (w_fs w') = Some NDir /\
    get "out/sub/b.xsd.rs" (w_fs w') <> None /\ get "out/old" (w_fs w') = Some (NFile "O").
Proof.
  cbv zeta. split; [vm_compute; reflexivity|]. split; [repeat split; [discriminate|cbn; tauto]|]. split; [|split; [|split]].
  - intros x H.
    assert (Hs : forall x bytes ds, stat (E := demo whole_docs first_choice) x whole_world = SFile bytes ->
      stat (E := demo whole_docs first_choice) (join2 (dir x) "") whole_world = SDir ->
      written_as (E := demo whole_docs first_choice) (schema_tokens [] ds) (env_tokens (Env := demo whole_docs first_choice) bytes) ->
      forallb (fun t => match t with TStart local _ => negb (String.eqb local "") | _ => true end)
        (env_tokens (Env := demo whole_docs first_choice) bytes) = true ->
      schema_in (resolve_in false "Rust") max_occurs ds [] = Some (whole_tree x) ->
      schema_file (E := demo whole_docs first_choice) "Rust" whole_world x (whole_tree x)).
    { intros y bytes ds H1 H2 H3 H4 H5. exists bytes, (resolve_in false "Rust"), max_occurs, [], ds.
      split; [exact H1|]. split; [reflexivity|]. split; [exact H2|]. split; [exact H3|].
      split; [apply named_tags_check; exact H4|]. split; [apply resolve_in_resolution|]. split; [apply max_occurs_counts|exact H5]. }
    destruct H as [<-|[<-|[<-|[<-|[<-|[]]]]]]; try (left; vm_compute; reflexivity); right.
    + apply (Hs _ "A" pair_schema); [..|apply written_check| |]; vm_compute; reflexivity.
    + apply (Hs _ "B" rich_schema); [..|apply written_same| |]; vm_compute; reflexivity.
  - intros a b n Ha Hb Hn. apply whole_listed in Ha, Hb. destruct (whole_output a n Ha Hn) as [[-> ->]|[-> ->]]; clear Ha Hn; (split; [|split]).
    + destruct Hb as [->| ->]; vm_compute; discriminate.
    + intros m Hm He. destruct (whole_output b m Hb Hm) as [[-> ->]|[-> ->]]; [reflexivity|vm_compute in He; discriminate].
    + intros p Hp. apply place_spec in Hp as ->. destruct Hb as [->| ->]; vm_compute; intuition discriminate.
    + destruct Hb as [->| ->]; vm_compute; discriminate.
    + intros m Hm He. destruct (whole_output b m Hb Hm) as [[-> ->]|[-> ->]]; [vm_compute in He; discriminate|reflexivity].
    + intros p Hp. apply place_spec in Hp as ->. destruct Hb as [->| ->]; vm_compute; intuition discriminate.
  - intros x Hx. apply whole_listed in Hx. split.
    + intros p Hp. apply place_spec in Hp as ->. split; [reflexivity|]. intros a Ha. split; [reflexivity|].
      destruct Hx as [->| ->]; vm_compute in Ha; repeat (destruct Ha as [<-|Ha]; [vm_compute; discriminate|]); destruct Ha.
    + intros n Hn. destruct (whole_output x n Hx Hn) as [[-> ->]|[-> ->]]; (split; [reflexivity|split; [reflexivity|vm_compute; discriminate]]).
  - eexists. split; [vm_compute; reflexivity|]. split; [vm_compute; reflexivity|]. split; [vm_compute; reflexivity|].
    split; [vm_compute; reflexivity|]. split; [vm_compute; discriminate|vm_compute; reflexivity].
Qed.
