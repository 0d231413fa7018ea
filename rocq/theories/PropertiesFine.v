(** Property theorems: C68, from ordinary schemas to well-formed programs. *)

From Coq Require Import String Ascii List NArith Bool.
From Verif Require Import GoStr GoPath Utf8 Base Utils SpecStr SpecDoc SpecTables World Handlers Parser Cli SpecParse SpecGen SpecOut SpecFile SpecCli SpecDecl SpecWhole
  SpecSyntax SpecClosed SpecFine StrProofs DeclProofs WholeProofs SyntaxProofs SyntaxDecls SyntaxCheck ClosedProofs ClosedCheck FineProofs FineCheck
  Demo PropertiesDecl PropertiesCli PropertiesWhole.
Import ListNotations.
Local Open Scope string_scope.

(** The components of a schema with ordinary names and types have ordinary names
    and types, for every language and whatever counts as a declared type. *)
Theorem C68_components : forall (E : Env) (P : Pool) l res many ds tree, resolution false (lname l) res ->
  schema_fine l ds -> schema_in res many ds [] = Some tree -> tree_fine l tree /\ tree_ok tree.
Proof. intros E P l res many ds tree Hr Hd H. now apply (schema_in_fine l res many Hr ds). Qed.
Print Assumptions C68_components.

(** A run over ordinary schema files leaves well-formed programs.  Missing: what
    the generators cannot handle ([manageable], see C64), schemas that import or
    include others. *)
Theorem C68_tool_partial : forall (E : Env) d fuel f w w' files l trees, case_tables_ok -> upper_idempotent E ->
  accepted f -> lname l = fl_l f -> get_file_list (fl_i f) w = Some files ->
  (forall x, In x files -> stat x w = SDir \/ ordinary_file (P := any_type) l w x (trees x) /\ Forall (manageable l (trees x)) (trees x)) ->
  separate_outputs f l (listed files w) -> main (S d) (S fuel) f w = CExit 0 true w' ->
  forall x, listed files w x -> exists name text its, output_file (tool_options f x) l name /\
    get (clean name) (w_fs w') = Some (NFile (env_write name text)) /\
    holds_program l (o_package (tool_options f x)) (trees x) its text /\ program (S := any_name) l its.
Proof.
  intros E d fuel f w w' files l trees Ht Hu Ha Hl Hfiles Hgood Hsep H x Hx.
  destruct (C50_outputs E d fuel f w w' files l trees Ha Hl Hfiles) with (x := x) as [name [text [H1 [H2 H3]]]]; try assumption.
  { intros y Hy. destruct (Hgood y Hy) as [Hd|[Hs _]]; [now left|right]. rewrite <- Hl. now apply ordinary_schema in Hs. }
  exists name, text, (expected l (trees x)). split; [exact H1|]. split; [exact H3|].
  destruct Hx as [Hin [b Hb]]. destruct (Hgood x Hin) as [Hd|[Hs Hm]]; [congruence|]. apply ordinary_schema in Hs as [_ [Hf Hok]].
  split; [now apply text_program|]. apply (expected_program (S := any_name) (P := any_type)); try assumption; intros; exact I.
Qed.
Print Assumptions C68_tool_partial.

(** If in addition the types are built in or declared by the same schema, then
    the programs declare the types that they use.  Missing: as above, and in
    Java attribute groups with attributes (see C66). *)
Theorem C68_closed_partial : forall (E : Env) d fuel f w w' files l trees, case_tables_ok -> upper_idempotent E ->
  accepted f -> lname l = fl_l f -> get_file_list (fl_i f) w = Some files ->
  (forall x, In x files -> stat x w = SDir \/ ordinary_file (P := components (trees x)) l w x (trees x) /\
     Forall (manageable l (trees x)) (trees x) /\ (l = Java -> no_group_attributes (trees x))) ->
  separate_outputs f l (listed files w) -> main (S d) (S fuel) f w = CExit 0 true w' ->
  forall x, listed files w x -> exists name text its, output_file (tool_options f x) l name /\
    get (clean name) (w_fs w') = Some (NFile (env_write name text)) /\
    holds_program l (o_package (tool_options f x)) (trees x) its text /\ closed_program (standard l) l its.
Proof.
  intros E d fuel f w w' files l trees Ht Hu Ha Hl Hfiles Hgood Hsep H x Hx.
  destruct (C50_outputs E d fuel f w w' files l trees Ha Hl Hfiles) with (x := x) as [name [text [H1 [H2 H3]]]]; try assumption.
  { intros y Hy. destruct (Hgood y Hy) as [Hd|[Hs _]]; [now left|right]. rewrite <- Hl. now apply ordinary_schema in Hs. }
  exists name, text, (expected l (trees x)). split; [exact H1|]. split; [exact H3|].
  destruct Hx as [Hin [b Hb]]. destruct (Hgood x Hin) as [Hd|[Hs [Hm Hj]]]; [congruence|]. apply ordinary_schema in Hs as [_ [Hf Hok]].
  split; [now apply text_program|]. now apply expected_closed.
Qed.
Print Assumptions C68_closed_partial.

(** The repository's own example, in all languages. *)
Definition base64_tree (l : lang) : list proto :=
  match schema_in (resolve_in false (lname l)) max_occurs base64_schema [] with Some tree => tree | None => [] end.

Example C68_example : let E := demo [] first_choice in forall l,
  schema_in (resolve_in false (lname l)) max_occurs base64_schema [] = Some (base64_tree l) /\ length (base64_tree l) = 9 /\
  schema_fine (P := components (base64_tree l)) l base64_schema /\
  Forall (manageable l (base64_tree l)) (base64_tree l) /\ no_group_attributes (base64_tree l).
Proof.
  intros E l. split; [destruct l; vm_compute; reflexivity|]. split; [destruct l; vm_compute; reflexivity|].
  split; [apply (schema_check (P := components (base64_tree l)) (poolb (base64_tree l)) (poolb_ok (base64_tree l)) l base64_schema); destruct l; vm_compute; reflexivity|].
  split; [apply (closed_check (E := E) l (base64_tree l)); destruct l; vm_compute; reflexivity|].
  intros v Hv.
  assert (Hx : forallb (fun p => match p with PAttrGroup v => match ag_attributes v with [] => true | _ => false end | _ => true end) (base64_tree l) = true)
    by (destruct l; vm_compute; reflexivity).
  pose proof (proj1 (forallb_forall _ _) Hx _ Hv) as Hy. cbv beta iota in Hy. now destruct (ag_attributes v).
Qed.

(** Whole runs of the tool: C50_example has such files. *)
Example C68_run : let E := demo whole_docs first_choice in
  (forall x, In x ["in/a.xsd"; "in/sub/b.xsd"] -> ordinary_file (P := any_type) Rust whole_world x (whole_tree x) /\
     Forall (manageable Rust (whole_tree x)) (whole_tree x)) /\
  ordinary_file (P := components (whole_tree "in/a.xsd")) Rust whole_world "in/a.xsd" (whole_tree "in/a.xsd").
Proof.
  cbv zeta.
  assert (Hs : forall (P : Pool) x bytes ds, stat (E := demo whole_docs first_choice) x whole_world = SFile bytes ->
    stat (E := demo whole_docs first_choice) (join2 (dir x) "") whole_world = SDir ->
    written_as (E := demo whole_docs first_choice) (schema_tokens [] ds) (env_tokens (Env := demo whole_docs first_choice) bytes) ->
    forallb (fun t => match t with TStart local _ => negb (String.eqb local "") | _ => true end)
      (env_tokens (Env := demo whole_docs first_choice) bytes) = true ->
    schema_in (resolve_in false "Rust") max_occurs ds [] = Some (whole_tree x) -> schema_fine (E := demo whole_docs first_choice) Rust ds ->
    ordinary_file (E := demo whole_docs first_choice) Rust whole_world x (whole_tree x)).
  { intros P y bytes ds H1 H2 H3 H4 H5 H6. exists bytes, (resolve_in false "Rust"), max_occurs, [], ds.
    split; [exact H1|]. split; [reflexivity|]. split; [exact H2|]. split; [exact H3|].
    split; [apply named_tags_check; exact H4|]. split; [apply resolve_in_resolution|]. split; [apply max_occurs_counts|now split]. }
  split.
  - intros x [<-|[<-|[]]]; split.
    + apply (Hs any_type _ "A" pair_schema); [..|apply written_check| | |apply (schema_check (E := demo whole_docs first_choice) (P := any_type) (fun _ _ => true) (fun _ _ _ => I) Rust pair_schema)]; vm_compute; reflexivity.
    + apply (closed_check (E := demo whole_docs first_choice) Rust (whole_tree "in/a.xsd")); vm_compute; reflexivity.
    + apply (Hs any_type _ "B" rich_schema); [..|apply written_same| | |apply (schema_check (E := demo whole_docs first_choice) (P := any_type) (fun _ _ => true) (fun _ _ _ => I) Rust rich_schema)]; vm_compute; reflexivity.
    + apply (check_ok (E := demo whole_docs first_choice) (P := any_type) (fun _ _ => true) (fun _ _ _ => I) Rust (whole_tree "in/sub/b.xsd")); vm_compute; reflexivity.
  - apply (Hs _ _ "A" pair_schema); [..|apply written_check| | |apply (schema_check (E := demo whole_docs first_choice) (P := components (whole_tree "in/a.xsd")) (poolb (whole_tree "in/a.xsd")) (poolb_ok (whole_tree "in/a.xsd")) Rust pair_schema)]; vm_compute; reflexivity.
Qed.

(** A reference to a type that is declared nowhere stays in the program. *)
Theorem C68_undeclared_refuted : let E := demo [] first_choice in exists ds tree, schema_fine (P := any_type) Go ds /\
  schema_in (resolve_in false "Go") max_occurs ds [] = Some tree /\ Forall (manageable Go tree) tree /\
  ~ closed_program (standard Go) Go (expected Go tree).
Proof.
  cbv zeta. exists [DElement (named "x" "y") []]. eexists.
  split; [apply (schema_check (P := any_type) (fun _ _ => true) (fun _ _ _ => I)); vm_compute; reflexivity|].
  split; [vm_compute; reflexivity|]. split; [repeat constructor|].
  match goal with |- ~ closed_program _ _ ?e => let x := eval vm_compute in e in change e with x end. apply go_undeclared.
Qed.
Print Assumptions C68_undeclared_refuted.
