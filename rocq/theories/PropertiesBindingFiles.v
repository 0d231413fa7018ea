(** Property theorems: C71 for schema files and projects. *)

From Coq Require Import String Ascii List NArith Bool.
From Verif Require Import GoStr GoPath Utf8 Base Utils SpecStr SpecDoc SpecTables World Handlers Parser Cli SpecParse SpecGen SpecOut SpecFile SpecCli SpecDecl SpecWhole
  SpecProject SpecSyntax SpecClosed SpecFine SpecBinding StrProofs DeclProofs WholeProofs SyntaxProofs SyntaxDecls SyntaxCheck FineProofs FineProject FineCheck ProjectProofs
  BindingProofs BindingFine Demo PropertiesDecl PropertiesCli PropertiesWhole PropertiesProject PropertiesFine.
Import ListNotations.
Local Open Scope string_scope.

(** A run over ordinary schema files leaves programs that tell the XML names of
    the components that the schemas declare.  Missing: as for C71_names_partial,
    and schemas that import or include others. *)
Theorem C71_tool_partial : forall (E : Env) d fuel f w w' files l trees, case_tables_ok -> In l [Go; Java; Rust] ->
  accepted f -> lname l = fl_l f -> get_file_list (fl_i f) w = Some files ->
  (forall x, In x files -> stat x w = SDir \/ ordinary_file (P := any_type) l w x (trees x)) ->
  separate_outputs f l (listed files w) -> main (S d) (S fuel) f w = CExit 0 true w' ->
  forall x, listed files w x -> exists name text its, output_file (tool_options f x) l name /\
    get (clean name) (w_fs w') = Some (NFile (env_write name text)) /\
    holds_program l (o_package (tool_options f x)) (trees x) its text /\ tells_names l (trees x) its.
Proof.
  intros E d fuel f w w' files l trees Ht Hin Ha Hl Hfiles Hgood Hsep H x Hx.
  destruct (C50_outputs E d fuel f w w' files l trees Ha Hl Hfiles) with (x := x) as [name [text [H1 [H2 H3]]]]; try assumption.
  { intros y Hy. destruct (Hgood y Hy) as [Hd|Hs]; [now left|right]. rewrite <- Hl. now apply ordinary_schema in Hs. }
  exists name, text, (expected l (trees x)). split; [exact H1|]. split; [exact H3|].
  destruct Hx as [Hf [b Hb]]. destruct (Hgood x Hf) as [Hd|Hs]; [congruence|].
  pose proof (ordinary_unmarked l w x (trees x) Hs) as Hm. apply ordinary_schema in Hs as [_ [_ Hok]].
  split; [now apply text_program|]. exact (expected_names Ht (trees x) Hm l Hin).
Qed.
Print Assumptions C71_tool_partial.

(** So does a run on the root of a project, for all schemas that are needed. *)
Theorem C71_project_partial : forall (E : Env) d fuel f l P ext full w s, case_tables_ok -> In l [Go; Java; Rust] -> accepted f -> lname l = fl_l f ->
  let o := tool_options f (pr_root P) in
  coherent P -> SpecProject.declares (fl_l f) P ext full -> fl_i f = pr_root P -> project_files P w -> project_outputs o l P ->
  (forall file, separate_file P file -> can_write (options_for o P file) l w) ->
  (forall file, separate_file P file -> ~ unformatted l (o_package (options_for o P file)) (full file)) ->
  pr_schema P (pr_root P) = Some s -> length (include_locations s) < fuel -> S (pr_rank P (pr_root P)) < d ->
  ordinary_project (P := any_type) l P ->
  exists w', main d fuel f w = CExit 0 true w' /\
    forall g, needed (fl_l f) P ext full g -> exists name text its, output_file (options_for o P g) l name /\
      get (clean name) (w_fs w') = Some (NFile (env_write name text)) /\
      holds_program l (o_package (options_for o P g)) (full g) its text /\ tells_names l (full g) its.
Proof.
  intros E d fuel f l P ext full w s Ht Hin Ha Hl o Hc Hd Hi Hdisk Hout Hcan Hfmt Hs Hfuel Hdep Hp.
  destruct (C51_tool E d fuel f l P ext full w s) as [w' [H1 [_ [H2 _]]]]; try assumption. exists w'. split; [exact H1|].
  intros g Hg. pose proof (needed_separate _ _ _ _ _ Hg) as Hsep. destruct (H2 g Hg) as [name [text [G1 [G2 G3]]]].
  exists name, text, (expected l (full g)). split; [exact G1|]. split; [exact G3|].
  rewrite <- Hl in Hd. pose proof (project_good (Q := any_type) l P ext full Hc Hd Hp g Hsep) as Hg'.
  destruct (project_fine (Q := any_type) l P ext full Hc Hd Hp g Hsep) as [_ Hok].
  split; [now apply text_program|]. exact (expected_names Ht (full g) (tree_unmarked (P := any_type) l true (full g) Hg') l Hin).
Qed.
Print Assumptions C71_project_partial.

(** The files of C50_example ([ordinary_file]: C68_run). *)
Example C71_tool_example : let E := demo whole_docs first_choice in
  bindings Rust (expected Rust (whole_tree "in/a.xsd")) = [Field "left"; Field "right"] /\
  bindings Rust (expected Rust (whole_tree "in/sub/b.xsd")) =
    map Field ["Code"; "Codes"; "Any"; "Any"; "Any"; "lang"; "id"; "lang"; "kind"; "g1"; "g2"; "H"; "top"; "z"; "deep"; "Common"; "a"; "b"; "G";
               "w"; "x"; "y"; "inner"; "last"; "part"; "v"; "m"; "leaf"].
Proof. split; vm_compute; reflexivity. Qed.

(** The project of C51_example, in Java. *)
Definition java_ext (file : string) : list proto := tree_of (schema_in (resolve_in true "Java") max_occurs (decls_of file) []).
Definition java_with (full : string -> list proto) (file : string) : list proto :=
  tree_of (schema_in (stand_in "Java" four java_ext full ["c.xsd"] file) max_occurs (decls_of file) []).
Definition java_d : list proto := Eval vm_compute in java_with (fun _ => []) "in/d.xsd".
Definition java_b : list proto := Eval vm_compute in java_with (fun g => if string_dec g "in/d.xsd" then java_d else []) "in/b.xsd".
Definition java_a : list proto := Eval vm_compute in
  java_with (fun g => if string_dec g "in/d.xsd" then java_d else if string_dec g "in/b.xsd" then java_b else []) "in/a.xsd".
Definition java_full (g : string) : list proto :=
  if string_dec g "in/a.xsd" then java_a else if string_dec g "in/b.xsd" then java_b else if string_dec g "in/d.xsd" then java_d else [].

Example C71_project_example : let E := demo four_docs first_choice in
  coherent four /\ SpecProject.declares "Java" four java_ext java_full /\ ordinary_project (P := any_type) Java four /\
  bindings Java (expected Java (java_full "in/a.xsd")) = [Elem "code"; Elem "part"; Elem "n"; Elem "more"] /\
  bindings Java (expected Java (java_full "in/b.xsd")) = [Elem "again"].
Proof.
  intros E. split; [apply four_coherent|]. split; [|split].
  - constructor.
    + intros file s H. exists (resolve_in true "Java"), max_occurs. split; [apply resolve_in_resolution|]. split; [apply max_occurs_counts|].
      apply four_schema in H. cbn [four_files In] in H. repeat (destruct H as [H|H]; [injection H as <- <-; vm_compute; reflexivity|]). destruct H.
    + intros file s Hf H. exists (stand_in "Java" four java_ext java_full ["c.xsd"] file), max_occurs.
      split; [intros v tree; exact (stand_in_stands "Java" four java_ext java_full (snd (nth 0 four_files ("", mkSchema [] [] []))) file v tree eq_refl)|]. split; [apply max_occurs_counts|].
      apply four_separate in Hf. destruct Hf as [->|[->| ->]]; vm_compute in H; injection H as <-; vm_compute; reflexivity.
    + intros n x y b c Hx Hy Hb Hc. apply four_included in Hx, Hy. subst x y. apply TableProofs.get_base_first in Hb, Hc. congruence.
  - intros file s H. apply four_schema in H.
    assert (Hx : forallb (fun x => forallb (declaredb (fun _ _ => true) Java) (s_decls (snd x))) four_files = true) by (vm_compute; reflexivity).
    pose proof (proj1 (forallb_forall _ _) Hx _ H) as Hy. cbn [snd] in Hy.
    split; [exact (schema_check (E := demo four_docs first_choice) (P := any_type) (fun _ _ => true) (fun _ _ _ => I) Java (s_decls s) Hy)|].
    cbn [four_files In] in H. repeat (destruct H as [H|H]; [injection H as <- <-; repeat constructor|]). destruct H.
  - split; vm_compute; reflexivity.
Qed.
