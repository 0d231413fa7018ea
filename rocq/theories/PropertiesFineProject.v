(** Property theorems: C68 for projects of schemas that import and include each other. *)

From Coq Require Import String Ascii List NArith Bool.
From Verif Require Import GoStr GoPath Utf8 Base Utils SpecStr SpecDoc SpecTables World Handlers Parser Cli SpecParse SpecGen SpecOut SpecFile SpecCli SpecDecl SpecWhole
  SpecProject SpecSyntax SpecClosed SpecFine StrProofs DeclProofs WholeProofs SyntaxProofs SyntaxDecls SyntaxCheck ClosedProofs ClosedCheck FineProofs FineProject FineCheck
  Demo PropertiesDecl PropertiesCli PropertiesWhole PropertiesProject.
Import ListNotations.
Local Open Scope string_scope.

(** The components of every schema of a project with ordinary names and types
    have ordinary names and types, wherever these are declared. *)
Theorem C68_project_components : forall (E : Env) (Q : Pool) l P ext full, coherent P -> SpecProject.declares (lname l) P ext full ->
  ordinary_project l P -> forall file, separate_file P file -> tree_fine l (full file) /\ tree_ok (full file).
Proof. intros E Q l P ext full Hc Hd Hp. exact (project_fine l P ext full Hc Hd Hp). Qed.
Print Assumptions C68_project_components.

(** A run on the root of such a project leaves well-formed programs for all
    schemas that are needed.  Missing: what the generators cannot handle
    ([manageable], see C64) and declared attributes without type. *)
Theorem C68_project_partial : forall (E : Env) d fuel f l P ext full w s, case_tables_ok -> upper_idempotent E -> accepted f -> lname l = fl_l f ->
  let o := tool_options f (pr_root P) in
  coherent P -> SpecProject.declares (fl_l f) P ext full -> fl_i f = pr_root P -> project_files P w -> project_outputs o l P ->
  (forall file, separate_file P file -> can_write (options_for o P file) l w) ->
  (forall file, separate_file P file -> ~ unformatted l (o_package (options_for o P file)) (full file)) ->
  pr_schema P (pr_root P) = Some s -> length (include_locations s) < fuel -> S (pr_rank P (pr_root P)) < d ->
  ordinary_project (P := any_type) l P -> (forall file, separate_file P file -> Forall (manageable l (full file)) (full file)) ->
  exists w', main d fuel f w = CExit 0 true w' /\
    forall g, needed (fl_l f) P ext full g -> exists name text its, output_file (options_for o P g) l name /\
      get (clean name) (w_fs w') = Some (NFile (env_write name text)) /\
      holds_program l (o_package (options_for o P g)) (full g) its text /\ program (S := any_name) l its.
Proof.
  intros E d fuel f l P ext full w s Ht Hu Ha Hl o Hc Hd Hi Hdisk Hout Hcan Hfmt Hs Hfuel Hdep Hp Hm.
  destruct (C51_tool E d fuel f l P ext full w s) as [w' [H1 [_ [H2 _]]]]; try assumption. exists w'. split; [exact H1|].
  intros g Hg. pose proof (needed_separate _ _ _ _ _ Hg) as Hsep. destruct (H2 g Hg) as [name [text [G1 [G2 G3]]]]. exists name, text, (expected l (full g)). split; [exact G1|]. split; [exact G3|].
  rewrite <- Hl in Hd. destruct (project_fine (Q := any_type) l P ext full Hc Hd Hp g Hsep) as [Hf Hok].
  split; [now apply text_program|]. apply (expected_program (S := any_name) (P := any_type)); try assumption; try (intros; exact I). now apply Hm.
Qed.
Print Assumptions C68_project_partial.

(** If the types that remain are components of the project, then its programs
    together declare the types that they use. *)
Theorem C68_project_closed_partial : forall (E : Env) l P full, case_tables_ok -> upper_idempotent E ->
  (forall g, separate_file P g -> tree_fine (P := project_components P full) l (full g) /\ Forall (manageable l (full g)) (full g) /\
     (l = Java -> no_group_attributes (full g))) ->
  exists names, forall g, separate_file P g -> exists ds, expected l (full g) = concat (map snd ds) /\ map fst ds = names g /\
    Forall (fun d => declaration (S := fun l' s => l' = l -> In s (standard l) \/ exists h, separate_file P h /\ In s (names h)) l (fst d) (snd d)) ds.
Proof.
  intros E l P full Ht Hu H. exists (fun g => declared_names l (full g)). intros g Hg. destruct (H g Hg) as [H1 [H2 H3]].
  apply (expected_within Ht Hu (project_components P full) (fun s => exists h, separate_file P h /\ In s (declared_names l (full h))) l (full g)); try assumption.
  intros t Hn Hcol [h [Hh Ht']]. exists h. split; [exact Hh|]. now apply component_declared.
Qed.
Print Assumptions C68_project_closed_partial.

(** The project of C51_example: the types that its programs use are declared by
    the three programs together, [More] by another one than uses it. *)
Lemma four_project : forall (E := demo four_docs first_choice), ordinary_project (P := any_type) TypeScript four.
Proof.
  intros E file s H. apply four_schema in H.
  assert (Hx : forallb (fun x => forallb (declaredb (fun _ _ => true) TypeScript) (s_decls (snd x))) four_files = true) by (vm_compute; reflexivity).
  pose proof (proj1 (forallb_forall _ _) Hx _ H) as Hy. cbn [snd] in Hy.
  split; [exact (schema_check (E := E) (P := any_type) (fun _ _ => true) (fun _ _ _ => I) TypeScript (s_decls s) Hy)|].
  cbn [four_files In] in H. repeat (destruct H as [H|H]; [injection H as <- <-; repeat constructor|]). destruct H.
Qed.

Example C68_project_example : let E := demo four_docs first_choice in
  ordinary_project (P := any_type) TypeScript four /\
  forall g, separate_file four g -> tree_fine (P := project_components four four_full) TypeScript (four_full g) /\
    Forall (manageable TypeScript (four_full g)) (four_full g) /\ no_group_attributes (four_full g).
Proof.
  cbv zeta. split; [apply four_project|]. intros g Hg.
  set (pb := fun l t => existsb (fun pt => poolb pt l t) [four_a; four_b; four_d]).
  assert (Hpb : forall l t, pb l t = true -> project_components four four_full l t).
  { intros l t H. apply existsb_exists in H as [pt [Hin H]]. apply poolb_ok in H. destruct Hin as [<-|[<-|[<-|[]]]].
    - exists "in/a.xsd". split; [now left | exact H].
    - exists "in/b.xsd". split; [right; now exists "urn:b", "b.xsd" | exact H].
    - exists "in/d.xsd". split; [right; now exists "urn:d", "d.xsd" | exact H]. }
  assert (Hall : forall pt, In pt [four_a; four_b; four_d] -> tree_fine (E := demo four_docs first_choice) (P := project_components four four_full) TypeScript pt /\
    Forall (manageable (E := demo four_docs first_choice) TypeScript pt) pt /\ no_group_attributes pt).
  { intros pt Hpt.
    assert (Hx : forallb (fun pt => forallb (fineb (E := demo four_docs first_choice) pb TypeScript) pt && forallb (manageb (E := demo four_docs first_choice) TypeScript pt) pt &&
      forallb (fun p => match p with PAttrGroup _ => false | _ => true end) pt) [four_a; four_b; four_d] = true) by (vm_compute; reflexivity).
    pose proof (proj1 (forallb_forall _ _) Hx _ Hpt) as Hy. cbv beta in Hy. apply andb_true_iff in Hy as [Hy H3]. apply andb_true_iff in Hy as [H1 H2].
    destruct (check_ok (E := demo four_docs first_choice) (P := project_components four four_full) pb Hpb TypeScript pt H1 H2) as [G1 G2].
    split; [exact G1|]. split; [exact G2|]. intros v Hv. pose proof (proj1 (forallb_forall _ _) H3 _ Hv) as Hz. discriminate. }
  apply four_separate in Hg. destruct Hg as [->|[->| ->]]; apply Hall; cbn [In]; auto.
Qed.
