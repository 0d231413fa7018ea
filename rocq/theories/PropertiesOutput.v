(** Property theorems about the names of output files and the tree of files:
    C55 and C56. *)

From Coq Require Import String Ascii List Arith NArith ZArith Bool Lia.
From Verif Require Import GoStr GoPath Base Utils World Handlers Parser Cli SpecDoc SpecTables SpecGen SpecOut SpecFile SpecParse SpecCli
  SpecDecl SpecWhole SpecLocal StrLemmas DocLemmas ParserProofs ParseFacts FileProofs CliProofs DeclProofs WholeProofs OutputProofs TreeProofs
  Demo PropertiesDecl PropertiesCli PropertiesWhole.
Import ListNotations.
Local Open Scope string_scope.

(** A run over a directory named by a clean path (a trailing slash is allowed):
    if no name in the paths of the files ends with the extension of the output,
    no output is an input, the output of two files or a directory above an
    output. *)
Theorem C55_separate : forall (E : Env) f w files l, tree_shaped (w_fs w) -> stat (fl_i f) w = SDir -> fl_o f <> "" ->
  fl_i f <> "." -> fl_i f = clean (fl_i f) \/ fl_i f = clean (fl_i f) ++ "/" ->
  get_file_list (fl_i f) w = Some files -> (forall x, listed files w x -> no_part_ends (extension l) x) ->
  separate_outputs f l (listed files w).
Proof. intros E. exact outputs_separate. Qed.
Print Assumptions C55_separate.

(** Into a fresh directory, without faults of the file system: every schema file
    gets its program and the tool exits with 0, unless gofmt rejects a program. *)
Theorem C55_fresh_output : forall (E : Env) d fuel f w files l trees, accepted f -> lname l = fl_l f ->
  tree_shaped (w_fs w) -> stat (fl_i f) w = SDir -> fl_o f <> "" ->
  fl_i f <> "." -> fl_i f = clean (fl_i f) \/ fl_i f = clean (fl_i f) ++ "/" ->
  get_file_list (fl_i f) w = Some files -> (forall x, listed files w x -> no_part_ends (extension l) x) ->
  (forall x, In x files -> stat x w = SDir \/ schema_file (fl_l f) w x (trees x)) ->
  no_faults -> fresh_directory (fl_o f) w ->
  (forall x, In x files -> ~ unformatted l (o_package (tool_options f x)) (trees x)) ->
  exists w', main (S d) (S fuel) f w = CExit 0 true w' /\
    forall x, listed files w x -> exists name text, output_file (tool_options f x) l name /\
      file_text l (o_package (tool_options f x)) (trees x) text true /\ get (clean name) (w_fs w') = Some (NFile (env_write name text)).
Proof.
  intros E d fuel f w files l trees Ha Hl Ht Hd Ho Hdot Hcl Hf Hext Hgood Hnf Hfresh Hfmt.
  pose proof (C55_separate E f w files l Ht Hd Ho Hdot Hcl Hf Hext) as Hsep.
  pose proof (fresh_can_write f w files l Ht Hd Ho Hdot Hcl Hf Hext Hnf Hfresh) as Hcan.
  destruct (C50_succeeds E d fuel f w files l trees Ha Hl Hf Hgood Hsep Hcan) as [w' [H|[x [Hx [Hu _]]]]]; [|now elim (Hfmt x Hx)].
  exists w'. split; [exact H|]. intros x Hx. now apply (C50_outputs E d fuel f w w' files l trees).
Qed.
Print Assumptions C55_fresh_output.

(** The two schemas of C50 into a directory that does not exist yet. *)
Definition fresh_flags : flags := mkFlags "in/" "gen/rust" "" "Rust" false false.

Definition whole_entries : list string := ["in/"; "in/a.xsd"; "in/sub"; "in/sub/b.xsd"; "in/"].

Lemma whole_tree_shaped : forall (E := demo whole_docs first_choice), tree_shaped (w_fs whole_world).
Proof.
  intros E. split.
  - cbn. repeat constructor; cbn; intuition discriminate.
  - intros k Hk. cbn in Hk. repeat (destruct Hk as [<-|Hk]; [repeat split; vm_compute; intuition (subst; congruence || reflexivity)|]). destruct Hk.
Qed.

Example C55_example :
  let E := demo whole_docs first_choice in
  get_file_list "in/" whole_world = Some whole_entries /\ tree_shaped (w_fs whole_world) /\ stat "in/" whole_world = SDir /\
  (forall x, listed whole_entries whole_world x -> no_part_ends (extension Rust) x) /\ no_faults /\ fresh_directory "gen/rust" whole_world /\
  exists w', main 1 1 fresh_flags whole_world = CExit 0 true w' /\ get "gen/rust/a.xsd.rs" (w_fs w') = Some (NFile pair_program) /\
    get "gen/rust/sub" (w_fs w') = Some NDir /\ tree_shaped (w_fs w').
Proof.
  intros E. split; [vm_compute; reflexivity|]. split; [exact whole_tree_shaped|]. split; [vm_compute; reflexivity|]. split.
  { intros x Hx c Hc He. assert (Hends : has_suffix c ".rs" = true) by (apply has_suffix_spec; destruct He as [p ->]; now exists p). clear He.
    destruct Hx as [Hx _]. cbn in Hx. repeat (destruct Hx as [<-|Hx]; [vm_compute in Hc; intuition (subst; discriminate)|]). destruct Hx. }
  split; [intros p; repeat split|]. split.
  { split.
    - intros a b Ha. vm_compute in Ha. intuition (subst; discriminate).
    - intros c Hc. destruct (get c (w_fs whole_world)) eqn:Hg; [exfalso|reflexivity].
      assert (Hin : In c (keys (w_fs whole_world))) by (apply keys_get; congruence).
      destruct Hc as [rest [_ [_ [_ Hc]]]]. assert (Hcc : clean c = c) by (destruct whole_tree_shaped as [_ Hk]; now apply Hk).
      rewrite Hcc in Hc. change (c = "gen/rust/" ++ rest) in Hc. subst c. cbn in Hin. intuition discriminate. }
  eexists. split; [vm_compute; reflexivity|]. split; [vm_compute; reflexivity|]. split; [vm_compute; reflexivity|].
  split.
  - cbn. repeat constructor; cbn; intuition discriminate.
  - intros k Hk. cbn in Hk. repeat (destruct Hk as [<-|Hk]; [repeat split; vm_compute; intuition (subst; congruence || reflexivity)|]). destruct Hk.
Qed.

(** The input "." : the leading dot of a hidden file is lost, and its program is
    overwritten by that of another file. *)
Definition lost_docs : smap (list token) :=
  [("A", d_schema [] [TStart "complexType" [att "name" "First"]; TEnd "complexType"]);
   ("B", d_schema [] [TStart "complexType" [att "name" "Second"]; TEnd "complexType"])].

Definition hidden_world : World := mkW [(".x.xsd", NFile "A"); ("x.xsd", NFile "B")] [] [] [] [] [] 0 [].

Example C55_hidden_refuted :
  let E := demo lost_docs first_choice in
  exists w', main 1 1 (mkFlags "." "out" "" "C" false false) hidden_world = CExit 0 true w' /\
    get_file_list "." hidden_world = Some ["."; ".x.xsd"; "x.xsd"; "."] /\ tree_shaped (w_fs hidden_world) /\
    (forall n, output_file (tool_options (mkFlags "." "out" "" "C" false false) ".x.xsd") C n -> n = "out/x.xsd.h") /\
    (forall n, output_file (tool_options (mkFlags "." "out" "" "C" false false) "x.xsd") C n -> n = "out/x.xsd.h") /\
    keys (w_fs w') = [".x.xsd"; "x.xsd"; "out"; "out/x.xsd.h"] /\ exists b, get "out/x.xsd.h" (w_fs w') = Some (NFile b) /\
      GoStr.contains b "Second" = true /\ GoStr.contains b "First" = false.
Proof.
  intros E. eexists. split; [vm_compute; reflexivity|]. split; [vm_compute; reflexivity|]. split.
  { split; [cbn; repeat constructor; cbn; intuition discriminate|]. intros k Hk. cbn in Hk.
    repeat (destruct Hk as [<-|Hk]; [repeat split; vm_compute; intuition (subst; congruence || reflexivity)|]). destruct Hk. }
  split; [intros n H; apply output_file_spec in H; vm_compute in H; exact H|].
  split; [intros n H; apply output_file_spec in H; vm_compute in H; exact H|].
  split; [vm_compute; reflexivity|]. eexists. split; [vm_compute; reflexivity|].
  split; vm_compute; reflexivity.
Qed.

(** A file whose name ends with the extension of the output: its program
    overwrites that of another file. *)
Definition ended_world : World := mkW [("in", NDir); ("in/a", NFile "A"); ("in/a.h", NFile "B")] [] [] [] [] [] 0 [].

Example C55_extension_refuted :
  let E := demo lost_docs first_choice in
  exists w', main 1 1 (mkFlags "in" "out" "" "C" false false) ended_world = CExit 0 true w' /\
    get_file_list "in" ended_world = Some ["in"; "in/a"; "in/a.h"; "in"] /\
    keys (w_fs w') = ["in"; "in/a"; "in/a.h"; "out"; "out/a.h"] /\ exists b, get "out/a.h" (w_fs w') = Some (NFile b) /\
      GoStr.contains b "Second" = true /\ GoStr.contains b "First" = false.
Proof.
  intros E. eexists. split; [vm_compute; reflexivity|]. split; [vm_compute; reflexivity|].
  split; [vm_compute; reflexivity|]. eexists. split; [vm_compute; reflexivity|].
  split; vm_compute; reflexivity.
Qed.

(** A directory whose name ends with the extension of the output: the run fails,
    though every file can be read and the output directory is fresh. *)
Definition clash_world : World :=
  mkW [("in", NDir); ("in/a", NFile "A"); ("in/a.h", NDir); ("in/a.h/b", NFile "B")] [] [] [] [] [] 0 [].

Example C55_directory_refuted :
  let E := demo lost_docs first_choice in
  exists w', main 1 1 (mkFlags "in" "out" "" "C" false false) clash_world = CExit 1 false w' /\
    get_file_list "in" clash_world = Some ["in"; "in/a"; "in/a.h"; "in/a.h/b"; "in"] /\
    keys (w_fs w') = ["in"; "in/a"; "in/a.h"; "in/a.h/b"; "out"; "out/a.h"].
Proof. intros E. eexists. split; [vm_compute; reflexivity|]. split; vm_compute; reflexivity. Qed.

(** A file system that is a tree (every name once, under directories only) is one
    after Parse and after the tool, however they end. *)
Theorem C56_tree_parse : forall (E : Env) d fuel o w, tree_shaped (w_fs w) -> tree_shaped (w_fs (out_world (parse d fuel o w))).
Proof. intros E. exact parse_tree. Qed.
Print Assumptions C56_tree_parse.

Theorem C56_tree : forall (E : Env) d fuel args w, tree_shaped (w_fs w) ->
  match run d fuel args w with CExit _ _ w' | CNoFuel w' => tree_shaped (w_fs w') end.
Proof. intros E. exact run_tree. Qed.
Print Assumptions C56_tree.

(** Every place that was a directory is one afterwards, and every file is a
    file. *)
Theorem C56_kinds : forall (E : Env) d fuel args w c,
  match run d fuel args w with CExit _ _ w' | CNoFuel w' =>
    (lookup (w_fs w) c = SDir -> lookup (w_fs w') c = SDir) /\
    (forall b, get c (w_fs w) = Some (NFile b) -> exists b', get c (w_fs w') = Some (NFile b'))
  end.
Proof. intros E d fuel args w c. pose proof (run_kinds d fuel args w) as H. destruct (run d fuel args w); apply H. Qed.
Print Assumptions C56_kinds.

(** Two runs one after the other, the second over the output of the first (not
    XML, so no components are found in it). *)
Example C56_example :
  let E := demo whole_docs first_choice in
  tree_shaped (w_fs whole_world) /\
  exists w1 w2, run 1 1 ["-i"; "in"; "-o"; "gen/c"; "-l"; "C"] whole_world = CExit 0 true w1 /\
    run 1 1 ["-i=gen"; "-o=gen/ts/deep"; "-l=TypeScript"] w1 = CExit 0 true w2 /\
    keys (w_fs w2) = ["in"; "in/a.xsd"; "in/sub"; "in/sub/b.xsd"; "out"; "out/old"; "gen"; "gen/c"; "gen/c/a.xsd.h"; "gen/c/sub"; "gen/c/sub/b.xsd.h";
      "gen/ts"; "gen/ts/deep"; "gen/ts/deep/c"; "gen/ts/deep/c/a.xsd.h.ts"; "gen/ts/deep/c/sub"; "gen/ts/deep/c/sub/b.xsd.h.ts"].
Proof.
  intros E. split; [exact whole_tree_shaped|]. eexists. eexists. split; [vm_compute; reflexivity|]. split; vm_compute; reflexivity.
Qed.
