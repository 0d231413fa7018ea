(** Property theorems about running the tool again: C57. *)

From Coq Require Import String Ascii List Arith NArith ZArith Bool Lia.
From Verif Require Import GoStr GoPath Base Utils World Handlers Parser Cli SpecDoc SpecTables SpecGen SpecOut SpecFile SpecParse SpecCli
  SpecDecl SpecWhole SpecLocal StrLemmas DocLemmas PathProofs ParserProofs ParseFacts FileProofs CliProofs DeclProofs WholeProofs OutputProofs TreeProofs
  AgainProofs Demo PropertiesDecl PropertiesCli PropertiesWhole PropertiesOutput.
Import ListNotations.
Local Open Scope string_scope.

(** After a successful run over schema files whose outputs are separate, a second
    run over the same files succeeds and changes nothing. *)
Theorem C57_again : forall (E : Env) d fuel d' fuel' f w w' files l trees, accepted f -> lname l = fl_l f -> tree_shaped (w_fs w) ->
  get_file_list (fl_i f) w = Some files ->
  (forall x, In x files -> stat x w = SDir \/ schema_file (fl_l f) w x (trees x)) ->
  separate_outputs f l (listed files w) ->
  main (S d) (S fuel) f w = CExit 0 true w' -> get_file_list (fl_i f) w' = Some files ->
  exists w'', main (S d') (S fuel') f w' = CExit 0 true w'' /\ forall c, get c (w_fs w'') = get c (w_fs w').
Proof.
  intros E d fuel d' fuel' f w w' files l trees Ha Hl Ht Hfiles Hgood Hsep H Hfiles'.
  assert (Hg : forall y, In y files -> good f trees (listed files w) w y).
  { intros y Hy. destruct (Hgood y Hy) as [Hd|Hs]; [now left|right]. split; [|exact Hs].
    split; [exact Hy|]. destruct Hs as [c [_ [_ [_ [_ [Hs _]]]]]]. now exists c. }
  pose proof (C28_files E (S d) (S fuel) f w files Ha Hfiles) as Hr. rewrite H in Hr.
  destruct Hr as [[_ [_ Hr]]|[[H0 _]|[H0 _]]]; [|discriminate|discriminate].
  pose proof (all_there d fuel f l trees (listed files w) Hl Hsep files w w' Hr Hg) as Hth.
  destruct Ha as [H1 [H2 [H3 H4]]]. rewrite main_accepted in H |- * by assumption. rewrite Hfiles in H. rewrite Hfiles'.
  destruct (tool_run d fuel f l trees (listed files w) Hl Hsep files w Hg) as [Hs _]. rewrite H in Hs.
  apply (run_again d' fuel' f l trees (listed files w) Hl Hsep files w').
  - pose proof (main_kept tree_shaped prepare_tree create_tree (S d) (S fuel) f w Ht) as Hk.
    rewrite main_accepted, Hfiles, H in Hk by assumption. exact Hk.
  - intros y Hy. apply (steps_good f l trees (listed files w) Hsep w); [exact Hs|now apply Hg].
  - intros y b Hy Hb. destruct (Hg y Hy) as [Hd|[_ [b0 [_ [_ [_ [_ [H0 _]]]]]]]]; [|now apply (Hth y b0)].
    apply (steps_stat_dir (tool_options f) l (listed files w) w w' _ Hs) in Hd. congruence.
Qed.
Print Assumptions C57_again.

(** The run leaves the list of files as it is, if the input directory can be
    read and is apart from the output directory. *)
Theorem C57_list : forall (E : Env) d fuel f w files l trees, accepted f -> lname l = fl_l f ->
  tree_shaped (w_fs w) -> stat (fl_i f) w = SDir -> fl_o f <> "" ->
  fl_i f <> "." -> fl_i f = clean (fl_i f) \/ fl_i f = clean (fl_i f) ++ "/" ->
  get_file_list (fl_i f) w = Some files -> (forall x, listed files w x -> no_part_ends (extension l) x) ->
  (forall x, In x files -> stat x w = SDir \/ schema_file (fl_l f) w x (trees x)) ->
  readable (fl_i f) -> apart (fl_i f) (fl_o f) ->
  match main (S d) (S fuel) f w with CExit _ _ w' | CNoFuel w' => get_file_list (fl_i f) w' = Some files end.
Proof.
  intros E d fuel f w files l trees Ha Hl Ht Hd Ho Hdot Hcl Hf Hext Hgood Hread Hapart.
  pose proof (C55_separate E f w files l Ht Hd Ho Hdot Hcl Hf Hext) as Hsep.
  pose proof (C50_nothing_else E d fuel f w files l trees Ha Hl Hf Hgood Hsep) as Hn.
  pose proof (main_kept tree_shaped prepare_tree create_tree (S d) (S fuel) f w Ht) as Hk.
  assert (Hmain : forall w', tree_shaped (w_fs w') ->
    (forall c, get c (w_fs w') = get c (w_fs w) \/ exists x, listed files w x /\
      ((exists p, output_place (tool_options f x) p /\ In c (lineage (dir p)) /\ get c (w_fs w) = None /\ get c (w_fs w') = Some NDir) \/
       (exists name b, output_file (tool_options f x) l name /\ c = clean name /\ get c (w_fs w) <> Some NDir /\
          get c (w_fs w') = Some (NFile b)))) -> get_file_list (fl_i f) w' = Some files).
  { intros w' Ht' Hc. rewrite <- Hf. apply same_list; auto.
    - unfold stat, lookup in *. destruct (env_stat_fail (fl_i f)); [discriminate|]. destruct (String.eqb (fl_i f) ""); [discriminate|].
      destruct (implicit_dir (clean (fl_i f))); [reflexivity|].
      destruct (Hc (clean (fl_i f))) as [->|[x [_ [[p [_ [_ [_ ->]]]]|[n [b [_ [_ [Hx _]]]]]]]]]; [|reflexivity|].
      + destruct (get (clean (fl_i f)) (w_fs w)) as [[|b]|]; [reflexivity|discriminate|destruct (existsb _ _); discriminate].
      + exfalso. destruct (get (clean (fl_i f)) (w_fs w)) as [[|b']|]; [now elim Hx|discriminate|destruct (existsb _ _); discriminate].
    - intros k Hi. destruct (Hapart k Hi) as [A1 A2].
      destruct (Hc k) as [->|[x [[Hx [b Hb]] [[p [Hp [Hin _]]]|[n [b' [Hn' [-> _]]]]]]]]; [reflexivity|exfalso|exfalso].
      + now destruct (made_dirs f w files x b p k Ht Hd Ho Hdot Hcl Hf Hx Hb Hp Hin).
      + apply A1. now apply (tool_inside f w files x b l n). }
  destruct (main (S d) (S fuel) f w) as [code done w'|w']; now apply Hmain.
Qed.
Print Assumptions C57_list.

(** Running the tool twice is running it once. *)
Theorem C57_twice : forall (E : Env) d fuel d' fuel' f w w' files l trees, accepted f -> lname l = fl_l f ->
  tree_shaped (w_fs w) -> stat (fl_i f) w = SDir -> fl_o f <> "" ->
  fl_i f <> "." -> fl_i f = clean (fl_i f) \/ fl_i f = clean (fl_i f) ++ "/" ->
  get_file_list (fl_i f) w = Some files -> (forall x, listed files w x -> no_part_ends (extension l) x) ->
  (forall x, In x files -> stat x w = SDir \/ schema_file (fl_l f) w x (trees x)) ->
  readable (fl_i f) -> apart (fl_i f) (fl_o f) ->
  main (S d) (S fuel) f w = CExit 0 true w' ->
  exists w'', main (S d') (S fuel') f w' = CExit 0 true w'' /\ forall c, get c (w_fs w'') = get c (w_fs w').
Proof.
  intros E d fuel d' fuel' f w w' files l trees Ha Hl Ht Hd Ho Hdot Hcl Hf Hext Hgood Hread Hapart H.
  apply (C57_again E d fuel d' fuel' f w w' files l trees); auto; [now apply C55_separate|].
  pose proof (C57_list E d fuel f w files l trees Ha Hl Ht Hd Ho Hdot Hcl Hf Hext Hgood Hread Hapart) as Hk. now rewrite H in Hk.
Qed.
Print Assumptions C57_twice.

Example C57_example :
  let E := demo whole_docs first_choice in
  readable "in/" /\ apart "in/" "gen/rust" /\
  exists w' w'', main 1 1 fresh_flags whole_world = CExit 0 true w' /\ main 1 1 fresh_flags w' = CExit 0 true w'' /\
    length (keys (w_fs w')) = 11 /\ get_file_list "in/" w' = Some whole_entries /\ w_fs w'' = w_fs w'.
Proof.
  intros E. split; [intros p _; split; reflexivity|]. split.
  - intros k [r1 [_ [_ [_ Hk]]]]. change (clean k = "in/" ++ r1) in Hk. split.
    + intros [r2 [_ [_ [_ Hk2]]]]. change (clean k = "gen/rust/" ++ r2) in Hk2. rewrite Hk in Hk2. discriminate.
    + intros Hin. pose proof (lineage_clean _ _ Hin) as Hc. rewrite Hk in Hc. vm_compute in Hin. subst k. destruct Hin as [H|[H|[]]]; discriminate.
  - eexists. eexists. split; [vm_compute; reflexivity|]. split; [vm_compute; reflexivity|].
    split; [vm_compute; reflexivity|]. split; vm_compute; reflexivity.
Qed.

(** Into the input directory, the second run takes the outputs of the first for
    schemas.  For a C header the output is the header itself: its declarations
    are lost. *)
Example C57_in_place_refuted :
  let E := demo lost_docs first_choice in
  let f := mkFlags "in" "in" "" "C" false false in
  let w := mkW [("in", NDir); ("in/a.xsd", NFile "A")] [] [] [] [] [] 0 [] in
  exists w' w'' b b', main 1 1 f w = CExit 0 true w' /\ main 1 1 f w' = CExit 0 true w'' /\
    get "in/a.xsd.h" (w_fs w') = Some (NFile b) /\ GoStr.contains b "First" = true /\
    get "in/a.xsd.h" (w_fs w'') = Some (NFile b') /\ GoStr.contains b' "First" = false.
Proof. cbv zeta. do 4 eexists. do 5 (split; [vm_compute; reflexivity|]). vm_compute; reflexivity. Qed.
