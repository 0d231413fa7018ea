(** Property theorems about the command line tool: C26, C28, C42, C49. *)

From Coq Require Import String Ascii List Arith NArith Bool Lia Sorted.
From Verif Require Import GoStr GoPath Base Utils World Handlers Parser Cli SpecTables SpecGen SpecOut SpecFile SpecParse SpecCli FileProofs CliProofs StrLemmas Demo.
Import ListNotations.
Local Open Scope string_scope.

(** ** C28 *)

Theorem C28_help_version : forall (E : Env) d fuel f w, fl_h f = true \/ fl_v f = true ->
  main d fuel f w = CExit 0 false w.
Proof.
  intros E d fuel f w H. unfold main. rewrite parse_flags_spec. replace (fl_h f || fl_v f) with true; [reflexivity|].
  symmetry. apply orb_true_iff. exact H.
Qed.
Print Assumptions C28_help_version.

Theorem C28_rejected : forall (E : Env) d fuel f w, fl_h f = false -> fl_v f = false ->
  fl_i f = "" \/ ~ In (fl_l f) ["Go"; "C"; "Java"; "Rust"; "TypeScript"] ->
  main d fuel f w = CExit 1 false w.
Proof.
  intros E d fuel f w Hh Hv H. unfold main. rewrite parse_flags_spec, Hh, Hv. cbn [orb].
  destruct H as [-> | H]; [reflexivity|]. rewrite orb_comm.
  replace (in_set (fl_l f) support_lang) with false; [reflexivity|]. symmetry. apply not_true_iff_false. now rewrite in_set_In.
Qed.
Print Assumptions C28_rejected.

(** Accepted flags. *)
Definition accepted (f : flags) : Prop :=
  fl_h f = false /\ fl_v f = false /\ fl_i f <> "" /\ In (fl_l f) ["Go"; "C"; "Java"; "Rust"; "TypeScript"].

Theorem C28_missing_input : forall (E : Env) d fuel f w, accepted f ->
  (forall b, stat (fl_i f) w <> SFile b) -> stat (fl_i f) w <> SDir -> main d fuel f w = CExit 1 false w.
Proof.
  intros E d fuel f w [H1 [H2 [H3 H4]]] Hf Hd. rewrite main_accepted by assumption. unfold get_file_list.
  destruct (stat (fl_i f) w) as [|b| |]; [now elim Hd | now elim (Hf b) | reflexivity | reflexivity].
Qed.
Print Assumptions C28_missing_input.

(** "done" is printed, with exit code 0, exactly when all files succeed; the
    first failure ends the run and decides the exit code.  [CNoFuel] is the
    model's budget, see C28_terminates. *)
Theorem C28_files : forall (E : Env) d fuel f w files, accepted f -> get_file_list (fl_i f) w = Some files ->
  match main d fuel f w with
  | CExit code done w' =>
      (code = 0 /\ done = true /\ all_parsed d fuel f files w w') \/
      (code = 1 /\ done = false /\ stopped_at d fuel f files w (fun r => (exists e, r = Fail e w') \/ r = Crash Exit1 w')) \/
      (code = 2 /\ done = false /\ stopped_at d fuel f files w (fun r => r = Crash Panic w'))
  | CNoFuel w' => stopped_at d fuel f files w (fun r => r = Crash NoFuel w')
  end.
Proof.
  intros E d fuel f w files [H1 [H2 [H3 H4]]] Hfiles. rewrite main_accepted by assumption. rewrite Hfiles.
  pose proof (process_ends d fuel f files w) as H.
  destruct (process d fuel (tool_config f) files w) as [[|[|[|n]]] [] w'|w']; try contradiction; auto.
Qed.
Print Assumptions C28_files.

(** A failing file stops the run: the world is the one that this file's parse
    left, so nothing was done for the files behind it. *)
Theorem C28_first_failure : forall (E : Env) d fuel f w before file after w1 e w2, accepted f ->
  get_file_list (fl_i f) w = Some (before ++ file :: after)%list -> all_parsed d fuel f before w w1 ->
  parse d fuel (tool_options f file) (with_new_maps w1) = Fail e w2 -> main d fuel f w = CExit 1 false w2.
Proof.
  intros E d fuel f w before file after w1 e w2 [H1 [H2 [H3 H4]]] Hfiles Hbefore Hfail.
  rewrite main_accepted by assumption. rewrite Hfiles. clear Hfiles.
  induction Hbefore as [w|x before w p w1 w3 Hp _ IH]; cbn [app process].
  - change (file_options (tool_config f) file) with (tool_options f file). change (fresh_maps w) with (with_new_maps w).
    now rewrite Hfail.
  - change (file_options (tool_config f) x) with (tool_options f x). change (fresh_maps w) with (with_new_maps w).
    rewrite Hp. now apply IH.
Qed.
Print Assumptions C28_first_failure.

(** There is always a budget that suffices. *)
Theorem C28_terminates : forall (E : Env) f w, exists D F r, (forall w', r <> CNoFuel w') /\
  forall d fuel, D <= d -> F <= fuel -> main d fuel f w = r.
Proof.
  intros E f w. unfold main. rewrite parse_flags_spec.
  destruct (fl_h f || fl_v f); [exists 0, 0, (CExit 0 false w); split; [discriminate|reflexivity]|].
  destruct (String.eqb (fl_i f) "" || negb (in_set (fl_l f) support_lang)); [exists 0, 0, (CExit 1 false w); split; [discriminate|reflexivity]|].
  cbn [cf_i]. destruct (get_file_list (fl_i f) w) as [files|]; [|exists 0, 0, (CExit 1 false w); split; [discriminate|reflexivity]].
  exact (process_terminates f files w).
Qed.
Print Assumptions C28_terminates.

(** Exit code 2 needs a document on which Parse panics (see C20). *)
Theorem C28_no_panic : forall (E : Env),
  (forall path s, SpecDoc.fits 0 false (env_tokens (env_write path s))) ->
  forall d fuel f w, (forall path b, get path (w_fs w) = Some (NFile b) -> SpecDoc.fits 0 false (env_tokens b)) ->
  forall done w', main d fuel f w <> CExit 2 done w'.
Proof.
  intros E Hwr d fuel f w Hw done w'. unfold main. rewrite parse_flags_spec.
  destruct (fl_h f || fl_v f); [discriminate|].
  destruct (String.eqb (fl_i f) "" || negb (in_set (fl_l f) support_lang)); [discriminate|].
  cbn [cf_i]. destruct (get_file_list (fl_i f) w) as [files|]; [|discriminate].
  now apply (process_no_panic Hwr).
Qed.
Print Assumptions C28_no_panic.

(** Arguments in any order and spelling give the flags; what follows is the run
    with these flags. *)
Theorem C28_arguments : forall (E : Env) d fuel set args w, written_flags set args ->
  run d fuel args w = main d fuel (set (mkFlags "" "xgen_out" "" "" false false)) w.
Proof. intros E d fuel set args w H. unfold run. now rewrite (parse_written_flags set args _ H). Qed.
Print Assumptions C28_arguments.

(** An unknown flag ends the run before anything is touched. *)
Theorem C28_unknown_flag : forall (E : Env) d fuel set args name rest w, written_flags set args ->
  (forall a b, name <> a ++ "=" ++ b) -> has_prefix name "-" = false ->
  ~ In name ["i"; "o"; "p"; "l"; "v"; "h"; "help"; ""] ->
  run d fuel (args ++ ("-" ++ name)%string :: rest)%list w = CExit 2 false w.
Proof.
  intros E d fuel set args name rest w H Heq Hdash Hn. unfold run.
  replace (parse_args (args ++ ("-" ++ name)%string :: rest)%list default_flags) with (inr flags 2); [reflexivity|].
  generalize default_flags as f. induction H as [|s ss a args Ha _ IH]; intros f.
  - cbn [app append]. destruct name as [|c n]; [elim Hn; cbn; tauto|].
    assert (Hc : Ascii.eqb c "-" = false).
    { cbn in Hdash. destruct (Ascii.eqb_spec c "-") as [->|Hne]; [discriminate|reflexivity]. }
    assert (Hne : forall s, (forall a b, s <> a ++ "=" ++ b) -> cut_eq s = (s, None)).
    { induction s as [|x s IHs]; intros Hs; [reflexivity|]. cbn. destruct (Ascii.eqb_spec x "=") as [->|Hx].
      - now elim (Hs "" s).
      - rewrite IHs; [reflexivity|]. intros a b ->. now apply (Hs (String x a) b). }
    assert (Hc2 : Ascii.eqb c "=" = false).
    { destruct (Ascii.eqb_spec c "=") as [->|Hx]; [|reflexivity]. now elim (Heq "" n). }
    cbn [parse_args]. rewrite Hc. cbn [andb]. rewrite Hc, Hc2. cbn [orb]. rewrite Hne.
    2:{ intros a b ->. now apply (Heq (String c a) b). }
    assert (Hno : forall l, incl l ["i"; "o"; "p"; "l"; "v"; "h"; "help"; ""] -> in_set (String c n) l = false).
    { intros l Hl. apply not_true_iff_false. rewrite in_set_In. intros Hin. apply Hn. now apply Hl. }
    rewrite !Hno by (intros x Hx; cbn in *; tauto).
    destruct (String.eqb_spec (String c n) "help") as [He|_]; [elim Hn; rewrite He; cbn; tauto|reflexivity].
  - rewrite <- app_assoc, (parse_written s a Ha). apply IH.
Qed.
Print Assumptions C28_unknown_flag.

Definition cli_docs : smap (list token) := [("A", d_schema [] (d_element "x" "string")); ("B", d_schema [] [TStart "element" [att "maxOccurs" "two"]])].
Definition cli_world : World := demo_world [("a.xsd", "A"); ("b.xsd", "B")].

(** The second file fails: its predecessor's output is there, "done" is not. *)
Example C28_example :
  let R := run (E := demo cli_docs first_choice) 3 3 in
  (exists w', R ["-i"; "in"; "--o=out"; "-l"; "C"] cli_world = CExit 1 false w' /\
     get "out/a.xsd.h" (w_fs w') <> None /\ get "out/b.xsd.h" (w_fs w') = None) /\
  (exists w', R ["-i=in/a.xsd"; "-l"; "Rust"] cli_world = CExit 0 true w' /\ get "xgen_out.rs" (w_fs w') <> None) /\
  R ["-i"; "in"; "-l"; "rust"] cli_world = CExit 1 false cli_world /\
  R ["-x"] cli_world = CExit 2 false cli_world /\
  R ["-l"; "Go"; "-h"] cli_world = CExit 0 false cli_world /\
  written_flags (fun f => mkFlags "in" "out" (fl_p f) (fl_l f) (fl_v f) (fl_h f)) ["-i"; "in"; "--o=out"].
Proof.
  cbv zeta. split; [eexists; split; [vm_compute; reflexivity|split; [vm_compute; discriminate|vm_compute; reflexivity]]|].
  split; [eexists; split; [vm_compute; reflexivity|vm_compute; discriminate]|].
  split; [vm_compute; reflexivity|]. split; [vm_compute; reflexivity|]. split; [vm_compute; reflexivity|].
  apply (wfs_cons (fun f => mkFlags "in" (fl_o f) (fl_p f) (fl_l f) (fl_v f) (fl_h f))
           (fun f => mkFlags (fl_i f) "out" (fl_p f) (fl_l f) (fl_v f) (fl_h f)) ["-i"; "in"] ["--o=out"]); [constructor|].
  apply (wfs_cons (fun f => mkFlags (fl_i f) "out" (fl_p f) (fl_l f) (fl_v f) (fl_h f)) (fun f => f) ["--o=out"] []); [|constructor].
  apply (wf_double _ "o=out" []); [apply (wf_oe "out")|reflexivity].
Qed.

(** ** C42 *)

Theorem C42_file : forall (E : Env) path w b, stat path w = SFile b -> get_file_list path w = Some [path].
Proof. intros E path w b H. unfold get_file_list. now rewrite H. Qed.
Print Assumptions C42_file.

Theorem C42_missing : forall (E : Env) path w, stat path w = SNotExist \/ stat path w = SErr -> get_file_list path w = None.
Proof. intros E path w [H|H]; unfold get_file_list; now rewrite H. Qed.
Print Assumptions C42_missing.

(** A directory: itself, everything below it once and in order, itself again. *)
Theorem C42_directory : forall (E : Env) path w, tree_shaped (w_fs w) -> stat path w = SDir ->
  exists rest, get_file_list path w = Some (path :: rest ++ [path])%list /\
    StronglySorted path_before rest /\ NoDup rest /\
    (forall k, In k rest -> get k (w_fs w) <> None /\ inside path k) /\
    (readable path -> forall k, get k (w_fs w) <> None -> inside path k -> In k rest).
Proof. exact @file_list_dir. Qed.
Print Assumptions C42_directory.

Definition deep_world : World :=
  mkW [("in/b.xsd", NFile "B"); ("in", NDir); ("in/a/z.xsd", NFile "A"); ("in/a", NDir); ("in-a", NDir); ("in/a.xsd", NFile "A"); ("out", NFile "O")]
    [] [] [] [] [] 0 [].

Example C42_example :
  get_file_list (E := demo [] first_choice) "./in" deep_world =
    Some ["./in"; "in/a"; "in/a/z.xsd"; "in/a.xsd"; "in/b.xsd"; "./in"] /\
  get_file_list (E := demo [] first_choice) "out" deep_world = Some ["out"] /\
  get_file_list (E := demo [] first_choice) "nothing" deep_world = None /\
  tree_shaped (E := demo [] first_choice) (w_fs deep_world) /\ readable (E := demo [] first_choice) "./in".
Proof.
  split; [vm_compute; reflexivity|]. split; [vm_compute; reflexivity|]. split; [vm_compute; reflexivity|]. split.
  - split.
    + cbn. repeat constructor; cbn; intuition discriminate.
    + intros k Hk. cbn in Hk. repeat (destruct Hk as [<-|Hk]; [split; [vm_compute; reflexivity|];
        split; [vm_compute; reflexivity|]; intros a Ha Hne; vm_compute in Ha;
        repeat (destruct Ha as [<-|Ha]; [first [now elim Hne | vm_compute; reflexivity]|]); destruct Ha|]). destruct Hk.
  - intros p _. split; reflexivity.
Qed.

(** ** C49 *)

(** After a successful run every schema file that was listed has an output file. *)
Theorem C49_outputs : forall (E : Env) d fuel f w w' files, accepted f -> get_file_list (fl_i f) w = Some files ->
  main d fuel f w = CExit 0 true w' ->
  exists l, lname l = fl_l f /\ forall file b, In file files -> stat file w = SFile b ->
  exists name text, output_file (tool_options f file) l name /\ get (clean name) (w_fs w') = Some (NFile text).
Proof.
  intros E d fuel f w w' files Ha Hfiles H. pose proof (C28_files E d fuel f w files Ha Hfiles) as Hr. rewrite H in Hr.
  destruct Hr as [[_ [_ Hr]]|[[H0 _]|[H0 _]]]; [|discriminate|discriminate].
  apply (all_parsed_outputs d fuel f files w w'); [apply Ha|exact Hr].
Qed.
Print Assumptions C49_outputs.

(** It mirrors the input directory. *)
Theorem C49_location_partial : forall f l rest name, fl_o f <> "" ->
  (output_file (tool_options f (fl_i f ++ "/" ++ rest)) l name <->
   with_extension (clean (fl_o f ++ "/" ++ rest)) (extension l) name).
Proof. exact output_location. Qed.
Print Assumptions C49_location_partial.

(** Nothing but outputs changes, however the run ends. *)
Theorem C49_nothing_else : forall (E : Env) d fuel f w files, accepted f -> get_file_list (fl_i f) w = Some files ->
  match main d fuel f w with CExit _ _ w' | CNoFuel w' =>
    forall c, get c (w_fs w') <> get c (w_fs w) -> tool_output f files c end.
Proof.
  intros E d fuel f w files [H1 [H2 [H3 H4]]] Hfiles. rewrite main_accepted by assumption. rewrite Hfiles.
  pose proof (fun c => process_where d fuel f files files w c (incl_refl files)) as H.
  destruct (process d fuel (tool_config f) files w) as [code done w'|w']; exact H.
Qed.
Print Assumptions C49_nothing_else.

(** An input directory that is not written in clean form is not removed from
    the output path: "./in" gives out/in/..., "in" gives out/.... *)
Theorem C49_unclean_input_refuted : exists (E : Env) d fuel f f' w w1 w2, accepted f /\ accepted f' /\
  clean (fl_i f) = clean (fl_i f') /\ fl_o f = fl_o f' /\ fl_l f = fl_l f' /\
  main d fuel f w = CExit 0 true w1 /\ main d fuel f' w = CExit 0 true w2 /\
  get "out/a.xsd.h" (w_fs w1) <> None /\ get "out/in/a.xsd.h" (w_fs w1) = None /\
  get "out/a.xsd.h" (w_fs w2) = None /\ get "out/in/a.xsd.h" (w_fs w2) <> None.
Proof.
  exists (demo cli_docs first_choice), 3, 3, (mkFlags "in" "out" "" "C" false false), (mkFlags "./in" "out" "" "C" false false),
    (demo_world [("a.xsd", "A")]). eexists. eexists.
  split; [repeat split; [discriminate|cbn; tauto]|]. split; [repeat split; [discriminate|cbn; tauto]|].
  split; [reflexivity|]. split; [reflexivity|]. split; [reflexivity|].
  split; [vm_compute; reflexivity|]. split; [vm_compute; reflexivity|].
  split; [vm_compute; discriminate|]. split; [vm_compute; reflexivity|]. split; [vm_compute; reflexivity|vm_compute; discriminate].
Qed.
Print Assumptions C49_unclean_input_refuted.

Example C49_example :
  exists w', main (E := demo cli_docs first_choice) 3 3 (mkFlags "in" "out" "" "Java" false false) (demo_world [("a.xsd", "A"); ("b.xsd", "A")])
    = CExit 0 true w' /\ get "out/a.xsd.java" (w_fs w') <> None /\ get "out/b.xsd.java" (w_fs w') <> None /\
    output_file (tool_options (mkFlags "in" "out" "" "Java" false false) "in/a.xsd") Java "out/a.xsd.java".
Proof.
  eexists. split; [vm_compute; reflexivity|].
  split; [vm_compute; discriminate|]. split; [vm_compute; discriminate|].
  apply output_file_spec. vm_compute. reflexivity.
Qed.

(** ** C26 for the tool *)

(** A directory in clean form other than ".", with or without a final slash:
    the outputs of its files are below the output directory. *)
Theorem C26_tool_inside_partial : forall (E : Env) f w files file b l name, tree_shaped (w_fs w) -> stat (fl_i f) w = SDir -> fl_o f <> "" ->
  fl_i f <> "." -> fl_i f = clean (fl_i f) \/ fl_i f = clean (fl_i f) ++ "/" ->
  get_file_list (fl_i f) w = Some files -> In file files -> stat file w = SFile b -> lname l = fl_l f ->
  output_file (tool_options f file) l name -> inside (fl_o f) (clean name).
Proof. exact @tool_inside. Qed.
Print Assumptions C26_tool_inside_partial.

Example C26_tool_example : forall (E := demo [] first_choice),
  let f := mkFlags "in/" "out" "" "C" false false in
  get_file_list (fl_i f) deep_world = Some ["in/"; "in/a"; "in/a/z.xsd"; "in/a.xsd"; "in/b.xsd"; "in/"] /\
  output_file (tool_options f "in/a/z.xsd") C "out/a/z.xsd.h" /\ inside "out" "out/a/z.xsd.h".
Proof.
  intros E f. split; [vm_compute; reflexivity|]. split; [apply output_file_spec; vm_compute; reflexivity|].
  exists "a/z.xsd.h". split; [discriminate|]. split; [reflexivity|]. split; [|reflexivity].
  intros x [<-|[<-|[]]]; split; discriminate.
Qed.

(** Other ways to write the directory lead out of the output directory: "./../x";
    and "." if a file is called "...".  So does a schemaLocation that leads out
    of the working directory, however the directory is written: the output of
    the imported schema goes there. *)
Definition escape_docs : smap (list token) :=
  [("A", d_schema [] (d_element "x" "string")); ("S", d_schema [] (d_simple "T" "string"));
   ("M", d_schema [xmlns "b" "urn:b"] (d_import "urn:b" "../../s.xsd" ++ d_element "x" "b:T"))].

Theorem C26_tool_outside_refuted : exists (E : Env) d fuel f1 w1 w1' f2 w2 w2' f3 w3 w3',
  (forall f, In f [f1; f2; f3] -> accepted f /\ fl_o f = "out") /\
  ~ inside "out" "x/a.xsd.h" /\ ~ inside "out" "..h" /\ ~ inside "out" "s.xsd.h" /\
  (fl_i f1 = "./../x" /\ main d fuel f1 w1 = CExit 0 true w1' /\ get "x/a.xsd.h" (w_fs w1) = None /\ get "x/a.xsd.h" (w_fs w1') <> None) /\
  (fl_i f2 = "." /\ main d fuel f2 w2 = CExit 0 true w2' /\ get "..h" (w_fs w2) = None /\ get "..h" (w_fs w2') <> None) /\
  (fl_i f3 = "in" /\ main d fuel f3 w3 = CExit 0 true w3' /\ get "s.xsd.h" (w_fs w3) = None /\ get "s.xsd.h" (w_fs w3') <> None).
Proof.
  exists (demo escape_docs first_choice), 4, 4,
    (mkFlags "./../x" "out" "" "C" false false), (mkW [("../x", NDir); ("../x/a.xsd", NFile "A")] [] [] [] [] [] 0 []).
  eexists. exists (mkFlags "." "out" "" "C" false false), (mkW [("...", NFile "A")] [] [] [] [] [] 0 []). eexists.
  exists (mkFlags "in" "out" "" "C" false false), (mkW [("in", NDir); ("in/m.xsd", NFile "M"); ("../s.xsd", NFile "S")] [] [] [] [] [] 0 []). eexists.
  assert (N : forall c, has_prefix (clean c) "out/" = false -> ~ inside "out" c).
  { intros c Hc [rest [_ [_ [_ H]]]]. rewrite H in Hc. now vm_compute in Hc. }
  split; [intros f [<-|[<-|[<-|[]]]]; (split; [split; [reflexivity|split; [reflexivity|split; [discriminate|cbn; tauto]]]|reflexivity])|].
  split; [apply N; reflexivity|]. split; [apply N; reflexivity|]. split; [apply N; reflexivity|].
  split; [split; [reflexivity|split; [vm_compute; reflexivity|split; [reflexivity|vm_compute; discriminate]]]|].
  split; (split; [reflexivity|split; [vm_compute; reflexivity|split; [reflexivity|vm_compute; discriminate]]]).
Qed.
Print Assumptions C26_tool_outside_refuted.
