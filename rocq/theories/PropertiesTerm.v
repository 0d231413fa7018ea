(** Property theorems about what the tool prints: C58. *)

From Coq Require Import String Ascii List Arith NArith Bool Lia.
From Verif Require Import GoStr Base Utils World Handlers Parser Cli Terminal SpecTables SpecCli StrLemmas CliProofs TermProofs Demo PropertiesCli PropertiesError.
Import ListNotations.
Local Open Scope string_scope.

(** Flags that lead to no run: the first objection is printed, or what was asked
    for.  The usage names every flag and every language. *)
Theorem C58_flags : forall (E : Env) t d fuel f w,
  (fl_h f = true -> exists s, main_output t d fuel f w = Some s /\
     (forall x, In x ["-i"; "-o"; "-p"; "-l"; "-h"; "-v"] -> exists a b, s = a ++ NL ++ "  " ++ x ++ " " ++ b) /\
     (exists a b, s = a ++ "(Go/C/Java/Rust/TypeScript)" ++ b) /\ exists b, s = "xgen version: 0.1.0" ++ CRNL ++ b) /\
  (fl_h f = false -> fl_v f = true -> main_output t d fuel f w = Some ("xgen version: 0.1.0" ++ CRNL)) /\
  (fl_h f = false -> fl_v f = false -> fl_i f = "" ->
     main_output t d fuel f w = Some ("must specify input file path or directory for the XML schema definition" ++ NL)) /\
  (fl_h f = false -> fl_v f = false -> fl_i f <> "" -> fl_l f = "" ->
     main_output t d fuel f w = Some ("must specify the language of generated code (Go/C/Java/Rust/TypeScript)" ++ NL)) /\
  (fl_h f = false -> fl_v f = false -> fl_i f <> "" -> fl_l f <> "" -> ~ In (fl_l f) ["Go"; "C"; "Java"; "Rust"; "TypeScript"] ->
     main_output t d fuel f w = Some ("unsupport language " ++ fl_l f ++ NL)).
Proof.
  intros E t d fuel f w. unfold main_output, flags_output. rewrite parse_flags_spec. split; [|split; [|split; [|split]]].
  - intros H. rewrite H. cbn [orb]. exists usage. split; [reflexivity|]. split; [|split].
    + intros x Hx.
      assert (Hc : GoStr.contains usage (NL ++ "  " ++ x ++ " ") = true) by (repeat (destruct Hx as [<-|Hx]; [vm_compute; reflexivity|]); destruct Hx).
      apply contains_cut in Hc as [a [b Hb]]. exists a, b. rewrite Hb, !app_assoc_s. reflexivity.
    + apply contains_cut. vm_compute. reflexivity.
    + eexists. unfold usage. cbn [append]. reflexivity.
  - intros -> ->. reflexivity.
  - intros -> -> ->. reflexivity.
  - intros -> -> Hi ->. cbn [orb]. apply String.eqb_neq in Hi. rewrite Hi. reflexivity.
  - intros -> -> Hi Hl Hn. cbn [orb]. apply String.eqb_neq in Hi, Hl. rewrite Hi, Hl. cbn [orb].
    replace (in_set (fl_l f) support_lang) with false; [reflexivity|]. symmetry. apply not_true_iff_false. now rewrite in_set_In.
Qed.
Print Assumptions C58_flags.

(** Accepted flags: exactly one message is printed.  It is the error of -i, or
    "done" after all files, or it names the first file that failed and its error;
    when an output directory cannot be made, its error alone. *)
Theorem C58_files : forall (E : Env) t d fuel f w, accepted f ->
  match main d fuel f w with
  | CExit code done w' => exists s, main_output t d fuel f w = Some s /\
      ((get_file_list (fl_i f) w = None /\ code = 1 /\ s = t_list t ++ NL) \/
       exists files, get_file_list (fl_i f) w = Some files /\
         ((code = 0 /\ done = true /\ all_parsed d fuel f files w w' /\ s = "done" ++ NL) \/
          exists before file after w1, files = (before ++ file :: after)%list /\ all_parsed d fuel f before w w1 /\ done = false /\
            ((exists e, code = 1 /\ parse d fuel (tool_options f file) (with_new_maps w1) = Fail e w' /\
                s = "process error on " ++ file ++ ": " ++ t_parse t e ++ CRNL) \/
             (code = 1 /\ parse d fuel (tool_options f file) (with_new_maps w1) = Crash Exit1 w' /\ s = t_dir t ++ NL) \/
             (code = 2 /\ parse d fuel (tool_options f file) (with_new_maps w1) = Crash Panic w' /\ s = ""))))
  | CNoFuel _ => main_output t d fuel f w = None
  end.
Proof.
  intros E t d fuel f w [H1 [H2 [H3 H4]]]. rewrite main_accepted by assumption. rewrite (main_output_accepted t) by assumption.
  destruct (get_file_list (fl_i f) w) as [files|]; [|eexists; split; [reflexivity|]; left; auto].
  pose proof (process_prints t d fuel f files w) as H. destruct (process d fuel (tool_config f) files w) as [code done w'|w']; [|exact H].
  destruct H as [[A1 [A2 [A3 A4]]]|[before [file [after [w1 [A1 [A2 [A3 A4]]]]]]]].
  - eexists. split; [exact A4|]. right. exists files. split; [reflexivity|]. left. auto.
  - destruct A4 as [[e [B1 [B2 B3]]]|[[B1 [B2 B3]]|[B1 [B2 B3]]]]; (eexists; split; [exact B3|]); right; exists files; (split; [reflexivity|]); right;
      exists before, file, after, w1; (split; [exact A1|]); (split; [exact A2|]); (split; [exact A3|]).
    + left. exists e. auto.
    + right. left. auto.
    + right. right. auto.
Qed.
Print Assumptions C58_files.

(** No silent success: a process that exits with 0 has printed something, but
    for the flag -help, which the flag package answers on the standard error. *)
Theorem C58_no_silent_success : forall (E : Env) t d fuel args w done w', run d fuel args w = CExit 0 done w' ->
  (done = true <-> run_output t d fuel args w = Some ("done" ++ NL)) /\
  (run_output t d fuel args w = Some "" -> parse_args args default_flags = inr 0 /\ w' = w).
Proof.
  intros E t d fuel args w done w' H. unfold run, run_output in *. destruct (parse_args args default_flags) as [f|n].
  2: { injection H as -> <- <-. split; [split; discriminate|auto]. }
  destruct (fl_h f) eqn:Hh.
  { unfold main, main_output, flags_output in *. rewrite parse_flags_spec in *. rewrite Hh in *. cbn [orb] in *. injection H as <- <-.
    split; [split; [discriminate|intros H; vm_compute in H; discriminate]|intros H; vm_compute in H; discriminate]. }
  destruct (fl_v f) eqn:Hv.
  { unfold main, main_output, flags_output in *. rewrite parse_flags_spec in *. rewrite Hh, Hv in *. cbn [orb] in *. injection H as <- <-.
    split; [split; [discriminate|intros H; vm_compute in H; discriminate]|intros H; vm_compute in H; discriminate]. }
  assert (Ha : accepted f).
  { unfold main in H. rewrite parse_flags_spec, Hh, Hv in H. cbn [orb] in H. destruct (String.eqb_spec (fl_i f) "") as [_|Hi]; [discriminate|]. cbn [orb] in H.
    destruct (in_set (fl_l f) support_lang) eqn:Hl; [|discriminate]. repeat split; auto. now apply in_set_In in Hl. }
  pose proof (C58_files E t d fuel f w Ha) as Hf. rewrite H in Hf. destruct Hf as [s [Hs Hf]]. rewrite Hs.
  destruct Hf as [[_ [Hc _]]|[files [_ [[_ [-> [_ ->]]]|[b [x [a [w1 [_ [_ [_ Hc]]]]]]]]]]]; [discriminate| |].
  - split; [split; auto|]. intros Hd. vm_compute in Hd. discriminate.
  - exfalso. destruct Hc as [[e [Hc _]]|[[Hc _]|[Hc _]]]; discriminate.
Qed.
Print Assumptions C58_no_silent_success.

Example C58_example :
  let E := demo cli_docs first_choice in
  let t := mkTexts "no such file" "no directory" (fun e => match e with EAtoi s => "bad number " ++ s | _ => "?" end) in
  run_output t 3 3 ["-i"; "in/a.xsd"; "-l"; "Rust"] cli_world = Some ("done" ++ NL) /\
  run_output t 3 3 ["-i"; "in/b.xsd"; "-l"; "Rust"] cli_world = Some ("process error on in/b.xsd: bad number two" ++ CRNL) /\
  run_output t 3 3 ["-i"; "x"; "-l"; "Rust"] cli_world = Some ("no such file" ++ NL) /\
  run_output t 3 3 ["-i"; "in/a.xsd"; "-o"; "in/b.xsd/q/r"; "-l"; "Rust"] cli_world = Some ("process error on in/a.xsd: ?" ++ CRNL) /\
  run_output t 3 3 ["-i"; "in/a.xsd"; "-l"; "rust"] cli_world = Some ("unsupport language rust" ++ NL) /\
  run_output (E := faulty cli_docs "" "" "q" false) t 3 3 ["-i"; "in/a.xsd"; "-o"; "q/r"; "-l"; "Rust"] cli_world = Some ("no directory" ++ NL) /\
  run_output t 3 3 ["-help"] cli_world = Some "" /\ run 3 3 ["-help"] cli_world = CExit 0 false cli_world.
Proof. cbv zeta. do 7 (split; [vm_compute; reflexivity|]). vm_compute. reflexivity. Qed.

