(** What the tool prints and how it ends belong together. *)

From Coq Require Import String Ascii List Arith Bool.
From Verif Require Import GoStr Base World Handlers Parser Cli Terminal SpecCli StrLemmas CliProofs.
Import ListNotations.
Local Open Scope string_scope.

Lemma contains_cut : forall s sub, GoStr.contains s sub = true -> exists a b, s = a ++ sub ++ b.
Proof.
  induction s as [|c s IH]; intros sub H; cbn [GoStr.contains] in H.
  - destruct (has_prefix "" sub) eqn:Hp; [|discriminate]. apply has_prefix_spec in Hp as [r Hr]. now exists "", r.
  - destruct (has_prefix (String c s) sub) eqn:Hp; [apply has_prefix_spec in Hp as [r Hr]; now exists "", r|].
    destruct (IH sub H) as [a [b Hb]]. exists (String c a), b. cbn [append]. now rewrite <- Hb.
Qed.

Section Term.
Context {E : Env}.

Lemma process_prints : forall t d fuel f files w,
  match process d fuel (tool_config f) files w with
  | CExit code done w' =>
      (code = 0 /\ done = true /\ all_parsed d fuel f files w w' /\ process_output t d fuel (tool_config f) files w = Some ("done" ++ NL)) \/
      exists before file after w1, files = (before ++ file :: after)%list /\ all_parsed d fuel f before w w1 /\ done = false /\
        ((exists e, code = 1 /\ parse d fuel (tool_options f file) (with_new_maps w1) = Fail e w' /\
            process_output t d fuel (tool_config f) files w = Some ("process error on " ++ file ++ ": " ++ t_parse t e ++ CRNL)) \/
         (code = 1 /\ parse d fuel (tool_options f file) (with_new_maps w1) = Crash Exit1 w' /\
            process_output t d fuel (tool_config f) files w = Some (t_dir t ++ NL)) \/
         (code = 2 /\ parse d fuel (tool_options f file) (with_new_maps w1) = Crash Panic w' /\
            process_output t d fuel (tool_config f) files w = Some ""))
  | CNoFuel _ => process_output t d fuel (tool_config f) files w = None
  end.
Proof.
  intros t d fuel f. induction files as [|file files IH]; intros w; cbn [process process_output].
  { left. repeat split. constructor. }
  change (file_options (tool_config f) file) with (tool_options f file). change (fresh_maps w) with (with_new_maps w).
  destruct (parse d fuel (tool_options f file) (with_new_maps w)) as [p w1|e w1|[] w1] eqn:Hp.
  - specialize (IH w1). destruct (process d fuel (tool_config f) files w1) as [code done w'|w']; [|exact IH].
    destruct IH as [[H1 [H2 [H3 H4]]]|[before [x [after [w2 [-> [H1 [H2 H3]]]]]]]].
    + left. repeat split; auto. now apply ap_cons with p w1.
    + right. exists (file :: before), x, after, w2. split; [reflexivity|]. split; [now apply ap_cons with p w1|]. auto.
  - right. exists [], file, files, w. split; [reflexivity|]. split; [constructor|]. split; [reflexivity|]. left. exists e. auto.
  - right. exists [], file, files, w. split; [reflexivity|]. split; [constructor|]. split; [reflexivity|]. right. right. auto.
  - right. exists [], file, files, w. split; [reflexivity|]. split; [constructor|]. split; [reflexivity|]. right. left. auto.
  - reflexivity.
Qed.

Lemma main_output_accepted : forall t d fuel f w, fl_h f = false -> fl_v f = false -> fl_i f <> "" -> In (fl_l f) support_lang ->
  main_output t d fuel f w = match get_file_list (fl_i f) w with
                             | None => Some (t_list t ++ NL)
                             | Some files => process_output t d fuel (tool_config f) files w
                             end.
Proof.
  intros t d fuel f w Hh Hv Hi Hl. unfold main_output. rewrite parse_flags_spec, Hh, Hv. cbn [orb].
  rewrite (proj2 (String.eqb_neq _ _) Hi). apply in_set_In in Hl. rewrite Hl. reflexivity.
Qed.

End Term.
