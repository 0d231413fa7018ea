(** Property theorems about errors: C52. *)

From Coq Require Import String Ascii List NArith ZArith Bool.
From Verif Require Import GoStr GoPath Base World Handlers Parser Cli SpecStr SpecDoc SpecTables SpecGen SpecOut SpecFile SpecParse SpecProject
  SpecCli SpecError ErrorProofs CliProofs PropertiesCli Demo.
Import ListNotations.
Local Open Scope string_scope.

(** C52.  Whenever Parse returns an error, the error says what is wrong with
    its own document, with a schema file that the document refers to and that is
    not there, or with the output; an error of a nested parse is never
    returned. *)
Theorem C52_parse_error : forall (E : Env) d fuel o w e w', parse (S d) fuel o w = Fail e w' -> cause d fuel o w e w'.
Proof. exact @parse_error. Qed.
Print Assumptions C52_parse_error.

(** Parse ends the process only if a directory cannot be made. *)
Theorem C52_parse_exit : forall (E : Env) d fuel o w w', parse d fuel o w = Crash Exit1 w' -> exit_cause o.
Proof. exact @parse_exit. Qed.
Print Assumptions C52_parse_exit.

(** Exit code 1 of the tool with acceptable flags: the input is not there, or
    the first file that fails has such a cause. *)
Theorem C52_tool : forall (E : Env) d fuel f w w' done, accepted f -> main (S d) fuel f w = CExit 1 done w' ->
  gone (fl_i f) w \/
  exists files before file after w1, get_file_list (fl_i f) w = Some files /\ files = (before ++ file :: after)%list /\
    all_parsed (S d) fuel f before w w1 /\
    ((exists e, cause d fuel (tool_options f file) (with_new_maps w1) e w') \/ exit_cause (tool_options f file)).
Proof.
  intros E d fuel f w w' done Ha H. destruct (get_file_list (fl_i f) w) as [files|] eqn:Hf.
  - right. pose proof (C28_files E (S d) fuel f w files Ha Hf) as K. rewrite H in K.
    destruct K as [[K _]|[[_ [_ K]]|[K _]]]; try discriminate.
    destruct K as [before [file [after [w1 [-> [Hb Hr]]]]]]. exists (before ++ file :: after)%list, before, file, after, w1.
    split; [reflexivity|]. split; [reflexivity|]. split; [exact Hb|]. destruct Hr as [[e Hr]|Hr].
    + left. exists e. now apply parse_error.
    + right. now apply parse_exit in Hr.
  - left. unfold get_file_list in Hf. unfold gone. destruct (stat (fl_i f) w); try discriminate; auto.
Qed.
Print Assumptions C52_tool.

(** An environment in which os.Open fails for one path, os.Create for another,
    os.Mkdir for a third, and gofmt rejects everything if [strict]. *)
Definition faulty (docs : smap (list token)) (opening creating making : string) (strict : bool) : Env := {|
  env_upper := fun r => r; env_lower := fun r => r; env_valid_url := fun s => has_prefix s "http";
  env_tokens := fun b => match get b docs with Some ts => ts | None => [] end;
  env_gofmt := fun s => if strict then None else Some s; env_choose := first_choice;
  env_stat_fail := fun _ => false; env_open_fail := String.eqb opening;
  env_create_fail := String.eqb creating; env_mkdir_fail := String.eqb making;
  env_write := fun _ b => b |}.

(** "M" refers to b.xsd, "B" has a bad maxOccurs, "S" is fine. *)
Definition error_docs : smap (list token) :=
  [("M", d_schema [xmlns "b" "urn:b"] (d_import "urn:b" "b.xsd" ++ d_element "x" "b:T"));
   ("B", d_schema [] [TStart "choice" [att "maxOccurs" "9223372036854775808"]; TEnd "choice"]);
   ("S", d_schema [] (d_simple "T" "string"))].
Definition error_run (opening creating making : string) (strict : bool) (files : list (string * string)) (file lang : string) : seen :=
  see (parse (E := faulty error_docs opening creating making strict) 4 4 (demo_opts file lang false) (demo_world files)).

(** All kinds of errors; a nested parse that fails, or whose output cannot be
    written, is not an error; a directory that cannot be made is, even for a
    nested parse. *)
Example C52_example :
  let M := ("m.xsd", "M") in let B := ("b.xsd", "B") in let S := ("b.xsd", "S") in
  error_run "" "" "" false [M] "n.xsd" "Go" = Error (EStat "in/n.xsd") /\
  error_run "in/m.xsd" "" "" false [M] "m.xsd" "Go" = Error (EOpen "in/m.xsd") /\
  error_run "" "" "" false [M] "m.xsd" "Go" = Error (EStat "in/b.xsd") /\
  error_run "" "" "" false [B] "b.xsd" "C" = Error (EAtoi "9223372036854775808") /\
  error_run "" "out/b.xsd.rs" "" false [S] "b.xsd" "Rust" = Error (ECreate "out/b.xsd.rs") /\
  error_run "" "" "" true [S] "b.xsd" "Go" = Error EGofmt /\
  error_run "" "" "" false [M; B] "m.xsd" "Go" = Comps [PElement (mkElement "" "x" "T" false false)] /\
  error_run "in/b.xsd" "" "" false [M; S] "m.xsd" "Go" = Comps [PElement (mkElement "" "x" "T" false false)] /\
  error_run "" "out/in/b.xsd.h" "" false [M; S] "m.xsd" "C" = Comps [PElement (mkElement "" "x" "T" false false)] /\
  error_run "" "" "" false [M; S] "m.xsd" "C" = Comps [PElement (mkElement "" "x" "char" false false)] /\
  error_run "" "" "out/in" false [M; S] "m.xsd" "C" = Crashed Exit1.
Proof. repeat split; vm_compute; reflexivity. Qed.

(** One of them in detail: the reference for which b.xsd is needed. *)
Example C52_missing_example :
  let E := faulty error_docs "" "" "" false in
  exists before after q w1 w', env_tokens "M" = (before ++ TStart "element" [att "name" "x"; att "type" "b:T"] :: after)%list /\
    run_tokens (get_value_type (parse 3 3) 3 (demo_opts "m.xsd" "Go" false)) before p_init
      (register (demo_opts "m.xsd" "Go" false) [] (demo_world [("m.xsd", "M")])) = Ret q w1 /\
    missing_reference (demo_opts "m.xsd" "Go" false) "b:T" (freeze q) w' "in/b.xsd" /\
    parse 4 3 (demo_opts "m.xsd" "Go" false) (demo_world [("m.xsd", "M")]) = Fail (EStat "in/b.xsd") w'.
Proof.
  intros E. eexists [_; _; _], [_; _], _, _, _. split; [reflexivity|]. split; [vm_compute; reflexivity|].
  split; [|vm_compute; reflexivity]. split; [vm_compute; reflexivity|]. split.
  - intros t [b [p [a [H _]]]]. destruct b; discriminate H.
  - exists "b.xsd". split; [exists "urn:b"; split; left; reflexivity|]. split; [intros [_ H]; discriminate H|].
    split; [reflexivity|]. left. vm_compute. reflexivity.
Qed.
