(** Property theorems about the files that a run overwrites: C74. *)

From Coq Require Import String Ascii List NArith ZArith Bool.
From Verif Require Import GoStr GoPath Base Utils World Handlers Parser Cli SpecStr SpecTables SpecGen SpecOut SpecFile SpecParse SpecCli SpecDoc SpecTouched CliProofs TouchedProofs Demo.
Import ListNotations.
Local Open Scope string_scope.

(** C74.  Whatever the schemas refer to and however it ends, Parse changes only
    files with the extension of the language and adds directories. *)
Theorem C74_parse : forall (E : Env) d fuel o w l, o_extract o = false -> selects (o_lang o) l ->
  forall c, touched l c (get c (w_fs w)) (get c (w_fs (out_world (parse d fuel o w)))).
Proof. exact @parse_touched. Qed.
Print Assumptions C74_parse.

(** So does a run of the tool. *)
Theorem C74_tool : forall (E : Env) d fuel f l w, lname l = fl_l f ->
  match main d fuel f w with CExit _ _ w' | CNoFuel w' => forall c, touched l c (get c (w_fs w)) (get c (w_fs w')) end.
Proof. exact @main_touched. Qed.
Print Assumptions C74_tool.

(** Other files, for instance all whose names end with .xsd, are safe whatever
    the command line is. *)
Theorem C74_safe : forall (E : Env) d fuel args w c bytes, get c (w_fs w) = Some (NFile bytes) -> (forall l, ~ ends_with c (extension l)) ->
  match run d fuel args w with CExit _ _ w' | CNoFuel w' => get c (w_fs w') = Some (NFile bytes) end.
Proof.
  intros E d fuel args w c bytes Hc Hn. unfold run. destruct (parse_args args default_flags) as [f|code]; [|exact Hc].
  destruct (in_dec string_dec (fl_l f) support_lang) as [Hin|Hni].
  - assert (Hl : exists l, lname l = fl_l f).
    { destruct Hin as [<-|[<-|[<-|[<-|[<-|[]]]]]]; [now exists Go|now exists C|now exists Java|now exists Rust|now exists TypeScript]. }
    destruct Hl as [l Hl]. pose proof (main_touched d fuel f l w Hl) as H.
    destruct (main d fuel f w); (destruct (H c) as [->|[[H0 _]|[H0 _]]]; [exact Hc|congruence|elim (Hn l H0)]).
  - assert (Hf : exists code, parse_flags f = inr code).
    { unfold parse_flags. destruct (fl_h f); [eauto|]. destruct (fl_v f); [eauto|]. destruct (String.eqb (fl_i f) ""); [eauto|].
      destruct (String.eqb (fl_l f) ""); [eauto|]. destruct (in_set (fl_l f) support_lang) eqn:Hi; [apply in_set_In in Hi; contradiction|]. cbn. eauto. }
    destruct Hf as [code Hf]. unfold main. now rewrite Hf.
Qed.
Print Assumptions C74_safe.

Theorem C74_schema_names : forall c l, ends_with c ".xsd" -> ~ ends_with c (extension l).
Proof. exact schema_names. Qed.
Print Assumptions C74_schema_names.

(** A run for one language keeps the programs for the others. *)
Theorem C74_languages : forall (E : Env) d fuel f l l' w c bytes, lname l = fl_l f -> l <> l' -> get c (w_fs w) = Some (NFile bytes) -> ends_with c (extension l') ->
  match main d fuel f w with CExit _ _ w' | CNoFuel w' => get c (w_fs w') = Some (NFile bytes) end.
Proof.
  intros E d fuel f l l' w c bytes Hl Hne Hc He. pose proof (main_touched d fuel f l w Hl) as H.
  destruct (main d fuel f w); (destruct (H c) as [->|[[H0 _]|[H0 _]]]; [exact Hc|congruence|elim Hne; now apply (endings_differ c)]).
Qed.
Print Assumptions C74_languages.

Definition touched_docs : smap (list token) :=
  [("S", d_schema [xmlns "b" "urn:b"] (d_import "urn:b" "b.xsd" ++ d_element "e" "b:T")%list); ("B", d_schema [] (d_simple "T" "xs:int"))].
Definition touched_world : World :=
  mkW [("in", NDir); ("in/a.xsd", NFile "S"); ("in/b.xsd", NFile "B"); ("in/note", NFile "n")] [] [] [] [] [] 0 [].

(** Rust and then C, with the schemas and the programs in one directory. *)
Example C74_example : let E := demo touched_docs first_choice in
  exists v v' text text', run 3 3 ["-i"; "in"; "-o=in"; "-l"; "Rust"] touched_world = CExit 0 true v /\
    get "in/a.xsd.rs" (w_fs v) = Some (NFile text) /\ get "in/a.xsd" (w_fs v) = Some (NFile "S") /\
    run 3 3 ["-i"; "in/a.xsd"; "-o=in/a.xsd"; "-l"; "C"] v = CExit 0 true v' /\
    get "in/a.xsd.h" (w_fs v') = Some (NFile text') /\ get "in/a.xsd.rs" (w_fs v') = Some (NFile text) /\ get "in/a.xsd" (w_fs v') = Some (NFile "S").
Proof. intros E. do 4 eexists. do 6 (split; [vm_compute; reflexivity|]). vm_compute. reflexivity. Qed.

(** A schema whose name ends with the extension is overwritten by its program. *)
Theorem C74_overwritten_refuted : exists (E : Env) v text,
  run 3 3 ["-i"; "in"; "-o"; "in"; "-l"; "Rust"] (mkW [("in", NDir); ("in/a.rs", NFile "B")] [] [] [] [] [] 0 []) = CExit 0 true v /\
  get "in/a.rs" (w_fs v) = Some (NFile text) /\ text <> "B".
Proof.
  exists (demo touched_docs first_choice). do 2 eexists. split; [vm_compute; reflexivity|]. split; [vm_compute; reflexivity|discriminate].
Qed.
Print Assumptions C74_overwritten_refuted.
