(** Property theorems about the schemas of a run that need no others: C73. *)

From Coq Require Import String Ascii List NArith ZArith Bool.
From Verif Require Import GoStr GoPath Base Utils World Handlers Parser Cli SpecStr SpecTables SpecGen SpecOut SpecFile SpecDoc SpecParse SpecCli SpecDecl SpecWhole SpecLang
  SpecPrefix FileProofs LangParse PrefixProofs ToolAlone Demo PropertiesAttr PropertiesCli PropertiesWhole PropertiesPrefix PropertiesPrefixTool.
Import ListNotations.
Local Open Scope string_scope.

(** C73.  In two successful runs for one language and package, over any
    directories or files that need no others, a document gets the same
    program, whatever else is there and wherever it is.  Missing: runs over
    schemas that import others (C73_import_refuted). *)
Theorem C73_alone_partial : forall (E : Env) d fuel d' fuel' f f' w w' v v' files files' l bytes bytes', accepted f -> accepted f' ->
  lname l = fl_l f -> lname l = fl_l f' -> fl_p f = fl_p f' ->
  get_file_list (fl_i f) w = Some files -> get_file_list (fl_i f') w' = Some files' ->
  (forall x, In x files -> stat x w = SDir \/ lone_file w x (bytes x)) -> (forall x, In x files' -> stat x w' = SDir \/ lone_file w' x (bytes' x)) ->
  separate_outputs f l (listed files w) -> separate_outputs f' l (listed files' w') ->
  main (S d) (S fuel) f w = CExit 0 true v -> main (S d') (S fuel') f' w' = CExit 0 true v' ->
  forall x x' n n', listed files w x -> listed files' w' x' -> env_tokens (bytes x) = env_tokens (bytes' x') ->
  output_file (tool_options f x) l n -> output_file (tool_options f' x') l n' ->
  exists text, get (clean n) (w_fs v) = Some (NFile (env_write n text)) /\ get (clean n') (w_fs v') = Some (NFile (env_write n' text)).
Proof.
  intros E d fuel d' fuel' f f' w w' v v' files files' l bytes bytes' Ha Ha' Hl Hl' Hk Hf Hf' Hg Hg' Hsep Hsep' H H' x x' n n' [Hin [b Hb]] [Hin' [b' Hb']] Ht Hn Hn'.
  pose proof (C28_files E (S d) (S fuel) f w files Ha Hf) as Hr. rewrite H in Hr.
  destruct Hr as [[_ [_ Hr]]|[[H0 _]|[H0 _]]]; [|discriminate|discriminate].
  pose proof (C28_files E (S d') (S fuel') f' w' files' Ha' Hf') as Hr'. rewrite H' in Hr'.
  destruct Hr' as [[_ [_ Hr']]|[[H0 _]|[H0 _]]]; [|discriminate|discriminate].
  apply (alone_outputs d fuel d' fuel' f f' l bytes bytes' (listed files w) (listed files' w') files files' w w' v v') with (x := x) (x' := x'); try assumption.
  - intros y Hy. destruct (Hg y Hy) as [Hd|K]; [now left|right]. split; [|exact K]. split; [exact Hy|]. exists (bytes y). apply K.
  - intros y Hy. destruct (Hg' y Hy) as [Hd|K]; [now left|right]. split; [|exact K]. split; [exact Hy|]. exists (bytes' y). apply K.
  - congruence.
  - congruence.
Qed.
Print Assumptions C73_alone_partial.

(** The directory of C72_tool_example, and a run on a copy of one of its files
    ([lone_file], [separate_outputs]: see there). *)
Definition copy_world : World := mkW [("w", NDir); ("w/copy", NFile "A"); ("o", NDir)] [] [] [] [] [] 0 [].
Definition copy_flags : flags := mkFlags "w/copy" "o" "" "Rust" false false.

Example C73_example : let E := demo two_docs first_choice in
  accepted copy_flags /\ get_file_list "w/copy" copy_world = Some ["w/copy"] /\ lone_file copy_world "w/copy" "A" /\
  separate_outputs copy_flags Rust (listed ["w/copy"] copy_world) /\
  exists v v' text, main 1 1 whole_flags (two_world "A" "B") = CExit 0 true v /\ main 1 1 copy_flags copy_world = CExit 0 true v' /\
    get "out/a.xsd.rs" (w_fs v) = Some (NFile text) /\ get "o.rs" (w_fs v') = Some (NFile text).
Proof.
  intros E. split; [repeat split; [discriminate|cbn; tauto]|]. split; [vm_compute; reflexivity|]. split; [|split].
  - split; [vm_compute; reflexivity|]. split; [|vm_compute; reflexivity]. intros local l H. vm_compute in H.
    repeat (destruct H as [H|H]; [try discriminate; injection H as <- <-; split; vm_compute; reflexivity|]). destruct H.
  - intros a b n [[<-|[]] _] [[<-|[]] _] Hn. apply output_file_spec in Hn. vm_compute in Hn. subst n. split; [vm_compute; discriminate|]. split; [reflexivity|].
    intros p Hp. apply place_spec in Hp as ->. vm_compute. intuition discriminate.
  - do 3 eexists. split; [vm_compute; reflexivity|]. split; [vm_compute; reflexivity|]. split; vm_compute; reflexivity.
Qed.

(** If the first run stops at a file, the files before it still get their
    programs, and the outputs of the files behind it stay as they were. *)
Theorem C73_failed_partial : forall (E : Env) d fuel f w v code files l bytes, accepted f -> lname l = fl_l f -> get_file_list (fl_i f) w = Some files ->
  (forall x, In x files -> stat x w = SDir \/ lone_file w x (bytes x)) -> separate_outputs f l (listed files w) ->
  main (S d) (S fuel) f w = CExit code false v ->
  exists before file after, files = (before ++ file :: after)%list /\ listed files w file /\
    (forall x n, listed files w x -> ~ In x before -> x <> file -> output_file (tool_options f x) l n -> get (clean n) (w_fs v) = get (clean n) (w_fs w)) /\
    forall d' fuel' f' w' v' files' bytes', accepted f' -> lname l = fl_l f' -> fl_p f = fl_p f' -> get_file_list (fl_i f') w' = Some files' ->
    (forall x, In x files' -> stat x w' = SDir \/ lone_file w' x (bytes' x)) -> separate_outputs f' l (listed files' w') ->
    main (S d') (S fuel') f' w' = CExit 0 true v' ->
    forall x x' n n', listed before w x -> x <> file -> listed files' w' x' -> env_tokens (bytes x) = env_tokens (bytes' x') ->
    output_file (tool_options f x) l n -> output_file (tool_options f' x') l n' ->
    exists text, get (clean n) (w_fs v) = Some (NFile (env_write n text)) /\ get (clean n') (w_fs v') = Some (NFile (env_write n' text)).
Proof.
  intros E d fuel f w v code files l bytes Ha Hl Hf Hg Hsep H.
  pose proof (C28_files E (S d) (S fuel) f w files Ha Hf) as Hr. rewrite H in Hr.
  assert (Hg1 : forall y, In y files -> fit bytes (listed files w) w y).
  { intros y Hy. destruct (Hg y Hy) as [Hd|K]; [now left|right]. split; [|exact K]. split; [exact Hy|]. exists (bytes y). apply K. }
  assert (Hstop : exists before file after w1 bad, files = (before ++ file :: after)%list /\ all_parsed (S d) (S fuel) f before w w1 /\
            parse (S d) (S fuel) (tool_options f file) (with_new_maps w1) = bad /\ (forall p u, bad <> Ret p u) /\ out_world bad = v).
  { destruct Hr as [[_ [H0 _]]|[[_ [_ [b [x [a [w1 [H1 [H2 H3]]]]]]]]|[_ [_ [b [x [a [w1 [H1 [H2 H3]]]]]]]]]]; [discriminate| |];
      exists b, x, a, w1; eexists; (split; [exact H1|]); (split; [exact H2|]); (split; [reflexivity|]).
    - destruct H3 as [[e ->]| ->]; (split; [discriminate|reflexivity]).
    - rewrite H3. split; [discriminate|reflexivity]. }
  destruct Hstop as [before [file [after [w1 [bad [Heq [Hb [Hp [Hn Hv]]]]]]]]]. exists before, file, after. split; [exact Heq|].
  destruct (fit_stopped d fuel f l bytes (listed files w) Hl Hsep before file after w w1 bad Hb ltac:(now rewrite <- Heq) Hp Hn) as [[K _] [K1 K2]].
  rewrite Hv in K1, K2. split; [exact K|]. split; [intros x n Hx Hni Hne Ho; now apply (K2 x n)|].
  intros d' fuel' f' w' v' files' bytes' Ha' Hl' Hk Hf' Hg' Hsep' H' x x' n n' [Hin [b Hs]] Hne [Hin' [b' Hs']] Ht Ho Ho'.
  pose proof (C28_files E (S d') (S fuel') f' w' files' Ha' Hf') as Hr'. rewrite H' in Hr'.
  destruct Hr' as [[_ [_ Hr']]|[[H0 _]|[H0 _]]]; [|discriminate|discriminate].
  assert (Hx : listed files w x) by (split; [rewrite Heq; apply in_or_app; now left|now exists b]).
  rewrite (K1 x n Hne Hx Ho).
  apply (alone_outputs d fuel d' fuel' f f' l bytes bytes' (listed files w) (listed files' w') before files' w w' w1 v') with (x := x) (x' := x'); try assumption.
  - intros y Hy. apply Hg1. rewrite Heq. apply in_or_app. now left.
  - intros y Hy. destruct (Hg' y Hy) as [Hd|K0]; [now left|right]. split; [|exact K0]. split; [exact Hy|]. exists (bytes' y). apply K0.
  - congruence.
  - congruence.
Qed.
Print Assumptions C73_failed_partial.

(** A directory with a bad number in the second of three schemas. *)
Definition broken_world : World :=
  mkW [("in", NDir); ("in/a.xsd", NFile "A"); ("in/b.xsd", NFile "bad"); ("in/c.xsd", NFile "B"); ("out", NDir); ("out/c.xsd.rs", NFile "old")] [] [] [] [] [] 0 [].

Example C73_failed_example :
  let E := demo (("bad", d_schema [] [TStart "element" [att "name" "e"; att "maxOccurs" "many"]; TEnd "element"]) :: two_docs) first_choice in
  let files := ["in"; "in/a.xsd"; "in/b.xsd"; "in/c.xsd"; "in"] in
  let bytes x := if String.eqb x "in/a.xsd" then "A" else if String.eqb x "in/b.xsd" then "bad" else "B" in
  get_file_list "in" broken_world = Some files /\ (forall x, In x files -> stat x broken_world = SDir \/ lone_file broken_world x (bytes x)) /\
  separate_outputs whole_flags Rust (listed files broken_world) /\
  exists v v' text, main 1 1 whole_flags broken_world = CExit 1 false v /\ main 1 1 copy_flags copy_world = CExit 0 true v' /\
    get "out/a.xsd.rs" (w_fs v) = Some (NFile text) /\ get "o.rs" (w_fs v') = Some (NFile text) /\ get "out/c.xsd.rs" (w_fs v) = Some (NFile "old").
Proof.
  intros E files bytes.
  assert (HL : forall x, listed files broken_world x -> In x ["in/a.xsd"; "in/b.xsd"; "in/c.xsd"]).
  { intros x [[<-|[<-|[<-|[<-|[<-|[]]]]]] [b Hb]]; cbn; auto; vm_compute in Hb; discriminate. }
  assert (HO : forall x n, In x ["in/a.xsd"; "in/b.xsd"; "in/c.xsd"] -> output_file (tool_options whole_flags x) Rust n ->
    In (x, n) [("in/a.xsd", "out/a.xsd.rs"); ("in/b.xsd", "out/b.xsd.rs"); ("in/c.xsd", "out/c.xsd.rs")]).
  { intros x n [<-|[<-|[<-|[]]]] H; apply output_file_spec in H; vm_compute in H; subst n; cbn; auto. }
  assert (HS : forall b, In b ["A"; "bad"; "B"] -> self_contained (env_tokens b)).
  { intros b Hb local l H. repeat (destruct Hb as [<-|Hb]; [vm_compute in H;
      repeat (destruct H as [H|H]; [try discriminate; injection H as <- <-; split; vm_compute; reflexivity|]); destruct H|]). destruct Hb. }
  split; [vm_compute; reflexivity|]. split; [|split].
  - intros x H. destruct H as [<-|[<-|[<-|[<-|[<-|[]]]]]]; try (left; vm_compute; reflexivity); right;
      (split; [vm_compute; reflexivity|split; [apply HS; cbn; tauto|vm_compute; reflexivity]]).
  - intros a b n Ha Hb Hn. apply HL in Ha, Hb. assert (Ho := HO a n Ha Hn). clear Ha Hn. split; [|split].
    + destruct Ho as [H|[H|[H|[]]]]; injection H as <- <-; destruct Hb as [<-|[<-|[<-|[]]]]; vm_compute; discriminate.
    + intros m Hm He. assert (Hq := HO b m Hb Hm).
      destruct Ho as [H|[H|[H|[]]]]; injection H as <- <-; destruct Hq as [H|[H|[H|[]]]]; injection H as <- <-; first [reflexivity|vm_compute in He; discriminate].
    + intros p Hp. apply place_spec in Hp as ->.
      destruct Ho as [H|[H|[H|[]]]]; injection H as <- <-; destruct Hb as [<-|[<-|[<-|[]]]]; vm_compute; intuition discriminate.
  - do 3 eexists. split; [vm_compute; reflexivity|]. split; [vm_compute; reflexivity|]. repeat split; vm_compute; reflexivity.
Qed.

(** With imports a schema can lose its program to another one: what is
    generated for the imported schema in/b.xsd goes to out/in/b.xsd.rs, where
    the program for in/in/b.xsd is. *)
Definition steal_docs : smap (list token) :=
  [("B", d_schema [] (d_simple "T" "xs:int")); ("I", d_schema [] (d_simple "Inner" "xs:time"));
   ("Z", d_schema [xmlns "b" "urn:b"] (d_import "urn:b" "b.xsd" ++ d_element "e" "b:T")%list); ("Z'", d_schema [] (d_element "e" "xs:int"))].
Definition steal_world (z : string) : World :=
  mkW [("in", NDir); ("in/b.xsd", NFile "B"); ("in/in", NDir); ("in/in/b.xsd", NFile "I"); ("in/z.xsd", NFile z); ("out", NDir)] [] [] [] [] [] 0 [].

Theorem C73_import_refuted : let E := demo steal_docs first_choice in
  exists v v' text text', main 3 3 whole_flags (steal_world "Z'") = CExit 0 true v /\ main 3 3 whole_flags (steal_world "Z") = CExit 0 true v' /\
    get "out/in/b.xsd.rs" (w_fs v) = Some (NFile text) /\ get "out/in/b.xsd.rs" (w_fs v') = Some (NFile text') /\ text <> text' /\
    get "out/b.xsd.rs" (w_fs v') = Some (NFile text').
Proof.
  cbv zeta. do 4 eexists. split; [vm_compute; reflexivity|]. split; [vm_compute; reflexivity|]. split; [vm_compute; reflexivity|].
  split; [vm_compute; reflexivity|]. split; [discriminate|vm_compute; reflexivity].
Qed.
Print Assumptions C73_import_refuted.
