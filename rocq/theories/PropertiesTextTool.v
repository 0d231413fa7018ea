(** Property theorems about character data and runs of the tool: C53. *)

From Coq Require Import String Ascii List NArith ZArith Bool.
From Verif Require Import GoStr GoPath Base Utils World Handlers Parser Cli SpecStr SpecTables SpecGen SpecOut SpecFile SpecDoc SpecParse SpecCli SpecDecl SpecWhole SpecLang
  SpecPrefix SpecBare FileProofs LangParse ToolAlone Demo PropertiesAttr PropertiesCli PropertiesWhole PropertiesText.
Import ListNotations.
Local Open Scope string_scope.

(** C53.  Two successful runs of the tool for one language and package, over
    directories or files that need no others: documents that differ in character
    data, comments and the like get programs for components that differ in
    documentation only (see C53_declarations for their text). *)
Theorem C53_tool : forall (E : Env) d fuel d' fuel' f f' w w' v v' files files' l bytes bytes', accepted f -> accepted f' ->
  lname l = fl_l f -> lname l = fl_l f' -> fl_p f = fl_p f' ->
  get_file_list (fl_i f) w = Some files -> get_file_list (fl_i f') w' = Some files' ->
  (forall x, In x files -> stat x w = SDir \/ lone_file w x (bytes x)) -> (forall x, In x files' -> stat x w' = SDir \/ lone_file w' x (bytes' x)) ->
  separate_outputs f l (listed files w) -> separate_outputs f' l (listed files' w') ->
  main (S d) (S fuel) f w = CExit 0 true v -> main (S d') (S fuel') f' w' = CExit 0 true v' ->
  forall x x' n n', listed files w x -> listed files' w' x' -> same_core text_token (env_tokens (bytes x)) (env_tokens (bytes' x')) ->
  output_file (tool_options f x) l n -> output_file (tool_options f' x') l n' ->
  exists pt pt' text text', same_but_docs pt pt' /\
    file_text l (o_package (tool_options f x)) pt text true /\ file_text l (o_package (tool_options f x)) pt' text' true /\
    get (clean n) (w_fs v) = Some (NFile (env_write n text)) /\ get (clean n') (w_fs v') = Some (NFile (env_write n' text')).
Proof.
  intros E d fuel d' fuel' f f' w w' v v' files files' l bytes bytes' Ha Ha' Hl Hl' Hk Hf Hf' Hg Hg' Hsep Hsep' H H' x x' n n' [Hin [b Hb]] [Hin' [b' Hb']] Ht Hn Hn'.
  pose proof (C28_files E (S d) (S fuel) f w files Ha Hf) as Hr. rewrite H in Hr.
  destruct Hr as [[_ [_ Hr]]|[[H0 _]|[H0 _]]]; [|discriminate|discriminate].
  pose proof (C28_files E (S d') (S fuel') f' w' files' Ha' Hf') as Hr'. rewrite H' in Hr'.
  destruct Hr' as [[_ [_ Hr']]|[[H0 _]|[H0 _]]]; [|discriminate|discriminate].
  apply (docs_outputs d fuel d' fuel' f f' l bytes bytes' (listed files w) (listed files' w') files files' w w' v v') with (x := x) (x' := x'); try assumption.
  - intros y Hy. destruct (Hg y Hy) as [Hd|K]; [now left|right]. split; [|exact K]. split; [exact Hy|]. exists (bytes y). apply K.
  - intros y Hy. destruct (Hg' y Hy) as [Hd|K]; [now left|right]. split; [|exact K]. split; [exact Hy|]. exists (bytes' y). apply K.
  - congruence.
  - congruence.
Qed.
Print Assumptions C53_tool.

(** The documents of C53_example, in runs on one file each. *)
Definition text_world (b : string) : World := mkW [("w", NDir); ("w/t.xsd", NFile b); ("o", NDir)] [] [] [] [] [] 0 [].
Definition text_flags : flags := mkFlags "w/t.xsd" "o" "" "Rust" false false.

Example C53_tool_example : let E := demo text_docs first_choice in
  accepted text_flags /\ (forall b, In b ["A"; "B"] -> get_file_list "w/t.xsd" (text_world b) = Some ["w/t.xsd"] /\ lone_file (text_world b) "w/t.xsd" b /\
     separate_outputs text_flags Rust (listed ["w/t.xsd"] (text_world b))) /\
  same_core text_token (env_tokens "A") (env_tokens "B") /\
  exists v v' text text', main 1 1 text_flags (text_world "A") = CExit 0 true v /\ main 1 1 text_flags (text_world "B") = CExit 0 true v' /\
    get "o.rs" (w_fs v) = Some (NFile text) /\ get "o.rs" (w_fs v') = Some (NFile text') /\ text <> text'.
Proof.
  intros E. split; [repeat split; [discriminate|cbn; tauto]|]. split; [|split].
  - intros b Hb. split; [destruct Hb as [<-|[<-|[]]]; vm_compute; reflexivity|]. split.
    + split; [destruct Hb as [<-|[<-|[]]]; vm_compute; reflexivity|]. split; [|destruct Hb as [<-|[<-|[]]]; vm_compute; reflexivity].
      intros local l H. repeat (destruct Hb as [<-|Hb]; [vm_compute in H;
        repeat (destruct H as [H|H]; [try discriminate; injection H as <- <-; split; vm_compute; reflexivity|]); destruct H|]). destruct Hb.
    + intros x y n [[<-|[]] _] [[<-|[]] _] Hn. apply output_file_spec in Hn. vm_compute in Hn. subst n. split; [vm_compute; discriminate|]. split; [reflexivity|].
      intros p Hp. apply place_spec in Hp as ->. vm_compute. intuition discriminate.
  - exists (filter (fun t => match t with TChar _ | TOther => false | _ => true end) (env_tokens "A")). vm_compute.
    split; repeat (first [apply pad_nil|apply pad_keep|apply pad_add; [constructor|]]).
  - do 4 eexists. split; [vm_compute; reflexivity|]. split; [vm_compute; reflexivity|]. split; [vm_compute; reflexivity|]. split; [vm_compute; reflexivity|discriminate].
Qed.
