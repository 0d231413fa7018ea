(** Property theorems about namespace prefixes and runs of the tool: C72. *)

From Coq Require Import String Ascii List NArith ZArith Bool.
From Verif Require Import GoStr GoPath Base Utils World Handlers Parser Cli SpecStr SpecTables SpecGen SpecOut SpecFile SpecDoc SpecParse SpecCli SpecDecl SpecWhole SpecLang
  SpecPrefix FileProofs LangParse PrefixProofs ToolAlone Demo PropertiesAttr PropertiesCli PropertiesWhole PropertiesPrefix.
Import ListNotations.
Local Open Scope string_scope.

(** C72 for runs on directories: with other prefixes in the schemas there are
    the same programs.  Missing as above. *)
Theorem C72_tool_partial : forall (E : Env) d fuel d' fuel' f w w' v v' files l bytes bytes', accepted f -> lname l = fl_l f ->
  get_file_list (fl_i f) w = Some files -> get_file_list (fl_i f) w' = Some files ->
  (forall x, In x files -> (stat x w = SDir /\ stat x w' = SDir) \/
     (lone_file w x (bytes x) /\ lone_file w' x (bytes' x) /\ same_document true (env_tokens (bytes x)) (env_tokens (bytes' x)) /\
      elements_named (env_tokens (bytes x)))) ->
  separate_outputs f l (listed files w) ->
  main (S d) (S fuel) f w = CExit 0 true v -> main (S d') (S fuel') f w' = CExit 0 true v' ->
  forall x n, listed files w x -> output_file (tool_options f x) l n ->
  exists text, get (clean n) (w_fs v) = Some (NFile text) /\ get (clean n) (w_fs v') = Some (NFile text).
Proof.
  intros E d fuel d' fuel' f w w' v v' files l bytes bytes' Ha Hl Hf Hf' Hgood Hsep H H' x n [Hin [b Hb]] Hn.
  pose proof (C28_files E (S d) (S fuel) f w files Ha Hf) as Hr. rewrite H in Hr.
  destruct Hr as [[_ [_ Hr]]|[[H0 _]|[H0 _]]]; [|discriminate|discriminate].
  pose proof (C28_files E (S d') (S fuel') f w' files Ha Hf') as Hr'. rewrite H' in Hr'.
  destruct Hr' as [[_ [_ Hr']]|[[H0 _]|[H0 _]]]; [|discriminate|discriminate].
  destruct (Hgood x Hin) as [[Hd _]|[G1 [G2 [G3 G4]]]]; [congruence|].
  apply (prefix_outputs d fuel d' fuel' f l bytes bytes' (listed files w) files w w' v v' Hl Hsep) with (x := x); try assumption.
  - intros y Hy. destruct (Hgood y Hy) as [[Hd _]|[K1 _]]; [now left|right]. split; [|exact K1]. split; [exact Hy|]. exists (bytes y). apply K1.
  - intros y Hy. destruct (Hgood y Hy) as [[_ Hd]|[K1 [K2 _]]]; [now left|right]. split; [|exact K2]. split; [exact Hy|]. exists (bytes y). apply K1.
  - congruence.
  - destruct G2 as [G2 _]. congruence.
  - apply G1.
Qed.
Print Assumptions C72_tool_partial.

(** Two schemas, one in a subdirectory, with two choices of prefixes. *)
Definition two_docs : smap (list token) :=
  [("A", prefix_doc [xmlns "xs" "http://www.w3.org/2001/XMLSchema"; xmlns "t" "urn:t"] "xs:" "t:");
   ("A'", prefix_doc [att "xmlns" "urn:t"; xmlns "q" "http://www.w3.org/2001/XMLSchema"] "q:" "");
   ("B", d_schema [] (d_simple "Z" "xs:time")); ("B'", d_schema [att "id" "z"] (d_simple "Z" "time"))].
Definition two_world (a b : string) : World :=
  mkW [("in", NDir); ("in/a.xsd", NFile a); ("in/sub", NDir); ("in/sub/b.xsd", NFile b); ("out", NDir)] [] [] [] [] [] 0 [].
Definition pick (a b : string) (x : string) : string := if String.eqb x "in/a.xsd" then a else b.

Example C72_tool_example : let E := demo two_docs first_choice in
  let files := ["in"; "in/a.xsd"; "in/sub"; "in/sub/b.xsd"; "in"] in
  let w := two_world "A" "B" in let w' := two_world "A'" "B'" in
  get_file_list "in" w = Some files /\ get_file_list "in" w' = Some files /\ accepted whole_flags /\
  (forall x, In x files -> (stat x w = SDir /\ stat x w' = SDir) \/
     (lone_file w x (pick "A" "B" x) /\ lone_file w' x (pick "A'" "B'" x) /\
      same_document true (env_tokens (pick "A" "B" x)) (env_tokens (pick "A'" "B'" x)) /\ elements_named (env_tokens (pick "A" "B" x)))) /\
  separate_outputs whole_flags Rust (listed files w) /\
  exists v v' text, main 1 1 whole_flags w = CExit 0 true v /\ main 1 1 whole_flags w' = CExit 0 true v' /\
    get "out/sub/b.xsd.rs" (w_fs v) = Some (NFile text) /\ get "out/sub/b.xsd.rs" (w_fs v') = Some (NFile text).
Proof.
  intros E files w w'.
  assert (HL : forall x, listed files w x -> x = "in/a.xsd" \/ x = "in/sub/b.xsd").
  { intros x [[<-|[<-|[<-|[<-|[<-|[]]]]]] [b Hb]]; auto; vm_compute in Hb; discriminate. }
  assert (HO : forall x n, x = "in/a.xsd" \/ x = "in/sub/b.xsd" -> output_file (tool_options whole_flags x) Rust n ->
    (x = "in/a.xsd" /\ n = "out/a.xsd.rs") \/ (x = "in/sub/b.xsd" /\ n = "out/sub/b.xsd.rs")).
  { intros x n [->| ->] H; apply output_file_spec in H; vm_compute in H; auto. }
  assert (HS : forall b, In b ["A"; "A'"; "B"; "B'"] -> self_contained (env_tokens b)).
  { intros b Hb local l H. repeat (destruct Hb as [<-|Hb]; [vm_compute in H;
      repeat (destruct H as [H|H]; [try discriminate; injection H as <- <-; split; vm_compute; reflexivity|]); destruct H|]). destruct Hb. }
  assert (HN : forall b, In b ["A"; "B"] -> elements_named (env_tokens b)).
  { intros b Hb local l H. repeat (destruct Hb as [<-|Hb]; [vm_compute in H;
      repeat (destruct H as [H|H]; [try discriminate; injection H as <- <-; vm_compute; discriminate|]); destruct H|]). destruct Hb. }
  split; [vm_compute; reflexivity|]. split; [vm_compute; reflexivity|]. split; [repeat split; [discriminate|cbn; tauto]|]. split; [|split].
  - intros x H. destruct H as [<-|[<-|[<-|[<-|[<-|[]]]]]]; try (left; split; vm_compute; reflexivity); right.
    + split; [split; [vm_compute; reflexivity|split; [apply HS; cbn; tauto|vm_compute; reflexivity]]|].
      split; [split; [vm_compute; reflexivity|split; [apply HS; cbn; tauto|vm_compute; reflexivity]]|]. split; [|apply HN; cbn; tauto].
      vm_compute. repeat split; auto; right; repeat (constructor; [repeat split; try reflexivity; repeat constructor|]); constructor.
    + split; [split; [vm_compute; reflexivity|split; [apply HS; cbn; tauto|vm_compute; reflexivity]]|].
      split; [split; [vm_compute; reflexivity|split; [apply HS; cbn; tauto|vm_compute; reflexivity]]|]. split; [|apply HN; cbn; tauto].
      vm_compute. repeat split; auto; right; repeat (constructor; [repeat split; try reflexivity; repeat constructor|]); constructor.
  - intros a b n Ha Hb Hn. apply HL in Ha, Hb. destruct (HO a n Ha Hn) as [[-> ->]|[-> ->]]; clear Ha Hn; (split; [|split]).
    + destruct Hb as [->| ->]; vm_compute; discriminate.
    + intros m Hm He. destruct (HO b m Hb Hm) as [[-> ->]|[-> ->]]; [reflexivity|vm_compute in He; discriminate].
    + intros p Hp. apply place_spec in Hp as ->. destruct Hb as [->| ->]; vm_compute; intuition discriminate.
    + destruct Hb as [->| ->]; vm_compute; discriminate.
    + intros m Hm He. destruct (HO b m Hb Hm) as [[-> ->]|[-> ->]]; [vm_compute in He; discriminate|reflexivity].
    + intros p Hp. apply place_spec in Hp as ->. destruct Hb as [->| ->]; vm_compute; intuition discriminate.
  - do 3 eexists. split; [vm_compute; reflexivity|]. split; [vm_compute; reflexivity|]. split; vm_compute; reflexivity.
Qed.
