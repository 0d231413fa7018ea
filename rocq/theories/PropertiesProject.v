(** Property theorems about schemas that import and include others: C51. *)

From Coq Require Import String Ascii List Arith NArith ZArith Bool Lia.
From Verif Require Import GoStr GoPath Base Utils World Handlers Parser Cli SpecStr SpecDoc SpecTables SpecGen SpecOut SpecFile SpecParse SpecCli
  SpecDecl SpecWhole SpecProject StrLemmas DocLemmas ParserProofs ParseFacts FileProofs CliProofs DeclProofs WholeProofs ProjectProofs DirectoryProofs Demo
  PropertiesDecl PropertiesCli PropertiesWhole.
Import ListNotations.
Local Open Scope string_scope.

(** Parse of the root of a coherent project succeeds.  Its components are those
    that the equations give; the root and all schemas that components depend on
    have their programs as outputs, and the outputs of other imported schemas
    are their programs or did not change.  Nothing else changes except for new
    directories. *)
Theorem C51_parse : forall (E : Env) d fuel o l P ext full w s,
  coherent P -> declares (o_lang o) P ext full -> selects (o_lang o) l -> o_file o = pr_root P -> o_extract o = false ->
  project_files P w -> project_outputs o l P ->
  (forall file, separate_file P file -> can_write (options_for o P file) l w) ->
  (forall file, separate_file P file -> ~ unformatted l (o_package (options_for o P file)) (full file)) ->
  pr_schema P (pr_root P) = Some s -> w_inc w = [] -> w_lns w = [] -> w_nsl w = [] -> w_pmap w = [] ->
  (freeze (o_ps o) = [] \/ forall n x, pr_loc P n = Some x -> at_location P x <> pr_root P) ->
  length (include_locations s) < fuel -> S (pr_rank P (pr_root P)) < d ->
  exists p w', parse d fuel o w = Ret p w' /\ freeze p = full (pr_root P) /\
    output_present o l P (pr_root P) (full (pr_root P)) w' /\
    (forall g, needed (o_lang o) P ext full g -> output_present o l P g (full g) w') /\
    (forall g, separate_file P g -> output_present o l P g (full g) w' \/
       forall n, output_file (options_for o P g) l n -> get (clean n) (w_fs w') = get (clean n) (w_fs w)) /\
    (forall c, get c (w_fs w') = get c (w_fs w) \/
       (get c (w_fs w) = None /\ get c (w_fs w') = Some NDir /\
        exists g p, separate_file P g /\ output_place (options_for o P g) p /\ In c (lineage (dir p))) \/
       (get c (w_fs w) <> Some NDir /\ (exists b, get c (w_fs w') = Some (NFile b)) /\
        exists g n, separate_file P g /\ output_file (options_for o P g) l n /\ c = clean n)).
Proof. exact @project_runs. Qed.
Print Assumptions C51_parse.

(** The same for the tool, run on the root. *)
Theorem C51_tool : forall (E : Env) d fuel f l P ext full w s, accepted f -> lname l = fl_l f ->
  let o := tool_options f (pr_root P) in
  coherent P -> declares (fl_l f) P ext full -> fl_i f = pr_root P -> project_files P w -> project_outputs o l P ->
  (forall file, separate_file P file -> can_write (options_for o P file) l w) ->
  (forall file, separate_file P file -> ~ unformatted l (o_package (options_for o P file)) (full file)) ->
  pr_schema P (pr_root P) = Some s -> length (include_locations s) < fuel -> S (pr_rank P (pr_root P)) < d ->
  exists w', main d fuel f w = CExit 0 true w' /\ output_present o l P (pr_root P) (full (pr_root P)) w' /\
    (forall g, needed (o_lang o) P ext full g -> output_present o l P g (full g) w') /\
    (forall g, separate_file P g -> output_present o l P g (full g) w' \/
       forall n, output_file (options_for o P g) l n -> get (clean n) (w_fs w') = get (clean n) (w_fs w)) /\
    (forall c, get c (w_fs w') = get c (w_fs w) \/
       (get c (w_fs w) = None /\ get c (w_fs w') = Some NDir /\
        exists g p, separate_file P g /\ output_place (options_for o P g) p /\ In c (lineage (dir p))) \/
       (get c (w_fs w) <> Some NDir /\ (exists b, get c (w_fs w') = Some (NFile b)) /\
        exists g n, separate_file P g /\ output_file (options_for o P g) l n /\ c = clean n)).
Proof.
  intros E d fuel f l P ext full w s [H1 [H2 [H3 H4]]] Hl o Hco Hde Hi Hdisk Hout Hcan Hfmt Hs Hfuel Hd.
  rewrite main_accepted by assumption. destruct (proj2 Hdisk (pr_root P) s Hs) as [bytes [Hst _]].
  unfold get_file_list. rewrite Hi, Hst. cbn [process].
  change (file_options (tool_config f) (pr_root P)) with o. change (fresh_maps w) with (with_new_maps w).
  destruct (project_runs d fuel o l P ext full (with_new_maps w) s) as [p [w' [R1 [_ R2]]]]; auto.
  { cbn [o tool_options o_lang]. rewrite <- Hl. apply selects_self. }
  rewrite R1. now exists w'.
Qed.
Print Assumptions C51_tool.

(** The tool on a directory in which every schema is the root of a coherent
    project.  Every schema gets its program.  A schema that others depend on
    gets a further output; the last project that parses it decides on that. *)
Theorem C51_directory : forall (E : Env) d fuel f l P ext full w files, accepted f -> lname l = fl_l f -> 0 < d ->
  get_file_list (fl_i f) w = Some files ->
  (forall x, In x files -> stat x w = SDir \/ root_of d fuel (fl_l f) (P x) (ext x) (full x) x /\ project_files (P x) w) ->
  run_outputs f l (listed files w) P ->
  (forall x g, listed files w x -> separate_file (P x) g ->
     let o := options_for (tool_options f x) (P x) g in can_write o l w /\ ~ unformatted l (o_package o) (full x g)) ->
  exists w', main d fuel f w = CExit 0 true w' /\
    (forall x, listed files w x -> output_present (tool_options f x) l (P x) x (full x x) w') /\
    (forall x g, listed files w x -> needed (fl_l f) (P x) (ext x) (full x) g ->
       exists y, listed files w y /\ separate_file (P y) g /\ (g = x <-> g = y) /\ output_present (tool_options f y) l (P y) g (full y g) w') /\
    (forall c, get c (w_fs w') = get c (w_fs w) \/ exists x g, listed files w x /\ separate_file (P x) g /\
       let o := options_for (tool_options f x) (P x) g in
       ((get c (w_fs w) = None /\ get c (w_fs w') = Some NDir /\ exists p, output_place o p /\ In c (lineage (dir p))) \/
        (get c (w_fs w) <> Some NDir /\ (exists b, get c (w_fs w') = Some (NFile b)) /\ exists n, output_file o l n /\ c = clean n))).
Proof.
  intros E d fuel f l P ext full w files [H1 [H2 [H3 H4]]] Hl Hd Hfiles Hroot Hout Hcan.
  rewrite main_accepted by assumption. rewrite Hfiles.
  destruct (directory_run d fuel f l P ext full (listed files w) Hl Hout) with (files := files) (w := w) as [w' [R1 [R2 [R3 _]]]]; auto.
  { intros x g Hx Hg. exact (proj2 (Hcan x g Hx Hg)). }
  { intros x Hx. destruct (Hroot x Hx) as [Hs|[Hr Hp]]; [now left|right].
    assert (Hlx : listed files w x).
    { split; [exact Hx|]. destruct Hr as [_ [_ [_ [s [Hs _]]]]]. destruct (proj2 Hp x s Hs) as [b [Hb _]]. now exists b. }
    split; [exact Hlx|]. split; [exact Hr|]. split; [exact Hp|]. intros g Hg. exact (proj1 (Hcan x g Hlx Hg)). }
  exists w'. split; [exact R1|]. split; [|split].
  - intros x [Hx [b Hb]]. destruct (R3 x b x Hx Hb) as [y [_ [_ [Hi Ho]]]].
    + destruct (Hroot x Hx) as [Hs|[[Hr _] _]]; [congruence|]. rewrite <- Hr at 4. apply needed_root.
    + now rewrite <- (proj1 Hi eq_refl) in Ho.
  - intros x g [Hx [b Hb]] Hn. exact (R3 x b g Hx Hb Hn).
  - intros c. destruct (R2 c) as [Hc|[[A1 [A2 [[x g] [p [[B1 B2] B3]]]]]|[A1 [A2 [[x g] [n [[B1 B2] B3]]]]]]]; [now left|right; exists x, g..].
    + split; [exact B1|]. split; [exact B2|]. left. split; [exact A1|]. split; [exact A2|]. now exists p.
    + split; [exact B1|]. split; [exact B2|]. right. split; [exact A1|]. split; [exact A2|]. now exists n.
Qed.
Print Assumptions C51_directory.

(** a.xsd imports b.xsd, which imports d.xsd, and includes c.xsd.  d.xsd imports
    b.xsd again. *)
Definition ns_tag (prefixes : list string) : list xattr := map (fun p => xmlns p ("urn:" ++ p)) prefixes.
Definition import_att (p : string) : list xattr := [att "namespace" ("urn:" ++ p); att "schemaLocation" (p ++ ".xsd")].
Definition four_files : smap schema :=
  [("in/a.xsd", mkSchema (att "targetNamespace" "urn:a" :: ns_tag ["b"; "xs"]) [Import (import_att "b"); Include [att "schemaLocation" "c.xsd"]]
      [DComplex [att "name" "Order"]
         (BText "An order" (BElement (named "code" "b:Code") [] (BElement (named "part" "Part") [] (BElement (named "n" "xs:int") [] (BElement (named "more" "b:More") [] BEnd)))))]);
   ("in/b.xsd", mkSchema (ns_tag ["b"; "d"]) [Import (import_att "d")]
      [DSimple [att "name" "Code"] [] (Derived (Restricted [att "base" "d:Raw"] [] [])); DComplex [att "name" "More"] (BElement (named "again" "b:Code") [] BEnd)]);
   ("in/c.xsd", mkSchema [] [] [DSimple [att "name" "Part"] [] (Derived (Restricted [att "base" "xs:decimal"] [] []))]);
   ("in/d.xsd", mkSchema (ns_tag ["b"; "d"]) [Import (import_att "b")] [DSimple [att "name" "Raw"] [] (Derived (Restricted [att "base" "xs:string"] [] []));
      DComplex [att "name" "Back"] (BElement (named "code" "b:Code") [] BEnd)])].
Definition four : project := mkProject "in" "in/a.xsd" (fun file => get file four_files)
  (fun p => if in_dec string_dec p ["b"; "d"; "xs"] then "urn:" ++ p else "")
  (fun n => if string_dec n "urn:b" then Some "b.xsd" else if string_dec n "urn:d" then Some "d.xsd" else None)
  (fun file => if string_dec file "in/a.xsd" then 2 else if string_dec file "in/b.xsd" then 1 else 0).
Definition tree_of (r : option (list proto)) : list proto := match r with Some t => t | None => [] end.
Definition decls_of (file : string) : list component := match get file four_files with Some s => s_decls s | None => [] end.
Definition four_ext (file : string) : list proto := tree_of (schema_in (resolve_in true "TypeScript") max_occurs (decls_of file) []).
Definition full_with (full : string -> list proto) (file : string) : list proto :=
  tree_of (schema_in (stand_in "TypeScript" four four_ext full ["c.xsd"] file) max_occurs (decls_of file) []).
Definition four_d : list proto := Eval vm_compute in full_with (fun _ => []) "in/d.xsd".
Definition four_b : list proto := Eval vm_compute in full_with (fun g => if string_dec g "in/d.xsd" then four_d else []) "in/b.xsd".
Definition four_a : list proto := Eval vm_compute in full_with (fun g => if string_dec g "in/d.xsd" then four_d else if string_dec g "in/b.xsd" then four_b else []) "in/a.xsd".
Definition four_full (g : string) : list proto :=
  if string_dec g "in/a.xsd" then four_a else if string_dec g "in/b.xsd" then four_b else if string_dec g "in/d.xsd" then four_d else [].
Definition four_docs : smap (list token) := map (fun x => (fst x, document (snd x))) four_files.
Definition four_world : World := demo_world [("a.xsd", "in/a.xsd"); ("b.xsd", "in/b.xsd"); ("c.xsd", "in/c.xsd"); ("d.xsd", "in/d.xsd")].
Definition four_flags : flags := mkFlags "in/a.xsd" "out" "" "TypeScript" false false.

Lemma four_schema : forall file s, pr_schema four file = Some s -> In (file, s) four_files.
Proof.
  intros file s H. cbn [pr_schema four] in H. unfold four_files in *. cbn [get] in H.
  repeat match type of H with context [String.eqb ?k ?x] => destruct (String.eqb_spec k x) as [<-|_]; [injection H as <-; cbn [In]; tauto|] end.
  discriminate.
Qed.

Lemma four_location : forall n x, pr_loc four n = Some x -> (n = "urn:b" /\ x = "b.xsd") \/ (n = "urn:d" /\ x = "d.xsd").
Proof.
  intros n x H. cbn [pr_loc four] in H. destruct (string_dec n "urn:b") as [->|_]; [injection H as <-; now left|].
  destruct (string_dec n "urn:d") as [->|_]; [injection H as <-; now right|discriminate].
Qed.

Lemma four_separate : forall file, separate_file four file -> file = "in/a.xsd" \/ file = "in/b.xsd" \/ file = "in/d.xsd".
Proof. intros file [->|[n [x [H ->]]]]; [now left|]. apply four_location in H as [[_ ->]|[_ ->]]; auto. Qed.

Lemma four_included : forall x, included four x -> x = "c.xsd".
Proof.
  intros x [s [l [Hs [Hl Hx]]]]. vm_compute in Hs. injection Hs as <-. cbn [s_links In] in Hl.
  destruct Hl as [Hl|[Hl|[]]]; [discriminate|]. injection Hl as <-. vm_compute in Hx. now destruct Hx as [<-|[]].
Qed.

Lemma import_att_of : forall p, import_of (import_att p) ("urn:" ++ p) (p ++ ".xsd").
Proof.
  intros p. exists [], [], [], "", "". split; [reflexivity|]. intros k _. repeat split; constructor.
Qed.

Lemma prefix_check : forall p l, existsb (fun x => String.eqb (a_space x) "xmlns" && String.eqb (a_local x) p) l = true ->
  exists x, In x l /\ a_space x = "xmlns" /\ a_local x = p.
Proof.
  intros p l H. apply existsb_exists in H as [x [Hx H]]. apply andb_true_iff in H as [H1 H2]. apply String.eqb_eq in H1, H2. now exists x.
Qed.

Lemma four_within : within four "in/b.xsd" "in/d.xsd".
Proof.
  assert (H : forall h, bypasses four "in/b.xsd" h -> h = "in/a.xsd").
  { intros h H. induction H as [_|file s v h _ -> Hs Hm [x [Hx ->]] Hne]; [reflexivity|]. vm_compute in Hs. injection Hs as <-. apply schema_names_spec in Hm.
    vm_compute in Hm. repeat (destruct Hm as [<-|Hm]; [vm_compute in Hx; first [discriminate|injection Hx as <-; now elim Hne]|]). destruct Hm. }
  intros Hd. apply H in Hd. discriminate.
Qed.

Lemma four_coherent : forall (E := demo four_docs first_choice), coherent four.
Proof.
  intros E. constructor.
  - discriminate.
  - intros file s H. apply four_schema in H. cbn [four_files In] in H. repeat (destruct H as [H|H]; [injection H as <- <-; reflexivity|]). destruct H.
  - reflexivity.
  - intros file s x H Hx Hsp. apply four_schema in H. cbn [four_files In] in H.
    repeat (destruct H as [H|H]; [injection H as <- <-; cbn in Hx; repeat (destruct Hx as [<-|Hx]; [first [reflexivity|discriminate]|]); destruct Hx|]). destruct H.
  - intros file s l H Hl. right. apply four_schema in H. cbn [four_files In] in H.
    assert (Hp : exists p, In p ["b"; "d"] /\ l = import_att p).
    { repeat (destruct H as [H|H]; [injection H as <- <-; cbn in Hl; repeat (destruct Hl as [Hl|Hl]; [first [discriminate|injection Hl as <-; now (exists "b"; cbn; tauto) || (exists "d"; cbn; tauto)]|]); destruct Hl|]). destruct H. }
    destruct Hp as [p [Hp ->]]. exists ("urn:" ++ p), (p ++ ".xsd"). split; [apply import_att_of|left]. destruct Hp as [<-|[<-|[]]]; reflexivity.
  - intros n x H. apply four_location in H as [[-> ->]|[-> ->]]; (split; [discriminate|split; [|discriminate]]); intros Hu; apply url_spec in Hu; discriminate.
  - intros n m x y Hn Hm He. apply four_location in Hn as [[-> ->]|[-> ->]]; apply four_location in Hm as [[-> ->]|[-> ->]]; reflexivity || (vm_compute in He; discriminate).
  - intros file s l x H Hl Hx. apply four_schema in H. cbn [four_files In] in H.
    assert (Hc : x = "c.xsd").
    { repeat (destruct H as [H|H]; [injection H as <- <-; cbn in Hl; repeat (destruct Hl as [Hl|Hl]; [first [discriminate|injection Hl as <-; cbn in Hx; now destruct Hx as [<-|[]]]|]); destruct Hl|]). destruct H. }
    subst x. split; [|discriminate]. eexists. exists [att "schemaLocation" "c.xsd"]. split; [reflexivity|]. split; [right; left; reflexivity|now left].
  - intros file s v g Hf H Hm Hb. apply four_schema in H. apply schema_names_spec in Hm. destruct Hb as [x [Hx ->]].
    cbn [four_files In] in H. repeat (destruct H as [H|H]; [injection H as <- <-; vm_compute in Hm;
      repeat (destruct Hm as [<-|Hm]; [vm_compute in Hx; first [discriminate|injection Hx as <-; split;
        [apply prefix_check; vm_compute; reflexivity|
         first [left; split; [reflexivity|discriminate]|right; split; [first [left; vm_compute; lia|right; split; [vm_compute; lia|exact four_within]]|]; first [exists (import_att "b"), "b.xsd"; split; [left; reflexivity|split; [exact (import_att_of "b")|reflexivity]]
           |exists (import_att "d"), "d.xsd"; split; [left; reflexivity|split; [exact (import_att_of "d")|reflexivity]]]]]]|]); destruct Hm|]). destruct H.
Qed.

Lemma four_declares : declares "TypeScript" four four_ext four_full.
Proof.
  constructor.
  - intros file s H. exists (resolve_in true "TypeScript"), max_occurs. split; [apply resolve_in_resolution|]. split; [apply max_occurs_counts|].
    apply four_schema in H. cbn [four_files In] in H. repeat (destruct H as [H|H]; [injection H as <- <-; vm_compute; reflexivity|]). destruct H.
  - intros file s Hf H. exists (stand_in "TypeScript" four four_ext four_full ["c.xsd"] file), max_occurs.
    split; [intros v tree; exact (stand_in_stands "TypeScript" four four_ext four_full (snd (nth 0 four_files ("", mkSchema [] [] []))) file v tree eq_refl)|]. split; [apply max_occurs_counts|].
    apply four_separate in Hf. destruct Hf as [->|[->| ->]]; vm_compute in H; injection H as <-; vm_compute; reflexivity.
  - intros n x y b c Hx Hy Hb Hc. apply four_included in Hx, Hy. subst x y. apply TableProofs.get_base_first in Hb, Hc. congruence.
Qed.

Lemma four_outputs : forall (E := demo four_docs first_choice) x n, separate_file four x ->
  output_file (options_for (tool_options four_flags "in/a.xsd") four x) TypeScript n ->
  (x = "in/a.xsd" /\ n = "out.ts") \/ (x = "in/b.xsd" /\ n = "out/in/b.xsd.ts") \/ (x = "in/d.xsd" /\ n = "out/in/d.xsd.ts").
Proof. intros E x n Hx H. apply four_separate in Hx. destruct Hx as [->|[->| ->]]; apply output_file_spec in H; vm_compute in H; auto. Qed.

(** A resolver that answers differently for one question. *)
Definition except (res : string -> list proto -> string) (v : string) (b : string) (v' : string) (tree' : list proto) : string :=
  match tree' with [] => if string_dec v' v then b else res v' tree' | _ => res v' tree' end.

Lemma four_needed : needed "TypeScript" four four_ext four_full "in/d.xsd".
Proof.
  assert (Hr : forall file g v s, pr_schema four file = Some s -> separate_file four file -> consulted "TypeScript" four file v [] g ->
    schema_in (stand_in "TypeScript" four four_ext four_full ["c.xsd"] file) max_occurs (s_decls s) [] = Some (four_full file) ->
    (exists other, schema_in (except (stand_in "TypeScript" four four_ext four_full ["c.xsd"] file) v "new") max_occurs (s_decls s) [] = Some other /\
       other <> four_full file) ->
    requires "TypeScript" four four_ext four_full file g).
  { intros file g v s Hs _ Hc H1 [other [H2 H3]].
    exists s, (stand_in "TypeScript" four four_ext four_full ["c.xsd"] file), (except (stand_in "TypeScript" four four_ext four_full ["c.xsd"] file) v "new"),
      max_occurs, v, [], other.
    split; [exact Hs|]. split; [exact Hc|].
    split; [intros v' tree; exact (stand_in_stands "TypeScript" four four_ext four_full (snd (nth 0 four_files ("", mkSchema [] [] []))) file v' tree eq_refl)|].
    split; [apply max_occurs_counts|]. split; [exact H1|]. split; [|now split].
    intros v' tree' Hd. unfold except. destruct tree'; [|reflexivity]. destruct (string_dec v' v); [|reflexivity]. destruct Hd as [Hd|Hd]; now elim Hd. }
  assert (Hc : forall file g v, representation "TypeScript" (local_part v) = None -> g <> file -> belongs four v g -> consulted "TypeScript" four file v [] g).
  { intros file g v H1 H2 H3. split; [exact H1|]. split; [|now split]. exists (local_part v). split; [right; split; [intros q u []|reflexivity]|now intros [H _]]. }
  apply (needed_import _ _ _ _ "in/b.xsd"); [apply (needed_import _ _ _ _ "in/a.xsd"); [apply needed_root|]|].
  - apply (Hr "in/a.xsd" "in/b.xsd" "b:Code" (snd (nth 0 four_files ("", mkSchema [] [] []))) eq_refl (or_introl eq_refl)).
    + apply Hc; [reflexivity|discriminate|]. exists "b.xsd". now split.
    + vm_compute. reflexivity.
    + eexists. split; [vm_compute; reflexivity|vm_compute; discriminate].
  - apply (Hr "in/b.xsd" "in/d.xsd" "d:Raw" (snd (nth 1 four_files ("", mkSchema [] [] []))) eq_refl).
    + right. exists "urn:b", "b.xsd". now split.
    + apply Hc; [reflexivity|discriminate|]. exists "d.xsd". now split.
    + vm_compute. reflexivity.
    + eexists. split; [vm_compute; reflexivity|vm_compute; discriminate].
Qed.

Definition order_program : string :=
"// Code generated by xgen. DO NOT EDIT.
" ++ String "013" "
// Order is An order" ++ String "013" "
export class Order {
	Code: string;
	Part: number;
	N: number;
	More: More;
}
".

Example C51_example :
  let E := demo four_docs first_choice in
  let o := tool_options four_flags "in/a.xsd" in
  accepted four_flags /\ coherent four /\ declares "TypeScript" four four_ext four_full /\
  project_files four four_world /\ project_outputs o TypeScript four /\
  (forall file, separate_file four file -> can_write (options_for o four file) TypeScript four_world) /\
  (forall file, separate_file four file -> ~ unformatted TypeScript (o_package (options_for o four file)) (four_full file)) /\
  needed "TypeScript" four four_ext four_full "in/d.xsd" /\
  four_full "in/b.xsd" = [PSimple (mkSimple "" "Code" "string" false false [] []); PComplex (mkComplex "" "More" "" [el "again" "string" false] [] [] [])] /\
  exists w', main 4 2 four_flags four_world = CExit 0 true w' /\ get "out.ts" (w_fs w') = Some (NFile order_program) /\
    get "out/in/b.xsd.ts" (w_fs w') <> None /\ get "out/in/d.xsd.ts" (w_fs w') <> None /\ get "out/in/c.xsd.ts" (w_fs w') = None.
Proof.
  cbv zeta. split; [repeat split; [discriminate|cbn; tauto]|]. split; [apply four_coherent|]. split; [apply four_declares|].
  split; [|split; [|split; [|split; [|split; [|split]]]]].
  - split; [vm_compute; reflexivity|]. intros file s H. apply four_schema in H. exists file. cbn [four_files In] in H.
    repeat (destruct H as [H|H]; [injection H as <- <-; split; [vm_compute; reflexivity|split; [reflexivity|split;
      [apply written_same; vm_compute; reflexivity|apply named_tags_check; vm_compute; reflexivity]]]|]). destruct H.
  - intros a b n Ha Hn. apply four_outputs in Hn; [|exact Ha]. split.
    + intros Hb He. destruct (pr_schema four b) as [s|] eqn:Hs; [|now apply Hb]. apply four_schema in Hs. cbn [four_files In] in Hs.
      destruct Hn as [[_ ->]|[[_ ->]|[_ ->]]]; repeat (destruct Hs as [Hs|Hs]; [injection Hs as <- <-; vm_compute in He; discriminate|]); destruct Hs.
    + intros Hb. split.
      * intros m Hm He. apply four_outputs in Hm; [|exact Hb].
        destruct Hn as [[-> ->]|[[-> ->]|[-> ->]]]; destruct Hm as [[-> ->]|[[-> ->]|[-> ->]]]; reflexivity || (vm_compute in He; discriminate).
      * intros p Hp. apply place_spec in Hp as ->. apply four_separate in Hb.
        destruct Hn as [[-> ->]|[[-> ->]|[-> ->]]]; destruct Hb as [->|[->| ->]]; vm_compute; intuition discriminate.
  - intros x Hx. split.
    + intros p Hp. apply place_spec in Hp as ->. apply four_separate in Hx. split; [reflexivity|]. intros a Ha. split; [reflexivity|].
      destruct Hx as [->|[->| ->]]; vm_compute in Ha; repeat (destruct Ha as [<-|Ha]; [vm_compute; discriminate|]); destruct Ha.
    + intros n Hn. apply four_outputs in Hn; [|exact Hx]. destruct Hn as [[_ ->]|[[_ ->]|[_ ->]]]; (split; [reflexivity|split; [reflexivity|vm_compute; discriminate]]).
  - intros x _ [H _]. discriminate.
  - apply four_needed.
  - vm_compute. reflexivity.
  - eexists. split; [vm_compute; reflexivity|]. split; [vm_compute; reflexivity|]. split; [vm_compute; discriminate|]. split; [vm_compute; discriminate|vm_compute; reflexivity].
Qed.

(** Without coherent prefixes the property fails: the tag of an imported schema
    changes what the prefixes of the schema that imports it stand for.  The type
    of the first element is found in b.xsd; b.xsd gives another meaning to the
    prefix b, and the type of the second element is then looked for in d.xsd. *)
Theorem C51_prefix_refuted :
  let b_body := (d_simple "Code" "xs:string" ++ d_simple "Size" "xs:int")%list in
  let a_body := (d_import "urn:b" "b.xsd" ++ d_import "urn:d" "d.xsd" ++ d_element "code" "b:Code" ++ d_element "size" "b:Size")%list in
  let components bd := see (parse (E := demo [("A", d_schema [xmlns "b" "urn:b"] a_body); ("B", d_schema [xmlns "b" bd] b_body); ("D", d_schema [] [])] first_choice)
    3 1 (demo_opts "a.xsd" "Go" false) (demo_world [("a.xsd", "A"); ("b.xsd", "B"); ("d.xsd", "D")])) in
  components "urn:b" = Comps [PElement (el "code" "string" false); PElement (el "size" "int" false)] /\
  components "urn:d" = Comps [PElement (el "code" "string" false); PElement (el "size" "Size" false)].
Proof. split; vm_compute; reflexivity. Qed.
Print Assumptions C51_prefix_refuted.

(** An imported type that uses a third schema is only resolved if its own schema
    declares it before it is used there. *)
Theorem C51_order_refuted :
  let d_body := d_simple "Raw" "xs:string" in
  let b_code := d_simple "Code" "d:Raw" in
  let b_use := d_element "again" "b:Code" in
  let components b_body := see (parse (E := demo [("B", d_schema [xmlns "b" "urn:b"; xmlns "d" "urn:d"] (d_import "urn:b" "b.xsd" ++ d_import "urn:d" "d.xsd" ++ b_body)%list);
      ("D", d_schema [] d_body)] first_choice)
    4 1 (demo_opts "b.xsd" "Go" false) (demo_world [("b.xsd", "B"); ("d.xsd", "D")])) in
  components (b_code ++ b_use)%list = Comps [PSimple (mkSimple "" "Code" "string" false false [] []); PElement (el "again" "string" false)] /\
  components (b_use ++ b_code)%list = Comps [PElement (el "again" "Raw" false); PSimple (mkSimple "" "Code" "string" false false [] [])].
Proof. split; vm_compute; reflexivity. Qed.
Print Assumptions C51_order_refuted.

(** A directory with two schemas that import each other. *)
Definition duo_files : smap schema :=
  [("in/a.xsd", mkSchema (ns_tag ["b"; "xs"]) [Import (import_att "b")]
      [DSimple [att "name" "Unit"] [] (Derived (Restricted [att "base" "xs:token"] [] [])); DComplex [att "name" "Order"] (BElement (named "code" "b:Code") [] BEnd)]);
   ("in/b.xsd", mkSchema (ns_tag ["a"]) [Import (import_att "a")]
      [DComplex [att "name" "Box"] (BElement (named "unit" "a:Unit") [] (BElement (named "order" "a:Order") [] BEnd));
       DSimple [att "name" "Code"] [] (Derived (Restricted [att "base" "xs:int"] [] []))])].
Definition duo (x : string) : project := mkProject "in" x (fun file => get file duo_files)
  (fun p => if in_dec string_dec p ["a"; "b"; "xs"] then "urn:" ++ p else "")
  (fun n => if string_dec n "urn:a" then Some "a.xsd" else if string_dec n "urn:b" then Some "b.xsd" else None)
  (fun file => if string_dec file x then 1 else 0).
Definition duo_tree (code : string) (file : string) : list proto :=
  if string_dec file "in/a.xsd"
  then [PSimple (mkSimple "" "Unit" "string" false false [] []); PComplex (mkComplex "" "Order" "" [el "code" code false] [] [] [])]
  else [PComplex (mkComplex "" "Box" "" [el "unit" (if string_dec code "Code" then "Unit" else "string") false; el "order" "Order" false] [] [] []);
        PSimple (mkSimple "" "Code" "number" false false [] [])].
Definition duo_ext (x : string) : string -> list proto := duo_tree "Code".
Definition duo_full (x : string) : string -> list proto := duo_tree "number".
Definition duo_docs : smap (list token) := map (fun x => (fst x, document (snd x))) duo_files.
Definition duo_world : World := mkW [("in", NDir); ("in/a.xsd", NFile "in/a.xsd"); ("in/b.xsd", NFile "in/b.xsd")] [] [] [] [] [] 0 [].
Definition duo_flags : flags := mkFlags "in" "out" "" "TypeScript" false false.

Lemma duo_schema : forall x file s, pr_schema (duo x) file = Some s ->
  (file, s) = nth 0 duo_files ("", mkSchema [] [] []) \/ (file, s) = nth 1 duo_files ("", mkSchema [] [] []).
Proof.
  intros x file s H. cbn [pr_schema duo] in H. unfold duo_files in *. cbn [get nth] in *.
  repeat match type of H with context [String.eqb ?k ?x] => destruct (String.eqb_spec k x) as [<-|_]; [injection H as <-; auto|] end. discriminate.
Qed.

Definition duo_root (x : string) : Prop := x = "in/a.xsd" \/ x = "in/b.xsd".

Lemma duo_location : forall x n y, pr_loc (duo x) n = Some y -> (n = "urn:a" /\ y = "a.xsd") \/ (n = "urn:b" /\ y = "b.xsd").
Proof.
  intros x n y H. cbn in H. destruct (string_dec n "urn:a") as [->|_]; [injection H as <-; auto|].
  destruct (string_dec n "urn:b") as [->|_]; [injection H as <-; auto|discriminate].
Qed.

Lemma duo_separate : forall x file, duo_root x -> separate_file (duo x) file -> file = "in/a.xsd" \/ file = "in/b.xsd".
Proof.
  intros x file Hx [->|[n [y [H ->]]]]; [exact Hx|]. apply duo_location in H as [[_ ->]|[_ ->]]; [now left|now right].
Qed.

Lemma duo_included : forall x y, ~ included (duo x) y.
Proof.
  intros x y [s [l [Hs [Hl Hy]]]]. apply duo_schema in Hs. cbn in Hs.
  destruct Hs as [Hs|Hs]; injection Hs; intros; subst; cbn in Hl; intuition discriminate.
Qed.

Lemma duo_within : forall x file, within (duo x) x file.
Proof. intros x file. exact (within_root (duo x) file). Qed.

Lemma duo_coherent : forall (E := demo duo_docs first_choice) x, duo_root x -> coherent (duo x).
Proof.
  intros E x Hx. constructor.
  - destruct Hx as [->| ->]; discriminate.
  - intros file s H. apply duo_schema in H. cbn in H. destruct H as [H|H]; injection H; intros; subst; reflexivity.
  - reflexivity.
  - intros file s y H Hy Hsp. apply duo_schema in H. cbn in H.
    destruct H as [H|H]; injection H; intros; subst; cbn in Hy; repeat (destruct Hy as [<-|Hy]; [first [reflexivity|discriminate]|]); destruct Hy.
  - intros file s l H Hl. right. apply duo_schema in H. cbn in H.
    destruct H as [H|H]; injection H; intros; subst; cbn in Hl; destruct Hl as [Hl|[]]; injection Hl as <-.
    + exists "urn:b", "b.xsd". split; [exact (import_att_of "b")|left; reflexivity].
    + exists "urn:a", "a.xsd". split; [exact (import_att_of "a")|left; reflexivity].
  - intros n y H. apply duo_location in H as [[-> ->]|[-> ->]]; (split; [discriminate|]; split; [|discriminate]); intros Hu; apply url_spec in Hu; discriminate.
  - intros n m y z Hn Hm He. apply duo_location in Hn as [[-> ->]|[-> ->]]; apply duo_location in Hm as [[-> ->]|[-> ->]]; reflexivity || (vm_compute in He; discriminate).
  - intros file s l y H Hl Hy. apply duo_schema in H. cbn in H.
    destruct H as [H|H]; injection H; intros; subst; cbn in Hl; intuition discriminate.
  - intros file s v g Hf H Hm [y [Hy ->]]. apply duo_schema in H. cbn in H. apply schema_names_spec in Hm.
    destruct H as [H|H]; injection H; intros; subst; vm_compute in Hm;
      repeat (destruct Hm as [<-|Hm]; [vm_compute in Hy; first [discriminate|injection Hy as <-; split; [apply prefix_check; vm_compute; reflexivity|]]|]); try now destruct Hm.
    all: right; split.
    1, 3, 5: destruct Hx as [->| ->]; [first [left; vm_compute; lia|right; split; [vm_compute; lia|apply duo_within]]..].
    + exists (import_att "b"), "b.xsd". split; [left; reflexivity|]. split; [exact (import_att_of "b")|reflexivity].
    + exists (import_att "a"), "a.xsd". split; [left; reflexivity|]. split; [exact (import_att_of "a")|reflexivity].
    + exists (import_att "a"), "a.xsd". split; [left; reflexivity|]. split; [exact (import_att_of "a")|reflexivity].
Qed.

Lemma duo_declares : forall x, duo_root x -> declares "TypeScript" (duo x) (duo_ext x) (duo_full x).
Proof.
  intros x Hx. constructor.
  - intros file s H. exists (resolve_in true "TypeScript"), max_occurs. split; [apply resolve_in_resolution|]. split; [apply max_occurs_counts|].
    apply duo_schema in H. cbn in H. destruct H as [H|H]; injection H; intros; subst; vm_compute; reflexivity.
  - intros file s Hf H. exists (stand_in "TypeScript" (duo x) (duo_ext x) (duo_full x) [] file), max_occurs.
    assert (Hr : exists s, pr_schema (duo x) x = Some s /\ include_locations s = []) by (destruct Hx as [->| ->]; eexists; split; reflexivity).
    destruct Hr as [s0 [Hs0 Hi0]].
    split; [intros v tree; rewrite <- Hi0; now apply stand_in_stands|]. split; [apply max_occurs_counts|].
    apply duo_schema in H. cbn in H.
    destruct H as [H|H]; injection H; intros -> ->; destruct Hx as [->| ->]; vm_compute; reflexivity.
  - intros n y z b c Hy. now apply duo_included in Hy.
Qed.

Lemma duo_outputs : forall (E := demo duo_docs first_choice) x g n, duo_root x -> separate_file (duo x) g ->
  output_file (options_for (tool_options duo_flags x) (duo x) g) TypeScript n ->
  (x = "in/a.xsd" /\ g = "in/a.xsd" /\ n = "out/a.xsd.ts") \/ (x = "in/a.xsd" /\ g = "in/b.xsd" /\ n = "out/in/b.xsd.ts") \/
  (x = "in/b.xsd" /\ g = "in/b.xsd" /\ n = "out/b.xsd.ts") \/ (x = "in/b.xsd" /\ g = "in/a.xsd" /\ n = "out/in/a.xsd.ts").
Proof.
  intros E x g n Hx Hg Hn. apply duo_separate in Hg; [|exact Hx]. apply output_file_spec in Hn.
  destruct Hg as [->| ->]; destruct Hx as [->| ->]; vm_compute in Hn; auto 6.
Qed.

Definition box_program : string :=
"// Code generated by xgen. DO NOT EDIT.
" ++ String "013" "
// Box ..." ++ String "013" "
export class Box {
	Unit: string;
	Order: Order;
}
" ++ String "013" "
// Code ..." ++ String "013" "
export type Code = number;
".

Example C51_directory_example :
  let E := demo duo_docs first_choice in
  let files := ["in"; "in/a.xsd"; "in/b.xsd"; "in"] in
  accepted duo_flags /\ get_file_list "in" duo_world = Some files /\
  (forall x, In x files -> stat x duo_world = SDir \/ root_of 3 1 "TypeScript" (duo x) (duo_ext x) (duo_full x) x /\ project_files (duo x) duo_world) /\
  run_outputs duo_flags TypeScript (listed files duo_world) duo /\
  (forall x g, listed files duo_world x -> separate_file (duo x) g ->
     let o := options_for (tool_options duo_flags x) (duo x) g in can_write o TypeScript duo_world /\ ~ unformatted TypeScript (o_package o) (duo_full x g)) /\
  exists w', main 3 1 duo_flags duo_world = CExit 0 true w' /\ get "out/b.xsd.ts" (w_fs w') = Some (NFile box_program) /\
    get "out/in/b.xsd.ts" (w_fs w') = Some (NFile box_program) /\ get "out/a.xsd.ts" (w_fs w') <> None /\ get "out/in/a.xsd.ts" (w_fs w') = get "out/a.xsd.ts" (w_fs w').
Proof.
  cbv zeta.
  assert (Hroots : forall x, @listed (demo duo_docs first_choice) ["in"; "in/a.xsd"; "in/b.xsd"; "in"] duo_world x -> duo_root x).
  { intros x [[<-|[<-|[<-|[<-|[]]]]] [b Hb]]; [discriminate|now left|now right|discriminate]. }
  split; [repeat split; [discriminate|cbn; tauto]|]. split; [vm_compute; reflexivity|]. split; [|split; [|split]].
  - assert (Hgood : forall (E := demo duo_docs first_choice) x, duo_root x -> root_of 3 1 "TypeScript" (duo x) (duo_ext x) (duo_full x) x /\ project_files (duo x) duo_world).
    { intros E x Hx. split.
      - split; [reflexivity|]. split; [now apply duo_coherent|]. split; [now apply duo_declares|].
        destruct Hx as [->| ->]; eexists; (split; [reflexivity|split; vm_compute; lia]).
      - split; [vm_compute; reflexivity|]. intros file s H. apply duo_schema in H. cbn in H. exists file.
        destruct H as [H|H]; injection H; intros; subst; (split; [vm_compute; reflexivity|split; [reflexivity|split;
          [apply written_same; vm_compute; reflexivity|apply named_tags_check; vm_compute; reflexivity]]]). }
    intros x [<-|[<-|[<-|[<-|[]]]]]; [left; vm_compute; reflexivity|right; apply Hgood; now left|right; apply Hgood; now right|left; vm_compute; reflexivity].
  - intros x y a b n Hx Hy Ha Hn. apply Hroots in Hx, Hy. apply duo_outputs in Hn; [|exact Hx|exact Ha]. split.
    + intros Hb He. destruct (pr_schema (duo y) b) as [s|] eqn:Hs; [|now apply Hb]. apply duo_schema in Hs. cbn in Hs.
      destruct Hs as [Hs|Hs]; injection Hs; intros; subst; destruct Hn as [[_ [_ ->]]|[[_ [_ ->]]|[[_ [_ ->]]|[_ [_ ->]]]]]; vm_compute in He; discriminate.
    + intros Hb. split.
      * intros m Hm He. apply duo_outputs in Hm; [|exact Hy|exact Hb].
        destruct Hn as [[-> [-> ->]]|[[-> [-> ->]]|[[-> [-> ->]]|[-> [-> ->]]]]]; destruct Hm as [[-> [-> ->]]|[[-> [-> ->]]|[[-> [-> ->]]|[-> [-> ->]]]]];
          first [split; [reflexivity|tauto] | vm_compute in He; discriminate].
      * intros p Hp. apply place_spec in Hp as ->. apply duo_separate in Hb; [|exact Hy].
        destruct Hn as [[_ [_ ->]]|[[_ [_ ->]]|[[_ [_ ->]]|[_ [_ ->]]]]]; (destruct Hb as [->| ->]; destruct Hy as [->| ->]); vm_compute; intuition discriminate.
  - intros x g Hx Hg. apply Hroots in Hx. split; [split|].
    + intros p Hp. apply place_spec in Hp as ->. apply duo_separate in Hg; [|exact Hx]. split; [reflexivity|]. intros a Ha. split; [reflexivity|].
      (destruct Hg as [->| ->]; destruct Hx as [->| ->]); vm_compute in Ha; repeat (destruct Ha as [<-|Ha]; [vm_compute; discriminate|]); destruct Ha.
    + intros n Hn. apply duo_outputs in Hn; [|exact Hx|exact Hg].
      destruct Hn as [[_ [_ ->]]|[[_ [_ ->]]|[[_ [_ ->]]|[_ [_ ->]]]]]; (split; [reflexivity|split; [reflexivity|vm_compute; discriminate]]).
    + intros [H _]. discriminate.
  - eexists. split; [vm_compute; reflexivity|]. split; [vm_compute; reflexivity|]. split; [vm_compute; reflexivity|]. split; [vm_compute; discriminate|vm_compute; reflexivity].
Qed.

(** A schema that others import, parsed as the root: its own location is known
    only after one of them has been parsed.  The two elements have the same type,
    the schema declares it later, and they get different types. *)
Theorem C51_own_names_refuted :
  let a_body := (d_import "urn:b" "b.xsd" ++ d_element "first" "a:Late" ++ d_element "code" "b:Code" ++ d_element "second" "a:Late" ++ d_simple "Late" "xs:int")%list in
  let b_body := (d_import "urn:a" "a.xsd" ++ d_simple "Code" "xs:string")%list in
  see (parse (E := demo [("A", d_schema [xmlns "a" "urn:a"; xmlns "b" "urn:b"] a_body); ("B", d_schema [xmlns "a" "urn:a"] b_body)] first_choice)
    3 1 (demo_opts "a.xsd" "Go" false) (demo_world [("a.xsd", "A"); ("b.xsd", "B")])) =
  Comps [PElement (el "first" "Late" false); PElement (el "code" "string" false); PElement (el "second" "int" false);
         PSimple (mkSimple "" "Late" "int" false false [] [])].
Proof. vm_compute. reflexivity. Qed.
Print Assumptions C51_own_names_refuted.

(** Nor do locations in other directories work: the location that the root gives
    for a namespace is used as it is by a schema in another directory.  Without
    the second import in the root, the type of the element is found. *)
Theorem C51_other_directory_refuted :
  let b_body := (d_import "urn:c" "c.xsd" ++ d_simple "Code" "c:Raw")%list in
  let components more := see (parse (E := demo [("A", d_schema [xmlns "b" "urn:b"] (more ++ d_import "urn:b" "sub/b.xsd" ++ d_element "code" "b:Code")%list);
      ("B", d_schema [xmlns "c" "urn:c"] b_body); ("C", d_schema [] (d_simple "Raw" "xs:string"))] first_choice)
    4 1 (demo_opts "a.xsd" "Go" false) (demo_world [("a.xsd", "A"); ("sub/b.xsd", "B"); ("sub/c.xsd", "C")])) in
  components [] = Comps [PElement (el "code" "string" false)] /\
  components (d_import "urn:c" "sub/c.xsd") = Comps [PElement (el "code" "Code" false)].
Proof. split; vm_compute; reflexivity. Qed.
Print Assumptions C51_other_directory_refuted.
