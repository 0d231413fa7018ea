(** Property theorems: C69, members with different names. *)

From Coq Require Import String Ascii List NArith Bool.
From Verif Require Import GoStr GoPath Utf8 Base Utils SpecStr SpecTables GenGo GenC GenJava GenRust GenTS World Handlers Parser
  SpecGen SpecOut SpecSyntax SpecMembers StrProofs GenNames GenOutline GenRuns MembersProofs MembersCheck SpecFile FileProofs Demo.
Import ListNotations.
Local Open Scope string_scope.

(** The declarations that the generator for [l] makes from a component list. *)
Notation body l pt := (g_field (run_entries (entry_of l) pt)) (only parsing).

Local Instance plain_env : Env := demo [] first_choice.

Lemma plain_tables : case_tables_ok.
Proof. intros r Hr. split; left; exact Hr. Qed.

Definition elem (name type : string) (plural : bool) : Element := mkElement "" name type plural false.
Definition attr (name type : string) (optional : bool) : Attribute := mkAttribute name "" type false optional.

(** ** C69 *)

(** The names that the rows of the text declare are those of the members of
    the components, one by one and in this order. *)
Theorem C69_fields_partial : forall (E : Env) l pt, case_tables_ok -> tree_ok pt -> Forall (component_readable l pt) pt ->
  exists blocks, outline (body l pt) = Some (concat blocks) /\
    map (flat_map (fields l)) blocks =
    map (fun x => member_names l pt (fst (fst x)) (snd (fst x)) (snd x))
      (combine (rendered l [] pt) (identifiers l [] (map fst (rendered l [] pt)))).
Proof.
  intros E l pt Ht Hok Hr. destruct (expected_members Ht l pt Hr) as [blocks [He Hb]]. exists blocks. split; [|exact Hb].
  rewrite <- He. now apply outline_of_run.
Qed.
Print Assumptions C69_fields_partial.

(** No structure, class or enumeration has two members of one name. *)
Theorem C69_unique_partial : forall (E : Env) l pt, case_tables_ok -> tree_ok pt -> Forall (component_readable l pt) pt -> Forall (told_apart l pt) pt ->
  exists its, outline (body l pt) = Some its /\ Forall (fun it => NoDup (fields l it)) its.
Proof.
  intros E l pt Ht Hok Hr Hd. exists (expected l pt). split; [now apply outline_of_run | now apply expected_unique].
Qed.
Print Assumptions C69_unique_partial.

(** So it is in the output file of a successful parse. *)
Theorem C69_file_partial : forall (E : Env) d fuel o w bytes p w' l, case_tables_ok ->
  o_extract o = false -> stat (o_file o) w = SFile bytes -> parse d fuel o w = Ret p w' -> selects (o_lang o) l ->
  tree_ok (freeze p) -> Forall (component_readable l (freeze p)) (freeze p) -> Forall (told_apart l (freeze p)) (freeze p) ->
  exists name text decls its, output_file o l name /\ get (clean name) (w_fs w') = Some (NFile (env_write name text)) /\
    (let s := preamble l (o_package o) (imports (freeze p)) ++ decls in match l with Go => env_gofmt s = Some text | _ => text = s end) /\
    outline decls = Some its /\ Forall (fun it => NoDup (fields l it)) its.
Proof.
  intros E d fuel o w bytes p w' l Ht He Hs Hp Hl Hok Hr Hd.
  destruct (parse_writes d fuel o w bytes p w' l He Hs Hp Hl) as [name [text [Hn [[s [[decls [-> Hd']] Hw]] Hg]]]].
  exists name, text, decls, (expected l (freeze p)). split; [exact Hn|]. split; [exact Hg|]. split.
  - destruct l; exact Hw.
  - split; [now apply Hd' | now apply expected_unique].
Qed.
Print Assumptions C69_file_partial.

(** Members keep the names apart that the schema keeps apart. *)
Theorem C69_names : forall (E : Env) l n m, spelled l n -> spelled l m ->
  (member_ident l n = member_ident l m -> n = m) /\ (attribute_ident l n = attribute_ident l m -> n = m) /\
  (l <> Rust -> member_word l n -> member_ident l n <> attribute_ident l m).
Proof.
  intros E l n m Hn Hm. split; [now apply member_inj|]. split; [now apply attribute_inj|]. intros Hl Hw. now apply member_attribute.
Qed.
Print Assumptions C69_names.

(** *** An example with all kinds of components *)

Definition tree69 (text : string) : list proto :=
  [PSimple (mkSimple "" "either" "" false true [("size", "size"); ("other", text)] []);
   PSimple (mkSimple "" "color" text false false [] ["red"; "green"]);
   PComplex (mkComplex "" "item" text [elem "type" "color" true; elem "match" "either" false] [attr "size" text true; attr "shape" text false]
     [mkGroup "" "more" [] [] true "more"] [mkAttrGroup "" "extra" "extra" []]);
   PComplex (mkComplex "" "special" "item" [elem "price" text false] [attr "price2" text false] [] []);
   PElement (elem "list" "item" true);
   PAttribute (attr "size" text false);
   PGroup (mkGroup "" "more" [elem "first" text true; elem "second" text false] [mkGroup "" "third" [] [] false "third"] false "");
   PAttrGroup (mkAttrGroup "" "extra" "" [attr "first" text false; attr "second" text true])].

Ltac free_now := apply free_of_has_char; reflexivity.
Example C69_example : forall l text, In (l, text) [(Go, "string"); (C, "char"); (Java, "String"); (Rust, "String"); (TypeScript, "string")] ->
  case_tables_ok /\ tree_ok (tree69 text) /\ Forall (component_readable l (tree69 text)) (tree69 text) /\ Forall (told_apart l (tree69 text)) (tree69 text).
Proof.
  intros l text H. split; [exact plain_tables|]. split.
  - cbn in H. repeat (destruct H as [[= <- <-]|H]; [repeat constructor; free_now|]). destruct H.
  - apply members_check. cbn in H. repeat (destruct H as [[= <- <-]|H]; [vm_compute; reflexivity|]). destruct H.
Qed.

Definition names_of (l : lang) (pt : list proto) : list (list string) :=
  match outline (body l pt) with
  | Some its => filter (fun ns => match ns with [] => false | _ => true end) (map (fields l) its)
  | None => []
  end.

Example C69_texts :
  names_of Go (tree69 "string") =
    [["XMLName"; "Size"; "Other"]; ["XMLName"; "Extra"; "SizeAttr"; "ShapeAttr"; "More"; "Type"; "Match"; "Value"];
     ["XMLName"; "Price2Attr"; "Price"; "Item"]; ["XMLName"; "First"; "Second"; "Third"]; ["XMLName"; "FirstAttr"; "SecondAttr"]] /\
  names_of C (tree69 "char") =
    [["Other"; "Size"]; ["Extra"; "SizeAttr"; "ShapeAttr"; "More"; "Type"; "Match"]; ["Price2Attr"; "Price"]; ["First"; "Second"; "Third"];
     ["FirstAttr"; "SecondAttr"]] /\
  names_of Java (tree69 "String") =
    [["Other"; "Size"]; ["Color"]; ["Extra"; "SizeAttr"; "ShapeAttr"; "More"; "Type"; "Match"; "value"]; ["Price2Attr"; "Price"]; ["List"]; ["Size"];
     ["First"; "Second"; "Third"]; ["First"; "Second"]] /\
  names_of Rust (tree69 "String") =
    [["other"; "size"]; ["color"]; ["extra"; "size"; "shape"; "more"; "type_attr"; "match_attr"; "value"]; ["price2"; "price"; "item"]; ["list"]; ["size"];
     ["first"; "second"; "third"]; ["first"; "second"]] /\
  names_of TypeScript (tree69 "string") =
    [["Size"; "Other"]; ["red"; "green"]; ["Extra"; "SizeAttr"; "ShapeAttr"; "More"; "Type"; "Match"; "Value"]; ["Price2Attr"; "Price"];
     ["First"; "Second"; "Third"]; ["FirstAttr"; "SecondAttr"]].
Proof. vm_compute. repeat split. Qed.

(** *** Why the conditions are there *)

Definition thing (base : string) (es : list Element) (ats : list Attribute) : list proto := [PComplex (mkComplex "" "thing" base es ats [] [])].

(** Schemas keep the names of attributes and elements apart; Rust structures do not. *)
Theorem C69_attribute_refuted : exists pt its, tree_ok pt /\ outline (body Rust pt) = Some its /\
  map (fields Rust) its = [[]; ["size"; "size"]; []].
Proof.
  exists (thing "" [elem "size" "String" false] [attr "size" "String" false]). eexists.
  split; [repeat constructor; free_now|]. split; [vm_compute; reflexivity|]. reflexivity.
Qed.
Print Assumptions C69_attribute_refuted.

(** An element can have the name of an attribute member. *)
Theorem C69_suffix_refuted : forall l text, In (l, text) [(Go, "string"); (C, "char"); (Java, "String"); (TypeScript, "string")] ->
  exists pt its, tree_ok pt /\ outline (body l pt) = Some its /\ Exists (fun it => incl ["SizeAttr"] (fields l it) /\ ~ NoDup (fields l it)) its.
Proof.
  intros l text H. exists (thing "" [elem "sizeAttr" text false] [attr "size" text false]).
  assert (D : forall a r, ~ NoDup (a ++ ["SizeAttr"; "SizeAttr"] ++ r)%list).
  { intros a r Hn. apply NoDup_remove_2 in Hn. apply Hn, in_or_app. right. now left. }
  cbn in H. repeat (destruct H as [[= <- <-]|H]; [eexists; split; [repeat constructor; free_now|]; split; [vm_compute; reflexivity|];
    apply Exists_cons_hd; split; [intros x [<-|[]]; vm_compute; tauto | first [exact (D ["XMLName"] []) | exact (D [] [])]]|]). destruct H.
Qed.
Print Assumptions C69_suffix_refuted.

(** Hyphens are dropped and first letters raised. *)
Theorem C69_hyphen_refuted : forall l text, In (l, text) [(Go, "string"); (C, "char"); (Java, "String"); (TypeScript, "string")] -> forall n m,
  In (n, m) [("a-b", "ab"); ("item", "Item"); ("a.b", "aB")] ->
  exists pt its, tree_ok pt /\ outline (body l pt) = Some its /\ Exists (fun it => ~ NoDup (fields l it)) its /\ n <> m /\
    pt = thing "" [elem n text false; elem m text false] [].
Proof.
  intros l text H n m Hn. exists (thing "" [elem n text false; elem m text false] []).
  assert (D : forall (x : string) a r, ~ NoDup (a ++ [x; x] ++ r)%list).
  { intros x a r Hd. apply NoDup_remove_2 in Hd. apply Hd, in_or_app. right. now left. }
  cbn in H, Hn. repeat (destruct Hn as [[= <- <-]|Hn]; [repeat (destruct H as [[= <- <-]|H]; [eexists; split; [repeat constructor; free_now|]; split; [vm_compute; reflexivity|];
    split; [apply Exists_cons_hd; first [exact (D _ ["XMLName"] []) | exact (D _ [] [])] | split; [discriminate | reflexivity]]|]); destruct H|]). destruct Hn.
Qed.
Print Assumptions C69_hyphen_refuted.

(** The content of an extended built-in type is called like an element [value]. *)
Theorem C69_value_refuted : forall l text, In (l, text) [(Go, "string"); (Rust, "String"); (TypeScript, "string")] ->
  exists pt its, tree_ok pt /\ outline (body l pt) = Some its /\ Exists (fun it => ~ NoDup (fields l it)) its /\ pt = thing text [elem "value" text false] [].
Proof.
  intros l text H. exists (thing text [elem "value" text false] []).
  assert (D : forall (x : string) a r, ~ NoDup (a ++ [x; x] ++ r)%list).
  { intros x a r Hd. apply NoDup_remove_2 in Hd. apply Hd, in_or_app. right. now left. }
  cbn in H. repeat (destruct H as [[= <- <-]|H]; [eexists; split; [repeat constructor; free_now|]; split; [vm_compute; reflexivity|]; split; [|reflexivity];
    first [apply Exists_cons_hd; first [exact (D _ ["XMLName"] []) | exact (D _ [] [])] | apply Exists_cons_tl, Exists_cons_hd; exact (D _ [] [])]|]). destruct H.
Qed.
Print Assumptions C69_value_refuted.

(** In Rust also like an attribute [value], which simple content can have. *)
Theorem C69_content_refuted : exists pt its, tree_ok pt /\ outline (body Rust pt) = Some its /\
  pt = thing "String" [] [attr "value" "String" false] /\ map (fields Rust) its = [[]; ["value"; "value"]; []].
Proof.
  exists (thing "String" [] [attr "value" "String" false]). eexists.
  split; [repeat constructor; free_now|]. split; [vm_compute; reflexivity|]. split; reflexivity.
Qed.
Print Assumptions C69_content_refuted.

(** Capitals make no difference in Rust unless they begin a word. *)
Theorem C69_case_refuted : exists pt its, tree_ok pt /\ outline (body Rust pt) = Some its /\
  pt = thing "" [elem "aB" "String" false; elem "ab" "String" false; elem "itemId" "String" false; elem "item_id" "String" false] [] /\
  map (fields Rust) its = [[]; ["ab"; "ab"; "item_id"; "item_id"]; []].
Proof.
  exists (thing "" [elem "aB" "String" false; elem "ab" "String" false; elem "itemId" "String" false; elem "item_id" "String" false] []). eexists.
  split; [repeat constructor; free_now|]. split; [vm_compute; reflexivity|]. split; reflexivity.
Qed.
Print Assumptions C69_case_refuted.
