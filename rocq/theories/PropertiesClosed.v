(** Property theorems: C66, every type in use is declared. *)

From Coq Require Import String Ascii List NArith Bool.
From Verif Require Import GoStr GoPath Utf8 Base Utils SpecStr SpecTables GenGo GenC GenJava GenRust GenTS World Handlers Parser
  SpecGen SpecOut SpecSyntax SpecClosed StrProofs GenNames GenOutline GenRuns SyntaxProofs SyntaxDecls SyntaxCheck ClosedProofs ClosedCheck SpecFile FileProofs Demo Fixture.
Import ListNotations.
Local Open Scope string_scope.

(** The declarations that the generator for [l] makes from a component list. *)
Notation body l pt := (g_field (run_entries (entry_of l) pt)) (only parsing).

Local Instance plain_env : Env := demo [] first_choice.

Definition elem (name type : string) (plural : bool) : Element := mkElement "" name type plural false.
Definition attr (name type : string) (optional : bool) : Attribute := mkAttribute name "" type false optional.

(** ** C66 *)

(** If the types in a component list are built in or names of its components,
    then the types in the generated text are predeclared or declared there. *)
Theorem C66_closed_partial : forall (E : Env) l pt, case_tables_ok -> upper_idempotent E -> tree_ok pt ->
  tree_fine (P := components pt) l pt -> Forall (manageable l pt) pt -> (l = Java -> no_group_attributes pt) ->
  exists its, outline (body l pt) = Some its /\ closed_program (standard l) l its.
Proof.
  intros E l pt Ht Hu Hok Hf Hm Hj. exists (expected l pt). split; [now apply outline_of_run|]. now apply expected_closed.
Qed.
Print Assumptions C66_closed_partial.

(** So a successful parse leaves a program that declares its types, after
    the preamble, in its output file. *)
Theorem C66_file_partial : forall (E : Env) d fuel o w bytes p w' l, case_tables_ok -> upper_idempotent E ->
  o_extract o = false -> stat (o_file o) w = SFile bytes -> parse d fuel o w = Ret p w' -> selects (o_lang o) l ->
  tree_ok (freeze p) -> tree_fine (P := components (freeze p)) l (freeze p) -> Forall (manageable l (freeze p)) (freeze p) ->
  (l = Java -> no_group_attributes (freeze p)) ->
  exists name text decls its, output_file o l name /\ get (clean name) (w_fs w') = Some (NFile (env_write name text)) /\
    (let s := preamble l (o_package o) (imports (freeze p)) ++ decls in match l with Go => env_gofmt s = Some text | _ => text = s end) /\
    outline decls = Some its /\ closed_program (standard l) l its.
Proof.
  intros E d fuel o w bytes p w' l Ht Hu He Hs Hp Hl Hok Hf Hm Hj.
  destruct (parse_writes d fuel o w bytes p w' l He Hs Hp Hl) as [name [text [Hn [[s [[decls [-> Hd]] Hw]] Hg]]]].
  exists name, text, decls, (expected l (freeze p)). split; [exact Hn|]. split; [exact Hg|]. split.
  - destruct l; exact Hw.
  - split; [now apply Hd|]. now apply expected_closed.
Qed.
Print Assumptions C66_file_partial.

(** *** The repository's own example, in all languages *)

Definition fixture_tree (lang : string) : list proto :=
  match @parse fixture_env 3 3 (mkO "test/xsd/base64.xsd" "test/xsd" "test/out" false lang "" p_init) fixture_world with
  | Ret p w => freeze p
  | _ => []
  end.

Example C66_example : forall l s, In (l, s) [(Go, "Go"); (C, "C"); (Java, "Java"); (Rust, "Rust"); (TypeScript, "TypeScript")] ->
  let pt := fixture_tree s in
  length pt = 9 /\ tree_fine (E := fixture_env) (P := components pt) l pt /\ Forall (manageable (E := fixture_env) l pt) pt /\ no_group_attributes pt.
Proof.
  intros l s H pt. subst pt.
  assert (Hg : forall s, In s ["Go"; "C"; "Java"; "Rust"; "TypeScript"] -> no_group_attributes (fixture_tree s)).
  { clear. intros s Hs v Hv.
    assert (Hx : forallb (fun p => match p with PAttrGroup v => match ag_attributes v with [] => true | _ => false end | _ => true end) (fixture_tree s) = true).
    { cbn in Hs. repeat (destruct Hs as [<-|Hs]; [vm_compute; reflexivity|]). destruct Hs. }
    pose proof (proj1 (forallb_forall _ _) Hx _ Hv) as Hy. cbv beta iota in Hy. now destruct (ag_attributes v). }
  cbn in H. repeat (destruct H as [[= <- <-]|H]; [split; [vm_compute; reflexivity|];
    rewrite and_assoc_1; split; [apply closed_check; vm_compute; reflexivity | apply Hg; cbn; tauto]|]). destruct H.
Qed.

(** All kinds of components. *)
Definition tree66 (l : lang) (int text : string) : list proto :=
  [PSimple (mkSimple "" "size-type" int false false [] []);
   PSimple (mkSimple "" "sizes" "size-type" true false [] []);
   PSimple (mkSimple "" "either" "" false true [("size-type", ""); ("other", text)] []);
   PSimple (mkSimple "" "color" text false false [] ["red"; "green_2"]);
   PSimple (mkSimple "" "things" "other" true false [] []);
   PComplex (mkComplex "" "xs:order.line" "base.type" [elem "type" "color" true; elem "x" "things" false; elem "parent" "base.type" false]
     [attr "match" text true] [mkGroup "" "g" [] [] true "g"] [mkAttrGroup "" "h" "h" []]);
   PComplex (mkComplex "" "base.type" "" [] [] [] []);
   PElement (elem "xs:order.line" "other" false);
   PComplex (mkComplex "" "other" "" [elem "again" "other" true] [] [] []);
   PAttribute (attr "func" int false);
   PGroup (mkGroup "" "g" [elem "next" "sizes" true] [] false "");
   PAttrGroup (mkAttrGroup "" "h" "" (match l with Java => [] | _ => [attr "case" int false] end))].

Example C66_kinds : forall l int text,
  In (l, int, text) [(Go, "int", "string"); (C, "int", "char"); (Java, "Integer", "String"); (Rust, "i32", "String"); (TypeScript, "number", "string")] ->
  let pt := tree66 l int text in tree_fine (P := components pt) l pt /\ Forall (manageable l pt) pt /\ (l = Java -> no_group_attributes pt).
Proof.
  intros l int text H. cbn in H.
  repeat (destruct H as [[= <- <- <-]|H]; [cbv zeta; rewrite and_assoc_1; split; [apply closed_check; vm_compute; reflexivity | try discriminate]|]);
    [|destruct H].
  intros _ v Hv. cbn in Hv. repeat (destruct Hv as [Hv|Hv]; [try discriminate; injection Hv as <-; reflexivity|]). destruct Hv.
Qed.

Example C66_texts :
  map head (expected Go (tree66 Go "int" "string")) =
    ["type Sizetype int"; "type Sizes []int"; "type Either struct {"; "}"; "type Color string"; "type Things []**Other"; "type XsOrderLine struct {"; "}";
     "type BaseType struct {"; "}"; "type Other struct {"; "}"; "type Func" ++ TAB ++ "int"; "type G struct {"; "}"; "type H struct {"; "}"] /\
  nth 5 (map rows (expected Java (tree66 Java "Integer" "String"))) [] = [].
Proof. split; vm_compute; reflexivity. Qed.

(** *** Why the conditions are there *)

Ltac one_line := repeat first [apply Forall_nil | apply Forall_cons | split | apply free_of_has_char; reflexivity | exact I].

(** A type without component is used all the same. *)
Theorem C66_undeclared_refuted : exists pt its, tree_ok pt /\ tree_fine (P := any_type) Go pt /\ Forall (manageable Go pt) pt /\
  outline (body Go pt) = Some its /\ map head its = ["type X" ++ TAB ++ "*Y"] /\ ~ closed_program (standard Go) Go its.
Proof.
  exists [PElement (elem "x" "y" false)]. eexists. split; [repeat (constructor; try one_line)|].
  split; [constructor; [apply (fineb_ok (P := any_type) (fun _ _ => true) (fun _ _ _ => I)); vm_compute; reflexivity | constructor]|].
  split; [repeat constructor|].
  split; [vm_compute; reflexivity|]. split; [reflexivity|]. apply go_undeclared.
Qed.
Print Assumptions C66_undeclared_refuted.

(** C uses [bool] without including the header that defines it. *)
Theorem C66_bool_refuted : exists pt its, tree_ok pt /\ tree_fine (P := components pt) C pt /\ Forall (manageable C pt) pt /\
  outline (body C pt) = Some its /\ map head its = ["typedef bool X;"] /\ ~ closed_program (predeclared C) C its.
Proof.
  exists [PElement (elem "x" "bool" false)]. eexists. split; [repeat (constructor; try one_line)|].
  rewrite and_assoc_1. split; [apply closed_check; vm_compute; reflexivity|].
  split; [vm_compute; reflexivity|]. split; [reflexivity|]. apply c_bool.
Qed.
Print Assumptions C66_bool_refuted.

(** Java: the type of an attribute in an attribute group is [StringAttr]. *)
Theorem C66_attributes_refuted : exists pt its, tree_ok pt /\ tree_fine (P := components pt) Java pt /\ Forall (manageable Java pt) pt /\
  outline (body Java pt) = Some its /\ nth 1 (nth 0 (map rows its) []) "" = "protected StringAttr A;" /\ ~ closed_program (standard Java) Java its.
Proof.
  exists [PAttrGroup (mkAttrGroup "" "h" "" [attr "a" "String" false])]. eexists. split; [repeat (constructor; try one_line)|].
  rewrite and_assoc_1. split; [apply closed_check; vm_compute; reflexivity|].
  split; [vm_compute; reflexivity|]. split; [reflexivity|]. apply java_attr.
Qed.
Print Assumptions C66_attributes_refuted.

(** Rust: an element hides the type of the same name that it has. *)
Theorem C66_hidden_refuted : exists pt its, tree_ok pt /\ tree_fine (P := any_type) Rust pt /\ Forall (manageable Rust pt) pt /\
  map proto_name pt = [Some "x"; Some "x"] /\
  outline (body Rust pt) = Some its /\ map head its = ["#[derive(Debug, Deserialize, Serialize, PartialEq)]"; "pub struct x {"; "}"] /\
  ~ closed_program (standard Rust) Rust its.
Proof.
  exists [PElement (elem "x" "x" false); PComplex (mkComplex "" "x" "" [] [] [] [])]. eexists. split; [repeat (constructor; try one_line)|].
  rewrite and_assoc_1. split; [apply (check_ok (P := any_type) (fun _ _ => true) (fun _ _ _ => I)); vm_compute; reflexivity|].
  split; [reflexivity|]. split; [vm_compute; reflexivity|]. split; [reflexivity|]. apply rust_small.
Qed.
Print Assumptions C66_hidden_refuted.
