(** Property theorems: C70, types are declared before they are used. *)

From Coq Require Import String Ascii List NArith Bool.
From Verif Require Import GoStr GoPath Utf8 Base Utils SpecStr SpecTables GenGo GenC GenJava GenRust GenTS World Handlers Parser
  SpecGen SpecOut SpecSyntax SpecClosed SpecOrder StrProofs GenNames GenOutline GenRuns SyntaxProofs SyntaxDecls SyntaxCheck ClosedProofs ClosedCheck
  OrderProofs OrderCheck SpecFile FileProofs Demo.
Import ListNotations.
Local Open Scope string_scope.

(** The declarations that the generator for [l] makes from a component list. *)
Notation body l pt := (g_field (run_entries (entry_of l) pt)) (only parsing).

Local Instance plain_env : Env := demo [] first_choice.

Lemma plain_tables : case_tables_ok.
Proof. intros r Hr. split; left; exact Hr. Qed.

Definition elem (name type : string) (plural : bool) : Element := mkElement "" name type plural false.
Definition attr (name type : string) (optional : bool) : Attribute := mkAttribute name "" type false optional.

(** ** C70 *)

(** If the components refer only to earlier ones, then the declarations in the
    generated text use only predeclared types and those declared before. *)
Theorem C70_ordered_partial : forall (E : Env) l pt, case_tables_ok -> upper_idempotent E -> tree_ok pt ->
  ordered_tree l pt -> own_names l pt -> Forall (manageable l pt) pt -> (l = Java -> no_group_attributes pt) ->
  exists its, outline (body l pt) = Some its /\ ordered_program (standard l) l its.
Proof.
  intros E l pt Ht Hu Hok Ho Hn Hm Hj. exists (expected l pt). split; [now apply outline_of_run | now apply expected_ordered].
Qed.
Print Assumptions C70_ordered_partial.

(** So it is in the output file of a successful parse. *)
Theorem C70_file_partial : forall (E : Env) d fuel o w bytes p w' l, case_tables_ok -> upper_idempotent E ->
  o_extract o = false -> stat (o_file o) w = SFile bytes -> parse d fuel o w = Ret p w' -> selects (o_lang o) l ->
  tree_ok (freeze p) -> ordered_tree l (freeze p) -> own_names l (freeze p) -> Forall (manageable l (freeze p)) (freeze p) ->
  (l = Java -> no_group_attributes (freeze p)) ->
  exists name text decls its, output_file o l name /\ get (clean name) (w_fs w') = Some (NFile (env_write name text)) /\
    (let s := preamble l (o_package o) (imports (freeze p)) ++ decls in match l with Go => env_gofmt s = Some text | _ => text = s end) /\
    outline decls = Some its /\ ordered_program (standard l) l its.
Proof.
  intros E d fuel o w bytes p w' l Ht Hu He Hs Hp Hl Hok Ho Hn Hm Hj.
  destruct (parse_writes d fuel o w bytes p w' l He Hs Hp Hl) as [name [text [Hna [[s [[decls [-> Hd]] Hw]] Hg]]]].
  exists name, text, decls, (expected l (freeze p)). split; [exact Hna|]. split; [exact Hg|]. split.
  - destruct l; exact Hw.
  - split; [now apply Hd | now apply expected_ordered].
Qed.
Print Assumptions C70_file_partial.

(** *** An example with all kinds of components *)

Definition tree70 (l : lang) (int text : string) : list proto :=
  [PSimple (mkSimple "" "size-type" int false false [] []);
   PSimple (mkSimple "" "sizes" "size-type" true false [] []);
   PSimple (mkSimple "" "either" "" false true [("size-type", ""); ("sort", text)] []);
   PSimple (mkSimple "" "color" text false false [] ["red"; "green_2"]);
   PComplex (mkComplex "" "base.type" "" [] [attr "match" text true] [] []);
   PGroup (mkGroup "" "g" [elem "next" "base.type" true] [] false "");
   PAttrGroup (mkAttrGroup "" "h" "" (match l with Java => [] | _ => [attr "case" int false] end));
   PComplex (mkComplex "" "order.line" "base.type" [elem "type" "color" true; elem "x" "sizes" false; elem "parent" "base.type" false]
     [] [mkGroup "" "g" [] [] true "g"] [mkAttrGroup "" "h" "h" []]);
   PElement (elem "order" "order.line" false);
   PAttribute (attr "func" int false)].

Example C70_example : forall l int text,
  In (l, int, text) [(Go, "int", "string"); (C, "int", "char"); (Java, "Integer", "String"); (Rust, "i32", "String"); (TypeScript, "number", "string")] ->
  let pt := tree70 l int text in (ordered_tree l pt /\ own_names l pt /\ Forall (manageable l pt) pt) /\ (l = Java -> no_group_attributes pt).
Proof.
  intros l int text H. cbn in H.
  repeat (destruct H as [[= <- <- <-]|H]; [cbv zeta; split; [apply ordered_check; vm_compute; reflexivity | try discriminate]|]);
    [|destruct H].
  intros _ v Hv. cbn in Hv. repeat (destruct Hv as [Hv|Hv]; [try discriminate; injection Hv as <-; reflexivity|]). destruct Hv.
Qed.

Example C70_text :
  map (fun it => (head it, rows it)) (expected C (tree70 C "int" "char")) =
    [("typedef int Sizetype;", []); ("typedef int Sizes[];", []); ("typedef struct {", ["int Sizetype;"; "char Sort;"]); ("} Either;", []);
     ("typedef char Color;", []); ("typedef struct {", ["char MatchAttr; // attr, optional"]); ("} BaseType;", []);
     ("typedef struct {", ["BaseType Next[];"]); ("} G;", []); ("typedef struct {", ["int CaseAttr; // attr"]); ("} H;", []);
     ("typedef struct {", ["H H;"; "G G[];"; "char Type[];"; "Sizes X;"; "BaseType Parent;"]); ("} OrderLine;", []);
     ("typedef OrderLine Order;", []); ("typedef int Func;", [])].
Proof. vm_compute. reflexivity. Qed.

(** *** Why the conditions are there *)

Ltac one_line := repeat first [apply Forall_nil | apply Forall_cons | split | apply free_of_has_char; reflexivity | exact I].

(** The order of a schema is kept, so that C uses what comes later. *)
Theorem C70_later_refuted : exists pt its, tree_ok pt /\ tree_fine (P := components pt) C pt /\ Forall (manageable C pt) pt /\ own_names C pt /\
  outline (body C pt) = Some its /\ map head its = ["typedef Other X;"; "typedef struct {"; "} Other;"] /\ ~ ordered_program (standard C) C its.
Proof.
  exists [PElement (elem "x" "other" false); PComplex (mkComplex "" "other" "" [] [] [] [])]. eexists. split; [repeat (constructor; try one_line)|].
  rewrite and_assoc_1. split; [apply closed_check; vm_compute; reflexivity|]. split; [apply namesb_ok; vm_compute; reflexivity|].
  split; [vm_compute; reflexivity|]. split; [reflexivity|]. apply c_use_first.
Qed.
Print Assumptions C70_later_refuted.

(** A type that contains elements of its own type is a structure in itself. *)
Theorem C70_recursive_refuted : exists pt its, tree_ok pt /\ tree_fine (P := components pt) C pt /\ Forall (manageable C pt) pt /\ own_names C pt /\
  outline (body C pt) = Some its /\ map head its = ["typedef struct {"; "} Node;"] /\ ~ ordered_program (standard C) C its.
Proof.
  exists [PComplex (mkComplex "" "node" "" [elem "next" "node" false] [] [] [])]. eexists. split; [repeat (constructor; try one_line)|].
  rewrite and_assoc_1. split; [apply closed_check; vm_compute; reflexivity|]. split; [apply namesb_ok; vm_compute; reflexivity|].
  split; [vm_compute; reflexivity|]. split; [reflexivity|]. apply c_recursive.
Qed.
Print Assumptions C70_recursive_refuted.

(** TypeScript: a class extends one that comes later. *)
Theorem C70_extends_refuted : exists pt its, tree_ok pt /\ tree_fine (P := components pt) TypeScript pt /\ Forall (manageable TypeScript pt) pt /\
  own_names TypeScript pt /\ outline (body TypeScript pt) = Some its /\
  map head its = ["export class A extends B  {"; "}"; "export class B {"; "}"] /\ ~ ordered_program (standard TypeScript) TypeScript its.
Proof.
  exists [PComplex (mkComplex "" "a" "b" [] [] [] []); PComplex (mkComplex "" "b" "" [] [] [] [])]. eexists. split; [repeat (constructor; try one_line)|].
  rewrite and_assoc_1. split; [apply closed_check; vm_compute; reflexivity|]. split; [apply namesb_ok; vm_compute; reflexivity|].
  split; [vm_compute; reflexivity|]. split; [reflexivity|]. apply ts_extends_later.
Qed.
Print Assumptions C70_extends_refuted.

(** A later element of the same name takes the place of an earlier type. *)
Theorem C70_same_refuted : exists pt its, tree_ok pt /\ ordered_tree C pt /\ Forall (manageable C pt) pt /\
  map proto_name pt = [Some "a"; Some "x"; Some "other"; Some "a"] /\ (forall t, In t (targets C) -> ~ In (Some t) (map proto_name pt)) /\
  outline (body C pt) = Some its /\ map head its = ["typedef struct {"; "} A;"; "typedef Other X;"; "typedef struct {"; "} Other;"] /\
  ~ ordered_program (standard C) C its.
Proof.
  exists [PComplex (mkComplex "" "a" "" [] [] [] []); PElement (elem "x" "a" false); PComplex (mkComplex "" "other" "" [] [] [] []);
          PElement (elem "a" "other" false)].
  eexists. split; [repeat (constructor; try one_line)|]. split; [apply order_check; vm_compute; reflexivity|].
  split; [repeat constructor|]. split; [reflexivity|].
  split; [intros t Ht; vm_compute in Ht; repeat (destruct Ht as [<-|Ht]; [intros Hin; vm_compute in Hin; repeat (destruct Hin as [Hin|Hin]; [discriminate|]); exact Hin|]); destruct Ht|].
  split; [vm_compute; reflexivity|]. split; [reflexivity|]. apply c_use_second.
Qed.
Print Assumptions C70_same_refuted.

(** So does an element with the name of a target type. *)
Theorem C70_target_refuted : exists pt its, tree_ok pt /\ ordered_tree C pt /\ Forall (manageable C pt) pt /\ NoDup (map proto_name pt) /\
  map proto_name pt = [Some "x"; Some "other"; Some "int"] /\
  outline (body C pt) = Some its /\ map head its = ["typedef Other X;"; "typedef struct {"; "} Other;"; "typedef Other Int;"] /\
  ~ ordered_program (standard C) C its.
Proof.
  exists [PElement (elem "x" "int" false); PComplex (mkComplex "" "other" "" [] [] [] []); PElement (elem "int" "other" false)].
  eexists. split; [repeat (constructor; try one_line)|]. split; [apply order_check; vm_compute; reflexivity|].
  split; [repeat constructor|]. split; [apply apart_ok; vm_compute; reflexivity|]. split; [reflexivity|].
  split; [vm_compute; reflexivity|]. split; [reflexivity|]. apply c_use_first.
Qed.
Print Assumptions C70_target_refuted.
