(** Property theorems: C64, generated programs are well-formed. *)

From Coq Require Import String Ascii List NArith Bool.
From Verif Require Import GoStr GoPath Utf8 Base Utils SpecStr SpecTables GenGo GenC GenJava GenRust GenTS World Handlers Parser
  SpecGen SpecOut SpecSyntax StrProofs GenNames GenRuns SyntaxProofs SyntaxDecls SyntaxCheck NameProofs SpecFile FileProofs Demo Fixture.
Import ListNotations.
Local Open Scope string_scope.

(** The declarations that the generator for [l] makes from a component list. *)
Notation body l pt := (g_field (run_entries (entry_of l) pt)) (only parsing).

(** Which types there are is not asked here (see C66). *)
#[local] Existing Instance any_name.
#[local] Existing Instance any_type.

Local Instance plain_env : Env := demo [] first_choice.

Lemma plain_tables : case_tables_ok.
Proof. intros r Hr. split; left; exact Hr. Qed.

Lemma plain_upper : upper_idempotent plain_env.
Proof.
  intros r Hr. unfold rune_upper. cbn [env_upper plain_env demo].
  destruct (N.leb 128 (norm_rune r)) eqn:H; [reflexivity|].
  pose proof (norm_rune_ge r Hr). apply N.leb_gt in H. now apply N.lt_nge in H.
Qed.

Definition elem (name type : string) (plural : bool) : Element := mkElement "" name type plural false.
Definition attr (name type : string) (optional : bool) : Attribute := mkAttribute name "" type false optional.

(** ** C64 *)

(** With ordinary names and types, what is generated is a list of declarations
    of the language, for every component list. *)
Theorem C64_program_partial : forall (E : Env) l pt, case_tables_ok -> upper_idempotent E -> tree_ok pt ->
  tree_fine l pt -> Forall (manageable l pt) pt ->
  exists its, outline (body l pt) = Some its /\ program l its.
Proof.
  intros E l pt Ht Hu Hok Hf Hm. exists (expected l pt). split; [now apply outline_of_run|]. apply expected_program; try assumption; intros; exact I.
Qed.
Print Assumptions C64_program_partial.

(** So a successful parse leaves such a program, after the preamble, in its
    output file; a Go program is there as gofmt writes it. *)
Theorem C64_file_partial : forall (E : Env) d fuel o w bytes p w' l, case_tables_ok -> upper_idempotent E ->
  o_extract o = false -> stat (o_file o) w = SFile bytes -> parse d fuel o w = Ret p w' -> selects (o_lang o) l ->
  tree_ok (freeze p) -> tree_fine l (freeze p) -> Forall (manageable l (freeze p)) (freeze p) ->
  exists name text decls its, output_file o l name /\ get (clean name) (w_fs w') = Some (NFile (env_write name text)) /\
    (let s := preamble l (o_package o) (imports (freeze p)) ++ decls in match l with Go => env_gofmt s = Some text | _ => text = s end) /\
    outline decls = Some its /\ program l its.
Proof.
  intros E d fuel o w bytes p w' l Ht Hu He Hs Hp Hl Hok Hf Hm.
  destruct (parse_writes d fuel o w bytes p w' l He Hs Hp Hl) as [name [text [Hn [[s [[decls [-> Hd]] Hw]] Hg]]]].
  exists name, text, decls, (expected l (freeze p)). split; [exact Hn|]. split; [exact Hg|]. split.
  - destruct l; exact Hw.
  - split; [now apply Hd|]. apply expected_program; try assumption; intros; exact I.
Qed.
Print Assumptions C64_file_partial.

(** Names and types: letters, digits and underscores are left of a name, and
    what comes out is no word of the language. *)
Theorem C64_names : forall (E : Env) l n, case_tables_ok -> upper_idempotent E -> name_ok n ->
  identifier l (member_ident l n) /\ (l <> Rust \/ type_ident l n <> "Self" -> identifier l (type_ident l n)).
Proof.
  intros E l n Ht Hu Hn. split; [now apply member_identifier|]. intros H. rewrite <- (StrLemmas.app_nil_r_s (type_ident l n)).
  apply type_ident_more; try assumption; [exact I|]. rewrite StrLemmas.app_nil_r_s. intros ->. now destruct H.
Qed.
Print Assumptions C64_names.

(** Every type of a tree is written as a type, or as the array of characters
    that C writes around names. *)
Theorem C64_types_partial : forall (E : Env) l pt t, case_tables_ok -> upper_idempotent E -> tree_fine l pt -> maybe_type l t ->
  typing l (shown l pt t) \/ (l = C /\ shown l pt t = "char[]").
Proof. intros E l pt t Ht Hu Hf H. apply (shown_form Ht Hu (fun _ _ _ => I) (fun _ _ _ _ _ _ _ _ => I) l pt Hf t H). Qed.
Print Assumptions C64_types_partial.

(** *** The repository's own example, in all languages *)

Definition fixture_tree (lang : string) : list proto :=
  match @parse fixture_env 3 3 (mkO "test/xsd/base64.xsd" "test/xsd" "test/out" false lang "" p_init) fixture_world with
  | Ret p w => freeze p
  | _ => []
  end.

Lemma fixture_tables : @case_tables_ok fixture_env.
Proof. intros r Hr. split; left; exact Hr. Qed.

Example C64_example : forall l s, In (l, s) [(Go, "Go"); (C, "C"); (Java, "Java"); (Rust, "Rust"); (TypeScript, "TypeScript")] ->
  length (fixture_tree s) = 9 /\ tree_fine (E := fixture_env) l (fixture_tree s) /\ Forall (manageable (E := fixture_env) l (fixture_tree s)) (fixture_tree s).
Proof.
  intros l s H. cbn in H. repeat (destruct H as [[= <- <-]|H]; [split; [vm_compute; reflexivity|]; apply (check_ok (fun _ _ => true) (fun _ _ _ => I)); vm_compute; reflexivity|]). destruct H.
Qed.

(** All kinds of components. *)
Definition tree64 (l : lang) (int text : string) : list proto :=
  [PSimple (mkSimple "" "size-type" int false false [] []);
   PSimple (mkSimple "" "sizes" "size-type" true false [] []);
   PSimple (mkSimple "" "either" "" false true [("size-type", ""); ("other", text)] []);
   PSimple (mkSimple "" "color" text false false [] ["red"; "green_2"]);
   PComplex (mkComplex "" "xs:order.line" "base.type" [elem "type" "color" true; elem "x" "sizes" false] [attr "match" text true]
     [mkGroup "" "g" [] [] true "g"] [mkAttrGroup "" "h" "h" []]);
   PElement (elem "xs:order.line" "other" false);
   PAttribute (attr "func" int false);
   PGroup (mkGroup "" "g" [elem "sélf" "nothing" true] [] false "");
   PAttrGroup (mkAttrGroup "" "h" "" [attr "case" int false])].

Example C64_kinds : forall l int text,
  In (l, int, text) [(Go, "int", "string"); (C, "int", "char"); (Java, "Integer", "String"); (Rust, "i32", "String"); (TypeScript, "number", "string")] ->
  tree_fine l (tree64 l int text) /\ Forall (manageable l (tree64 l int text)) (tree64 l int text).
Proof.
  intros l int text H. cbn in H. repeat (destruct H as [[= <- <- <-]|H]; [apply (check_ok (fun _ _ => true) (fun _ _ _ => I)); vm_compute; reflexivity|]). destruct H.
Qed.

Example C64_texts :
  map head (expected Go (tree64 Go "int" "string")) =
    ["type Sizetype int"; "type Sizes []int"; "type Either struct {"; "}"; "type Color string"; "type XsOrderLine struct {"; "}";
     "type Func" ++ TAB ++ "int"; "type G struct {"; "}"; "type H struct {"; "}"] /\
  map rows (expected C (tree64 C "int" "char")) =
    [[]; []; ["int Sizetype;"; "char Other;"]; []; [];
     ["H H;"; "char MatchAttr; // attr, optional"; "G G[];"; "char Type[];"; "Sizes X;"]; []; []; ["Nothing Sélf[];"]; [];
     ["int CaseAttr; // attr"]; []] /\
  nth 5 (map rows (expected TypeScript (tree64 TypeScript "number" "string"))) [] = [] /\
  nth 6 (map rows (expected TypeScript (tree64 TypeScript "number" "string"))) [] =
    ["H: H;"; "MatchAttr: string | null;"; "G: Array<G>;"; "Type: string;"; "X: Sizes;"] /\
  case_tables_ok /\ upper_idempotent plain_env.
Proof.
  split; [vm_compute; reflexivity|]. split; [vm_compute; reflexivity|]. split; [vm_compute; reflexivity|]. split; [vm_compute; reflexivity|].
  split; [exact plain_tables | exact plain_upper].
Qed.

(** *** Why the conditions are there *)

Ltac one_line := repeat first [apply Forall_nil | apply Forall_cons | split | apply free_of_has_char; reflexivity | exact I].

(** A name that begins with an underscore: [type 1 string]. *)
Theorem C64_underscore_refuted : exists pt its, tree_ok pt /\ outline (body Go pt) = Some its /\ map head its = ["type 1 string"] /\ ~ program Go its.
Proof.
  exists [alone "_1" "string" false]. eexists. split; [repeat (constructor; try one_line)|].
  split; [vm_compute; reflexivity|]. split; [reflexivity|]. apply go_underscore.
Qed.
Print Assumptions C64_underscore_refuted.

(** A list without item type: [[]*Interface{}]. *)
Theorem C64_empty_list_refuted : exists pt its, tree_ok pt /\ tree_fine Go pt /\ outline (body Go pt) = Some its /\
  map head its = ["type X []*Interface{}"] /\ ~ program Go its.
Proof.
  exists [alone "x" "" true]. eexists. split; [repeat (constructor; try one_line)|].
  split; [constructor; [apply (fineb_ok (fun _ _ => true) (fun _ _ _ => I)); vm_compute; reflexivity | constructor]|].
  split; [vm_compute; reflexivity|]. split; [reflexivity|]. apply go_list_of_nothing.
Qed.
Print Assumptions C64_empty_list_refuted.

(** An element of type [char[]] in a group: [char[] X;]. *)
Theorem C64_array_refuted : exists pt its, tree_ok pt /\ tree_fine C pt /\ outline (body C pt) = Some its /\
  map rows its = [["char[] X;"]; []] /\ ~ program C its.
Proof.
  exists [PGroup (mkGroup "" "g" [elem "x" "char[]" false] [] false "")]. eexists. split; [repeat (constructor; try one_line)|].
  split; [constructor; [apply (fineb_ok (fun _ _ => true) (fun _ _ _ => I)); vm_compute; reflexivity | constructor]|].
  split; [vm_compute; reflexivity|]. split; [reflexivity|]. intros H.
  destruct (program_rows _ _ _ H (or_introl eq_refl)) as [Hm|[Hm _]]; [|discriminate]. cbn [rows] in Hm.
  inversion Hm as [|m r Hx Hr|x m r Hx]; subst. now apply c_bracket in Hx.
Qed.
Print Assumptions C64_array_refuted.

(** Java has no name for a missing type: [protected void X;]. *)
Theorem C64_void_refuted : exists pt its, tree_ok pt /\ outline (body Java pt) = Some its /\
  map rows its = [[]; []; ["protected void X;"]; []] /\ ~ program Java its.
Proof.
  exists [alone "x" "" false]. eexists. split; [repeat (constructor; try one_line)|].
  split; [vm_compute; reflexivity|]. split; [reflexivity|]. intros H.
  destruct (program_rows _ _ _ H (or_intror (or_intror (or_introl eq_refl)))) as [Hm|[Hm _]]; [|discriminate]. cbn [rows] in Hm.
  inversion Hm as [|m r Hx Hr|x m r Hx]; subst; now apply java_void_member in Hx.
Qed.
Print Assumptions C64_void_refuted.

(** A type called self: [pub struct Self]. *)
Theorem C64_self_refuted : exists pt its, tree_ok pt /\ tree_fine Rust pt /\ outline (body Rust pt) = Some its /\
  nth 1 (map head its) "" = "pub struct Self {" /\ ~ program Rust its.
Proof.
  exists [alone "self" "String" false]. eexists. split; [repeat (constructor; try one_line)|].
  split; [constructor; [apply (fineb_ok (fun _ _ => true) (fun _ _ _ => I)); vm_compute; reflexivity | constructor]|].
  split; [vm_compute; reflexivity|]. split; [reflexivity|]. apply rust_self.
Qed.
Print Assumptions C64_self_refuted.

(** Values that are no identifiers. *)
Theorem C64_value_refuted : exists pt its, tree_ok pt /\ tree_fine TypeScript pt /\ outline (body TypeScript pt) = Some its /\
  map rows its = [["a-b = 'a-b',"]; []] /\ ~ program TypeScript its.
Proof.
  exists [PSimple (mkSimple "" "c" "string" false false [] ["a-b"])]. eexists. split; [repeat (constructor; try one_line)|].
  split; [constructor; [apply (fineb_ok (fun _ _ => true) (fun _ _ _ => I)); vm_compute; reflexivity | constructor]|].
  split; [vm_compute; reflexivity|]. split; [reflexivity|]. intros H.
  destruct (program_rows _ _ _ H (or_introl eq_refl)) as [Hm|[_ Hm]]; cbn [rows] in Hm; [now apply ts_no_member in Hm|].
  inversion Hm as [|x r Hx Hr]; subst. now apply ts_value in Hx.
Qed.
Print Assumptions C64_value_refuted.
