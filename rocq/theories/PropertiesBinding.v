(** Property theorems: C71, the names in XML can be read back. *)

From Coq Require Import String Ascii List NArith Bool.
From Verif Require Import GoStr GoPath Utf8 Base Utils SpecStr SpecTables GenGo GenC GenJava GenRust GenTS World Handlers Parser
  SpecGen SpecOut SpecBinding StrProofs GenNames GenOutline GenRuns BindingProofs SpecFile FileProofs Demo.
Import ListNotations.
Local Open Scope string_scope.

(** The declarations that the generator for [l] makes from a component list. *)
Notation body l pt := (g_field (run_entries (entry_of l) pt)) (only parsing).

Local Instance plain_env : Env := demo [] first_choice.

Definition elem (name type : string) (plural : bool) : Element := mkElement "" name type plural false.
Definition attr (name type : string) (optional : bool) : Attribute := mkAttribute name "" type false optional.

(** ** C71 *)

(** The tags and annotations of a program tell the names of the attributes and
    elements of the components in XML, one by one and in this order. *)
Theorem C71_names_partial : forall (E : Env) l pt, case_tables_ok -> tree_ok pt -> unmarked pt -> In l [Go; Java; Rust] ->
  exists blocks, outline (body l pt) = Some (concat blocks) /\
    map (bindings l) blocks =
    map (fun x => xml_names l (fst (fst x)) (snd x)) (combine (rendered l [] pt) (identifiers l [] (map fst (rendered l [] pt)))).
Proof.
  intros E l pt Ht Hok Hm Hl. destruct (expected_names Ht pt Hm l Hl) as [blocks [He Hb]]. exists blocks. split; [|exact Hb].
  rewrite <- He. now apply outline_of_run.
Qed.
Print Assumptions C71_names_partial.

(** So the text determines these names. *)
Theorem C71_determined_partial : forall (E : Env) l pt pt', case_tables_ok -> tree_ok pt -> tree_ok pt' -> unmarked pt -> unmarked pt' ->
  In l [Go; Java; Rust] -> body l pt = body l pt' ->
  let names t := concat (map (fun x => xml_names l (fst (fst x)) (snd x)) (combine (rendered l [] t) (identifiers l [] (map fst (rendered l [] t))))) in
  names pt = names pt'.
Proof.
  intros E l pt pt' Ht Hok Hok' Hm Hm' Hl Hb names.
  destruct (expected_names Ht pt Hm l Hl) as [blocks [He Hn]]. destruct (expected_names Ht pt' Hm' l Hl) as [blocks' [He' Hn']].
  unfold names. rewrite <- Hn, <- Hn', !bindings_concat, <- He, <- He'.
  pose proof (outline_of_run l pt Ht Hok) as Ho. rewrite Hb, (outline_of_run l pt' Ht Hok') in Ho. injection Ho as ->. reflexivity.
Qed.
Print Assumptions C71_determined_partial.

(** So it is in the output file of a successful parse. *)
Theorem C71_file_partial : forall (E : Env) d fuel o w bytes p w' l, case_tables_ok ->
  o_extract o = false -> stat (o_file o) w = SFile bytes -> parse d fuel o w = Ret p w' -> selects (o_lang o) l ->
  tree_ok (freeze p) -> unmarked (freeze p) -> In l [Go; Java; Rust] ->
  exists name text decls blocks, output_file o l name /\ get (clean name) (w_fs w') = Some (NFile (env_write name text)) /\
    (let s := preamble l (o_package o) (imports (freeze p)) ++ decls in match l with Go => env_gofmt s = Some text | _ => text = s end) /\
    outline decls = Some (concat blocks) /\
    map (bindings l) blocks =
    map (fun x => xml_names l (fst (fst x)) (snd x))
      (combine (rendered l [] (freeze p)) (identifiers l [] (map fst (rendered l [] (freeze p))))).
Proof.
  intros E d fuel o w bytes p w' l Ht He Hs Hp Hl Hok Hm Hin.
  destruct (parse_writes d fuel o w bytes p w' l He Hs Hp Hl) as [name [text [Hn [[s [[decls [-> Hd']] Hw]] Hg]]]].
  destruct (expected_names Ht (freeze p) Hm l Hin) as [blocks [Hx Hb]].
  exists name, text, decls, blocks. split; [exact Hn|]. split; [exact Hg|]. split.
  - destruct l; exact Hw.
  - split; [|exact Hb]. rewrite <- Hx. now apply Hd'.
Qed.
Print Assumptions C71_file_partial.

(** *** An example with all kinds of components *)

Ltac free_tree := repeat first [apply Forall_nil | apply Forall_cons | split | apply free_of_has_char; reflexivity | exact I].

Definition tree71 : list proto :=
  [PComplex (mkComplex "" "order-line" "string" [elem "item.no" "long" true; elem "Price" "int" false]
     [attr "id" "string" false; attr "xml:lang" "string" true] [mkGroup "" "g" [] [] true "g"] [mkAttrGroup "" "h" "h" []]);
   PGroup (mkGroup "" "g" [elem "a-b" "int" false] [] false "");
   PAttrGroup (mkAttrGroup "" "h" "" [attr "c" "int" true]);
   PSimple (mkSimple "" "u" "" false true [("x", "int"); ("y", "string")] []);
   PElement (elem "order" "order-line" false)].

Example C71_example : tree_ok tree71 /\ unmarked tree71 /\
  bindings Go (expected Go tree71) =
    [Elem "order-line"; Attr "id"; Attr "xml:lang"; Elem "item.no"; Elem "Price"; Content; Elem "g"; Elem "h"; Attr "c"; Elem "u"] /\
  bindings Java (expected Java tree71) = [Attr "id"; Attr "xml:lang"; Elem "item.no"; Elem "Price"; Elem "a-b"; Attr "c"] /\
  bindings Rust (expected Rust tree71) =
    [Field "h"; Field "id"; Field "xml:lang"; Field "g"; Field "item.no"; Field "Price"; Field "a-b"; Field "c"; Field "u"; Field "u"; Field "order"].
Proof.
  split; [repeat (constructor; try free_tree)|]. split; [split; [|split]; repeat (constructor; try free_tree)|]. repeat split; vm_compute; reflexivity.
Qed.

Example C71_text :
  nth 0 (map rows (expected Go tree71)) [] =
    ["XMLName" ++ TAB ++ "xml.Name" ++ TAB ++ "`xml:" ++ quoted "order-line" ++ "`"; "H" ++ TAB ++ "*H";
     "IdAttr" ++ TAB ++ "string" ++ TAB ++ "`xml:" ++ quoted "id,attr" ++ "`";
     "XmlLangAttr" ++ TAB ++ "string" ++ TAB ++ "`xml:" ++ quoted "xml:lang,attr,omitempty" ++ "`"; "G" ++ TAB ++ "[]*G";
     "ItemNo" ++ TAB ++ "[]*Long" ++ TAB ++ "`xml:" ++ quoted "item.no" ++ "`";
     "Price" ++ TAB ++ "int" ++ TAB ++ "`xml:" ++ quoted "Price" ++ "`";
     "Value" ++ TAB ++ "string" ++ TAB ++ "`xml:" ++ quoted ",chardata" ++ "`"].
Proof. vm_compute. reflexivity. Qed.

(** *** What is lost *)

(** Rust does not tell attributes from elements. *)
Theorem C71_rust_refuted :
  let t ats els := [PComplex (mkComplex "" "x" "" els ats [] [])] in
  body Rust (t [attr "a" "String" false] []) = body Rust (t [] [elem "a" "String" false]).
Proof. vm_compute. reflexivity. Qed.
Print Assumptions C71_rust_refuted.

(** C and TypeScript programs do not have the names in XML. *)
Theorem C71_names_refuted : forall l, In l [C; TypeScript] -> exists t,
  body l [PComplex (mkComplex "" "x" "" [elem "a-b" t false] [] [] [])] = body l [PComplex (mkComplex "" "x" "" [elem "ab" t false] [] [] [])].
Proof. intros l [<-|[<-|[]]]; exists "y"; vm_compute; reflexivity. Qed.
Print Assumptions C71_names_refuted.

(** Nor do Go structures for groups. *)
Theorem C71_group_refuted :
  let t n := [PGroup (mkGroup "" "x" [elem n "int" false] [] false "")] in body Go (t "a-b") = body Go (t "ab").
Proof. vm_compute. reflexivity. Qed.
Print Assumptions C71_group_refuted.

(** In Rust, all members of a union have the name of the union. *)
Theorem C71_union_refuted : forall (E : Env) pt v e id, st_list v = false -> is_union v = true -> case_tables_ok -> unmarked pt -> In (PSimple v) pt ->
  bindings Rust (items_of Rust pt (PSimple v) e id) = map (fun _ => Field (st_name v)) (to_sorted_pairs (st_members v)).
Proof.
  intros E pt v e id Hl Hu Ht Hm Hin. rewrite (names_read Ht pt Hm Rust (PSimple v) e id) by (cbn; auto). cbn [xml_names]. now rewrite Hl, Hu.
Qed.
Print Assumptions C71_union_refuted.
