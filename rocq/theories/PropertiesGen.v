(** Property theorems about the generated text: C30 - C35, C37, C39, C41, C43,
    C48. *)

From Coq Require Import String Ascii List Arith NArith ZArith Bool Lia.
From Verif Require Import GoStr GoPath Utf8 Base Utils SpecStr GenGo GenC GenJava GenRust GenTS World Handlers Parser
  SpecParse SpecGen SpecOut SpecFile StrProofs GenNames GenFacts GenRuns FileProofs NameProofs Demo.
Import ListNotations.
Local Open Scope string_scope.

Local Infix "+++" := app (at level 60, right associativity).

(** The declarations that the generator for [l] makes from a component list. *)
Notation body l pt := (g_field (run_entries (entry_of l) pt)) (only parsing).

Local Instance plain_env : Env := demo [] first_choice.

Lemma plain_tables : case_tables_ok.
Proof. intros r Hr. split; left; exact Hr. Qed.

Lemma plain_upper : upper_idempotent plain_env.
Proof.
  intros r Hr. unfold rune_upper. cbn [env_upper plain_env demo].
  destruct (N.leb 128 (norm_rune r)) eqn:H; [reflexivity|].
  pose proof (norm_rune_ge r Hr). apply N.leb_gt in H. now apply N.lt_nge in H.
Qed.

Ltac free := apply free_of_has_char; reflexivity.
Ltac tree := repeat first [apply Forall_nil | apply Forall_cons | split | free | exact I].

Definition cplx (name : string) (els : list Element) (ats : list Attribute) : proto :=
  PComplex (mkComplex "" name "" els ats [] []).
Definition elem (name type : string) (plural : bool) : Element := mkElement "" name type plural false.
Definition attr (name type : string) (optional : bool) : Attribute := mkAttribute name "" type false optional.

(** ** C30 *)

Lemma rendered_facts : forall (E : Env) l pt, let ps := rendered l [] pt in
    subsequence (map fst ps) pt /\
    NoDup (flat_map (fun x : proto * bool => if snd x then [] else match proto_name (fst x) with Some n => [n] | None => [] end) ps) /\
    (forall p, In (p, false) ps -> exists pre post n, pt = pre +++ p :: post /\ proto_name p = Some n /\
       forall q, In q pre -> proto_name q = Some n -> In (q, true) ps) /\
    (forall p, In (p, true) ps -> l = TypeScript /\ exists v, p = PSimple v /\ st_enum v <> []) /\
    (forall p n, In p pt -> proto_name p = Some n -> exists q e, In (q, e) ps /\ proto_name q = Some n).
Proof.
  intros E l pt ps. unfold ps.
  split; [apply rendered_sub|]. split; [apply rendered_names|]. split; [|split].
  - intros p Hp. destruct (rendered_first l pt [] p Hp) as [pre [post [n [Heq [Hn [_ Hpre]]]]]].
    exists pre, post, n. split; [exact Heq|]. split; [exact Hn|]. intros q Hq Hqn.
    destruct (Hpre q Hq Hqn) as [He Hl]. destruct l; try discriminate. destruct q as [|v|v|v|v|v|v]; try discriminate.
    apply rendered_all_enums; [|exact Hl | exact He]. rewrite Heq. apply in_or_app. now left.
  - intros p Hp. apply rendered_enum in Hp as [He _]. destruct l; try discriminate.
    destruct p as [|v|v|v|v|v|v]; try discriminate. split; [reflexivity|]. exists v. split; [reflexivity|].
    cbn in He. intros Hc. rewrite Hc, andb_false_r in He. discriminate.
  - intros p n Hp Hn. now apply (rendered_complete l pt [] p n).
Qed.

(** The text declares a subsequence of the components, in their order: at most
    one per name (TypeScript enumerations aside), the first of each name, and
    every name. *)
Theorem C30_first_of_each_name : forall (E : Env) l pt, case_tables_ok -> tree_ok pt ->
  exists ps ids, length ids = length ps /\
    outline (body l pt) =
      Some (concat (map (fun x : proto * bool * string => items_of l pt (fst (fst x)) (snd (fst x)) (snd x)) (combine ps ids))) /\
    subsequence (map fst ps) pt /\
    NoDup (flat_map (fun x : proto * bool => if snd x then [] else match proto_name (fst x) with Some n => [n] | None => [] end) ps) /\
    (forall p, In (p, false) ps -> exists pre post n, pt = pre +++ p :: post /\ proto_name p = Some n /\
       forall q, In q pre -> proto_name q = Some n -> In (q, true) ps) /\
    (forall p, In (p, true) ps -> l = TypeScript /\ exists v, p = PSimple v /\ st_enum v <> []) /\
    (forall p n, In p pt -> proto_name p = Some n -> exists q e, In (q, e) ps /\ proto_name q = Some n).
Proof.
  intros E l pt Ht Hok. exists (rendered l [] pt), (identifiers l [] (map fst (rendered l [] pt))).
  split; [now rewrite identifiers_length, map_length|]. split; [now apply outline_of_run|].
  exact (rendered_facts E l pt).
Qed.
Print Assumptions C30_first_of_each_name.

(** The same for every tree, with the text of each component as the generator
    makes it from a state without text. *)
Theorem C30_every_tree : forall (E : Env) l pt,
  exists ps gs, length gs = length ps /\ Forall (fun g => g_field g = "") gs /\
    body l pt = sconcat (map (fun x : proto * bool * GState => g_field (entry_of l pt (snd x) (fst (fst x)))) (combine ps gs)) /\
    subsequence (map fst ps) pt /\
    NoDup (flat_map (fun x : proto * bool => if snd x then [] else match proto_name (fst x) with Some n => [n] | None => [] end) ps) /\
    (forall p, In (p, false) ps -> exists pre post n, pt = pre +++ p :: post /\ proto_name p = Some n /\
       forall q, In q pre -> proto_name q = Some n -> In (q, true) ps) /\
    (forall p, In (p, true) ps -> l = TypeScript /\ exists v, p = PSimple v /\ st_enum v <> []) /\
    (forall p n, In p pt -> proto_name p = Some n -> exists q e, In (q, e) ps /\ proto_name q = Some n).
Proof.
  intros E l pt. destruct (run_texts l pt pt [] g_init) as [gs [H1 [H2 H3]]]; [intros n; split; [discriminate|intros []]|].
  exists (rendered l [] pt), gs. split; [exact H1|]. split; [exact H3|]. split; [exact H2|]. exact (rendered_facts E l pt).
Qed.
Print Assumptions C30_every_tree.

(** Whatever its names look like, a component whose name was declared before
    does not change the text. *)
Theorem C30_repeated_ignored : forall (E : Env) l types pre p post q n, 
  In q pre -> proto_name q = Some n -> proto_name p = Some n ->
  (l = TypeScript -> forall v, q = PSimple v \/ p = PSimple v -> st_enum v = []) ->
  fold_left (entry_of l types) (pre +++ p :: post) g_init = fold_left (entry_of l types) (pre +++ post) g_init.
Proof.
  intros E l types pre p post q n Hq Hqn Hpn Hts.
  assert (He : forall x, x = q \/ x = p -> enumerated l x = false).
  { intros x Hx. destruct l; try reflexivity. destruct x as [|v|v|v|v|v|v]; try reflexivity. cbn.
    rewrite (Hts eq_refl v); [apply andb_false_r|]. destruct Hx as [<-|<-]; auto. }
  apply (repeated_ignored l types pre p post q n); auto.
Qed.
Print Assumptions C30_repeated_ignored.

Definition tree30 : list proto :=
  [cplx "A" [elem "x" "int" false] []; PNil; cplx "B" [] []; cplx "A" [elem "y" "A" true] [];
   PSimple (mkSimple "" "B" "string" false false [] [])].

Example C30_example : tree_ok tree30 /\
  outline (body Go tree30) =
    Some [mkItem ["// A ..." ++ CR] "type A struct {" ["X" ++ TAB ++ "int" ++ TAB ++ "`xml:" ++ DQ ++ "x" ++ DQ ++ "`"];
          mkItem [] "}" []; mkItem ["// B ..." ++ CR] "type B struct {" []; mkItem [] "}" []].
Proof. split; [repeat (constructor; try tree) | vm_compute; reflexivity]. Qed.

(** ** C31 *)

(** Components whose names give different identifiers are declared with these
    identifiers. *)
Theorem C31_distinct_names : forall (E : Env) l pt, case_tables_ok -> tree_ok pt -> tree_plain pt ->
  NoDup (map (plain_ident l) (map fst (rendered l [] pt))) ->
  exists its, outline (body l pt) = Some its /\
    flat_map (declares l) its = map (plain_ident l) (map fst (rendered l [] pt)) /\ NoDup (flat_map (declares l) its).
Proof. intros E l pt Ht. now apply distinct_identifiers. Qed.
Print Assumptions C31_distinct_names.

(** Components whose names give equal identifiers are kept apart by numbers, if
    the identifiers do not end in digits and the generator numbers this kind of
    component in this language ([tagged]). *)
Theorem C31_numbered_partial : forall (E : Env) l pt, case_tables_ok -> tree_ok pt -> tree_plain pt ->
  Forall (fun x => tagged l (fst x) = true) (rendered l [] pt) ->
  Forall (fun x => ~ ends_in_digit (plain_ident l (fst x))) (rendered l [] pt) ->
  exists its, outline (body l pt) = Some its /\ NoDup (flat_map (declares l) its).
Proof. intros E l pt Ht. now apply numbered_identifiers. Qed.
Print Assumptions C31_numbered_partial.

(** Which declarations carry a number. *)
Theorem C31_numbered_kinds : forall l p, tagged l p = true <->
  match l, p with
  | Java, _ | TypeScript, _ => True
  | Go, PElement _ | Rust, PElement _ | Rust, PAttribute _ => False
  | Go, _ | Rust, _ => True
  | C, PElement _ | C, PAttribute _ => False
  | C, PSimple v => st_list v = false /\ st_union v = true /\ st_members v <> []
  | C, _ => True
  end.
Proof.
  intros [] []; cbn; try (split; intros; [exact I | reflexivity]); try (split; [discriminate | contradiction]).
  unfold is_union. destruct (st_list v), (st_union v), (st_members v); cbn; intuition congruence.
Qed.
Print Assumptions C31_numbered_kinds.

(** A numbered identifier can meet a plain one. *)
Theorem C31_number_clash_refuted : exists E : Env, forall l, exists pt, case_tables_ok /\ tree_ok pt /\ tree_plain pt /\
  exists its, outline (body l pt) = Some its /\ flat_map (declares l) its = ["Item"; "Item2"; "Item2"].
Proof.
  exists plain_env. intros l. exists [cplx "item" [] []; cplx "Item" [] []; cplx "Item2" [] []].
  split; [exact plain_tables|]. split; [repeat (constructor; try tree)|]. split; [repeat (constructor; try tree)|].
  destruct l; eexists; (split; [vm_compute; reflexivity | reflexivity]).
Qed.
Print Assumptions C31_number_clash_refuted.

(** Kinds that are not numbered clash at once. *)
Theorem C31_not_numbered_refuted : exists E : Env, forall l, l = Go \/ l = C \/ l = Rust ->
  exists pt id, case_tables_ok /\ tree_ok pt /\ tree_plain pt /\ Forall (fun p => ~ ends_in_digit (plain_ident l p)) pt /\
  exists its, outline (body l pt) = Some its /\ flat_map (declares l) its = [id; id].
Proof.
  exists plain_env. intros l Hl. exists [PElement (elem "item" "string" false); PElement (elem "Item" "string" false)].
  assert (Hd : forall s c, is_digit c = false -> ~ ends_in_digit (s ++ String c "")).
  { intros s c Hc [t [d [Heq Hd]]]. assert (H : c = d); [|congruence].
    clear - Heq. revert t Heq. induction s as [|a s IH]; intros [|b t] H; cbn in H.
    - congruence.
    - injection H as _ H. now destruct t.
    - injection H as _ H. now destruct s.
    - injection H as _ H. eauto. }
  exists (match l with Rust => "item" | _ => "Item" end).
  split; [exact plain_tables|]. split; [repeat (constructor; try tree)|]. split; [repeat (constructor; try tree)|].
  destruct Hl as [->|[->| ->]]; (split; [repeat constructor; first [exact (Hd "Ite" "m"%char eq_refl) | exact (Hd "ite" "m"%char eq_refl)]|]);
    eexists; (split; [vm_compute; reflexivity | reflexivity]).
Qed.
Print Assumptions C31_not_numbered_refuted.

Definition tree31 : list proto := [cplx "item" [] []; cplx "it-em" [] []; cplx "Item" [] []; cplx "Other" [] []].

Example C31_example : tree_ok tree31 /\ tree_plain tree31 /\
  Forall (fun x => tagged Go (fst x) = true) (rendered Go [] tree31) /\
  (exists its, outline (body Go tree31) = Some its /\ flat_map (declares Go) its = ["Item"; "Item2"; "Item3"; "Other"]).
Proof.
  split; [repeat (constructor; try tree)|]. split; [repeat (constructor; try tree)|].
  split; [repeat constructor|]. eexists. split; [vm_compute; reflexivity | reflexivity].
Qed.

(** ** C32 *)

(** The reference to a name and the identifier made from it. *)
Theorem C32_same_identifier_partial : forall (E : Env) l n, upper_idempotent E -> case_tables_ok ->
  well_formed n -> free_of ":" n -> ~ starts_with n "-" -> ~ starts_with n "." ->
  ~ In n (builtins l) -> type_ident l n <> "" -> (l = TypeScript -> type_ident l n <> "Any") ->
  type_name l n = star l (type_ident l n).
Proof.
  intros E l n H1 H2 H3 H4 H5 H6 H7 H8 H9. apply reference_ident; auto.
  unfold builtin. destruct (in_dec string_dec n (builtins l)); [contradiction | reflexivity].
Qed.
Print Assumptions C32_same_identifier_partial.

(** In the text: a type that nothing else stands for (complex types, groups,
    lists, unions) is referred to, with and without a prefix, by the identifier
    that the text declares for it, if names do not collide. *)
Theorem C32_declared_and_referenced_partial : forall (E : Env) l pt p n prefix, upper_idempotent E -> case_tables_ok ->
  tree_ok pt -> tree_plain pt -> NoDup (map (plain_ident l) (map fst (rendered l [] pt))) ->
  first_of p pt -> proto_name p = Some n -> resolved pt n = n ->
  (l = Rust -> (forall v, p <> PElement v) /\ (forall v, p <> PAttribute v)) ->
  well_formed n -> free_of ":" n -> free_of ":" prefix -> ~ starts_with n "-" -> ~ starts_with n "." ->
  ~ In n (builtins l) -> type_ident l n <> "" -> (l = TypeScript -> type_ident l n <> "Any") ->
  shown l pt n = star l (type_ident l n) /\ shown l pt (prefix ++ ":" ++ n) = star l (type_ident l n) /\
  exists its, outline (body l pt) = Some its /\ In (type_ident l n) (flat_map (declares l) its).
Proof.
  intros E l pt p n prefix Hi Ht Hok Hpl Hnd Hf Hn Hres Hrust Hwf Hc Hcp Hm Hd Hb Hne Hany.
  assert (Href : type_name l n = star l (type_ident l n)) by now apply C32_same_identifier_partial.
  apply free_of_has_char in Hc, Hcp.
  split; [|split].
  - unfold shown, local_part. rewrite (StrLemmas.split_on_no_char ":" n Hc), Hres. exact Href.
  - unfold shown, local_part. change (prefix ++ ":" ++ n) with (prefix ++ String ":" n).
    rewrite StrLemmas.split_on_app_char by exact Hcp. rewrite (StrLemmas.split_on_no_char ":" n Hc), Hres. exact Href.
  - destruct (distinct_identifiers Ht l pt Hok Hpl Hnd) as [its [Ho [Hdecl _]]]. exists its. split; [exact Ho|].
    rewrite Hdecl. 
    assert (Hin : exists q e, In (q, e) (rendered l [] pt) /\ plain_ident l q = type_ident l n).
    { destruct Hf as [pre [post [m [Heq [Hm' Hpre]]]]]. assert (m = n) by congruence. subst m.
      destruct (enumerated l p && negb (listed p)) eqn:He.
      - apply andb_true_iff in He as [He Hl]. destruct l; try discriminate. destruct p as [|v|v|v|v|v|v]; try discriminate.
        exists (PSimple v), true. split.
        + apply rendered_all_enums; [rewrite Heq; apply in_or_app; right; now left | now apply negb_true_iff in Hl | exact He].
        + unfold plain_ident. now rewrite Hn.
      - exists p, false. split; [now apply (first_rendered l pt [] p pre post n)|].
        unfold plain_ident. rewrite Hn. destruct l, p; try reflexivity; destruct (Hrust eq_refl); congruence. }
    destruct Hin as [q [e [Hin Heq]]]. rewrite <- Heq. apply in_map, in_map_iff. now exists (q, e).
Qed.
Print Assumptions C32_declared_and_referenced_partial.

(** If identifiers collide, the reference does not follow the number. *)
Theorem C32_number_refuted : exists E : Env, forall l, exists pt, tree_ok pt /\ tree_plain pt /\
  (exists its, outline (body l pt) = Some its /\ flat_map (declares l) its = ["Item"; "Item2"]) /\
  nth_error (map fst (rendered l [] pt)) 1 = Some (cplx "Item" [] []) /\ shown l pt "Item" = star l "Item".
Proof.
  exists plain_env. intros l. exists [cplx "item" [] []; cplx "Item" [] []].
  split; [repeat (constructor; try tree)|]. split; [repeat (constructor; try tree)|].
  destruct l; (split; [eexists; (split; [vm_compute; reflexivity | reflexivity])|]; split; vm_compute; reflexivity).
Qed.
Print Assumptions C32_number_refuted.

(** The two exceptions to C32_same_identifier_partial: a name that leaves no
    identifier, and in TypeScript a type called any or Any. *)
Theorem C32_placeholder_refuted : forall (E : Env) l n, upper_idempotent E -> case_tables_ok ->
  well_formed n -> free_of ":" n -> ~ starts_with n "-" -> ~ starts_with n "." ->
  ~ In n (builtins l) -> (type_ident l n = "" \/ l = TypeScript /\ type_ident l n = "Any") ->
  type_name l n = match l with Go => "interface{}" | C | Java => "void" | Rust => "char" | TypeScript => "any" end /\
  type_name l n <> star l (type_ident l n).
Proof.
  intros E l n H1 H2 H3 H4 H5 H6 H7 H8.
  assert (Hb : builtin l n = false) by (unfold builtin; destruct (in_dec string_dec n (builtins l)); [contradiction | reflexivity]).
  rewrite (reference_exact l n) by assumption. destruct H8 as [H8|[-> H8]]; rewrite H8; cbn [string_dec].
  - split; [reflexivity|]. destruct l; discriminate.
  - split; [reflexivity|discriminate].
Qed.
Print Assumptions C32_placeholder_refuted.

Example C32_placeholder_example : exists pt, tree_ok pt /\
  (exists its, outline (body TypeScript pt) = Some its /\ flat_map (declares TypeScript) its = ["Any"]) /\
  shown TypeScript pt "Any" = "any" /\ type_ident Go "_" = "" /\ type_name Go "_" = "interface{}".
Proof.
  exists [cplx "Any" [] []]. split; [repeat (constructor; try tree)|].
  split; [eexists; (split; [vm_compute; reflexivity | reflexivity])|]. vm_compute. auto.
Qed.

(** A leading hyphen: declared as fooBar, referred to as FooBar. *)
Theorem C32_leading_hyphen_refuted : exists E : Env,
  type_ident Go "-foo.bar" = "fooBar" /\ type_name Go "-foo.bar" = "*FooBar".
Proof. exists plain_env. vm_compute. auto. Qed.
Print Assumptions C32_leading_hyphen_refuted.

Lemma wf_ascii : forall s, Forall (fun c => N_of_ascii c < 128)%N (list_ascii_of_string s) -> well_formed s.
Proof.
  induction s as [|c s IH]; intros H; [exists []; split; [constructor | reflexivity]|].
  inversion H as [|? ? Hc Hs]; subst. destruct (IH Hs) as [rs [Hrs Heq]]. exists (N_of_ascii c :: rs). split.
  - constructor; [|exact Hrs]. left. unfold Utf8.norm_rune in *. lia.
  - cbn [map sconcat]. rewrite <- Heq. unfold encode_rune. destruct (N.ltb_spec (N_of_ascii c) 128); [|lia].
    cbn [append]. now rewrite ascii_N_embedding.
Qed.

Definition tree32 : list proto := [cplx "my-type.v1" [] []; cplx "User" [elem "x" "ns:my-type.v1" true] []].

Example C32_example : tree_ok tree32 /\ tree_plain tree32 /\ first_of (cplx "my-type.v1" [] []) tree32 /\
  resolved tree32 "my-type.v1" = "my-type.v1" /\ type_ident Go "my-type.v1" = "MytypeV1" /\
  NoDup (map (plain_ident Go) (map fst (rendered Go [] tree32))) /\
  shown Go tree32 "ns:my-type.v1" = "*MytypeV1" /\ well_formed "my-type.v1".
Proof.
  split; [repeat (constructor; try tree)|]. split; [repeat (constructor; try tree)|].
  split; [exists [], [cplx "User" [elem "x" "ns:my-type.v1" true] []], "my-type.v1"; repeat split; intros q []|].
  split; [reflexivity|]. split; [vm_compute; reflexivity|].
  split; [vm_compute; repeat constructor; cbn; intuition discriminate|]. split; [vm_compute; reflexivity|].
  apply wf_ascii. repeat constructor.
Qed.

(** ** C33 *)

(** What a Go file imports, exactly. *)
Theorem C33_import_block : forall (E : Env) pkg pt,
  go_source pkg (run_entries go_entry pt) =
    text_lines ["// Code generated by xgen. DO NOT EDIT."; ""; "package " ++ package pkg]
    ++ import_block (imports pt) ++ body Go pt.
Proof. intros E pkg pt. pose proof (source_text Go pkg pt) as H. cbn [entry_of] in *. rewrite H. unfold preamble. now rewrite StrLemmas.app_assoc_s. Qed.
Print Assumptions C33_import_block.

(** Nothing is imported without being used. *)
Theorem C33_no_unused_import : forall (E : Env) pt,
  (In "time" (imports pt) -> mentions (body Go pt) "time.Time") /\
  (In "encoding/xml" (imports pt) -> mentions (body Go pt) "xml.Name").
Proof. exact @imports_used. Qed.
Print Assumptions C33_no_unused_import.

(** Members of complex types that are times bring the import of time. *)
Theorem C33_time_imported_partial : forall (E : Env) pt v, first_of (PComplex v) pt ->
  (exists a, In a (ct_attributes v) /\ shown Go pt (at_type a) = "time.Time") \/
  (exists e, In e (ct_elements v) /\ shown Go pt (el_type e) = "time.Time") \/
  (exists a, In a (ct_attrgroups v) /\ shown Go pt (ag_ref a) = "time.Time") ->
  In "time" (imports pt).
Proof. exact @asks_time_complex. Qed.
Print Assumptions C33_time_imported_partial.

(** Other uses do not: an alias of time.Time, an attribute of type xml.Name. *)
Theorem C33_missing_import_refuted : exists E : Env, exists pt pt', tree_ok pt /\ tree_ok pt' /\
  mentions (body Go pt) "time.Time" /\ imports pt = [] /\
  mentions (body Go pt') "xml.Name" /\ imports pt' = [].
Proof.
  exists plain_env, [PSimple (mkSimple "" "Stamp" "time.Time" false false [] [])], [cplx "Foo" [] [attr "q" "xml.Name" false]].
  split; [repeat (constructor; try tree)|]. split; [repeat (constructor; try tree)|].
  split; [exists (CR ++ NL ++ "// Stamp ..." ++ CR ++ NL ++ "type Stamp "), NL; vm_compute; reflexivity|].
  split; [vm_compute; reflexivity|].
  split; [|vm_compute; reflexivity].
  exists (CR ++ NL ++ "// Foo ..." ++ CR ++ NL ++ "type Foo struct {" ++ NL ++ TAB ++ "QAttr" ++ TAB),
    (TAB ++ "`xml:" ++ DQ ++ "q,attr" ++ DQ ++ "`" ++ NL ++ "}" ++ NL). vm_compute. reflexivity.
Qed.
Print Assumptions C33_missing_import_refuted.

Definition tree33 : list proto := [cplx "foo" [elem "at" "time.Time" true] [attr "a" "string" true]].

Example C33_example : imports tree33 = ["time"; "encoding/xml"] /\
  go_source "p" (run_entries go_entry tree33) =
    text_lines ["// Code generated by xgen. DO NOT EDIT."; ""; "package p"; "import ("; TAB ++ quoted "time";
                TAB ++ quoted "encoding/xml"]
    ++ ")" ++ body Go tree33 /\
  first_of (cplx "foo" [elem "at" "time.Time" true] [attr "a" "string" true]) tree33 /\
  shown Go tree33 "time.Time" = "time.Time".
Proof.
  split; [vm_compute; reflexivity|]. split; [vm_compute; reflexivity|]. split; [|vm_compute; reflexivity].
  exists [], [], "foo". repeat split. intros q [].
Qed.

(** ** C34 *)

(** Every element of a complex type is written with a collection type if it is
    plural and with the plain type if not.  The exceptions are excluded here and
    refuted below. *)
Theorem C34_elements_partial : forall (E : Env) l pt v e, case_tables_ok -> tree_ok pt ->
  first_of (PComplex v) pt -> In e (ct_elements v) ->
  (l = Rust -> el_plural e = false -> el_optional e = false) ->
  (l = TypeScript -> el_plural e = true -> ~ In (resolved pt (local_part (el_type e))) (builtins TypeScript)) ->
  (l = C -> ~ array_type (shown C pt (el_type e))) ->
  exists its id, outline (body l pt) = Some its /\
    contains its (items_of l pt (PComplex v) false id) /\
    contains (all_rows (items_of l pt (PComplex v) false id)) (element_rows l pt e).
Proof.
  intros E l pt v e Ht Hok Hf He Hr Hts Hc.
  destruct (first_block l pt (PComplex v) Hf) as [id Hid]; [now destruct l|].
  exists (expected l pt), id. split; [now apply outline_of_run|]. split; [exact Hid|].
  apply complex_elements; auto.
  - intros -> Hp. unfold builtin. destruct (in_dec string_dec _ _) as [Hin|]; [|reflexivity]. elim (Hts eq_refl Hp Hin).
  - intros ->. now apply Hc.
Qed.
Print Assumptions C34_elements_partial.

(** TypeScript: a plural element of a built-in type is written like a singular one. *)
Theorem C34_typescript_refuted : forall (E : Env) pt v e, case_tables_ok -> tree_ok pt ->
  first_of (PComplex v) pt -> In e (ct_elements v) -> In (resolved pt (local_part (el_type e))) (builtins TypeScript) ->
  exists its id, outline (body TypeScript pt) = Some its /\
    contains its (items_of TypeScript pt (PComplex v) false id) /\
    contains (all_rows (items_of TypeScript pt (PComplex v) false id))
      [member_ident TypeScript (el_name e) ++ ": " ++ shown TypeScript pt (el_type e) ++ ";"].
Proof.
  intros E pt v e Ht Hok Hf He Hb.
  destruct (first_block TypeScript pt (PComplex v) Hf) as [id Hid]; [reflexivity|].
  exists (expected TypeScript pt), id. split; [now apply outline_of_run|]. split; [exact Hid|].
  cbn [items_of ts_items]. unfold t_class, all_rows. cbn [flat_map rows]. apply contains_l, contains_r, contains_r, contains_r, contains_l.
  pose proof (contains_map _ _ (t_element_row pt) (ct_elements v) e He) as H.
  assert (Hrow : t_element_row pt e = member_ident TypeScript (el_name e) ++ ": " ++ shown TypeScript pt (el_type e) ++ ";").
  { unfold t_element_row, t_field, shown_ts, array, shown, builtin at 1.
    destruct (in_dec string_dec (resolved pt (local_part (el_type e))) (builtins TypeScript)); [|contradiction]. now destruct (el_plural e). }
  rewrite <- Hrow. exact H.
Qed.
Print Assumptions C34_typescript_refuted.

(** C: the brackets of an array type and of a plural element are merged. *)
Theorem C34_c_refuted : forall (E : Env) pt v e u, case_tables_ok -> tree_ok pt ->
  first_of (PComplex v) pt -> In e (ct_elements v) -> shown C pt (el_type e) = u ++ "[]" ->
  exists its id, outline (body C pt) = Some its /\
    contains its (items_of C pt (PComplex v) false id) /\
    contains (all_rows (items_of C pt (PComplex v) false id)) [u ++ " " ++ member_ident C (el_name e) ++ "[];"].
Proof.
  intros E pt v e u Ht Hok Hf He Hu.
  destruct (first_block C pt (PComplex v) Hf) as [id Hid]; [reflexivity|].
  exists (expected C pt), id. split; [now apply outline_of_run|]. split; [exact Hid|].
  cbn [items_of c_items]. unfold c_struct, all_rows. cbn [flat_map rows]. apply contains_l, contains_r, contains_r, contains_r.
  pose proof (contains_map _ _ (fun e => c_declarator (shown C pt (el_type e)) (member_ident C (el_name e)) (el_plural e) ++ ";")
    (ct_elements v) e He) as H.
  cbv beta in H. unfold c_declarator in H. rewrite Hu, GenOutline.strip_suffix_app in H. rewrite !StrLemmas.app_assoc_s in H. exact H.
Qed.
Print Assumptions C34_c_refuted.

(** Rust: a singular element marked optional. *)
Theorem C34_rust_optional : forall (E : Env) pt v e, case_tables_ok -> tree_ok pt ->
  first_of (PComplex v) pt -> In e (ct_elements v) -> el_plural e = false -> el_optional e = true ->
  exists its id, outline (body Rust pt) = Some its /\
    contains its (items_of Rust pt (PComplex v) false id) /\
    contains (all_rows (items_of Rust pt (PComplex v) false id))
      ["#[serde(rename = " ++ quoted (el_name e) ++ ")]";
       "pub " ++ member_ident Rust (el_name e) ++ ": Option<" ++ shown Rust pt (el_type e) ++ ">,"].
Proof.
  intros E pt v e Ht Hok Hf He Hp Ho.
  destruct (first_block Rust pt (PComplex v) Hf) as [id Hid]; [reflexivity|].
  exists (expected Rust pt), id. split; [now apply outline_of_run|]. split; [exact Hid|].
  cbn [items_of rust_items]. unfold r_struct, all_rows. cbn [flat_map rows app].
  apply contains_l, contains_r, contains_r, contains_r, contains_l.
  pose proof (contains_flat _ _ (fun e => r_field (el_name e) (member_ident Rust (el_name e))
     (if el_plural e then r_vec true (shown Rust pt (el_type e))
      else if el_optional e then "Option<" ++ shown Rust pt (el_type e) ++ ">"
      else shown Rust pt (el_type e))) (ct_elements v) e He) as H.
  cbv beta in H. rewrite Hp, Ho in H. unfold r_field in H. rewrite !StrLemmas.app_assoc_s in H. exact H.
Qed.
Print Assumptions C34_rust_optional.

Definition tree34 : list proto := [cplx "Foo" [elem "a" "Foo" true; elem "b" "int" false] []].

Example C34_example : tree_ok tree34 /\ first_of (cplx "Foo" [elem "a" "Foo" true; elem "b" "int" false] []) tree34 /\
  ~ In (resolved tree34 (local_part "Foo")) (builtins TypeScript) /\
  map (fun l => element_rows l tree34 (elem "a" "Foo" true)) [C; Java; Rust; TypeScript] =
    [["Foo A[];"]; ["@XmlElement(required = true, name = " ++ quoted "a" ++ ")"; "protected List<Foo> A;"];
     ["#[serde(rename = " ++ quoted "a" ++ ")]"; "pub a: Vec<Foo>,"]; ["A: Array<Foo>;"]] /\
  (exists its, outline (body TypeScript tree34) = Some its /\ all_rows its = ["A: Array<Foo>;"; "B: Int;"]) /\
  (exists its, outline (body TypeScript [cplx "Foo" [elem "a" "string" true] []]) = Some its /\ all_rows its = ["A: string;"]) /\
  (exists its, outline (body C [cplx "Foo" [elem "a" "char[]" true] []]) = Some its /\ all_rows its = ["char A[];"]).
Proof.
  split; [repeat (constructor; try tree)|]. split; [exists [], [], "Foo"; repeat split; intros q []|].
  split; [vm_compute; intuition discriminate|]. split; [vm_compute; reflexivity|].
  split; [eexists; split; vm_compute; reflexivity|]. split; (eexists; split; vm_compute; reflexivity).
Qed.

(** ** C35 *)

Theorem C35_complex_attributes : forall (E : Env) l pt v a, case_tables_ok -> tree_ok pt ->
  first_of (PComplex v) pt -> In a (ct_attributes v) ->
  (l = TypeScript -> at_plural a = false) -> (l = C -> ~ array_type (shown C pt (at_type a))) ->
  exists its id, outline (body l pt) = Some its /\
    contains its (items_of l pt (PComplex v) false id) /\
    contains (all_rows (items_of l pt (PComplex v) false id)) (attribute_rows l pt a).
Proof.
  intros E l pt v a Ht Hok Hf Ha Hts Hc.
  destruct (first_block l pt (PComplex v) Hf) as [id Hid]; [now destruct l|].
  exists (expected l pt), id. split; [now apply outline_of_run|]. split; [exact Hid|].
  apply complex_attributes; auto. intros ->. now apply Hc.
Qed.
Print Assumptions C35_complex_attributes.

(** Attribute groups: not Java, and in Rust only optional attributes. *)
Theorem C35_group_attributes_partial : forall (E : Env) l pt v a, case_tables_ok -> tree_ok pt ->
  first_of (PAttrGroup v) pt -> In a (ag_attributes v) ->
  (l = TypeScript -> at_plural a = false) -> (l = C -> ~ array_type (shown C pt (at_type a))) ->
  l <> Java -> (l = Rust -> at_optional a = true) ->
  exists its id, outline (body l pt) = Some its /\
    contains its (items_of l pt (PAttrGroup v) false id) /\
    contains (all_rows (items_of l pt (PAttrGroup v) false id)) (attribute_rows l pt a).
Proof.
  intros E l pt v a Ht Hok Hf Ha Hts Hc Hj Hr.
  destruct (first_block l pt (PAttrGroup v) Hf) as [id Hid]; [now destruct l|].
  exists (expected l pt), id. split; [now apply outline_of_run|]. split; [exact Hid|].
  apply group_attributes; auto. intros ->. now apply Hc.
Qed.
Print Assumptions C35_group_attributes_partial.

(** The marker tells optional from required, in every language. *)
Theorem C35_marker_distinguishes : forall (E : Env) l pt a a', at_name a = at_name a' -> at_type a = at_type a' ->
  at_optional a <> at_optional a' -> attribute_rows l pt a <> attribute_rows l pt a'.
Proof.
  intros E l pt a a' Hn Ht Ho. unfold attribute_rows. rewrite Hn, Ht.
  intros H. apply (f_equal (fun rows => String.length (sconcat rows))) in H. revert H.
  destruct (at_optional a), (at_optional a'); try congruence; destruct l; rewrite !sconcat_cons; unfold quoted;
    rewrite ?StrLemmas.length_app_s; cbn [sconcat fold_right String.length append]; rewrite ?StrLemmas.length_app_s;
    cbn [String.length append]; intros H; lia.
Qed.
Print Assumptions C35_marker_distinguishes.

(** Java attribute groups: the type gets the suffix Attr.  Rust attribute groups:
    a required attribute becomes a vector. *)
Theorem C35_groups_refuted : forall (E : Env) pt v, case_tables_ok -> tree_ok pt -> first_of (PAttrGroup v) pt ->
  (exists its id, outline (body Java pt) = Some its /\ contains its (items_of Java pt (PAttrGroup v) false id) /\
     all_rows (items_of Java pt (PAttrGroup v) false id) =
       flat_map (fun a => ["@XmlAttribute(name = " ++ quoted (at_name a) ++ (if at_optional a then ")" else ", required = true)");
                           "protected " ++ shown Java pt (at_type a) ++ "Attr " ++ member_ident Java (at_name a) ++ ";"])
         (ag_attributes v)) /\
  (exists its id, outline (body Rust pt) = Some its /\ contains its (items_of Rust pt (PAttrGroup v) false id) /\
     all_rows (items_of Rust pt (PAttrGroup v) false id) =
       flat_map (fun a => ["#[serde(rename = " ++ quoted (at_name a) ++ ")]";
                           "pub " ++ member_ident Rust (at_name a) ++ ": " ++ (if at_optional a then "Option<" else "Vec<")
                           ++ shown Rust pt (at_type a) ++ ">,"])
         (ag_attributes v)).
Proof.
  intros E pt v Ht Hok Hf. split.
  - destruct (first_block Java pt (PAttrGroup v) Hf) as [id Hid]; [reflexivity|].
    exists (expected Java pt), id. split; [now apply outline_of_run|]. split; [exact Hid|].
    cbn [items_of java_items]. unfold j_class, all_rows. cbn [flat_map rows app]. rewrite !app_nil_r.
    apply flat_map_ext. intros a. unfold j_attribute_mark, j_field. rewrite !StrLemmas.app_assoc_s. destruct (at_optional a); reflexivity.
  - destruct (first_block Rust pt (PAttrGroup v) Hf) as [id Hid]; [reflexivity|].
    exists (expected Rust pt), id. split; [now apply outline_of_run|]. split; [exact Hid|].
    cbn [items_of rust_items]. unfold r_struct, all_rows. cbn [flat_map rows app]. rewrite !app_nil_r.
    apply flat_map_ext. intros a. unfold r_field, r_vec. destruct (at_optional a); rewrite !StrLemmas.app_assoc_s; reflexivity.
Qed.
Print Assumptions C35_groups_refuted.

Example C35_groups_example : let pt := [PAttrGroup (mkAttrGroup "" "G" "" [attr "a" "String" false])] in tree_ok pt /\
  (exists its, outline (body Java pt) = Some its /\
     all_rows its = ["@XmlAttribute(name = " ++ quoted "a" ++ ", required = true)"; "protected StringAttr A;"]) /\
  (exists its, outline (body Rust pt) = Some its /\
     all_rows its = ["#[serde(rename = " ++ quoted "a" ++ ")]"; "pub a: Vec<String>,"]).
Proof.
  split; [repeat (constructor; try tree)|].
  split; (eexists; split; vm_compute; reflexivity).
Qed.

Definition tree35 : list proto := [cplx "Foo" [] [attr "a" "string" true; attr "b" "Foo" false]].
Example C35_example : tree_ok tree35 /\ 
  first_of (cplx "Foo" [] [attr "a" "string" true; attr "b" "Foo" false]) tree35 /\
  (exists its, outline (body Go tree35) = Some its /\
     all_rows its = ["AAttr" ++ TAB ++ "string" ++ TAB ++ "`xml:" ++ quoted "a,attr,omitempty" ++ "`";
                     "BAttr" ++ TAB ++ "*Foo" ++ TAB ++ "`xml:" ++ quoted "b,attr" ++ "`"]) /\
  (exists its, outline (body TypeScript tree35) = Some its /\ all_rows its = ["AAttr: string | null;"; "BAttr: Foo;"]).
Proof.
  split; [repeat (constructor; try tree)|]. split; [exists [], [], "Foo"; repeat split; intros q []|].
  split; (eexists; split; vm_compute; reflexivity).
Qed.

(** ** C37 *)

(** Every line of the text, in every language. *)
Theorem C37_outline : forall (E : Env) l pt, case_tables_ok -> tree_ok pt ->
  outline (body l pt) = Some (expected l pt).
Proof. intros E l pt H1 H2. now apply outline_of_run. Qed.
Print Assumptions C37_outline.

(** Go structures read back by columns. *)
Theorem C37_go_columns : forall (E : Env) pt v, case_tables_ok -> tree_ok pt -> tree_free "009" pt ->
  first_of (PComplex v) pt ->
  exists its id doc, outline (body Go pt) = Some its /\
    contains its [mkItem doc ("type " ++ id ++ " struct {") (map (sjoin TAB) (go_fields pt id v)); mkItem [] "}" []] /\
    map (split_on "009") (map (sjoin TAB) (go_fields pt id v)) = go_fields pt id v.
Proof.
  intros E pt v Ht Hok Hfree Hf. destruct (first_block Go pt (PComplex v) Hf eq_refl) as [id Hid].
  exists (expected Go pt), id, (comment id (ct_doc v)). split; [now apply outline_of_run|].
  assert (Hv : component_free "009" (PComplex v)).
  { destruct Hf as [pre [post [n [-> _]]]]. unfold tree_free in Hfree. rewrite Forall_forall in Hfree. apply Hfree.
    apply in_or_app. right. now left. }
  pose proof (go_columns Ht pt Hfree v id Hv) as Hc.
  assert (Hrows : all_rows (items_of Go pt (PComplex v) false id) = map (sjoin TAB) (go_fields pt id v)).
  { rewrite <- Hc, map_map. rewrite <- (map_id (all_rows _)) at 1. apply map_ext. intros s. symmetry.
    apply (StrLemmas.split_on_join "009" s). }
  split; [|now rewrite <- Hrows].
  rewrite <- Hrows. cbn [items_of go_items] in Hid |- *. unfold go_struct, all_rows in *. cbn [flat_map rows] in *.
  rewrite !app_nil_r in *. exact Hid.
Qed.
Print Assumptions C37_go_columns.

Definition tree37 : list proto :=
  [PComplex (mkComplex "doc" "foo" "int" [elem "x" "y" true] [attr "a" "b" false]
     [mkGroup "" "g" [] [] false "g"] [mkAttrGroup "" "h" "h" []])].
Example C37_example : tree_ok tree37 /\ tree_free "009" tree37 /\
  (exists its, outline (body Go tree37) = Some its /\
    map (fun it => map (split_on "009") (rows it)) its =
     [[["XMLName"; "xml.Name"; "`xml:" ++ quoted "foo" ++ "`"]; ["H"; "*H"];
       ["AAttr"; "*B"; "`xml:" ++ quoted "a,attr" ++ "`"]; ["G"; "*G"]; ["X"; "[]*Y"; "`xml:" ++ quoted "x" ++ "`"];
       ["Value"; "int"; "`xml:" ++ quoted ",chardata" ++ "`"]]; []]).
Proof.
  split; [repeat (constructor; try tree)|]. split; [repeat (constructor; try tree)|].
  eexists. split; vm_compute; reflexivity.
Qed.

(** ** C39 *)

(** Every enumeration, even when its name was declared before. *)
Theorem C39_typescript_enum : forall (E : Env) pt v, case_tables_ok -> tree_ok pt ->
  In (PSimple v) pt -> st_list v = false -> st_union v = false \/ st_members v = [] -> st_enum v <> [] ->
  exists its id doc, outline (body TypeScript pt) = Some its /\
    contains its [mkItem doc ("export enum " ++ id ++ " {")
      (map (fun value =>
              if string_dec (shown TypeScript pt (st_base v)) "string" then value ++ " = '" ++ value ++ "',"
              else if string_dec (shown TypeScript pt (st_base v)) "number" then "Enum" ++ value ++ " = " ++ value ++ ","
              else "Enum" ++ value ++ " = '" ++ value ++ "',") (st_enum v));
      mkItem [] "}" []].
Proof.
  intros E pt v Ht Hok Hin Hl Hu He.
  assert (Hen : enumerated TypeScript (PSimple v) = true).
  { cbn. unfold is_union. destruct (st_enum v); [congruence|].
    destruct Hu as [-> | ->]; [reflexivity|]. now rewrite andb_false_r. }
  destruct (expected_block TypeScript pt (PSimple v) true (rendered_all_enums pt [] v Hin Hl Hen)) as [id Hid].
  exists (expected TypeScript pt), id, (comment id (st_doc v)). split; [now apply outline_of_run|].
  cbn [items_of ts_items] in Hid.
  rewrite (map_ext _ (t_enum_row (shown_ts pt (st_base v) false))); [exact Hid|].
  intros s. unfold t_enum_row, shown_ts, shown, array.
  destruct (string_dec _ "string"); [reflexivity|]. destruct (string_dec _ "number"); [reflexivity|].
  now rewrite !StrLemmas.app_assoc_s.
Qed.
Print Assumptions C39_typescript_enum.

(** The same for every tree, in the text itself. *)
Theorem C39_every_tree : forall (E : Env) pt v,
  In (PSimple v) pt -> st_list v = false -> st_union v = false \/ st_members v = [] -> st_enum v <> [] ->
  exists id, mentions (body TypeScript pt) ("export enum " ++ id ++ " {" ++ NL
    ++ sconcat (map (fun value =>
         TAB ++ (if string_dec (shown TypeScript pt (st_base v)) "string" then value ++ " = '" ++ value ++ "',"
                 else if string_dec (shown TypeScript pt (st_base v)) "number" then "Enum" ++ value ++ " = " ++ value ++ ","
                 else "Enum" ++ value ++ " = '" ++ value ++ "',") ++ NL) (st_enum v))
    ++ "}" ++ NL).
Proof.
  intros E pt v Hin Hl Hu He.
  assert (Hun : is_union v = false) by (unfold is_union; destruct Hu as [-> | ->]; [reflexivity|now rewrite andb_false_r]).
  assert (Hen : enumerated TypeScript (PSimple v) = true) by (cbn; rewrite Hun; now destruct (st_enum v)).
  pose proof (rendered_all_enums pt [] v Hin Hl Hen) as Hr.
  destruct (run_texts TypeScript pt pt [] g_init) as [gs [H1 [H2 H3]]]; [intros n; split; [discriminate|intros []]|].
  destruct (in_combine_ex _ _ _ _ _ H1 Hr) as [g Hg].
  assert (Htext : exists id, mentions (g_field (entry_of TypeScript pt g (PSimple v))) ("export enum " ++ id ++ " {" ++ NL
    ++ sconcat (map (ts_enum_member (ts_member_type pt (st_base v) false)) (st_enum v)) ++ "}" ++ NL)).
  { cbn [entry_of ts_entry]. unfold ts_simple_type. rewrite Hl, GenOutline.is_union_eq, Hun. cbn [andb].
    destruct (st_enum v) as [|e0 es] eqn:Hes; [congruence|]. cbn [length Nat.eqb negb]. unfold ts_unique_name.
    destruct (uniq_name _ _) as [id c]. exists id. cbn [emit_anon g_field]. apply mentions_app_r, mentions_app_r, mentions_refl. }
  destruct Htext as [id Hid]. exists id. change (body TypeScript pt) with (g_field (fold_left (entry_of TypeScript pt) pt g_init)). rewrite H2.
  apply mentions_app_r, (mentions_sconcat _ _ _ _ _ Hg). cbn [fst snd].
  rewrite (map_ext _ (ts_enum_member (ts_member_type pt (st_base v) false))); [exact Hid|].
  intros s. unfold ts_enum_member. rewrite shown_eq. change (GenText.shown TypeScript pt (st_base v)) with (ts_member_type pt (st_base v) false).
  destruct (string_dec _ "string") as [->|H4]; [now rewrite String.eqb_refl, !StrLemmas.app_assoc_s|].
  apply String.eqb_neq in H4. rewrite H4.
  destruct (string_dec _ "number") as [->|H5]; [now rewrite String.eqb_refl, !StrLemmas.app_assoc_s|].
  apply String.eqb_neq in H5. now rewrite H5, !StrLemmas.app_assoc_s.
Qed.
Print Assumptions C39_every_tree.

Definition tree39 : list proto :=
  [PSimple (mkSimple "" "Color" "string" false false [] ["red"; "dark blue"]); cplx "Size" [] [];
   PSimple (mkSimple "" "Size" "number" false false [] ["1"; "2"])].
Example C39_example : tree_ok tree39 /\
  (exists its, outline (body TypeScript tree39) = Some its /\ map head its = ["export enum Color {"; "}"; "export class Size {"; "}"; "export enum Size2 {"; "}"] /\
   all_rows its = ["red = 'red',"; "dark blue = 'dark blue',"; "Enum1 = 1,"; "Enum2 = 2,"]).
Proof. split; [repeat (constructor; try tree)|]. eexists. repeat split; vm_compute; reflexivity. Qed.

(** ** C41 *)

(** A code generator that succeeds has written one file: the preamble with
    marker and package, and the declarations. *)
Theorem C41_preamble : forall (E : Env) name pkg file pt w u w' l, generate name pkg file pt w = Ret u w' -> selects name l ->
  exists f text, with_extension file (extension l) f /\ file_text l pkg pt text true /\
    get (clean f) (w_fs w) <> Some NDir /\ w_fs w' = put (clean f) (NFile (env_write f text)) (w_fs w).
Proof. exact @generate_writes. Qed.
Print Assumptions C41_preamble.

(** A failure leaves all files as they were, or has written a Go text that gofmt
    rejects, without the marker. *)
Theorem C41_failure : forall (E : Env) name pkg file pt w e w', generate name pkg file pt w = Fail e w' ->
  exists l f, selects name l /\ with_extension file (extension l) f /\
    (w_fs w' = w_fs w \/
     l = Go /\ exists text, file_text l pkg pt text false /\ w_fs w' = put (clean f) (NFile (env_write f text)) (w_fs w)).
Proof. exact @generate_failed. Qed.
Print Assumptions C41_failure.

(** Another Lang: nothing is written and no error is reported. *)
Theorem C41_unknown_language : forall (E : Env) name pkg file pt w, (forall l, ~ selects name l) ->
  generate name pkg file pt w = Ret tt w.
Proof. exact @generate_unknown. Qed.
Print Assumptions C41_unknown_language.

Theorem C41_marker_and_package : forall l pkg imps,
  (exists rest, preamble l pkg imps = "// Code generated by xgen. DO NOT EDIT." ++ NL ++ rest) /\
  (l = Go -> exists a b, preamble l pkg imps = a ++ NL ++ "package " ++ (if string_dec pkg "" then "schema" else pkg) ++ NL ++ b) /\
  (l = Java -> exists a b, preamble l pkg imps = a ++ NL ++ "package " ++ (if string_dec pkg "" then "schema" else pkg) ++ ";" ++ NL ++ b).
Proof.
  intros l pkg imps. assert (Hp : (if string_dec pkg "" then "schema" else pkg) = package pkg).
  { destruct (string_dec pkg "") as [->|]; [reflexivity|]. now destruct pkg. }
  rewrite Hp. split; [|split].
  - destruct l; unfold preamble, text_lines; cbn [map]; rewrite ?sconcat_cons, ?StrLemmas.app_assoc_s; now eexists.
  - intros ->. exists (marker ++ NL), (import_block imps). unfold preamble, text_lines. cbn [map].
    rewrite ?sconcat_cons, ?StrLemmas.app_assoc_s. cbn [append]. reflexivity.
  - intros ->. unfold preamble, text_lines. cbn [map].
    rewrite ?sconcat_cons, ?StrLemmas.app_assoc_s. exists (marker ++ NL). eexists. cbn [append]. reflexivity.
Qed.
Print Assumptions C41_marker_and_package.

Example C41_example :
  let w := mkW [("out", NDir)] [] [] [] [] [] 0 [] in
  selects "java" Java /\
  exists w', generate "java" "" "out/a.xsd" [cplx "A" [] []] w = Ret tt w' /\
    get "out/a.xsd.java" (w_fs w') =
      Some (NFile (preamble Java "" [] ++ CR ++ NL ++ "// A ..." ++ CR ++ NL ++ "public class A {" ++ NL ++ "}" ++ NL)) /\
  generate "Java" "" "none/a.xsd" [cplx "A" [] []] w = Fail (ECreate "none/a.xsd.java") (set_count [("A", 1%Z)] w) /\
  generate "Cobol" "" "out/a.xsd" [cplx "A" [] []] w = Ret tt w.
Proof. split; [reflexivity|]. eexists. repeat split; vm_compute; reflexivity. Qed.

(** ** C43 *)

(** The only failure is a file that cannot be created; the text declares every
    component (C37), nil entries or not. *)
Theorem C43_only_create_fails : forall (E : Env) name pkg file pt w l, selects name l -> l <> Go ->
  exists s f w0, source_of l pkg pt s /\ with_extension file (extension l) f /\ w_fs w0 = w_fs w /\
    generate name pkg file pt w = match create_write f s w0 with Some w' => Ret tt w' | None => Fail (ECreate f) w0 end.
Proof. exact @generate_plain. Qed.
Print Assumptions C43_only_create_fails.

Theorem C43_nil_entries : forall (E : Env) l pt, body l (without_nil pt) = body l pt.
Proof. intros E l pt. now rewrite run_nil. Qed.
Print Assumptions C43_nil_entries.

Example C43_example :
  without_nil [PNil; cplx "A" [] []; PNil; cplx "B" [] []] = [cplx "A" [] []; cplx "B" [] []] /\
  body Rust [PNil; cplx "A" [] []; PNil] = body Rust [cplx "A" [] []] /\ selects "c" C.
Proof. repeat split; vm_compute; reflexivity. Qed.

(** ** C48 *)

(** A type identifier is the capitalised words of the name without hyphens (and,
    in Go and Rust, without underscores). *)
Theorem C48_words : forall (E : Env) l n, upper_idempotent E -> case_tables_ok -> well_formed n ->
  let words := flat_map (split_on ".") (split_on ":" n) in
  let id := erase "-" (sconcat (map to_title words)) in
  type_ident l n = match l with Go | Rust => erase "_" id | _ => id end.
Proof.
  intros E l n Hi Ht Hwf words id. subst words id.
  assert (Hc : camel n = erase "-" (sconcat (map to_title (flat_map (split_on ".") (split_on ":" n))))).
  { unfold camel. rewrite !joined_eq. now rewrite (words_of Hi Ht n Hwf). }
  destruct l; unfold type_ident, solid; now rewrite Hc.
Qed.
Print Assumptions C48_words.

(** The generated text declares types with these identifiers, if no two
    components have the same. *)
Theorem C48_declared : forall (E : Env) l pt p n, upper_idempotent E -> case_tables_ok -> tree_ok pt -> tree_plain pt ->
  NoDup (map (plain_ident l) (map fst (rendered l [] pt))) ->
  first_of p pt -> proto_name p = Some n -> enumerated l p && negb (listed p) = false -> well_formed n ->
  (forall v, p <> PElement v) -> (forall v, p <> PAttribute v) ->
  exists its, outline (body l pt) = Some its /\
    let id := erase "-" (sconcat (map to_title (flat_map (split_on ".") (split_on ":" n)))) in
    In (match l with Go | Rust => erase "_" id | _ => id end) (flat_map (declares l) its).
Proof.
  intros E l pt p n Hi Ht Hok Hpl Hnd Hf Hn He Hwf N1 N2.
  destruct (C31_distinct_names E l pt Ht Hok Hpl Hnd) as [its [Ho [Hd _]]]. exists its. split; [exact Ho|]. cbv zeta.
  rewrite <- (C48_words E l n Hi Ht Hwf), Hd, map_map.
  destruct Hf as [pre [post [m [Hp [Hm Hpre]]]]].
  pose proof (first_rendered l pt [] p pre post m Hp Hm) as Hr.
  apply in_map_iff. exists (p, false). split; [|apply Hr; auto].
  unfold plain_ident. cbn [fst]. rewrite Hn. destruct l, p; try reflexivity; [elim (N1 v)|elim (N2 v)]; reflexivity.
Qed.
Print Assumptions C48_declared.

Example C48_example : type_ident Go "xs:my.long-type_name" = "XsMyLongtypename" /\
  type_ident Java "xs:my.long-type_name" = "XsMyLongtype_name" /\ well_formed "xs:my.long-type_name" /\ upper_idempotent plain_env /\
  outline (body Java [cplx "xs:my.long-type_name" [] []]) =
    Some [mkItem ["// XsMyLongtype_name ..." ++ CR] "public class XsMyLongtype_name {" []; mkItem [] "}" []].
Proof.
  split; [vm_compute; reflexivity|]. split; [vm_compute; reflexivity|].
  split; [apply wf_ascii; repeat constructor|]. split; [exact plain_upper|vm_compute; reflexivity].
Qed.
