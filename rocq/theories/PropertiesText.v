(** C53: character data is documentation and nothing else. *)

From Coq Require Import String Ascii List Arith NArith ZArith Bool Lia.
From Verif Require Import GoStr GoPath Utf8 Base SpecStr Utils World Handlers Parser SpecDoc SpecParse SpecGen SpecOut SpecBare
  GenNames GenRuns SimProofs BareProofs Fixture Demo.
Import ListNotations.
Local Open Scope string_scope.

Local Infix "+++" := app (at level 60, right associativity).

Notation body l pt := (g_field (run_entries (entry_of l) pt)) (only parsing).

Section Outline.
Context {E : Env}.

Lemma map_bare : forall A B (b : A -> A) (f : A -> B) l, (forall x, f (b x) = f x) -> map f (map b l) = map f l.
Proof. intros A B b f l H. rewrite map_map. now apply map_ext. Qed.

Lemma flat_map_bare : forall A B (b : A -> A) (f : A -> list B) l, (forall x, f (b x) = f x) -> flat_map f (map b l) = flat_map f l.
Proof. intros A B b f l H. induction l as [|x l IH]; [reflexivity|]. cbn. now rewrite H, IH. Qed.

Lemma stands_bare : forall pt, flat_map stands_for (map bare pt) = flat_map stands_for pt.
Proof. intros pt. apply flat_map_bare. now intros [|v|v|v|v|v|v]. Qed.

Lemma shown_bare : forall l pt t, shown l (map bare pt) t = shown l pt t.
Proof. intros l pt t. unfold shown, resolved. now rewrite stands_bare. Qed.

Lemma shown_ts_bare : forall pt t b, shown_ts (map bare pt) t b = shown_ts pt t b.
Proof. intros pt t b. unfold shown_ts, resolved. now rewrite stands_bare. Qed.

Lemma member_bare : forall pt m, member_type (map bare pt) m = member_type pt m.
Proof. intros pt m. unfold member_type, resolved. now rewrite stands_bare. Qed.

Lemma proto_name_bare : forall p, proto_name (bare p) = proto_name p.
Proof. intros [|v|v|v|v|[]|v]; reflexivity. Qed.

Ltac rows := unfold go_items, c_items, java_items, rust_items, ts_items, go_struct, go_alias, c_struct, j_class, j_wrapper, r_struct, t_class, t_alias,
  go_attribute_row, go_group_row, c_attribute_row, c_group_row, j_attribute_mark, j_group_rows, j_element_rows, r_group_rows, t_attribute_row, t_group_row,
  t_element_row, shown, shown_ts, member_type, resolved.

Lemma items_types : forall l pt p e id, items_of l (map bare pt) p e id = items_of l pt p e id.
Proof.
  intros l pt p e id. destruct l; cbn [items_of]; rows; rewrite stands_bare; reflexivity.
Qed.

Lemma items_bare : forall l pt p e id, map no_notes (items_of l pt (bare p) e id) = map no_notes (items_of l pt p e id).
Proof.
  intros l pt p e id.
  destruct l; cbn [items_of]; destruct p as [|v|v|v|v|v|v]; try reflexivity;
  unfold go_items, c_items, java_items, rust_items, ts_items; cbn [bare]; unfold bare_complex, bare_attrgroup;
  try match type of v with Group => destruct v as [d n els grs pl rf] end; cbn [bare_group gr_name gr_elements gr_groups gr_plural gr_ref gr_doc
     st_doc st_name st_base st_list st_union st_members st_enum ct_doc ct_name ct_base ct_elements ct_attributes ct_groups ct_attrgroups
     el_doc el_name el_type el_plural at_doc at_name at_type at_plural at_optional ag_doc ag_name ag_ref ag_attributes];
  repeat (first [rewrite map_bare by (intros []; reflexivity) | rewrite flat_map_bare by (intros []; reflexivity)]);
  try reflexivity;
  try match type of v with SimpleType =>
    change (st_list (bare_simple v)) with (st_list v); change (is_union (bare_simple v)) with (is_union v) end;
  repeat match goal with |- context [if ?b then _ else _] => destruct b; try reflexivity end.
Qed.

Lemma rendered_bare : forall l tree seen, rendered l seen (map bare tree) = map (fun x => (bare (fst x), snd x)) (rendered l seen tree).
Proof.
  intros l tree. induction tree as [|p tree IH]; intros seen; [reflexivity|]. cbn [map rendered]. rewrite proto_name_bare.
  assert (He : enumerated l (bare p) = enumerated l p) by (destruct l; try reflexivity; now destruct p).
  assert (Hl : listed (bare p) = listed p) by now destruct p.
  rewrite He, Hl. destruct (proto_name p) as [n|]; [|apply IH].
  destruct (in_dec string_dec n seen); [destruct (enumerated l p)|destruct (enumerated l p && negb (listed p))]; cbn [map fst snd]; now rewrite IH.
Qed.

Lemma identifiers_bare : forall l ps used, identifiers l used (map bare ps) = identifiers l used ps.
Proof.
  intros l ps. induction ps as [|p ps IH]; intros used; [reflexivity|]. cbn [map identifiers].
  assert (Hc : counting l (bare p) = counting l p) by (destruct l, p; reflexivity).
  assert (Hi : plain_ident l (bare p) = plain_ident l p) by (unfold plain_ident; rewrite proto_name_bare; destruct l, p; reflexivity).
  rewrite Hc, Hi. destruct (counting l p); now rewrite IH.
Qed.

Lemma expected_bare : forall l pt, map no_notes (expected l (map bare pt)) = map no_notes (expected l pt).
Proof.
  intros l pt. unfold expected. cbv zeta. rewrite rendered_bare, map_map. cbn [fst].
  rewrite <- (map_map fst bare), identifiers_bare. generalize (identifiers l [] (map fst (rendered l [] pt))).
  induction (rendered l [] pt) as [|x r IH]; intros ids; [reflexivity|]. destruct ids as [|i ids]; [reflexivity|].
  cbn [map combine concat fst snd]. rewrite !map_app, IH. f_equal. rewrite items_types. apply items_bare.
Qed.

Lemma ok_bare : forall p, component_ok (bare p) <-> component_ok p.
Proof.
  assert (HF : forall A (b : A -> A) (P : A -> Prop) l, (forall x, P (b x) <-> P x) -> Forall P (map b l) <-> Forall P l).
  { intros A b P l H. induction l as [|x l IH]; [now split|]. cbn. rewrite !Forall_cons_iff, IH, H. reflexivity. }
  intros [|v|v|v|v|v|v]; cbn; try reflexivity.
  - rewrite !HF; [reflexivity| | | |]; now intros [].
  - destruct v. cbn. rewrite !HF; [reflexivity| |]; now intros [].
  - rewrite !HF; [reflexivity|]; now intros [].
Qed.

Lemma tree_ok_bare : forall pt, tree_ok (map bare pt) <-> tree_ok pt.
Proof. intros pt. unfold tree_ok. rewrite Forall_map. split; apply Forall_impl; intros p; apply ok_bare. Qed.

Lemma imports_bare : forall pt, imports (map bare pt) = imports pt.
Proof.
  intros pt. unfold imports. cbv zeta. rewrite rendered_bare, map_map. cbn [fst]. rewrite <- (map_map fst bare), identifiers_bare.
  assert (HE : forall A (b : A -> A) (f : A -> bool) l, (forall x, f (b x) = f x) -> existsb f (map b l) = existsb f l).
  { intros A b f l H. induction l as [|x l IH]; [reflexivity|]. cbn. now rewrite H, IH. }
  assert (H1 : forall p, asks_time (map bare pt) (bare p) = asks_time pt p).
  { assert (H0 : forall t, is_time (shown Go (map bare pt) t) = is_time (shown Go pt t)) by (intros; now rewrite shown_bare).
    intros [|v|v|v|v|v|v]; try reflexivity; cbn [asks_time bare]; cbn [bare_simple bare_complex st_list st_base ct_attrgroups ct_attributes ct_elements].
    - now rewrite H0.
    - f_equal; [f_equal|]; (rewrite HE by reflexivity; apply existsb_ext; intros x; apply H0). }
  assert (H2 : forall p id, asks_xml (bare p) id = asks_xml p id) by (intros [|v|v|v|v|[]|v] id; reflexivity).
  f_equal.
  - replace (existsb (asks_time (map bare pt)) _) with (existsb (asks_time pt) (map fst (rendered Go [] pt))); [reflexivity|].
    induction (map fst (rendered Go [] pt)) as [|p ps IH]; [reflexivity|]. cbn. now rewrite H1, IH.
  - generalize (identifiers Go [] (map fst (rendered Go [] pt))). 
    replace (fun x : proto * string => asks_xml (fst x) (snd x)) with (fun x : proto * string => asks_xml (fst x) (snd x)) by reflexivity.
    intros ids. match goal with |- (if ?a then _ else _) = (if ?b then _ else _) => replace a with b; [reflexivity|] end.
    revert ids. induction (map fst (rendered Go [] pt)) as [|p ps IH]; intros [|i ids]; try reflexivity. cbn. now rewrite H2, IH.
Qed.

End Outline.

(** ** Parse *)

(** Worlds that differ in nothing but character data, comments and the like of
    some documents.  When the document is examined for its types only, or needs
    no other schema, the components are the same up to their documentation, and
    so are errors and crashes; only gofmt may reject the one and not the other
    text. *)
Theorem C53_components : forall (E : Env) S d fuel o w w', same_world (same_core text_token) S w w' ->
  (o_extract o = true \/
   w_nsl w = [] /\ w_inc w = [] /\ stat (join2 (dir (o_file o)) "") w = SDir /\ fuel <> 0 /\
   forall bytes, stat (o_file o) w = SFile bytes -> self_contained (env_tokens bytes)) ->
  (forall v, parse d fuel o w <> Fail EGofmt v) -> (forall v, parse d fuel o w' <> Fail EGofmt v) ->
  same_but_docs_outcome (parse d fuel o w) (parse d fuel o w').
Proof.
  intros E S d fuel o w w' H Hq H1 H2. destruct (parse_bare S d fuel o w w' H Hq) as [Ho|[[v Hv]|[v Hv]]]; [exact Ho| |].
  - now elim (H1 v).
  - now elim (H2 v).
Qed.
Print Assumptions C53_components.

(** ** Generated code *)

(** Components that differ in documentation only: the generated texts have the
    same declarations and members, and differ in comments only. *)
Theorem C53_declarations : forall (E : Env) l pt pt', case_tables_ok -> tree_ok pt -> same_but_docs pt pt' ->
  exists its its', outline (body l pt) = Some its /\ outline (body l pt') = Some its' /\ map no_notes its = map no_notes its'.
Proof.
  intros E l pt pt' Hc Hok H. exists (expected l pt), (expected l pt').
  assert (Hok' : tree_ok pt') by (apply tree_ok_bare; rewrite <- H; now apply tree_ok_bare).
  split; [now apply outline_of_run|]. split; [now apply outline_of_run|].
  now rewrite <- (expected_bare l pt), H, expected_bare.
Qed.
Print Assumptions C53_declarations.

(** The imports of Go are the same, whatever the names. *)
Theorem C53_imports : forall (E : Env) pt pt', same_but_docs pt pt' -> imports pt = imports pt'.
Proof. intros E pt pt' H. now rewrite <- (imports_bare pt), H, imports_bare. Qed.
Print Assumptions C53_imports.

Definition text_doc (d1 d2 d3 : string) : list token :=
  d_schema [] ([TStart "complexType" [att "name" "T"]; TStart "annotation" []; TStart "documentation" []; TChar d1; TEnd "documentation"; TEnd "annotation";
    TStart "attribute" [att "name" "a"; att "type" "string"]; TChar d2; TEnd "attribute";
    TChar d3; TEnd "complexType"] +++ d_element "x" "T").
Definition text_docs : smap (list token) := [("A", text_doc "" "" ""); ("B", text_doc "A type." "say ""hi""" "<late>")].

Example C53_example :
  let E := demo text_docs first_choice in
  let w := demo_world [("m.xsd", "A")] in let w' := demo_world [("m.xsd", "B")] in
  let o := demo_opts "m.xsd" "Java" false in
  same_world (same_core text_token) (fun c => c = "in/m.xsd") w w' /\
  (forall local l, In (TStart local l) (text_doc "" "" "") -> tag "Import" local = false /\ tag "Include" local = false) /\
  see (parse 2 2 o w) = Comps [PComplex (mkComplex "" "T" "" [] [mkAttribute "a" "" "String" false true] [] []); PElement (mkElement "" "x" "T" false false)] /\
  see (parse 2 2 o w') = Comps [PComplex (mkComplex "A type." "T" "" [] [mkAttribute "a" "<late>" "String" false true] [] []); PElement (mkElement "" "x" "T" false false)].
Proof.
  cbv zeta. split; [|split; [|split; vm_compute; reflexivity]].
  - repeat (split; [reflexivity|]). intros c. unfold same_node. cbn [w_fs demo_world map app fst snd].
    destruct (string_dec c "in/m.xsd") as [->|Hc].
    + right. split; [reflexivity|]. exists "A", "B". split; [reflexivity|]. split; [reflexivity|].
      exists (filter (fun t => match t with TChar _ => false | _ => true end) (text_doc "" "" "")).
      split; vm_compute; repeat first [apply pad_nil | apply pad_keep | apply pad_add; [constructor|]].
    + left. change ("in/" ++ "m.xsd") with "in/m.xsd". cbn [get]. destruct (String.eqb_spec "in" c); [reflexivity|].
      destruct (String.eqb_spec "in/m.xsd" c); [congruence|reflexivity].
  - intros local l H. cbn in H. repeat (destruct H as [H|H]; [try discriminate; injection H as <- <-; split; vm_compute; reflexivity|]). destruct H.
Qed.
