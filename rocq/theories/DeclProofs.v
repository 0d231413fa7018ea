(** The parser handlers compute what [SpecDecl] says a schema declares. *)

From Coq Require Import String Ascii List NArith ZArith Bool Lia.
From Verif Require Import GoStr Utf8 StrLemmas Base Utils SpecStr StrProofs World Handlers SpecDoc SpecTables SpecDecl
  SpecParse GoPath Parser TableProofs Reify SimProofs ParserProofs DocLemmas HandlerProofs DocProofs DocProofs2.
Import ListNotations.
Local Open Scope string_scope.

Local Infix "+++" := app (at level 60, right associativity).

Lemma values_cons : forall k x l, values k (x :: l) = if String.eqb (a_local x) k then a_value x :: values k l else values k l.
Proof. intros k x l. unfold values. cbn [filter]. now destruct (String.eqb _ _). Qed.

Section Pure.
Context {E : Env}.
Variable gvt : string -> list proto -> World -> out string.
Variable w : World.
Variable res : string -> list proto -> string.
Variable many : string -> option bool.
Hypothesis Hres : forall v tree, gvt v tree w = Ret (res v tree) w.
Hypothesis Hmany : counts many.

Lemma many_eq : forall v, many v = max_occurs v.
Proof.
  intros v. specialize (Hmany v). destruct (max_occurs v) as [b|] eqn:Hb.
  - apply max_occurs_some in Hb as [Hok Hb]. destruct (many v) as [c|]; [|contradiction].
    destruct Hmany as [_ Hc]. f_equal. apply eq_true_iff_eq. now rewrite Hc, Hb.
  - apply max_occurs_none in Hb. destruct (many v) as [c|]; [|reflexivity]. now destruct Hmany.
Qed.

(** * XML attributes *)

Lemma plural_fold : forall vs a b,
  fold_right (fun v o => match many v, o with Some b, Some c => Some (b || c) | _, _ => None end) (Some (a || b)) vs =
  option_map (orb a) (fold_right (fun v o => match many v, o with Some b, Some c => Some (b || c) | _, _ => None end) (Some b) vs).
Proof.
  induction vs as [|v vs IH]; intros a b; [reflexivity|]. cbn [fold_right]. rewrite IH.
  destruct (many v) as [x|]; [|reflexivity]. destruct (fold_right _ _ vs) as [y|]; [|reflexivity]. cbn.
  now destruct x, a.
Qed.

Lemma element_plural_cons : forall x l, element_plural many (x :: l) =
  if String.eqb (a_local x) "maxOccurs" then
    match many (a_value x), element_plural many l with Some b, Some c => Some (b || c) | _, _ => None end
  else if String.eqb (a_local x) "unbounded" then option_map (orb (negb (String.eqb (a_value x) "0"))) (element_plural many l)
  else element_plural many l.
Proof.
  intros x l. unfold element_plural. rewrite !values_cons.
  destruct (String.eqb_spec (a_local x) "maxOccurs") as [->|H1].
  - change (String.eqb "maxOccurs" "unbounded") with false. reflexivity.
  - destruct (String.eqb (a_local x) "unbounded"); [|reflexivity]. cbn [existsb]. apply plural_fold.
Qed.

Lemma element_attrs_pure : forall tree l b, element_plural many l = Some b -> forall e,
  element_attrs gvt tree l e w =
  Ret (mkElement (el_doc e) (otherwise (el_name e) (last_of ["name"; "ref"] l))
         (match last_of ["type"; "ref"] l with Some v => res v tree | None => el_type e end)
         (b || el_plural e) (el_optional e)) w.
Proof.
  intros tree. induction l as [|x l IH]; intros b Hb e.
  - injection Hb as <-. now destruct e.
  - rewrite element_plural_cons in Hb. rewrite !last_of_cons. cbn [element_attrs existsb].
    destruct (String.eqb_spec (a_local x) "ref") as [Hx|Hx].
    { rewrite Hx in *. cbn [String.eqb Ascii.eqb Bool.eqb orb] in *. rewrite Hres. cbn [bind]. rewrite (IH b Hb).
      cbn [el_doc el_name el_type el_plural el_optional el_set_type el_set_name].
      destruct (last_of ["name"; "ref"] l), (last_of ["type"; "ref"] l); reflexivity. }
    destruct (String.eqb_spec (a_local x) "name") as [Hx2|Hx2].
    { rewrite Hx2 in *. cbn [String.eqb Ascii.eqb Bool.eqb orb] in *. rewrite (IH b Hb).
      cbn [el_doc el_name el_type el_plural el_optional el_set_name].
      destruct (last_of ["name"; "ref"] l), (last_of ["type"; "ref"] l); reflexivity. }
    destruct (String.eqb_spec (a_local x) "type") as [Hx3|Hx3].
    { rewrite Hx3 in *. cbn [String.eqb Ascii.eqb Bool.eqb orb] in *. rewrite Hres. cbn [bind]. rewrite (IH b Hb).
      cbn [el_doc el_name el_type el_plural el_optional el_set_type].
      destruct (last_of ["name"; "ref"] l), (last_of ["type"; "ref"] l); reflexivity. }
    cbn [orb]. rewrite many_eq in Hb.
    destruct (String.eqb_spec (a_local x) "maxOccurs") as [Hx4|Hx4].
    { destruct (max_occurs (a_value x)) as [c|]; [|discriminate]. destruct (element_plural many l) as [d|]; [|discriminate].
      injection Hb as <-. rewrite (IH d eq_refl).
      destruct (last_of ["name"; "ref"] l), (last_of ["type"; "ref"] l); destruct c, d, e; reflexivity. }
    destruct (String.eqb_spec (a_local x) "unbounded") as [Hx5|Hx5].
    { destruct (element_plural many l) as [d|]; [|discriminate]. injection Hb as <-. rewrite (IH d eq_refl).
      destruct (String.eqb (a_value x) "0");
        destruct (last_of ["name"; "ref"] l), (last_of ["type"; "ref"] l); destruct d, e; reflexivity. }
    rewrite (IH b Hb). destruct (last_of ["name"; "ref"] l), (last_of ["type"; "ref"] l); reflexivity.
Qed.

Lemma attribute_attrs_pure : forall tree l a,
  attribute_attrs gvt tree l a w =
  Ret (mkAttribute (otherwise (at_name a) (last_of ["name"; "ref"] l)) (at_doc a)
         (match last_of ["type"; "ref"] l with Some v => res v tree | None => at_type a end)
         (at_plural a) (at_optional a && negb (existsb (String.eqb "required") (values "use" l)))) w.
Proof.
  intros tree. induction l as [|x l IH]; intros a.
  - cbn. rewrite andb_true_r. now destruct a.
  - rewrite !last_of_cons, values_cons. cbn [attribute_attrs existsb].
    destruct (String.eqb_spec (a_local x) "ref") as [Hx|Hx].
    { rewrite Hx. cbn [String.eqb Ascii.eqb Bool.eqb orb]. rewrite Hres. cbn [bind]. rewrite IH.
      destruct (last_of ["name"; "ref"] l), (last_of ["type"; "ref"] l); reflexivity. }
    destruct (String.eqb_spec (a_local x) "name") as [Hx2|Hx2].
    { rewrite Hx2. cbn [String.eqb Ascii.eqb Bool.eqb orb]. rewrite IH.
      destruct (last_of ["name"; "ref"] l), (last_of ["type"; "ref"] l); reflexivity. }
    destruct (String.eqb_spec (a_local x) "type") as [Hx3|Hx3].
    { rewrite Hx3. cbn [String.eqb Ascii.eqb Bool.eqb orb]. rewrite Hres. cbn [bind]. rewrite IH.
      destruct (last_of ["name"; "ref"] l), (last_of ["type"; "ref"] l); reflexivity. }
    cbn [orb]. destruct (String.eqb_spec (a_local x) "use") as [Hx4|Hx4]; rewrite IH.
    + cbn [existsb]. rewrite (String.eqb_sym "required").
      destruct (String.eqb (a_value x) "required"); cbn [orb negb at_set_optional at_optional at_name at_doc at_type at_plural];
        rewrite ?andb_false_r; destruct (last_of ["name"; "ref"] l), (last_of ["type"; "ref"] l); reflexivity.
    + destruct (last_of ["name"; "ref"] l), (last_of ["type"; "ref"] l); reflexivity.
Qed.

Lemma attrgroup_attrs_pure : forall tree l a,
  attrgroup_attrs gvt tree l a w =
  Ret (mkAttrGroup (ag_doc a) (otherwise (ag_name a) (last_of ["name"; "ref"] l))
         (match last_of ["ref"] l with Some v => res v tree | None => ag_ref a end) (ag_attributes a)) w.
Proof.
  intros tree. induction l as [|x l IH]; intros a; [now destruct a|].
  rewrite !last_of_cons. cbn [attrgroup_attrs existsb].
  destruct (String.eqb_spec (a_local x) "name") as [Hx|Hx].
  { rewrite Hx. cbn [String.eqb Ascii.eqb Bool.eqb orb]. rewrite IH.
    destruct (last_of ["name"; "ref"] l), (last_of ["ref"] l); reflexivity. }
  destruct (String.eqb_spec (a_local x) "ref") as [Hx2|Hx2].
  { cbn [orb]. rewrite Hres. cbn [bind]. rewrite IH.
    destruct (last_of ["name"; "ref"] l), (last_of ["ref"] l); reflexivity. }
  cbn [orb]. rewrite IH. destruct (last_of ["name"; "ref"] l), (last_of ["ref"] l); reflexivity.
Qed.

Lemma group_attrs_pure : forall tree l g,
  group_attrs gvt tree l g w =
  Ret (mkGroup (gr_doc g) (otherwise (gr_name g) (last_of ["name"; "ref"] l)) (gr_elements g) (gr_groups g)
         (existsb (fun v => negb (String.eqb v "0")) (values "maxOccurs" l) || gr_plural g)
         (match last_of ["ref"] l with Some v => res v tree | None => gr_ref g end)) w.
Proof.
  intros tree. induction l as [|x l IH]; intros g; [now destruct g|].
  rewrite !last_of_cons, values_cons. cbn [group_attrs existsb].
  destruct (String.eqb_spec (a_local x) "name") as [Hx|Hx].
  { rewrite Hx. cbn [String.eqb Ascii.eqb Bool.eqb orb]. rewrite IH.
    destruct (last_of ["name"; "ref"] l), (last_of ["ref"] l); reflexivity. }
  destruct (String.eqb_spec (a_local x) "ref") as [Hx2|Hx2].
  { rewrite Hx2. cbn [String.eqb Ascii.eqb Bool.eqb orb]. rewrite Hres. cbn [bind]. rewrite IH.
    destruct (last_of ["name"; "ref"] l), (last_of ["ref"] l); reflexivity. }
  cbn [orb]. destruct (String.eqb_spec (a_local x) "maxOccurs") as [Hx3|Hx3]; rewrite IH.
  - cbn [existsb]. destruct (String.eqb (a_value x) "0"); cbn [negb orb gr_set_plural gr_plural gr_doc gr_name gr_elements gr_groups gr_ref];
      rewrite ?orb_true_r; destruct (last_of ["name"; "ref"] l), (last_of ["ref"] l); reflexivity.
  - destruct (last_of ["name"; "ref"] l), (last_of ["ref"] l); reflexivity.
Qed.

Lemma choice_attrs_pure : forall l b c, 
  fold_left (fun o v => match o with Some _ => many v | None => None end) (values "maxOccurs" l) (Some b) = Some c ->
  choice_attrs l b w = Ret c w.
Proof.
  induction l as [|x l IH]; intros b c H; [now injection H as <-|].
  rewrite values_cons in H. cbn [choice_attrs]. destruct (String.eqb (a_local x) "maxOccurs"); [|now apply IH].
  cbn [fold_left] in H. rewrite many_eq in H. destruct (max_occurs (a_value x)) as [d|]; [now apply IH|].
  exfalso. clear -H. induction (values "maxOccurs" l) as [|v vs IH]; [discriminate | now apply IH].
Qed.

Lemma extension_attrs_pure : forall l T H ie cu ig iu ia si c cs el at_ gr ag ch, ct_name c <> "" -> forall tree,
  extension_attrs gvt tree l (mkP T H ie cu ig iu ia si (c :: cs) el at_ gr ag ch) w =
  Ret (mkP T H ie cu ig iu ia si
    (mkComplex (ct_doc c) (ct_name c) (match last_of ["base"] l with Some _ => base_in res l tree | None => ct_base c end)
       (ct_elements c) (ct_attributes c) (ct_groups c) (ct_attrgroups c) :: cs) el at_ gr ag ch) w.
Proof.
  induction l as [|x l IH]; intros T H ie cu ig iu ia si c cs el at_ gr ag ch Hn tree; [now destruct c|].
  unfold base_in. rewrite !last_of_cons. cbn [extension_attrs existsb].
  destruct (String.eqb (a_local x) "base"); cbn [orb].
  - rewrite Hres. cbn [bind p_complex nonempty]. rewrite Hres. cbn [bind]. unfold set_complex.
    cbn [p_tree p_heap p_in_element p_current p_in_group p_in_union p_in_ag p_simple p_complex p_element p_attribute p_group p_attrgroup p_choice on_top].
    destruct (String.eqb_spec (ct_name (ct_set_base (res (res (a_value x) tree) tree) c)) "") as [Hc|Hc]; [contradiction|].
    rewrite IH by exact Hn. unfold base_in. cbn [ct_doc ct_name ct_base ct_elements ct_attributes ct_groups ct_attrgroups ct_set_base].
    destruct (last_of ["base"] l); reflexivity.
  - rewrite IH by exact Hn. unfold base_in. destruct (last_of ["base"] l); reflexivity.
Qed.

Lemma restriction_attrs_pure : forall l T H ie cu ig iu ia s ss co el at_ gr ag ch tree,
  exists n, (st_name s <> "" -> n = st_name s) /\
  restriction_attrs gvt tree l (mkP T H ie cu ig iu ia (s :: ss) co el at_ gr ag ch) w =
  Ret (mkP T H ie cu ig iu ia
    (mkSimple (st_doc s) n (match last_of ["base"] l with Some _ => base_in res l tree | None => st_base s end)
       (st_list s) (st_union s) (st_members s) (st_enum s) :: ss) co el at_ gr ag ch) w.
Proof.
  induction l as [|x l IH]; intros T H ie cu ig iu ia s ss co el at_ gr ag ch tree.
  { exists (st_name s). split; [reflexivity|]. now destruct s. }
  unfold base_in. rewrite !last_of_cons. cbn [restriction_attrs existsb].
  destruct (String.eqb (a_local x) "base"); cbn [orb].
  - rewrite Hres. cbn [bind p_simple nonempty]. rewrite Hres. cbn [bind]. unfold set_simple.
    cbn [p_tree p_heap p_in_element p_current p_in_group p_in_union p_in_ag p_simple p_complex p_element p_attribute p_group p_attrgroup p_choice on_top].
    cbv zeta. cbn [st_name st_set_base].
    set (s' := if String.eqb (st_name s) "" then _ else _).
    assert (Hs' : s' = mkSimple (st_doc s) (if String.eqb (st_name s) "" then a_value x else st_name s)
                         (res (res (a_value x) tree) tree) (st_list s) (st_union s) (st_members s) (st_enum s)).
    { unfold s'. destruct (String.eqb (st_name s) ""); reflexivity. }
    rewrite Hs'. edestruct IH as [n [Hn ->]]. exists n. split.
    + intros Hne. cbn [st_name] in Hn. destruct (String.eqb_spec (st_name s) ""); [contradiction|]. now apply Hn.
    + unfold base_in. cbn [st_doc st_base st_list st_union st_members st_enum]. destruct (last_of ["base"] l); reflexivity.
  - edestruct IH as [n [Hn ->]]. exists n. split; [exact Hn|]. unfold base_in. destruct (last_of ["base"] l); reflexivity.
Qed.

Lemma list_attrs_pure : forall l T H ie cu ig iu ia s ss co el at_ gr ag ch tree,
  list_attrs gvt tree l (mkP T H ie cu ig iu ia (s :: ss) co el at_ gr ag ch) w =
  Ret (mkP T H ie cu ig iu ia
    (mkSimple (st_doc s) (st_name s) (match last_of ["itemType"] l with Some v => res v tree | None => st_base s end)
       (st_list s) (st_union s) (st_members s) (st_enum s) :: ss) co el at_ gr ag ch) w.
Proof.
  induction l as [|x l IH]; intros T H ie cu ig iu ia s ss co el at_ gr ag ch tree; [now destruct s|].
  rewrite !last_of_cons. cbn [list_attrs existsb]. destruct (String.eqb (a_local x) "itemType"); cbn [orb].
  - rewrite Hres. cbn [bind]. unfold set_simple.
    cbn [p_tree p_heap p_in_element p_current p_in_group p_in_union p_in_ag p_simple p_complex p_element p_attribute p_group p_attrgroup p_choice on_top].
    rewrite IH. cbn [st_doc st_name st_base st_list st_union st_members st_enum st_set_base].
    destruct (last_of ["itemType"] l); reflexivity.
  - rewrite IH. destruct (last_of ["itemType"] l); reflexivity.
Qed.

Lemma union_members_pure : forall ms T H ie cu ig iu ia s ss co el at_ gr ag ch tree,
  union_members gvt tree ms (mkP T H ie cu ig iu ia (s :: ss) co el at_ gr ag ch) w =
  Ret (mkP T H ie cu ig iu ia
    (mkSimple (st_doc s) (st_name s) (st_base s) (st_list s) (st_union s)
       (fold_left (fun m v => put (local_part v) (res v tree) m) ms (st_members s)) (st_enum s) :: ss) co el at_ gr ag ch) w.
Proof.
  induction ms as [|m ms IH]; intros T H ie cu ig iu ia s ss co el at_ gr ag ch tree; [now destruct s|].
  cbn [union_members fold_left]. rewrite Hres. cbn [bind]. unfold set_simple.
  cbn [p_tree p_heap p_in_element p_current p_in_group p_in_union p_in_ag p_simple p_complex p_element p_attribute p_group p_attrgroup p_choice on_top].
  rewrite IH. reflexivity.
Qed.

Lemma union_attrs_pure : forall l T H ie cu ig iu ia s ss co el at_ gr ag ch tree,
  union_attrs gvt tree l (mkP T H ie cu ig iu ia (s :: ss) co el at_ gr ag ch) w =
  Ret (mkP T H ie cu ig iu ia
    (mkSimple (st_doc s) (st_name s) (st_base s) (st_list s) (st_union s)
       (fold_left (fun m v => put (local_part v) (res v tree) m) (flat_map (split_on " ") (values "memberTypes" l)) (st_members s))
       (st_enum s) :: ss) co el at_ gr ag ch) w.
Proof.
  induction l as [|x l IH]; intros T H ie cu ig iu ia s ss co el at_ gr ag ch tree; [now destruct s|].
  rewrite values_cons. cbn [union_attrs]. destruct (String.eqb (a_local x) "memberTypes").
  - rewrite union_members_pure. cbn [bind flat_map]. rewrite IH, fold_left_app. reflexivity.
  - apply IH.
Qed.

(** * Tags *)

Ltac fields := cbv beta iota zeta delta [p_tree p_heap p_in_element p_current p_in_group p_in_union p_in_ag p_simple p_complex p_element
  p_attribute p_group p_attrgroup p_choice set_tree set_heap set_in_element set_current set_in_group set_in_union set_in_ag
  set_simple set_complex set_element set_attribute set_group set_attrgroup set_choice on_top nonempty tl hd append_tree
  pop_node bind].

Lemma tok_element : forall l p, on_token gvt (TStart "element" l) p w = on_element gvt l (set_in_element "element" p) w.
Proof. reflexivity. Qed.
Lemma tok_element_end : forall p, on_token gvt (TEnd "element") p w = end_element p w.
Proof. reflexivity. Qed.
Lemma tok_attribute : forall l p, on_token gvt (TStart "attribute" l) p w = on_attribute gvt l (set_in_element "attribute" p) w.
Proof. reflexivity. Qed.
Lemma tok_attribute_end : forall p, on_token gvt (TEnd "attribute") p w = end_attribute p w.
Proof. reflexivity. Qed.
Lemma tok_ag : forall l p, on_token gvt (TStart "attributeGroup" l) p w = on_attribute_group gvt l (set_in_element "attributeGroup" p) w.
Proof. reflexivity. Qed.
Lemma tok_ag_end : forall p, on_token gvt (TEnd "attributeGroup") p w = end_attribute_group p w.
Proof. reflexivity. Qed.
Lemma tok_group : forall l p, on_token gvt (TStart "group" l) p w = on_group gvt l (set_in_element "group" p) w.
Proof. reflexivity. Qed.
Lemma tok_group_end : forall p, on_token gvt (TEnd "group") p w = end_group "group" p w.
Proof. reflexivity. Qed.
Lemma tok_choice : forall l p, on_token gvt (TStart "choice" l) p w = on_choice l (set_in_element "choice" p) w.
Proof. reflexivity. Qed.
Lemma tok_choice_end : forall p, on_token gvt (TEnd "choice") p w = end_choice p w.
Proof. reflexivity. Qed.
Lemma tok_extension : forall l p, on_token gvt (TStart "extension" l) p w = on_extension gvt l (set_in_element "extension" p) w.
Proof. reflexivity. Qed.
Lemma tok_extension_end : forall p, on_token gvt (TEnd "extension") p w = end_extension gvt p w.
Proof. reflexivity. Qed.
Lemma tok_complex : forall l p, on_token gvt (TStart "complexType" l) p w = on_complex_type l (set_in_element "complexType" p) w.
Proof. reflexivity. Qed.
Lemma tok_complex_end : forall p, on_token gvt (TEnd "complexType") p w = end_complex_type p w.
Proof. reflexivity. Qed.
Lemma tok_simple : forall l p, on_token gvt (TStart "simpleType" l) p w = on_simple_type l (set_in_element "simpleType" p) w.
Proof. reflexivity. Qed.
Lemma tok_simple_end : forall p, on_token gvt (TEnd "simpleType") p w = end_simple_type "simpleType" p w.
Proof. reflexivity. Qed.
Lemma tok_restriction : forall l p, on_token gvt (TStart "restriction" l) p w = on_restriction gvt l (set_in_element "restriction" p) w.
Proof. reflexivity. Qed.
Lemma tok_restriction_end : forall p, on_token gvt (TEnd "restriction") p w = end_restriction gvt p w.
Proof. reflexivity. Qed.
Lemma tok_list : forall l p, on_token gvt (TStart "list" l) p w = on_list gvt l (set_in_element "list" p) w.
Proof. reflexivity. Qed.
Lemma tok_list_end : forall p, on_token gvt (TEnd "list") p w = Ret p w.
Proof. reflexivity. Qed.
Lemma tok_union : forall l p, on_token gvt (TStart "union" l) p w = on_union gvt l (set_in_element "union" p) w.
Proof. reflexivity. Qed.
Lemma tok_union_end : forall p, on_token gvt (TEnd "union") p w = end_union p w.
Proof. reflexivity. Qed.
Lemma tok_enum : forall l p, on_token gvt (TStart "enumeration" l) p w = on_enumeration l (set_in_element "enumeration" p) w.
Proof. reflexivity. Qed.
Lemma tok_enum_end : forall p, on_token gvt (TEnd "enumeration") p w = end_enumeration gvt p w.
Proof. reflexivity. Qed.
Lemma tok_pattern : forall l p, on_token gvt (TStart "pattern" l) p w = Ret (set_in_element "pattern" p) w.
Proof. reflexivity. Qed.
Lemma tok_pattern_end : forall p, on_token gvt (TEnd "pattern") p w = end_pattern gvt p w.
Proof. reflexivity. Qed.

Definition plain_facets : list string :=
  ["fractionDigits"; "length"; "maxExclusive"; "maxInclusive"; "maxLength"; "minExclusive";
   "minInclusive"; "minLength"; "totalDigits"; "whiteSpace"].
Lemma tok_facet : forall local, In local plain_facets -> forall l p,
  on_token gvt (TStart local l) p w = Ret (set_in_element local p) w /\ on_token gvt (TEnd local) p w = end_facet gvt p w.
Proof. intros local H l p. cbn in H. repeat destruct H as [<-|H]; try contradiction; split; reflexivity. Qed.

Lemma facet_cases : forall local, In local facet_locals -> local = "enumeration" \/ local = "pattern" \/ In local plain_facets.
Proof. intros local H. cbn in H. destruct H as [<-|[<-|H]]; [now left|right; now left|right; now right]. Qed.

Lemma plain_not_enum : forall local, In local plain_facets -> local <> "enumeration".
Proof. intros local H ->. cbn in H. repeat destruct H as [H|H]; try discriminate; contradiction. Qed.

(** * Facets *)

Lemma facet_named : forall local, In local facet_locals -> local <> "".
Proof. intros local Hin ->. cbn in Hin. repeat destruct Hin as [Hin|Hin]; try discriminate. contradiction. Qed.

Lemma enumeration_values : forall l s ss,
  fold_left (fun st x => if String.eqb (a_local x) "value" then on_top (fun s => st_set_enum (st_enum s +++ [a_value x]) s) st else st)
    l (s :: ss) = st_set_enum (st_enum s +++ values "value" l) s :: ss.
Proof.
  induction l as [|x l IH]; intros s ss; [cbn; rewrite app_nil_r; now destruct s|].
  cbn [fold_left]. rewrite values_cons. destruct (String.eqb (a_local x) "value"); rewrite ?IH; [|reflexivity].
  cbn [on_top]. rewrite IH. cbn [st_enum st_set_enum]. now rewrite <- app_assoc.
Qed.

Lemma enumeration_none : forall l,
  fold_left (fun st x => if String.eqb (a_local x) "value" then on_top (fun s => st_set_enum (st_enum s +++ [a_value x]) s) st else st)
    l [] = [].
Proof. induction l as [|x l IH]; [reflexivity|]. cbn [fold_left]. now destruct (String.eqb (a_local x) "value"). Qed.

(** * Texts *)

Lemma run_cons : forall t ts p, run_tokens gvt (t :: ts) p w = bind (on_token gvt t p w) (run_tokens gvt ts).
Proof. reflexivity. Qed.

Lemma last_cons : forall (l : list string) y x, last (y :: l) x = last l y.
Proof.
  intros l. induction l as [|z l IH]; intros y x; [reflexivity|].
  change (last (z :: l) x = last (z :: l) y). clear. revert z. induction l as [|a l IH]; intros z; [reflexivity|]. apply (IH a).
Qed.

Definition hear (x d : string) : string := if String.eqb (trim_space d) "" then x else trim_space d.

Lemma latest_cons : forall d docs x, latest (d :: docs) x = latest docs (hear x d).
Proof.
  intros d docs x. unfold latest, hear. cbn [map filter]. destruct (String.eqb (trim_space d) ""); cbn [negb]; [reflexivity|].
  now rewrite last_cons.
Qed.

Lemma latest_app : forall a b x, latest (a +++ b) x = latest b (latest a x).
Proof. induction a as [|d a IH]; intros b x; [reflexivity|]. cbn [app]. now rewrite !latest_cons, IH. Qed.

Lemma texts : forall (mk : string -> PState),
  (forall d x, on_char_data d (mk x) = mk (hear x d)) ->
  forall docs x, run_tokens gvt (map TChar docs) (mk x) w = Ret (mk (latest docs x)) w.
Proof.
  intros mk Hmk. induction docs as [|d docs IH]; intros x; [reflexivity|].
  cbn [map run_tokens on_token bind]. now rewrite Hmk, IH, latest_cons.
Qed.

Lemma texts_lost : forall p, (forall d, on_char_data d p = p) -> forall docs, run_tokens gvt (map TChar docs) p w = Ret p w.
Proof. intros p Hp. induction docs as [|d docs IH]; [reflexivity|]. cbn [map run_tokens on_token bind]. now rewrite Hp. Qed.

(** * Facets in a simple type of its own *)

Definition st_heard (docs : list string) (s : SimpleType) : SimpleType := st_set_doc (latest docs (st_doc s)) s.

Lemma texts_simple : forall docs T H ie ig iu ia s ss co gr ch,
  run_tokens gvt (map TChar docs) (mkP T H ie "simpleType" ig iu ia (s :: ss) co [] [] gr [] ch) w =
  Ret (mkP T H ie "simpleType" ig iu ia (st_heard docs s :: ss) co [] [] gr [] ch) w.
Proof.
  intros docs T H ie ig iu ia s ss co gr ch.
  pose proof (texts (fun x => mkP T H ie "simpleType" ig iu ia (st_set_doc x s :: ss) co [] [] gr [] ch)) as Htx.
  cbv beta in Htx. replace s with (st_set_doc (st_doc s) s) at 1 by now destruct s. apply Htx.
  intros d y. unfold on_char_data, hear. destruct (String.eqb (trim_space d) ""); [reflexivity|]. fields.
  rewrite !andb_false_r. reflexivity.
Qed.

Lemma facets_top : forall fs, facets_ok fs = true -> forall T H ie ig iu ia s ss co gr ch, exists ie',
  run_tokens gvt (flat_map facet_tokens fs) (mkP T H ie "simpleType" ig iu ia (s :: ss) co [] [] gr [] ch) w =
  Ret (mkP T H ie' "simpleType" ig iu ia (st_set_enum (st_enum s +++ facet_values fs) (st_heard (flat_map facet_texts fs) s) :: ss)
         co [] [] gr [] ch) w.
Proof.
  induction fs as [|[local l docs] fs IH]; intros Hok T H ie ig iu ia s ss co gr ch.
  { exists ie. cbn. rewrite app_nil_r. now destruct s. }
  unfold facets_ok in Hok. cbn [forallb facet_ok] in Hok. apply andb_true_iff in Hok as [Hl Hok].
  destruct (in_dec string_dec local facet_locals) as [Hin|]; [|discriminate]. fold (facets_ok fs) in Hok.
  cbn [flat_map facet_tokens facet_texts app]. rewrite run_cons, <- app_assoc.
  assert (Hval : facet_values (Facet local l docs :: fs) =
                 (if string_dec local "enumeration" then values "value" l else []) +++ facet_values fs) by reflexivity.
  assert (Hlast : forall vs, st_set_enum (st_enum (st_heard docs (st_set_enum vs s)) +++ facet_values fs)
      (st_heard (flat_map facet_texts fs) (st_heard docs (st_set_enum vs s))) =
    st_set_enum (vs +++ facet_values fs) (st_heard (docs +++ flat_map facet_texts fs) s)).
  { intros vs. unfold st_heard, st_set_enum, st_set_doc. cbn [st_doc st_enum st_name st_base st_list st_union st_members]. now rewrite latest_app. }
  assert (Hs : s = st_set_enum (st_enum s) s) by now destruct s.
  rewrite Hval. apply facet_cases in Hin as [->|[->|Hin]].
  - rewrite tok_enum. unfold on_enumeration. fields. rewrite enumeration_values. rewrite run_tokens_app, texts_simple. cbn [bind app].
    rewrite run_cons, tok_enum_end. unfold end_enumeration, base_to_attribute, base_to_element. fields.
    edestruct IH as [ie' ->]; [exact Hok|]. exists ie'. rewrite Hlast, <- app_assoc. reflexivity.
  - rewrite tok_pattern. fields. rewrite run_tokens_app, texts_simple. cbn [bind app].
    rewrite run_cons, tok_pattern_end. unfold end_pattern, base_to_attribute, base_to_element. fields.
    edestruct IH as [ie' ->]; [exact Hok|]. exists ie'. specialize (Hlast (st_enum s)). rewrite <- Hs in Hlast. now rewrite Hlast.
  - pose proof (plain_not_enum local Hin) as Hne.
    rewrite (proj1 (tok_facet local Hin l (mkP T H ie "simpleType" ig iu ia (s :: ss) co [] [] gr [] ch))).
    fields. rewrite run_tokens_app, texts_simple. cbn [bind app].
    rewrite run_cons, (proj2 (tok_facet local Hin l _)).
    unfold end_facet, base_to_element. fields.
    edestruct IH as [ie' ->]; [exact Hok|]. exists ie'. specialize (Hlast (st_enum s)). rewrite <- Hs in Hlast. rewrite Hlast.
    destruct (string_dec local "enumeration"); [contradiction|reflexivity].
Qed.

(** * Attributes *)

Lemma base_in_eq : forall lr tree, match last_of ["base"] lr with Some _ => base_in res lr tree | None => "" end = base_in res lr tree.
Proof. intros lr tree. unfold base_in. now destruct (last_of ["base"] lr). Qed.

(** Texts inside an attribute go to the attribute or to the attribute group
    around it. *)
Definition sink (ia : bool) (sd : string -> string) (gp : string -> list AttributeGroup) : Prop :=
  (forall x, sd x = x) /\ (forall x, gp x = []) \/
  ia = true /\ (forall x, sd x = "") /\ exists g, forall x, gp x = [ag_set_doc x g].

Lemma texts_attribute : forall ia sd gp, sink ia sd gp -> forall docs x T H ie cu ig iu si co n t o gr ch,
  run_tokens gvt (map TChar docs) (mkP T H ie cu ig iu ia si co [] [mkAttribute n (sd x) t false o] gr (gp x) ch) w =
  Ret (mkP T H ie cu ig iu ia si co [] [mkAttribute n (sd (latest docs x)) t false o] gr (gp (latest docs x)) ch) w.
Proof.
  intros ia sd gp Hs docs x T H ie cu ig iu si co n t o gr ch.
  apply (texts (fun x => mkP T H ie cu ig iu ia si co [] [mkAttribute n (sd x) t false o] gr (gp x) ch)).
  intros d y. unfold on_char_data, hear. destruct (String.eqb (trim_space d) ""); [reflexivity|]. fields.
  destruct Hs as [[Hsd Hgp]|[-> [Hsd [g Hgp]]]].
  - rewrite !Hgp, !Hsd. rewrite !andb_false_r. reflexivity.
  - rewrite !Hgp, !Hsd. reflexivity.
Qed.

(** In the simple type of an attribute: the simple type may be gone afterwards. *)
Definition inline_state (base : string) (tree : list proto) (cu : string) (si : list SimpleType) (t : string) : Prop :=
  (exists s, si = [s] /\ st_base s = base) \/ (si = [] /\ t = res base tree /\ cu = "").

Lemma facets_inline : forall ia sd gp, sink ia sd gp -> forall fs, facets_ok fs = true ->
  forall x T H ie cu ig iu si co n t o gr ch base tree,
  map (freeze_node H) T = tree -> inline_state base tree cu si t -> ie <> "" -> exists ie' cu' si' t', ie' <> "" /\
  let x' := latest (flat_map facet_texts fs) x in
  run_tokens gvt (flat_map facet_tokens fs) (mkP T H ie cu ig iu ia si co [] [mkAttribute n (sd x) t false o] gr (gp x) ch) w =
  Ret (mkP T H ie' cu' ig iu ia si' co [] [mkAttribute n (sd x') t' false o] gr (gp x') ch) w /\
  inline_state base tree cu' si' t'.
Proof.
  intros ia sd gp Hs. induction fs as [|[local l docs] fs IH]; intros Hok x T H ie cu ig iu si co n t o gr ch base tree Ht Hi Hie.
  { exists ie, cu, si, t. now split. }
  unfold facets_ok in Hok. cbn [forallb facet_ok] in Hok. apply andb_true_iff in Hok as [Hl Hok].
  destruct (in_dec string_dec local facet_locals) as [Hin|]; [|discriminate]. fold (facets_ok fs) in Hok.
  pose proof (facet_named local Hin) as Hlocal.
  cbn [flat_map facet_tokens facet_texts app]. rewrite run_cons, <- app_assoc, latest_app. cbv zeta.
  assert (Hfz : forall ie cu si co at_ gr ag ch, freeze (mkP T H ie cu ig iu ia si co [] at_ gr ag ch) = tree) by (intros; exact Ht).
  assert (Hnext : forall cu si t, inline_state base tree cu si t -> exists ie' cu' si' t', ie' <> "" /\
    run_tokens gvt (flat_map facet_tokens fs)
      (mkP T H local cu ig iu ia si co [] [mkAttribute n (sd (latest docs x)) t false o] gr (gp (latest docs x)) ch) w =
    Ret (mkP T H ie' cu' ig iu ia si' co []
           [mkAttribute n (sd (latest (flat_map facet_texts fs) (latest docs x))) t' false o] gr
           (gp (latest (flat_map facet_texts fs) (latest docs x))) ch) w /\ inline_state base tree cu' si' t').
  { intros cu1 si1 t1 Hi1. now apply (IH Hok). }
  apply facet_cases in Hin as [->|[->|Hin]].
  - rewrite tok_enum. unfold on_enumeration. fields. rewrite run_tokens_app, (texts_attribute ia sd gp Hs). cbn [bind app].
    rewrite run_cons, tok_enum_end. unfold end_enumeration, base_to_attribute. fields. destruct Hi as [[s [-> Hb]]|[-> [Ha Hc]]].
    + rewrite enumeration_values.
      rewrite Hres. fields. unfold base_to_element. fields. apply Hnext. left. eexists. split; [reflexivity|exact Hb].
    + rewrite enumeration_none. unfold base_to_element. fields. apply Hnext. now right.
  - rewrite tok_pattern. fields. rewrite run_tokens_app, (texts_attribute ia sd gp Hs). cbn [bind app].
    rewrite run_cons, tok_pattern_end. unfold end_pattern, base_to_attribute. fields.
    destruct Hi as [[s [-> Hb]]|[-> [Ha Hc]]].
    + rewrite Hres. fields. unfold base_to_element. fields. rewrite Hfz. apply Hnext. right. now rewrite Hb.
    + unfold base_to_element. fields. apply Hnext. now right.
  - rewrite (proj1 (tok_facet local Hin l _)). fields. rewrite run_tokens_app, (texts_attribute ia sd gp Hs). cbn [bind app].
    rewrite run_cons, (proj2 (tok_facet local Hin l _)).
    unfold end_facet, base_to_element. fields.
    destruct si; fields; (apply Hnext; exact Hi).
Qed.

(** After an inline type nothing is current, or a simple type that has ended. *)
Lemma attribute_run : forall own a v tree x ia sd gp T H ie cu ig iu co gr ch,
  attribute_in res own a tree = Some v -> sink ia sd gp -> sd x = "" -> map (freeze_node H) T = tree ->
  (sd (latest (attribute_texts a) x) = if own then doc_of (attribute_texts a) else "") ->
  exists ie' cu', ie' <> "" /\ (if has_inline a then cu' = "" \/ cu' = "simpleType" else cu' = cu) /\
  run_tokens gvt (attribute_tokens a) (mkP T H ie cu ig iu ia [] co [] [] gr (gp x) ch) w =
  end_attribute (mkP T H ie' cu' ig iu ia [] co [] [v] gr (gp (latest (attribute_texts a) x)) ch) w.
Proof.
  intros own [l docs inline] v tree x ia sd gp T H ie cu ig iu co gr ch Hv Hsink Hx Ht Hown. cbn [attribute_tokens has_inline].
  assert (Hfz : forall ie cu si at_ ag, freeze (mkP T H ie cu ig iu ia si co [] at_ gr ag ch) = tree) by (intros; exact Ht).
  rewrite run_cons, tok_attribute. unfold on_attribute. fields. rewrite Hfz, attribute_attrs_pure.
  cbn [at_name at_doc at_type at_plural at_optional bind andb]. fields.
  unfold attribute_in in Hv. rewrite <- Hown in Hv. set (opt := negb (existsb _ _)) in *. fold (name_in l). fold (type_in res l tree).
  replace (mkAttribute (name_in l) "" (type_in res l tree) false opt) with (mkAttribute (name_in l) (sd x) (type_in res l tree) false opt)
    by now rewrite Hx.
  rewrite run_tokens_app, (texts_attribute ia sd gp Hsink). cbn [bind]. cbn [attribute_texts] in *. clear Hown.
  destruct inline as [[ls ds d]|].
  2: { injection Hv as <-. rewrite app_nil_r. cbn [app]. rewrite run_cons, tok_attribute_end. exists "attribute", cu.
       split; [discriminate|]. split; [reflexivity|]. destruct (end_attribute _ w); reflexivity. }
  cbn [inline_tokens app]. rewrite run_cons, tok_simple. unfold on_simple_type. fields.
  rewrite <- !app_assoc, run_tokens_app, (texts_attribute ia sd gp Hsink). cbn [bind].
  match goal with |- context [mkP T H "simpleType" "simpleType" ig iu ia [?s] _ _ _ _ _ _] => set (s0 := s) end.
  cbn [inline_in inline_texts] in *. destruct d as [lr dr fs|ll dl]; cbn [derivation_tokens derivation_texts] in *.
  - destruct (facets_ok fs) eqn:Hfs; [|discriminate]. injection Hv as <-. cbn [app].
    rewrite run_cons, tok_restriction. unfold on_restriction. fields. rewrite Hfz.
    edestruct restriction_attrs_pure as [n [_ ->]].
    change (st_base s0) with "". rewrite base_in_eq. fields. rewrite <- !app_assoc, run_tokens_app, (texts_attribute ia sd gp Hsink). cbn [bind].
    rewrite run_tokens_app.
    match goal with |- context [mkP T H "restriction" "simpleType" ig iu ia ?sis co _ _ _ _ _] =>
      edestruct (facets_inline ia sd gp Hsink fs Hfs) with (T := T) (H := H) (ie := "restriction") (si := sis) (base := base_in res lr tree)
        as [ie' [cu' [si' [t [Hie' [Hr Hi]]]]]] end;
      [exact Ht|left; eexists; split; [reflexivity|reflexivity]|discriminate|]. cbv zeta in Hr. rewrite Hr. clear Hr. rewrite !latest_app.
    set (y := latest (flat_map facet_texts fs) _).
    cbn [bind app]. rewrite run_cons, tok_restriction_end. unfold end_restriction, base_to_attribute. fields.
    assert (Hend : forall ie,
      run_tokens gvt [TEnd "simpleType"; TEnd "attribute"] (mkP T H ie "" ig iu ia [] co [] [mkAttribute (name_in l) (sd y) (res (base_in res lr tree) tree) false opt] gr (gp y) ch) w =
      end_attribute (mkP T H ie "" ig iu ia [] co [] [mkAttribute (name_in l) (sd y) (res (base_in res lr tree) tree) false opt] gr (gp y) ch) w).
    { intros ie1. cbn [run_tokens]. rewrite tok_simple_end. unfold end_simple_type. fields.
      change (String.eqb "simpleType" "") with false. cbn [andb]. fields.
      rewrite tok_attribute_end. destruct (end_attribute _ w); reflexivity. }
    exists ie', "". split; [exact Hie'|]. split; [now left|].
    destruct Hi as [[s [-> Hb]]|[-> [Ha ->]]]; fields.
    + rewrite Hres. fields. rewrite Hfz, Hb. unfold at_set_type. cbn [at_name at_doc at_type at_plural at_optional]. apply Hend.
    + rewrite Ha. apply Hend.
  - injection Hv as <-. cbn [app]. rewrite run_cons, tok_list. unfold on_list. fields. rewrite Hfz, list_attrs_pure. fields.
    rewrite <- !app_assoc, run_tokens_app, (texts_attribute ia sd gp Hsink). cbn [bind app]. rewrite !latest_app.
    rewrite run_cons, tok_list_end. cbn [bind]. rewrite run_cons, tok_simple_end. unfold end_simple_type. fields.
    rewrite run_cons, tok_attribute_end. exists "list", "simpleType". split; [discriminate|]. split; [now right|].
    unfold at_set_type, item_in. cbn [at_name at_doc at_type at_plural at_optional st_base].
    change (st_base (st_set_list true s0)) with "".
    replace (otherwise "" (option_map (fun v => res v tree) (last_of ["itemType"] ll))) with
      (match last_of ["itemType"] ll with Some v => res v tree | None => "" end) by now destruct (last_of ["itemType"] ll).
    destruct (end_attribute _ w); reflexivity.
Qed.

(** * Trees *)

(** No reference of [T] is among [F], the elements that may still change. *)
Definition node_ok (F : list nat) (H : list Element) (x : pnode) : Prop :=
  match x with PN _ => True | PRef i => i < length H /\ ~ In i F end.
Definition tree_at (F : list nat) (T : list pnode) (H : list Element) (tree : list proto) : Prop :=
  map (freeze_node H) T = tree /\ Forall (node_ok F H) T /\ Forall (fun k => k < length H) F.

Lemma tree_same : forall F T H H' tree, tree_at F T H tree -> length H <= length H' ->
  (forall i, i < length H -> ~ In i F -> deref H' i = deref H i) -> tree_at F T H' tree.
Proof.
  intros F T H H' tree [He [Hok Hn]] Hn' Hs. subst tree. rewrite Forall_forall in Hok. split; [|split].
  - apply map_ext_in. intros [p|i] Hi; [reflexivity|]. cbn. apply Hok in Hi as [Hi Hf]. now rewrite Hs.
  - apply Forall_forall. intros [p|i] Hi; [exact I|]. apply Hok in Hi as [Hi Hf]. split; [lia|exact Hf].
  - eapply Forall_impl; [|exact Hn]. cbn. intros; lia.
Qed.

Lemma deref_app : forall H H' i, i < length H -> deref (H +++ H') i = deref H i.
Proof. intros H H' i Hi. unfold deref. now apply app_nth1. Qed.

Lemma tree_app : forall F T H H' tree, tree_at F T H tree -> tree_at F T (H +++ H') tree.
Proof.
  intros F T H H' tree Ht. eapply tree_same; [exact Ht|rewrite app_length; lia|]. intros i Hi _. now apply deref_app.
Qed.

Lemma tree_push : forall F T H e tree, tree_at F T H tree -> tree_at (length H :: F) T (H +++ [e]) tree.
Proof.
  intros F T H e tree Ht. pose proof (tree_app F T H [e] tree Ht) as [He [_ Hn]]. split; [exact He|]. destruct Ht as [_ [Hok _]]. split.
  - eapply Forall_impl; [|exact Hok]. intros [p|i]; [easy|]. cbn. intros [Hi Hf]. rewrite app_length. split; [lia|]. intros [|]; [lia|contradiction].
  - constructor; [rewrite app_length; cbn; lia|exact Hn].
Qed.

Lemma tree_pop : forall i F T H tree, tree_at (i :: F) T H tree -> tree_at F T H tree.
Proof.
  intros i F T H tree [He [Hok Hn]]. split; [exact He|]. split; [|now inversion Hn]. eapply Forall_impl; [|exact Hok].
  intros [p|k]; [easy|]. cbn. intros [Hk Hf]. split; [exact Hk|]. intros Hc. apply Hf. now right.
Qed.

Lemma tree_add : forall F T H tree p, tree_at F T H tree -> tree_at F (T +++ [PN p]) H (tree +++ [p]).
Proof.
  intros F T H tree p [He [Hok Hn]]. subst tree. split; [now rewrite map_app|]. split; [|exact Hn]. apply Forall_app. split; [exact Hok|]. repeat constructor.
Qed.

Lemma tree_add_ref : forall F T H tree i, tree_at F T H tree -> In i F ->
  tree_at (remove Nat.eq_dec i F) (T +++ [PRef i]) H (tree +++ [PElement (deref H i)]).
Proof.
  intros F T H tree i [He [Hok Hn]] Hi. assert (Hl : i < length H) by (rewrite Forall_forall in Hn; now apply Hn).
  subst tree. split; [now rewrite map_app|]. split.
  - apply Forall_app. split.
    + eapply Forall_impl; [|exact Hok]. intros [p|k]; [easy|]. cbn. intros [Hk Hf]. split; [exact Hk|]. intros Hc. apply Hf. now apply in_remove in Hc.
    + repeat constructor; [exact Hl|]. apply remove_In.
  - rewrite Forall_forall in Hn |- *. intros k Hk. apply Hn. now apply in_remove in Hk.
Qed.

Lemma deref_update : forall H i f k, deref (update_nth i f H) k = if Nat.eqb i k then (if Nat.ltb k (length H) then f (deref H k) else deref H k) else deref H k.
Proof.
  unfold deref. induction H as [|x H IH]; intros i f k.
  - destruct i, k; cbn; try reflexivity; now destruct (Nat.eqb _ _).
  - destruct i as [|i], k as [|k]; cbn [update_nth nth Nat.eqb length]; try reflexivity. rewrite IH.
    change (Nat.ltb (S k) (S (length H))) with (Nat.ltb k (length H)). reflexivity.
Qed.

Lemma update_length : forall {A} (l : list A) i f, length (update_nth i f l) = length l.
Proof. intros A. induction l as [|x l IH]; intros [|i] f; cbn; try reflexivity. now rewrite IH. Qed.

Lemma record_add : forall e l, add_element e l = record e l.
Proof.
  intros e. unfold add_element. induction l as [|x l IH]; [reflexivity|]. cbn [merge_element record].
  rewrite (String.eqb_sym (el_name e)). destruct (String.eqb_spec (el_name x) (el_name e)) as [Hn|Hn];
    destruct (string_dec (el_name x) (el_name e)); try contradiction.
  - destruct (String.eqb_spec (el_type x) (el_type e)) as [Ht|Ht]; destruct (string_dec (el_type x) (el_type e)); try contradiction; reflexivity.
  - rewrite <- IH. destruct (merge_element e l); reflexivity.
Qed.

Lemma record_group_eq : forall g c,
  (if in_groups g (ct_groups c) then c else ct_set_groups (ct_groups c +++ [g]) c) =
  mkComplex (ct_doc c) (ct_name c) (ct_base c) (ct_elements c) (ct_attributes c) (record_group g (ct_groups c)) (ct_attrgroups c).
Proof.
  intros g c. unfold record_group.
  assert (Hb : in_groups g (ct_groups c) = true <-> In (gr_name g) (map gr_name (ct_groups c))).
  { unfold in_groups. rewrite existsb_exists, in_map_iff. split; intros [x [H1 H2]]; exists x.
    - apply String.eqb_eq in H2. now split.
    - split; [exact H2|]. now apply String.eqb_eq. }
  destruct (in_dec string_dec (gr_name g) (map gr_name (ct_groups c))) as [Hi|Hi].
  - apply Hb in Hi. rewrite Hi. now destruct c.
  - destruct (in_groups g (ct_groups c)); [exfalso; apply Hi; now apply Hb|]. reflexivity.
Qed.

(** * Elements *)

Lemma element_run : forall l T H ie cu ig iu ia si co el gr ch e typed tree,
  element_in res many l (hd false ch) tree = Some (e, typed) -> map (freeze_node H) T = tree ->
  on_token gvt (TStart "element" l) (mkP T H ie cu ig iu ia si co el [] gr [] ch) w =
  let el' := if typed then el else length H :: el in
  match co with
  | c :: cs => Ret (mkP T (H +++ [e]) "element" cu ig iu ia si
      (mkComplex (ct_doc c) (ct_name c) (ct_base c) (record e (ct_elements c)) (ct_attributes c) (ct_groups c) (ct_attrgroups c) :: cs)
      el' [] gr [] ch) w
  | [] => if (0 <? ig)%Z
          then Ret (mkP T (H +++ [e]) "element" cu ig iu ia si [] el' [] (on_top (fun g => gr_set_elements (gr_elements g +++ [e]) g) gr) [] ch) w
          else Ret (mkP T (H +++ [e]) "element" cu ig iu ia si [] (length H :: el') [] gr [] ch) w
  end.
Proof.
  intros l T H ie cu ig iu ia si co el gr ch e typed tree He Ht. rewrite tok_element. unfold on_element.
  unfold element_in in He. destruct (element_plural many l) as [b|] eqn:Hb; [|discriminate].
  fields. assert (Hfz : forall ie cu si at_, freeze (mkP T H ie cu ig iu ia si co el at_ gr [] ch) = tree) by (intros; exact Ht).
  rewrite Hfz, (element_attrs_pure tree l b Hb).
  cbn [el_doc el_name el_type el_plural el_optional zero_element bind]. fold (type_in res l tree). fold (name_in l).
  assert (Hcp : forall T H ie cu ig iu ia si co el at_ gr, choice_plural (mkP T H ie cu ig iu ia si co el at_ gr [] ch) = hd false ch)
    by (intros; now destruct ch).
  destruct (String.eqb_spec (type_in res l tree) "") as [Hty|Hty]; destruct (string_dec (type_in res l tree) "") as [Hty'|Hty'];
    try contradiction; injection He as <- <-.
  - rewrite Hres. fields. unfold place_element, push_element. fields. rewrite update_nth_last, Hcp, deref_last.
    cbn [el_set_plural el_set_type el_doc el_name el_type el_plural el_optional]. rewrite orb_false_r.
    destruct co as [|c cs]; [destruct (0 <? ig)%Z; reflexivity|]. fields. now rewrite record_add.
  - unfold place_element, push_element. fields. rewrite update_nth_last, Hcp, deref_last.
    cbn [el_set_plural el_set_type el_doc el_name el_type el_plural el_optional]. rewrite orb_false_r.
    destruct co as [|c cs]; [destruct (0 <? ig)%Z; reflexivity|]. fields. now rewrite record_add.
Qed.

(** * Texts that go to the element on top *)

Definition heard (i : nat) (docs : list string) (H : list Element) : list Element :=
  update_nth i (fun e => el_set_doc (latest docs (el_doc e)) e) H.

Lemma heard_length : forall i docs H, length (heard i docs H) = length H.
Proof. intros. apply update_length. Qed.
Lemma heard_other : forall i docs H k, k <> i -> deref (heard i docs H) k = deref H k.
Proof. intros i docs H k Hk. unfold heard. rewrite deref_update. destruct (Nat.eqb_spec i k); [congruence|reflexivity]. Qed.
Lemma heard_self : forall i docs H, i < length H -> deref (heard i docs H) i = el_set_doc (latest docs (el_doc (deref H i))) (deref H i).
Proof. intros i docs H Hi. unfold heard. rewrite deref_update, Nat.eqb_refl. apply Nat.ltb_lt in Hi. now rewrite Hi. Qed.
Lemma heard_last : forall docs H e, heard (length H) docs (H +++ [e]) = H +++ [el_set_doc (latest docs (el_doc e)) e].
Proof. intros. unfold heard. now rewrite update_nth_last. Qed.

Lemma tree_touch : forall i F f T H tree, tree_at F T H tree -> In i F -> tree_at F T (update_nth i f H) tree.
Proof.
  intros i F f T H tree Ht Hi. eapply tree_same; [exact Ht|now rewrite update_length|]. intros k _ Hk. rewrite deref_update.
  destruct (Nat.eqb_spec i k) as [->|]; [contradiction|reflexivity].
Qed.
Lemma tree_heard : forall i F docs T H tree, tree_at F T H tree -> In i F -> tree_at F T (heard i docs H) tree.
Proof. intros. now apply tree_touch. Qed.

(** Where an element is that is left over: nowhere in the tree, or at one place. *)
Definition left_at (T : list pnode) (F : list nat) (i : nat) (x : leftover) : Prop :=
  match who x with
  | None => In i F
  | Some k => nth_error T k = Some (PRef i) /\ forall k', nth_error T k' = Some (PRef i) -> k' = k
  end.

Lemma left_below : forall T F i x H tree, tree_at F T H tree -> left_at T F i x -> i < length H.
Proof.
  intros T F i x H tree [_ [Hok Hn]] Hl. rewrite Forall_forall in Hok, Hn. unfold left_at in Hl. destruct (who x) as [k|]; [|now apply Hn].
  destruct Hl as [Hk _]. apply nth_error_In in Hk. apply Hok in Hk as [Hk _]. exact Hk.
Qed.

Lemma left_grow : forall T F i x F' R, left_at T F i x -> incl F F' -> Forall (fun n => n <> PRef i) R -> left_at (T +++ R) F' i x.
Proof.
  intros T F i x F' R Hl Hi HR. unfold left_at in *. destruct (who x) as [k|]; [|now apply Hi]. destruct Hl as [Hk Hu]. split.
  - rewrite nth_error_app1; [exact Hk|]. apply nth_error_Some. congruence.
  - intros k' Hk'. destruct (Nat.lt_ge_cases k' (length T)) as [Hlt|Hge].
    + rewrite nth_error_app1 in Hk' by exact Hlt. now apply Hu.
    + rewrite nth_error_app2 in Hk' by exact Hge. apply nth_error_In in Hk'. rewrite Forall_forall in HR. now apply HR in Hk'.
Qed.

Lemma nodes_other : forall ps i, Forall (fun n => n <> PRef i) (map PN ps).
Proof. intros ps i. apply Forall_forall. intros n Hn. apply in_map_iff in Hn as [p [<- _]]. discriminate. Qed.

Lemma left_nodes : forall T F i x F' ps, left_at T F i x -> incl F F' -> left_at (T +++ map PN ps) F' i x.
Proof. intros. eapply left_grow; [eassumption|assumption|apply nodes_other]. Qed.

Definition ext (T T' : list pnode) : Prop := exists ps, T' = T +++ map PN ps.
Lemma ext_refl : forall T, ext T T.
Proof. intros T. exists []. now rewrite app_nil_r. Qed.
Lemma ext_trans : forall T1 T2 T3, ext T1 T2 -> ext T2 T3 -> ext T1 T3.
Proof. intros T1 T2 T3 [a ->] [b ->]. exists (a +++ b). now rewrite map_app, app_assoc. Qed.
Lemma ext_one : forall T p, ext T (T +++ [PN p]).
Proof. intros T p. now exists [p]. Qed.

Lemma left_ext : forall T T' F i x F', left_at T F i x -> incl F F' -> ext T T' -> left_at T' F' i x.
Proof. intros T T' F i x F' Hl Hi [ps ->]. eapply left_nodes; eassumption. Qed.

Lemma left_ref : forall T F i x j, left_at T F i x -> i <> j -> left_at (T +++ [PRef j]) (remove Nat.eq_dec j F) i x.
Proof.
  intros T F i x j Hl Hj. unfold left_at in *. destruct (who x) as [k|] eqn:Hk.
  - assert (Hl' : left_at T F i x) by (unfold left_at; now rewrite Hk).
    pose proof (left_grow T F i x F [PRef j] Hl' (incl_refl F)) as Hg. unfold left_at in Hg. rewrite Hk in Hg. apply Hg. repeat constructor. congruence.
  - now apply in_in_remove.
Qed.

Lemma left_open : forall T F i x o, left_at T F i x -> left_at T F i (mkLeft (who x) o).
Proof. intros T F i [wh op] o H. exact H. Qed.

(** The element at the end. *)
Lemma left_last : forall T F H tree i o, tree_at F T H tree -> In i F ->
  left_at (T +++ [PRef i]) (remove Nat.eq_dec i F) i (mkLeft (Some (length tree)) o).
Proof.
  intros T F H tree i o [He [Hok _]] Hi. unfold left_at. cbn [who]. subst tree. rewrite map_length. split; [now rewrite nth_error_app2, Nat.sub_diag by lia|].
  intros k' Hk'. destruct (Nat.lt_ge_cases k' (length T)) as [Hlt|Hge].
  - rewrite nth_error_app1 in Hk' by exact Hlt. apply nth_error_In in Hk'. rewrite Forall_forall in Hok. apply Hok in Hk' as [_ Hk']. contradiction.
  - assert (Hn : nth_error (T +++ [PRef i]) k' <> None) by congruence. apply nth_error_Some in Hn. rewrite app_length in Hn. cbn in Hn. lia.
Qed.

Lemma edit_freeze : forall T H i k f, (forall k', nth_error T k' = Some (PRef i) -> k' = k) -> nth_error T k = Some (PRef i) -> i < length H ->
  map (freeze_node (update_nth i f H)) T = edit k f (map (freeze_node H) T).
Proof.
  intros T H i k f Hu Hk Hi. revert k Hu Hk. induction T as [|n T IH]; intros k Hu Hk; [now destruct k|].
  assert (Hother : forall n0, n0 <> PRef i -> freeze_node (update_nth i f H) n0 = freeze_node H n0).
  { intros [p|j] Hn; [reflexivity|]. cbn [freeze_node]. rewrite deref_update. destruct (Nat.eqb_spec i j) as [->|]; [congruence|reflexivity]. }
  destruct k as [|k]; cbn [nth_error] in Hk; cbn [map edit].
  - injection Hk as ->. cbn [freeze_node]. rewrite deref_update, Nat.eqb_refl. apply Nat.ltb_lt in Hi. rewrite Hi. f_equal. apply map_ext_in.
    intros n0 Hn0. apply Hother. intros ->. apply In_nth_error in Hn0 as [k' Hk']. specialize (Hu (S k') Hk'). discriminate.
  - rewrite (IH k); [|intros k' Hk'; specialize (Hu (S k') Hk'); lia|exact Hk]. rewrite Hother; [now destruct (freeze_node H n)|].
    intros ->. specialize (Hu 0 eq_refl). discriminate.
Qed.

Lemma tree_edit : forall F T H tree i x f, tree_at F T H tree -> left_at T F i x -> tree_at F T (update_nth i f H) (edit_left f x tree).
Proof.
  intros F T H tree i x f Ht Hl. pose proof (left_below _ _ _ _ _ _ Ht Hl) as Hi. unfold left_at, edit_left in *. destruct (who x) as [k|]; [|now apply tree_touch].
  destruct Hl as [Hk Hu]. destruct Ht as [<- [Hok Hn]]. split; [now apply edit_freeze|]. split.
  - eapply Forall_impl; [|exact Hok]. intros [p|j]; [easy|]. cbn. now rewrite update_length.
  - eapply Forall_impl; [|exact Hn]. cbn. intros. now rewrite update_length.
Qed.

Lemma tree_redoc : forall F T H tree i x docs, tree_at F T H tree -> left_at T F i x -> tree_at F T (heard i docs H) (redocument docs x tree).
Proof. intros. now apply tree_edit. Qed.

Lemma texts_top : forall docs T H ie cu ig iu ia si co i st at_ gr ch, ie <> "" ->
  run_tokens gvt (map TChar docs) (mkP T H ie cu ig iu ia si co (i :: st) at_ gr [] ch) w =
  Ret (mkP T (heard i docs H) ie cu ig iu ia si co (i :: st) at_ gr [] ch) w.
Proof.
  intros docs T H ie cu ig iu ia si co i st at_ gr ch Hie. revert H. induction docs as [|d docs IH]; intros H.
  - cbn [map run_tokens]. unfold heard. do 2 f_equal. unfold latest. cbn. clear. revert i. induction H as [|x H IH]; intros [|i]; cbn [update_nth]; try reflexivity.
    + now destruct x.
    + f_equal. apply IH.
  - cbn [map]. rewrite run_cons. cbn [on_token bind].
    replace (on_char_data d _) with (mkP T (update_nth i (fun e => el_set_doc (hear (el_doc e) d) e) H) ie cu ig iu ia si co (i :: st) at_ gr [] ch).
    + rewrite IH. do 2 f_equal. unfold heard. clear. revert i. induction H as [|x H IH]; intros [|i]; cbn [update_nth]; try reflexivity.
      * now rewrite latest_cons.
      * f_equal. apply IH.
    + unfold on_char_data, hear. destruct (String.eqb (trim_space d) "").
      * f_equal. clear. revert i. induction H as [|x H IH]; intros [|i]; cbn [update_nth]; try reflexivity; [now destruct x|]. f_equal. apply IH.
      * fields. rewrite andb_false_r. apply String.eqb_neq in Hie. rewrite Hie. reflexivity.
Qed.

(** * Texts inside a complex type *)

(** At most one simple type is left over. *)
Definition few (si : list SimpleType) : Prop := si = [] \/ exists s, si = [s].

Definition rest_of (o : bool) (si : list SimpleType) : Prop := if o then few si else si = [].

Lemma rest_few : forall o si, rest_of o si -> few si.
Proof. intros [|] si H; [exact H|now left]. Qed.

Definition hears (to : listener) (el : list nat) (si : list SimpleType) (cu ie : string) (F : list nat) (T : list pnode) (H : list Element) (ed : string) (e0 : Element) : Prop :=
  match to with
  | ToType => el = [] /\ si = [] /\ cu = "complexType"
  | ToNobody => el = [] /\ si = [] /\ cu <> "complexType"
  | ToElement => (exists i st, el = i :: st /\ In i F /\ deref H i = el_set_doc ed e0) /\ few si /\ ie <> ""
  | ToLeft x => (exists i st, el = i :: st /\ left_at T F i x) /\ rest_of (open x) si /\ ie <> ""
  end.

Lemma hears_grow : forall to el si cu ie F T H F' T' H' ie' ed e0 tree, hears to el si cu ie F T H ed e0 -> ie' <> "" -> tree_at F T H tree ->
  incl F F' -> ext T T' -> (forall i, i < length H -> deref H' i = deref H i) -> hears to el si cu ie' F' T' H' ed e0.
Proof.
  intros [| | |x] el si cu ie F T H F' T' H' ie' ed e0 tree Hh Hie Ht HF HT Hd; try exact Hh.
  - destruct Hh as [[i [st [-> [Hi He]]]] [Hf _]]. split; [|now split]. exists i, st. split; [reflexivity|]. split; [now apply HF|]. rewrite Hd; [exact He|].
    destruct Ht as [_ [_ Hl]]. rewrite Forall_forall in Hl. now apply Hl.
  - destruct Hh as [[i [st [-> Hi]]] [Hf _]]. split; [|now split]. exists i, st. split; [reflexivity|]. eapply left_ext; eassumption.
Qed.

Lemma hears_same : forall to el si cu ie ie' F T H ed e0, hears to el si cu ie F T H ed e0 -> ie' <> "" -> hears to el si cu ie' F T H ed e0.
Proof. intros [| | |x] el si cu ie ie' F T H ed e0 Hh Hie; try exact Hh; cbn in *; tauto. Qed.

Lemma document_nil : forall c, document [] c = c.
Proof.
  intros c. unfold document. destruct (rev (ct_attributes c)) as [|a r] eqn:Hr; [now destruct c|].
  change (latest [] (at_doc a)) with (at_doc a). replace (mkAttribute _ _ _ _ _) with a by now destruct a. rewrite <- Hr, rev_involutive. now destruct c.
Qed.

Lemma last_attr_doc_rev : forall d r a, last_attr_doc d (rev (a :: r)) = rev (at_set_doc d a :: r).
Proof.
  intros d r a. cbn [rev]. induction (rev r) as [|x l IH]; [reflexivity|]. cbn [app].
  change (x :: last_attr_doc d (l +++ [a]) = x :: l +++ [at_set_doc d a]) || idtac.
  assert (Hc : last_attr_doc d (x :: l +++ [a]) = x :: last_attr_doc d (l +++ [a])) by now destruct l.
  rewrite Hc. now f_equal.
Qed.

Lemma document_cons : forall d docs c,
  document (d :: docs) c = document docs (if String.eqb (trim_space d) "" then c else complex_doc (trim_space d) c).
Proof.
  intros d docs c. unfold document at 1. rewrite !latest_cons. unfold hear.
  destruct (String.eqb (trim_space d) "") eqn:Hd.
  { unfold document. destruct (rev (ct_attributes c)) as [|a r]; [reflexivity|]. now rewrite latest_cons; unfold hear; rewrite Hd. }
  unfold complex_doc. destruct (rev (ct_attributes c)) as [|a r] eqn:Hr.
  - apply (f_equal (@rev Attribute)) in Hr. rewrite rev_involutive in Hr. cbn in Hr. rewrite Hr. unfold document, ct_set_doc.
    cbn [ct_attributes ct_doc ct_name ct_base ct_elements ct_groups ct_attrgroups]. rewrite Hr. reflexivity.
  - assert (Ha : ct_attributes c = rev (a :: r)) by (now rewrite <- Hr, rev_involutive).
    destruct (ct_attributes c) as [|a0 l0] eqn:Hl; [discriminate|]. rewrite Ha, last_attr_doc_rev. unfold document, ct_set_attributes.
    cbn [ct_attributes ct_doc ct_name ct_base ct_elements ct_groups ct_attrgroups]. rewrite rev_involutive.
    rewrite latest_cons. unfold hear. rewrite Hd. reflexivity.
Qed.

Lemma texts_complex : forall docs T H ie ig iu ia c cs gr ch,
  run_tokens gvt (map TChar docs) (mkP T H ie "complexType" ig iu ia [] (c :: cs) [] [] gr [] ch) w =
  Ret (mkP T H ie "complexType" ig iu ia [] (document docs c :: cs) [] [] gr [] ch) w.
Proof.
  induction docs as [|d docs IH]; intros T H ie ig iu ia c cs gr ch; [now rewrite document_nil|].
  cbn [map]. rewrite run_cons. cbn [on_token bind]. rewrite document_cons. unfold on_char_data.
  destruct (String.eqb (trim_space d) ""); [apply IH|]. fields. rewrite !andb_false_r.
  change (String.eqb "complexType" "simpleType") with false. change (String.eqb "complexType" "complexType") with true. cbv iota. apply IH.
Qed.

Lemma tell_run : forall docs s e0 T H ie cu ig iu ia si cs F el gr ch,
  hears (i_to s) el si cu ie F T H (i_doc s) e0 -> tree_at F T H (i_tree s) ->
  exists H', (forall c, c = i_type s -> run_tokens gvt (map TChar docs) (mkP T H ie cu ig iu ia si (c :: cs) el [] gr [] ch) w =
    Ret (mkP T H' ie cu ig iu ia si (i_type (tell docs s) :: cs) el [] gr [] ch) w) /\
    hears (i_to (tell docs s)) el si cu ie F T H' (i_doc (tell docs s)) e0 /\ tree_at F T H' (i_tree (tell docs s)).
Proof.
  intros docs [tree c to ed] e0 T H ie cu ig iu ia si cs F el gr ch Hh Ht. unfold tell. cbn [i_to i_type i_doc i_tree] in *.
  destruct to as [| | |x]; cbn [with_type i_to i_type i_doc i_tree].
  - destruct Hh as [-> [-> ->]]. exists H. split; [intros ? ->; apply texts_complex|]. now split.
  - destruct Hh as [[i [st [-> [Hi He]]]] [Hf Hie]]. exists (heard i docs H). split; [|split].
    + intros ? ->. now apply texts_top.
    + split; [|now split]. exists i, st. split; [reflexivity|]. split; [exact Hi|]. rewrite heard_self, He; [reflexivity|].
      destruct Ht as [_ [_ Hl]]. rewrite Forall_forall in Hl. now apply Hl.
    + now apply tree_heard.
  - destruct Hh as [-> [-> Hcu]]. exists H. split; [|now split]. intros ? ->. apply texts_lost. intros d. unfold on_char_data.
    destruct (String.eqb (trim_space d) ""); [reflexivity|]. fields. rewrite !andb_false_r. cbv iota.
    apply String.eqb_neq in Hcu. rewrite Hcu. now destruct (String.eqb cu "simpleType").
  - destruct Hh as [[i [st [-> Hi]]] [Hf Hie]]. exists (heard i docs H). split; [|split].
    + intros ? ->. now apply texts_top.
    + split; [|now split]. now exists i, st.
    + now apply tree_redoc.
Qed.

(** * The inside of a complex type *)

Lemma restriction_attrs_none : forall l T H ie cu ig iu ia co el at_ gr ag ch tree,
  restriction_attrs gvt tree l (mkP T H ie cu ig iu ia [] co el at_ gr ag ch) w = Ret (mkP T H ie cu ig iu ia [] co el at_ gr ag ch) w.
Proof.
  induction l as [|x l IH]; intros T H ie cu ig iu ia co el at_ gr ag ch tree; [reflexivity|]. cbn [restriction_attrs].
  destruct (String.eqb (a_local x) "base"); [|apply IH]. rewrite Hres. fields. apply IH.
Qed.

(** A facet where there is no simple type. *)
Lemma facet_none : forall f, facet_ok f = true -> forall s e0 T H ie cu ig iu ia cs F el gr ch,
  hears (i_to s) el [] cu ie F T H (i_doc s) e0 -> tree_at F T H (i_tree s) ->
  exists ie' H', ie' <> "" /\
    run_tokens gvt (facet_tokens f) (mkP T H ie cu ig iu ia [] (i_type s :: cs) el [] gr [] ch) w =
    Ret (mkP T H' ie' cu ig iu ia [] (i_type (tell (facet_texts f) s) :: cs) el [] gr [] ch) w /\
    hears (i_to (tell (facet_texts f) s)) el [] cu ie' F T H' (i_doc (tell (facet_texts f) s)) e0 /\ tree_at F T H' (i_tree (tell (facet_texts f) s)).
Proof.
  intros [local l docs] Hok s e0 T H ie cu ig iu ia cs F el gr ch Hh Ht. cbn [facet_ok] in Hok.
  destruct (in_dec string_dec local facet_locals) as [Hin|]; [|discriminate]. cbn [facet_tokens facet_texts]. rewrite run_cons.
  pose proof (facet_named local Hin) as Hlocal.
  destruct (tell_run docs s e0 T H local cu ig iu ia [] cs F el gr ch) as [H' [Hr Hx]]; [now eapply hears_same; [exact Hh|]|exact Ht|].
  exists local, H'. split; [exact Hlocal|]. split; [|exact Hx].
  apply facet_cases in Hin as [->|[->|Hin]].
  - rewrite tok_enum. unfold on_enumeration. fields. rewrite enumeration_none, run_tokens_app, Hr by reflexivity. cbn [bind]. rewrite run_cons, tok_enum_end.
    unfold end_enumeration, base_to_attribute, base_to_element. fields. reflexivity.
  - rewrite tok_pattern. fields. rewrite run_tokens_app, Hr by reflexivity. cbn [bind]. rewrite run_cons, tok_pattern_end.
    unfold end_pattern, base_to_attribute, base_to_element. fields. reflexivity.
  - rewrite (proj1 (tok_facet local Hin l _)). fields. rewrite run_tokens_app, Hr by reflexivity. cbn [bind]. rewrite run_cons, (proj2 (tok_facet local Hin l _)).
    unfold end_facet, base_to_element. fields. reflexivity.
Qed.

Lemma tell_to : forall docs s, i_to (tell docs s) = i_to s.
Proof. intros docs [t c [| | |x] d]; reflexivity. Qed.

(** An attribute without inline type where an element takes the texts. *)
Lemma attribute_quiet : forall a v tree T H ie cu ig iu ia si co i st gr ch,
  attribute_in res false a tree = Some v -> has_inline a = false -> map (freeze_node H) T = tree ->
  run_tokens gvt (attribute_tokens a) (mkP T H ie cu ig iu ia si co (i :: st) [] gr [] ch) w =
  end_attribute (mkP T (heard i (attribute_texts a) H) "attribute" cu ig iu ia si co (i :: st) [v] gr [] ch) w.
Proof.
  intros [l docs [x|]] v tree T H ie cu ig iu ia si co i st gr ch Hv Hin Ht; [discriminate|]. clear Hin.
  cbn [attribute_in] in Hv. injection Hv as <-. cbn [attribute_tokens attribute_texts]. rewrite app_nil_r. cbn [app].
  rewrite run_cons, tok_attribute. unfold on_attribute. fields.
  replace (freeze _) with tree by (symmetry; exact Ht). rewrite attribute_attrs_pure.
  cbn [at_name at_doc at_type at_plural at_optional bind andb]. fields.
  set (opt := negb (existsb _ _)). fold (name_in l). fold (type_in res l tree). rewrite run_tokens_app, texts_top by discriminate.
  cbn [bind]. rewrite run_cons, tok_attribute_end. destruct (end_attribute _ w); reflexivity.
Qed.

(** * A local element with an inline type *)

Definition element_state (base : string) (tree : list proto) (cu : string) (si : list SimpleType) (t : string) : Prop :=
  (exists s, si = [s] /\ st_base s = base) \/ (si = [] /\ t = res base tree /\ cu = "").

Lemma facets_element : forall fs, facets_ok fs = true ->
  forall F T H ie cu ig iu ia si co i st gr ch base tree x n t pl o,
  tree_at F T H tree -> In i F -> ie <> "" -> deref H i = mkElement x n t pl o -> element_state base tree cu si t ->
  exists H' ie' cu' si' t',
  run_tokens gvt (flat_map facet_tokens fs) (mkP T H ie cu ig iu ia si co (i :: st) [] gr [] ch) w =
  Ret (mkP T H' ie' cu' ig iu ia si' co (i :: st) [] gr [] ch) w /\
  tree_at F T H' tree /\ ie' <> "" /\ deref H' i = mkElement (latest (flat_map facet_texts fs) x) n t' pl o /\
  element_state base tree cu' si' t' /\ (fs <> [] \/ t = res base tree /\ cu = "" -> t' = res base tree /\ cu' = "") /\
  (si = [] \/ forallb is_enumeration fs = false -> si' = []).
Proof.
  induction fs as [|[local l docs] fs IH]; intros Hok F T H ie cu ig iu ia si co i st gr ch base tree x n t pl o Ht Hi Hie He Hs.
  { exists H, ie, cu, si, t. repeat (split; [assumption || reflexivity|]). split; [intros [Hc|Hc]; [now destruct Hc|exact Hc]|]. now intros [Hc|Hc]. }
  unfold facets_ok in Hok. cbn [forallb facet_ok] in Hok. apply andb_true_iff in Hok as [Hl Hok].
  destruct (in_dec string_dec local facet_locals) as [Hin|]; [|discriminate]. fold (facets_ok fs) in Hok.
  pose proof (facet_named local Hin) as Hlocal.
  cbn [flat_map facet_tokens facet_texts app]. rewrite run_cons, <- app_assoc, latest_app.
  assert (Hlt : i < length H) by (destruct Ht as [_ [_ Hl0]]; rewrite Forall_forall in Hl0; now apply Hl0).
  assert (Hnext : forall H1 cu1 si1, tree_at F T H1 tree -> deref H1 i = mkElement (latest docs x) n (res base tree) pl o ->
    cu1 = "" -> element_state base tree cu1 si1 (res base tree) -> (si = [] \/ local <> "enumeration" -> si1 = []) -> exists H' ie' cu' si' t',
    run_tokens gvt (flat_map facet_tokens fs) (mkP T H1 local cu1 ig iu ia si1 co (i :: st) [] gr [] ch) w =
    Ret (mkP T H' ie' cu' ig iu ia si' co (i :: st) [] gr [] ch) w /\
    tree_at F T H' tree /\ ie' <> "" /\ deref H' i = mkElement (latest (flat_map facet_texts fs) (latest docs x)) n t' pl o /\
    element_state base tree cu' si' t' /\ (Facet local l docs :: fs <> [] \/ t = res base tree /\ cu = "" -> t' = res base tree /\ cu' = "") /\
    (si = [] \/ forallb is_enumeration (Facet local l docs :: fs) = false -> si' = [])).
  { intros H1 cu1 si1 Ht1 He1 Hc1 Hs1 Hsi.
    destruct (IH Hok F T H1 local cu1 ig iu ia si1 co i st gr ch base tree _ n _ pl o Ht1 Hi Hlocal He1 Hs1) as (H' & ie' & cu' & si' & t' & A & B & C & D & G & J & K).
    exists H', ie', cu', si', t'. repeat (split; [assumption|]). split; [intros _; apply J; right; now split|].
    intros [Hc|Hc]; apply K; [left; apply Hsi; now left|]. cbn [forallb is_enumeration] in Hc. apply andb_false_iff in Hc as [Hc|Hc]; [|now right].
    left. apply Hsi. right. now apply String.eqb_neq. }
  set (H1 := heard i docs H). assert (Ht1 : tree_at F T H1 tree) by now apply tree_heard.
  assert (He1 : deref H1 i = mkElement (latest docs x) n t pl o) by (unfold H1; rewrite heard_self, He by assumption; reflexivity).
  assert (Hset : deref (update_nth i (el_set_type (res base tree)) H1) i = mkElement (latest docs x) n (res base tree) pl o).
  { rewrite deref_update, Nat.eqb_refl. unfold H1 at 1. rewrite heard_length. apply Nat.ltb_lt in Hlt. rewrite Hlt, He1. reflexivity. }
  assert (Hty : tree_at F T (update_nth i (el_set_type (res base tree)) H1) tree) by now apply tree_touch.
  assert (Hfz : forall ie cu si co at_ gr ag ch, freeze (mkP T H1 ie cu ig iu ia si co (i :: st) at_ gr ag ch) = tree) by (intros; exact (proj1 Ht1)).
  apply facet_cases in Hin as [->|[->|Hin]].
  - rewrite tok_enum. unfold on_enumeration. fields. rewrite run_tokens_app, texts_top by discriminate. fold H1. cbn [bind app].
    rewrite run_cons, tok_enum_end. unfold end_enumeration, base_to_attribute, base_to_element. fields.
    destruct Hs as [[s [-> Hb]]|[-> [-> ->]]].
    + rewrite enumeration_values. fields. rewrite Hres. fields. rewrite Hfz. cbn [st_base st_set_enum]. rewrite Hb. unfold on_top_element. fields.
      apply Hnext; [exact Hty|exact Hset|reflexivity| |]; [left; eexists; split; [reflexivity|exact Hb]|]. intros [Hc|Hc]; [discriminate|now destruct Hc].
    + rewrite enumeration_none. fields. apply Hnext; [exact Ht1|exact He1|reflexivity|now right|reflexivity].
  - rewrite tok_pattern. fields. rewrite run_tokens_app, texts_top by discriminate. fold H1. cbn [bind app].
    rewrite run_cons, tok_pattern_end. unfold end_pattern, base_to_attribute, base_to_element. fields.
    destruct Hs as [[s [-> Hb]]|[-> [-> ->]]].
    + rewrite Hres. fields. rewrite Hfz, Hb. unfold on_top_element. fields. apply Hnext; [exact Hty|exact Hset|reflexivity|now right|reflexivity].
    + fields. apply Hnext; [exact Ht1|exact He1|reflexivity|now right|reflexivity].
  - rewrite (proj1 (tok_facet local Hin l _)). fields. rewrite run_tokens_app, texts_top by exact Hlocal. fold H1. cbn [bind app].
    rewrite run_cons, (proj2 (tok_facet local Hin l _)).
    unfold end_facet, base_to_element. fields.
    destruct Hs as [[s [-> Hb]]|[-> [-> ->]]].
    + rewrite Hres. fields. rewrite Hfz, Hb. unfold on_top_element. fields. apply Hnext; [exact Hty|exact Hset|reflexivity|now right|reflexivity].
    + fields. apply Hnext; [exact Ht1|exact He1|reflexivity|now right|reflexivity].
Qed.

Lemma record_new : forall e l, ~ In (el_name e) (map el_name l) -> record e l = l +++ [e].
Proof.
  intros e. induction l as [|x l IH]; intros Hn; [reflexivity|]. cbn [record]. destruct (string_dec (el_name x) (el_name e)) as [He|].
  - exfalso. apply Hn. now left.
  - cbn [app]. f_equal. apply IH. intros Hi. apply Hn. now right.
Qed.

Lemma replace_last_app : forall {A} (l : list A) x y, replace_last y (l +++ [x]) = l +++ [y].
Proof. intros A. induction l as [|z l IH]; intros x y; [reflexivity|]. cbn [app]. rewrite <- (IH x y). destruct l; reflexivity. Qed.

Lemma element_in_facts : forall l plural tree e typed, element_in res many l plural tree = Some (e, typed) ->
  el_name e = name_in l /\ el_doc e = "" /\ el_optional e = false.
Proof.
  intros l plural tree e typed He. unfold element_in in He. destruct (element_plural many l); [|discriminate].
  now destruct (string_dec (type_in res l tree) ""); injection He as <- <-.
Qed.

Lemma inline_member_run : forall l docs i plural tree c e x T H ie cu ig iu ia si cs F el gr ch,
  element_in res many l plural tree = Some (e, false) -> inline_member res e docs i tree c = Some x ->
  hd false ch = plural -> tree_at F T H tree -> few si ->
  exists H' ie' si', 
  run_tokens gvt (TStart "element" l :: map TChar docs +++ inline_tokens i +++ [TEnd "element"])
    (mkP T H ie cu ig iu ia si (c :: cs) el [] gr [] ch) w =
  Ret (mkP T H' ie' "" ig iu ia si' (add_member x c :: cs) (length H :: el) [] gr [] ch) w /\
  tree_at (length H :: F) T H' tree /\ ie' <> "" /\ rest_of (only_values i) si'.
Proof.
  intros l docs [ls ds d] plural tree c e x T H ie cu ig iu ia si cs F el gr ch He Hx Hch Ht Hsi. subst plural. unfold inline_member in Hx.
  destruct (in_dec _ _ _) as [|Hnew]; [discriminate|].
  destruct (element_in_facts _ _ _ _ _ He) as [Hen [Hed Heo]].
  destruct d as [lr dr [|f fs]|]; [discriminate| |discriminate]. unfold inline_element in Hx. set (ffs := f :: fs) in *.
  destruct (last_of ["base"] lr) as [bv|] eqn:Hbase; [|discriminate].
  destruct (facets_ok ffs) eqn:Hfs; [|discriminate]. injection Hx as <-.
  rewrite run_cons, (element_run l T H ie cu ig iu ia si (c :: cs) el gr ch e false tree He (proj1 Ht)). cbv zeta. cbn [bind].
  rewrite run_tokens_app, texts_top by discriminate. rewrite heard_last, Hed. cbn [bind].
  set (k := length H). set (e1 := el_set_doc (latest docs "") e).
  cbn [inline_tokens app]. rewrite run_cons, tok_simple. unfold on_simple_type. fields.
  assert (Hs0 : exists s0, (match si with [] => [zero_simple] | s :: l0 => s :: l0 end) = [s0]).
  { destruct Hsi as [->|[s ->]]; eexists; reflexivity. }
  destruct Hs0 as [s0 Hs0].
  replace (match match si with [] => [zero_simple] | s :: l0 => s :: l0 end with
           | [] => [] | x :: r => st_set_name (name_attr ls (st_name x)) x :: r end) with [st_set_name (name_attr ls (st_name s0)) s0]
    by (now rewrite Hs0).
  rewrite <- !app_assoc, run_tokens_app, texts_top by discriminate. cbn [bind]. unfold k. rewrite heard_last. fold k.
  cbn [derivation_tokens app]. rewrite run_cons, tok_restriction. unfold on_restriction. fields.
  set (e2 := el_set_doc (latest ds (el_doc e1)) e1).
  assert (Hfz : forall e ie cu si co at_ gr ag ch, freeze (mkP T (H +++ [e]) ie cu ig iu ia si co (k :: el) at_ gr ag ch) = tree).
  { intros. apply (tree_push F T H e0 tree Ht). }
  rewrite Hfz. edestruct restriction_attrs_pure as [nm [_ ->]]. rewrite Hbase. fields.
  rewrite <- !app_assoc, run_tokens_app, texts_top by discriminate. cbn [bind]. unfold k. rewrite heard_last. fold k.
  set (e3 := el_set_doc (latest dr (el_doc e2)) e2). rewrite run_tokens_app.
  match goal with |- context [mkP T (H +++ [e3]) "restriction" "simpleType" ig iu ia ?sis _ _ _ _ _ _] =>
    edestruct (facets_element ffs Hfs) with (F := length H :: F) (T := T) (H := H +++ [e3]) (ie := "restriction") (cu := "simpleType") (si := sis) (base := base_in res lr tree)
      (i := k) (st := el) (tree := tree) as (H' & ie' & cu' & si' & t' & Hr & Ht' & Hie' & He' & Hst & Hty & Hsi') end;
    [apply tree_push; exact Ht|now left|discriminate|unfold k; rewrite deref_last; unfold e3, e2, e1; cbn [el_set_doc el_doc el_name el_type el_plural el_optional]; reflexivity
    |left; eexists; split; [reflexivity|reflexivity]|].
  destruct Hty as [-> ->]; [left; discriminate|]. rewrite Hr. clear Hr. cbn [bind app]. rewrite run_cons, tok_restriction_end.
  unfold end_restriction, base_to_attribute. fields. rewrite He'. cbn [ct_elements ct_set_elements].
  rewrite (record_new e) by exact Hnew. rewrite replace_last_app. rewrite run_cons, tok_simple_end. unfold end_simple_type. fields.
  change (String.eqb "simpleType" "") with false. cbn [andb]. fields.
  exists H', ie', si'. split; [|split; [exact Ht'|split; [exact Hie'|]]].
  2: { cbn [only_values]. fold ffs. destruct (forallb is_enumeration ffs) eqn:Hen'; cbn [rest_of]; [|apply Hsi'; now right].
       destruct Hst as [[s [-> _]]|[-> _]]; [right; now exists s|now left]. }
  assert (Hadd : forall sx, run_tokens gvt [TEnd "element"] (mkP T H' ie' "" ig iu ia sx
     (add_member (mkElement (doc_of (docs +++ inline_texts (Inline ls ds (Restricted lr dr ffs)))) (el_name e) (res (base_in res lr tree) tree) (el_plural e) false) c :: cs) (k :: el) [] gr [] ch) w =
     Ret (mkP T H' ie' "" ig iu ia sx
     (add_member (mkElement (doc_of (docs +++ inline_texts (Inline ls ds (Restricted lr dr ffs)))) (el_name e) (res (base_in res lr tree) tree) (el_plural e) false) c :: cs) (k :: el) [] gr [] ch) w).
  { intros sx. cbn [run_tokens]. rewrite tok_element_end. unfold end_element. fields. reflexivity. }
  specialize (Hadd si').
  assert (Hm : add_member (mkElement (doc_of (docs +++ inline_texts (Inline ls ds (Restricted lr dr ffs)))) (el_name e) (res (base_in res lr tree) tree) (el_plural e) false) c =
    mkComplex (ct_doc c) (ct_name c) (ct_base c)
      (ct_elements c +++ [mkElement (latest (flat_map facet_texts ffs) (latest dr (latest ds (latest docs "")))) (el_name e) (res (base_in res lr tree) tree) (el_plural e) (el_optional e)])
      (ct_attributes c) (ct_groups c) (ct_attrgroups c)).
  { unfold add_member. rewrite record_new by exact Hnew. unfold doc_of. cbn [inline_texts derivation_texts]. rewrite !latest_app, Heo. reflexivity. }
  transitivity (Ret (mkP T H' ie' "" ig iu ia si' (add_member (mkElement (doc_of (docs +++ inline_texts (Inline ls ds (Restricted lr dr ffs)))) (el_name e) (res (base_in res lr tree) tree) (el_plural e) false) c :: cs) (k :: el) [] gr [] ch) w);
    [|reflexivity]. rewrite Hm in Hadd |- *. destruct si'; exact Hadd.
Qed.

(** Who listens afterwards. *)
Definition onward (a b : listener) : Prop :=
  match a with ToElement => b = ToElement | ToLeft _ => exists x, b = ToLeft x | _ => b <> ToElement end.

Lemma onward_trans : forall a b c, onward a b -> onward b c -> onward a c.
Proof.
  intros [| | |x] b c; cbn [onward].
  - destruct b; cbn; try congruence. intros _ [z ->]. discriminate.
  - intros ->. easy.
  - destruct b; cbn; try congruence. intros _ [z ->]. discriminate.
  - intros [y ->]. easy.
Qed.
Lemma onward_refl : forall a, onward a a.
Proof. intros [| | |x]; cbn; try congruence. now exists x. Qed.
Lemma onward_tell : forall docs s, onward (i_to s) (i_to (tell docs s)).
Proof. intros. rewrite tell_to. apply onward_refl. Qed.
Lemma onward_lost : forall o s s', lost o s = Some s' -> onward (i_to s) (i_to s') /\ i_to s <> ToElement /\
  s' = mkInside (i_tree s) (i_type s) (ToLeft (mkLeft None o)) (i_doc s).
Proof.
  intros o s s' H. unfold lost in H.
  destruct (i_to s); try discriminate; injection H as <-; (split; [cbn; discriminate || (now eexists)|]); split; (discriminate || reflexivity).
Qed.
Lemma quiet_listener : forall s, match i_to s with ToElement | ToLeft _ => True | _ => False end \/ (i_to s = ToType \/ i_to s = ToNobody).
Proof. intros s. destruct (i_to s); tauto. Qed.

Lemma body_onward : forall b plural s s', body_in res many b plural s = Some s' -> onward (i_to s) (i_to s').
Proof.
  induction b as [|d b IH|a b IH|l docs b IH|l docs b IH|l docs b IH|l docs ct i IHi b IH|l docs i b IH|l i IHi b IH|l i IHi b IH|l i IHi b IH|f b IH];
    intros plural s s' Hb; cbn [body_in] in Hb.
  - injection Hb as <-. apply onward_refl.
  - apply IH in Hb. now rewrite tell_to in Hb.
  - destruct (i_to s) as [| | |y] eqn:Hto.
    + destruct (attribute_in res true a (i_tree s)) as [x|]; [|discriminate]. apply IH in Hb. cbn [i_to] in Hb. now destruct (has_inline a).
    + destruct (has_inline a); [discriminate|]. destruct (attribute_in res false a (i_tree s)) as [x|]; [|discriminate]. apply IH in Hb.
      cbn [with_type i_to] in Hb. now rewrite tell_to, Hto in Hb.
    + destruct (attribute_in res true a (i_tree s)) as [x|]; [|discriminate]. apply IH in Hb. cbn [i_to] in Hb. now destruct (has_inline a).
    + destruct (has_inline a); [discriminate|]. destruct (attribute_in res false a (i_tree s)) as [x|]; [|discriminate]. apply IH in Hb.
      cbn [with_type i_to] in Hb. now rewrite tell_to, Hto in Hb.
  - apply IH in Hb. now rewrite tell_to in Hb.
  - apply IH in Hb. now rewrite tell_to in Hb.
  - destruct (element_in res many l plural (i_tree s)) as [[e [|]]|]; try discriminate.
    + apply IH in Hb. now rewrite tell_to in Hb.
    + destruct (lost _ _) as [s1|] eqn:Hl; [|discriminate]. apply onward_lost in Hl as [Hl _]. apply IH in Hb. eapply onward_trans; [exact Hl|exact Hb].
  - destruct (element_in res many l plural (i_tree s)) as [[e [|]]|]; try discriminate.
    destruct (body_in res many i plural _) as [s1|] eqn:Hi; [|discriminate]. apply IHi in Hi. apply IH in Hb. cbn [i_to] in Hi, Hb.
    eapply onward_trans; [|exact Hb]. clear Hb. destruct (i_to s), (i_to s1); cbn in *; try congruence; try (destruct Hi as [y Hi]; congruence); try discriminate; now eexists.
  - destruct (element_in res many l plural (i_tree s)) as [[e [|]]|]; try discriminate.
    destruct (inline_member _ _ _ _ _ _) as [x|]; [|discriminate].
    destruct (lost _ _) as [s1|] eqn:Hl; [|discriminate]. apply onward_lost in Hl as [Hl _]. apply IH in Hb. eapply onward_trans; [exact Hl|exact Hb].
  - destruct (choice_in many l) as [m|]; [|discriminate]. destruct (body_in res many i (m || plural) s) as [s1|] eqn:Hi; [|discriminate].
    apply IHi in Hi. apply IH in Hb. eapply onward_trans; eassumption.
  - destruct (string_dec _ _); [discriminate|]. destruct (body_in res many i plural _) as [s1|] eqn:Hi; [|discriminate].
    apply IHi in Hi. apply IH in Hb. eapply onward_trans; eassumption.
  - destruct (body_in res many i plural s) as [s1|] eqn:Hi; [|destruct (i_to s); discriminate].
    assert (Hb' : body_in res many b plural s1 = Some s') by (destruct (i_to s), (i_to s1); congruence).
    apply IHi in Hi. apply IH in Hb'. eapply onward_trans; eassumption.
  - assert (Hb' : body_in res many b plural (tell (facet_texts f) s) = Some s') by (destruct (i_to s), (facet_ok f); congruence).
    apply IH in Hb'. now rewrite tell_to in Hb'.
Qed.

Lemma body_run : forall b plural s s', body_in res many b plural s = Some s' ->
  forall e0 T H ie cu ig iu ia si cs F el gr ch,
  hd false ch = plural -> cu <> "group" -> hears (i_to s) el si cu ie F T H (i_doc s) e0 -> tree_at F T H (i_tree s) ->
  exists T' H' ie' cu' el' si' F',
  run_tokens gvt (body_tokens b) (mkP T H ie cu ig iu ia si (i_type s :: cs) el [] gr [] ch) w =
  Ret (mkP T' H' ie' cu' ig iu ia si' (i_type s' :: cs) el' [] gr [] ch) w /\
  tree_at F' T' H' (i_tree s') /\ hears (i_to s') el' si' cu' ie' F' T' H' (i_doc s') e0 /\ cu' <> "group" /\ (ext T T' /\ incl F F') /\
  (i_to s = ToElement -> el' = el /\ si' = si).
Proof.
  assert (Hthen : forall s s1 (el el1 el2 : list nat) (si si1 si2 : list SimpleType), onward (i_to s) (i_to s1) ->
    (i_to s = ToElement -> el1 = el /\ si1 = si) -> (i_to s1 = ToElement -> el2 = el1 /\ si2 = si1) ->
    i_to s = ToElement -> el2 = el /\ si2 = si).
  { intros s s1 el el1 el2 si si1 si2 Ho H1 H2 Hs. rewrite Hs in Ho. cbn in Ho. destruct H2 as [-> ->]; [exact Ho|]. now apply H1. }
  assert (Hbelow : forall F T H tree, tree_at F T H tree -> forall k, In k F -> k < length H) by (intros F T H tree [_ [_ Ht]]; now apply Forall_forall).
  assert (Hfew : forall s el si cu ie F T H ed e0, hears (i_to s) el si cu ie F T H ed e0 -> few si).
  { intros s el si cu ie F T H ed e0 Hh. destruct (i_to s); [left; apply Hh|apply Hh|left; apply Hh|eapply rest_few; apply Hh]. }
  assert (Hboth : forall T T1 T' (F F1 F' : list nat), ext T T1 /\ incl F F1 -> ext T1 T' /\ incl F1 F' -> ext T T' /\ incl F F').
  { intros T T1 T' F F1 F' [X1 Y1] [X Y]. split; [eapply ext_trans; eassumption|eapply incl_tran; eassumption]. }
  induction b as [|d b IH|a b IH|l docs b IH|l docs b IH|l docs b IH|l docs ct i IHi b IH|l docs i b IH|l i IHi b IH|l i IHi b IH|l i IHi b IH|f b IH];
    intros plural s s' Hb e0 T H ie cu ig iu ia si cs F el gr ch Hch Hcu Hh Ht; cbn [body_in] in Hb; cbn [body_tokens].
  - injection Hb as <-. exists T, H, ie, cu, el, si, F. repeat (split; [assumption || reflexivity|]).
    split; [split; [apply ext_refl|apply incl_refl]|now split].
  - destruct (tell_run [d] s e0 T H ie cu ig iu ia si cs F el gr ch Hh Ht) as [H1 [Hr [Hh1 Ht1]]].
    change (TChar d :: body_tokens b) with (map TChar [d] +++ body_tokens b). rewrite run_tokens_app, Hr by reflexivity. cbn [bind].
    rewrite <- (tell_to [d] s). eapply IH; eassumption.
  - rewrite run_tokens_app.
    destruct (quiet_listener s) as [Hto|Hto].
    + assert (Hel : exists k st, el = k :: st) by (destruct (i_to s); try contradiction; destruct Hh as [[k [st [-> _]]] _]; now exists k, st).
      assert (Hb' : has_inline a = false /\ exists x, attribute_in res false a (i_tree s) = Some x /\
        body_in res many b plural (with_type (add_attribute x) (tell (attribute_texts a) s)) = Some s').
      { destruct (i_to s); try contradiction; (destruct (has_inline a); [discriminate|]);
          (destruct (attribute_in res false a (i_tree s)) as [v|]; [|discriminate]); (split; [reflexivity|]); now exists v. }
      clear Hb. destruct Hb' as [Hin [x [Hx Hb]]]. destruct Hel as [k [st ->]].
      rewrite (attribute_quiet a x (i_tree s) T H ie cu ig iu ia si (i_type s :: cs) k st gr ch Hx Hin (proj1 Ht)).
      unfold end_attribute. fields.
      assert (Ho : i_to (with_type (add_attribute x) (tell (attribute_texts a) s)) = i_to s) by (cbn [with_type i_to]; apply tell_to).
      specialize (IH plural _ s' Hb e0 T (heard k (attribute_texts a) H) "attribute" cu ig iu ia si cs F (k :: st) gr ch Hch Hcu).
      rewrite Ho in IH. unfold tell in IH. destruct (i_to s) as [| | |y] eqn:Hs; try contradiction; cbn [with_type i_type i_tree i_to i_doc] in IH.
      * destruct Hh as [[k' [st' [Hk [HkF Hd]]]] [Hf _]]. injection Hk as <- <-. apply IH; [|now apply tree_heard]. split; [|now split].
        exists k, st. split; [reflexivity|]. split; [exact HkF|]. rewrite heard_self, Hd; [reflexivity|]. eapply Hbelow; eassumption.
      * destruct Hh as [[k' [st' [Hk HkF]]] [Hf _]]. injection Hk as <- <-. apply IH; [|now apply tree_redoc]. split; [|now split]. now exists k, st.
    + assert (Hel : el = [] /\ si = []) by (destruct Hto as [Hto|Hto]; rewrite Hto in Hh; split; apply Hh). destruct Hel as [-> ->].
      assert (Hb' : exists x, attribute_in res true a (i_tree s) = Some x /\
        body_in res many b plural (mkInside (i_tree s) (add_attribute x (i_type s)) (if has_inline a then ToNobody else i_to s) (i_doc s)) = Some s').
      { destruct Hto as [Hto|Hto]; rewrite Hto in Hb |- *; (destruct (attribute_in res true a (i_tree s)) as [x|]; [|discriminate]; exists x; split; [reflexivity|exact Hb]). }
      clear Hb. destruct Hb' as [x [Hx Hb]].
      edestruct (attribute_run true a x (i_tree s) "" ia (fun x => x) (fun _ => [])) as [ie1 [cu1 [_ [Hcu1 Hr]]]];
        [exact Hx|now left|reflexivity|exact (proj1 Ht)|reflexivity|].
      cbv beta in Hr. rewrite Hr. clear Hr. unfold end_attribute. fields.
      edestruct (IH plural _ s' Hb e0 T H ie1 cu1 ig iu ia [] cs F [] gr ch Hch) as (T' & H' & ie' & cu' & el' & si' & F' & A & B & C & D & X & _); [| |exact Ht|].
      * destruct (has_inline a); [destruct Hcu1; subst; discriminate|now subst].
      * cbn [i_to]. destruct (has_inline a); [split; [reflexivity|]; split; [reflexivity|]; destruct Hcu1; subst; discriminate|]. subst cu1.
        destruct Hto as [Hto|Hto]; rewrite Hto in Hh |- *; exact Hh.
      * exists T', H', ie', cu', el', si', F'. repeat (split; [assumption|]). intros Hc. destruct Hto; congruence.
  - rewrite run_cons, tok_ag. unfold on_attribute_group. fields.
    replace (freeze _) with (i_tree s) by (symmetry; exact (proj1 Ht)). rewrite attrgroup_attrs_pure. cbn [bind]. fields.
    rewrite run_tokens_app.
    edestruct (tell_run docs (with_type (add_attrgroup (attrgroup_in res l "" [] (i_tree s))) s) e0 T H "attributeGroup") as [H1 [Hr [Hh1 Ht1]]];
      [now eapply hears_same; [exact Hh|]|exact Ht|].
    rewrite Hr by reflexivity. clear Hr. cbn [bind]. rewrite run_cons, tok_ag_end.
    unfold end_attribute_group. fields.
    assert (Ho : i_to s = i_to (tell docs (with_type (add_attrgroup (attrgroup_in res l "" [] (i_tree s))) s))) by (now rewrite tell_to). rewrite Ho. clear Ho.
    eapply IH; [exact Hb|exact Hch|exact Hcu|exact Hh1|exact Ht1].
  - rewrite run_cons, tok_group. unfold on_group. fields.
    replace (freeze _) with (i_tree s) by (symmetry; exact (proj1 Ht)). rewrite group_attrs_pure. cbn [bind]. fields.
    rewrite record_group_eq, run_tokens_app.
    edestruct (tell_run docs (with_type (add_group (group_in res l plural (i_tree s))) s) e0 T H "group") as [H1 [Hr [Hh1 Ht1]]];
      [now eapply hears_same; [exact Hh|]|exact Ht|].
    unfold gr_set_plural at 1. cbn [gr_doc gr_name gr_elements gr_groups gr_plural gr_ref]. rewrite orb_false_r.
    replace (choice_plural _) with plural by (now destruct ch).
    rewrite Hr by reflexivity. clear Hr. cbn [bind]. rewrite run_cons, tok_group_end.
    unfold end_group. fields. destruct (String.eqb_spec "group" cu) as [Hc|_]; [congruence|]. cbn [andb]. fields.
    destruct (String.eqb_spec "group" cu) as [Hc|_]; [congruence|]. fields.
    assert (Ho : i_to s = i_to (tell docs (with_type (add_group (group_in res l plural (i_tree s))) s))) by (now rewrite tell_to). rewrite Ho. clear Ho.
    eapply IH; [exact Hb|exact Hch|exact Hcu|exact Hh1|exact Ht1].
  - destruct (element_in res many l plural (i_tree s)) as [[e [|]]|] eqn:He; try discriminate; subst plural.
    + rewrite run_cons, (element_run l T H ie cu ig iu ia si (i_type s :: cs) el gr ch e true (i_tree s) He (proj1 Ht)). cbv zeta. cbn [bind].
      rewrite run_tokens_app.
      edestruct (tell_run docs (with_type (add_member e) s) e0 T (H +++ [e]) "element") as [H1 [Hr [Hh1 Ht1]]].
      { eapply hears_grow; [exact Hh|discriminate|exact Ht|apply incl_refl|apply ext_refl|]. intros k Hk. now apply deref_app. }
      { apply tree_app. exact Ht. }
      rewrite Hr by reflexivity. clear Hr. cbn [bind]. rewrite run_cons, tok_element_end. unfold end_element. fields.
      assert (Ho : i_to s = i_to (tell docs (with_type (add_member e) s))) by (now rewrite tell_to). rewrite Ho. clear Ho.
      destruct el; (eapply IH; [exact Hb|reflexivity|exact Hcu|exact Hh1|exact Ht1]).
    + destruct (lost _ _) as [s1|] eqn:Hl; [|discriminate]. apply onward_lost in Hl as [_ [Hne ->]]. cbn [with_type i_to i_tree i_type i_doc] in Hb, Hne.
      rewrite run_cons, (element_run l T H ie cu ig iu ia si (i_type s :: cs) el gr ch e false (i_tree s) He (proj1 Ht)). cbv zeta. cbn [bind].
      rewrite run_tokens_app, texts_top by discriminate. cbn [bind]. rewrite run_cons, tok_element_end. unfold end_element. fields.
      edestruct (IH (hd false ch) _ s' Hb e0 T (heard (length H) docs (H +++ [e])) "element" cu ig iu ia si cs (length H :: F) (length H :: el) gr ch eq_refl Hcu)
        as (T' & H' & ie' & cu' & el' & si' & F' & A & B & C & D & X & _).
      * split; [|split; [|discriminate]].
        -- exists (length H), el. split; [reflexivity|now left].
        -- cbn [open]. destruct (i_to s) as [| | |y]; cbn [opened rest_of]; [apply Hh|congruence|apply Hh|apply Hh].
      * apply tree_heard; [|now left]. apply tree_push, Ht.
      * exists T', H', ie', cu', el', si', F'. repeat (split; [assumption|]). split; [|intros Hc; congruence].
        destruct X as [X Y]. split; [exact X|]. intros k Hk. apply Y. now right.
  - destruct (element_in res many l plural (i_tree s)) as [[e [|]]|] eqn:He; try discriminate. subst plural.
    destruct (body_in res many i (hd false ch) _) as [s1|] eqn:Hi; [|discriminate].
    destruct (element_in_facts _ _ _ _ _ He) as [Hen [Hed _]].
    rewrite run_cons, (element_run l T H ie cu ig iu ia si (i_type s :: cs) el gr ch e false (i_tree s) He (proj1 Ht)). cbv zeta. cbn [bind].
    rewrite run_tokens_app, texts_top by discriminate. rewrite heard_last.
    cbn [bind]. set (e1 := el_set_doc (latest docs (el_doc e)) e).
    assert (He1 : el_name e1 = name_in l) by exact Hen.
    rewrite run_cons, tok_complex. unfold on_complex_type. fields. rewrite deref_last, He1. rewrite run_tokens_app.
    pose proof (body_onward _ _ _ _ Hi) as Hoi. cbn [i_to] in Hoi.
    edestruct (IHi (hd false ch) _ s1 Hi e0 T (H +++ [e1]) "complexType") as (T1 & H1 & ie1 & cu1 & el1 & si1 & F1 & Hr & Ht1 & Hh1 & Hcu1 & HX1 & Hel1);
      [reflexivity|exact Hcu| | |].
    { eapply hears_grow; [exact Hh|discriminate|exact Ht|apply incl_refl|apply ext_refl|]. intros k Hk. now apply deref_app. }
    { apply tree_app. exact Ht. }
    cbn [i_type] in Hr. rewrite Hr. clear Hr.
    cbn [bind]. rewrite run_cons, tok_complex_end. unfold end_complex_type. fields. rewrite run_cons, tok_element_end. unfold end_element. fields.
    set (to1 := match i_to s1 with ToLeft x => ToLeft x | _ => no_longer (i_to s) end) in *.
    assert (Hh' : hears to1 el1 si1 "" ie1 F1 (T1 +++ [PN (PComplex (i_type s1))]) H1 (i_doc s1) e0).
    { assert (Hh2 : hears to1 el1 si1 "" ie1 F1 T1 H1 (i_doc s1) e0).
      { unfold to1. destruct (i_to s1) as [| | |y1] eqn:Hs1; destruct (i_to s) as [| | |y0] eqn:Hs0; cbn [onward] in Hoi;
          try congruence; try (destruct Hoi; discriminate); cbn [no_longer hears] in *; intuition (try discriminate). }
      destruct to1; try exact Hh2. destruct Hh2 as [[k [st [-> Hk]]] Hh2]. split; [|exact Hh2]. exists k, st. split; [reflexivity|].
      eapply left_ext; [exact Hk|apply incl_refl|apply ext_one]. }
    assert (Ho1 : i_to s = ToElement -> to1 = ToElement) by (intros Hs; unfold to1; rewrite Hs in Hoi |- *; cbn [onward] in Hoi; now rewrite Hoi).
    pose proof (body_onward _ _ _ _ Hb) as Hob. cbn [i_to] in Hob. 
    specialize (IH (hd false ch) _ s' Hb e0 (T1 +++ [PN (PComplex (i_type s1))]) H1 ie1 "" ig iu ia si1 cs F1 el1 gr ch eq_refl).
    cbn [i_type i_to i_doc i_tree] in IH.
    destruct IH as (T' & H' & ie' & cu' & el' & si' & F' & A & B & C & D & X & G); [discriminate|exact Hh'|now apply tree_add|].
    exists T', H', ie', cu', el', si', F'. split; [destruct el1; exact A|]. repeat (split; [assumption|]). split.
    + destruct HX1 as [X1 Y1], X as [X Y]. split; [|eapply incl_tran; eassumption]. eapply ext_trans; [exact X1|]. eapply ext_trans; [apply ext_one|exact X].
    + intros Hs. destruct G as [-> ->]; [now apply Ho1|]. now apply Hel1.
  - destruct (element_in res many l plural (i_tree s)) as [[e [|]]|] eqn:He; try discriminate.
    destruct (inline_member _ _ _ _ _ _) as [x|] eqn:Hx; [|discriminate].
    destruct (lost _ _) as [s1|] eqn:Hl; [|discriminate]. apply onward_lost in Hl as [_ [Hne ->]]. cbn [with_type i_to i_tree i_type i_doc] in Hb, Hne.
    assert (Hf : few si) by (eapply Hfew; exact Hh).
    edestruct (inline_member_run l docs i plural (i_tree s) (i_type s) e x T H ie cu ig iu ia si cs F el gr ch He Hx Hch Ht Hf)
      as (H1 & ie1 & si1 & Hr & Ht1 & Hie1 & Hf1).
    replace (TStart "element" l :: map TChar docs +++ inline_tokens i +++ TEnd "element" :: body_tokens b) with
      ((TStart "element" l :: map TChar docs +++ inline_tokens i +++ [TEnd "element"]) +++ body_tokens b)
      by (cbn [app]; now rewrite <- !app_assoc).
    rewrite run_tokens_app, Hr. cbn [bind].
    edestruct (IH plural _ s' Hb e0 T H1 ie1 "" ig iu ia si1 cs (length H :: F) (length H :: el) gr ch Hch)
      as (T' & H' & ie' & cu' & el' & si' & F' & A & B & C & D & X & _); [discriminate| |exact Ht1|].
    { split; [|now split]. exists (length H), el. split; [reflexivity|now left]. }
    exists T', H', ie', cu', el', si', F'. repeat (split; [assumption|]). split; [|intros Hc; congruence].
    destruct X as [X Y]. split; [exact X|]. intros k Hk. apply Y. now right.
  - destruct (choice_in many l) as [m|] eqn:Hm; [|discriminate].
    destruct (body_in res many i (m || plural) s) as [s1|] eqn:Hi; [|discriminate]. subst plural.
    rewrite run_cons, tok_choice. unfold on_choice. rewrite (choice_attrs_pure l false m Hm). fields.
    rewrite run_tokens_app.
    replace (choice_plural _) with (hd false ch) by (now destruct ch).
    edestruct (IHi (m || hd false ch) s s1 Hi e0 T H "choice" cu ig iu ia si cs F el gr ((m || hd false ch) :: ch))
      as (T1 & H1 & ie1 & cu1 & el1 & si1 & F1 & Hr1 & Ht1 & Hh1 & Hcu1 & HX1 & Hel1);
      [reflexivity|exact Hcu|eapply hears_same; [exact Hh|discriminate]|exact Ht|].
    rewrite Hr1. cbn [bind]. rewrite run_cons, tok_choice_end. unfold end_choice. fields.
    edestruct (IH (hd false ch) s1 s' Hb e0) as (T' & H' & ie' & cu' & el' & si' & F' & A & B & C & D & X & G); [|exact Hcu1|exact Hh1|exact Ht1|]; [reflexivity|].
    exists T', H', ie', cu', el', si', F'. split; [exact A|]. repeat (split; [assumption|]). split; [now apply (Hboth T T1 T' F F1 F')|]. eapply Hthen; [eapply body_onward; exact Hi|exact Hel1|exact G].
  - destruct (string_dec (ct_name (i_type s)) "") as [|Hn]; [discriminate|].
    match type of Hb with match ?x with _ => _ end = _ => destruct x as [s1|] eqn:Hi; [|discriminate] end. subst plural.
    rewrite run_cons, tok_extension. unfold on_extension. fields.
    replace (freeze _) with (i_tree s) by (symmetry; exact (proj1 Ht)). rewrite extension_attrs_pure by exact Hn. fields. rewrite run_tokens_app.
    edestruct (IHi (hd false ch) _ s1 Hi e0 T H "extension" cu ig iu ia si cs F el gr ch)
      as (T1 & H1 & ie1 & cu1 & el1 & si1 & F1 & Hr1 & Ht1 & Hh1 & Hcu1 & HX1 & Hel1);
      [reflexivity|exact Hcu|eapply hears_same; [exact Hh|discriminate]|exact Ht|].
    unfold with_type in Hr1 at 1. unfold based_on in Hr1 at 1. cbn [i_type] in Hr1. rewrite Hr1.
    cbn [bind]. rewrite run_cons, tok_extension_end. unfold end_extension, base_to_attribute. fields.
    edestruct (IH (hd false ch) s1 s' Hb e0) as (T' & H' & ie' & cu' & el' & si' & F' & A & B & C & D & X & G); [|exact Hcu1|exact Hh1|exact Ht1|]; [reflexivity|].
    exists T', H', ie', cu', el', si', F'. split; [exact A|]. repeat (split; [assumption|]). split; [now apply (Hboth T T1 T' F F1 F')|].
    pose proof (body_onward _ _ _ _ Hi) as Hoi. cbn [with_type i_to] in Hoi, Hel1. eapply Hthen; [exact Hoi|exact Hel1|exact G].
  - assert (Hto : i_to s = ToType \/ i_to s = ToNobody) by (destruct (i_to s); (discriminate || tauto)).
    assert (Hel : el = [] /\ si = []) by (destruct Hto as [Hto|Hto]; rewrite Hto in Hh; split; apply Hh). destruct Hel as [-> ->].
    destruct (body_in res many i plural s) as [s1|] eqn:Hi; [|destruct (i_to s); discriminate].
    assert (Hb' : body_in res many b plural s1 = Some s' /\ forall x, i_to s1 <> ToLeft x)
      by (destruct Hto as [Hto|Hto]; rewrite Hto in Hb; destruct (i_to s1); (discriminate || now split)).
    clear Hb. destruct Hb' as [Hb Hs1]. subst plural.
    rewrite run_cons, tok_restriction. unfold on_restriction. fields. rewrite restriction_attrs_none. cbn [bind]. rewrite run_tokens_app.
    edestruct (IHi (hd false ch) s s1 Hi e0 T H "restriction" cu ig iu ia [] cs F [] gr ch)
      as (T1 & H1 & ie1 & cu1 & el1 & si1 & F1 & Hr1 & Ht1 & Hh1 & Hcu1 & HX1 & Hel1);
      [reflexivity|exact Hcu|eapply hears_same; [exact Hh|discriminate]|exact Ht|].
    assert (Hel : el1 = [] /\ si1 = []).
    { pose proof (body_onward _ _ _ _ Hi) as Hoi. destruct (i_to s1) as [| | |y]; [split; apply Hh1|destruct Hto as [Hto|Hto]; rewrite Hto in Hoi; now destruct Hoi|split; apply Hh1|now destruct (Hs1 y)]. }
    destruct Hel as [-> ->].
    rewrite Hr1. cbn [bind]. rewrite run_cons, tok_restriction_end. unfold end_restriction, base_to_attribute. fields.
    edestruct (IH (hd false ch) s1 s' Hb e0) as (T' & H' & ie' & cu' & el' & si' & F' & A & B & C & D & X & G); [|exact Hcu1|exact Hh1|exact Ht1|]; [reflexivity|].
    exists T', H', ie', cu', el', si', F'. split; [exact A|]. repeat (split; [assumption|]). split; [now apply (Hboth T T1 T' F F1 F')|]. intros Hc. destruct Hto; congruence.
  - assert (Hto : i_to s = ToType \/ i_to s = ToNobody) by (destruct (i_to s); (discriminate || tauto)).
    assert (Hel : el = [] /\ si = []) by (destruct Hto as [Hto|Hto]; rewrite Hto in Hh; split; apply Hh). destruct Hel as [-> ->].
    assert (Hb' : facet_ok f = true /\ body_in res many b plural (tell (facet_texts f) s) = Some s')
      by (destruct Hto as [Hto|Hto]; rewrite Hto in Hb; destruct (facet_ok f); (discriminate || now split)).
    clear Hb. destruct Hb' as [Hf Hb]. rewrite run_tokens_app.
    destruct (facet_none f Hf s e0 T H ie cu ig iu ia cs F [] gr ch Hh Ht) as [ie1 [H1 [Hie1 [-> [Hh1 Ht1]]]]]. cbn [bind].
    rewrite <- (tell_to (facet_texts f) s).
    eapply IH; [exact Hb|exact Hch|exact Hcu|exact Hh1|exact Ht1].
Qed.

(** * The inside of a group *)

Lemma texts_group : forall docs T H ie ig iu ia gr ch,
  run_tokens gvt (map TChar docs) (mkP T H ie "group" ig iu ia [] [] [] [] gr [] ch) w =
  Ret (mkP T H ie "group" ig iu ia [] [] [] [] gr [] ch) w.
Proof.
  intros docs T H ie ig iu ia gr ch. apply texts_lost. intros d. unfold on_char_data.
  destruct (String.eqb (trim_space d) ""); [reflexivity|]. fields. now rewrite !andb_false_r.
Qed.

Lemma part_run : forall p plural tree g g', part_in res many p plural tree g = Some g' ->
  forall n T H ie iu ia ch, hd false ch = plural -> tree_at n T H tree -> exists H' ie',
  run_tokens gvt (part_tokens p) (mkP T H ie "group" 1 iu ia [] [] [] [] [g] [] ch) w =
  Ret (mkP T (H +++ H') ie' "group" 1 iu ia [] [] [] [] [g'] [] ch) w.
Proof.
  induction p as [|d p IH|l docs p IH|l docs p IH|l i IHi p IH]; intros plural tree g g' Hp n T H ie iu ia ch Hch Ht; cbn [part_in] in Hp;
    cbn [part_tokens].
  - injection Hp as <-. exists [], ie. now rewrite app_nil_r.
  - change (TChar d :: part_tokens p) with (map TChar [d] +++ part_tokens p). rewrite run_tokens_app, texts_group. cbn [bind].
    eapply IH; eassumption.
  - destruct (element_in res many l plural tree) as [[e [|]]|] eqn:He; try discriminate. subst plural.
    rewrite run_cons, (element_run l T H ie "group" 1 iu ia [] [] [] [g] ch e true tree He (proj1 Ht)). cbv zeta.
    change (0 <? 1)%Z with true. fields. rewrite run_tokens_app, texts_group. cbn [bind]. rewrite run_cons, tok_element_end. unfold end_element. fields.
    edestruct IH as [H' [ie' Hr]]; [exact Hp|reflexivity|apply tree_app; exact Ht|].
    exists ([e] +++ H'), ie'. rewrite app_assoc. exact Hr.
  - rewrite run_cons, tok_group. unfold on_group. fields.
    replace (freeze _) with tree by (symmetry; exact (proj1 Ht)). rewrite group_attrs_pure. cbn [bind]. fields.
    change (1 =? 0)%Z with false. change (0 <? 1)%Z with true. change (1 + 1)%Z with 2%Z. fields.
    rewrite run_tokens_app, texts_group. cbn [bind]. rewrite run_cons, tok_group_end.
    unfold end_group. fields. change (String.eqb "group" "group") with true. change (2 =? 1)%Z with false. cbn [andb]. fields.
    change (String.eqb "group" "group") with true. change (2 - 1)%Z with 1%Z. fields.
    eapply IH; [|exact Hch|exact Ht]. rewrite <- Hp. unfold group_in, name_in, ref_in, gr_set_groups.
    unfold gr_set_plural. cbn [gr_doc gr_name gr_elements gr_groups gr_plural gr_ref]. rewrite orb_false_r.
    replace (choice_plural _) with plural by (now destruct ch). reflexivity.
  - destruct (choice_in many l) as [m|] eqn:Hm; [|discriminate].
    destruct (part_in res many i (m || plural) tree g) as [g1|] eqn:Hi; [|discriminate]. subst plural.
    rewrite run_cons, tok_choice. unfold on_choice. rewrite (choice_attrs_pure l false m Hm). fields.
    rewrite run_tokens_app.
    edestruct (IHi (m || hd false ch)) with (ch := (m || hd false ch) :: ch) as [H1 [ie1 Hr1]]; [exact Hi|reflexivity|exact Ht|].
    replace (choice_plural _) with (hd false ch) by (now destruct ch).
    rewrite Hr1. cbn [bind]. rewrite run_cons, tok_choice_end. unfold end_choice. fields.
    edestruct IH as [H' [ie' Hr]]; [exact Hp|reflexivity|apply tree_app; exact Ht|].
    exists (H1 +++ H'), ie'. rewrite app_assoc. exact Hr.
Qed.

(** * The inside of a simple type *)

Lemma derive_doc : forall d tree x s, derive res d tree (st_set_doc x s) = option_map (st_set_doc x) (derive res d tree s).
Proof. intros [l docs fs|l docs] tree x s; cbn [derive]; [now destruct (facets_ok fs)|reflexivity]. Qed.

Lemma members_doc : forall ms tree x s, members_in res ms tree (st_set_doc x s) = option_map (st_set_doc x) (members_in res ms tree s).
Proof.
  induction ms as [|[l docs d] ms IH]; intros tree x s; cbn [members_in]; [reflexivity|]. rewrite derive_doc.
  destruct (last_of ["name"] l); [reflexivity|]. destruct (derive res d tree s) as [v|]; [|reflexivity]. cbn [option_map]. apply IH.
Qed.

Lemma simple_doc : forall s name x tree, simple_in res name x s tree = option_map (st_set_doc x) (simple_in res name "" s tree).
Proof.
  intros [d|l docs ms] name x tree; cbn [simple_in].
  - exact (derive_doc d tree x (mkSimple "" name "" false false [] [])).
  - set (m := fold_left _ _ _). exact (members_doc ms tree x (mkSimple "" name "" false true m [])).
Qed.

Lemma derive_run : forall d tree s v, derive res d tree s = Some v -> st_name s <> "" ->
  forall n T H ie iu, tree_at n T H tree -> exists ie',
  run_tokens gvt (derivation_tokens d) (mkP T H ie "simpleType" 0 iu false [s] [] [] [] [] [] []) w =
  Ret (mkP T H ie' "simpleType" 0 iu false [st_heard (derivation_texts d) v] [] [] [] [] [] []) w /\
  st_name v = st_name s /\ st_doc v = st_doc s.
Proof.
  intros [l docs fs|l docs] tree s v Hd Hname n T H ie iu Ht; cbn [derive] in Hd; cbn [derivation_tokens derivation_texts].
  - destruct (facets_ok fs) eqn:Hfs; [|discriminate]. injection Hd as <-. rewrite run_cons, tok_restriction. unfold on_restriction. fields.
    replace (freeze _) with tree by (symmetry; exact (proj1 Ht)).
    edestruct restriction_attrs_pure as [nm [Hn ->]]. specialize (Hn Hname). subst nm. fields.
    rewrite run_tokens_app, texts_simple. cbn [bind]. rewrite run_tokens_app.
    edestruct (facets_top fs Hfs) as [ie' ->]. cbn [bind]. rewrite run_cons, tok_restriction_end.
    unfold end_restriction, base_to_attribute. fields. exists ie'. split; [|now split]. cbn [run_tokens].
    unfold st_heard, st_set_doc, st_set_enum. cbn [st_doc st_name st_base st_list st_union st_members st_enum]. now rewrite latest_app.
  - injection Hd as <-. rewrite run_cons, tok_list. unfold on_list. fields.
    replace (freeze _) with tree by (symmetry; exact (proj1 Ht)).
    rewrite list_attrs_pure. fields. rewrite run_tokens_app, texts_simple. cbn [bind]. rewrite run_cons, tok_list_end.
    exists "list". split; [|now split]. cbn [bind run_tokens]. unfold st_heard, st_set_doc, st_set_list, item_in.
    cbn [st_doc st_name st_base st_list st_union st_members st_enum]. now destruct (last_of ["itemType"] l).
Qed.

Lemma heard_set : forall docs x v, st_heard docs (st_set_doc x v) = st_set_doc (latest docs x) v.
Proof. reflexivity. Qed.

(** Members of a union: nothing is recorded at the end of an inline type. *)
Lemma members_run : forall ms tree s v, members_in res ms tree s = Some v -> st_name s <> "" ->
  forall n T H ie x, tree_at n T H tree -> exists ie',
  run_tokens gvt (flat_map inline_tokens ms) (mkP T H ie "simpleType" 0 true false [st_set_doc x s] [] [] [] [] [] []) w =
  Ret (mkP T H ie' "simpleType" 0 true false [st_set_doc (latest (flat_map inline_texts ms) x) v] [] [] [] [] [] []) w /\
  st_name v = st_name s.
Proof.
  induction ms as [|[l docs d] ms IH]; intros tree s v Hm Hname n T H ie x Ht; cbn [members_in] in Hm.
  { injection Hm as <-. exists ie. now split. }
  destruct (last_of ["name"] l) as [|] eqn:Hl; [discriminate|]. destruct (derive res d tree s) as [v1|] eqn:Hd; [|discriminate].
  cbn [flat_map inline_tokens inline_texts app]. rewrite run_cons, tok_simple. unfold on_simple_type. fields.
  rewrite name_attr_last, Hl. replace (st_set_name _ _) with (st_set_doc x s) by now destruct s.
  rewrite <- !app_assoc, run_tokens_app, texts_simple, heard_set. cbn [bind]. rewrite run_tokens_app.
  pose proof (derive_doc d tree (latest docs x) s) as Hd1. rewrite Hd in Hd1. cbn [option_map] in Hd1.
  edestruct (derive_run d tree _ _ Hd1) as [ie1 [Hr [Hn1 _]]]; [exact Hname|exact Ht|]. rewrite Hr. clear Hr. cbn [bind app].
  rewrite heard_set. rewrite run_cons, tok_simple_end. unfold end_simple_type. fields.
  change (String.eqb "simpleType" "simpleType") with true. cbn [andb length Nat.eqb negb]. fields. rewrite andb_false_r.
  edestruct (IH tree v1 v Hm) as [ie' [-> Hn]]; [cbn in Hn1; congruence|exact Ht|]. exists ie'. rewrite !latest_app. split; [reflexivity|].
  cbn in Hn1. congruence.
Qed.

Lemma simple_run : forall s name tree v, simple_in res name "" s tree = Some v -> name <> "" ->
  forall n T H ie x, tree_at n T H tree -> exists ie',
  run_tokens gvt (simple_tokens s) (mkP T H ie "simpleType" 0 false false [mkSimple x name "" false false [] []] [] [] [] [] [] []) w =
  Ret (mkP T H ie' "simpleType" 0 false false [st_set_doc (latest (simple_texts s) x) v] [] [] [] [] [] []) w.
Proof.
  intros [d|l docs ms] name tree v Hs Hname n T H ie x Ht; cbn [simple_in] in Hs; cbn [simple_tokens simple_texts].
  - pose proof (derive_doc d tree x (mkSimple "" name "" false false [] [])) as Hd. rewrite Hs in Hd. cbn [option_map] in Hd.
    edestruct (derive_run d tree _ _ Hd) as [ie1 [Hr _]]; [exact Hname|exact Ht|]. exists ie1. exact Hr.
  - rewrite run_cons, tok_union. unfold on_union. fields.
    replace (freeze _) with tree by (symmetry; exact (proj1 Ht)).
    rewrite union_attrs_pure. fields. cbn [st_doc st_name st_base st_list st_union st_members st_enum st_set_members st_set_union].
    set (m := fold_left _ _ _) in *. rewrite run_tokens_app, texts_simple. cbn [bind]. rewrite run_tokens_app.
    change (mkSimple x name "" false true m []) with (st_set_doc x (mkSimple "" name "" false true m [])). rewrite heard_set.
    edestruct (members_run ms tree _ v Hs) as [ie1 [Hr _]]; [exact Hname|exact Ht|]. rewrite Hr. cbn [bind].
    rewrite run_cons, tok_union_end. unfold end_union. fields. exists ie1. rewrite latest_app. reflexivity.
Qed.

(** Inside an attribute group all texts go to the group. *)
Lemma attribute_bare : forall a v tree x g T H ie cu si el,
  attribute_in res false a tree = Some v -> has_inline a = false -> map (freeze_node H) T = tree ->
  run_tokens gvt (attribute_tokens a) (mkP T H ie cu 0 false true si [] el [] [] [ag_set_doc x g] []) w =
  end_attribute (mkP T H "attribute" cu 0 false true si [] el [v] [] [ag_set_doc (latest (attribute_texts a) x) g] []) w.
Proof.
  intros [l docs [i|]] v tree x g T H ie cu si el Hv Hin Ht; [discriminate|]. clear Hin.
  cbn [attribute_in] in Hv. injection Hv as <-. cbn [attribute_tokens attribute_texts]. rewrite app_nil_r. cbn [app].
  rewrite run_cons, tok_attribute. unfold on_attribute. fields.
  replace (freeze _) with tree by (symmetry; exact Ht). rewrite attribute_attrs_pure.
  cbn [at_name at_doc at_type at_plural at_optional bind andb]. fields.
  set (opt := negb (existsb _ _)). fold (name_in l). fold (type_in res l tree). rewrite run_tokens_app.
  set (v := mkAttribute _ _ _ _ _).
  rewrite (texts (fun x => mkP T H "attribute" cu 0 false true si [] el [v] [] [ag_set_doc x g] [])).
  2: { intros dd y. unfold on_char_data, hear. destruct (String.eqb (trim_space dd) ""); reflexivity. }
  cbn [bind]. rewrite run_cons, tok_attribute_end. destruct (end_attribute _ w); reflexivity.
Qed.

Lemma attributes_run : forall ats xs tree, attributes_in res ats tree = Some xs ->
  forall T H ie cu g x si el, map (freeze_node H) T = tree -> existsb has_inline ats = false \/ el = [] /\ si = [] ->
  ie <> "" -> exists ie' cu', ie' <> "" /\
  run_tokens gvt (flat_map attribute_tokens ats) (mkP T H ie cu 0 false true si [] el [] [] [ag_set_doc x g] []) w =
  Ret (mkP T H ie' cu' 0 false true si [] el [] []
         [mkAttrGroup (latest (flat_map attribute_texts ats) x) (ag_name g) (ag_ref g) (ag_attributes g +++ xs)] []) w.
Proof.
  induction ats as [|a ats IH]; intros xs tree Hxs T H ie cu g x si el Ht Hq Hie; cbn [attributes_in] in Hxs.
  - injection Hxs as <-. exists ie, cu. split; [exact Hie|]. cbn. rewrite app_nil_r. now destruct g.
  - destruct (attribute_in res false a tree) as [v|] eqn:Hv; [|discriminate].
    destruct (attributes_in res ats tree) as [xs'|] eqn:Hxs'; [|discriminate]. injection Hxs as <-.
    cbn [flat_map]. rewrite run_tokens_app.
    assert (Hr : exists ie1 cu1, ie1 <> "" /\
      run_tokens gvt (attribute_tokens a) (mkP T H ie cu 0 false true si [] el [] [] [ag_set_doc x g] []) w =
      end_attribute (mkP T H ie1 cu1 0 false true si [] el [v] [] [ag_set_doc (latest (attribute_texts a) x) g] []) w).
    { destruct (has_inline a) eqn:Hin.
      - destruct Hq as [Hq|[-> ->]]; [cbn [existsb] in Hq; now rewrite Hin in Hq|].
        edestruct (attribute_run false a v tree x true (fun _ => "") (fun x => [ag_set_doc x g])) as [ie1 [cu1 [Hie1 [_ Hr]]]];
          [exact Hv|right; split; [reflexivity|]; split; [reflexivity|now exists g]|reflexivity|exact Ht|reflexivity|].
        cbv beta in Hr. exists ie1, cu1. split; [exact Hie1|exact Hr].
      - exists "attribute", cu. split; [discriminate|]. now apply attribute_bare with (tree := tree). }
    destruct Hr as [ie1 [cu1 [Hie1 Hr]]]. rewrite Hr. clear Hr.
    unfold end_attribute. fields. set (g1 := ag_set_attributes (ag_attributes g +++ [v]) g).
    change (ag_set_attributes _ _) with (ag_set_doc (latest (attribute_texts a) x) g1).
    edestruct IH with (si := si) (el := el) (ie := ie1) as [ie' [cu' [Hie' ->]]]; [exact Hxs'|exact Ht| |exact Hie1|].
    { destruct Hq as [Hq|Hq]; [left|now right]. cbn [existsb] in Hq. apply orb_false_iff in Hq. apply Hq. }
    exists ie', cu'. split; [exact Hie'|]. unfold g1, ag_set_attributes. cbn [ag_doc ag_name ag_ref ag_attributes]. now rewrite <- app_assoc, latest_app.
Qed.

(** * A simple type after an element that is left over *)

Lemma edit_compose : forall f g k tree, edit k f (edit k g tree) = edit k (fun e => f (g e)) tree.
Proof. intros f g k tree. revert k. induction tree as [|[] tree IH]; intros [|k]; cbn [edit]; try reflexivity; f_equal; apply IH. Qed.

Lemma edit_id : forall f k tree, (forall e, f e = e) -> edit k f tree = tree.
Proof. intros f k tree Hf. revert k. induction tree as [|[] tree IH]; intros [|k]; cbn [edit]; try reflexivity; f_equal; try apply IH. f_equal. apply Hf. Qed.

Lemma edit_same : forall f g k tree, (forall e, f e = g e) -> edit k f tree = edit k g tree.
Proof. intros f g k tree Hf. revert k. induction tree as [|[] tree IH]; intros [|k]; cbn [edit]; try reflexivity; f_equal; try apply IH. f_equal. apply Hf. Qed.

Lemma redocument_app : forall a b x tree, redocument b x (redocument a x tree) = redocument (a +++ b) x tree.
Proof.
  intros a b x tree. unfold redocument, edit_left. destruct (who x) as [k|]; [|reflexivity]. rewrite edit_compose. apply edit_same. intros e.
  cbn [el_doc el_name el_type el_plural el_optional]. now rewrite latest_app.
Qed.

Lemma redocument_nil : forall x tree, redocument [] x tree = tree.
Proof. intros x tree. unfold redocument, edit_left. destruct (who x) as [k|]; [|reflexivity]. apply edit_id. now intros []. Qed.

Lemma left_set : forall i x T F k, left_at T F i x -> who x = k -> forall o, left_at T F i (mkLeft k o).
Proof. intros i x T F k Hl <- o. exact Hl. Qed.

(** Facets when the simple type is gone. *)
Lemma facets_dead : forall fs, facets_ok fs = true ->
  forall F T H ie cu ig iu ia i st gr ch x tree, tree_at F T H tree -> left_at T F i x -> ie <> "" ->
  exists H' ie', run_tokens gvt (flat_map facet_tokens fs) (mkP T H ie cu ig iu ia [] [] (i :: st) [] gr [] ch) w =
  Ret (mkP T H' ie' cu ig iu ia [] [] (i :: st) [] gr [] ch) w /\
  tree_at F T H' (redocument (flat_map facet_texts fs) x tree) /\ ie' <> "".
Proof.
  induction fs as [|[local l docs] fs IH]; intros Hok F T H ie cu ig iu ia i st gr ch x tree Ht Hl Hie.
  { exists H, ie. split; [reflexivity|]. split; [|exact Hie]. cbn [flat_map]. now rewrite redocument_nil. }
  unfold facets_ok in Hok. cbn [forallb facet_ok] in Hok. apply andb_true_iff in Hok as [Hin Hok].
  destruct (in_dec string_dec local facet_locals) as [Hin'|]; [|discriminate]. fold (facets_ok fs) in Hok. clear Hin.
  pose proof (facet_named local Hin') as Hlocal.
  cbn [flat_map facet_tokens facet_texts app]. rewrite run_cons, <- app_assoc, <- redocument_app.
  assert (Ht1 := tree_redoc _ _ _ _ _ _ docs Ht Hl).
  destruct (IH Hok F T (heard i docs H) local cu ig iu ia i st gr ch x _ Ht1 Hl Hlocal) as (H' & ie' & Hr & Ht' & Hie').
  exists H', ie'. split; [|now split]. rewrite <- Hr. clear Hr.
  apply facet_cases in Hin' as [->|[->|Hin]].
  - rewrite tok_enum. unfold on_enumeration. fields. rewrite enumeration_none. fields. rewrite run_tokens_app, texts_top by discriminate. cbn [bind app].
    rewrite run_cons, tok_enum_end. unfold end_enumeration, base_to_attribute, base_to_element. fields. reflexivity.
  - rewrite tok_pattern. fields. rewrite run_tokens_app, texts_top by discriminate. cbn [bind app].
    rewrite run_cons, tok_pattern_end. unfold end_pattern, base_to_attribute, base_to_element. fields. reflexivity.
  - rewrite (proj1 (tok_facet local Hin l _)). fields. rewrite run_tokens_app, texts_top by exact Hlocal. cbn [bind app].
    rewrite run_cons, (proj2 (tok_facet local Hin l _)). unfold end_facet, base_to_element. fields. reflexivity.
Qed.

Lemma facets_swallow : forall fs, facets_ok fs = true ->
  forall F T H ie cu ig iu ia s i st gr ch x tree, tree_at F T H tree -> left_at T F i x -> ie <> "" ->
  exists H' ie' si', run_tokens gvt (flat_map facet_tokens fs) (mkP T H ie cu ig iu ia [s] [] (i :: st) [] gr [] ch) w =
  Ret (mkP T H' ie' (match fs with [] => cu | _ => "" end) ig iu ia si' [] (i :: st) [] gr [] ch) w /\
  tree_at F T H' (swallow res (st_base s) fs x tree) /\ ie' <> "" /\ rest_of (forallb is_enumeration fs) si'.
Proof.
  induction fs as [|[local l docs] fs IH]; intros Hok F T H ie cu ig iu ia s i st gr ch x tree Ht Hl Hie.
  { exists H, ie, [s]. split; [reflexivity|]. split; [exact Ht|]. split; [exact Hie|]. right. now exists s. }
  unfold facets_ok in Hok. cbn [forallb facet_ok] in Hok. apply andb_true_iff in Hok as [Hin Hok].
  destruct (in_dec string_dec local facet_locals) as [Hin'|]; [|discriminate]. fold (facets_ok fs) in Hok. clear Hin.
  pose proof (facet_named local Hin') as Hlocal. cbn [flat_map facet_tokens app]. rewrite run_cons, <- app_assoc.
  assert (Ht1 := tree_redoc _ _ _ _ _ _ docs Ht Hl).
  set (H1 := heard i docs H) in *.
  assert (Ht2 : tree_at F T (update_nth i (el_set_type (res (st_base s) (redocument docs x tree))) H1)
    (retype (res (st_base s) (redocument docs x tree)) x (redocument docs x tree))) by (apply tree_edit; assumption).
  assert (Hfz : forall ie cu si co at_ gr ag ch, freeze (mkP T H1 ie cu ig iu ia si co (i :: st) at_ gr ag ch) = redocument docs x tree) by (intros; exact (proj1 Ht1)).
  cbn [swallow forallb]. set (tree2 := retype _ _ _) in *. set (H2 := update_nth i _ H1) in *.
  assert (Hpop : local <> "enumeration" ->
    exists H' ie' si', run_tokens gvt (flat_map facet_tokens fs) (mkP T H2 local "" ig iu ia [] [] (i :: st) [] gr [] ch) w =
    Ret (mkP T H' ie' "" ig iu ia si' [] (i :: st) [] gr [] ch) w /\
    tree_at F T H' (if is_enumeration (Facet local l docs) then swallow res (st_base s) fs x tree2 else redocument (flat_map facet_texts fs) x tree2) /\
    ie' <> "" /\ rest_of (is_enumeration (Facet local l docs) && forallb is_enumeration fs) si').
  { intros Hne. apply String.eqb_neq in Hne. cbn [is_enumeration]. rewrite Hne. cbn [andb rest_of].
    destruct (facets_dead fs Hok F T H2 local "" ig iu ia i st gr ch x tree2 Ht2 Hl Hlocal) as (H' & ie' & Hr & Ht' & Hie').
    exists H', ie', []. now split. }
  apply facet_cases in Hin' as [->|[->|Hin]].
  - rewrite tok_enum. unfold on_enumeration. fields. rewrite enumeration_values. fields. rewrite run_tokens_app, texts_top by discriminate. fold H1. cbn [bind app].
    rewrite run_cons, tok_enum_end. unfold end_enumeration, base_to_attribute, base_to_element. fields.
    rewrite Hres. fields. rewrite Hfz. cbn [st_base st_set_enum]. unfold on_top_element. fields. fold H2.
    set (s1 := st_set_enum _ s). change (is_enumeration (Facet "enumeration" l docs)) with true. cbv iota. cbn [andb].
    destruct (IH Hok F T H2 "enumeration" "" ig iu ia s1 i st gr ch x tree2 Ht2 Hl Hlocal) as (H' & ie' & si' & Hr & Ht' & Hie' & Hsi).
    exists H', ie', si'. split; [|now split]. rewrite Hr. now destruct fs.
  - rewrite tok_pattern. fields. rewrite run_tokens_app, texts_top by discriminate. fold H1. cbn [bind app].
    rewrite run_cons, tok_pattern_end. unfold end_pattern, base_to_attribute, base_to_element. fields.
    rewrite Hres. fields. rewrite Hfz. unfold on_top_element. fields. fold H2. now apply Hpop.
  - rewrite (proj1 (tok_facet local Hin l _)). fields. rewrite run_tokens_app, texts_top by exact Hlocal. fold H1. cbn [bind app].
    rewrite run_cons, (proj2 (tok_facet local Hin l _)). unfold end_facet, base_to_element. fields.
    rewrite Hres. fields. rewrite Hfz. unfold on_top_element. fields. fold H2. apply Hpop.
    intros ->. revert Hin. cbn. intuition discriminate.
Qed.

Lemma derive_left_run : forall d x tree s tree' v, derive_left res d x tree s = Some (tree', v) -> st_name s <> "" ->
  forall F T H ie iu i st, tree_at F T H tree -> left_at T F i x -> exists H' ie',
  run_tokens gvt (derivation_tokens d) (mkP T H ie "simpleType" 0 iu false [s] [] (i :: st) [] [] [] []) w =
  Ret (mkP T H' ie' "simpleType" 0 iu false [v] [] (i :: st) [] [] [] []) w /\
  tree_at F T H' tree' /\ ie' <> "" /\ st_name v = st_name s.
Proof.
  intros [l docs [|f fs]|l docs] x tree s tree' v Hd Hname F T H ie iu i st Ht Hl; cbn [derive_left] in Hd; [|discriminate|].
  - cbn [derive facets_ok forallb option_map] in Hd. injection Hd as <- <-. cbn [derivation_tokens derivation_texts flat_map].
    rewrite run_cons, tok_restriction. unfold on_restriction. fields.
    replace (freeze _) with tree by (symmetry; exact (proj1 Ht)).
    edestruct restriction_attrs_pure as [nm [Hn ->]]. specialize (Hn Hname). subst nm. fields.
    rewrite run_tokens_app, texts_top by discriminate. cbn [bind app]. rewrite run_cons, tok_restriction_end.
    unfold end_restriction, base_to_attribute. fields. exists (heard i docs H), "restriction". split; [cbn [run_tokens]; now rewrite (app_nil_r (st_enum s))|].
    split; [rewrite app_nil_r; now apply tree_redoc|]. split; [discriminate|reflexivity].
  - cbn [derive option_map] in Hd. injection Hd as <- <-. cbn [derivation_tokens derivation_texts].
    rewrite run_cons, tok_list. unfold on_list. fields.
    replace (freeze _) with tree by (symmetry; exact (proj1 Ht)).
    rewrite list_attrs_pure. fields. rewrite run_tokens_app, texts_top by discriminate. cbn [bind app]. rewrite run_cons, tok_list_end.
    exists (heard i docs H), "list". split; [|split; [now apply tree_redoc|split; [discriminate|reflexivity]]].
    cbn [bind run_tokens]. unfold st_set_list, item_in.
    cbn [st_doc st_name st_base st_list st_union st_members st_enum]. now destruct (last_of ["itemType"] l).
Qed.

Lemma members_left_run : forall ms x tree s tree' v, members_left res ms x tree s = Some (tree', v) -> st_name s <> "" ->
  forall F T H ie i st, tree_at F T H tree -> left_at T F i x -> ie <> "" -> exists H' ie',
  run_tokens gvt (flat_map inline_tokens ms) (mkP T H ie "simpleType" 0 true false [s] [] (i :: st) [] [] [] []) w =
  Ret (mkP T H' ie' "simpleType" 0 true false [v] [] (i :: st) [] [] [] []) w /\
  tree_at F T H' tree' /\ ie' <> "".
Proof.
  induction ms as [|[l docs d] ms IH]; intros x tree s tree' v Hm Hname F T H ie i st Ht Hl Hie; cbn [members_left] in Hm.
  { injection Hm as <- <-. exists H, ie. now split. }
  destruct (last_of ["name"] l) as [|] eqn:Hn; [discriminate|]. destruct (derive_left res d x _ s) as [[tree1 v1]|] eqn:Hd; [|discriminate].
  cbn [flat_map inline_tokens app]. rewrite run_cons, tok_simple. unfold on_simple_type. fields.
  rewrite name_attr_last, Hn. replace (st_set_name _ _) with s by now destruct s.
  rewrite <- !app_assoc, run_tokens_app, texts_top by discriminate. cbn [bind]. rewrite run_tokens_app.
  destruct (derive_left_run d x _ s tree1 v1 Hd Hname F T (heard i docs H) "simpleType" true i st) as (H1 & ie1 & Hr & Ht1 & Hie1 & Hn1);
    [now apply tree_redoc|exact Hl|]. rewrite Hr. clear Hr. cbn [bind app].
  rewrite run_cons, tok_simple_end. unfold end_simple_type. fields.
  change (String.eqb "simpleType" "simpleType") with true. cbn [andb length Nat.eqb negb]. fields. rewrite andb_false_r.
  eapply IH; [exact Hm|congruence|exact Ht1|exact Hl|exact Hie1].
Qed.

Lemma simple_left_run : forall s name docs x tree tree' x', simple_left res name docs s x tree = Some (tree', x') -> name <> "" ->
  forall F T H i st, tree_at F T H tree -> left_at T F i x -> open x = false -> exists T' H' ie' cu' si',
  run_tokens gvt (map TChar docs +++ simple_tokens s +++ [TEnd "simpleType"])
    (mkP T H "simpleType" "simpleType" 0 false false [mkSimple "" name "" false false [] []] [] (i :: st) [] [] [] []) w =
  Ret (mkP T' H' ie' cu' 0 false false si' [] (i :: st) [] [] [] []) w /\
  tree_at F T' H' tree' /\ left_at T' F i x' /\ rest_of (open x') si' /\ ie' <> "".
Proof.
  intros s name docs x tree tree' x' Hs Hname F T H i st Ht Hl Hx. unfold simple_left in Hs.
  rewrite run_tokens_app, texts_top by discriminate. cbn [bind]. pose proof (tree_redoc _ _ _ _ _ _ docs Ht Hl) as Ht1.
  set (tree1 := redocument docs x tree) in *. set (H1 := heard i docs H) in *. set (s0 := mkSimple "" name "" false false [] []) in *.
  assert (Hend : forall v tree2 H2 ie2, tree_at F T H2 tree2 -> ie2 <> "" -> exists T' H' ie' cu' si',
    run_tokens gvt [TEnd "simpleType"] (mkP T H2 ie2 "simpleType" 0 false false [v] [] (i :: st) [] [] [] []) w =
    Ret (mkP T' H' ie' cu' 0 false false si' [] (i :: st) [] [] [] []) w /\
    tree_at F T' H' (tree2 +++ [PSimple v]) /\ left_at T' F i x /\ rest_of (open x) si' /\ ie' <> "").
  { intros v tree2 H2 ie2 Ht2 Hie2. cbn [run_tokens]. rewrite tok_simple_end. unfold end_simple_type. fields.
    change (String.eqb "simpleType" "simpleType") with true. cbn [andb length Nat.eqb negb]. fields.
    change (String.eqb "simpleType" "simpleType") with true. cbn [andb negb]. fields.
    exists (T +++ [PN (PSimple v)]), H2, ie2, "", []. split; [reflexivity|]. split; [now apply tree_add|].
    split; [eapply left_ext; [exact Hl|apply incl_refl|apply ext_one]|]. rewrite Hx. now split. }
  assert (Hplain : forall d, option_map (fun r => (fst r +++ [PSimple (snd r)], x)) (derive_left res d x tree1 s0) = Some (tree', x') ->
    exists T' H' ie' cu' si',
    run_tokens gvt (derivation_tokens d +++ [TEnd "simpleType"]) (mkP T H1 "simpleType" "simpleType" 0 false false [s0] [] (i :: st) [] [] [] []) w =
    Ret (mkP T' H' ie' cu' 0 false false si' [] (i :: st) [] [] [] []) w /\
    tree_at F T' H' tree' /\ left_at T' F i x' /\ rest_of (open x') si' /\ ie' <> "").
  { intros d Hd. destruct (derive_left res d x tree1 s0) as [[tree2 v]|] eqn:Hd1; [|discriminate]. cbn [option_map fst snd] in Hd. injection Hd as <- <-.
    destruct (derive_left_run d x tree1 s0 tree2 v Hd1 Hname F T H1 "simpleType" false i st Ht1 Hl) as (H2 & ie2 & Hr & Ht2 & Hie2 & _).
    rewrite run_tokens_app, Hr. cbn [bind]. now apply Hend. }
  destruct s as [[l docs' [|f fs]|l docs']|l docs' ms].
  - now apply Hplain.
  - destruct (facets_ok (f :: fs)) eqn:Hfs; [|discriminate]. injection Hs as <- <-. set (ffs := f :: fs) in *. clear Hplain Hend.
    cbn [simple_tokens derivation_tokens app]. rewrite run_cons, tok_restriction. unfold on_restriction. fields.
    replace (freeze _) with tree1 by (symmetry; exact (proj1 Ht1)).
    edestruct restriction_attrs_pure as [nm [Hn ->]]. specialize (Hn Hname). subst nm. fields.
    rewrite <- !app_assoc, run_tokens_app, texts_top by discriminate. cbn [bind]. rewrite run_tokens_app.
    match goal with |- context [mkP T _ "restriction" "simpleType" 0 false false [?sv] _ _ _ _ _ _] => set (s1 := sv) end.
    assert (Hb : st_base s1 = base_in res l tree1) by (unfold s1, base_in; cbn [st_base]; now destruct (last_of ["base"] l)).
    destruct (facets_swallow ffs Hfs F T (heard i docs' H1) "restriction" "simpleType" 0%Z false false s1 i st [] [] x (redocument docs' x tree1))
      as (H2 & ie2 & si2 & Hr & Ht2 & Hie2 & Hsi2); [now apply tree_redoc|exact Hl|discriminate|]. rewrite Hr. clear Hr. cbn [bind app]. rewrite run_cons, tok_restriction_end.
    unfold end_restriction, base_to_attribute. fields. rewrite run_cons, tok_simple_end. unfold end_simple_type. fields.
    change (String.eqb "simpleType" "") with false. cbn [andb]. fields.
    rewrite Hb in Ht2. exists T, H2, ie2, "", si2. split; [destruct si2; reflexivity|]. split; [exact Ht2|]. split; [exact Hl|]. now split.
  - now apply Hplain.
  - destruct (members_left res ms x _ _) as [[tree2 v]|] eqn:Hm; [|discriminate]. cbn [option_map fst snd] in Hs. injection Hs as <- <-.
    cbn [simple_tokens app]. rewrite run_cons, tok_union. unfold on_union. fields.
    replace (freeze _) with tree1 by (symmetry; exact (proj1 Ht1)).
    rewrite union_attrs_pure. fields. unfold s0. cbn [st_doc st_name st_base st_list st_union st_members st_enum st_set_members st_set_union].
    set (m := fold_left _ _ _) in *. rewrite <- !app_assoc, run_tokens_app, texts_top by discriminate. cbn [bind]. rewrite run_tokens_app.
    destruct (members_left_run ms x _ _ tree2 v Hm Hname F T (heard i docs' H1) "union" i st) as (H2 & ie2 & Hr & Ht2 & Hie2);
      [now apply tree_redoc|exact Hl|discriminate|]. rewrite Hr. cbn [bind app].
    rewrite run_cons, tok_union_end. unfold end_union. fields. now apply Hend.
Qed.

(** * Components *)

Lemma inline_top_run : forall l docs i tree e x T H ie cu si F el,
  element_in res many l false tree = Some (e, false) -> inline_element res e docs i tree = Some x -> tree_at F T H tree -> few si ->
  exists H' ie' si',
  run_tokens gvt (TStart "element" l :: map TChar docs +++ inline_tokens i +++ [TEnd "element"]) (mkP T H ie cu 0 false false si [] el [] [] [] []) w =
  Ret (mkP (T +++ [PRef (length H)]) H' ie' "" 0 false false si' [] (length H :: el) [] [] [] []) w /\
  tree_at (length H :: F) T H' tree /\ deref H' (length H) = x /\ ie' <> "" /\ rest_of (only_values i) si'.
Proof.
  intros l docs [ls ds d] tree e x T H ie cu si F el He Hx Ht Hsi.
  destruct (element_in_facts _ _ _ _ _ He) as [Hen [Hed Heo]].
  destruct d as [lr dr [|f fs]|]; [discriminate| |discriminate]. unfold inline_element in Hx. set (ffs := f :: fs) in *.
  destruct (last_of ["base"] lr) as [bv|] eqn:Hbase; [|discriminate].
  destruct (facets_ok ffs) eqn:Hfs; [|discriminate]. injection Hx as <-.
  rewrite run_cons, (element_run l T H ie cu 0%Z false false si [] el [] [] e false tree He (proj1 Ht)). cbv zeta.
  change (0 <? 0)%Z with false. cbn [bind].
  rewrite run_tokens_app, texts_top by discriminate. rewrite heard_last, Hed. cbn [bind].
  set (k := length H). set (e1 := el_set_doc (latest docs "") e).
  cbn [inline_tokens app]. rewrite run_cons, tok_simple. unfold on_simple_type. fields.
  assert (Hs0 : exists s0, (match si with [] => [zero_simple] | s :: l0 => s :: l0 end) = [s0]).
  { destruct Hsi as [->|[s ->]]; eexists; reflexivity. }
  destruct Hs0 as [s0 Hs0].
  replace (match match si with [] => [zero_simple] | s :: l0 => s :: l0 end with
           | [] => [] | x :: r => st_set_name (name_attr ls (st_name x)) x :: r end) with [st_set_name (name_attr ls (st_name s0)) s0]
    by (now rewrite Hs0).
  rewrite <- !app_assoc, run_tokens_app, texts_top by discriminate. cbn [bind]. unfold k. rewrite heard_last. fold k.
  cbn [derivation_tokens app]. rewrite run_cons, tok_restriction. unfold on_restriction. fields.
  set (e2 := el_set_doc (latest ds (el_doc e1)) e1).
  assert (Hfz : forall e ie cu si co el at_ gr ag ch, freeze (mkP T (H +++ [e]) ie cu 0 false false si co el at_ gr ag ch) = tree).
  { intros. apply (tree_push F T H e0 tree Ht). }
  rewrite Hfz. edestruct restriction_attrs_pure as [nm [_ ->]]. rewrite Hbase. fields.
  rewrite <- !app_assoc, run_tokens_app, texts_top by discriminate. cbn [bind]. unfold k. rewrite heard_last. fold k.
  set (e3 := el_set_doc (latest dr (el_doc e2)) e2). rewrite run_tokens_app.
  match goal with |- context [mkP T (H +++ [e3]) "restriction" "simpleType" 0 false false ?sis _ _ _ _ _ _] =>
    edestruct (facets_element ffs Hfs) with (F := length H :: F) (T := T) (H := H +++ [e3]) (ie := "restriction") (cu := "simpleType") (si := sis) (base := base_in res lr tree)
      (i := k) (st := k :: el) (tree := tree) as (H' & ie' & cu' & si' & t' & Hr & Ht' & Hie' & He' & Hst & Hty & Hsi') end;
    [apply tree_push; exact Ht|now left|discriminate|unfold k; rewrite deref_last; unfold e3, e2, e1; cbn [el_set_doc el_doc el_name el_type el_plural el_optional]; reflexivity
    |left; eexists; split; [reflexivity|reflexivity]|].
  destruct Hty as [-> ->]; [left; discriminate|]. rewrite Hr. clear Hr. cbn [bind app]. rewrite run_cons, tok_restriction_end.
  unfold end_restriction, base_to_attribute. fields. rewrite run_cons, tok_simple_end. unfold end_simple_type. fields.
  change (String.eqb "simpleType" "") with false. cbn [andb]. fields.
  assert (Hrest : rest_of (only_values (Inline ls ds (Restricted lr dr ffs))) si').
  { cbn [only_values]. destruct (forallb is_enumeration ffs) eqn:Hen'; cbn [rest_of]; [|apply Hsi'; now right].
    destruct Hst as [[s [-> _]]|[-> _]]; [right; now exists s|now left]. }
  exists H', ie', si'. split; [|split; [exact Ht'|split; [|split; [exact Hie'|exact Hrest]]]].
  - destruct si'; (rewrite run_cons, tok_element_end; unfold end_element; fields; reflexivity).
  - rewrite He'. unfold doc_of. rewrite <- Heo. f_equal. unfold ffs. cbn [inline_texts derivation_texts flat_map]. now rewrite !latest_app.
Qed.

(** Between components; [before]: the element that is left over. *)
Definition idle (p : PState) (tree : list proto) (before : option leftover) : Prop :=
  exists T H ie cu el si F, p = mkP T H ie cu 0 false false si [] el [] [] [] [] /\ tree_at F T H tree /\
  match before with
  | None => el = [] /\ si = []
  | Some x => (exists i st, el = i :: st /\ left_at T F i x) /\ rest_of (open x) si /\ ie <> ""
  end.

Lemma component_run : forall d tree tree' before before' p, component_in res many d tree before = Some (tree', before') -> idle p tree before ->
  exists p', run_tokens gvt (component_tokens d) p w = Ret p' w /\ idle p' tree' before'.
Proof.
  intros d tree tree' before before' p Hd [T [H [ie [cu [el [si [F [-> [Ht Hbef]]]]]]]]].
  assert (Hbelow : forall k, In k F -> k < length H) by (destruct Ht as [_ [_ Hl]]; now apply Forall_forall).
  assert (Hfew : few si) by (destruct before as [x|]; [destruct Hbef as [_ [Hf _]]; now apply rest_few in Hf|left; apply Hbef]).
  assert (Hopen : rest_of (match before with Some x => open x | None => false end) si) by (destruct before; apply Hbef).
  assert (Hkeep : forall T' F' si' ie', ext T T' -> incl F F' -> si' = si -> ie' <> "" ->
    match before with None => el = [] /\ si' = [] | Some x => (exists i st, el = i :: st /\ left_at T' F' i x) /\ rest_of (open x) si' /\ ie' <> "" end).
  { intros T' F' si' ie' HT HF -> Hie. destruct before as [x|]; [|exact Hbef]. destruct Hbef as [[i [st [-> Hl]]] [Hf _]].
    split; [|now split]. exists i, st. split; [reflexivity|]. eapply left_ext; eassumption. }
  destruct d as [t|l docs s|l b|l docs|l docs ct b|l docs i|a|l g|l docs ats]; cbn [component_in] in Hd; cbn [component_tokens].
  - injection Hd as <- <-. change [TChar t] with (map TChar [t]). destruct before as [x|].
    + destruct Hbef as [[i [st [-> Hl]]] [Hf Hie]]. rewrite texts_top by exact Hie. eexists. split; [reflexivity|].
      do 7 eexists. split; [reflexivity|]. split; [apply tree_redoc; eassumption|]. split; [|now split]. now exists i, st.
    + destruct Hbef as [-> ->]. rewrite texts_lost.
      * eexists. split; [reflexivity|]. do 7 eexists. split; [reflexivity|]. split; [exact Ht|]. now split.
      * intros d. unfold on_char_data. destruct (String.eqb (trim_space d) ""); [reflexivity|]. fields. rewrite !andb_false_r. cbv iota.
        destruct (String.eqb cu "simpleType"); [reflexivity|]. now destruct (String.eqb cu "complexType").
  - destruct (string_dec (otherwise "" (last_of ["name"] l)) "") as [|Hn]; [discriminate|].
    destruct before as [x|].
    { destruct (open x) eqn:Hx; [discriminate|].
      destruct (simple_left res _ docs s x tree) as [[tree1 x1]|] eqn:Hs; [|discriminate]. injection Hd as <- <-.
      destruct Hbef as [[i [st [-> Hl]]] [Hf Hie]]. cbn [rest_of] in Hf. subst si.
      rewrite run_cons, tok_simple. unfold on_simple_type. fields. unfold st_set_name, zero_simple.
      cbn [st_doc st_name st_base st_list st_union st_members st_enum]. rewrite name_attr_last. fold (otherwise "" (last_of ["name"] l)).
      set (name := otherwise "" (last_of ["name"] l)) in *.
      destruct (simple_left_run s name docs x tree tree1 x1 Hs Hn F T H i st Ht Hl Hx) as (T' & H' & ie' & cu' & si' & Hr & Ht' & Hl' & Hf' & Hie').
      rewrite Hr. eexists. split; [reflexivity|]. do 7 eexists. split; [reflexivity|]. split; [exact Ht'|]. cbn [fst snd].
      split; [|now split]. now exists i, st. }
    destruct Hbef as [-> ->]. rewrite simple_doc in Hd.
    destruct (simple_in res _ "" s tree) as [v|] eqn:Hs; [|discriminate]. injection Hd as <- <-.
    rewrite run_cons, tok_simple. unfold on_simple_type. fields. unfold st_set_name, zero_simple.
    cbn [st_doc st_name st_base st_list st_union st_members st_enum]. rewrite name_attr_last. fold (otherwise "" (last_of ["name"] l)).
    set (name := otherwise "" (last_of ["name"] l)) in *. rewrite run_tokens_app, texts_simple.
    cbn [bind]. rewrite run_tokens_app.
    edestruct (simple_run s name tree v Hs Hn) with (x := latest docs "") as [ie' Hr]; [exact Ht|].
    unfold st_heard, st_set_doc. cbn [st_doc st_name st_base st_list st_union st_members st_enum]. rewrite Hr.
    cbn [bind]. rewrite run_cons, tok_simple_end. unfold end_simple_type. fields.
    change (String.eqb "simpleType" "simpleType") with true. cbn [andb length Nat.eqb negb]. fields.
    change (String.eqb "simpleType" "simpleType") with true. cbn [andb negb]. fields.
    eexists. split; [reflexivity|]. do 7 eexists. split; [reflexivity|]. split; [|now split].
    rewrite <- latest_app. apply tree_add. exact Ht.
  - destruct (string_dec (otherwise "" (last_of ["name"] l)) "") as [|Hn]; [discriminate|].
    set (name := otherwise "" (last_of ["name"] l)) in *.
    match type of Hd with option_map _ ?x = _ => destruct x as [s1|] eqn:Hb; [|discriminate] end.
    injection Hd as <- <-. rewrite run_cons, tok_complex. unfold on_complex_type. fields. rewrite name_attr_last. fold (otherwise "" (last_of ["name"] l)).
    fold name. destruct (String.eqb_spec name "") as [|_]; [contradiction|]. fields. rewrite run_tokens_app.
    pose proof (body_onward _ _ _ _ Hb) as Ho. cbn [i_to] in Ho.
    edestruct (body_run b false _ s1 Hb zero_element T H "complexType" "complexType" 0%Z false false si [] F el [] [])
      as (T1 & H1 & ie1 & cu1 & el1 & si1 & F1 & Hr & Ht1 & Hh1 & Hcu1 & _ & _); [reflexivity|discriminate| |exact Ht|].
    { cbn [i_to]. destruct before as [x|]; cbn [hears]; [|destruct Hbef as [-> ->]; repeat split]. destruct Hbef as [Hl [Hf _]]. now split. }
    cbn [i_type] in Hr. rewrite Hr.
    cbn [bind]. rewrite run_cons, tok_complex_end. unfold end_complex_type. fields. eexists. split; [reflexivity|].
    do 7 eexists. split; [reflexivity|]. split; [apply tree_add; exact Ht1|].
    destruct (i_to s1) as [| | |y]; cbn [hears] in Hh1; [split; apply Hh1| |split; apply Hh1|].
    + exfalso. destruct before as [x|]; cbn [onward] in Ho; [destruct Ho; discriminate|now destruct Ho].
    + destruct Hh1 as [[k [st [-> Hk]]] Hh1]. split; [|exact Hh1]. exists k, st. split; [reflexivity|]. eapply left_ext; [exact Hk|apply incl_refl|apply ext_one].
  - destruct (element_in res many l false tree) as [[e typed]|] eqn:He; [|discriminate]. injection Hd as <- <-.
    rewrite run_cons, (element_run l T H ie cu 0%Z false false si [] el [] [] e typed tree He (proj1 Ht)). cbv zeta.
    change (0 <? 0)%Z with false. cbn [bind]. rewrite run_tokens_app, texts_top by discriminate. rewrite heard_last.
    destruct (element_in_facts _ _ _ _ _ He) as [Hen [Hed Ho]]. rewrite Hed. fold (doc_of docs).
    cbn [bind]. rewrite run_cons, tok_element_end. unfold end_element. fields.
    replace (mkElement (doc_of docs) (el_name e) (el_type e) (el_plural e) false) with (el_set_doc (doc_of docs) e) by (unfold el_set_doc; now rewrite Ho).
    set (e1 := el_set_doc (doc_of docs) e). pose proof (tree_push F T H e1 tree Ht) as Hp.
    pose proof (tree_add_ref _ _ _ _ (length H) Hp (or_introl eq_refl)) as Hadd. rewrite deref_last in Hadd.
    eexists. split; [reflexivity|]. do 7 eexists. split; [reflexivity|]. split; [exact Hadd|]. destruct typed.
    + destruct before as [x|]; [|exact Hbef]. destruct Hbef as [[i [st [-> Hl]]] [Hf _]]. split; [|now split]. exists i, st. split; [reflexivity|].
      apply left_ref; [eapply left_ext; [exact Hl|now apply incl_tl, incl_refl|apply ext_refl]|].
      pose proof (left_below _ _ _ _ _ _ Ht Hl). lia.
    + split; [|now split]. exists (length H), el. split; [reflexivity|]. eapply left_last; [exact Hp|now left].
  - destruct (element_in res many l false tree) as [[e [|]]|] eqn:He; try discriminate.
    destruct (last_of ["name"] ct) as [|] eqn:Hct; [discriminate|].
    match type of Hd with option_map _ ?x = _ => destruct x as [s1|] eqn:Hb; [|discriminate] end.
    injection Hd as <- <-.
    destruct (element_in_facts _ _ _ _ _ He) as [Hen [Hed Ho]].
    rewrite run_cons, (element_run l T H ie cu 0%Z false false si [] el [] [] e false tree He (proj1 Ht)). cbv zeta.
    change (0 <? 0)%Z with false. fields. rewrite run_tokens_app, texts_top by discriminate. rewrite heard_last, Hed.
    fold (doc_of docs). cbn [bind]. set (e1 := el_set_doc (doc_of docs) e). assert (He1 : el_name e1 = name_in l) by exact Hen.
    rewrite run_cons, tok_complex. unfold on_complex_type. fields. rewrite name_attr_last, Hct.
    change (String.eqb "" "") with true. fields. rewrite deref_last, He1, run_tokens_app.
    pose proof (body_onward _ _ _ _ Hb) as Hob. cbn [i_to] in Hob.
    edestruct (body_run b false _ s1 Hb e T (H +++ [e1]) "complexType" "complexType" 0%Z false false si [] (length H :: F) (length H :: el) [] [])
      as (T1 & H1 & ie1 & cu1 & el1 & si1 & F1 & Hr & Ht1 & Hh1 & Hcu1 & [HT1 HF1] & Hel1); [reflexivity|discriminate| |apply tree_push; exact Ht|].
    { split; [|split; [exact Hfew|discriminate]].
      exists (length H), el. split; [reflexivity|]. split; [now left|]. apply deref_last. }
    destruct (Hel1 eq_refl) as [-> ->]. clear Hel1.
    cbn [i_type] in Hr. rewrite Hr.
    cbn [bind]. rewrite run_cons, tok_complex_end. unfold end_complex_type. fields. rewrite run_cons, tok_element_end. unfold end_element. fields.
    cbn [onward] in Hob. rewrite Hob in Hh1. cbn [hears] in Hh1. destruct Hh1 as [[k [st [Hk [HkF Hd']]]] [Hf1 Hie1]]. injection Hk as <- <-.
    pose proof (tree_add_ref F1 (T1 +++ [PN (PComplex (i_type s1))]) H1 (i_tree s1 +++ [PComplex (i_type s1)]) (length H)
      (tree_add _ _ _ _ _ Ht1) HkF) as Hadd. rewrite Hd' in Hadd.
    eexists. split; [reflexivity|]. do 7 eexists. split; [reflexivity|]. split.
    + replace (mkElement (i_doc s1) (el_name e) (el_type e) (el_plural e) false) with (el_set_doc (i_doc s1) e) by (unfold el_set_doc; now rewrite Ho).
      replace (i_tree s1 +++ [PComplex (i_type s1); PElement (el_set_doc (i_doc s1) e)]) with
        ((i_tree s1 +++ [PComplex (i_type s1)]) +++ [PElement (el_set_doc (i_doc s1) e)]) by now rewrite <- app_assoc.
      exact Hadd.
    + destruct before as [x|]; [|exact Hbef]. destruct Hbef as [[i [st [-> Hl]]] [Hf _]]. split; [|now split]. exists i, st. split; [reflexivity|].
      apply left_ref; [|pose proof (left_below _ _ _ _ _ _ Ht Hl); lia].
      eapply left_ext; [exact Hl|intros k Hk; apply HF1; now right|]. eapply ext_trans; [exact HT1|apply ext_one].
  - destruct (element_in res many l false tree) as [[e [|]]|] eqn:He; try discriminate.
    destruct (inline_element res e docs i tree) as [x|] eqn:Hx; [|discriminate]. injection Hd as <- <-.
    destruct (inline_top_run l docs i tree e x T H ie cu si F el He Hx Ht Hfew) as (H' & ie' & si' & Hr & Ht' & Hd & Hie' & Hsi').
    rewrite Hr. eexists. split; [reflexivity|]. do 7 eexists. split; [reflexivity|]. split.
    + rewrite <- Hd. apply tree_add_ref; [exact Ht'|now left].
    + split; [|now split]. exists (length H), el. split; [reflexivity|]. eapply left_last; [exact Ht'|now left].
  - destruct before as [x|].
    + destruct (has_inline a) eqn:Hbi; [discriminate|].
      destruct (attribute_in res false a tree) as [v|] eqn:Hv; [|discriminate]. injection Hd as <- <-.
      destruct Hbef as [[i [st [-> Hl]]] [Hf Hie]].
      rewrite (attribute_quiet a v tree T H ie cu 0%Z false false si [] i st [] [] Hv Hbi (proj1 Ht)).
      unfold end_attribute. fields. eexists. split; [reflexivity|]. do 7 eexists. split; [reflexivity|].
      split; [apply tree_add, tree_redoc; eassumption|]. split; [|now split]. exists i, st. split; [reflexivity|].
      eapply left_ext; [exact Hl|apply incl_refl|apply ext_one].
    + destruct (attribute_in res true a tree) as [v|] eqn:Hv; [|discriminate]. injection Hd as <- <-.
      destruct Hbef as [-> ->]. edestruct (attribute_run true a v tree "" false (fun x => x) (fun _ => [])) as [ie1 [cu1 [_ [_ Hr]]]];
      [exact Hv|now left|reflexivity|exact (proj1 Ht)|reflexivity|]. cbv beta in Hr. rewrite Hr.
      unfold end_attribute. fields. eexists. split; [reflexivity|]. do 7 eexists. split; [reflexivity|]. split; [apply tree_add; exact Ht|now split].
  - destruct before; [discriminate|]. destruct Hbef as [-> ->].
    destruct (part_in res many g false tree (group_in res l false tree)) as [g1|] eqn:Hg; [|discriminate]. injection Hd as <- <-.
    rewrite run_cons, tok_group. unfold on_group. fields.
    replace (freeze _) with tree by (symmetry; exact (proj1 Ht)). rewrite group_attrs_pure. cbn [bind]. fields.
    change (0 =? 0)%Z with true. change (0 + 1)%Z with 1%Z. fields. rewrite run_tokens_app.
    edestruct (part_run g false tree) with (ch := @nil bool) (iu := false) (ia := false) (ie := "group") as [H1 [ie1 Hr]]; [exact Hg|reflexivity|exact Ht|].
    unfold group_in, name_in, ref_in in Hr. unfold gr_set_plural. cbn [gr_doc gr_name gr_elements gr_groups gr_plural gr_ref].
    unfold choice_plural. fields. rewrite !orb_false_r. rewrite orb_false_r in Hr. rewrite Hr. cbn [bind]. rewrite run_cons, tok_group_end.
    unfold end_group. fields. change (String.eqb "group" "group") with true. change (1 =? 1)%Z with true. cbn [andb]. fields.
    change (String.eqb "group" "") with false. change (1 - 1)%Z with 0%Z. fields.
    eexists. split; [reflexivity|]. do 7 eexists. split; [reflexivity|]. split; [|now split]. apply tree_add. apply tree_app. exact Ht.
  - destruct (match before with Some _ => _ | None => _ end) eqn:Hbi; [discriminate|].
    destruct (attributes_in res ats tree) as [xs|] eqn:Hxs; [|discriminate]. injection Hd as <- <-.
    rewrite run_cons, tok_ag. unfold on_attribute_group. fields.
    replace (freeze _) with tree by (symmetry; exact (proj1 Ht)). rewrite attrgroup_attrs_pure. cbn [bind]. fields.
    cbn [ag_doc ag_name ag_ref ag_attributes]. fold (name_in l). fold (ref_in res l tree). rewrite run_tokens_app.
    rewrite (texts (fun x => mkP T H "attributeGroup" "attributeGroup" 0 false true si [] el [] [] [mkAttrGroup x (name_in l) (ref_in res l tree) []] [])).
    2: { intros dd y. unfold on_char_data, hear. destruct (String.eqb (trim_space dd) ""); reflexivity. }
    cbn [bind]. rewrite run_tokens_app. change (mkAttrGroup (latest docs "") (name_in l) (ref_in res l tree) []) with (ag_set_doc (latest docs "") (mkAttrGroup "" (name_in l) (ref_in res l tree) [])).
    edestruct (attributes_run ats xs tree Hxs) with (si := si) (el := el) (ie := "attributeGroup") as [ie1 [cu1 [Hie1 ->]]]; [exact (proj1 Ht)| |discriminate|].
    { destruct before; [now left|now right]. }
    cbn [bind]. rewrite run_cons, tok_ag_end. unfold end_attribute_group. fields.
    eexists. split; [reflexivity|]. do 7 eexists. split; [reflexivity|]. split; [rewrite <- latest_app; apply tree_add; exact Ht|].
    apply Hkeep; [apply ext_one|apply incl_refl|reflexivity|exact Hie1].
Qed.

Lemma idle_freeze : forall p tree before, idle p tree before -> freeze p = tree.
Proof. intros p tree before [T [H [ie [cu [el [si [F [-> [[Ht _] _]]]]]]]]]. exact Ht. Qed.

Lemma components_run : forall ds tree tree' before p, schema_from res many ds tree before = Some tree' -> idle p tree before ->
  exists p', run_tokens gvt (flat_map component_tokens ds) p w = Ret p' w /\ freeze p' = tree'.
Proof.
  induction ds as [|d ds IH]; intros tree tree' before p Hd Hp; cbn [schema_from] in Hd.
  - injection Hd as <-. exists p. split; [reflexivity|now apply (idle_freeze p tree before)].
  - destruct (component_in res many d tree before) as [[tree1 before1]|] eqn:H1; [|discriminate].
    destruct (component_run d tree tree1 before before1 p H1 Hp) as [p1 [Hr1 Hp1]]. cbn [flat_map]. rewrite run_tokens_app, Hr1. cbn [bind].
    now apply (IH tree1 tree' before1).
Qed.

End Pure.

(** * Whole documents *)

Section Whole.
Context {E : Env}.

Lemma idle_init : idle p_init [] None.
Proof. exists [], [], "", "", [], [], []. split; [reflexivity|]. split; [|now split]. split; [reflexivity|]. split; constructor. Qed.

(** The start tag of the schema changes the prefix table only. *)
Lemma schema_run : forall gvt w res many l ds tree,
  let w1 := out_world (on_schema l p_init w) in
  (forall v t, gvt v t w1 = Ret (res v t) w1) -> counts many -> schema_in res many ds [] = Some tree ->
  exists p, run_tokens gvt (schema_tokens l ds) p_init w = Ret p w1 /\ freeze p = tree.
Proof.
  intros gvt w res many l ds tree w1 Hres Hmany Hs. unfold schema_tokens.
  change (run_tokens gvt (TStart "schema" l :: flat_map component_tokens ds +++ [TEnd "schema"]) p_init w) with
    (run_tokens gvt (flat_map component_tokens ds +++ [TEnd "schema"]) (set_in_element "schema" p_init) w1).
  rewrite run_tokens_app.
  assert (Hi : idle (set_in_element "schema" p_init) [] None).
  { exists [], [], "schema", "", [], [], []. split; [reflexivity|]. split; [|now split]. split; [reflexivity|]. split; constructor. }
  destruct (components_run gvt w1 res many Hres Hmany ds [] tree None _ Hs Hi) as [p [-> Hp]]. cbn [bind].
  exists p. now split.
Qed.

Lemma written_run : forall gvt core ts w p w1, written_as core ts -> named_tags ts ->
  run_tokens gvt core p_init w = Ret p w1 ->
  exists p', run_tokens gvt ts p_init w = Ret p' w1 /\ freeze p' = freeze p.
Proof.
  intros gvt core ts w p w1 [mid [H1 H2]] Hn Hr. rewrite (padded_spacing gvt mid ts H2).
  apply (named_core _ _ _ H2) in Hn. apply (named_core _ _ _ H1) in Hn.
  assert (Hi : tags_differ p_init p_init) by (exists ""; split; [reflexivity|now left]).
  pose proof (foreign_run gvt core mid H1 Hn p_init p_init w Hi) as A. rewrite Hr in A.
  inversion A as [a b wa wb Hab Hw Ha Hb| |]; subst. destruct Hab as [x [-> _]]. now exists (set_in_element x p).
Qed.

Lemma resolution_pure : forall rec fuel o w res, resolution (o_extract o) (o_lang o) res ->
  (o_extract o = false -> w_inc w = [] /\ w_nsl w = [] /\ stat (join2 (dir (o_file o)) "") w = SDir) ->
  forall v tree, get_value_type rec (S fuel) o v tree w = Ret (res v tree) w.
Proof.
  intros rec fuel o w res Hr Hw v tree. specialize (Hr v tree). cbv zeta in Hr. unfold get_value_type.
  change (trim_ns_prefix v) with (local_part v). set (n := local_part v) in *.
  rewrite representation_eq. destruct (representation (o_lang o) n) as [t|]; [now rewrite Hr|]. destruct Hr as [Hf [Hz Hn]].
  assert (Hlast : forall b, get_base n tree = b -> (b = n \/ b = "") ->
    (o_extract o = true -> res v tree = b) -> (o_extract o = false -> res v tree = n) ->
    (if negb (String.eqb b n) && negb (String.eqb b "") then Ret b w
     else if o_extract o then Ret b w
     else let loc := get0 (get0 (get_ns_prefix v) (w_lns w)) (w_nsl w) in
       if is_valid_url loc then Ret b w
       else let file := join2 (o_dir o) loc in
       match stat file w with
       | SNotExist | SErr => Fail (EStat file) w
       | SDir => bind (include_loop rec (S fuel) o n (w_inc w) [] "" w)
                  (fun r w => match r with inr vt => Ret vt w | inl vt => Ret (if String.eqb vt "" then n else vt) w end)
       | SFile _ =>
              let again (found : string) (w : World) : out string :=
                match rec (nested o file true) w with
                | Crash c w => Crash c w
                | Fail _ w => Ret found w
                | Ret p w => Ret (get_base n (freeze p)) w
                end in
              let resolve (dep : list proto) (w : World) : out string :=
                let t := get_base n dep in
                if negb (String.eqb t n) && negb (String.eqb t "") then Ret t w
                else again t w in
              match get file (w_pmap w) with
              | Some dep => resolve dep w
              | None =>
                  match rec (nested o file false) w with
                  | Crash c w => Crash c w
                  | Fail _ w => Ret b w
                  | Ret p w => resolve (freeze p) w
                  end
              end
       end) = Ret (res v tree) w).
  { intros b _ Hb Hx Hx'. assert (Hg : negb (String.eqb b n) && negb (String.eqb b "") = false).
    { destruct Hb as [->| ->]; [now rewrite String.eqb_refl|]. cbn. now rewrite andb_false_r. }
    rewrite Hg. destruct (o_extract o); [now rewrite Hx|]. destruct (Hw eq_refl) as [Hi [Hl Hs]]. rewrite Hl, Hi. cbv zeta.
    change (get0 (get0 (get_ns_prefix v) (w_lns w)) []) with "". change (is_valid_url "") with false. cbv iota.
    unfold o_dir. rewrite Hs. cbn [include_loop]. rewrite Hi. cbn [filter existsb length Nat.add].
    replace (nth_error [] _) with (@None string) by (now destruct (Nat.modulo _ _)). cbn [bind]. change (String.eqb "" "") with true.
    now rewrite Hx'. }
  destruct (first_or_none n tree) as [[b Hb]|Hnone].
  - rewrite (get_base_first _ _ _ Hb). destruct (string_dec b "") as [->|Hne].
    + specialize (Hz Hb). apply (Hlast "" (get_base_first _ _ _ Hb)); [now right| |]; intros He; rewrite He in Hz; exact Hz.
    + specialize (Hf b Hb Hne). destruct (string_dec b n) as [->|Hnn].
      * apply (Hlast n (get_base_first _ _ _ Hb)); [now left| |]; now intros.
      * apply String.eqb_neq in Hne, Hnn. rewrite Hne, Hnn. cbn [negb andb]. now rewrite Hf.
  - specialize (Hn Hnone). apply (Hlast (get_base n tree) eq_refl); rewrite ?(get_base_none _ _ Hnone); [now left|now intros..].
Qed.

(** Parsing such a schema file comes down to writing the output. *)
Lemma parse_finish : forall d fuel o w bytes res many l ds tree,
  stat (o_file o) w = SFile bytes -> env_open_fail (o_file o) = false ->
  (o_extract o = false -> w_inc w = [] /\ w_nsl w = [] /\ stat (join2 (dir (o_file o)) "") w = SDir) ->
  written_as (schema_tokens l ds) (env_tokens bytes) -> named_tags (env_tokens bytes) ->
  resolution (o_extract o) (o_lang o) res -> counts many -> schema_in res many ds [] = Some tree ->
  exists p w1, parse (S d) (S fuel) o w = finish o p w1 /\ freeze p = tree /\ w_fs w1 = w_fs w.
Proof.
  intros d fuel o w bytes res many l ds tree Hst Hop Hw Hwr Hn Hres Hmany Hs. cbn [parse].
  unfold parse_body. rewrite Hst, Hop. set (w0 := if o_extract o then w else register o (freeze (o_ps o)) w).
  assert (Hw0 : o_extract o = false -> forall m, w_inc (set_lns m w0) = [] /\ w_nsl (set_lns m w0) = [] /\
                stat (join2 (dir (o_file o)) "") (set_lns m w0) = SDir).
  { intros He m. specialize (Hw He). unfold w0. rewrite He. exact Hw. }
  set (w1 := out_world (on_schema l p_init w0)).
  destruct (schema_run (get_value_type (parse d (S fuel)) (S fuel) o) w0 res many l ds tree) as [p [Hp Hf]]; [|exact Hmany|exact Hs|].
  { apply resolution_pure; [exact Hres|]. intros He. now apply Hw0. }
  destruct (written_run _ _ _ w0 p _ Hwr Hn Hp) as [p' [Hp' Hf']]. rewrite Hp'. cbn [bind]. fold w1. rewrite Hf in Hf'.
  exists p', w1. split; [reflexivity|]. split; [exact Hf'|]. unfold w1, w0. now destruct (o_extract o).
Qed.

(** There is such a function. *)
Definition resolve_in (extract : bool) (lang : string) (v : string) (tree : list proto) : string :=
  let n := local_part v in
  match representation lang n with
  | Some t => t
  | None => let b := get_base n tree in if String.eqb b "" then (if extract then "" else n) else b
  end.

Lemma resolve_in_resolution : forall extract lang, resolution extract lang (resolve_in extract lang).
Proof.
  intros extract lang v tree. cbv zeta. unfold resolve_in. destruct (representation lang (local_part v)); [reflexivity|].
  split; [|split].
  - intros b Hb Hne. rewrite (get_base_first _ _ _ Hb). apply String.eqb_neq in Hne. now rewrite Hne.
  - intros Hb. now rewrite (get_base_first _ _ _ Hb).
  - intros Hn. rewrite (get_base_none _ _ Hn). destruct (String.eqb_spec (local_part v) "") as [He|]; [|reflexivity].
    rewrite He. now destruct extract.
Qed.

Lemma max_occurs_counts : counts max_occurs.
Proof.
  intros v. destruct (max_occurs v) as [b|] eqn:Hb; [now apply max_occurs_some|now apply max_occurs_none].
Qed.

End Whole.
