(** Proofs about single tags and token streams: C11 to C15, C20, C21. *)

From Coq Require Import String Ascii List NArith ZArith Bool Lia.
From Verif Require Import GoStr Utf8 StrLemmas Base Utils SpecStr StrProofs World Handlers SpecDoc DocLemmas
  HandlerProofs.
Import ListNotations.
Local Open Scope string_scope.

(** Side conditions [In "X" all_tags]. *)
Ltac known := vm_compute; tauto.

(** Split [H : on_token gvt t p w = Ret p' w'] into the cases of the dispatch. *)
Ltac split_title H :=
  repeat match type of H with
  | (if String.eqb (to_title ?l) ?h then _ else _) = _ =>
      let e := fresh "Htitle" in let n := fresh "Hnot" in
      destruct (String.eqb_spec (to_title l) h) as [e|n]; [|idtac]
  | (if in_set (to_title ?l) facet_names then _ else _) = _ =>
      let e := fresh "Hfacet" in destruct (in_set (to_title l) facet_names) eqn:e
  end.

Section Doc.
Context {E : Env}.
Variable gvt : string -> list proto -> World -> out string.

(** * Dispatch by tag *)

Lemma start_dispatch : forall h local l p w, tag h local = true -> In h all_tags ->
  on_token gvt (TStart local l) p w =
  let p := set_in_element local p in
  if String.eqb h "Attribute" then on_attribute gvt l p w
  else if String.eqb h "AttributeGroup" then on_attribute_group gvt l p w
  else if String.eqb h "CharData" then Crash Panic w
  else if String.eqb h "Choice" then on_choice l p w
  else if String.eqb h "ComplexType" then on_complex_type l p w
  else if String.eqb h "Element" then on_element gvt l p w
  else if String.eqb h "Enumeration" then on_enumeration l p w
  else if String.eqb h "Extension" then on_extension gvt l p w
  else if String.eqb h "Group" then on_group gvt l p w
  else if String.eqb h "Import" then on_import l p w
  else if String.eqb h "Include" then on_include l p w
  else if String.eqb h "List" then on_list gvt l p w
  else if String.eqb h "Restriction" then on_restriction gvt l p w
  else if String.eqb h "Schema" then on_schema l p w
  else if String.eqb h "SimpleType" then on_simple_type l p w
  else if String.eqb h "Union" then on_union gvt l p w
  else Ret p w.
Proof. intros h local l p w Ht Hin. apply tag_title in Ht; [|exact Hin]. subst h. reflexivity. Qed.

Lemma end_dispatch : forall h local p w, tag h local = true -> In h all_tags ->
  on_token gvt (TEnd local) p w =
  if String.eqb h "Attribute" then end_attribute p w
  else if String.eqb h "AttributeGroup" then end_attribute_group p w
  else if String.eqb h "Choice" then end_choice p w
  else if String.eqb h "ComplexType" then end_complex_type p w
  else if String.eqb h "Element" then end_element p w
  else if String.eqb h "Enumeration" then end_enumeration gvt p w
  else if String.eqb h "Extension" then end_extension gvt p w
  else if String.eqb h "Group" then end_group local p w
  else if String.eqb h "Pattern" then end_pattern gvt p w
  else if String.eqb h "Restriction" then end_restriction gvt p w
  else if String.eqb h "SimpleType" then end_simple_type local p w
  else if String.eqb h "Union" then end_union p w
  else if in_set h facet_names then end_facet gvt p w
  else Ret p w.
Proof. intros h local p w Ht Hin. apply tag_title in Ht; [|exact Hin]. subst h. reflexivity. Qed.

Lemma unknown_title : forall local, unknown local -> ~ In (to_title local) all_tags.
Proof.
  intros local H Hin. unfold all_tags in Hin. apply in_app_or in Hin.
  assert (Hin' : In (to_title local) all_tags) by (apply in_or_app; exact Hin).
  specialize (H _ Hin). apply tag_false in H; [congruence|exact Hin'].
Qed.

Lemma unknown_start : forall local l p w, unknown local ->
  on_token gvt (TStart local l) p w = Ret (set_in_element local p) w.
Proof.
  intros local l p w H. apply unknown_title in H. cbn [on_token]. unfold dispatch_start.
  repeat match goal with
  | |- context [if String.eqb (to_title local) ?h then _ else _] =>
      destruct (String.eqb_spec (to_title local) h) as [e|e];
      [exfalso; apply H; rewrite e; known|clear e]
  end. reflexivity.
Qed.

Lemma unknown_end : forall local p w, unknown local -> on_token gvt (TEnd local) p w = Ret p w.
Proof.
  intros local p w H. apply unknown_title in H. cbn [on_token]. unfold dispatch_end.
  repeat match goal with
  | |- context [if String.eqb (to_title local) ?h then _ else _] =>
      destruct (String.eqb_spec (to_title local) h) as [e|e];
      [exfalso; apply H; rewrite e; known|clear e]
  end.
  destruct (in_set (to_title local) facet_names) eqn:Hf; [|reflexivity].
  exfalso. apply H. apply in_set_In in Hf. revert Hf. generalize (to_title local). intros s Hs.
  cbn in Hs. repeat destruct Hs as [<-|Hs]; try known.
Qed.

(** * C11 *)

Lemma element_attrs_app : forall tree a b e w,
  element_attrs gvt tree (a ++ b) e w = bind (element_attrs gvt tree a e w) (element_attrs gvt tree b).
Proof.
  intros tree a. induction a as [|x a IH]; intros b e w; [reflexivity|].
  cbn [element_attrs app].
  destruct (String.eqb (a_local x) "ref"); [rewrite bind_assoc; apply bind_ext; intros; apply IH|].
  destruct (String.eqb (a_local x) "name"); [apply IH|].
  destruct (String.eqb (a_local x) "type"); [rewrite bind_assoc; apply bind_ext; intros; apply IH|].
  destruct (String.eqb (a_local x) "maxOccurs"); [destruct (max_occurs (a_value x)); [apply IH|reflexivity]|].
  destruct (String.eqb (a_local x) "unbounded"); apply IH.
Qed.

Lemma element_attrs_quiet : forall tree l e w e' w', no_occurs l ->
  element_attrs gvt tree l e w = Ret e' w' -> el_plural e' = el_plural e.
Proof.
  intros tree l. induction l as [|x l IH]; intros e w e' w' [H1 H2] H.
  - cbn in H. now injection H as <- _.
  - inversion_clear H1 as [|? ? Hx1 Hl1]. inversion_clear H2 as [|? ? Hx2 Hl2].
    assert (Hl : no_occurs l) by (split; assumption).
    cbn [element_attrs] in H.
    destruct (String.eqb (a_local x) "ref"); [apply bind_ret in H as [? [? [_ H]]]; now apply IH in H|].
    destruct (String.eqb (a_local x) "name"); [now apply IH in H|].
    destruct (String.eqb (a_local x) "type"); [apply bind_ret in H as [? [? [_ H]]]; now apply IH in H|].
    destruct (String.eqb_spec (a_local x) "maxOccurs"); [contradiction|].
    destruct (String.eqb_spec (a_local x) "unbounded"); [contradiction|]. now apply IH in H.
Qed.

Lemma element_attrs_total : resolves gvt -> forall tree l e w, no_occurs l ->
  exists e' w', element_attrs gvt tree l e w = Ret e' w'.
Proof.
  intros R tree l. induction l as [|x l IH]; intros e w [H1 H2]; [eexists; eexists; reflexivity|].
  inversion_clear H1 as [|? ? Hx1 Hl1]. inversion_clear H2 as [|? ? Hx2 Hl2].
  assert (Hl : no_occurs l) by (split; assumption). cbn [element_attrs].
  destruct (String.eqb (a_local x) "ref").
  { destruct (R (a_value x) tree w) as [t [w' ->]]. now apply IH. }
  destruct (String.eqb (a_local x) "name"); [now apply IH|].
  destruct (String.eqb (a_local x) "type").
  { destruct (R (a_value x) tree w) as [t [w' ->]]. now apply IH. }
  destruct (String.eqb_spec (a_local x) "maxOccurs"); [contradiction|].
  destruct (String.eqb_spec (a_local x) "unbounded"); [contradiction|]. now apply IH.
Qed.

Lemma place_element_ret : forall i p w, exists p', place_element i p w = Ret p' w.
Proof.
  intros i p w. unfold place_element. destruct (nonempty _); [eexists; reflexivity|].
  destruct (0 <? _)%Z; eexists; reflexivity.
Qed.

(** The element object that a start tag records: the new entry of the heap. *)
Lemma element_occurs : forall local l1 sp v l2 p w,
  resolves gvt -> tag "Element" local = true -> no_occurs l1 -> no_occurs l2 ->
  let r := on_token gvt (TStart local (l1 ++ mkAttr sp "maxOccurs" v :: l2)) p w in
  (~ occurs_ok v -> exists w', r = Fail (EAtoi v) w') /\
  (occurs_ok v -> exists p' w' e, r = Ret p' w' /\ p_heap p' = (p_heap p ++ [e])%list /\
    (el_plural e = true <-> occurs_many v \/ hd false (p_choice p) = true)).
Proof.
  intros local l1 sp v l2 p w R Ht H1 H2 r. subst r.
  rewrite (start_dispatch "Element") by (exact Ht || known). cbn -[on_element].
  set (q := set_in_element local p).
  destruct (element_attrs_total R (freeze q) l1 zero_element w H1) as [e1 [w1 He1]].
  split.
  - intros Hv. apply max_occurs_none in Hv. unfold on_element. rewrite element_attrs_app, He1.
    cbn [bind element_attrs a_local a_value]. cbn [String.eqb Ascii.eqb Bool.eqb].
    rewrite Hv. cbn [bind]. now exists w1.
  - intros Hv. destruct (max_occurs v) as [b|] eqn:Hb; [|apply max_occurs_none in Hb; contradiction].
    apply max_occurs_some in Hb as Hb2. destruct Hb2 as [_ Hmany].
    assert (exists e0 w2, element_attrs gvt (freeze q) (l1 ++ mkAttr sp "maxOccurs" v :: l2) zero_element w = Ret e0 w2
              /\ el_plural e0 = b) as [e0 [w2 [He0 Hpl]]].
    { rewrite element_attrs_app, He1. cbn [bind element_attrs a_local a_value].
      cbn [String.eqb Ascii.eqb Bool.eqb]. rewrite Hb.
      destruct (element_attrs_total R (freeze q) l2 (if b then el_set_plural true e1 else e1) w1 H2) as [e0 [w2 He0]].
      exists e0, w2. split; [exact He0|]. apply element_attrs_quiet in He0; [|exact H2].
      apply element_attrs_quiet in He1; [|exact H1]. rewrite He0. destruct b; [reflexivity|exact He1]. }
    assert (exists p' w', on_element gvt (l1 ++ mkAttr sp "maxOccurs" v :: l2) q w = Ret p' w') as [p' [w' Hr]].
    { unfold on_element. rewrite He0. cbn [bind]. destruct (String.eqb (el_type e0) "").
      - destruct (R (el_name e0) (freeze q) w2) as [t [w3 ->]]. cbn [bind].
        destruct (place_element_ret (length (p_heap q))
          (push_element (length (p_heap q)) (set_heap (p_heap q ++ [el_set_type t e0]) q)) w3) as [p' ->]. now exists p', w3.
      - destruct (place_element_ret (length (p_heap q)) (set_heap (p_heap q ++ [e0]) q) w2) as [p' ->]. now exists p', w2. }
    pose proof Hr as Hr2. apply on_element_ret in Hr2 as [e0' [t [w1' [He0' [_ [_ Hp']]]]]].
    rewrite He0 in He0'. injection He0' as <- <-.
    exists p', w', (el_set_plural (el_plural e0 || choice_plural q) (el_set_type t e0)).
    split; [exact Hr|]. split.
    + rewrite Hp'. now rewrite element_result_heap.
    + cbn [el_plural el_set_plural]. rewrite Hpl, orb_true_iff, Hmany. reflexivity.
Qed.

Lemma choice_attrs_spec : forall l b w,
  (forall r w', choice_attrs l b w = Ret r w' -> w' = w /\ Forall occurs_ok (values "maxOccurs" l) /\
     match last (map Some (values "maxOccurs" l)) None with
     | Some v => r = true <-> occurs_many v
     | None => r = b
     end).
Proof.
  intros l. induction l as [|x l IH]; intros b w r w' H.
  - cbn in H. injection H as <- <-. repeat split. constructor.
  - cbn [choice_attrs] in H. unfold values in *. cbn [filter].
    destruct (String.eqb_spec (a_local x) "maxOccurs") as [Hx|Hx].
    + destruct (max_occurs (a_value x)) as [c|] eqn:Hc; [|discriminate].
      apply max_occurs_some in Hc as [Hok Hm]. apply IH in H as [-> [Hf H]].
      split; [reflexivity|]. split; [constructor; [exact Hok|exact Hf]|].
      cbn [map]. destruct (map Some (map a_value (filter (fun x0 => String.eqb (a_local x0) "maxOccurs") l))) as [|o os] eqn:Ho.
      * cbn. cbn in H. subst r. exact Hm.
      * change (last (Some (a_value x) :: o :: os) None) with (last (o :: os) None).
        destruct (last (o :: os) None) eqn:Hl; [exact H|].
        exfalso. assert (In (last (o :: os) None) (o :: os)) as Hin.
        { clear. revert o. induction os as [|y os IH]; intros o; [now left|].
          right. apply (IH y). }
        rewrite Hl, <- Ho in Hin. apply in_map_iff in Hin as [? [? _]]. discriminate.
    + apply IH in H. exact H.
Qed.

Lemma choice_attrs_fail : forall l1 sp v l2 b w, lacks "maxOccurs" l1 -> ~ occurs_ok v ->
  choice_attrs (l1 ++ mkAttr sp "maxOccurs" v :: l2) b w = Fail (EAtoi v) w.
Proof.
  intros l1 sp v l2. induction l1 as [|x l1 IH]; intros b w H1 Hv.
  - apply max_occurs_none in Hv. cbn. now rewrite Hv.
  - inversion_clear H1 as [|? ? Hx Hl]. cbn [choice_attrs app].
    destruct (String.eqb_spec (a_local x) "maxOccurs"); [contradiction|]. now apply IH.
Qed.

Lemma choice_attrs_ok : forall l b w, Forall occurs_ok (values "maxOccurs" l) ->
  exists r, choice_attrs l b w = Ret r w.
Proof.
  intros l. induction l as [|x l IH]; intros b w H; [now exists b|].
  unfold values in *. cbn [filter choice_attrs] in *.
  destruct (String.eqb (a_local x) "maxOccurs"); [|now apply IH].
  cbn [map] in H. inversion_clear H as [|? ? Hx Hl].
  destruct (max_occurs (a_value x)) as [c|] eqn:Hc; [now apply IH|].
  apply max_occurs_none in Hc. contradiction.
Qed.

Lemma lacks_values : forall k l, lacks k l -> values k l = [].
Proof.
  intros k l H. unfold values. induction H as [|x l Hx Hl IH]; [reflexivity|].
  cbn [filter]. destruct (String.eqb_spec (a_local x) k); [contradiction|exact IH].
Qed.

Lemma values_app : forall k a b, values k (a ++ b) = (values k a ++ values k b)%list.
Proof. intros k a b. unfold values. now rewrite filter_app, map_app. Qed.

Lemma choice_occurs : forall local l1 sp v l2 p w,
  tag "Choice" local = true -> lacks "maxOccurs" l1 -> lacks "maxOccurs" l2 ->
  let r := on_token gvt (TStart local (l1 ++ mkAttr sp "maxOccurs" v :: l2)) p w in
  (~ occurs_ok v -> r = Fail (EAtoi v) w) /\
  (occurs_ok v -> exists b, r = Ret (set_choice (b :: p_choice p) (set_in_element local p)) w /\
    (b = true <-> occurs_many v \/ hd false (p_choice p) = true)).
Proof.
  intros local l1 sp v l2 p w Ht H1 H2 r. subst r.
  rewrite (start_dispatch "Choice") by (exact Ht || known). cbn -[on_choice].
  unfold on_choice. split.
  - intros Hv. now rewrite choice_attrs_fail.
  - intros Hv.
    assert (Hvals : values "maxOccurs" (l1 ++ mkAttr sp "maxOccurs" v :: l2) = [v]).
    { rewrite values_app, (lacks_values _ l1 H1). change (mkAttr sp "maxOccurs" v :: l2) with ([mkAttr sp "maxOccurs" v] ++ l2)%list.
      rewrite values_app, (lacks_values _ l2 H2). reflexivity. }
    destruct (choice_attrs_ok (l1 ++ mkAttr sp "maxOccurs" v :: l2) false w) as [b Hb].
    { rewrite Hvals. constructor; [exact Hv|constructor]. }
    rewrite Hb. pose proof (choice_attrs_spec _ _ _ _ _ Hb) as [_ [_ Hm]]. rewrite Hvals in Hm. cbn in Hm.
    exists (b || hd false (p_choice p)). split; [reflexivity|]. rewrite orb_true_iff, Hm. reflexivity.
Qed.

(** * C13 *)

Lemma last_of_cons : forall ks x l,
  last_of ks (x :: l) = match last_of ks l with
                        | Some v => Some v
                        | None => if existsb (String.eqb (a_local x)) ks then Some (a_value x) else None
                        end.
Proof.
  assert (Hlast : forall (A : Type) (a : A) l, exists v, last (map Some (a :: l)) None = Some v).
  { intros A a l. revert a. induction l as [|b l IH]; intros a; [now exists a|]. apply (IH b). }
  intros ks x l. unfold last_of, values_of. cbn [filter].
  destruct (existsb (String.eqb (a_local x)) ks).
  - cbn [map]. destruct (map a_value (filter _ l)) as [|v vs] eqn:Hl; [reflexivity|].
    destruct (Hlast _ v vs) as [u Hu]. rewrite Hu.
    change (last (Some (a_value x) :: map Some (v :: vs)) None) with (last (map Some (v :: vs)) None). exact Hu.
  - destruct (last _ _); reflexivity.
Qed.

(** Name and type of the element a start tag describes. *)
Lemma element_attrs_name : forall tree l e w e' w', element_attrs gvt tree l e w = Ret e' w' ->
  el_doc e' = el_doc e /\ el_optional e' = el_optional e /\
  el_name e' = match last_of ["name"; "ref"] l with Some v => v | None => el_name e end /\
  match last_of ["type"; "ref"] l with
  | Some v => exists w1 w2, gvt v tree w1 = Ret (el_type e') w2
  | None => el_type e' = el_type e
  end.
Proof.
  intros tree l. induction l as [|x l IH]; intros e w e' w' H.
  - cbn in H. injection H as <- _. now repeat split.
  - rewrite !last_of_cons. cbn [element_attrs] in H. cbn [existsb].
    destruct (String.eqb_spec (a_local x) "ref") as [Hx|Hx].
    { apply bind_ret in H as [t [w1 [Hg H]]]. apply IH in H as [Hd [Ho [Hn Ht]]]. rewrite Hx. cbn -[last_of].
      split; [exact Hd|]. split; [exact Ho|]. split; [destruct (last_of ["name"; "ref"] l); exact Hn|].
      destruct (last_of ["type"; "ref"] l); [exact Ht|]. cbn in Ht. rewrite Ht. now exists w, w1. }
    destruct (String.eqb_spec (a_local x) "name") as [Hx2|Hx2].
    { apply IH in H as [Hd [Ho [Hn Ht]]]. rewrite Hx2. cbn -[last_of].
      split; [exact Hd|]. split; [exact Ho|]. split; [destruct (last_of ["name"; "ref"] l); exact Hn|].
      destruct (last_of ["type"; "ref"] l); exact Ht. }
    destruct (String.eqb_spec (a_local x) "type") as [Hx3|Hx3].
    { apply bind_ret in H as [t [w1 [Hg H]]]. apply IH in H as [Hd [Ho [Hn Ht]]]. cbn -[last_of].
      split; [exact Hd|]. split; [exact Ho|]. split; [destruct (last_of ["name"; "ref"] l); exact Hn|].
      destruct (last_of ["type"; "ref"] l); [exact Ht|]. cbn in Ht. rewrite Ht. now exists w, w1. }
    assert (Hsame : forall e1, el_doc e1 = el_doc e -> el_optional e1 = el_optional e -> el_name e1 = el_name e ->
              el_type e1 = el_type e -> forall w, element_attrs gvt tree l e1 w = Ret e' w' ->
              el_doc e' = el_doc e /\ el_optional e' = el_optional e /\
              el_name e' = match match last_of ["name"; "ref"] l with Some v => Some v | None => None end with
                           | Some v => v | None => el_name e end /\
              match match last_of ["type"; "ref"] l with Some v => Some v | None => None end with
              | Some v => exists w1 w2, gvt v tree w1 = Ret (el_type e') w2
              | None => el_type e' = el_type e
              end).
    { intros e1 E1 E2 E3 E4 w0 H0. apply IH in H0 as [Hd [Ho [Hn Ht]]].
      split; [congruence|]. split; [congruence|]. split; [destruct (last_of ["name"; "ref"] l); congruence|].
      destruct (last_of ["type"; "ref"] l); [exact Ht|congruence]. }
    cbn -[last_of].
    destruct (String.eqb (a_local x) "maxOccurs").
    { destruct (max_occurs (a_value x)) as [b|]; [|discriminate]. destruct b; now apply Hsame in H. }
    destruct (String.eqb (a_local x) "unbounded"); [destruct (String.eqb (a_value x) "0")|]; now apply Hsame in H.
Qed.

Lemma add_element_joined : forall e l, joined e l (add_element e l).
Proof.
  intros e l. unfold add_element.
  assert (H : match merge_element e l with
              | Some l' => exists l1 x l2, l = (l1 ++ x :: l2)%list /\ Forall (fun y => el_name y <> el_name e) l1 /\
                  el_name x = el_name e /\ el_type x = el_type e /\
                  l' = (l1 ++ with_plural (el_plural x || el_plural e) x :: l2)%list
              | None => Forall (fun y => el_name y <> el_name e) l \/
                  exists l1 x l2, l = (l1 ++ x :: l2)%list /\ Forall (fun y => el_name y <> el_name e) l1 /\
                  el_name x = el_name e /\ el_type x <> el_type e
              end).
  { induction l as [|x l IH]; [left; constructor|]. cbn [merge_element].
    destruct (String.eqb_spec (el_name e) (el_name x)) as [Hn|Hn].
    - destruct (String.eqb_spec (el_type x) (el_type e)) as [Ht|Ht].
      + exists [], x, l. repeat split; try congruence. constructor.
      + right. exists [], x, l. repeat split; try congruence. constructor.
    - destruct (merge_element e l) as [l'|].
      + destruct IH as [l1 [y [l2 [-> [Hl1 [Hy [Hty ->]]]]]]]. exists (x :: l1), y, l2.
        repeat split; try congruence. constructor; [congruence|exact Hl1].
      + destruct IH as [IH|[l1 [y [l2 [-> [Hl1 [Hy Hty]]]]]]].
        * left. constructor; [congruence|exact IH].
        * right. exists (x :: l1), y, l2. repeat split; try congruence. constructor; [congruence|exact Hl1]. }
  destruct (merge_element e l) as [l'|].
  - destruct H as [l1 [x [l2 [-> [Hl1 [Hy [Hty ->]]]]]]]. now constructor.
  - destruct H as [H|[l1 [x [l2 [-> [Hl1 [Hy Hty]]]]]]]; [now constructor|].
    rewrite <- app_assoc. cbn [app]. now apply joined_other.
Qed.

Lemma joined_keeps : forall e l l', joined e l l' ->
  (forall i x, nth_error l i = Some x -> exists b, nth_error l' i = Some (with_plural b x) /\
     (el_plural x = true -> b = true) /\ (b <> el_plural x -> el_name x = el_name e /\ el_type x = el_type e /\ b = el_plural e)) /\
  (exists x, In x l' /\ el_name x = el_name e /\ el_type x = el_type e /\ (el_plural e = true -> el_plural x = true)).
Proof.
  assert (Hid : forall x, with_plural (el_plural x) x = x) by (intros []; reflexivity).
  assert (Hpre : forall (l m : list Element) i x, nth_error l i = Some x -> nth_error (l ++ m) i = Some x).
  { intros l m i x H. rewrite nth_error_app1; [exact H|]. apply nth_error_Some. congruence. }
  intros e l l' H. destruct H as [l1 x l2 H1 Hn Ht|l1 x l2 H1 Hn Ht|l H1].
  - split.
    + intros i y Hy. destruct (Nat.lt_trichotomy i (length l1)) as [Hi|[->|Hi]].
      * rewrite nth_error_app1 in Hy by exact Hi. exists (el_plural y). rewrite Hid.
        split; [rewrite nth_error_app1 by exact Hi; exact Hy|]. split; [auto|congruence].
      * rewrite nth_error_app2, Nat.sub_diag in Hy by lia. cbn in Hy. injection Hy as <-.
        exists (el_plural x || el_plural e). split; [rewrite nth_error_app2, Nat.sub_diag by lia; reflexivity|].
        split; [intros ->; reflexivity|]. intros Hb. split; [exact Hn|]. split; [exact Ht|].
        destruct (el_plural x), (el_plural e); cbn in *; congruence.
      * rewrite nth_error_app2 in Hy by lia. exists (el_plural y). rewrite Hid.
        rewrite nth_error_app2 by lia. destruct (i - length l1) as [|k] eqn:Hk; [lia|].
        cbn in *. split; [exact Hy|]. split; [auto|congruence].
    + exists (with_plural (el_plural x || el_plural e) x). split; [apply in_or_app; right; now left|].
      cbn. split; [exact Hn|]. split; [exact Ht|]. intros ->. apply orb_true_r.
  - split.
    + intros i y Hy. exists (el_plural y). rewrite Hid. split; [|split; [auto|congruence]].
      change (l1 ++ x :: l2 ++ [e])%list with (l1 ++ (x :: l2) ++ [e])%list. rewrite app_assoc. now apply Hpre.
    + exists e. split; [|now auto]. apply in_or_app. right. right. apply in_or_app. right. now left.
  - split.
    + intros i y Hy. exists (el_plural y). rewrite Hid. split; [now apply Hpre|]. split; [auto|congruence].
    + exists e. split; [|now auto]. apply in_or_app. right. now left.
Qed.

Lemma element_in_complex : forall local l p w p' w' c cs,
  tag "Element" local = true -> p_complex p = c :: cs ->
  on_token gvt (TStart local l) p w = Ret p' w' ->
  exists e els, p_heap p' = (p_heap p ++ [e])%list /\
    el_name e = match last_of ["name"; "ref"] l with Some v => v | None => "" end /\
    (exists v w1 w2, gvt v (freeze p) w1 = Ret (el_type e) w2 /\
       (last_of ["type"; "ref"] l = Some v \/
        v = el_name e /\ (last_of ["type"; "ref"] l = None \/
           exists u w3 w4, last_of ["type"; "ref"] l = Some u /\ gvt u (freeze p) w3 = Ret "" w4))) /\
    p_complex p' = mkComplex (ct_doc c) (ct_name c) (ct_base c) els (ct_attributes c) (ct_groups c) (ct_attrgroups c) :: cs /\
    joined e (ct_elements c) els /\
    p_tree p' = p_tree p /\ p_simple p' = p_simple p /\ p_attribute p' = p_attribute p /\
    p_group p' = p_group p /\ p_attrgroup p' = p_attrgroup p /\ p_choice p' = p_choice p.
Proof.
  intros local l p w p' w' c cs Ht Hc H.
  rewrite (start_dispatch "Element") in H by (exact Ht || known). cbn -[on_element] in H.
  apply on_element_ret in H as [e0 [t [w1 [He0 [Hempty [Hfull ->]]]]]].
  apply element_attrs_name in He0 as [_ [_ [Hn Hty]]].
  change (freeze (set_in_element local p)) with (freeze p) in *.
  set (e := el_set_plural _ _). exists e, (add_element e (ct_elements c)).
  split; [rewrite element_result_heap; reflexivity|].
  split; [exact Hn|]. split.
  { change (el_type e) with t. change (el_name e) with (el_name e0).
    destruct (String.eqb_spec (el_type e0) "") as [H0|H0].
    - exists (el_name e0). specialize (Hempty H0). exists w1, w'. split; [exact Hempty|]. right. split; [reflexivity|].
      destruct (last_of ["type"; "ref"] l) as [u|]; [|now left]. right. destruct Hty as [w3 [w4 Hty]].
      exists u, w3, w4. split; [reflexivity|]. now rewrite H0 in Hty.
    - destruct (Hfull H0) as [-> ->]. destruct (last_of ["type"; "ref"] l) as [u|]; [|contradiction].
      destruct Hty as [w3 [w4 Hty]]. exists u, w3, w4. split; [exact Hty|]. now left. } unfold element_result. cbn [p_complex set_in_element]. rewrite Hc.
  repeat split; try (destruct (String.eqb (el_type e0) ""); reflexivity). apply add_element_joined.
Qed.

End Doc.
