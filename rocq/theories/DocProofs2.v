(** Proofs about single tags and token streams: C12, C14, C15, C20, C21. *)

From Coq Require Import String Ascii List NArith ZArith Bool Lia Permutation.
From Verif Require Import GoStr Utf8 StrLemmas Base Utils SpecStr StrProofs World Handlers SpecDoc DocLemmas
  HandlerProofs DocProofs.
Import ListNotations.
Local Open Scope string_scope.

(** Reduce [H : handler ... = Ret p' w'] to explicit successor states. *)
Ltac inv_ret :=
  repeat match goal with
  | H : Ret _ _ = Ret _ _ |- _ => injection H; clear H; intros; subst
  | H : Fail _ _ = Ret _ _ |- _ => discriminate H
  | H : Crash _ _ = Ret _ _ |- _ => discriminate H
  | H : bind (attribute_attrs _ _ _ _ _) _ = Ret _ _ |- _ => apply bind_ret in H as [? [? [_ H]]]
  | H : bind (attrgroup_attrs _ _ _ _ _) _ = Ret _ _ |- _ => apply bind_ret in H as [? [? [_ H]]]
  | H : bind (group_attrs _ _ _ _ _) _ = Ret _ _ |- _ => apply bind_ret in H as [? [? [_ H]]]
  | H : bind (choice_attrs _ _ _) _ = Ret _ _ |- _ => apply bind_ret in H as [? [? [_ H]]]
  | H : bind _ _ = Ret _ _ |- _ => apply bind_ret in H as [? [? [? H]]]
  | H : extension_attrs _ _ _ _ _ = Ret _ _ |- _ => apply extension_attrs_shape in H as [? [? ?]]
  | H : list_attrs _ _ _ _ _ = Ret _ _ |- _ => apply list_attrs_shape in H as [? [? ?]]
  | H : restriction_attrs _ _ _ _ _ = Ret _ _ |- _ => apply restriction_attrs_shape in H as [? [? ?]]
  | H : union_attrs _ _ _ _ _ = Ret _ _ |- _ => apply union_attrs_shape in H as [? [? ?]]
  | H : base_to_attribute _ _ _ _ = Ret _ _ |- _ => apply base_to_attribute_shape in H as [?|[? [? [? [? ?]]]]]
  | H : base_to_element _ _ _ _ = Ret _ _ |- _ => apply base_to_element_shape in H as [?|[? [? [? [? ?]]]]]
  | H : on_element _ _ _ _ = Ret _ _ |- _ => apply on_element_ret in H as [? [? [? [? [? [? ?]]]]]]
  | H : (if ?b then _ else _) = Ret _ _ |- _ => destruct b eqn:?
  | H : match ?l with [] => _ | _ :: _ => _ end = Ret _ _ |- _ => destruct l eqn:?
  end; subst.

Ltac unfold_handlers :=
  unfold on_attribute, end_attribute, on_attribute_group, end_attribute_group, on_choice, end_choice,
    on_complex_type, end_complex_type, end_element, on_enumeration, end_enumeration,
    on_extension, end_extension, end_facet, end_pattern, on_group, end_group, on_import, on_include,
    on_list, on_restriction, end_restriction, on_schema, on_simple_type, end_simple_type, on_union, end_union in *.

Ltac inv_token H t :=
  destruct t as [?local ?attrs|?local|?data|]; cbn [on_token] in H;
  [ unfold dispatch_start in H; split_title H; unfold_handlers; cbv zeta in *; inv_ret
  | unfold dispatch_end in H; split_title H; unfold_handlers; cbv zeta in *; inv_ret
  | inv_ret | inv_ret ].

Section Doc.
Context {E : Env}.
Variable gvt : string -> list proto -> World -> out string.

(** * Only choice tags change the choice stack *)

Lemma on_char_data_choice : forall d p, p_choice (on_char_data d p) = p_choice p.
Proof.
  intros d p. unfold on_char_data, on_top_element.
  repeat match goal with |- context [if ?b then _ else _] => destruct b end; try reflexivity.
  destruct (p_element p); reflexivity.
Qed.

Lemma on_top_element_choice : forall f p, p_choice (on_top_element f p) = p_choice p.
Proof. intros f p. unfold on_top_element. destruct (p_element p); reflexivity. Qed.

Lemma element_result_choice : forall b e p, p_choice (element_result b e p) = p_choice p.
Proof.
  intros b e p. unfold element_result. destruct (p_complex p); [destruct (_ <? _)%Z|]; destruct b; reflexivity.
Qed.

Lemma frame_choice : forall t p w p' w',
  match t with
  | TStart local _ | TEnd local => tag "Choice" local = false
  | _ => True
  end ->
  on_token gvt t p w = Ret p' w' -> p_choice p' = p_choice p.
Proof.
  intros t p w p' w' Ht H.
  inv_token H t; try reflexivity;
    try (apply tag_false in Ht; [congruence|known]);
    try (rewrite element_result_choice; reflexivity);
    try (cbn; rewrite ?on_top_element_choice; reflexivity);
    try apply on_char_data_choice;
    repeat match goal with |- context [if ?b then _ else _] => destruct b end; try reflexivity.
  all: cbn; repeat match goal with |- context [if ?b then _ else _] => destruct b end; try reflexivity.
Qed.

(** * C12 *)

Fixpoint ors (bs : list bool) : list bool :=
  match bs with
  | [] => []
  | b :: r => (b || hd false (ors r)) :: ors r
  end.

Lemma ors_hd : forall bs, hd false (ors bs) = true <-> In true bs.
Proof.
  intros bs. induction bs as [|b bs IH]; [cbn; split; [discriminate|tauto]|].
  cbn [ors hd]. rewrite orb_true_iff, IH. cbn. split; intros [H|H]; auto.
Qed.

Lemma open_choices_stack : forall ts bs, open_choices ts bs -> forall w p w',
  run_tokens gvt ts p_init w = Ret p w' -> p_choice p = ors bs.
Proof.
  intros ts bs H. induction H as [|ts local l bs b H IH Ht Hb|ts local bs b H IH Ht|ts t bs H IH Ht]; intros w p w' Hr.
  - cbn in Hr. injection Hr as <- _. reflexivity.
  - rewrite run_tokens_app in Hr. apply bind_ret in Hr as [q [v [Hq Hr]]]. rewrite run_tokens_one in Hr.
    apply IH in Hq. rewrite (start_dispatch gvt "Choice") in Hr by (exact Ht || known). cbn -[on_choice] in Hr.
    unfold on_choice in Hr. apply bind_ret in Hr as [c [u [Hc Hr]]]. injection Hr as <- _.
    apply choice_attrs_spec in Hc as [_ [_ Hc]]. cbn [p_choice set_choice ors]. rewrite <- Hq.
    f_equal. change (choice_plural (set_in_element local q)) with (hd false (p_choice q)). f_equal.
    destruct (last (map Some (values "maxOccurs" l)) None) as [m|].
    + apply eq_true_iff_eq. rewrite Hc, Hb. split.
      * intros Hm. now exists m.
      * intros [m' [[= <-] Hm]]. exact Hm.
    + subst c. destruct b; [|reflexivity]. destruct Hb as [Hb _]. destruct (Hb eq_refl) as [? [? _]]. discriminate.
  - rewrite run_tokens_app in Hr. apply bind_ret in Hr as [q [v [Hq Hr]]]. rewrite run_tokens_one in Hr.
    apply IH in Hq. rewrite (end_dispatch gvt "Choice") in Hr by (exact Ht || known). cbn -[end_choice] in Hr.
    unfold end_choice in Hr. injection Hr as <- _. cbn. now rewrite Hq.
  - rewrite run_tokens_app in Hr. apply bind_ret in Hr as [q [v [Hq Hr]]]. rewrite run_tokens_one in Hr.
    apply IH in Hq. rewrite <- Hq. now apply frame_choice in Hr.
Qed.

Lemma element_attrs_plural : forall tree l e w e' w', element_attrs gvt tree l e w = Ret e' w' ->
  el_plural e = true -> el_plural e' = true.
Proof.
  intros tree l. induction l as [|x l IH]; intros e w e' w' H He.
  - cbn in H. now injection H as <- _.
  - cbn [element_attrs] in H.
    destruct (String.eqb (a_local x) "ref"); [apply bind_ret in H as [? [? [_ H]]]; now apply IH in H|].
    destruct (String.eqb (a_local x) "name"); [now apply IH in H|].
    destruct (String.eqb (a_local x) "type"); [apply bind_ret in H as [? [? [_ H]]]; now apply IH in H|].
    destruct (String.eqb (a_local x) "maxOccurs").
    { destruct (max_occurs (a_value x)) as [b|]; [|discriminate]. apply IH in H; [exact H|]. now destruct b. }
    destruct (String.eqb (a_local x) "unbounded"); [|now apply IH in H].
    apply IH in H; [exact H|]. now destruct (String.eqb (a_value x) "0").
Qed.

Lemma element_plural_choice : forall local l p w p' w',
  tag "Element" local = true -> on_token gvt (TStart local l) p w = Ret p' w' ->
  exists e, p_heap p' = (p_heap p ++ [e])%list /\
    (hd false (p_choice p) = true -> el_plural e = true) /\
    (no_occurs l -> el_plural e = hd false (p_choice p)).
Proof.
  intros local l p w p' w' Ht H. rewrite (start_dispatch gvt "Element") in H by (exact Ht || known).
  cbn -[on_element] in H. apply on_element_ret in H as [e0 [t [w1 [He0 [_ [_ ->]]]]]].
  set (e := el_set_plural _ _). exists e. split; [rewrite element_result_heap; reflexivity|].
  change (el_plural e) with (el_plural e0 || hd false (p_choice p)). split.
  - intros ->. apply orb_true_r.
  - intros Hq. apply element_attrs_quiet in He0; [|exact Hq]. now rewrite He0.
Qed.

Lemma choices_inherit : forall ts bs w p w', open_choices ts bs -> run_tokens gvt ts p_init w = Ret p w' ->
  length (p_choice p) = length bs /\
  (hd false (p_choice p) = true <-> In true bs) /\
  forall local l p2 w2, tag "Element" local = true -> on_token gvt (TStart local l) p w' = Ret p2 w2 ->
    exists e, p_heap p2 = (p_heap p ++ [e])%list /\
      (In true bs -> el_plural e = true) /\
      (no_occurs l -> (el_plural e = true <-> In true bs)).
Proof.
  intros ts bs w p w' Ho Hr. pose proof (open_choices_stack ts bs Ho w p w' Hr) as Hc.
  assert (Hh : hd false (p_choice p) = true <-> In true bs) by (rewrite Hc; apply ors_hd).
  split; [rewrite Hc; clear; induction bs as [|b bs IH]; cbn; congruence|]. split; [exact Hh|].
  intros local l p2 w2 Ht H. apply element_plural_choice in H as [e [He [H1 H2]]]; [|exact Ht].
  exists e. split; [exact He|]. split; [tauto|]. intros Hq. rewrite (H2 Hq). exact Hh.
Qed.

(** * C14 *)

Lemma attribute_attrs_spec : forall tree l a w a' w', attribute_attrs gvt tree l a w = Ret a' w' ->
  at_doc a' = at_doc a /\ at_plural a' = at_plural a /\
  at_name a' = match last_of ["name"; "ref"] l with Some v => v | None => at_name a end /\
  match last_of ["type"; "ref"] l with
  | Some v => exists w1 w2, gvt v tree w1 = Ret (at_type a') w2
  | None => at_type a' = at_type a
  end /\
  (at_optional a' = false <-> at_optional a = false \/ has_value "use" "required" l).
Proof.
  intros tree l. induction l as [|x l IH]; intros a w a' w' H.
  - cbn in H. injection H as <- _. repeat split; auto. intros [H|[sp []]]. exact H.
  - rewrite !last_of_cons. cbn [attribute_attrs] in H. cbn [existsb].
    assert (Hhas : a_local x <> "use" \/ a_value x <> "required" ->
              (has_value "use" "required" (x :: l) <-> has_value "use" "required" l)).
    { intros Hx. unfold has_value. split.
      - intros [sp [Hi|Hi]]; [|now exists sp]. subst x. cbn in Hx. tauto.
      - intros [sp Hi]. exists sp. now right. }
    destruct (String.eqb_spec (a_local x) "ref") as [Hx|Hx].
    { apply bind_ret in H as [t [w1 [Hg H]]]. apply IH in H as [Hd [Hp [Hn [Ht Ho]]]].
      rewrite Hhas by (left; rewrite Hx; discriminate). rewrite Hx. cbn -[last_of has_value].
      split; [exact Hd|]. split; [exact Hp|]. split; [destruct (last_of ["name"; "ref"] l); exact Hn|].
      split; [|exact Ho].
      destruct (last_of ["type"; "ref"] l); [exact Ht|]. cbn in Ht. rewrite Ht. now exists w, w1. }
    destruct (String.eqb_spec (a_local x) "name") as [Hx2|Hx2].
    { apply IH in H as [Hd [Hp [Hn [Ht Ho]]]].
      rewrite Hhas by (left; rewrite Hx2; discriminate). rewrite Hx2. cbn -[last_of has_value].
      split; [exact Hd|]. split; [exact Hp|]. split; [destruct (last_of ["name"; "ref"] l); exact Hn|].
      split; [|exact Ho]. destruct (last_of ["type"; "ref"] l); exact Ht. }
    destruct (String.eqb_spec (a_local x) "type") as [Hx3|Hx3].
    { apply bind_ret in H as [t [w1 [Hg H]]]. apply IH in H as [Hd [Hp [Hn [Ht Ho]]]].
      rewrite Hhas by (left; rewrite Hx3; discriminate). cbn -[last_of has_value].
      split; [exact Hd|]. split; [exact Hp|]. split; [destruct (last_of ["name"; "ref"] l); exact Hn|].
      split; [|exact Ho].
      destruct (last_of ["type"; "ref"] l); [exact Ht|]. cbn in Ht. rewrite Ht. now exists w, w1. }
    cbn -[last_of has_value].
    destruct (String.eqb_spec (a_local x) "use") as [Hx4|Hx4].
    { apply IH in H as [Hd [Hp [Hn [Ht Ho]]]].
      destruct (String.eqb_spec (a_value x) "required") as [Hv|Hv].
      - cbn in Hd, Hp, Hn, Ht, Ho. split; [exact Hd|]. split; [exact Hp|].
        split; [destruct (last_of ["name"; "ref"] l); exact Hn|].
        split; [destruct (last_of ["type"; "ref"] l); exact Ht|].
        split; [|intros _; apply Ho; now left]. intros _. right. exists (a_space x).
        left. destruct x as [sp k v]. cbn in *. now subst.
      - rewrite Hhas by now right.
        split; [exact Hd|]. split; [exact Hp|]. split; [destruct (last_of ["name"; "ref"] l); exact Hn|].
        split; [destruct (last_of ["type"; "ref"] l); exact Ht|exact Ho]. }
    rewrite Hhas by now left. apply IH in H as [Hd [Hp [Hn [Ht Ho]]]].
    split; [exact Hd|]. split; [exact Hp|]. split; [destruct (last_of ["name"; "ref"] l); exact Hn|].
    split; [destruct (last_of ["type"; "ref"] l); exact Ht|exact Ho].
Qed.

Lemma attribute_attrs_total : resolves gvt -> forall tree l a w,
  exists a' w', attribute_attrs gvt tree l a w = Ret a' w'.
Proof.
  intros R tree l. induction l as [|x l IH]; intros a w; [eexists; eexists; reflexivity|].
  cbn [attribute_attrs]. destruct (R (a_value x) tree w) as [t [w1 Hg]]. rewrite Hg. cbn [bind].
  repeat match goal with |- context [if ?b then _ else _] => destruct b end; apply IH.
Qed.

Lemma attribute_start : forall local l p w p' w', tag "Attribute" local = true ->
  on_token gvt (TStart local l) p w = Ret p' w' ->
  exists a, p' = set_attribute (a :: p_attribute p) (set_in_element local p) /\
    (at_optional a = true <-> ~ has_value "use" "required" l) /\
    at_name a = match last_of ["name"; "ref"] l with Some v => v | None => "" end /\
    match last_of ["type"; "ref"] l with
    | Some v => exists w1 w2, gvt v (freeze p) w1 = Ret (at_type a) w2
    | None => at_type a = ""
    end /\ at_plural a = false /\ at_doc a = "".
Proof.
  intros local l p w p' w' Ht H. rewrite (start_dispatch gvt "Attribute") in H by (exact Ht || known).
  cbn -[on_attribute] in H. unfold on_attribute in H. apply bind_ret in H as [a [w1 [Ha H]]].
  injection H as <- <-. apply attribute_attrs_spec in Ha as [Hd [Hp [Hn [Hty Ho]]]]. cbn in Hd, Hp, Hn, Hty, Ho.
  exists a. split; [reflexivity|]. split.
  - split.
    + intros Hopt Hu. assert (at_optional a = false) by (apply Ho; now right). congruence.
    + intros Hu. destruct (at_optional a); [reflexivity|]. destruct Ho as [Ho _]. destruct (Ho eq_refl); [discriminate|contradiction].
  - repeat split; assumption.
Qed.

Lemma attribute_start_total : resolves gvt -> forall local l p w, tag "Attribute" local = true ->
  exists p' w', on_token gvt (TStart local l) p w = Ret p' w'.
Proof.
  intros R local l p w Ht. rewrite (start_dispatch gvt "Attribute") by (exact Ht || known).
  cbn -[on_attribute]. unfold on_attribute.
  destruct (attribute_attrs_total R (freeze (set_in_element local p)) l (mkAttribute "" "" "" false true) w) as [a [w1 ->]].
  eexists; eexists; reflexivity.
Qed.

(** The order of the XML attributes does not matter when at most one of them
    gives the name and at most one gives the type. *)
Lemma exclusive_sym : forall x y, exclusive x y -> exclusive y x.
Proof. unfold exclusive. tauto. Qed.

Lemma FOP_perm : forall A (R : A -> A -> Prop), (forall x y, R x y -> R y x) ->
  forall l l', Permutation l l' -> ForallOrdPairs R l -> ForallOrdPairs R l'.
Proof.
  intros A R Hs l l' Hp. induction Hp as [|x l l' Hp IH|x y l|l l' l'' H1 IH1 H2 IH2]; intros H.
  - constructor.
  - inversion_clear H as [|? ? Hx Hl]. constructor; [|now apply IH]. now rewrite <- Hp.
  - inversion_clear H as [|? ? Hy Hl]. inversion_clear Hl as [|? ? Hx Hl']. inversion_clear Hy as [|? ? Hyx Hyl].
    constructor; [constructor; [now apply Hs|exact Hx]|]. constructor; assumption.
  - auto.
Qed.

Lemma attribute_attrs_perm : forall tree l l', Permutation l l' -> ForallOrdPairs exclusive l ->
  forall a w, attribute_attrs gvt tree l a w = attribute_attrs gvt tree l' a w.
Proof.
  intros tree l l' Hp. induction Hp as [|x l l' Hp IH|x y l|l l' l'' H1 IH1 H2 IH2]; intros H a w.
  - reflexivity.
  - inversion_clear H as [|? ? Hx Hl]. specialize (IH Hl). cbn [attribute_attrs].
    destruct (gvt (a_value x) tree w) as [t v|e v|c v];
    repeat match goal with |- context [if ?b then _ else _] => destruct b end; cbn [bind]; auto.
  - inversion_clear H as [|? ? Hy _]. inversion_clear Hy as [|? ? Hyx _]. destruct Hyx as [Hn Ht].
    cbn [In] in Hn, Ht. cbn [attribute_attrs].
    assert (Hn1 : forall k k', a_local y = k -> a_local x = k' -> ("name" = k \/ "ref" = k) -> ("name" = k' \/ "ref" = k') -> False)
      by (intros k k' <- <-; tauto).
    assert (Ht1 : forall k k', a_local y = k -> a_local x = k' -> ("type" = k \/ "ref" = k) -> ("type" = k' \/ "ref" = k') -> False)
      by (intros k k' <- <-; tauto). clear Hn Ht.
    destruct (String.eqb_spec (a_local x) "ref") as [Hxr|Hxr];
    destruct (String.eqb_spec (a_local y) "ref") as [Hyr|Hyr]; try (exfalso; first [solve [eapply Hn1; [eassumption|eassumption|tauto|tauto]]|solve [eapply Ht1; [eassumption|eassumption|tauto|tauto]]]);
    destruct (String.eqb_spec (a_local x) "name") as [Hxn|Hxn]; try congruence;
    destruct (String.eqb_spec (a_local y) "name") as [Hyn|Hyn]; try congruence; try (exfalso; first [solve [eapply Hn1; [eassumption|eassumption|tauto|tauto]]|solve [eapply Ht1; [eassumption|eassumption|tauto|tauto]]]);
    destruct (String.eqb_spec (a_local x) "type") as [Hxt|Hxt]; try congruence;
    destruct (String.eqb_spec (a_local y) "type") as [Hyt|Hyt]; try congruence; try (exfalso; first [solve [eapply Hn1; [eassumption|eassumption|tauto|tauto]]|solve [eapply Ht1; [eassumption|eassumption|tauto|tauto]]]);
    try (exfalso; first [solve [eapply Hn1; [eassumption|eassumption|tauto|tauto]]|solve [eapply Ht1; [eassumption|eassumption|tauto|tauto]]]);
    try reflexivity;
    try (destruct (gvt (a_value x) tree w); reflexivity);
    try (destruct (gvt (a_value y) tree w); reflexivity);
    destruct (String.eqb (a_local x) "use"), (String.eqb (a_local y) "use");
    destruct (String.eqb (a_value x) "required"), (String.eqb (a_value y) "required");
    try reflexivity; try (apply bind_ext; intros; destruct a; reflexivity); destruct a; reflexivity.
  - rewrite (IH1 H). apply IH2. eapply FOP_perm; [exact exclusive_sym|exact H1|exact H].
Qed.

Lemma attribute_order : forall local l l' p w, tag "Attribute" local = true ->
  Permutation l l' -> ForallOrdPairs exclusive l ->
  on_token gvt (TStart local l) p w = on_token gvt (TStart local l') p w.
Proof.
  intros local l l' p w Ht Hp Hx.
  rewrite !(start_dispatch gvt "Attribute") by (exact Ht || known). cbn -[on_attribute].
  unfold on_attribute. now rewrite (attribute_attrs_perm _ l l' Hp Hx).
Qed.

(** * C15 *)

Lemma on_enumeration_simple : forall l p w s r, p_simple p = s :: r ->
  on_enumeration l p w = Ret (set_simple (enum_of s (st_doc s) (values "value" l) :: r) p) w.
Proof.
  intros l p w s r Hs. unfold on_enumeration. f_equal. f_equal. rewrite Hs. clear Hs.
  revert s. induction l as [|x l IH]; intros s.
  - cbn. unfold enum_of, values. cbn. rewrite app_nil_r. now destruct s.
  - cbn [fold_left]. unfold values. cbn [filter]. destruct (String.eqb (a_local x) "value").
    + cbn [on_top]. rewrite IH. unfold enum_of. cbn. now rewrite <- app_assoc.
    + apply IH.
Qed.

Lemma char_data_simple : forall d p s r, p_simple p = s :: r ->
  exists d', p_simple (on_char_data d p) = st_set_doc d' s :: r /\ (blank d -> d' = st_doc s).
Proof.
  intros d p s r Hs. unfold on_char_data.
  destruct (String.eqb_spec (trim_space d) "") as [Hb|Hb].
  { exists (st_doc s). split; [rewrite Hs; now destruct s|reflexivity]. }
  assert (Hnb : ~ blank d) by (rewrite <- blank_trim; exact Hb).
  assert (Hkeep : exists d', p_simple p = st_set_doc d' s :: r /\ (blank d -> d' = st_doc s)).
  { exists (st_doc s). split; [rewrite Hs; now destruct s|reflexivity]. }
  destruct (p_in_ag p && nonempty (p_attrgroup p)); [exact Hkeep|].
  destruct (negb (String.eqb (p_in_element p) "") && nonempty (p_element p)).
  { unfold on_top_element. destruct (p_element p); exact Hkeep. }
  destruct (nonempty (p_attribute p)); [exact Hkeep|].
  destruct (String.eqb (p_current p) "simpleType").
  { cbn [p_simple set_simple]. rewrite Hs. cbn. exists (trim_space d). split; [reflexivity|contradiction]. }
  destruct (String.eqb (p_current p) "complexType"); exact Hkeep.
Qed.

Lemma end_enumeration_simple : forall p w p' w', end_enumeration gvt p w = Ret p' w' -> p_simple p' = p_simple p.
Proof.
  intros p w p' w' H. unfold end_enumeration in H. inv_ret; try reflexivity;
    unfold on_top_element; cbn; destruct (p_element _); reflexivity.
Qed.

Lemma enum_run : forall ts p w p' w' s r, Forall enum_token ts -> p_simple p = s :: r ->
  run_tokens gvt ts p w = Ret p' w' ->
  exists d, p_simple p' = enum_of s d (enum_values ts) :: r /\
    (Forall (fun t => match t with TChar c => blank c | _ => True end) ts -> d = st_doc s).
Proof.
  intros ts. induction ts as [|t ts IH]; intros p w p' w' s r Ht Hs H.
  - cbn in H. injection H as <- _. exists (st_doc s). split; [|reflexivity].
    rewrite Hs. unfold enum_of. cbn. rewrite app_nil_r. now destruct s.
  - inversion_clear Ht as [|? ? Ht1 Ht2]. cbn [run_tokens] in H. apply bind_ret in H as [q [v [Hq H]]].
    assert (exists d1, p_simple q = enum_of s d1 (enum_values [t]) :: r /\
              (match t with TChar c => blank c | _ => True end -> d1 = st_doc s)) as [d1 [Hq1 Hd1]].
    { destruct t as [local l|local|c|]; cbn [enum_token] in Ht1.
      - destruct Ht1 as [Ht1|Ht1].
        + rewrite (start_dispatch gvt "Enumeration") in Hq by (exact Ht1 || known). cbn -[on_enumeration] in Hq.
          rewrite (on_enumeration_simple l (set_in_element local p) w s r Hs) in Hq. injection Hq as <- _.
          exists (st_doc s). split; [|reflexivity]. unfold enum_values. cbn [flat_map]. rewrite Ht1, app_nil_r. reflexivity.
        + rewrite unknown_start in Hq by exact Ht1. injection Hq as <- _. exists (st_doc s). split; [|reflexivity].
          unfold enum_values. cbn [flat_map]. rewrite (Ht1 "Enumeration") by (left; known).
          cbn. rewrite Hs. unfold enum_of. rewrite app_nil_r. now destruct s.
      - exists (st_doc s). split; [|reflexivity]. unfold enum_of, enum_values. cbn. rewrite app_nil_r.
        replace (mkSimple _ _ _ _ _ _ _) with s by now destruct s. rewrite <- Hs. destruct Ht1 as [Ht1|Ht1].
        + rewrite (end_dispatch gvt "Enumeration") in Hq by (exact Ht1 || known). cbn -[end_enumeration] in Hq.
          now apply end_enumeration_simple in Hq.
        + rewrite unknown_end in Hq by exact Ht1. now injection Hq as <- _.
      - cbn in Hq. injection Hq as <- _. destruct (char_data_simple c p s r Hs) as [d1 [Hd1 Hb]].
        exists d1. split; [|exact Hb]. rewrite Hd1. unfold enum_of, enum_values. cbn. now rewrite app_nil_r.
      - cbn in Hq. injection Hq as <- _. exists (st_doc s). split; [|reflexivity].
        rewrite Hs. unfold enum_of, enum_values. cbn. rewrite app_nil_r. now destruct s. }
    destruct (IH _ _ _ _ _ _ Ht2 Hq1 H) as [d [Hp' Hd]]. exists d. split.
    + rewrite Hp'. unfold enum_of. cbn [st_name st_base st_list st_union st_members st_enum].
      rewrite <- app_assoc. unfold enum_values at 3. cbn [flat_map]. unfold enum_values. cbn [flat_map].
      rewrite app_nil_r. reflexivity.
    + intros Hb. inversion_clear Hb as [|? ? Hb1 Hb2]. rewrite (Hd Hb2). cbn. now apply Hd1.
Qed.

Lemma base_to_total : resolves gvt -> forall pop p w,
  (exists p' w', base_to_attribute gvt pop p w = Ret p' w') /\ (exists p' w', base_to_element gvt pop p w = Ret p' w').
Proof.
  intros R pop p w. unfold base_to_attribute, base_to_element. split.
  - destruct (p_attribute p); [eexists; eexists; reflexivity|]. destruct (p_simple p) as [|s r]; [eexists; eexists; reflexivity|].
    destruct (R (st_base s) (freeze p) w) as [t [w1 ->]]. eexists; eexists; reflexivity.
  - destruct (p_simple p) as [|s r]; [eexists; eexists; reflexivity|]. destruct (p_element p); [eexists; eexists; reflexivity|].
    destruct (R (st_base s) (freeze p) w) as [t [w1 ->]]. eexists; eexists; reflexivity.
Qed.

Lemma enum_run_total : resolves gvt -> forall ts p w, Forall enum_token ts ->
  exists p' w', run_tokens gvt ts p w = Ret p' w'.
Proof.
  intros R ts. induction ts as [|t ts IH]; intros p w H; [eexists; eexists; reflexivity|].
  inversion_clear H as [|? ? Ht Hts]. cbn [run_tokens].
  assert (exists p1 w1, on_token gvt t p w = Ret p1 w1) as [p1 [w1 ->]]; [|now apply IH].
  destruct t as [local l|local|c|]; cbn [enum_token] in Ht; try (eexists; eexists; reflexivity).
  - destruct Ht as [Ht|Ht].
    + rewrite (start_dispatch gvt "Enumeration") by (exact Ht || known). eexists; eexists; reflexivity.
    + rewrite unknown_start by exact Ht. eexists; eexists; reflexivity.
  - destruct Ht as [Ht|Ht].
    + rewrite (end_dispatch gvt "Enumeration") by (exact Ht || known). cbn -[end_enumeration]. unfold end_enumeration.
      destruct (base_to_total R false p w) as [[p1 [w1 ->]] _]. cbn [bind]. apply (base_to_total R).
    + rewrite unknown_end by exact Ht. eexists; eexists; reflexivity.
Qed.

(** * C21 *)

Definition group_ok (p : PState) : Prop :=
  (0 <= p_in_group p)%Z /\
  (p_in_group p = 0%Z -> p_group p = []) /\
  ((0 < p_in_group p)%Z -> exists g, p_group p = [g]) /\
  (to_title (p_current p) = "Group" -> (0 < p_in_group p)%Z).

Lemma group_ok_init : group_ok p_init.
Proof. repeat split; cbn; try lia; try discriminate. Qed.

(** The handlers that leave the group fields alone and set the current element
    to nothing or to their own tag. *)
Lemma group_ok_same : forall p p', group_ok p ->
  p_in_group p' = p_in_group p -> p_group p' = p_group p ->
  (p_current p' = p_current p \/ to_title (p_current p') <> "Group") -> group_ok p'.
Proof.
  intros p p' [H1 [H2 [H3 H4]]] E1 E2 E3. unfold group_ok. rewrite E1, E2.
  split; [exact H1|]. split; [exact H2|]. split; [exact H3|].
  intros H. destruct E3 as [E3|E3]; [rewrite E3 in H; auto|contradiction].
Qed.

Lemma on_top_one : forall A (f : A -> A) l, (exists g, l = [g]) -> exists g, on_top f l = [g].
Proof. intros A f l [g ->]. cbn. now eexists. Qed.

Lemma on_top_element_shape : forall f p, exists h, on_top_element f p = set_heap h p /\ length h = length (p_heap p).
Proof.
  intros f p. unfold on_top_element. destruct (p_element p) as [|i r].
  - exists (p_heap p). split; [now destruct p|reflexivity].
  - exists (update_nth i f (p_heap p)). split; [reflexivity|apply update_nth_length].
Qed.

Lemma on_char_data_shape : forall d p, on_char_data d p = p \/
  (exists x, on_char_data d p = set_attrgroup x p /\ length x = length (p_attrgroup p)) \/
  (exists x, on_char_data d p = set_heap x p /\ length x = length (p_heap p)) \/
  (exists x, on_char_data d p = set_attribute x p /\ length x = length (p_attribute p)) \/
  (exists x, on_char_data d p = set_simple x p /\ length x = length (p_simple p)) \/
  (exists x, on_char_data d p = set_complex x p /\ length x = length (p_complex p)).
Proof.
  intros d p. unfold on_char_data.
  repeat match goal with |- context [if ?b then _ else _] => destruct b; [solve [auto] || idtac|] end; auto.
  - right; left. eexists; split; [reflexivity|apply on_top_length].
  - right; right; left. destruct (on_top_element_shape (el_set_doc (trim_space d)) p) as [h [-> Hh]]. now exists h.
  - right; right; right; left. eexists; split; [reflexivity|apply on_top_length].
  - right; right; right; right; left. eexists; split; [reflexivity|apply on_top_length].
  - right; right; right; right; right. eexists; split; [reflexivity|apply on_top_length].
Qed.

(** What an end tag of a simple type can do *)
Lemma end_simple_type_shape : forall local p w p' w', to_title local <> "" ->
  end_simple_type local p w = Ret p' w' ->
  p' = p \/
  (exists s r, p_simple p = s :: r /\ p' = set_simple r (set_attribute (on_top (at_set_type (st_base s)) (p_attribute p)) p)) \/
  (exists c, p_complex p = [c] /\ p' = set_current "" (set_complex [] (append_tree (PN (PComplex c)) p))) \/
  p' = set_current "" (set_simple (tl (p_simple p)) (append_tree (pop_node PSimple (p_simple p)) p)).
Proof.
  intros local p w p' w' Hl H. unfold end_simple_type in H.
  assert (Hne : local <> "") by (intros ->; now apply Hl).
  destruct (p_simple p) as [|s r] eqn:Hs; [|destruct (p_attribute p) as [|a at_] eqn:Ha].
  3:{ injection H as <- _. right; left. exists s, r. split; [reflexivity|]. reflexivity. }
  all: destruct (String.eqb local (p_current p) && Nat.eqb (length (p_complex p)) 1) eqn:Hc.
  1,3: apply andb_prop in Hc as [_ Hc]; apply Nat.eqb_eq in Hc;
       destruct (p_complex p) as [|c [|c2 cs]] eqn:Hcs; try discriminate;
       cbn [p_current set_current] in H;
       destruct (String.eqb_spec local ""); [contradiction|]; cbn [andb] in H; injection H as <- _;
       right; right; left; exists c; split; reflexivity.
  all: destruct (String.eqb local (p_current p) && negb (p_in_union p)); injection H as <- _;
       [right; right; right; rewrite ?Hs; reflexivity|now left].
Qed.

Lemma end_group_shape : forall local p w p' w', to_title local = "Group" ->
  end_group local p w = Ret p' w' ->
  (p' = p /\ local <> p_current p) \/
  (local = p_current p /\ p_in_group p = 1%Z /\
   p' = set_in_group 0 (set_current "" (set_group (tl (p_group p)) (append_tree (pop_node PGroup (p_group p)) p)))) \/
  (local = p_current p /\ p_in_group p <> 1%Z /\ p' = set_in_group (p_in_group p - 1)%Z p).
Proof.
  intros local p w p' w' Hl H. unfold end_group in H.
  assert (Hne : local <> "") by (intros ->; discriminate).
  destruct (String.eqb_spec local (p_current p)) as [Hc|Hc]; cbn [andb] in H.
  - destruct (Z.eqb_spec (p_in_group p) 1) as [Hg|Hg].
    + cbn [p_current set_in_group set_current] in H. destruct (String.eqb_spec local ""); [contradiction|].
      injection H as <- _. right; left. split; [exact Hc|]. split; [exact Hg|]. now rewrite Hg.
    + destruct (String.eqb_spec local (p_current p)); [|contradiction]. injection H as <- _. right; right. auto.
  - destruct (String.eqb_spec local (p_current p)); [contradiction|]. injection H as <- _. left. auto.
Qed.

End Doc.

(** Replace the remaining compound states by explicit ones. *)
Ltac shape :=
  repeat match goal with
  | |- context [on_top_element ?f ?p] =>
      let h := fresh "h" in let Hh := fresh "Hh" in
      destruct (on_top_element_shape f p) as [h [Hh ?]]; rewrite Hh; clear Hh
  end.

Ltac inv_token2 H t :=
  destruct t as [?local ?attrs|?local|?data|]; cbn [on_token] in H;
  [ unfold dispatch_start in H; split_title H; cbv zeta in H
  | unfold dispatch_end in H; split_title H
  | | ];
  try match type of H with
  | end_group _ _ _ = _ => apply end_group_shape in H; [|assumption]; destruct H as [[? ?]|[[? [? ?]]|[? [? ?]]]]
  | end_simple_type _ _ _ = _ =>
      apply end_simple_type_shape in H; [|congruence];
      destruct H as [H|[[? [? [? H]]]|[[? [? H]]|H]]]
  | Ret (on_char_data ?d ?p) _ = Ret _ _ =>
      injection H; clear H; intros; subst;
      let H1 := fresh "Hshape" in
      destruct (on_char_data_shape d p) as [H1|[[? [H1 ?]]|[[? [H1 ?]]|[[? [H1 ?]]|[[? [H1 ?]]|[? [H1 ?]]]]]]];
      rewrite H1; clear H1
  | _ => unfold_handlers; cbv zeta in *; inv_ret
  end; subst; shape.

Section Doc2.
Context {E : Env}.
Variable gvt : string -> list proto -> World -> out string.

Lemma group_ok_step : forall t p w p' w', group_ok p -> on_token gvt t p w = Ret p' w' -> group_ok p'.
Proof.
  intros t p w p' w' Hok H.
  assert (HE : to_title "" <> "Group") by (rewrite to_title_empty; discriminate).
  inv_token2 H t; try exact Hok;
    try (apply (group_ok_same p); [exact Hok|reflexivity|reflexivity|];
         first [left; reflexivity | right; cbn; congruence]).
  all: try (repeat match goal with |- context [if ?b then _ else _] => destruct b end;
            apply (group_ok_same p); [exact Hok|reflexivity|reflexivity|];
            first [left; reflexivity | right; cbn; congruence]).
  - (* element *)
    destruct Hok as [H1' [H2' [H3' H4']]].
    unfold element_result. cbn [p_complex set_in_element p_in_group p_group].
    destruct (p_complex p); [destruct (Z.ltb_spec 0 (p_in_group p)) as [Hg|Hg]|];
      destruct (String.eqb (el_type x) ""); (split; [exact H1'|]; split; [|split]); cbn;
      try assumption; intros Hz; try lia; try (apply on_top_one; auto); auto; rewrite H2' by exact Hz; reflexivity.
  - destruct Hok as [H1' [H2' [H3' H4']]]. apply Z.eqb_eq in Heqb0. cbn in Heqb0.
    unfold group_ok. cbn. rewrite Heqb0. repeat split; try lia. intros _. rewrite (H2' Heqb0). now eexists.
  - destruct Hok as [H1' [H2' [H3' H4']]]. apply Z.ltb_lt in Heqb1. cbn in Heqb1.
    unfold group_ok. cbn. repeat split; try lia. intros _. cbn in Heql.
    destruct (H3' Heqb1) as [g' Hg']. rewrite Hg' in Heql. injection Heql as -> <-. now eexists.
  - destruct Hok as [H1' [H2' [H3' H4']]]. destruct (H3' ltac:(lia)) as [g Hg].
    unfold group_ok. cbn. rewrite Hg. repeat split; try lia; try congruence.
  - destruct Hok as [H1' [H2' [H3' H4']]]. specialize (H4' Htitle).
    unfold group_ok. cbn. repeat split; try lia. intros _. apply H3'. lia.
  - destruct (nonempty (p_simple p)); [|exact Hok].
    apply (group_ok_same p); [exact Hok|reflexivity|reflexivity|now left].
Qed.

Lemma group_ok_run : forall ts w p w', run_tokens gvt ts p_init w = Ret p w' -> group_ok p.
Proof.
  intros ts w p w' H. apply (run_tokens_inv gvt group_ok) with (ts := ts) (p := p_init) (w := w) (w' := w').
  - intros t q v q' v' Hq Ht. eapply group_ok_step; eassumption.
  - apply group_ok_init.
  - exact H.
Qed.

Lemma group_bookkeeping : forall ts w p w', run_tokens gvt ts p_init w = Ret p w' ->
  (0 <= p_in_group p)%Z /\ ((0 < p_in_group p)%Z <-> length (p_group p) = 1) /\
  (p_in_group p = 0%Z <-> p_group p = []).
Proof.
  intros ts w p w' H. apply group_ok_run in H as [H1 [H2 [H3 H4]]].
  split; [exact H1|]. split; split.
  - intros Hp. destruct (H3 Hp) as [g ->]. reflexivity.
  - intros Hl. destruct (Z.eq_dec (p_in_group p) 0) as [Hz|Hz]; [|lia]. rewrite (H2 Hz) in Hl. discriminate.
  - exact H2.
  - intros Hl. destruct (Z.eq_dec (p_in_group p) 0) as [Hz|Hz]; [exact Hz|].
    destruct H3 as [g Hg]; [lia|]. congruence.
Qed.

(** * C20, one document *)

Lemma bind_no_panic : forall A B (m : out A) (f : A -> World -> out B),
  no_panic m -> (forall a w, m = Ret a w -> no_panic (f a w)) -> no_panic (bind m f).
Proof.
  intros A B [a w|e w|c w] f Hm Hf; cbn; [now apply Hf|discriminate|].
  intros w' H. injection H as -> ->. now apply (Hm w').
Qed.

Hypothesis gvt_no_panic : forall v t w, no_panic (gvt v t w).

Ltac np := repeat first
  [ apply gvt_no_panic
  | match goal with
    | |- no_panic (Ret _ _) => discriminate
    | |- no_panic (Fail _ _) => discriminate
    | |- no_panic (bind _ _) => apply bind_no_panic; [|intros]
    | |- no_panic (if ?b then _ else _) => destruct b eqn:?
    | |- no_panic (match ?l with [] => _ | _ :: _ => _ end) => destruct l eqn:?
    | |- no_panic (match ?o with Some _ => _ | None => _ end) => destruct o eqn:?
    end ].

Lemma attribute_attrs_np : forall tree l a w, no_panic (attribute_attrs gvt tree l a w).
Proof. intros tree l. induction l as [|x l IH]; intros a w; cbn [attribute_attrs]; np; auto. Qed.
Lemma attrgroup_attrs_np : forall tree l a w, no_panic (attrgroup_attrs gvt tree l a w).
Proof. intros tree l. induction l as [|x l IH]; intros a w; cbn [attrgroup_attrs]; np; auto. Qed.
Lemma choice_attrs_np : forall l a w, no_panic (choice_attrs l a w).
Proof. intros l. induction l as [|x l IH]; intros a w; cbn [choice_attrs]; np; auto. Qed.
Lemma element_attrs_np : forall tree l a w, no_panic (element_attrs gvt tree l a w).
Proof. intros tree l. induction l as [|x l IH]; intros a w; cbn [element_attrs]; np; auto. Qed.
Lemma extension_attrs_np : forall tree l a w, no_panic (extension_attrs gvt tree l a w).
Proof. intros tree l. induction l as [|x l IH]; intros a w; cbn [extension_attrs]; np; auto. Qed.
Lemma group_attrs_np : forall tree l a w, no_panic (group_attrs gvt tree l a w).
Proof. intros tree l. induction l as [|x l IH]; intros a w; cbn [group_attrs]; np; auto. Qed.
Lemma list_attrs_np : forall tree l a w, no_panic (list_attrs gvt tree l a w).
Proof. intros tree l. induction l as [|x l IH]; intros a w; cbn [list_attrs]; np; auto. Qed.
Lemma restriction_attrs_np : forall tree l a w, no_panic (restriction_attrs gvt tree l a w).
Proof. intros tree l. induction l as [|x l IH]; intros a w; cbn [restriction_attrs]; np; auto. Qed.
Lemma union_members_np : forall tree l a w, no_panic (union_members gvt tree l a w).
Proof. intros tree l. induction l as [|x l IH]; intros a w; cbn [union_members]; np; auto. Qed.
Lemma union_attrs_np : forall tree l a w, no_panic (union_attrs gvt tree l a w).
Proof. intros tree l. induction l as [|x l IH]; intros a w; cbn [union_attrs]; np; auto using union_members_np. Qed.

Lemma place_element_np : forall i p w, no_panic (place_element i p w).
Proof. intros i p w. destruct (place_element_ret i p w) as [p' ->]. discriminate. Qed.

Lemma base_to_np : forall pop p w, no_panic (base_to_attribute gvt pop p w) /\ no_panic (base_to_element gvt pop p w).
Proof. intros pop p w. unfold base_to_attribute, base_to_element. split; np. Qed.

(** Which token panics. *)
Lemma on_token_np : forall t p w, group_ok p ->
  match t with
  | TStart local l =>
      tag "CharData" local = false /\
      (tag "ComplexType" local = true -> p_element p <> [] \/ (p_complex p = [] /\ name_attr l "" <> ""))
  | _ => True
  end -> no_panic (on_token gvt t p w).
Proof.
  intros t p w Hok Ht.
  pose proof attribute_attrs_np. pose proof attrgroup_attrs_np. pose proof choice_attrs_np.
  pose proof element_attrs_np. pose proof extension_attrs_np. pose proof group_attrs_np.
  pose proof list_attrs_np. pose proof restriction_attrs_np. pose proof union_attrs_np.
  pose proof place_element_np. pose proof (fun pop p w => proj1 (base_to_np pop p w)).
  pose proof (fun pop p w => proj2 (base_to_np pop p w)).
  destruct t as [local l|local|d|]; cbn [on_token]; try discriminate.
  - destruct Ht as [Hch Hct]. unfold dispatch_start.
    repeat match goal with
    | |- no_panic (if String.eqb (to_title ?l) ?h then _ else _) =>
        destruct (String.eqb_spec (to_title l) h)
    end; try discriminate.
    all: try (apply tag_false in Hch; [congruence|known]).
    all: unfold on_element, end_element; unfold_handlers; cbv zeta; cbn [p_complex p_element set_in_element set_current p_in_element].
    all: try solve [np; auto].
    + (* complexType *)
      assert (Htag : tag "ComplexType" local = true) by (apply tag_true; [known|assumption]).
      specialize (Hct Htag). destruct (p_complex p) as [|c cs] eqn:Hc; cbn [nonempty].
      * destruct (String.eqb_spec (name_attr l "") "") as [Hn|Hn]; [|discriminate].
        destruct Hct as [Hct|[_ Hct]]; [|contradiction]. destruct (p_element p); [contradiction|discriminate].
      * destruct Hct as [Hct|[Hct _]]; [|discriminate]. destruct (p_element p); [contradiction|discriminate].
    + (* group *)
      np; auto. exfalso. destruct Hok as [_ [_ [Hg _]]]. cbn in *.
      destruct Hg as [g Hg]; [lia|]. congruence.
  - unfold dispatch_end.
    repeat match goal with
    | |- no_panic (if String.eqb (to_title ?l) ?h then _ else _) =>
        destruct (String.eqb_spec (to_title l) h)
    end; unfold_handlers; cbv zeta; try solve [np; auto].
Qed.

Lemma name_attr_last : forall l init, name_attr l init =
  match last_of ["name"] l with Some v => v | None => init end.
Proof.
  intros l. induction l as [|x l IH]; intros init; [reflexivity|].
  unfold name_attr in *. cbn [fold_left]. rewrite IH, last_of_cons. cbn [existsb].
  destruct (last_of ["name"] l); [reflexivity|]. destruct (String.eqb (a_local x) "name"); reflexivity.
Qed.

Lemma values_of_one : forall k l, values_of [k] l = values k l.
Proof.
  intros k l. unfold values_of, values. f_equal. apply filter_ext. intros x. cbn. apply orb_false_r.
Qed.

(** How tokens change the two facts the panic depends on. *)
Lemma complex_depth : forall t p w p' w', on_token gvt t p w = Ret p' w' ->
  length (p_complex p') <=
  match t with
  | TStart local _ => if tag "ComplexType" local then S (length (p_complex p)) else length (p_complex p)
  | TEnd local => if tag "ComplexType" local then pred (length (p_complex p)) else length (p_complex p)
  | _ => length (p_complex p)
  end.
Proof.
  intros t p w p' w' H.
  assert (HC : forall local, tag "ComplexType" local = String.eqb (to_title local) "ComplexType")
    by (intros; apply tag_known; known).
  assert (HI : forall local, (if tag "ComplexType" local then length (p_complex p) else length (p_complex p)) = length (p_complex p))
    by (intros local; destruct (tag "ComplexType" local); reflexivity).
  inv_token2 H t; rewrite ?HC; repeat match goal with H : to_title _ = _ |- _ => rewrite H; clear H end;
    cbn; repeat match goal with |- context [if ?b then _ else _] => destruct b eqn:? end; cbn;
    rewrite ?on_top_length; try lia;
    try match goal with H : String.eqb (to_title _) "ComplexType" = true |- _ => apply String.eqb_eq in H; congruence end.
  - unfold element_result. cbn. destruct (p_complex p) eqn:Hpc; [destruct (0 <? p_in_group p)%Z|];
      destruct (String.eqb (el_type x) ""); cbn; rewrite ?Hpc; cbn; lia.
  - cbn in H0. lia.
  - destruct (p_complex p); cbn; lia.
Qed.

Lemma fresh_element : forall local l p w p' w', tag "Element" local = true -> lacks "type" l -> lacks "ref" l ->
  on_token gvt (TStart local l) p w = Ret p' w' -> p_element p' <> [].
Proof.
  intros local l p w p' w' Ht H1 H2 H. rewrite (start_dispatch gvt "Element") in H by (exact Ht || known).
  cbn -[on_element] in H. apply on_element_ret in H as [e0 [t [w1 [He0 [_ [_ ->]]]]]].
  apply element_attrs_name in He0 as [_ [_ [_ Hty]]].
  assert (Hnone : last_of ["type"; "ref"] l = None).
  { clear -H1 H2. induction l as [|x l IH]; [reflexivity|]. inversion_clear H1 as [|? ? Hx1 Hl1].
    inversion_clear H2 as [|? ? Hx2 Hl2]. rewrite last_of_cons, IH by assumption. cbn [existsb].
    apply String.eqb_neq in Hx1 as ->. apply String.eqb_neq in Hx2 as ->. reflexivity. }
  rewrite Hnone in Hty. cbn in Hty. rewrite Hty. cbn [String.eqb].
  unfold element_result. cbn. destruct (p_complex p); [destruct (0 <? p_in_group p)%Z|]; cbn; discriminate.
Qed.

Lemma existsb_unknown : forall local,
  existsb (fun h => tag h local) (start_tags ++ end_tags) = false -> unknown local.
Proof.
  intros local H h Hh. apply in_or_app in Hh.
  destruct (tag h local) eqn:Ht; [|reflexivity].
  assert (existsb (fun h => tag h local) (start_tags ++ end_tags) = true) by (apply existsb_exists; now exists h).
  congruence.
Qed.

Lemma on_char_data_element : forall d p, p_element (on_char_data d p) = p_element p.
Proof.
  intros d p. destruct (on_char_data_shape d p) as [->|[[x [-> _]]|[[x [-> _]]|[[x [-> _]]|[[x [-> _]]|[x [-> _]]]]]]]; reflexivity.
Qed.

Lemma run_fits : forall ts d fresh p w, group_ok p -> length (p_complex p) <= d ->
  (fresh = true -> p_element p <> []) -> fits d fresh ts -> no_panic (run_tokens gvt ts p w).
Proof.
  intros ts. induction ts as [|t ts IH]; intros d fresh p w Hok Hd Hf Hfit; [discriminate|].
  cbn [run_tokens].
  assert (Hct : forall l, tag "ComplexType" l = true -> tag "Element" l = false).
  { intros l Hl. apply tag_title in Hl; [|known]. apply tag_false; [known|]. rewrite Hl. discriminate. }
  apply bind_no_panic.
  - apply on_token_np; [exact Hok|]. destruct t as [local l|local|c|]; auto. cbn [fits] in Hfit.
    destruct (tag "CharData" local); [contradiction|]. split; [reflexivity|]. intros Ht.
    rewrite (Hct _ Ht), Ht in Hfit. destruct Hfit as [[->|[-> [n [Hn Hne]]]] _].
    + left. now apply Hf.
    + right. split; [now destruct (p_complex p); [|cbn in Hd; lia]|].
      rewrite name_attr_last. unfold last_of. rewrite values_of_one. now rewrite Hn.
  - intros p' w' Ht. pose proof (group_ok_step _ _ _ _ _ Hok Ht) as Hok'.
    pose proof (complex_depth _ _ _ _ _ Ht) as Hdep.
    destruct t as [local l|local|c|]; cbn [fits] in Hfit.
    + destruct (tag "CharData" local); [contradiction|].
      destruct (tag "Element" local) eqn:Hel.
      { assert (Hnc : tag "ComplexType" local = false).
        { destruct (tag "ComplexType" local) eqn:Hc; [|reflexivity]. apply Hct in Hc. congruence. }
        rewrite Hnc in Hdep. destruct Hfit as [[H1 [H2 Hfit]]|Hfit].
        - apply (IH d true); [exact Hok'|lia| |exact Hfit]. intros _. now apply (fresh_element _ _ _ _ _ _ Hel H1 H2 Ht).
        - apply (IH d false); [exact Hok'|lia|discriminate|exact Hfit]. }
      destruct (tag "ComplexType" local).
      { destruct Hfit as [_ Hfit]. apply (IH (S d) false); [exact Hok'|lia|discriminate|exact Hfit]. }
      destruct (existsb _ _) eqn:Hex.
      { apply (IH d false); [exact Hok'|lia|discriminate|exact Hfit]. }
      apply existsb_unknown in Hex. rewrite unknown_start in Ht by exact Hex. injection Ht as <- <-.
      apply (IH d fresh); [exact Hok'|exact Hd|exact Hf|exact Hfit].
    + destruct (tag "ComplexType" local).
      { apply (IH (pred d) false); [exact Hok'|lia|discriminate|exact Hfit]. }
      destruct (existsb _ _) eqn:Hex.
      { apply (IH d false); [exact Hok'|lia|discriminate|exact Hfit]. }
      apply existsb_unknown in Hex. rewrite unknown_end in Ht by exact Hex. injection Ht as <- <-.
      apply (IH d fresh); [exact Hok'|exact Hd|exact Hf|exact Hfit].
    + cbn in Ht. injection Ht as <- <-. apply (IH d fresh); [exact Hok'|lia| |exact Hfit].
      intros Hfr. rewrite on_char_data_element. now apply Hf.
    + cbn in Ht. injection Ht as <- <-. now apply (IH d fresh).
Qed.

Lemma document_no_panic : forall ts w, fits 0 false ts -> no_panic (run_tokens gvt ts p_init w).
Proof.
  intros ts w H. apply (run_fits ts 0 false); [apply group_ok_init|cbn; lia|discriminate|exact H].
Qed.

End Doc2.
