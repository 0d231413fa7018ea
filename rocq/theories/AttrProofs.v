(** Attributes that are not looked at: C59. *)

From Coq Require Import String Ascii List Arith NArith ZArith Bool Lia.
From Verif Require Import GoStr GoPath Utf8 Base Utils World Handlers Parser SpecDoc DocLemmas Reify SpecParse SimProofs SpecAttr.
Import ListNotations.
Local Open Scope string_scope.

Section Attrs.
Context {E : Env}.
Variable gvt : string -> list proto -> World -> out string.

(** Loops that agree on two lists agree on their extensions to the left. *)
Ltac stepped := cbn; repeat match goal with
  | |- context [if String.eqb (a_local ?x) ?k then _ else _] => destruct (String.eqb (a_local x) k)
  | |- bind (gvt ?v ?t ?w) _ = bind (gvt ?v ?t ?w) _ => destruct (gvt v t w); cbn
  | |- context [match max_occurs ?v with _ => _ end] => destruct (max_occurs v)
  | |- context [if nonempty ?v then _ else _] => destruct (nonempty v)
  | |- ?a = ?a => reflexivity
  end; auto.

Ltac left_ext := let l1 := fresh "l" in let x := fresh "x" in let IH := fresh "IH" in let H := fresh "H" in
  intros t s s' H l1; induction l1 as [|x l1 IH]; intros a w; [apply H|]; stepped.

Lemma attribute_left : forall t s s', (forall a w, attribute_attrs gvt t s a w = attribute_attrs gvt t s' a w) ->
  forall l1 a w, attribute_attrs gvt t (l1 ++ s) a w = attribute_attrs gvt t (l1 ++ s') a w.
Proof. left_ext. Qed.

Lemma attrgroup_left : forall t s s', (forall a w, attrgroup_attrs gvt t s a w = attrgroup_attrs gvt t s' a w) ->
  forall l1 a w, attrgroup_attrs gvt t (l1 ++ s) a w = attrgroup_attrs gvt t (l1 ++ s') a w.
Proof. left_ext. Qed.

Lemma element_left : forall t s s', (forall a w, element_attrs gvt t s a w = element_attrs gvt t s' a w) ->
  forall l1 a w, element_attrs gvt t (l1 ++ s) a w = element_attrs gvt t (l1 ++ s') a w.
Proof. left_ext. Qed.

Lemma group_left : forall t s s', (forall a w, group_attrs gvt t s a w = group_attrs gvt t s' a w) ->
  forall l1 a w, group_attrs gvt t (l1 ++ s) a w = group_attrs gvt t (l1 ++ s') a w.
Proof. left_ext. Qed.

Lemma extension_left : forall t s s', (forall a w, extension_attrs gvt t s a w = extension_attrs gvt t s' a w) ->
  forall l1 a w, extension_attrs gvt t (l1 ++ s) a w = extension_attrs gvt t (l1 ++ s') a w.
Proof. left_ext. Qed.

Lemma restriction_left : forall t s s', (forall a w, restriction_attrs gvt t s a w = restriction_attrs gvt t s' a w) ->
  forall l1 a w, restriction_attrs gvt t (l1 ++ s) a w = restriction_attrs gvt t (l1 ++ s') a w.
Proof. left_ext. Qed.

Lemma list_left : forall t s s', (forall a w, list_attrs gvt t s a w = list_attrs gvt t s' a w) ->
  forall l1 a w, list_attrs gvt t (l1 ++ s) a w = list_attrs gvt t (l1 ++ s') a w.
Proof. left_ext. Qed.

Lemma union_left : forall t s s', (forall a w, union_attrs gvt t s a w = union_attrs gvt t s' a w) ->
  forall l1 a w, union_attrs gvt t (l1 ++ s) a w = union_attrs gvt t (l1 ++ s') a w.
Proof.
  intros t s s' H l1. induction l1 as [|x l1 IH]; intros a w; [apply H|]. cbn.
  destruct (String.eqb _ _); [|apply IH]. destruct (union_members gvt t _ a w); cbn; [apply IH|reflexivity|reflexivity].
Qed.

Lemma choice_left : forall s s', (forall a w, choice_attrs s a w = choice_attrs s' a w) ->
  forall l1 a w, choice_attrs (l1 ++ s) a w = choice_attrs (l1 ++ s') a w.
Proof. intros s s' H l1. induction l1 as [|x l1 IH]; intros a w; [apply H|]. stepped. Qed.

Lemma nsl_left : forall s s', (forall n m, prepare_nsl s n m = prepare_nsl s' n m) ->
  forall l1 n m, prepare_nsl (l1 ++ s) n m = prepare_nsl (l1 ++ s') n m.
Proof. intros s s' H l1. induction l1 as [|x l1 IH]; intros n m; [apply H|]. cbn. apply IH. Qed.

Lemma fold_left_ext : forall {A B} (f : A -> B -> A) s s', (forall a, fold_left f s a = fold_left f s' a) ->
  forall l1 a, fold_left f (l1 ++ s) a = fold_left f (l1 ++ s') a.
Proof. intros A B f s s' H l1 a. rewrite !fold_left_app. apply H. Qed.

(** What a handler does with the attributes [l], as one function of the list. *)
Lemma start_ext : forall local l l',
  (tag "Attribute" local = true -> forall t a w, attribute_attrs gvt t l a w = attribute_attrs gvt t l' a w) ->
  (tag "AttributeGroup" local = true -> forall t a w, attrgroup_attrs gvt t l a w = attrgroup_attrs gvt t l' a w) ->
  (tag "Choice" local = true -> forall a w, choice_attrs l a w = choice_attrs l' a w) ->
  (tag "ComplexType" local = true -> forall n, name_attr l n = name_attr l' n) ->
  (tag "Element" local = true -> forall t a w, element_attrs gvt t l a w = element_attrs gvt t l' a w) ->
  (tag "Enumeration" local = true -> forall p w, on_enumeration l p w = on_enumeration l' p w) ->
  (tag "Extension" local = true -> forall t a w, extension_attrs gvt t l a w = extension_attrs gvt t l' a w) ->
  (tag "Group" local = true -> forall t a w, group_attrs gvt t l a w = group_attrs gvt t l' a w) ->
  (tag "Import" local = true -> forall n m, prepare_nsl l n m = prepare_nsl l' n m) ->
  (tag "Include" local = true -> forall p w, on_include l p w = on_include l' p w) ->
  (tag "List" local = true -> forall t a w, list_attrs gvt t l a w = list_attrs gvt t l' a w) ->
  (tag "Restriction" local = true -> forall t a w, restriction_attrs gvt t l a w = restriction_attrs gvt t l' a w) ->
  (tag "Schema" local = true -> forall p w, on_schema l p w = on_schema l' p w) ->
  (tag "SimpleType" local = true -> forall n, name_attr l n = name_attr l' n) ->
  (tag "Union" local = true -> forall t a w, union_attrs gvt t l a w = union_attrs gvt t l' a w) ->
  forall p w, dispatch_start gvt local l p w = dispatch_start gvt local l' p w.
Proof.
  intros local l l' H1 H2 H3 H4 H5 H6 H7 H8 H9 H10 H11 H12 H13 H14 H15 p w.
  repeat match goal with H : tag ?h local = true -> _ |- _ => rewrite (tag_known h local) in H by (cbn; tauto) end.
  unfold dispatch_start. cbv zeta.
  destruct (String.eqb (to_title local) "Attribute"); [unfold on_attribute; rewrite (H1 eq_refl); reflexivity|].
  destruct (String.eqb (to_title local) "AttributeGroup"); [unfold on_attribute_group; rewrite (H2 eq_refl); reflexivity|].
  destruct (String.eqb (to_title local) "CharData"); [reflexivity|].
  destruct (String.eqb (to_title local) "Choice"); [unfold on_choice; rewrite (H3 eq_refl); reflexivity|].
  destruct (String.eqb (to_title local) "ComplexType"); [unfold on_complex_type; cbv zeta; rewrite (H4 eq_refl); reflexivity|].
  destruct (String.eqb (to_title local) "Element"); [unfold on_element; rewrite (H5 eq_refl); reflexivity|].
  destruct (String.eqb (to_title local) "Enumeration"); [now apply (H6 eq_refl)|].
  destruct (String.eqb (to_title local) "Extension"); [now apply (H7 eq_refl)|].
  destruct (String.eqb (to_title local) "Group"); [unfold on_group; rewrite (H8 eq_refl); reflexivity|].
  destruct (String.eqb (to_title local) "Import"); [unfold on_import; rewrite (H9 eq_refl); reflexivity|].
  destruct (String.eqb (to_title local) "Include"); [now apply (H10 eq_refl)|].
  destruct (String.eqb (to_title local) "List"); [unfold on_list; rewrite (H11 eq_refl); reflexivity|].
  destruct (String.eqb (to_title local) "Restriction"); [now apply (H12 eq_refl)|].
  destruct (String.eqb (to_title local) "Schema"); [now apply (H13 eq_refl)|].
  destruct (String.eqb (to_title local) "SimpleType"); [unfold on_simple_type|].
  { f_equal. f_equal. destruct (p_simple _); cbn; rewrite (H14 eq_refl); reflexivity. }
  destruct (String.eqb (to_title local) "Union"); [unfold on_union; rewrite (H15 eq_refl); reflexivity|].
  reflexivity.
Qed.

(** The three ways to differ. *)
Lemma not_named : forall local x h ks, ~ is_consulted local x -> In (h, ks) consulted -> tag h local = true ->
  forall k, In k ks -> String.eqb (a_local x) k = false.
Proof.
  intros local x h ks Hn Hi Ht k Hk. apply String.eqb_neq. intros <-. apply Hn. left. eauto.
Qed.

Lemma extra_start : forall local l1 x l2 p w, ~ is_consulted local x ->
  dispatch_start gvt local (l1 ++ x :: l2) p w = dispatch_start gvt local (l1 ++ l2) p w.
Proof.
  intros local l1 x l2 p w Hn.
  pose proof (fun h ks Hi => not_named local x h ks Hn Hi) as HN. unfold consulted in HN.
  Ltac none HN h ks Ht := let N := fresh in
    pose proof (HN h ks ltac:(cbn; tauto) Ht) as N; repeat (rewrite N by (cbn; tauto)).
  apply start_ext; intros Ht; intros.
  - apply attribute_left. intros. cbn. none HN "Attribute" ["ref"; "name"; "type"; "use"] Ht. reflexivity.
  - apply attrgroup_left. intros. cbn. none HN "AttributeGroup" ["name"; "ref"] Ht. reflexivity.
  - apply choice_left. intros. cbn. none HN "Choice" ["maxOccurs"] Ht. reflexivity.
  - unfold name_attr. apply fold_left_ext. intros. cbn. none HN "ComplexType" ["name"] Ht. reflexivity.
  - apply element_left. intros. cbn. none HN "Element" ["ref"; "name"; "type"; "maxOccurs"; "unbounded"] Ht. reflexivity.
  - unfold on_enumeration. do 2 f_equal. apply fold_left_ext. intros. cbn. none HN "Enumeration" ["value"] Ht. reflexivity.
  - apply extension_left. intros. cbn. none HN "Extension" ["base"] Ht. reflexivity.
  - apply group_left. intros. cbn. none HN "Group" ["name"; "ref"; "maxOccurs"] Ht. reflexivity.
  - apply nsl_left. intros. cbn. none HN "Import" ["namespace"; "schemaLocation"] Ht. reflexivity.
  - unfold on_include. do 2 f_equal. apply fold_left_ext. intros. cbn. none HN "Include" ["schemaLocation"] Ht. reflexivity.
  - apply list_left. intros. cbn. none HN "List" ["itemType"] Ht. reflexivity.
  - apply restriction_left. intros. cbn. none HN "Restriction" ["base"] Ht. reflexivity.
  - unfold on_schema. do 2 f_equal. apply fold_left_ext. intros. cbn.
    destruct (String.eqb_spec (a_space x) "xmlns") as [e|_]; [|reflexivity]. exfalso. apply Hn. now right.
  - unfold name_attr. apply fold_left_ext. intros. cbn. none HN "SimpleType" ["name"] Ht. reflexivity.
  - apply union_left. intros. cbn. none HN "Union" ["memberTypes"] Ht. reflexivity.
Qed.

Lemma space_start : forall local l1 sp sp' k v l2 p w, tag "Schema" local = false ->
  dispatch_start gvt local (l1 ++ mkAttr sp k v :: l2) p w = dispatch_start gvt local (l1 ++ mkAttr sp' k v :: l2) p w.
Proof.
  intros local l1 sp sp' k v l2 p w Hs.
  apply start_ext; intros Ht; intros.
  - apply attribute_left. reflexivity.
  - apply attrgroup_left. reflexivity.
  - apply choice_left. reflexivity.
  - unfold name_attr. apply fold_left_ext. reflexivity.
  - apply element_left. reflexivity.
  - unfold on_enumeration. do 2 f_equal. apply fold_left_ext. reflexivity.
  - apply extension_left. reflexivity.
  - apply group_left. reflexivity.
  - apply nsl_left. reflexivity.
  - unfold on_include. do 2 f_equal. apply fold_left_ext. reflexivity.
  - apply list_left. reflexivity.
  - apply restriction_left. reflexivity.
  - congruence.
  - unfold name_attr. apply fold_left_ext. reflexivity.
  - apply union_left. reflexivity.
Qed.

(** Two attributes of which neither is, or both are, looked at. *)
Ltac pairs Hne HO h ps Ht x y :=
  let N := fresh in
  assert (N : ~ In (a_local x, a_local y) ps /\ ~ In (a_local y, a_local x) ps)
    by (apply (HO h ps); [cbn; tauto|exact Ht]); cbn [In] in N;
  repeat match goal with
  | |- context [String.eqb (a_local ?z) ?k] => destruct (String.eqb_spec (a_local z) k)
  end; try reflexivity; try (exfalso; congruence);
  try (exfalso; destruct N as [N1 N2]; first [apply N1|apply N2]; intuition congruence).

Ltac single Hne x y := 
  repeat match goal with
  | |- context [String.eqb (a_local ?z) ?k] => destruct (String.eqb_spec (a_local z) k)
  end; try reflexivity; try (exfalso; congruence).

Ltac settle := cbn; repeat match goal with
  | |- context [gvt ?v ?t ?w] => destruct (gvt v t w); cbn
  | |- context [match max_occurs ?v with _ => _ end] => destruct (max_occurs v)
  | |- context [if ?b then _ else _] => destruct b
  end; reflexivity.

Lemma order_start : forall local l1 x y l2 p w, interchangeable local x y ->
  dispatch_start gvt local (l1 ++ x :: y :: l2) p w = dispatch_start gvt local (l1 ++ y :: x :: l2) p w.
Proof.
  intros local l1 x y l2 p w [Hne [Hs HO]]. unfold order_matters in HO.
  apply start_ext; intros Ht; intros.
  - apply attribute_left. intros. cbn. pairs Hne HO "Attribute" [("ref", "name"); ("ref", "type")] Ht x y; settle.
  - apply attrgroup_left. intros. cbn. pairs Hne HO "AttributeGroup" [("ref", "name")] Ht x y; settle.
  - apply choice_left. intros. cbn. single Hne x y.
  - unfold name_attr. apply fold_left_ext. intros. cbn. single Hne x y.
  - apply element_left. intros. cbn.
    pairs Hne HO "Element" [("ref", "name"); ("ref", "type"); ("ref", "maxOccurs"); ("type", "maxOccurs")] Ht x y; settle.
  - unfold on_enumeration. do 2 f_equal. apply fold_left_ext. intros. cbn. single Hne x y.
  - apply extension_left. intros. cbn. single Hne x y.
  - apply group_left. intros. cbn. pairs Hne HO "Group" [("ref", "name")] Ht x y; settle.
  - apply nsl_left. intros. cbn. pairs Hne HO "Import" [("namespace", "schemaLocation")] Ht x y.
  - unfold on_include. do 2 f_equal. apply fold_left_ext. intros. cbn. single Hne x y.
  - apply list_left. intros. cbn. single Hne x y.
  - apply restriction_left. intros. cbn. single Hne x y.
  - congruence.
  - unfold name_attr. apply fold_left_ext. intros. cbn. single Hne x y.
  - apply union_left. intros. cbn. single Hne x y.
Qed.

Lemma attrs_start : forall local l l', same_attrs local l l' ->
  forall p w, dispatch_start gvt local l p w = dispatch_start gvt local l' p w.
Proof.
  intros local l l' H. induction H; intros p w.
  - reflexivity.
  - now apply extra_start.
  - now apply space_start.
  - now apply order_start.
  - now rewrite IHsame_attrs.
  - now rewrite IHsame_attrs1.
Qed.

Lemma tags_run : forall ts ts', same_tags ts ts' -> forall p w, run_tokens gvt ts p w = run_tokens gvt ts' p w.
Proof.
  intros ts ts' H. induction H as [|t t' ts ts' Ht H IH]; intros p w; [reflexivity|]. cbn [run_tokens].
  assert (Hh : on_token gvt t p w = on_token gvt t' p w) by (destruct Ht as [local l l' Ha|t]; [now apply attrs_start|reflexivity]).
  rewrite Hh. destruct (on_token gvt t' p w); cbn; [apply IH|reflexivity|reflexivity].
Qed.

End Attrs.

Lemma tags_TE : forall {E : Env} ts ts' gvt w, same_tags ts ts' ->
  sim_out eq same_freeze (run_tokens gvt ts p_init w) (run_tokens gvt ts' p_init w).
Proof.
  intros E ts ts' gvt w H. rewrite (tags_run gvt ts ts' H). destruct (run_tokens gvt ts' p_init w); now constructor.
Qed.
