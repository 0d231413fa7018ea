(** The causes of errors. *)

From Coq Require Import String Ascii List Arith NArith ZArith Bool Lia.
From Verif Require Import GoStr GoPath Base Utils GenGo GenC GenJava GenRust GenTS World Handlers Parser
  StrLemmas StrProofs PathProofs Reify SpecStr SpecDoc DocLemmas SpecTables TableProofs SpecGen SpecOut SpecFile SpecParse Effects
  ParserProofs ParseFacts FileProofs WholeProofs SpecProject SpecError.
Import ListNotations.
Local Open Scope string_scope.

Section Tokens.
Context {E : Env}.
Variable gvt : string -> list proto -> World -> out string.
Variables (tree : list proto) (ask : string -> Prop).

(** An error of a handler is an error of the resolver, or a bad maxOccurs. *)
Definition blame (occurs : string -> Prop) {A} (m : out A) : Prop :=
  forall e w', m = Fail e w' ->
    (exists v, e = EAtoi v /\ occurs v /\ ~ occurs_ok v) \/ exists v w1, ask v /\ gvt v tree w1 = Fail e w'.

Lemma blame_bind : forall oc A B (m : out A) (f : A -> World -> out B), blame oc m ->
  (forall a w, m = Ret a w -> blame oc (f a w)) -> blame oc (bind m f).
Proof.
  intros oc A B m f Hm Hf e w' H. destruct m as [a w|e1 w|c w]; cbn in H.
  - now apply (Hf a w eq_refl).
  - apply Hm. congruence.
  - discriminate.
Qed.

Lemma blame_ret : forall oc A (a : A) w, blame oc (Ret a w).
Proof. intros oc A a w e w' H. discriminate. Qed.

Lemma blame_crash : forall oc A c w, blame oc (@Crash A c w).
Proof. intros oc A c w e w' H. discriminate. Qed.

Lemma blame_ask : forall oc v w, ask v -> blame oc (gvt v tree w).
Proof. intros oc v w Hv e w' H. right. eauto. Qed.

Lemma blame_impl : forall (oc oc' : string -> Prop) A (m : out A), (forall v, oc v -> oc' v) -> blame oc m -> blame oc' m.
Proof. intros oc oc' A m Hi Hm e w' H. destruct (Hm e w' H) as [[v [H1 [H2 H3]]]|H1]; [left; exists v; auto|now right]. Qed.

Definition tag_asks (l : list xattr) : Prop := forall x u, In x l -> names_in x u ->
  ask u /\ forall v wa wb, gvt u tree wa = Ret v wb -> ask v.

Lemma asks_cons : forall x l, tag_asks (x :: l) ->
  (forall u, names_in x u -> ask u /\ forall v wa wb, gvt u tree wa = Ret v wb -> ask v) /\ tag_asks l.
Proof. intros x l H. split; [intros u; apply H; now left|]. intros y u Hy. apply H. now right. Qed.

Ltac key x := match goal with |- context [String.eqb (a_local x) ?k] => destruct (String.eqb_spec (a_local x) k) as [?Hk|?Hk] end.
Ltac named := match goal with H : forall u, names_in ?x u -> _ |- ask (a_value ?x) => apply H; left; split; [|reflexivity];
  match goal with Hk : a_local x = _ |- _ => rewrite Hk; cbn; tauto end end.
Ltac answered := match goal with H : forall u, names_in ?x u -> _, G : gvt (a_value ?x) tree _ = Ret ?t _ |- ask ?t =>
  apply (proj2 (H (a_value x) ltac:(left; split; [match goal with Hk : a_local x = _ |- _ => rewrite Hk; cbn; tauto end|reflexivity])) _ _ _ G) end.

Definition none (v : string) : Prop := False.

Lemma attribute_blame : forall l a w, tag_asks l -> blame none (attribute_attrs gvt tree l a w).
Proof.
  intros l. induction l as [|x l IH]; intros a w Hl; [apply blame_ret|].
  apply asks_cons in Hl as [Hx Hl]. cbn [attribute_attrs]. cbv zeta.
  key x; [apply blame_bind; [apply blame_ask; named|intros; now apply IH]|].
  key x; [now apply IH|]. key x; [apply blame_bind; [apply blame_ask; named|intros; now apply IH]|].
  key x; now apply IH.
Qed.

Lemma attrgroup_blame : forall l a w, tag_asks l -> blame none (attrgroup_attrs gvt tree l a w).
Proof.
  intros l. induction l as [|x l IH]; intros a w Hl; [apply blame_ret|].
  apply asks_cons in Hl as [Hx Hl]. cbn [attrgroup_attrs]. cbv zeta.
  key x; [now apply IH|]. key x; [apply blame_bind; [apply blame_ask; named|intros; now apply IH]|now apply IH].
Qed.

Lemma group_blame : forall l a w, tag_asks l -> blame none (group_attrs gvt tree l a w).
Proof.
  intros l. induction l as [|x l IH]; intros a w Hl; [apply blame_ret|].
  apply asks_cons in Hl as [Hx Hl]. cbn [group_attrs]. cbv zeta.
  key x; [now apply IH|]. key x; [apply blame_bind; [apply blame_ask; named|intros; now apply IH]|].
  key x; now apply IH.
Qed.

Lemma values_cons : forall k x l v, In v (values k l) -> In v (values k (x :: l)).
Proof. intros k x l v H. unfold values in *. cbn. destruct (String.eqb _ _); [now right|exact H]. Qed.

Lemma values_here : forall k x l, a_local x = k -> In (a_value x) (values k (x :: l)).
Proof. intros k x l <-. unfold values. cbn. rewrite String.eqb_refl. now left. Qed.

Definition occ (l : list xattr) (v : string) : Prop := In v (values "maxOccurs" l).

Lemma bad_blame : forall x l A w, a_local x = "maxOccurs" -> max_occurs (a_value x) = None ->
  blame (occ (x :: l)) (@Fail A (EAtoi (a_value x)) w).
Proof.
  intros x l A w Hx Hm e w' H. injection H as <- _. left. exists (a_value x). split; [reflexivity|].
  split; [now apply values_here|now apply max_occurs_none].
Qed.

Lemma choice_blame : forall l b w, blame (occ l) (choice_attrs l b w).
Proof.
  intros l. induction l as [|x l IH]; intros b w; [apply blame_ret|]. cbn [choice_attrs].
  assert (IH' : forall b w, blame (occ (x :: l)) (choice_attrs l b w))
    by (intros; eapply blame_impl; [|apply IH]; intros v; apply values_cons).
  key x; [|apply IH']. destruct (max_occurs (a_value x)) eqn:Hm; [apply IH'|now apply bad_blame].
Qed.

Lemma element_blame : forall l e w, tag_asks l -> blame (occ l) (element_attrs gvt tree l e w).
Proof.
  intros l. induction l as [|x l IH]; intros e w Hl; [apply blame_ret|].
  apply asks_cons in Hl as [Hx Hl]. cbn [element_attrs]. cbv zeta.
  assert (IH' : forall e w, blame (occ (x :: l)) (element_attrs gvt tree l e w))
    by (intros; eapply blame_impl; [|now apply IH]; intros v; apply values_cons).
  key x; [apply blame_bind; [apply blame_ask; named|intros; apply IH']|].
  key x; [apply IH'|]. key x; [apply blame_bind; [apply blame_ask; named|intros; apply IH']|].
  key x; [destruct (max_occurs (a_value x)) eqn:Hm; [apply IH'|now apply bad_blame]|].
  key x; apply IH'.
Qed.

(** The name of the element is one of the tag, or the one before. *)
Lemma element_name : forall l e w e' w', element_attrs gvt tree l e w = Ret e' w' ->
  el_name e' = el_name e \/ exists x, In x l /\ names_in x (el_name e').
Proof.
  intros l. induction l as [|x l IH]; intros e w e' w'; [intros H; injection H as <- _; now left|].
  cbn [element_attrs]. cbv zeta.
  assert (Hn : forall e1 w1, element_attrs gvt tree l e1 w1 = Ret e' w' ->
      el_name e1 = el_name e \/ names_in x (el_name e1) -> el_name e' = el_name e \/ exists x0, In x0 (x :: l) /\ names_in x0 (el_name e')).
  { intros e1 w1 H1 H2. destruct (IH _ _ _ _ H1) as [->|[y [Hy Hn]]].
    - destruct H2 as [->|H2]; [now left|]. right. exists x. split; [now left|exact H2].
    - right. exists y. split; [now right|exact Hn]. }
  key x.
  { destruct (gvt (a_value x) tree w) as [t w1|? ?|? ?]; cbn; intros H; try discriminate. apply (Hn _ _ H). right.
    left. split; [rewrite Hk; cbn; tauto|reflexivity]. }
  key x; [intros H; apply (Hn _ _ H); right; left; split; [rewrite Hk0; cbn; tauto|reflexivity]|].
  key x.
  { destruct (gvt (a_value x) tree w) as [t w1|? ?|? ?]; cbn; intros H; try discriminate. apply (Hn _ _ H). now left. }
  key x; [destruct (max_occurs _) as [[]|]; intros H; try discriminate; apply (Hn _ _ H); now left|].
  key x; intros H; apply (Hn _ _ H); left; [now destruct (String.eqb _ "0")|reflexivity].
Qed.

Lemma extension_blame : forall l p w, tag_asks l -> blame none (extension_attrs gvt tree l p w).
Proof.
  intros l. induction l as [|x l IH]; intros p w Hl; [apply blame_ret|].
  apply asks_cons in Hl as [Hx Hl]. cbn [extension_attrs].
  key x; [|now apply IH]. apply blame_bind; [apply blame_ask; named|]. intros t w1 Ht.
  destruct (nonempty _); [|now apply IH]. apply blame_bind; [apply blame_ask; answered|]. intros; now apply IH.
Qed.

Lemma restriction_blame : forall l p w, tag_asks l -> blame none (restriction_attrs gvt tree l p w).
Proof.
  intros l. induction l as [|x l IH]; intros p w Hl; [apply blame_ret|].
  apply asks_cons in Hl as [Hx Hl]. cbn [restriction_attrs].
  key x; [|now apply IH]. apply blame_bind; [apply blame_ask; named|]. intros t w1 Ht.
  destruct (nonempty _); [|now apply IH]. apply blame_bind; [apply blame_ask; answered|]. intros; now apply IH.
Qed.

Lemma list_blame : forall l p w, tag_asks l -> blame none (list_attrs gvt tree l p w).
Proof.
  intros l. induction l as [|x l IH]; intros p w Hl; [apply blame_ret|].
  apply asks_cons in Hl as [Hx Hl]. cbn [list_attrs].
  key x; [|now apply IH]. apply blame_bind; [apply blame_ask; named|]. intros; now apply IH.
Qed.

Lemma members_blame : forall ms p w, (forall m, In m ms -> ask m) -> blame none (union_members gvt tree ms p w).
Proof.
  intros ms. induction ms as [|m ms IH]; intros p w H; [apply blame_ret|]. cbn [union_members].
  apply blame_bind; [apply blame_ask, H; now left|]. intros; apply IH. intros; apply H; now right.
Qed.

Lemma union_blame : forall l p w, tag_asks l -> blame none (union_attrs gvt tree l p w).
Proof.
  intros l. induction l as [|x l IH]; intros p w Hl; [apply blame_ret|].
  apply asks_cons in Hl as [Hx Hl]. cbn [union_attrs]. key x; [|now apply IH].
  apply blame_bind; [|intros; now apply IH]. apply members_blame. intros m Hm. apply Hx. right. now split.
Qed.

End Tokens.

Section Errors.
Context {E : Env}.
Variable gvt : string -> list proto -> World -> out string.

Lemma blame_same : forall tree tree' ask oc A (m : out A), tree = tree' -> blame gvt tree ask oc m -> blame gvt tree' ask oc m.
Proof. now intros tree tree' ask oc A m ->. Qed.

Lemma place_blame : forall tree ask oc i p w, blame gvt tree ask oc (place_element i p w).
Proof. intros. unfold place_element. destruct (nonempty _); [apply blame_ret|]. destruct (0 <? _)%Z; apply blame_ret. Qed.

Lemma to_attribute_blame : forall (ask : string -> Prop) b p w, (forall s r, p_simple p = s :: r -> ask (st_base s)) ->
  blame gvt (freeze p) ask none (base_to_attribute gvt b p w).
Proof.
  intros ask b p w H. unfold base_to_attribute. destruct (p_attribute p); [apply blame_ret|]. destruct (p_simple p) as [|s r] eqn:Hs; [apply blame_ret|].
  apply blame_bind; [apply blame_ask; now apply (H s r)|]. intros; apply blame_ret.
Qed.

Lemma to_element_blame : forall (ask : string -> Prop) b p w, (forall s r, p_simple p = s :: r -> ask (st_base s)) ->
  blame gvt (freeze p) ask none (base_to_element gvt b p w).
Proof.
  intros ask b p w H. unfold base_to_element. destruct (p_simple p) as [|s r] eqn:Hs; [apply blame_ret|]. destruct (p_element p); [apply blame_ret|].
  apply blame_bind; [apply blame_ask; now apply (H s r)|]. intros; apply blame_ret.
Qed.

(** After the attribute on top got its type, the components are the same; the
    innermost simple type is the same or the one below. *)
Lemma to_attribute_keeps : forall b p w p' w', base_to_attribute gvt b p w = Ret p' w' ->
  freeze p' = freeze p /\ (p' = p \/ p_simple p' = if b then tl (p_simple p) else p_simple p).
Proof.
  intros b p w p' w'. unfold base_to_attribute. destruct (p_attribute p); [intros H; injection H as <- _; auto|].
  destruct (p_simple p) as [|s r] eqn:Hs; [intros H; injection H as <- _; auto|].
  destruct (gvt (st_base s) (freeze p) w) as [t w1|? ?|? ?]; cbn; intros H; try discriminate.
  injection H as <- _. split; [reflexivity|]. right. now destruct b.
Qed.

Definition token_occurs (t : token) (v : string) : Prop :=
  exists local l, t = TStart local l /\ (tag "Element" local = true \/ tag "Choice" local = true) /\ In v (values "maxOccurs" l).

Lemma blame_none : forall tree ask oc A (m : out A), blame gvt tree ask none m -> blame gvt tree ask oc m.
Proof. intros tree ask oc A m H. eapply blame_impl; [|exact H]. intros v []. Qed.

Lemma element_tag_blame : forall (ask : string -> Prop) l q w,
  tag_asks gvt (freeze q) ask l -> ask "" -> blame gvt (freeze q) ask (occ l) (on_element gvt l q w).
Proof.
  intros ask l q w Hl H0. unfold on_element. apply blame_bind; [now apply element_blame|]. intros e w1 He. cbv zeta.
  destruct (String.eqb (el_type e) ""); [|apply place_blame]. apply blame_bind; [|intros; apply place_blame].
  apply blame_ask. destruct (element_name gvt (freeze q) ask l zero_element w e w1 He) as [Hn|[x [Hx Hn]]]; [now rewrite Hn|now apply (Hl x)].
Qed.

Lemma token_blame : forall t q w, blame gvt (freeze q) (asks gvt q t) (token_occurs t) (on_token gvt t q w).
Proof.
  intros t q w. destruct t as [local l|local|data|]; [| |apply blame_ret|apply blame_ret].
  - cbn [on_token]. set (ask := asks gvt q (TStart local l)).
    assert (Ha : tag_asks gvt (freeze q) ask l).
    { intros x u Hx Hu. split; [right; exists x, u; auto|]. intros v wa wb Hv. right. exists x, u. eauto 8. }
    assert (Hoc : tag "Element" local = true \/ tag "Choice" local = true -> forall v, occ l v -> token_occurs (TStart local l) v)
      by (intros Ht v Hv; exists local, l; auto).
    unfold dispatch_start. cbv zeta. set (q' := set_in_element local q). change (freeze q) with (freeze q') in *.
    assert (T : forall h, String.eqb (to_title local) h = true -> In h all_tags -> tag h local = true)
      by (intros h Hh Hi; apply tag_true; [exact Hi|now apply String.eqb_eq]).
    repeat match goal with |- context [if String.eqb (to_title local) ?h then _ else _] =>
      destruct (String.eqb (to_title local) h) eqn:?Hh end;
      try apply blame_ret; try apply blame_crash.
    + apply blame_none. unfold on_attribute. apply blame_bind; [now apply attribute_blame|intros; apply blame_ret].
    + apply blame_none. unfold on_attribute_group. apply blame_bind; [now apply attrgroup_blame|intros]. destruct (nonempty _); apply blame_ret.
    + unfold on_choice. apply blame_bind; [|intros; apply blame_ret].
      eapply blame_impl; [|apply choice_blame]. apply Hoc. right. apply T; [exact Hh2|]. cbn; tauto.
    + unfold on_complex_type. destruct (nonempty _); cbv zeta; [destruct (p_element q'); [apply blame_crash|apply blame_ret]|].
      destruct (String.eqb (name_attr l "") ""); [|apply blame_ret]. match goal with |- context [p_element ?p] => destruct (p_element p) end;
      [apply blame_crash|apply blame_ret].
    + eapply blame_impl; [|apply element_tag_blame; [exact Ha|]].
      * apply Hoc. left. apply T; [exact Hh4|]. cbn; tauto.
      * left. split; [reflexivity|]. apply T; [exact Hh4|]. cbn; tauto.
    + apply blame_none. now apply extension_blame.
    + apply blame_none. unfold on_group. apply blame_bind; [now apply group_blame|intros g w1 _]. cbv zeta. destruct (nonempty _); [apply blame_ret|].
      destruct (_ =? 0)%Z; [apply blame_ret|]. destruct (0 <? _)%Z; [|apply blame_ret]. destruct (p_group q'); [apply blame_crash|apply blame_ret].
    + apply blame_none. unfold on_list. destruct (nonempty _); [|apply blame_ret]. now apply list_blame.
    + apply blame_none. now apply restriction_blame.
    + apply blame_none. unfold on_union. cbv zeta. destruct (nonempty _); [|apply blame_ret]. now apply union_blame.
  - cbn [on_token]. set (ask := asks gvt q (TEnd local)). apply blame_none.
    assert (Ha : forall s r, p_simple q = s :: r -> ask (st_base s)) by (intros s r Hs; exists s; split; [rewrite Hs; now left|reflexivity]).
    assert (Hb : forall b p w p' w', p = q -> base_to_attribute gvt b p w = Ret p' w' -> freeze q = freeze p' /\ forall s r, p_simple p' = s :: r -> ask (st_base s)).
    { intros b p w1 p' w' -> H. destruct (to_attribute_keeps _ _ _ _ _ H) as [H1 H2]. split; [now rewrite H1|]. intros s r Hs.
      exists s. split; [|reflexivity]. destruct H2 as [->|H2]; [rewrite Hs; now left|]. rewrite Hs in H2. destruct b.
      - destruct (p_simple q); [discriminate|]. cbn in H2. subst. now right; left.
      - rewrite <- H2. now left. }
    unfold dispatch_end. cbv zeta.
    repeat match goal with |- context [if String.eqb (to_title local) ?h then _ else _] =>
      destruct (String.eqb (to_title local) h) eqn:?Hh end; try apply blame_ret.
    + unfold end_attribute. destruct (p_attribute q); [apply blame_ret|]. cbv zeta. repeat (destruct (nonempty _); [apply blame_ret|]). apply blame_ret.
    + unfold end_attribute_group. destruct (p_attrgroup q); apply blame_ret.
    + unfold end_element. destruct (p_element q); [apply blame_ret|]. destruct (nonempty _); apply blame_ret.
    + unfold end_enumeration. apply blame_bind; [now apply to_attribute_blame|]. intros p w1 H.
      destruct (Hb _ _ _ _ _ eq_refl H) as [-> H2]. now apply to_element_blame.
    + now apply to_attribute_blame.
    + unfold end_pattern. apply blame_bind; [now apply to_attribute_blame|]. intros p w1 H.
      destruct (Hb _ _ _ _ _ eq_refl H) as [-> H2]. now apply to_element_blame.
    + unfold end_restriction. apply blame_bind; [now apply to_attribute_blame|]. intros p w1 H. destruct (p_element p); apply blame_ret.
    + unfold end_simple_type. destruct (p_simple q); [apply blame_ret|]. destruct (p_attribute q); apply blame_ret.
    + destruct (in_set _ _); [|apply blame_ret]. now apply to_element_blame.
Qed.

Lemma run_blame : forall ts p w e w', run_tokens gvt ts p w = Fail e w' ->
  (exists t v, In t ts /\ e = EAtoi v /\ token_occurs t v /\ ~ occurs_ok v) \/
  exists before t after q w1 v w2, ts = (before ++ t :: after)%list /\ run_tokens gvt before p w = Ret q w1 /\ asks gvt q t v /\
    gvt v (freeze q) w2 = Fail e w'.
Proof.
  intros ts. induction ts as [|t ts IH]; intros p w e w' H; [discriminate|]. cbn [run_tokens] in H.
  destruct (on_token gvt t p w) as [p1 w1|e1 w1|c w1] eqn:Ht; cbn in H; [|injection H as -> ->|discriminate].
  - destruct (IH _ _ _ _ H) as [[x [v [Hx Hv]]]|[b [x [a [q [w2 [v [w3 [-> [H2 H3]]]]]]]]]].
    + left. exists x, v. split; [now right|exact Hv].
    + right. exists (t :: b), x, a, q, w2, v, w3. split; [reflexivity|]. split; [|exact H3]. cbn [run_tokens]. now rewrite Ht.
  - destruct (token_blame t p w _ _ Ht) as [[v [H1 [H2 H3]]]|[v [w2 [H1 H2]]]].
    + left. exists t, v. split; [now left|]. auto.
    + right. exists [], t, ts, p, w, v, w2. auto.
Qed.

End Errors.

Section Parse.
Context {E : Env}.

Lemma get0_location : forall v w, location v w (get0 (get0 (get_ns_prefix v) (w_lns w)) (w_nsl w)).
Proof.
  intros v w. change (get_ns_prefix v) with (prefix_part v). exists (get0 (prefix_part v) (w_lns w)). unfold get0. split.
  - destruct (get (prefix_part v) (w_lns w)); auto.
  - match goal with |- context [get ?k (w_nsl w)] => destruct (get k (w_nsl w)) end; auto.
Qed.

(** The resolver reports nothing but a missing schema file; errors of nested
    parses are not passed on. *)
Lemma gvt_error : forall rec fuel o v t w e w', get_value_type rec fuel o v t w = Fail e w' ->
  o_extract o = false /\ exists file, e = EStat file /\ w' = w /\ missing_reference o v t w file.
Proof.
  intros rec fuel o v t w e w'. unfold get_value_type. cbv zeta. change (trim_ns_prefix v) with (local_part v).
  rewrite representation_eq. destruct (representation (o_lang o) (local_part v)) eqn:Hr; [discriminate|].
  destruct (negb (String.eqb (get_base (local_part v) t) (local_part v)) && negb (String.eqb (get_base (local_part v) t) "")) eqn:Hb; [discriminate|].
  destruct (o_extract o); [discriminate|]. set (loc := get0 _ _).
  destruct (is_valid_url loc) eqn:Hu; [discriminate|].
  assert (Hm : stat (join2 (o_dir o) loc) w = SNotExist \/ stat (join2 (o_dir o) loc) w = SErr ->
    missing_reference o v t w (join2 (o_dir o) loc)).
  { intros Hs. split; [exact Hr|]. split; [now apply undecided_base|]. exists loc. split; [apply get0_location|].
    split; [intros H; apply url_spec in H; congruence|]. now split. }
  destruct (stat (join2 (o_dir o) loc) w) as [|bytes| |].
  - assert (Hl : forall n vis vt ini w0 e' w1, include_loop rec n o (local_part v) ini vis vt w0 <> Fail e' w1).
    { intros n. induction n as [|n IH]; intros vis vt ini w0 e' w1; [discriminate|].
      cbn [include_loop]. destruct (nth_error _ _) as [k|]; [|discriminate].
      destruct (rec _ _) as [p w2|e1 w2|c w2]; [|discriminate|discriminate]. apply IH. }
    destruct (include_loop _ _ _ _ _ _ _ _) as [[]| |] eqn:Hi; try discriminate. now apply Hl in Hi.
  - intros H. exfalso. revert H.
    assert (Ha : forall found w, match rec (nested o (join2 (o_dir o) loc) true) w with
                | Crash c w => Crash c w | Fail _ w => Ret found w | Ret p w => Ret (get_base (local_part v) (freeze p)) w end <> Fail e w')
      by (intros f w0; destruct (rec _ w0); discriminate).
    destruct (get _ (w_pmap w)) as [dep|].
    + match goal with |- context [if ?b then _ else _] => destruct b end; [discriminate|apply Ha].
    + destruct (rec _ w) as [p w1|e1 w1|c w1]; [|discriminate|discriminate]. match goal with |- context [if ?b then _ else _] => destruct b end; [discriminate|apply Ha].
  - intros H. injection H as <- <-. split; [reflexivity|]. eexists. split; [reflexivity|]. split; [reflexivity|]. apply Hm. now left.
  - intros H. injection H as <- <-. split; [reflexivity|]. eexists. split; [reflexivity|]. split; [reflexivity|]. apply Hm. now right.
Qed.

Lemma create_error : forall path s w, create_write path s w = None -> path <> "" -> uncreatable path w.
Proof.
  intros path s w H Hp. unfold create_write in H. unfold uncreatable. destruct (env_create_fail path); [now left|].
  apply String.eqb_neq in Hp. rewrite Hp in H. cbn in H.
  destruct (lookup (w_fs w) path); auto; destruct (lookup (w_fs w) (dir path)); try discriminate; right; right; right; discriminate.
Qed.

Lemma extension_nonempty : forall p l f, with_extension p (extension l) f -> f <> "".
Proof.
  intros p l f [[[a Ha] ->]|[_ ->]] H.
  - rewrite H in Ha. destruct a; destruct l; discriminate.
  - destruct p; destruct l; discriminate.
Qed.

Lemma generate_error : forall name pkg file pt w e w', generate name pkg file pt w = Fail e w' ->
  exists l f, selects name l /\ with_extension file (extension l) f /\
    (e = ECreate f /\ uncreatable f w' \/
     e = EGofmt /\ l = Go /\ exists text, file_text Go pkg pt text false /\ get (clean f) (w_fs w') = Some (NFile (env_write f text))).
Proof.
  intros name pkg file pt w e w' H.
  destruct (generate_failed _ _ _ _ _ _ _ H) as [l [f [Hl [Hf Ho]]]]. exists l, f. split; [exact Hl|]. split; [exact Hf|].
  pose proof (extension_nonempty _ _ _ Hf) as Hn.
  assert (Hc : forall l0 f0 s w0, selects name l0 -> with_extension file (extension l0) f0 -> create_write f0 s w0 = None -> e = ECreate f0 -> w' = w0 ->
     e = ECreate f /\ uncreatable f w').
  { intros l0 f0 s w0 H1 H2 H3 -> ->. rewrite <- (selects_unique _ _ _ Hl H1) in H2.
    assert (f0 = f) as -> by (apply with_extension_spec in Hf, H2; congruence). split; [reflexivity|]. now apply (create_error f s). }
  assert (Hl0 : l = Go \/ l <> Go) by (destruct l; [now left|right; discriminate..]). destruct Hl0 as [->|Hg].
  - assert (Ht : to_title name = "Go") by now apply selects_title in Hl.
    unfold generate in H. rewrite Ht in H. cbn in H. unfold gen_go in H.
    assert (Hx : with_extension file ".go" (file_with_extension file ".go")) by (change ".go" with (extension Go); now apply with_extension_spec).
    destruct (env_gofmt _) as [s|] eqn:Hfm.
    + destruct (create_write _ s _) eqn:Hw; [discriminate|]. injection H as <- <-. left. now apply (Hc Go _ _ _ Hl Hx Hw).
    + destruct (create_write _ _ _) eqn:Hw; injection H as <- <-.
      * right. split; [reflexivity|]. split; [reflexivity|]. apply create_effect in Hw as [-> _].
        assert (Hwr : written name pkg pt ".go" (go_fallback pkg (run_entries go_entry pt)) false) by (left; auto).
        destruct (written_file _ _ _ _ _ _ Hwr) as [l' [Hl' [_ Htx]]]. rewrite <- (selects_unique _ _ _ Hl Hl') in Htx.
        eexists. split; [exact Htx|]. cbn [w_fs set_fs].
        assert (file_with_extension file ".go" = f) as -> by (apply with_extension_spec in Hf; now symmetry).
        now rewrite get_put_same.
      * left. now apply (Hc Go _ _ _ Hl Hx Hw).
  - left. destruct (generate_plain name pkg file pt w l Hl Hg) as [s [f0 [w0 [_ [H2 [_ H4]]]]]]. rewrite H in H4.
    destruct (create_write f0 s w0) eqn:Hw; [discriminate|]. injection H4 as He Hw'. now apply (Hc l f0 s w0).
Qed.

Theorem parse_error : forall d fuel o w e w', parse (S d) fuel o w = Fail e w' -> cause d fuel o w e w'.
Proof.
  intros d fuel o w e w' H. cbn [parse] in H. unfold parse_body in H.
  destruct (stat (o_file o) w) as [|b| |] eqn:Hs; [discriminate| | |].
  2: injection H as <- <-; apply ca_stat; now left.
  2: injection H as <- <-; apply ca_stat; now right.
  destruct (env_open_fail (o_file o)) eqn:Hop; [injection H as <- <-; now apply (ca_open _ _ _ _ b)|]. cbv zeta in H.
  match type of H with bind ?m _ = _ => destruct m as [p w1|e1 w1|c w1] eqn:Hr end; cbn [bind] in H; [|injection H as -> ->|discriminate].
  - unfold finish in H. destruct (o_extract o) eqn:He; [discriminate|]. cbv zeta in H.
    destruct (prepare_output_dir (dir (output_path o)) (register o (freeze p) w1)) as [w2 ok] eqn:Hp.
    destruct ok; [|discriminate].
    destruct (generate (o_lang o) (o_package o) (output_path o) (freeze p) w2) as [u w3|e3 w3|c w3] eqn:Hg; cbn [bind] in H; [discriminate|injection H as -> ->|discriminate].
    destruct (generate_error _ _ _ _ _ _ _ Hg) as [l [f [Hl [Hf [[-> Hu]|[-> [-> [text [Ht Hn]]]]]]]]].
    + apply (ca_create _ _ _ _ b l f); auto. exists (output_path o). split; [now apply place_spec|exact Hf].
    + apply (ca_gofmt _ _ _ _ b (freeze p) f text); auto.
      * exists (output_path o). split; [now apply place_spec|exact Hf].
      * pose proof (generate_effect (o_lang o) (o_package o) (output_path o) (freeze p) w2) as G. cbv zeta in G. rewrite Hg in G. cbn [out_world] in G.
        destruct G as [_ [_ [_ [_ [_ [-> _]]]]]]. destruct (prepare_effect _ _ _ _ Hp) as [[fs ->] _]. cbn. apply get_put_same.
  - destruct (run_blame _ _ _ _ _ _ Hr) as [[t [v [Ht [-> [[local [l [-> [Hl Hv]]]] Hb]]]]]|[before [t [after [q [w2 [v [w3 [Hts [Hq [Ha Hg]]]]]]]]]]].
    + now apply (ca_occurs _ _ _ _ b local l v).
    + destruct (gvt_error _ _ _ _ _ _ _ _ Hg) as [He [file [-> [<- Hm]]]]. rewrite He in Hq.
      now apply (ca_missing _ _ _ _ b before t after q w2 v file).
Qed.

(** * The process ends *)

Lemma mkdirs_fail : forall all cs fs, (forall a, In a all -> forall b, get a fs <> Some (NFile b)) -> incl cs all ->
  (forall c, In c cs -> incl (lineage c) all /\ clean c = c) -> snd (mkdirs fs cs) = false -> exists c, In c cs /\ env_mkdir_fail c = true.
Proof.
  intros all cs fs Hf Hi Hl H.
  destruct (existsb env_mkdir_fail cs) eqn:He; [apply existsb_exists in He as [c Hc]; now exists c|]. exfalso.
  revert fs Hf H. induction cs as [|c cs IH]; intros fs Hf H; [discriminate|]. cbn in He. apply orb_false_iff in He as [He1 He2].
  cbn [mkdirs] in H. destruct (Hl c (or_introl eq_refl)) as [Hlc Hcc].
  assert (Hd : exists fs1, mkdir1 fs c = (fs1, true) /\ forall a, In a all -> forall b, get a fs1 <> Some (NFile b)).
  { unfold mkdir1. destruct (lookup fs c) eqn:Hk.
    - exists fs. auto.
    - exfalso. unfold lookup in Hk. rewrite Hcc in Hk. destruct (implicit_dir c); [discriminate|].
      destruct (get c fs) as [[|b]|] eqn:Hg; [discriminate|apply (Hf c (Hi c (or_introl eq_refl)) b Hg)|].
      destruct (existsb (is_file fs) (lineage c)); discriminate.
    - rewrite He1. exists (put c NDir fs). split; [reflexivity|]. intros a Ha b.
      destruct (string_dec c a) as [<-|Hne]; [rewrite get_put_same; discriminate|]. rewrite get_put_other by exact Hne. now apply Hf.
    - exfalso. unfold lookup in Hk. rewrite Hcc in Hk. destruct (implicit_dir c); [discriminate|].
      destruct (get c fs) as [[|b]|] eqn:Hg; [discriminate|discriminate|].
      destruct (existsb (is_file fs) (lineage c)) eqn:Hx; [|discriminate]. apply existsb_exists in Hx as [a [Ha Hfa]].
      unfold is_file in Hfa. destruct (get a fs) as [[|b]|] eqn:Hga; try discriminate. now apply (Hf a (Hlc a Ha) b). }
  destruct Hd as [fs1 [H1 H2]]. rewrite H1 in H.
  apply (IH (fun d Hd => Hi d (or_intror Hd)) (fun d Hd => Hl d (or_intror Hd)) He2 fs1 H2 H).
Qed.

Lemma prepare_fail : forall path w w', prepare_output_dir path w = (w', false) -> exists c, In c (lineage path) /\ env_mkdir_fail c = true.
Proof.
  intros path w w' H. unfold prepare_output_dir in H. destruct (String.eqb path "") eqn:Hp; [discriminate|].
  destruct (stat path w) eqn:Hs; try discriminate.
  destruct (mkdirs (w_fs w) (lineage path)) as [fs ok] eqn:Hm. injection H as <- ->.
  apply (mkdirs_fail (lineage path) (lineage path) (w_fs w)); [|apply incl_refl| |now rewrite Hm].
  - unfold stat in Hs. destruct (env_stat_fail path); [discriminate|]. rewrite Hp in Hs. unfold lookup in Hs.
    destruct (implicit_dir (clean path)); [discriminate|]. destruct (get (clean path) (w_fs w)) as [[|b]|]; try discriminate.
    destruct (existsb (is_file (w_fs w)) (lineage path)) eqn:Hx; [discriminate|]. intros a Ha b Hb.
    rewrite <- not_true_iff_false in Hx. apply Hx. apply existsb_exists. exists a. split; [exact Ha|]. unfold is_file. now rewrite Hb.
  - intros c Hc. split; [|now apply lineage_clean in Hc]. intros b Hb. now apply (lineage_trans path c b).
Qed.

Definition may_exit (o : Options) (c : crash) : Prop := c = Exit1 -> exit_cause o.

Lemma exit_nested : forall o file e, o_extract o = false -> exit_cause (nested o file e) -> exit_cause o.
Proof.
  intros o file e He [H1 [o' [p [c [H2 H3]]]]]. split; [exact He|]. exists o', p, c. split; [|exact H3]. right. cbn in H1. subst e.
  destruct H2 as [->|[f ->]]; [now exists file|now exists f].
Qed.

Theorem parse_exit : forall d fuel o w w', parse d fuel o w = Crash Exit1 w' -> exit_cause o.
Proof.
  assert (H : forall d fuel o w, Reify.good (fun _ => True) (may_exit o) (parse d fuel o w)).
  { intros d fuel. induction d as [|d IH]; intros o w; [split; [exact I|discriminate]|]. cbn [parse]. unfold parse_body.
    destruct (stat (o_file o) w) as [|b| |]; try (split; exact I). destruct (env_open_fail _); [split; exact I|]. cbv zeta.
    match goal with |- context [run_tokens ?g ?ts p_init ?w0] => set (gvt := g); set (w1 := w0) end.
    assert (Hg : forall v t w, Reify.good (fun _ => True) (may_exit o) (gvt v t w)).
    { intros v t w2. subst gvt. unfold get_value_type. cbv zeta. destruct (get_build_in_type _ _); [split; exact I|].
      destruct (_ && _); [split; exact I|]. destruct (o_extract o) eqn:He; [split; exact I|].
      assert (Hn : forall file e w, Reify.good (fun _ => True) (may_exit o) (parse d fuel (nested o file e) w)).
      { intros file e w3. destruct (IH (nested o file e) w3) as [_ Hc]. split; [exact I|].
        destruct (parse d fuel (nested o file e) w3); try exact I. intros Hx. now apply (exit_nested o file e), Hc. }
      destruct (is_valid_url _); [split; exact I|]. destruct (stat _ w2); try (split; exact I).
      - assert (Hl : forall n vis vt ini w0, Reify.good (fun _ => True) (may_exit o) (include_loop (parse d fuel) n o (trim_ns_prefix v) ini vis vt w0)).
        { intros n. induction n as [|n IHn]; intros vis vt ini w0; [split; [exact I|discriminate]|]. cbn [include_loop].
          destruct (nth_error _ _) as [k|]; [|split; exact I].
          destruct (Hn (join2 (o_dir o) k) true (set_tick (S (w_tick w0)) w0)) as [_ Hc]. destruct (parse d fuel _ _); [apply IHn|split; exact I|now split]. }
        destruct (Hl fuel [] "" (w_inc w2) w2) as [_ Hc]. destruct (include_loop _ _ _ _ _ _ _ _) as [[]| |]; cbn; [split; exact I|split; exact I|split; exact I|now split].
      - assert (Ha : forall file found w, Reify.good (fun _ => True) (may_exit o) (match parse d fuel (nested o file true) w with
                | Crash c w => Crash c w | Fail _ w => Ret found w | Ret p w => Ret (get_base (trim_ns_prefix v) (freeze p)) w end)).
        { intros file found w3. destruct (Hn file true w3) as [_ Hc]. destruct (parse d fuel _ w3); now split. }
        destruct (get _ (w_pmap w2)).
        + destruct (_ && _); [split; exact I|apply Ha].
        + match goal with |- context [parse d fuel ?n w2] => destruct (Hn (o_file n) false w2) as [_ Hc] end. cbn [o_file nested] in Hc.
          destruct (parse d fuel _ w2); [|split; exact I|now split]. destruct (_ && _); [split; exact I|apply Ha]. }
    destruct (r_run_tokens (env_tokens b) p_init) as [g [Hi Ho]].
    assert (Hr : Reify.good (fun _ => True) (may_exit o) (run_tokens gvt (env_tokens b) p_init w1)).
    { rewrite Hi. apply (interp_inv _ _ _ _ _ g Ho); auto. discriminate. }
    destruct Hr as [_ Hr]. destruct (run_tokens gvt (env_tokens b) p_init w1) as [p w2|e w2|c w2]; cbn [bind]; [|split; exact I|now split].
    unfold finish. destruct (o_extract o) eqn:He; [split; exact I|]. cbv zeta.
    destruct (prepare_output_dir (dir (output_path o)) (register o (freeze p) w2)) as [w3 ok] eqn:Hp. destruct ok.
    - pose proof (generate_effect (o_lang o) (o_package o) (output_path o) (freeze p) w3) as [G _].
      destruct (generate _ _ _ _ w3) as [u w4|e w4|c w4]; cbn; [split; exact I|split; exact I|]. now elim (G c).
    - split; [exact I|]. intros _. apply prepare_fail in Hp as [c [Hc Hm]]. split; [exact He|].
      exists o, (output_path o), c. split; [now left|]. split; [now apply place_spec|]. now split. }
  intros d fuel o w w' Hp. destruct (H d fuel o w) as [_ Hc]. rewrite Hp in Hc. now apply Hc.
Qed.

End Parse.
