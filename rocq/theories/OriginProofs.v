(** The types in the components come from the tables or from the schemas. *)

From Coq Require Import String Ascii List NArith ZArith Bool Lia.
From Verif Require Import GoStr GoPath Base Utils SpecStr SpecTables World Handlers Parser Reify SpecParse SpecOrigin SpecSource
  StrLemmas StrLemmas DocLemmas TableProofs ParserProofs ProjectProofs SourceProofs StayProofs.
Import ListNotations.
Local Open Scope string_scope.

Local Infix "+++" := app (at level 60, right associativity).

Section Origin.
Context {E : Env}.
Variable lang : string.
Variable names : string -> Prop.

(** What holds of the world all the time. *)
Variable I : World -> Prop.
Hypothesis I_lns : forall m w, I w -> I (set_lns m w).
Hypothesis I_nsl : forall m w, I w -> I (set_nsl m w).
Hypothesis I_inc : forall m w, I w -> I (set_inc m w).

Definition good {A} (Q : A -> Prop) (m : out A) : Prop :=
  match m with Ret a w => Q a /\ I w | Fail _ w => I w | Crash _ _ => True end.

Lemma good_bind : forall A B (Q : A -> Prop) (Q' : B -> Prop) m f, good Q m -> (forall a w, Q a -> I w -> good Q' (f a w)) ->
  good Q' (bind m f).
Proof. intros A B Q Q' [a w|e w|c w] f H Hf; cbn in *; auto. destruct H. auto. Qed.

Notation T := (type_from lang names).
(** Names that the resolver may be asked for. *)
Definition asked (v : string) : Prop := names v \/ T v.

Definition node_types (n : pnode) : Prop := match n with PN t => comp_types lang names t | PRef _ => True end.

Definition inv (p : PState) : Prop :=
  Forall node_types (p_tree p) /\ Forall (element_types lang names) (p_heap p) /\ Forall (simple_types lang names) (p_simple p) /\
  Forall (complex_types lang names) (p_complex p) /\ Forall (attribute_types lang names) (p_attribute p) /\
  Forall (group_types lang names) (p_group p) /\ Forall (attrgroup_types lang names) (p_attrgroup p).

Lemma inv_init : inv p_init.
Proof. repeat split; constructor. Qed.

Lemma empty_from : T "".
Proof. now left. Qed.
Hint Resolve empty_from : core.

Lemma deref_types : forall h i, Forall (element_types lang names) h -> element_types lang names (deref h i).
Proof.
  intros h i H. unfold deref. revert i. induction H as [|e h He H IH]; intros [|i]; cbn; auto; apply empty_from.
Qed.

Lemma freeze_types : forall p, inv p -> Forall (comp_types lang names) (freeze p).
Proof.
  intros p [H1 [H2 _]]. unfold freeze. apply Forall_forall. intros t Ht. apply in_map_iff in Ht as [n [<- Hn]].
  rewrite Forall_forall in H1. specialize (H1 n Hn). destruct n as [t|i]; cbn; [exact H1|]. now apply deref_types.
Qed.

Lemma merge_types : forall e l l', Forall (element_types lang names) l -> merge_element e l = Some l' -> Forall (element_types lang names) l'.
Proof.
  intros e l l' H. revert l'. induction H as [|x l Hx H IH]; intros l'; cbn; [discriminate|].
  destruct (String.eqb _ _).
  - destruct (String.eqb _ _); [|discriminate]. intros Hl. injection Hl as <-. constructor; auto.
  - destruct (merge_element e l) as [r|]; [|discriminate]. intros Hl. injection Hl as <-. constructor; auto.
Qed.

Lemma add_types : forall e l, element_types lang names e -> Forall (element_types lang names) l -> Forall (element_types lang names) (add_element e l).
Proof.
  intros e l He Hl. unfold add_element. destruct (merge_element e l) as [l'|] eqn:Hm; [eapply merge_types; eauto|now apply app_from].
Qed.

Variable gvt : resolver.
Hypothesis Hgvt : forall v t w, asked v -> Forall (comp_types lang names) t -> I w -> good T (gvt v t w).

(** * Attributes *)

(** The attributes [l] of a tag [h] refer to known names. *)
Definition tag_refers (h : string) (l : list xattr) : Prop := forall x v, In x l ->
  ((exists ks, In (h, ks) reference_attributes /\ In (a_local x) ks /\
      (if String.eqb h "Union" then In v (split_on " " (a_value x)) else v = a_value x)) \/
   h = "Element" /\ a_local x = "name" /\ v = a_value x) -> names v.

Lemma tag_tail : forall h x l, tag_refers h (x :: l) -> tag_refers h l.
Proof. intros h x l H y v Hy. apply H. now right. Qed.

Lemma tag_head : forall h x l ks, tag_refers h (x :: l) -> In (h, ks) reference_attributes -> In (a_local x) ks -> String.eqb h "Union" = false ->
  asked (a_value x).
Proof. intros h x l ks H Hh Hk Hu. left. apply (H x); [now left|]. left. exists ks. rewrite Hu. auto. Qed.

Ltac key x := match goal with |- context [String.eqb (a_local x) ?k] => destruct (String.eqb_spec (a_local x) k) as [?Hk|?Hk] end.
Ltac ask := apply Hgvt; [eapply tag_head; [eassumption|cbn; eauto 12| |reflexivity];
  match goal with Hk : a_local ?x = _ |- In (a_local ?x) _ => rewrite Hk; cbn; tauto end|assumption|assumption].

Lemma attribute_good : forall tree l a w, Forall (comp_types lang names) tree -> tag_refers "Attribute" l -> attribute_types lang names a -> I w ->
  good (attribute_types lang names) (attribute_attrs gvt tree l a w).
Proof.
  intros tree l. induction l as [|x l IH]; intros a w Ht Hl Ha Hw; [now split|].
  assert (Hr := tag_tail _ _ _ Hl). cbn [attribute_attrs]. cbv zeta.
  key x; [apply (good_bind _ _ T); [ask|intros s w' Hs Hw'; now apply IH]|].
  key x; [now apply IH|]. key x; [apply (good_bind _ _ T); [ask|intros s w' Hs Hw'; now apply IH]|].
  key x; [|now apply IH]. apply IH; auto. now destruct (String.eqb _ _).
Qed.

Lemma attrgroup_good : forall tree l a w, Forall (comp_types lang names) tree -> tag_refers "AttributeGroup" l -> attrgroup_types lang names a -> I w ->
  good (attrgroup_types lang names) (attrgroup_attrs gvt tree l a w).
Proof.
  intros tree l. induction l as [|x l IH]; intros a w Ht Hl Ha Hw; [now split|].
  assert (Hr := tag_tail _ _ _ Hl). cbn [attrgroup_attrs]. cbv zeta. key x; [now apply IH|].
  key x; [apply (good_bind _ _ T); [ask|intros s w' Hs Hw'; apply IH; auto; split; [exact Hs|apply Ha]]|now apply IH].
Qed.

Ltac ingroup H := let H1 := fresh "Hgn" in let H3 := fresh "Hge" in let H4 := fresh "Hgg" in
  inversion H as [? H1 H3 H4]; subst; constructor; cbn; auto.

Lemma group_good : forall tree l a w, Forall (comp_types lang names) tree -> tag_refers "Group" l -> group_types lang names a -> I w ->
  good (group_types lang names) (group_attrs gvt tree l a w).
Proof.
  intros tree l. induction l as [|x l IH]; intros a w Ht Hl Ha Hw; [now split|].
  assert (Hr := tag_tail _ _ _ Hl). cbn [group_attrs]. cbv zeta. key x; [apply IH; auto; ingroup Ha|].
  key x; [apply (good_bind _ _ T); [ask|intros s w' Hs Hw'; apply IH; auto; ingroup Ha]|].
  key x; [|now apply IH]. apply IH; auto. destruct (String.eqb _ _); [exact Ha|ingroup Ha].
Qed.

Definition element_asks (e : Element) : Prop := element_types lang names e /\ asked (el_name e).

Lemma element_good : forall tree l e w, Forall (comp_types lang names) tree -> tag_refers "Element" l -> element_asks e -> I w ->
  good element_asks (element_attrs gvt tree l e w).
Proof.
  intros tree l. induction l as [|x l IH]; intros e w Ht Hl [He Hn] Hw; [now repeat split|].
  assert (Hr := tag_tail _ _ _ Hl). cbn [element_attrs]. cbv zeta.
  key x; [apply (good_bind _ _ T); [ask|intros s w' Hs Hw'; apply IH; auto; split; [exact Hs|]]|].
  { cbn. left. apply (Hl x); [now left|]. left. exists ["type"; "ref"]. split; [cbn; auto|]. split; [rewrite Hk; cbn; auto|reflexivity]. }
  key x; [apply IH; auto; split; [exact He|cbn; left; apply (Hl x); [now left|]; right; auto]|].
  key x; [apply (good_bind _ _ T); [ask|intros s w' Hs Hw'; apply IH; auto; split; [exact Hs|exact Hn]]|].
  key x; [destruct (max_occurs _) as [b|]; [apply IH; auto; split; now destruct b|exact Hw]|].
  key x; [|now apply IH]. apply IH; auto; split; now destruct (String.eqb _ _).
Qed.

Lemma choice_good : forall l b w, I w -> good (fun _ => True) (choice_attrs l b w).
Proof.
  induction l as [|x l IH]; intros b w Hw; [now split|]. cbn [choice_attrs]. destruct (String.eqb _ _); [|now apply IH].
  destruct (max_occurs _); [now apply IH|exact Hw].
Qed.

Ltac keep H := destruct H as [?H1 [?H2 [?H3 [?H4 [?H5 [?H6 ?H7]]]]]];
  split; [|split; [|split; [|split; [|split; [|split]]]]]; cbn; auto.
Ltac done H := split; [keep H|auto].

Lemma type_asked : forall t, T t -> asked t.
Proof. intros t H. now right. Qed.
Hint Resolve type_asked : core.

Lemma extension_good : forall tree l p w, Forall (comp_types lang names) tree -> tag_refers "Extension" l -> inv p -> I w ->
  good inv (extension_attrs gvt tree l p w).
Proof.
  intros tree l. induction l as [|x l IH]; intros p w Ht Hl Hp Hw; [now split|].
  assert (Hr := tag_tail _ _ _ Hl). cbn [extension_attrs]. key x; [|now apply IH].
  apply (good_bind _ _ T); [ask|]. intros s w' Hs Hw'. destruct (nonempty _); [|now apply IH].
  apply (good_bind _ _ T); [apply Hgvt; auto|]. intros s2 w2 Hs2 Hw2. apply IH; auto. keep Hp. apply top_from; [|assumption].
  intros c [_ Hc]. cbn. destruct (String.eqb _ _); (split; [exact Hs2|exact Hc]).
Qed.

Lemma restriction_good : forall tree l p w, Forall (comp_types lang names) tree -> tag_refers "Restriction" l -> inv p -> I w ->
  good inv (restriction_attrs gvt tree l p w).
Proof.
  intros tree l. induction l as [|x l IH]; intros p w Ht Hl Hp Hw; [now split|].
  assert (Hr := tag_tail _ _ _ Hl). cbn [restriction_attrs]. key x; [|now apply IH].
  apply (good_bind _ _ T); [ask|]. intros s w' Hs Hw'. destruct (nonempty _); [|now apply IH].
  apply (good_bind _ _ T); [apply Hgvt; auto|]. intros s2 w2 Hs2 Hw2. apply IH; auto. keep Hp. apply top_from; [|assumption].
  intros c [_ Hc]. cbn. destruct (String.eqb _ _); (split; [exact Hs2|exact Hc]).
Qed.

Lemma list_good : forall tree l p w, Forall (comp_types lang names) tree -> tag_refers "List" l -> inv p -> I w ->
  good inv (list_attrs gvt tree l p w).
Proof.
  intros tree l. induction l as [|x l IH]; intros p w Ht Hl Hp Hw; [now split|].
  assert (Hr := tag_tail _ _ _ Hl). cbn [list_attrs]. key x; [|now apply IH].
  apply (good_bind _ _ T); [ask|]. intros s w' Hs Hw'. apply IH; auto. keep Hp. apply top_from; [|assumption].
  intros c [_ Hc]. now split.
Qed.

Lemma put_snd : forall k (v : string) (m : smap string), T v -> Forall (fun e => T (snd e)) m -> Forall (fun e => T (snd e)) (put k v m).
Proof.
  intros k v m Hk H. induction H as [|[k' v'] m Hx H IH]; cbn; [constructor; [exact Hk|constructor]|].
  destruct (String.eqb _ _); constructor; auto.
Qed.

Lemma members_good : forall tree ms p w, Forall (comp_types lang names) tree -> (forall v, In v ms -> asked v) -> inv p -> I w ->
  good inv (union_members gvt tree ms p w).
Proof.
  intros tree ms. induction ms as [|m ms IH]; intros p w Ht Hl Hp Hw; [now split|]. cbn [union_members].
  apply (good_bind _ _ T); [apply Hgvt; [apply Hl; now left|exact Ht|exact Hw]|]. intros s w' Hs Hw'.
  apply IH; auto; [intros v Hv; apply Hl; now right|]. keep Hp. apply top_from; [|assumption].
  intros c [Hb Hc]. split; [exact Hb|]. cbn. now apply put_snd.
Qed.

Lemma union_good : forall tree l p w, Forall (comp_types lang names) tree -> tag_refers "Union" l -> inv p -> I w ->
  good inv (union_attrs gvt tree l p w).
Proof.
  intros tree l. induction l as [|x l IH]; intros p w Ht Hl Hp Hw; [now split|].
  assert (Hr := tag_tail _ _ _ Hl). cbn [union_attrs]. key x; [|now apply IH].
  apply (good_bind _ _ inv); [|intros q w' Hq Hw'; now apply IH]. apply members_good; auto. intros v Hv. left.
  apply (Hl x); [now left|]. left. exists ["memberTypes"]. split; [cbn; auto 12|]. split; [rewrite Hk; cbn; auto|exact Hv].
Qed.

(** * Handlers *)

Lemma char_types : forall d p, inv p -> inv (on_char_data d p).
Proof.
  intros d p Hp. unfold on_char_data. cbv zeta. generalize (trim_space d). clear d. intros d.
  destruct (String.eqb _ _); [exact Hp|].
  destruct (_ && _); [keep Hp; now apply top_from|].
  destruct (_ && _).
  { unfold on_top_element. destruct (p_element p); [exact Hp|]. keep Hp. now apply update_from. }
  destruct (nonempty _); [keep Hp; now apply top_from|].
  destruct (String.eqb _ _); [keep Hp; now apply top_from|].
  destruct (String.eqb _ _); [|exact Hp]. keep Hp. apply top_from; [|assumption].
  intros c [Ha [Hb [Hc Hd]]]. unfold complex_doc. destruct (ct_attributes c) as [|a l] eqn:Hl.
  - split; [exact Ha|]. split; [exact Hb|]. split; [cbn; rewrite Hl; constructor|exact Hd].
  - split; [exact Ha|]. split; [exact Hb|]. split; [|exact Hd]. cbn [ct_set_attributes ct_attributes].
    clear - Hc. induction Hc as [|x r Hx H IH]; [constructor|]. destruct r; cbn in *; constructor; auto.
Qed.

Lemma place_good : forall i p w, inv p -> I w -> good inv (place_element i p w).
Proof.
  intros i p w H Hw. unfold place_element. cbv zeta.
  set (h := update_nth i (fun e => el_set_plural (el_plural e || choice_plural p) e) (p_heap p)).
  assert (Hh : Forall (element_types lang names) h). { apply update_from; [auto|apply H]. }
  assert (He : element_types lang names (deref h i)) by now apply deref_types.
  clearbody h. cbn [p_complex set_heap p_in_group p_heap p_group].
  destruct (nonempty _).
  - done H. apply top_from; [|assumption]. intros c [Ha [Hb Hc]]. split; [exact Ha|]. split; [|exact Hc]. now apply add_types.
  - destruct (_ <? _)%Z; done H. apply top_from; [|assumption]. intros g Hg. ingroup Hg. now apply app_from.
Qed.

Lemma base_to_attribute_good : forall pop p w, inv p -> I w -> good inv (base_to_attribute gvt pop p w).
Proof.
  intros pop p w H Hw. unfold base_to_attribute. destruct (p_attribute p) as [|a r] eqn:Ha; [now split|].
  destruct (p_simple p) as [|s r'] eqn:Hs; [now split|].
  assert (Hf := freeze_types p H). assert (Hsb : Forall (simple_types lang names) (s :: r')) by (rewrite <- Hs; apply H).
  inversion Hsb as [|s0 r0 [Hb Hm] Hrest]; subst.
  apply (good_bind _ _ T); [apply Hgvt; auto|]. intros t w' Ht Hw'.
  done H; [rewrite Hs in *; destruct pop; [now inversion H3|assumption]|].
  rewrite Ha in *. inversion H5; subst. constructor; [exact Ht|assumption].
Qed.

Lemma base_to_element_good : forall pop p w, inv p -> I w -> good inv (base_to_element gvt pop p w).
Proof.
  intros pop p w H Hw. unfold base_to_element. destruct (p_simple p) as [|s r] eqn:Hs; [now split|].
  destruct (p_element p) as [|i r'] eqn:He; [now split|].
  assert (Hf := freeze_types p H). assert (Hsb : Forall (simple_types lang names) (s :: r)) by (rewrite <- Hs; apply H).
  inversion Hsb as [|s0 r0 [Hb Hm] Hrest]; subst.
  apply (good_bind _ _ T); [apply Hgvt; auto|]. intros t w' Ht Hw'. unfold on_top_element. rewrite He.
  done H; [now apply update_from|]. rewrite Hs in *. destruct pop; [now inversion H3|assumption].
Qed.

Lemma pop_types : forall A (Q : A -> Prop) mk st, (forall a, Q a -> comp_types lang names (mk a)) -> Forall Q st -> node_types (pop_node mk st).
Proof. intros A Q mk st Hm H. destruct H; cbn; auto. Qed.

Lemma start_good : forall local l p w, tag_refers (to_title local) l -> inv p -> I w -> good inv (dispatch_start gvt local l p w).
Proof.
  intros local l p w Hl H0 Hw. unfold dispatch_start. cbv zeta.
  assert (H : inv (set_in_element local p)) by exact H0. generalize dependent (set_in_element local p). clear p H0. intros p H.
  assert (Hf := freeze_types p H). generalize dependent (to_title local). intros m Hl.
  destruct (String.eqb_spec m "Attribute") as [->|_].
  { apply (good_bind _ _ (attribute_types lang names)); [apply attribute_good; auto; apply empty_from|]. intros a w' Ha Hw'. done H. }
  destruct (String.eqb_spec m "AttributeGroup") as [->|_].
  { apply (good_bind _ _ (attrgroup_types lang names)); [apply attrgroup_good; auto; split; [apply empty_from|constructor]|].
    intros a w' Ha Hw'. destruct (nonempty _); done H. apply top_from; [|assumption].
    intros c [Ha1 [Hb [Hc [Hd He]]]]. repeat (split; [assumption|]). now apply app_from. }
  destruct (String.eqb_spec m "CharData") as [->|_]; [exact Logic.I|].
  destruct (String.eqb_spec m "Choice") as [->|_].
  { apply (good_bind _ _ (fun _ => True)); [now apply choice_good|]. intros b w' _ Hw'. done H. }
  destruct (String.eqb_spec m "ComplexType") as [->|_].
  { unfold on_complex_type. cbv zeta.
    assert (Hanon : forall n, complex_types lang names (mkComplex "" n "" [] [] [] [])) by (intros n; split; [apply empty_from|repeat split; constructor]).
    destruct (nonempty _).
    - destruct (p_element p); [exact Logic.I|]. done H.
    - cbn [p_element set_current p_in_element p_heap]. destruct (String.eqb _ _).
      + destruct (p_element p); [exact Logic.I|]. done H.
      + done H. }
  destruct (String.eqb_spec m "Element") as [->|_].
  { unfold on_element. apply (good_bind _ _ element_asks); [apply element_good; auto; split; [apply empty_from|right; apply empty_from]|].
    intros e w' [He Hn] Hw'. cbv zeta. destruct (String.eqb _ _).
    - apply (good_bind _ _ T); [now apply Hgvt|]. intros t w2 Ht Hw2. apply place_good; [|exact Hw2]. keep H. now apply app_from.
    - apply place_good; [|exact Hw']. keep H. now apply app_from. }
  destruct (String.eqb_spec m "Enumeration") as [->|_].
  { unfold on_enumeration. assert (Hs : Forall (simple_types lang names) (p_simple p)) by apply H. done H.
    clear - Hs. revert Hs. generalize (p_simple p). induction l as [|x l IH]; intros st Hs; [exact Hs|]. cbn.
    apply IH. key x; [|exact Hs]. now apply top_from. }
  destruct (String.eqb_spec m "Extension") as [->|_]; [now apply extension_good|].
  destruct (String.eqb_spec m "Group") as [->|_].
  { apply (good_bind _ _ (group_types lang names)); [apply group_good; auto; constructor; cbn; auto|]. intros g w' Hg Hw'. cbv zeta.
    set (g2 := gr_set_plural _ g). assert (Hg2 : group_types lang names g2) by ingroup Hg. clearbody g2.
    destruct (nonempty _).
    { done H. apply top_from; [|assumption]. intros c Hc0. destruct (in_groups _ _); [exact Hc0|].
      destruct Hc0 as [Ha1 [Hb [Hc [Hd He]]]]. split; [exact Ha1|]. split; [exact Hb|]. split; [exact Hc|].
      split; [|exact He]. now apply app_from. }
    destruct (_ =? _)%Z; [done H|]. destruct (_ <? _)%Z; [|now split]. destruct (p_group p) as [|g0 r] eqn:Hpg; [exact Logic.I|].
    done H. rewrite Hpg in *. inversion H6; subst. constructor; [|assumption].
    match goal with Hq : group_types lang names g0 |- _ => ingroup Hq end. now apply app_from. }
  destruct (String.eqb_spec m "Import") as [->|_]; [split; auto|].
  destruct (String.eqb_spec m "Include") as [->|_]; [split; auto|].
  destruct (String.eqb_spec m "List") as [->|_].
  { unfold on_list. destruct (nonempty _); [|now split]. apply list_good; auto. keep H. now apply top_from. }
  destruct (String.eqb_spec m "Restriction") as [->|_]; [now apply restriction_good|].
  destruct (String.eqb_spec m "Schema") as [->|_]; [split; auto|].
  destruct (String.eqb_spec m "SimpleType") as [->|_].
  { unfold on_simple_type. done H. apply top_from; [auto|]. destruct (p_simple p); [|assumption]. repeat constructor. }
  destruct (String.eqb_spec m "Union") as [->|_]; [|now split].
  unfold on_union. cbv zeta. destruct (nonempty _); [|done H]. apply union_good; auto. keep H. apply top_from; [|assumption].
  intros s [Ha _]. split; [exact Ha|constructor].
Qed.

Lemma end_good : forall local p w, inv p -> I w -> good inv (dispatch_end gvt local p w).
Proof.
  intros local p w H Hw. unfold dispatch_end. cbv zeta.
  destruct (String.eqb _ _).
  { unfold end_attribute. destruct (p_attribute p) as [|a r] eqn:Ha; [now split|].
    assert (Hr : Forall (attribute_types lang names) (a :: r)) by (rewrite <- Ha; apply H). inversion Hr; subst.
    destruct (nonempty _).
    { done H. apply top_from; [|assumption]. intros g [Hg1 Hg2]. split; [exact Hg1|]. now apply app_from. }
    destruct (nonempty _).
    { done H. apply top_from; [|assumption]. intros c [Ha1 [Hb [Hc Hd]]]. split; [exact Ha1|]. split; [exact Hb|].
      split; [|exact Hd]. now apply app_from. }
    done H. now apply app_from. }
  destruct (String.eqb _ _).
  { unfold end_attribute_group. destruct (p_attrgroup p) as [|g r] eqn:Hg; [now split|].
    assert (Hr : Forall (attrgroup_types lang names) (g :: r)) by (rewrite <- Hg; apply H). inversion Hr; subst. done H. now apply app_from. }
  destruct (String.eqb _ _); [done H|].
  destruct (String.eqb _ _).
  { unfold end_complex_type. done H; [|now apply tl_from]. apply app_from; [assumption|]. now apply (pop_types _ (complex_types lang names)). }
  destruct (String.eqb _ _).
  { unfold end_element. destruct (p_element p); [now split|]. destruct (nonempty _); [now split|]. done H. now apply app_from. }
  destruct (String.eqb _ _).
  { apply (good_bind _ _ inv); [now apply base_to_attribute_good|]. intros q w' Hq Hw'. now apply base_to_element_good. }
  destruct (String.eqb _ _); [now apply base_to_attribute_good|].
  destruct (String.eqb _ _).
  { unfold end_group. cbv zeta.
    assert (Hq : inv (if String.eqb local (p_current p) && (p_in_group p =? 1)%Z
      then set_in_group (p_in_group p - 1)%Z (set_current "" (set_group (tl (p_group p)) (append_tree (pop_node PGroup (p_group p)) p))) else p)).
    { destruct (_ && _); [|exact H]. keep H; [|now apply tl_from]. apply app_from; [assumption|]. now apply (pop_types _ (group_types lang names)). }
    revert Hq. match goal with |- inv ?q -> _ => generalize q end. intros q Hq. split; [|exact Hw]. destruct (String.eqb _ _); exact Hq. }
  destruct (String.eqb _ _).
  { apply (good_bind _ _ inv); [now apply base_to_attribute_good|]. intros q w' Hq Hw'. now apply base_to_element_good. }
  destruct (String.eqb _ _).
  { apply (good_bind _ _ inv); [now apply base_to_attribute_good|]. intros q w' Hq Hw'. destruct (p_element q) as [|i r]; [now split|].
    assert (He : element_types lang names (deref (p_heap q) i)) by (apply deref_types; apply Hq).
    done Hq. apply top_from; [|assumption]. intros c [Ha [Hb Hc]]. split; [exact Ha|]. split; [|exact Hc].
    now apply replace_from. }
  destruct (String.eqb _ _).
  { unfold end_simple_type.
    assert (Hrest : good inv
      (let p := if String.eqb local (p_current p) && Nat.eqb (length (p_complex p)) 1
         then set_current "" (set_complex (tl (p_complex p)) (append_tree (pop_node PComplex (p_complex p)) p)) else p in
       Ret (if String.eqb local (p_current p) && negb (p_in_union p)
            then set_current "" (set_simple (tl (p_simple p)) (append_tree (pop_node PSimple (p_simple p)) p)) else p) w)).
    { cbv zeta. match goal with |- context [if String.eqb local (p_current p) && ?b then ?x else p] =>
        assert (Hq : inv (if String.eqb local (p_current p) && b then x else p)) end.
      { destruct (_ && _); [|exact H]. keep H; [|now apply tl_from]. apply app_from; [assumption|]. now apply (pop_types _ (complex_types lang names)). }
      revert Hq. match goal with |- inv ?q -> _ => generalize q end. intros q Hq. split; [|exact Hw]. destruct (_ && _); [|exact Hq].
      keep Hq; [|now apply tl_from]. apply app_from; [assumption|now apply (pop_types _ (simple_types lang names))]. }
    destruct (p_simple p) as [|s r] eqn:Hs; [exact Hrest|]. destruct (p_attribute p) as [|a r'] eqn:Ha; [exact Hrest|].
    clear Hrest. assert (Hsb : Forall (simple_types lang names) (s :: r)) by (rewrite <- Hs; apply H).
    inversion Hsb as [|s0 r0 [Hb Hm] Hrest]; subst. done H. rewrite Ha in *. inversion H5; subst. constructor; [exact Hb|assumption]. }
  destruct (String.eqb _ _); [unfold end_union; split; [|exact Hw]; destruct (nonempty _); keep H|].
  destruct (in_set _ _); [now apply base_to_element_good|now split].
Qed.

Lemma run_good : forall l p w, (forall v, refers l v -> names v) -> inv p -> I w -> good inv (run_tokens gvt l p w).
Proof.
  induction l as [|t l IH]; intros p w Hl Hp Hw; [now split|]. cbn [run_tokens].
  apply (good_bind _ _ inv).
  - destruct t as [local a|local|d|]; cbn [on_token].
    + apply start_good; auto. intros x v Hx Hv. apply Hl. exists local, a, x. split; [now left|]. split; [exact Hx|].
      destruct Hv as [[ks [H1 [H2 H3]]]|H]; [left; exists (to_title local), ks; auto|now right].
    + now apply end_good.
    + split; [now apply char_types|exact Hw].
    + now split.
  - intros q w' Hq Hw'. apply IH; auto. intros v [local [a [x [H1 H2]]]]. apply Hl. exists local, a, x. split; [now right|exact H2].
Qed.

End Origin.

(** * Parse *)

Section Parse.
Context {E : Env}.
Variable lang : string.
Variable names : string -> Prop.
Notation T := (type_from lang names).
Notation C := (comp_types lang names).

Lemma local_again : forall v, local_part (local_part v) = local_part v.
Proof.
  intros v. unfold local_part at 2 3. destruct (split_on ":" v) as [|a [|b [|c l]]] eqn:Hs; unfold local_part; try (now rewrite Hs).
  assert (Hb : has_char ":" b = false).
  { apply (split_on_clean ":" v). rewrite Hs. cbn. auto. }
  now rewrite split_on_no_char.
Qed.

Lemma builtin_local : forall n t, representation lang n = Some t -> local_part t = t.
Proof.
  intros n t H. unfold representation in H. destruct (kind_of n) as [k|]; [|discriminate]. injection H as <-.
  repeat match goal with |- context [if ?c then _ else _] => destruct c end; destruct k; reflexivity.
Qed.

Lemma trim_local : forall v, trim_ns_prefix v = local_part v.
Proof. reflexivity. Qed.

Lemma asked_local : forall v, asked lang names v -> T (local_part v).
Proof.
  intros v [H|[->|[[n H]|[n [H ->]]]]].
  - right. right. eauto.
  - now left.
  - right. left. exists n. now rewrite (builtin_local n v H).
  - right. right. exists n. split; [exact H|apply local_again].
Qed.

Lemma base_types : forall n tree, T n -> Forall C tree -> T (get_base n tree).
Proof.
  intros n tree Hn H. induction H as [|c tree Hc H IH]; cbn; [exact Hn|]. destruct c; auto; cbn in Hc.
  - destruct (_ && _); [apply Hc|exact IH].
  - destruct (String.eqb _ _); [exact Hc|exact IH].
  - destruct (String.eqb _ _); [exact Hc|exact IH].
Qed.

Hypothesis Hprog : programs_refer names.

Definition wok (w : World) : Prop := files_refer names w /\ trees_refer lang names w.

Lemma stat_file : forall p w b, stat p w = SFile b -> exists path, get path (w_fs w) = Some (NFile b).
Proof.
  intros p w b H. unfold stat in H. destruct (env_stat_fail p); [discriminate|]. destruct (String.eqb p ""); [discriminate|].
  unfold lookup in H. destruct (implicit_dir _); [discriminate|]. destruct (get _ _) as [[|b']|] eqn:Hg; try discriminate.
  - injection H as ->. eauto.
  - destruct (existsb _ _); discriminate.
Qed.

Lemma put_files : forall k n w, wok w -> (forall b v, n = NFile b -> refers (env_tokens b) v -> names v) -> wok (set_fs (put k n (w_fs w)) w).
Proof.
  intros k n w [H1 H2] Hn. split; [|exact H2]. intros path b v Hg Hv. cbn in Hg. destruct (string_dec k path) as [->|Hne].
  - rewrite get_put_same in Hg. injection Hg as ->. eauto.
  - rewrite get_put_other in Hg by exact Hne. eauto.
Qed.

Lemma mkdirs_files : forall cs w fs ok, wok w -> mkdirs (w_fs w) cs = (fs, ok) -> wok (set_fs fs w).
Proof.
  intros cs. induction cs as [|c cs IH]; intros w fs ok Hw H; cbn in H; [injection H as <- _; exact Hw|].
  unfold mkdir1 in H. destruct (lookup (w_fs w) c); try (injection H as <- _; exact Hw).
  - now apply (IH w fs ok).
  - destruct (env_mkdir_fail c); [injection H as <- _; exact Hw|].
    assert (Hw2 : wok (set_fs (put c NDir (w_fs w)) w)) by (apply put_files; [exact Hw|discriminate]).
    apply (IH _ fs ok Hw2). exact H.
Qed.

Lemma register_ok : forall o tree w, wok w -> Forall C tree -> wok (register o tree w).
Proof.
  intros o tree w [H1 H2] Ht. split; [exact H1|]. intros f t Hg. cbn in Hg. destruct (string_dec (o_file o) f) as [<-|Hne].
  - rewrite get_put_same in Hg. injection Hg as <-. exact Ht.
  - rewrite get_put_other in Hg by exact Hne. eauto.
Qed.

Lemma create_ok : forall path text w w', wok w -> create_write path text w = Some w' -> wok w'.
Proof.
  intros path text w w' Hw H. unfold create_write in H. destruct (_ || _); [discriminate|].
  assert (Hd : wok (set_fs (put (clean path) (NFile (env_write path text)) (w_fs w)) w)).
  { apply put_files; [exact Hw|]. intros b v Hb. injection Hb as <-. apply Hprog. }
  destruct (lookup (w_fs w) path); try discriminate; destruct (lookup (w_fs w) (dir path)); try discriminate; injection H as <-; exact Hd.
Qed.

Lemma generate_ok : forall l pkg file pt w, wok w -> good wok (fun _ => True) (generate l pkg file pt w).
Proof.
  intros l pkg file pt w Hw. unfold generate. cbv zeta.
  assert (Hp : forall entry source ext, good wok (fun _ => True) (gen_plain entry source ext file pt w)).
  { intros entry source ext. unfold gen_plain. cbv zeta. destruct (create_write _ _ _) as [w'|] eqn:Hc; [|exact Hw].
    split; [exact Logic.I|]. apply create_ok in Hc; [exact Hc|exact Hw]. }
  destruct (String.eqb _ _).
  - unfold gen_go. cbv zeta. destruct (env_gofmt _); (destruct (create_write _ _ _) as [w'|] eqn:Hc; [|exact Hw]);
      apply create_ok in Hc; try exact Hw; [split; [exact Logic.I|exact Hc]|exact Hc].
  - repeat (destruct (String.eqb _ _); [apply Hp|]). now split.
Qed.

Definition final (p : PState) : Prop := Forall C (freeze p).

Lemma finish_ok : forall o p w, inv lang names p -> wok w -> good wok final (finish o p w).
Proof.
  intros o p w Hp Hw. unfold finish. assert (Hfz := freeze_types _ _ p Hp). destruct (o_extract o); [now split|]. cbv zeta.
  assert (Hr : wok (register o (freeze p) w)) by (apply register_ok; [exact Hw|now apply freeze_types]).
  destruct (prepare_output_dir _ _) as [w1 ok] eqn:Hd.
  assert (H1 : wok w1).
  { unfold prepare_output_dir in Hd. destruct (String.eqb _ _); [injection Hd as <- _; exact Hr|].
    destruct (stat _ _); try (injection Hd as <- _; exact Hr).
    destruct (mkdirs _ _) as [fs ok2] eqn:Hm. injection Hd as <- _. eapply mkdirs_files; [exact Hr|exact Hm]. }
  destruct ok; [|exact Logic.I]. apply (good_bind _ _ _ (fun _ => True)); [now apply generate_ok|]. intros _ w2 _ H2. now split.
Qed.

Definition rec_ok (rec : Options -> World -> out PState) : Prop :=
  forall o w, o_lang o = lang -> o_ps o = p_init -> wok w -> good wok final (rec o w).

Lemma include_ok : forall rec, rec_ok rec -> forall n o name initial visited vt w, o_lang o = lang -> T name -> T vt -> wok w ->
  good wok (fun r => match r with inl v => T v | inr v => T v end) (include_loop rec n o name initial visited vt w).
Proof.
  intros rec Hrec n. induction n as [|n IH]; intros o name initial visited vt w Ho Hn Hv Hw; [exact Logic.I|]. cbn [include_loop]. cbv zeta.
  destruct (nth_error _ _) as [k|]; [|now split].
  assert (Hw2 : wok (set_tick (S (w_tick w)) w)) by exact Hw.
  pose proof (Hrec (nested o (join2 (o_dir o) k) true) _ Ho eq_refl Hw2) as Hr.
  destruct (rec _ _) as [p w1|e w1|c w1]; cbn in Hr; [|now split|exact Logic.I]. destruct Hr as [Hp Hw1].
  apply IH; auto. destruct (String.eqb _ _); [exact Hv|]. apply base_types; [exact Hn|exact Hp].
Qed.

Lemma resolve_ok : forall rec fuel o v t w, rec_ok rec -> o_lang o = lang -> asked lang names v -> Forall C t -> wok w ->
  good wok T (get_value_type rec fuel o v t w).
Proof.
  intros rec fuel o v t w Hrec Ho Hv Ht Hw. unfold get_value_type. cbv zeta. rewrite trim_local.
  assert (Hn := asked_local v Hv). rewrite representation_eq, Ho.
  destruct (representation _ _) as [r|] eqn:Hr; [split; [right; left; eauto|exact Hw]|].
  assert (Hb := base_types _ _ Hn Ht).
  destruct (_ && _); [now split|]. destruct (o_extract o); [now split|]. destruct (is_valid_url _); [now split|].
  set (file := join2 _ _). destruct (stat file w) as [|b| |]; [| |exact Hw|exact Hw].
  - apply (good_bind _ _ _ (fun r => match r with inl v => T v | inr v => T v end)).
    + apply include_ok; auto. now left.
    + intros [x|x] w1 Hx Hw1; [|now split]. split; [|exact Hw1]. now destruct (String.eqb _ _).
  - assert (Hagain : forall found w1, T found -> wok w1 -> good wok T
      match rec (nested o file true) w1 with
      | Crash c w => Crash c w
      | Fail _ w => Ret found w
      | Ret p w => Ret (get_base (local_part v) (freeze p)) w
      end).
    { intros found w1 Hf Hw1. pose proof (Hrec (nested o file true) w1 Ho eq_refl Hw1) as H1.
      destruct (rec _ _) as [p w2|e w2|c w2]; cbn in H1; [|now split|exact Logic.I]. destruct H1 as [Hp Hw2]. split; [|exact Hw2].
      apply base_types; [exact Hn|exact Hp]. }
    assert (Hres : forall dep w1, Forall C dep -> wok w1 -> good wok T
      (if negb (String.eqb (get_base (local_part v) dep) (local_part v)) && negb (String.eqb (get_base (local_part v) dep) "")
       then Ret (get_base (local_part v) dep) w1 else
       match rec (nested o file true) w1 with
       | Crash c w => Crash c w
       | Fail _ w => Ret (get_base (local_part v) dep) w
       | Ret p w => Ret (get_base (local_part v) (freeze p)) w
       end)).
    { intros dep w1 Hd Hw1. assert (Hbd := base_types _ _ Hn Hd). destruct (_ && _); [now split|]. now apply Hagain. }
    destruct (get file (w_pmap w)) as [dep|] eqn:Hg.
    + apply Hres; [|exact Hw]. destruct Hw as [_ Hw]. eauto.
    + pose proof (Hrec (nested o file false) w Ho eq_refl Hw) as H1.
      destruct (rec (nested o file false) w) as [p w2|e w2|c w2]; cbn in H1; [|now split|exact Logic.I].
      destruct H1 as [Hp Hw2]. apply Hres; [exact Hp|exact Hw2].
Qed.

Lemma body_ok : forall rec fuel o w, rec_ok rec -> o_lang o = lang -> final (o_ps o) -> wok w ->
  good wok final (parse_body rec fuel o w).
Proof.
  intros rec fuel o w Hrec Ho Hps Hw. unfold parse_body. destruct (stat (o_file o) w) as [|b| |] eqn:Hs; [now split| |exact Hw|exact Hw].
  destruct (env_open_fail _); [exact Hw|]. cbv zeta. apply (good_bind _ _ _ (inv lang names)); [|intros p w1; apply finish_ok].
  apply run_good; auto.
  - intros v t w1 Hv Ht Hw1. now apply resolve_ok.
  - intros v Hv. apply stat_file in Hs as [path Hs]. destruct Hw as [Hw _]. eapply Hw; eauto.
  - apply inv_init.
  - destruct (o_extract o); [exact Hw|]. apply register_ok; [exact Hw|exact Hps].
Qed.

Lemma parse_rec_ok : forall d fuel, rec_ok (parse d fuel).
Proof.
  intros d fuel. induction d as [|d IH]; intros o w Ho Hps Hw; [exact Logic.I|]. cbn [parse]. apply body_ok; auto. rewrite Hps. constructor.
Qed.

End Parse.


Theorem parse_types : forall (E : Env) names d fuel o w q w', files_refer names w -> trees_refer (o_lang o) names w -> programs_refer names ->
  Forall (comp_types (o_lang o) names) (freeze (o_ps o)) -> parse d fuel o w = Ret q w' ->
  Forall (comp_types (o_lang o) names) (freeze q).
Proof.
  intros E names [|d] fuel o w q w' H1 H2 H3 H4 H; [discriminate|]. cbn [parse] in H.
  pose proof (body_ok (o_lang o) names H3 (parse d fuel) fuel o w (parse_rec_ok _ _ H3 d fuel) eq_refl H4 (conj H1 H2)) as HG.
  rewrite H in HG. apply HG.
Qed.

Theorem extract_types : forall (E : Env) d fuel o w bytes q w', o_extract o = true -> stat (o_file o) w = SFile bytes ->
  parse d fuel o w = Ret q w' -> Forall (comp_types (o_lang o) (refers (env_tokens bytes))) (freeze q).
Proof.
  intros E [|d] fuel o w bytes q w' He Hs H; [discriminate|]. cbn [parse] in H. unfold parse_body in H. rewrite Hs in H.
  destruct (env_open_fail _); [discriminate|]. cbv zeta in H. rewrite He in H.
  apply bind_ret in H as [r [w2 [H1 H2]]]. apply finish_ret in H2 as ->. apply freeze_types.
  match type of H1 with run_tokens ?g _ _ ?w0 = _ =>
    assert (HS : good (fun _ => True) (inv (o_lang o) (refers (env_tokens bytes))) (run_tokens g (env_tokens bytes) p_init w0)) end.
  { apply run_good; auto; [|apply inv_init]. intros v t w1 Hv Ht _. unfold get_value_type. cbv zeta. rewrite trim_local, representation_eq, He.
    apply asked_local in Hv. destruct (representation _ _) eqn:Hr; [split; [right; left; eauto|exact Logic.I]|].
    destruct (_ && _); (split; [now apply base_types|exact Logic.I]). }
  rewrite H1 in HS. apply HS.
Qed.

(** The attribute values of a document and their words: enough for what it
    refers to. *)
Definition attribute_values (ts : list token) : list string :=
  flat_map (fun t => match t with TStart _ l => flat_map (fun x => a_value x :: split_on " " (a_value x)) l | _ => [] end) ts.

Lemma refers_values : forall (E : Env) ts v, refers ts v -> In v (attribute_values ts).
Proof.
  intros E ts v [local [l [x [H1 [H2 H3]]]]]. apply in_flat_map. exists (TStart local l). split; [exact H1|].
  apply in_flat_map. exists x. split; [exact H2|]. destruct H3 as [[h [ks [_ [_ [_ H]]]]]|[_ [_ H]]]; [|now left].
  destruct (String.eqb _ _); [now right|now left].
Qed.
