(** The texts in the components come from the document. *)

From Coq Require Import String Ascii List NArith ZArith Bool Lia.
From Verif Require Import GoStr Base Utils SpecStr World Handlers Parser Reify SpecSource DocLemmas StayProofs.
Import ListNotations.
Local Open Scope string_scope.

Local Infix "+++" := app (at level 60, right associativity).

Section Source.
Context {E : Env}.
Variable ts : list token.
Variable gvt : resolver.

(** A property of whatever is returned. *)
Definition gives {A} (Q : A -> Prop) (m : out A) : Prop := match m with Ret a _ => Q a | _ => True end.

Lemma gives_bind : forall A B (Q : A -> Prop) (Q' : B -> Prop) m f, gives Q m -> (forall a w, Q a -> gives Q' (f a w)) ->
  gives Q' (bind m f).
Proof. intros A B Q Q' [a w|e w|c w] f H Hf; cbn in *; auto. Qed.

Lemma gives_any : forall A B (Q' : B -> Prop) (m : out A) f, (forall a w, gives Q' (f a w)) -> gives Q' (bind m f).
Proof. intros A B Q' [a w|e w|c w] f Hf; cbn in *; auto. Qed.

Definition node_from (n : pnode) : Prop := match n with PN t => comp_from ts t | PRef _ => True end.

Definition inv (p : PState) : Prop :=
  Forall node_from (p_tree p) /\ Forall (element_from ts) (p_heap p) /\ Forall (simple_from ts) (p_simple p) /\
  Forall (complex_from ts) (p_complex p) /\ Forall (attribute_from ts) (p_attribute p) /\
  Forall (group_from ts) (p_group p) /\ Forall (attrgroup_from ts) (p_attrgroup p).

Lemma inv_init : inv p_init.
Proof. repeat split; constructor. Qed.

Lemma zero_from : element_from ts zero_element.
Proof. split; now left. Qed.

Lemma deref_from : forall h i, Forall (element_from ts) h -> element_from ts (deref h i).
Proof.
  intros h i H. unfold deref. revert i. induction H as [|e h He H IH]; intros [|i]; cbn; auto; apply zero_from.
Qed.

Lemma freeze_from : forall p, inv p -> Forall (comp_from ts) (freeze p).
Proof.
  intros p [H1 [H2 _]]. unfold freeze. apply Forall_forall. intros t Ht. apply in_map_iff in Ht as [n [<- Hn]].
  rewrite Forall_forall in H1. specialize (H1 n Hn). destruct n as [t|i]; cbn; [exact H1|]. now apply deref_from.
Qed.

Lemma top_from : forall A (Q : A -> Prop) f st, (forall s, Q s -> Q (f s)) -> Forall Q st -> Forall Q (on_top f st).
Proof. intros A Q f st Hf H. destruct H; constructor; auto. Qed.
Lemma tl_from : forall A (Q : A -> Prop) l, Forall Q l -> Forall Q (tl l).
Proof. intros A Q l H. destruct H; [constructor|assumption]. Qed.
Lemma app_from : forall A (Q : A -> Prop) l a, Forall Q l -> Q a -> Forall Q (l +++ [a]).
Proof. intros A Q l a Hl Ha. apply Forall_app. split; [exact Hl|]. constructor; [exact Ha|constructor]. Qed.
Lemma update_from : forall A (Q : A -> Prop) f i l, (forall e, Q e -> Q (f e)) -> Forall Q l -> Forall Q (update_nth i f l).
Proof. intros A Q f i l Hf H. revert i. induction H as [|e h He H IH]; intros [|i]; cbn; constructor; auto. Qed.
Lemma replace_from : forall A (Q : A -> Prop) e l, Q e -> Forall Q l -> Forall Q (replace_last e l).
Proof. intros A Q e l He H. induction H as [|x l Hx H IH]; [constructor|]. destruct l; cbn; constructor; auto. Qed.

Lemma merge_from : forall e l l', Forall (element_from ts) l -> merge_element e l = Some l' -> Forall (element_from ts) l'.
Proof.
  intros e l l' H. revert l'. induction H as [|x l Hx H IH]; intros l'; cbn; [discriminate|].
  destruct (String.eqb _ _).
  - destruct (String.eqb _ _); [|discriminate]. intros Hl. injection Hl as <-. constructor; auto.
  - destruct (merge_element e l) as [r|]; [|discriminate]. intros Hl. injection Hl as <-. constructor; auto.
Qed.

Lemma add_from : forall e l, element_from ts e -> Forall (element_from ts) l -> Forall (element_from ts) (add_element e l).
Proof.
  intros e l He Hl. unfold add_element. destruct (merge_element e l) as [l'|] eqn:Hm; [eapply merge_from; eauto|now apply app_from].
Qed.

(** * Attributes *)

(** The attributes [l] belong to a tag [h] of the document. *)
Definition of_tag (h : string) (l : list xattr) : Prop := forall x, In x l -> exists local l', In (TStart local l') ts /\ to_title local = h /\ In x l'.

Lemma of_cons : forall h x l, of_tag h (x :: l) -> (forall keys, In (a_local x) keys -> written ts h keys (a_value x)) /\ of_tag h l.
Proof.
  intros h x l H. split; [|intros y Hy; apply H; now right].
  intros keys Hk. destruct (H x (or_introl eq_refl)) as [local [l' [H1 [H2 H3]]]]. exists local, l', x. auto.
Qed.

Ltac key x := match goal with |- context [String.eqb (a_local x) ?k] => destruct (String.eqb_spec (a_local x) k) as [?Hk|?Hk] end.
Ltac inkey := match goal with Hk : a_local ?x = _ |- In (a_local ?x) _ => rewrite Hk; cbn; tauto end.
Ltac named := match goal with H : forall keys, In _ keys -> written _ ?h keys _ |- name_from _ _ _ =>
  right; eexists h, _; split; [|apply H]; [cbn; eauto|inkey] end.

Lemma attribute_source : forall tree l a w, of_tag "Attribute" l -> attribute_from ts a -> gives (attribute_from ts) (attribute_attrs gvt tree l a w).
Proof.
  intros tree l. induction l as [|x l IH]; intros a w Hl Ha; [exact Ha|].
  apply of_cons in Hl as [Hx Hl]. cbn [attribute_attrs]. cbv zeta. pose proof Ha as [Hn Hd].
  key x; [apply gives_any; intros t w'; apply IH; auto; split; [cbn; named|exact Hd]|].
  key x; [apply IH; auto; split; [cbn; named|exact Hd]|]. key x; [apply gives_any; intros t w'; now apply IH|].
  key x; [|now apply IH]. apply IH; auto. now destruct (String.eqb _ _).
Qed.

Lemma attrgroup_source : forall tree l a w, of_tag "AttributeGroup" l -> attrgroup_from ts a ->
  gives (attrgroup_from ts) (attrgroup_attrs gvt tree l a w).
Proof.
  intros tree l. induction l as [|x l IH]; intros a w Hl Ha; [exact Ha|].
  apply of_cons in Hl as [Hx Hl]. cbn [attrgroup_attrs]. cbv zeta. pose proof Ha as [Hn Hd].
  key x; [apply IH; auto; split; [cbn; named|exact Hd]|].
  key x; [apply gives_any; intros t w'; apply IH; auto; split; [cbn; named|exact Hd]|now apply IH].
Qed.

Ltac ingroup H := let H1 := fresh "Hgn" in let H2 := fresh "Hgd" in let H3 := fresh "Hge" in let H4 := fresh "Hgg" in
  inversion H as [? H1 H2 H3 H4]; subst; constructor; cbn; auto.

Lemma group_source : forall tree l g w, of_tag "Group" l -> group_from ts g -> gives (group_from ts) (group_attrs gvt tree l g w).
Proof.
  intros tree l. induction l as [|x l IH]; intros g w Hl Hg; [exact Hg|].
  apply of_cons in Hl as [Hx Hl]. cbn [group_attrs]. cbv zeta.
  key x; [apply IH; auto; ingroup Hg; named|].
  key x; [apply gives_any; intros t w'; apply IH; auto; ingroup Hg; named|].
  key x; [|now apply IH]. apply IH; auto. destruct (String.eqb _ _); [exact Hg|ingroup Hg].
Qed.

Lemma element_source : forall tree l e w, of_tag "Element" l -> element_from ts e -> gives (element_from ts) (element_attrs gvt tree l e w).
Proof.
  intros tree l. induction l as [|x l IH]; intros e w Hl He; [exact He|].
  apply of_cons in Hl as [Hx Hl]. cbn [element_attrs]. cbv zeta. pose proof He as [Hn Hd].
  key x; [apply gives_any; intros t w'; apply IH; auto; split; [cbn; named|exact Hd]|].
  key x; [apply IH; auto; split; [cbn; named|exact Hd]|]. key x; [apply gives_any; intros t w'; now apply IH|].
  key x; [destruct (max_occurs _) as [b|]; [apply IH; auto; now destruct b|exact Logic.I]|].
  key x; [|now apply IH]. apply IH; auto; now destruct (String.eqb _ _).
Qed.

Ltac keep H := destruct H as [?H1 [?H2 [?H3 [?H4 [?H5 [?H6 ?H7]]]]]];
  split; [|split; [|split; [|split; [|split; [|split]]]]]; cbn; auto.

Lemma extension_source : forall tree l p w, of_tag "Extension" l -> inv p -> gives inv (extension_attrs gvt tree l p w).
Proof.
  intros tree l. induction l as [|x l IH]; intros p w Hl Hp; [exact Hp|].
  apply of_cons in Hl as [Hx Hl]. cbn [extension_attrs]. key x; [|now apply IH].
  apply gives_any; intros t w1. destruct (nonempty _); [|now apply IH]. apply gives_any; intros t2 w2.
  apply IH; auto. keep Hp. apply top_from; [|assumption]. intros c Hc. cbn. destruct (String.eqb _ _); [|exact Hc].
  split; [cbn; named|apply Hc].
Qed.

Lemma restriction_source : forall tree l p w, of_tag "Restriction" l -> inv p -> gives inv (restriction_attrs gvt tree l p w).
Proof.
  intros tree l. induction l as [|x l IH]; intros p w Hl Hp; [exact Hp|].
  apply of_cons in Hl as [Hx Hl]. cbn [restriction_attrs]. key x; [|now apply IH].
  apply gives_any; intros t w1. destruct (nonempty _); [|now apply IH]. apply gives_any; intros t2 w2.
  apply IH; auto. keep Hp. apply top_from; [|assumption]. intros c Hc. cbn. destruct (String.eqb _ _); [|exact Hc].
  split; [cbn; named|apply Hc].
Qed.

Lemma list_source : forall tree l p w, inv p -> gives inv (list_attrs gvt tree l p w).
Proof.
  intros tree l. induction l as [|x l IH]; intros p w Hp; [exact Hp|]. cbn [list_attrs]. key x; [|now apply IH].
  apply gives_any; intros t w1. apply IH. keep Hp. now apply top_from.
Qed.

Lemma put_from : forall (Q : string -> Prop) k (v : string) m, Q k -> Forall (fun e => Q (fst e)) m -> Forall (fun e => Q (fst e)) (put k v m).
Proof.
  intros Q k v m Hk H. induction H as [|[k' v'] m Hx H IH]; cbn; [now repeat constructor|].
  destruct (String.eqb _ _); constructor; auto.
Qed.

Lemma members_source : forall tree ms p w, (forall m, In m ms -> member_from ts (trim_ns_prefix m)) -> inv p ->
  gives inv (union_members gvt tree ms p w).
Proof.
  intros tree ms. induction ms as [|m ms IH]; intros p w Hm Hp; [exact Hp|]. cbn [union_members].
  apply gives_any; intros t w1. apply IH; [intros m' Hm'; apply Hm; now right|]. keep Hp. apply top_from; [|assumption].
  intros s [Hn [Hd [He Hk]]]. split; [exact Hn|]. split; [exact Hd|]. split; [exact He|]. cbn.
  apply put_from; [|exact Hk]. apply Hm. now left.
Qed.

Lemma union_source : forall tree l p w, of_tag "Union" l -> inv p -> gives inv (union_attrs gvt tree l p w).
Proof.
  intros tree l. induction l as [|x l IH]; intros p w Hl Hp; [exact Hp|].
  apply of_cons in Hl as [Hx Hl]. cbn [union_attrs]. key x; [|now apply IH].
  apply (gives_bind _ _ inv); [|intros q w' Hq; now apply IH]. apply members_source; auto. intros m Hm.
  exists (a_value x), m. split; [apply Hx; inkey|]. now split.
Qed.

Lemma name_source : forall h src l n, In (h, ["name"]) src -> of_tag h l -> name_from ts src n -> name_from ts src (name_attr l n).
Proof.
  intros h src l n Hs. unfold name_attr. revert n. induction l as [|x l IH]; intros n Hl Hn; [exact Hn|].
  apply of_cons in Hl as [Hx Hl]. cbn. apply IH; [exact Hl|]. key x; [|exact Hn].
  right. exists h, ["name"]. split; [exact Hs|]. apply Hx. inkey.
Qed.

(** * Handlers *)

Lemma last_doc_from : forall d l, doc_from ts d -> Forall (attribute_from ts) l -> Forall (attribute_from ts) (last_attr_doc d l).
Proof.
  intros d l Hd H. induction H as [|x l Hx H IH]; [constructor|]. destruct l; cbn in *; constructor; auto.
  split; [apply Hx|exact Hd].
Qed.

Lemma char_source : forall d p, doc_from ts (trim_space d) -> inv p -> inv (on_char_data d p).
Proof.
  intros d p Hd Hp. unfold on_char_data. cbv zeta. set (t := trim_space d) in *. clearbody t.
  destruct (String.eqb _ _); [exact Hp|].
  destruct (_ && _); [keep Hp; apply top_from; [|assumption]; intros g [Ha [_ Hc]]; now repeat split|].
  destruct (_ && _).
  { unfold on_top_element. destruct (p_element p); [exact Hp|]. keep Hp. apply update_from; [|assumption].
    intros e [Ha _]. now split. }
  destruct (nonempty _); [keep Hp; apply top_from; [|assumption]; intros g [Ha _]; now split|].
  destruct (String.eqb _ _); [keep Hp; apply top_from; [|assumption]; intros g [Ha [_ Hc]]; split; [exact Ha|now split]|].
  destruct (String.eqb _ _); [|exact Hp]. keep Hp. apply top_from; [|assumption].
  intros c [Ha [Hb [Hc [He Hf]]]]. unfold complex_doc.
  destruct (ct_attributes c) as [|a l] eqn:Hl.
  - split; [exact Ha|]. split; [exact Hd|]. split; [exact Hc|]. split; [cbn; rewrite Hl; constructor|exact Hf].
  - split; [exact Ha|]. split; [exact Hb|]. split; [exact Hc|]. split; [|exact Hf]. cbn [ct_set_attributes ct_attributes].
    now apply last_doc_from.
Qed.

Lemma place_source : forall i p w, inv p -> gives inv (place_element i p w).
Proof.
  intros i p w H. unfold place_element. cbv zeta.
  set (h := update_nth i (fun e => el_set_plural (el_plural e || choice_plural p) e) (p_heap p)).
  assert (Hh : Forall (element_from ts) h). { apply update_from; [auto|apply H]. }
  assert (He : element_from ts (deref h i)) by now apply deref_from.
  clearbody h. cbn [p_complex set_heap p_in_group p_heap p_group].
  destruct (nonempty _).
  - keep H. apply top_from; [|assumption]. intros c [Ha [Hb [Hc Hd]]]. split; [exact Ha|]. split; [exact Hb|].
    split; [|exact Hd]. now apply add_from.
  - destruct (_ <? _)%Z; keep H. apply top_from; [|assumption]. intros g Hg. ingroup Hg. now apply app_from.
Qed.

Lemma node_source : forall n p, inv p -> node_from n -> inv (append_tree n p).
Proof. intros n p H Hn. keep H. now apply app_from. Qed.

Lemma base_to_attribute_source : forall pop p w, inv p -> gives inv (base_to_attribute gvt pop p w).
Proof.
  intros pop p w H. unfold base_to_attribute. destruct (p_attribute p) as [|a r] eqn:Ha; [exact H|].
  destruct (p_simple p) as [|s r'] eqn:Hs; [exact H|]. apply gives_any; intros t w'. cbn [gives].
  keep H; [rewrite Hs in *; destruct pop; [now inversion H3|assumption]|]. apply (top_from _ _ _ (a :: r)); [|now rewrite <- Ha]. auto.
Qed.

Lemma base_to_element_source : forall pop p w, inv p -> gives inv (base_to_element gvt pop p w).
Proof.
  intros pop p w H. unfold base_to_element. destruct (p_simple p) as [|s r] eqn:Hs; [exact H|].
  destruct (p_element p) as [|i r'] eqn:He; [exact H|]. apply gives_any; intros t w'. cbn [gives].
  unfold on_top_element. rewrite He. keep H; [apply update_from; auto|]. rewrite Hs in *. destruct pop; [now inversion H3|assumption].
Qed.

Lemma pop_from : forall A (Q : A -> Prop) mk st, (forall a, Q a -> comp_from ts (mk a)) -> Forall Q st -> node_from (pop_node mk st).
Proof. intros A Q mk st Hm H. destruct H; cbn; auto. Qed.

Lemma start_source : forall local l p w, In (TStart local l) ts -> inv p -> gives inv (dispatch_start gvt local l p w).
Proof.
  intros local l p w Hin H0. unfold dispatch_start. cbv zeta.
  assert (Hl : of_tag (to_title local) l) by (intros x Hx; exists local, l; auto).
  assert (H : inv (set_in_element local p)) by exact H0. generalize dependent (set_in_element local p). clear p H0. intros p H.
  generalize dependent (to_title local). intros m Hl.
  destruct (String.eqb_spec m "Attribute") as [->|_].
  { apply (gives_bind _ _ (attribute_from ts)); [apply attribute_source; [exact Hl|split; now left]|]. intros a w' Ha. keep H. }
  destruct (String.eqb_spec m "AttributeGroup") as [->|_].
  { apply (gives_bind _ _ (attrgroup_from ts)); [apply attrgroup_source; [exact Hl|repeat split; [now left..|constructor]]|].
    intros a w' Ha. destruct (nonempty _); keep H. apply top_from; [|assumption].
    intros c [Ha1 [Hb [Hc [Hd [He Hf]]]]]. repeat (split; [assumption|]). now apply app_from. }
  destruct (String.eqb_spec m "CharData") as [->|_]; [exact Logic.I|].
  destruct (String.eqb_spec m "Choice") as [->|_]; [apply gives_any; intros b w'; keep H|].
  destruct (String.eqb_spec m "ComplexType") as [->|_].
  { unfold on_complex_type. cbv zeta.
    assert (Hanon : forall i, complex_from ts (mkComplex "" (el_name (deref (p_heap p) i)) "" [] [] [] [])).
    { intros i. destruct (deref_from (p_heap p) i) as [Hn _]; [apply H|]. split; [|repeat split; auto; now left].
      cbn. destruct Hn as [Hn|[h [keys [[Hh|[]] Hw]]]]; [now left|]. injection Hh as <- <-. right. exists "Element", ["name"; "ref"].
      split; [cbn; auto|exact Hw]. }
    destruct (nonempty _).
    - destruct (p_element p); [exact Logic.I|]. keep H.
    - cbn [p_element set_current p_in_element p_heap]. destruct (String.eqb _ _).
      + destruct (p_element p); [exact Logic.I|]. keep H.
      + keep H. constructor; [|assumption]. split; [|repeat split; auto; now left]. cbn.
        apply (name_source "ComplexType"); [cbn; auto|exact Hl|now left]. }
  destruct (String.eqb_spec m "Element") as [->|_].
  { unfold on_element. apply (gives_bind _ _ (element_from ts)); [apply element_source; [exact Hl|apply zero_from]|].
    intros e w' He. cbv zeta. destruct (String.eqb _ _).
    - apply gives_any; intros t w2. apply place_source. keep H. now apply app_from.
    - apply place_source. keep H. now apply app_from. }
  destruct (String.eqb_spec m "Enumeration") as [->|_].
  { unfold on_enumeration. assert (Hs : Forall (simple_from ts) (p_simple p)) by apply H. keep H.
    clear - Hs Hl. revert Hs. generalize (p_simple p). induction l as [|x l IH]; intros st Hs; [exact Hs|]. cbn.
    apply of_cons in Hl as [Hx Hl]. apply IH; [exact Hl|].
    key x; [|exact Hs]. apply top_from; [|exact Hs]. intros s [Ha [Hb [Hc Hd]]]. split; [exact Ha|]. split; [exact Hb|].
    split; [|exact Hd]. apply app_from; [exact Hc|]. apply Hx. inkey. }
  destruct (String.eqb_spec m "Extension") as [->|_]; [now apply extension_source|].
  destruct (String.eqb_spec m "Group") as [->|_].
  { apply (gives_bind _ _ (group_from ts)); [apply group_source; [exact Hl|constructor; cbn; auto; now left]|]. intros g w' Hg. cbv zeta.
    set (g2 := gr_set_plural _ g). assert (Hg2 : group_from ts g2) by ingroup Hg. clearbody g2.
    destruct (nonempty _).
    { keep H. apply top_from; [|assumption]. intros c Hc0. destruct (in_groups _ _); [exact Hc0|].
      destruct Hc0 as [Ha1 [Hb [Hc [Hd [He Hf]]]]]. split; [exact Ha1|]. split; [exact Hb|]. split; [exact Hc|].
      split; [exact Hd|]. split; [|exact Hf]. now apply app_from. }
    destruct (_ =? _)%Z; [keep H|]. destruct (_ <? _)%Z; [|exact H]. destruct (p_group p) as [|g0 r] eqn:Hpg; [exact Logic.I|].
    keep H. rewrite Hpg in *. inversion H6; subst. constructor; [|assumption].
    match goal with Hq : group_from ts g0 |- _ => ingroup Hq end. now apply app_from. }
  destruct (String.eqb_spec m "Import") as [->|_]; [exact H|].
  destruct (String.eqb_spec m "Include") as [->|_]; [exact H|].
  destruct (String.eqb_spec m "List") as [->|_].
  { unfold on_list. destruct (nonempty _); [|exact H]. apply list_source. keep H. now apply top_from. }
  destruct (String.eqb_spec m "Restriction") as [->|_]; [now apply restriction_source|].
  destruct (String.eqb_spec m "Schema") as [->|_]; [exact H|].
  destruct (String.eqb_spec m "SimpleType") as [->|_].
  { unfold on_simple_type. keep H. apply top_from.
    - intros s [Ha Hb]. split; [|exact Hb]. apply (name_source "SimpleType"); [cbn; auto|exact Hl|exact Ha].
    - destruct (p_simple p); [|assumption]. repeat constructor. }
  destruct (String.eqb_spec m "Union") as [->|_]; [|exact H].
  unfold on_union. cbv zeta. destruct (nonempty _); [|keep H]. apply union_source; auto. keep H. apply top_from; [|assumption].
  intros s [Ha [Hb [Hc Hd]]]. split; [exact Ha|]. split; [exact Hb|]. split; [exact Hc|constructor].
Qed.

Lemma end_source : forall local p w, inv p -> gives inv (dispatch_end gvt local p w).
Proof.
  intros local p w H. unfold dispatch_end. cbv zeta.
  destruct (String.eqb _ _).
  { unfold end_attribute. destruct (p_attribute p) as [|a r] eqn:Ha; [exact H|].
    assert (Hr : Forall (attribute_from ts) (a :: r)) by (rewrite <- Ha; apply H). inversion Hr; subst.
    destruct (nonempty _).
    { keep H. apply top_from; [|assumption]. intros g [Hg1 [Hg2 Hg3]]. split; [exact Hg1|]. split; [exact Hg2|]. now apply app_from. }
    destruct (nonempty _).
    { keep H. apply top_from; [|assumption]. intros c [Ha1 [Hb [Hc [Hd He]]]]. split; [exact Ha1|]. split; [exact Hb|]. split; [exact Hc|].
      split; [|exact He]. now apply app_from. }
    apply node_source; [keep H|assumption]. }
  destruct (String.eqb _ _).
  { unfold end_attribute_group. destruct (p_attrgroup p) as [|g r] eqn:Hg; [exact H|].
    assert (Hr : Forall (attrgroup_from ts) (g :: r)) by (rewrite <- Hg; apply H). inversion Hr; subst. keep H. now apply app_from. }
  destruct (String.eqb _ _); [keep H|].
  destruct (String.eqb _ _).
  { unfold end_complex_type. keep H; [|now apply tl_from]. apply app_from; [assumption|]. now apply (pop_from _ (complex_from ts)). }
  destruct (String.eqb _ _).
  { unfold end_element. destruct (p_element p); [exact H|]. destruct (nonempty _); [exact H|]. keep H. now apply app_from. }
  destruct (String.eqb _ _).
  { apply (gives_bind _ _ inv); [now apply base_to_attribute_source|]. intros q w' Hq. now apply base_to_element_source. }
  destruct (String.eqb _ _); [now apply base_to_attribute_source|].
  destruct (String.eqb _ _).
  { unfold end_group. cbv zeta.
    assert (Hq : inv (if String.eqb local (p_current p) && (p_in_group p =? 1)%Z
      then set_in_group (p_in_group p - 1)%Z (set_current "" (set_group (tl (p_group p)) (append_tree (pop_node PGroup (p_group p)) p))) else p)).
    { destruct (_ && _); [|exact H]. keep H; [|now apply tl_from]. apply app_from; [assumption|]. now apply (pop_from _ (group_from ts)). }
    revert Hq. match goal with |- inv ?q -> _ => generalize q end. intros q Hq. cbn [gives]. destruct (String.eqb _ _); exact Hq. }
  destruct (String.eqb _ _).
  { apply (gives_bind _ _ inv); [now apply base_to_attribute_source|]. intros q w' Hq. now apply base_to_element_source. }
  destruct (String.eqb _ _).
  { apply (gives_bind _ _ inv); [now apply base_to_attribute_source|]. intros q w' Hq. destruct (p_element q) as [|i r]; [exact Hq|].
    assert (He : element_from ts (deref (p_heap q) i)) by (apply deref_from; apply Hq).
    keep Hq. apply top_from; [|assumption]. intros c [Ha [Hb [Hc Hd]]]. split; [exact Ha|]. split; [exact Hb|]. split; [|exact Hd].
    now apply replace_from. }
  destruct (String.eqb _ _).
  { unfold end_simple_type.
    assert (Hrest : gives inv
      (let p := if String.eqb local (p_current p) && Nat.eqb (length (p_complex p)) 1
         then set_current "" (set_complex (tl (p_complex p)) (append_tree (pop_node PComplex (p_complex p)) p)) else p in
       Ret (if String.eqb local (p_current p) && negb (p_in_union p)
            then set_current "" (set_simple (tl (p_simple p)) (append_tree (pop_node PSimple (p_simple p)) p)) else p) w)).
    { cbv zeta. match goal with |- context [if String.eqb local (p_current p) && ?b then ?x else p] =>
        assert (Hq : inv (if String.eqb local (p_current p) && b then x else p)) end.
      { destruct (_ && _); [|exact H]. keep H; [|now apply tl_from]. apply app_from; [assumption|]. now apply (pop_from _ (complex_from ts)). }
      revert Hq. match goal with |- inv ?q -> _ => generalize q end. intros q Hq. cbn [gives]. destruct (_ && _); [|exact Hq].
      keep Hq; [|now apply tl_from]. apply app_from; [assumption|now apply (pop_from _ (simple_from ts))]. }
    destruct (p_simple p) as [|s r] eqn:Hs; [exact Hrest|]. destruct (p_attribute p) as [|a r'] eqn:Ha; [exact Hrest|].
    clear Hrest. keep H; [rewrite Hs in *; now inversion H3|]. apply (top_from _ _ _ (a :: r')); [auto|now rewrite <- Ha]. }
  destruct (String.eqb _ _); [unfold end_union; cbn [gives]; destruct (nonempty _); keep H|].
  destruct (in_set _ _); [now apply base_to_element_source|exact H].
Qed.

Lemma run_source : forall l p w, incl l ts -> inv p -> gives inv (run_tokens gvt l p w).
Proof.
  induction l as [|t l IH]; intros p w Ht Hp; [exact Hp|]. cbn [run_tokens].
  apply (gives_bind _ _ inv); [|intros q w' Hq; apply IH; [intros y Hy; apply Ht; now right|exact Hq]].
  assert (Hin := Ht t (or_introl eq_refl)).
  destruct t; cbn [on_token]; [now apply start_source|now apply end_source|apply char_source; [right; eauto|exact Hp]|exact Hp].
Qed.

End Source.

(** * One component per end tag *)

Section Ends.
Context {E : Env}.
Variable gvt : resolver.

(** The tree stays as it is. *)
Definition still (p q : PState) : Prop := p_tree q = p_tree p.

(** The tree grows by at most one node, whose kind is that of the tag [m]. *)
Definition grows (m : string) (p q : PState) : Prop :=
  still p q \/ exists n, p_tree q = p_tree p +++ [n] /\ match n with PN c => made_by m c | PRef _ => m = "Element" end.

Lemma extension_still : forall tree l p w, gives (still p) (extension_attrs gvt tree l p w).
Proof.
  intros tree l. induction l as [|x l IH]; intros p w; [reflexivity|]. cbn [extension_attrs]. destruct (String.eqb _ _); [|apply IH].
  apply gives_any; intros t w1. destruct (nonempty _); [|apply IH]. apply gives_any; intros t2 w2. exact (IH _ _).
Qed.
Lemma restriction_still : forall tree l p w, gives (still p) (restriction_attrs gvt tree l p w).
Proof.
  intros tree l. induction l as [|x l IH]; intros p w; [reflexivity|]. cbn [restriction_attrs]. destruct (String.eqb _ _); [|apply IH].
  apply gives_any; intros t w1. destruct (nonempty _); [|apply IH]. apply gives_any; intros t2 w2. exact (IH _ _).
Qed.
Lemma list_still : forall tree l p w, gives (still p) (list_attrs gvt tree l p w).
Proof.
  intros tree l. induction l as [|x l IH]; intros p w; [reflexivity|]. cbn [list_attrs]. destruct (String.eqb _ _); [|apply IH].
  apply gives_any; intros t w1. exact (IH _ _).
Qed.
Lemma members_still : forall tree l p w, gives (still p) (union_members gvt tree l p w).
Proof.
  intros tree l. induction l as [|x l IH]; intros p w; [reflexivity|]. cbn [union_members].
  apply gives_any; intros t w1. exact (IH _ _).
Qed.
Lemma union_still : forall tree l p w, gives (still p) (union_attrs gvt tree l p w).
Proof.
  intros tree l. induction l as [|x l IH]; intros p w; [reflexivity|]. cbn [union_attrs]. destruct (String.eqb _ _); [|apply IH].
  apply (gives_bind _ _ (still p)); [apply members_still|]. intros q w' Hq. specialize (IH q w').
  destruct (union_attrs gvt tree l q w'); cbn in *; auto. unfold still in *. congruence.
Qed.

Lemma place_still : forall i p w, gives (still p) (place_element i p w).
Proof. intros i p w. unfold place_element. cbv zeta. destruct (nonempty _); [reflexivity|]. now destruct (_ <? _)%Z. Qed.

Lemma base_to_attribute_still : forall pop p w, gives (still p) (base_to_attribute gvt pop p w).
Proof.
  intros pop p w. unfold base_to_attribute. destruct (p_attribute p); [reflexivity|]. destruct (p_simple p); [reflexivity|].
  apply gives_any; intros t w'. reflexivity.
Qed.
Lemma base_to_element_still : forall pop p w, gives (still p) (base_to_element gvt pop p w).
Proof.
  intros pop p w. unfold base_to_element. destruct (p_simple p); [reflexivity|]. destruct (p_element p) eqn:He; [reflexivity|].
  apply gives_any; intros t w'. unfold on_top_element. rewrite He. reflexivity.
Qed.

Lemma start_still : forall local l p w, gives (still p) (dispatch_start gvt local l p w).
Proof.
  intros local l p w. unfold dispatch_start. cbv zeta. change (gives (still (set_in_element local p))
    (let m := to_title local in dispatch_start gvt local l p w)). unfold dispatch_start. cbv zeta.
  generalize (set_in_element local p). clear p. intros p.
  destruct (String.eqb _ _); [apply gives_any; intros; reflexivity|].
  destruct (String.eqb _ _); [apply gives_any; intros a w'; destruct (nonempty _); reflexivity|].
  destruct (String.eqb _ _); [exact Logic.I|].
  destruct (String.eqb _ _); [apply gives_any; intros; reflexivity|].
  destruct (String.eqb _ _).
  { unfold on_complex_type. cbv zeta. destruct (nonempty _); [destruct (p_element p); reflexivity|]. destruct (String.eqb _ _); [|reflexivity].
    cbn [p_element set_current]. now destruct (p_element p). }
  destruct (String.eqb _ _).
  { unfold on_element. apply gives_any; intros e w'. cbv zeta.
    destruct (String.eqb _ _); [apply gives_any; intros t w2|]; exact (place_still _ _ _). }
  destruct (String.eqb _ _); [reflexivity|].
  destruct (String.eqb _ _); [apply extension_still|].
  destruct (String.eqb _ _).
  { apply gives_any; intros g w'. cbv zeta. destruct (nonempty _); [reflexivity|]. destruct (_ =? _)%Z; [reflexivity|].
    destruct (_ <? _)%Z; [|reflexivity]. now destruct (p_group p). }
  destruct (String.eqb _ _); [reflexivity|]. destruct (String.eqb _ _); [reflexivity|].
  destruct (String.eqb _ _).
  { unfold on_list. destruct (nonempty _); [|reflexivity]. exact (list_still _ _ _ _). }
  destruct (String.eqb _ _); [apply restriction_still|]. destruct (String.eqb _ _); [reflexivity|].
  destruct (String.eqb _ _); [reflexivity|]. destruct (String.eqb _ _); [|reflexivity].
  unfold on_union. cbv zeta. destruct (nonempty _); [|reflexivity]. exact (union_still _ _ _ _).
Qed.

Lemma end_grows : forall local p w, gives (grows (to_title local) p) (dispatch_end gvt local p w).
Proof.
  intros local p w. unfold dispatch_end. cbv zeta.
  assert (Hback : forall (m : out PState), gives (still p) m -> gives (grows (to_title local) p) m).
  { intros [q w'|e w'|c w']; cbn; auto. intros H. now left. }
  assert (Htwo : forall pop, gives (still p) (bind (base_to_attribute gvt pop p w) (base_to_element gvt pop))).
  { intros pop. apply (gives_bind _ _ (still p)); [apply base_to_attribute_still|]. intros q w' Hq.
    pose proof (base_to_element_still pop q w') as Hs. destruct (base_to_element gvt pop q w'); cbn in *; auto. unfold still in *. congruence. }
  destruct (String.eqb_spec (to_title local) "Attribute") as [Hm|_].
  { unfold end_attribute. destruct (p_attribute p); [now left|]. destruct (nonempty _); [now left|]. destruct (nonempty _); [now left|].
    right. eexists. split; [reflexivity|exact Hm]. }
  destruct (String.eqb_spec (to_title local) "AttributeGroup") as [Hm|_].
  { unfold end_attribute_group. destruct (p_attrgroup p); [now left|]. right. eexists. split; [reflexivity|exact Hm]. }
  destruct (String.eqb _ _); [now left|].
  destruct (String.eqb_spec (to_title local) "ComplexType") as [Hm|_].
  { right. eexists. split; [reflexivity|]. destruct (p_complex p); cbn; auto. }
  destruct (String.eqb_spec (to_title local) "Element") as [Hm|_].
  { unfold end_element. destruct (p_element p); [now left|]. destruct (nonempty _); [now left|].
    right. eexists. split; [reflexivity|exact Hm]. }
  destruct (String.eqb _ _); [apply Hback, Htwo|].
  destruct (String.eqb _ _); [apply Hback, base_to_attribute_still|].
  destruct (String.eqb_spec (to_title local) "Group") as [Hm|_].
  { unfold end_group. cbv zeta. cbn [gives].
    assert (Hend : forall q, grows (to_title local) p q ->
      grows (to_title local) p (if String.eqb local (p_current q) then set_in_group (p_in_group q - 1)%Z q else q)).
    { intros q Hq. destruct (String.eqb _ _); exact Hq. }
    apply Hend. destruct (_ && _); [|now left]. right. eexists. split; [reflexivity|]. destruct (p_group p); cbn; auto. }
  destruct (String.eqb _ _); [apply Hback, Htwo|].
  destruct (String.eqb _ _).
  { apply Hback. apply (gives_bind _ _ (still p)); [apply base_to_attribute_still|]. intros q w' Hq. destruct (p_element q); exact Hq. }
  destruct (String.eqb_spec (to_title local) "SimpleType") as [Hm|_].
  { assert (Hl : local <> "") by (intros ->; discriminate Hm). unfold end_simple_type.
    assert (Hrest : gives (grows (to_title local) p)
      (let p := if String.eqb local (p_current p) && Nat.eqb (length (p_complex p)) 1
         then set_current "" (set_complex (tl (p_complex p)) (append_tree (pop_node PComplex (p_complex p)) p)) else p in
       Ret (if String.eqb local (p_current p) && negb (p_in_union p)
            then set_current "" (set_simple (tl (p_simple p)) (append_tree (pop_node PSimple (p_simple p)) p)) else p) w)).
    { cbv zeta. cbn [gives]. destruct (String.eqb local (p_current p)) eqn:Hc; cbn [andb]; [|rewrite Hc; now left].
      destruct (Nat.eqb _ _).
      - cbn [p_current set_current]. apply String.eqb_neq in Hl. rewrite Hl. cbn [andb].
        right. eexists. split; [reflexivity|]. destruct (p_complex p); cbn; auto.
      - rewrite Hc. cbn [andb]. destruct (negb _); [|now left]. right. eexists. split; [reflexivity|]. destruct (p_simple p); cbn; auto. }
    destruct (p_simple p); [exact Hrest|]. destruct (p_attribute p); [exact Hrest|]. now left. }
  destruct (String.eqb _ _); [unfold end_union; cbn [gives]; destruct (nonempty _); now left|].
  destruct (in_set _ _); [apply Hback, base_to_element_still|now left].
Qed.

Lemma char_still : forall d p, still p (on_char_data d p).
Proof.
  intros d p. unfold on_char_data. cbv zeta. repeat (destruct (_ && _) || destruct (String.eqb _ _) || destruct (nonempty _)); try reflexivity;
    unfold on_top_element; destruct (p_element p); reflexivity.
Qed.

(** What a token adds, before elements have got their final values. *)
Definition adds_nodes (t : token) (new : list pnode) : Prop :=
  new = [] \/ exists local n, t = TEnd local /\ new = [n] /\ match n with PN c => made_by (to_title local) c | PRef _ => to_title local = "Element" end.

Lemma run_ends : forall l p w, gives (fun q => exists news, p_tree q = p_tree p +++ concat news /\ Forall2 adds_nodes l news)
  (run_tokens gvt l p w).
Proof.
  induction l as [|t l IH]; intros p w; [exists []; split; [cbn; now rewrite app_nil_r|constructor]|]. cbn [run_tokens].
  apply (gives_bind _ _ (fun q => exists new, p_tree q = p_tree p +++ new /\ adds_nodes t new)).
  - assert (Hs : forall q, still p q -> exists new, p_tree q = p_tree p +++ new /\ adds_nodes t new)
      by (intros q Hq; exists []; split; [rewrite app_nil_r; exact Hq|now left]).
    destruct t as [local a|local|d|]; cbn [on_token].
    + pose proof (start_still local a p w) as H. destruct (dispatch_start gvt local a p w); cbn in *; auto.
    + pose proof (end_grows local p w) as H. destruct (dispatch_end gvt local p w); cbn in *; auto.
      destruct H as [H|[n [H1 H2]]]; [auto|]. exists [n]. split; [exact H1|]. right. exists local, n. auto.
    + apply Hs, char_still.
    + apply Hs. reflexivity.
  - intros q w' [new [Hq Hn]]. specialize (IH q w'). destruct (run_tokens gvt l q w') as [r w2|e w2|c w2]; cbn in *; auto.
    destruct IH as [news [Hr Hf]]. exists (new :: news). split; [|now constructor]. rewrite Hr, Hq. cbn. now rewrite <- app_assoc.
Qed.

Lemma freeze_adds : forall h t new, adds_nodes t new -> adds t (map (freeze_node h) new).
Proof.
  intros h t new [->|[local [n [-> [-> Hn]]]]]; [now left|]. right. exists local, (freeze_node h n). split; [reflexivity|].
  split; [reflexivity|]. now destruct n.
Qed.

End Ends.

Theorem parse_source : forall (E : Env) d fuel o w bytes q w', stat (o_file o) w = SFile bytes -> parse d fuel o w = Ret q w' ->
  Forall (comp_from (env_tokens bytes)) (freeze q).
Proof.
  intros E [|d] fuel o w bytes q w' Hs H; [discriminate|]. cbn [parse] in H. unfold parse_body in H. rewrite Hs in H.
  destruct (env_open_fail (o_file o)); [discriminate|]. cbv zeta in H.
  apply bind_ret in H as [r [w2 [H1 H2]]]. apply finish_ret in H2 as ->. apply freeze_from.
  match type of H1 with run_tokens ?g _ _ ?w0 = _ => pose proof (run_source (env_tokens bytes) g (env_tokens bytes) p_init w0 (incl_refl _) (inv_init _)) as HS end.
  rewrite H1 in HS. exact HS.
Qed.

Theorem parse_ends : forall (E : Env) d fuel o w bytes q w', stat (o_file o) w = SFile bytes -> parse d fuel o w = Ret q w' ->
  exists news, freeze q = concat news /\ Forall2 adds (env_tokens bytes) news.
Proof.
  intros E [|d] fuel o w bytes q w' Hs H; [discriminate|]. cbn [parse] in H. unfold parse_body in H. rewrite Hs in H.
  destruct (env_open_fail (o_file o)); [discriminate|]. cbv zeta in H.
  apply bind_ret in H as [r [w2 [H1 H2]]]. apply finish_ret in H2 as ->.
  match type of H1 with run_tokens ?g _ _ ?w0 = _ => pose proof (run_ends g (env_tokens bytes) p_init w0) as HS end.
  rewrite H1 in HS. destruct HS as [news [Ht Hf]]. exists (map (map (freeze_node (p_heap r))) news).
  split; [unfold freeze; rewrite Ht; cbn [p_tree p_init app]; now rewrite concat_map|].
  clear - Hf. induction Hf; cbn; constructor; auto. now apply freeze_adds.
Qed.
