(** The components of an ordinary schema are fine (C68). *)

From Coq Require Import String Ascii List NArith ZArith Bool.
From Verif Require Import GoStr Base SpecStr SpecDoc SpecTables SpecParse SpecDecl SpecGen SpecOut SpecSyntax SpecFine StrProofs.
From Verif Require SyntaxProofs TableProofs.
Import ListNotations.
Local Open Scope string_scope.

Local Infix "+++" := app (at level 60, right associativity).

Section Proofs.
Context {E : Env} {P : Pool}.
Variable lg : lang.

Definition kind_type (k : kind) : string :=
  match lg with Go => go_type k | C => c_type k | Java => java_type k | Rust => rust_type k | TypeScript => typescript_type k end.

Lemma representation_target : forall n t, representation (lname lg) n = Some t -> In t (targets lg).
Proof.
  intros n t H. unfold representation in H. destruct (kind_of n) as [k|]; [|discriminate]. cbn [option_map] in H. injection H as <-.
  destruct lg, k; vm_compute; tauto.
Qed.

Lemma target_facts : forall t, In t (targets lg) -> t <> "" /\ has_char ":" t = false /\ has_char LF t = false.
Proof.
  intros t H. apply (nodup_In string_dec) in H. revert H.
  destruct lg; match goal with |- In t (nodup string_dec ?x) -> _ => let y := eval vm_compute in (nodup string_dec x) in change (nodup string_dec x) with y end;
    intros H; cbn [In] in H;
    repeat (destruct H as [<-|H]; [split; [discriminate|]; split; reflexivity|]); destruct H.
Qed.

Lemma every_free : forall p c s, p c = false -> every p s -> has_char c s = false.
Proof.
  intros p c s Hc. induction s as [|a r IH]; intros H; [reflexivity|]. destruct H as [Ha Hr]. cbn [has_char].
  rewrite (IH Hr), orb_false_r. apply Ascii.eqb_neq. intros ->. congruence.
Qed.

Lemma name_one_line : forall n, name_ok n -> one_line n.
Proof.
  intros n [a [r [-> [Ha Hr]]]]. apply free_of_has_char. apply (every_free name_char); [reflexivity|].
  split; [|exact Hr]. unfold name_char, ident_char. now rewrite Ha.
Qed.

Lemma name_nonempty : forall n, name_ok n -> n <> "".
Proof. intros n [a [r [-> _]]]. discriminate. Qed.

Lemma type_nonempty : forall t, type_ok lg t -> t <> "".
Proof. intros t [H|[H _]]; [now apply target_facts | now apply name_nonempty]. Qed.

Lemma type_one_line : forall t, type_ok lg t -> one_line t.
Proof. intros t [H|[H _]]; [apply free_of_has_char; now apply target_facts | now apply name_one_line]. Qed.

Lemma type_local : forall t, type_ok lg t -> local_part t = t.
Proof.
  intros t H. apply SyntaxProofs.local_free. destruct H as [H|[_ [H _]]]; [now apply target_facts | now apply free_of_has_char].
Qed.

Lemma type_reference : forall t, type_ok lg t -> reference_fine lg t.
Proof. intros t H. right. now rewrite (type_local t H). Qed.

Lemma maybe_some : forall t, type_ok lg t -> maybe_type lg t.
Proof. intros t H. now right. Qed.
Hint Resolve maybe_some : fine.

(** * The tree so far *)

Variable strict : bool.  (* attributes have types *)

Definition good (p : proto) : Prop :=
  component_fine lg p /\
  match p with
  | PSimple v => Forall one_line (st_enum v) /\ (st_base v = "" \/ type_ok lg (st_base v)) /\
      (st_list v = false -> st_union v = false -> st_base v <> "")
  | PElement v => el_type v <> ""
  | PAttribute v => strict = true -> at_type v <> ""
  | _ => True
  end.

Lemma good_ok : forall p, good p -> component_ok p.
Proof.
  assert (Hm : forall t, maybe_type lg t -> one_line t) by (intros t [[-> _]|H]; [now apply free_of_has_char | now apply type_one_line]).
  assert (Ho : forall t, t = "" \/ type_ok lg t -> one_line t) by (intros t [->|H]; [now apply free_of_has_char | now apply type_one_line]).
  intros p [H G]. destruct p as [|v|v|v|v|v|v]; cbn [component_fine component_ok] in *.
  - exact I.
  - destruct H as [Hn [Hs Hb]]. destruct G as [G1 [G2 _]]. split; [now apply name_one_line|]. split; [now apply Ho|]. split; [exact G1|].
    eapply Forall_impl; [|exact Hs]. intros m [H1 [_ [_ [_ H2]]]]. split; [now apply name_one_line | now apply Ho].
  - destruct H as [Hn [Hb [H1 [H2 [H3 H4]]]]]. split; [now apply name_one_line|]. split; [now apply Ho|].
    repeat split; (eapply Forall_impl; [|eassumption]); intros x [Hx Hx']; (split; [now apply name_one_line | now apply Hm]).
  - destruct H as [H1 H2]. split; [now apply name_one_line | now apply Hm].
  - destruct H as [H1 H2]. split; [now apply name_one_line | now apply Hm].
  - destruct H as [Hn [H1 H2]]. split; [now apply name_one_line|].
    split; (eapply Forall_impl; [|eassumption]); intros x [Hx Hx']; (split; [now apply name_one_line | now apply Hm]).
  - destruct H as [Hn H1]. split; [now apply name_one_line|].
    eapply Forall_impl; [|eassumption]. intros x [Hx Hx']. split; [now apply name_one_line | now apply Hm].
Qed.

Lemma given_fine : forall n tree b, Forall good tree -> first_gives n tree b -> b <> "" -> type_ok lg b.
Proof.
  intros n tree b Ht [x [p [y [-> [Hg _]]]]] Hb. rewrite Forall_app in Ht. destruct Ht as [_ Ht]. apply Forall_inv in Ht. destruct Ht as [Ht Ht'].
  destruct Hg as [v H1 H2 H3|v H|v H].
  - destruct Ht' as [_ [[H|H] _]]; [contradiction|exact H].
  - destruct Ht as [_ [[H1 _]|H1]]; [contradiction|exact H1].
  - destruct Ht as [_ [[H1 _]|H1]]; [contradiction|exact H1].
Qed.

Variable res : string -> list proto -> string.
Variable many : string -> option bool.

(** What the resolver has to do. *)
Hypothesis res_fine : forall tree v, Forall good tree -> reference_fine lg v -> type_ok lg (res v tree).

Lemma type_res : forall tree t, Forall good tree -> type_ok lg t -> type_ok lg (res t tree).
Proof. intros tree t Ht H. apply res_fine; [exact Ht | now apply type_reference]. Qed.

Lemma base_fine : forall tree l v, Forall good tree -> last_of ["base"] l = Some v -> reference_fine lg v -> type_ok lg (base_in res l tree).
Proof. intros tree l v Ht Hl Hv. unfold base_in. rewrite Hl. apply type_res; [exact Ht|]. now apply res_fine. Qed.

Lemma ref_fine : forall tree l, Forall good tree -> typed lg ["ref"] l -> maybe_type lg (ref_in res l tree).
Proof.
  intros tree l Ht H. unfold ref_in, typed in *. destruct (last_of ["ref"] l) as [v|]; [right; now apply res_fine | now left].
Qed.

Lemma types_fine : forall tree l, Forall good tree -> typed lg ["type"; "ref"] l -> maybe_type lg (type_in res l tree).
Proof.
  intros tree l Ht H. unfold type_in, typed in *. destruct (last_of ["type"; "ref"] l) as [v|]; [right; now apply res_fine | now left].
Qed.

(** * Attributes *)

Lemma inline_in_fine : forall tree i t, Forall good tree -> inline_fine lg i -> inline_in res i tree = Some t -> maybe_type lg t.
Proof.
  intros tree [l docs d] t Ht Hi H. cbn [inline_fine inline_in] in *. destruct d as [lr dr fs|lr dr]; cbn [derivation_fine] in Hi.
  - destruct Hi as [[v [Hl Hv]] _]. destruct (facets_ok fs); [|discriminate]. injection H as <-. right. apply type_res; [exact Ht|].
    now apply (base_fine tree lr v).
  - injection H as <-. unfold item_in, typed in *. destruct (last_of ["itemType"] lr) as [v|]; cbn [option_map otherwise]; [right; now apply res_fine | now left].
Qed.

Lemma attribute_in_fine : forall tree own a x, Forall good tree -> attribute_decl_fine lg a -> attribute_in res own a tree = Some x -> attribute_fine lg x.
Proof.
  intros tree own [l docs inline] x Ht [Hn Ha] H. cbn [attribute_in] in H. destruct inline as [i|].
  - destruct (inline_in res i tree) as [t|] eqn:Hi; [|discriminate]. cbn [option_map] in H. injection H as <-.
    split; [exact Hn|]. cbn [at_type]. now apply (inline_in_fine tree i).
  - injection H as <-. split; [exact Hn|]. cbn [at_type]. now apply types_fine.
Qed.

Lemma attributes_in_fine : forall tree ats xs, Forall good tree -> Forall (attribute_decl_fine lg) ats -> attributes_in res ats tree = Some xs ->
  Forall (attribute_fine lg) xs.
Proof.
  intros tree ats. induction ats as [|a r IH]; intros xs Ht Ha H; cbn [attributes_in] in H.
  - injection H as <-. constructor.
  - destruct (attribute_in res false a tree) as [x|] eqn:Hx; [|discriminate]. destruct (attributes_in res r tree) as [ys|]; [|discriminate].
    injection H as <-. constructor; [apply (attribute_in_fine tree false a); try assumption; now apply Forall_inv in Ha|].
    apply IH; [exact Ht | now apply Forall_inv_tail in Ha | reflexivity].
Qed.

Lemma attribute_in_typed : forall tree own a x, Forall good tree -> attribute_decl_fine lg a -> attribute_typed (DAttribute a) ->
  attribute_in res own a tree = Some x -> at_type x <> "".
Proof.
  intros tree own [l docs [[li di [lr dr fs|lr dr]]|]] x Ht [Hn Ha] Hg H; cbn [attribute_in attribute_typed inline_in inline_fine derivation_fine] in *.
  - destruct Ha as [[v [Hl Hv]] _]. destruct (facets_ok fs); [|discriminate]. cbn [option_map] in H. injection H as <-. apply type_nonempty.
    apply type_res; [exact Ht|]. now apply (base_fine tree lr v).
  - injection H as <-. cbn [at_type]. unfold item_in, typed in *. destruct (last_of ["itemType"] lr) as [v|]; [|contradiction].
    cbn [option_map otherwise]. apply type_nonempty. now apply res_fine.
  - injection H as <-. cbn [at_type]. unfold type_in, typed in *. destruct (last_of ["type"; "ref"] l) as [v|]; [|contradiction].
    apply type_nonempty. now apply res_fine.
Qed.

(** * Elements and groups *)

Lemma element_in_fine : forall tree l plural e b, Forall good tree -> element_decl_fine lg l -> element_in res many l plural tree = Some (e, b) ->
  element_fine lg e /\ el_type e <> "".
Proof.
  intros tree l plural e b Ht [Hn Hr] H. unfold element_in in H. destruct (element_plural many l) as [pl|]; [|discriminate].
  unfold type_in in H. destruct (last_of ["type"; "ref"] l) as [v|]; cbn [otherwise] in Hr.
  - assert (Ht' := res_fine tree v Ht Hr). destruct (string_dec (res v tree) "") as [He|He]; [now apply type_nonempty in Ht'|].
    injection H as <- <-. split; [split; [exact Hn | now right] | exact He].
  - cbn in H. injection H as <- <-. assert (Ht' := res_fine tree _ Ht Hr). split; [split; [exact Hn | now right] | now apply type_nonempty].
Qed.

(** The name and the type of an element whose tag gives no type. *)
Lemma untyped : forall tree l plural e, element_in res many l plural tree = Some (e, false) ->
  el_name e = name_in l /\ el_type e = res (name_in l) tree.
Proof.
  intros tree l plural e H. unfold element_in in H. destruct (element_plural many l); [|discriminate].
  destruct (string_dec (type_in res l tree) ""); injection H as <-; [|discriminate]. now split.
Qed.

Lemma inline_element_fine : forall tree l plural e docs i x, Forall good tree -> named l -> inline_fine lg i ->
  element_in res many l plural tree = Some (e, false) -> inline_element res e docs i tree = Some x -> element_fine lg x /\ el_type x <> "".
Proof.
  intros tree l plural e docs [li di d] x Ht Hn Hi He H. apply untyped in He as [He _]. cbn [inline_element inline_fine] in *.
  destruct d as [lr dr [|f fs]|lr dr]; try discriminate. destruct Hi as [[v [Hl Hv]] _]. rewrite Hl in H.
  destruct (facets_ok (f :: fs)); [|discriminate]. injection H as <-.
  assert (Hb : type_ok lg (res (base_in res lr tree) tree)) by (apply type_res; [exact Ht|]; now apply (base_fine tree lr v)).
  split; [split; cbn [el_name el_type]; [now rewrite He | now right] | now apply type_nonempty].
Qed.

Lemma group_in_fine : forall tree l plural, Forall good tree -> named l -> typed lg ["ref"] l -> group_fine lg (group_in res l plural tree).
Proof. intros tree l plural Ht Hn Hr. split; [exact Hn|]. cbn [group_in gr_ref]. now apply ref_fine. Qed.

Lemma record_fine : forall e l, element_fine lg e -> Forall (element_fine lg) l -> Forall (element_fine lg) (record e l).
Proof.
  intros e l He. induction l as [|x r IH]; intros H; cbn [record]; [constructor; [exact He | constructor]|].
  pose proof (Forall_inv H) as Hx. pose proof (Forall_inv_tail H) as Hr.
  destruct (string_dec (el_name x) (el_name e)); [destruct (string_dec (el_type x) (el_type e))|].
  - constructor; [|exact Hr]. destruct Hx as [H1 H2]. now split.
  - constructor; [exact Hx|]. apply Forall_app. split; [exact Hr|]. constructor; [assumption | constructor].
  - constructor; [exact Hx | now apply IH].
Qed.

Lemma record_group_fine : forall g l, group_fine lg g -> Forall (group_fine lg) l -> Forall (group_fine lg) (record_group g l).
Proof.
  intros g l Hg Hl. unfold record_group. destruct (in_dec string_dec (gr_name g) (map gr_name l)); [exact Hl|].
  apply Forall_app. split; [exact Hl | constructor; [assumption | constructor]].
Qed.

(** * Changes to the tree *)

Lemma edit_good : forall f, (forall e, element_fine lg e /\ el_type e <> "" -> element_fine lg (f e) /\ el_type (f e) <> "") -> forall tree k, Forall good tree -> Forall good (edit k f tree).
Proof.
  intros f Hf tree. induction tree as [|p r IH]; intros k H; [destruct k; exact H|].
  pose proof (Forall_inv H) as Hp. pose proof (Forall_inv_tail H) as Hr.
  destruct k as [|k]; [|destruct p; cbn [edit]; (constructor; [exact Hp | now apply IH])].
  destruct p; cbn [edit]; try exact H. constructor; [|exact Hr]. exact (Hf _ Hp).
Qed.

Lemma edit_left_good : forall f x tree, (forall e, element_fine lg e /\ el_type e <> "" -> element_fine lg (f e) /\ el_type (f e) <> "") -> Forall good tree -> Forall good (edit_left f x tree).
Proof. intros f x tree Hf H. unfold edit_left. destruct (who x); [now apply edit_good | exact H]. Qed.

Lemma redocument_good : forall docs x tree, Forall good tree -> Forall good (redocument docs x tree).
Proof. intros docs x tree H. apply edit_left_good; [|exact H]. intros e [[H1 H2] H3]. repeat split; assumption. Qed.

Lemma retype_good : forall t x tree, type_ok lg t -> Forall good tree -> Forall good (retype t x tree).
Proof. intros t x tree Ht H. apply edit_left_good; [|exact H]. intros e [[H1 H2] _]. split; [split; [exact H1 | now right] | now apply type_nonempty]. Qed.

Lemma swallow_good : forall base fs x tree, type_ok lg base -> Forall good tree -> Forall good (swallow res base fs x tree).
Proof.
  intros base fs x. induction fs as [|[local l docs] r IH]; intros tree Hb H; [exact H|]. cbn [swallow].
  assert (H1 : Forall good (redocument docs x tree)) by now apply redocument_good.
  assert (H2 : Forall good (retype (res base (redocument docs x tree)) x (redocument docs x tree))).
  { apply retype_good; [|exact H1]. now apply type_res. }
  destruct (is_enumeration (Facet local l docs)); [now apply IH | now apply redocument_good].
Qed.

(** * The inside of a complex type *)

Definition inside_good (s : inside) : Prop := Forall good (i_tree s) /\ component_fine lg (PComplex (i_type s)).

Lemma document_fine : forall docs c, component_fine lg (PComplex c) -> component_fine lg (PComplex (document docs c)).
Proof.
  intros docs c [H1 [H2 [H3 [H4 [H5 H6]]]]]. unfold document. destruct (rev (ct_attributes c)) as [|a r] eqn:Ha.
  - repeat (split; [assumption|]). assumption.
  - do 3 (split; [assumption|]). split; [|now split]. cbn [ct_attributes]. apply Forall_rev.
    assert (H : Forall (attribute_fine lg) (a :: r)) by (rewrite <- Ha; now apply Forall_rev).
    pose proof (Forall_inv H) as [Hn Ht]. constructor; [now split | now apply Forall_inv_tail in H].
Qed.

Lemma tell_good : forall docs s, inside_good s -> inside_good (tell docs s).
Proof.
  intros docs s [H1 H2]. unfold tell. destruct (i_to s); split; cbn [i_tree i_type with_type]; try assumption; [now apply document_fine | now apply redocument_good].
Qed.

Lemma with_type_good : forall f s, (component_fine lg (PComplex (i_type s)) -> component_fine lg (PComplex (f (i_type s)))) ->
  inside_good s -> inside_good (with_type f s).
Proof. intros f s Hf [H1 H2]. split; [exact H1|]. cbn [with_type i_type]. now apply Hf. Qed.

Lemma add_attribute_fine : forall x c, attribute_fine lg x -> component_fine lg (PComplex c) -> component_fine lg (PComplex (add_attribute x c)).
Proof.
  intros x c Hx [H1 [H2 [H3 [H4 [H5 H6]]]]]. do 3 (split; [assumption|]). split; [|now split].
  cbn [add_attribute ct_attributes]. apply Forall_app. split; [exact H4 | constructor; [assumption | constructor]].
Qed.

Lemma add_attrgroup_fine : forall x c, attrgroup_fine lg x -> component_fine lg (PComplex c) -> component_fine lg (PComplex (add_attrgroup x c)).
Proof.
  intros x c Hx [H1 [H2 [H3 H4]]]. do 2 (split; [assumption|]). split; [|exact H4].
  cbn [add_attrgroup ct_attrgroups]. apply Forall_app. split; [exact H3 | constructor; [assumption | constructor]].
Qed.

Lemma add_group_fine : forall x c, group_fine lg x -> component_fine lg (PComplex c) -> component_fine lg (PComplex (add_group x c)).
Proof.
  intros x c Hx [H1 [H2 [H3 [H4 [H5 H6]]]]]. do 4 (split; [assumption|]). split; [|assumption]. now apply record_group_fine.
Qed.

Lemma add_member_fine : forall x c, element_fine lg x -> component_fine lg (PComplex c) -> component_fine lg (PComplex (add_member x c)).
Proof.
  intros x c Hx [H1 [H2 [H3 [H4 [H5 H6]]]]]. do 5 (split; [assumption|]). now apply record_fine.
Qed.

Lemma based_on_fine : forall l tree c, Forall good tree -> match last_of ["base"] l with Some v => reference_fine lg v | None => True end ->
  component_fine lg (PComplex c) -> component_fine lg (PComplex (based_on res l tree c)).
Proof.
  intros l tree c Ht Hl [H1 [H2 H3]]. split; [exact H1|]. split; [|exact H3]. cbn [based_on ct_base].
  destruct (last_of ["base"] l) as [v|] eqn:Hv; [right; now apply (base_fine tree l v) | exact H2].
Qed.

Lemma lost_good : forall o s s', inside_good s -> lost o s = Some s' -> inside_good s'.
Proof. intros o s s' H Hl. unfold lost in Hl. destruct (i_to s); try discriminate; injection Hl as <-; exact H. Qed.

Lemma new_type_fine : forall n, name_ok n -> component_fine lg (PComplex (mkComplex "" n "" [] [] [] [])).
Proof. intros n H. split; [exact H|]. split; [now left|]. repeat split; constructor. Qed.

Lemma body_in_good : forall b plural s s', body_fine lg b -> inside_good s -> body_in res many b plural s = Some s' -> inside_good s'.
Proof.
  induction b as [|d r IH|a r IH|l docs r IH|l docs r IH|l docs r IH|l docs ct i IHi r IH|l docs i r IH|l i IHi r IH|l i IHi r IH|l i IHi r IH|f r IH];
    intros plural s s' Hb Hs H; cbn [body_in body_fine] in *.
  - injection H as <-. exact Hs.
  - eapply IH; [exact Hb| |exact H]. now apply tell_good.
  - destruct Hb as [Ha Hr].
    assert (H1 : forall own x, attribute_in res own a (i_tree s) = Some x -> attribute_fine lg x).
    { intros own x Hx. apply (attribute_in_fine (i_tree s) own a); [apply Hs|exact Ha|exact Hx]. }
    destruct (i_to s) eqn:Hto.
    + destruct (attribute_in res true a (i_tree s)) as [x|] eqn:Hx; [|discriminate]. eapply IH; [exact Hr| |exact H].
      split; cbn [i_tree i_type with_type]; [apply Hs|]. apply add_attribute_fine; [now apply (H1 true)|apply Hs].
    + destruct (has_inline a); [discriminate|]. destruct (attribute_in res false a (i_tree s)) as [x|] eqn:Hx; [|discriminate].
      eapply IH; [exact Hr| |exact H]. apply with_type_good; [|now apply tell_good]. apply add_attribute_fine. now apply (H1 false).
    + destruct (attribute_in res true a (i_tree s)) as [x|] eqn:Hx; [|discriminate]. eapply IH; [exact Hr| |exact H].
      split; cbn [i_tree i_type with_type]; [apply Hs|]. apply add_attribute_fine; [now apply (H1 true)|apply Hs].
    + destruct (has_inline a); [discriminate|]. destruct (attribute_in res false a (i_tree s)) as [y|] eqn:Hx; [|discriminate].
      eapply IH; [exact Hr| |exact H]. apply with_type_good; [|now apply tell_good]. apply add_attribute_fine. now apply (H1 false).
  - destruct Hb as [Hn [Hl Hr]]. eapply IH; [exact Hr| |exact H]. apply tell_good. apply with_type_good; [|exact Hs].
    apply add_attrgroup_fine. split; [exact Hn|]. cbn [attrgroup_in ag_ref]. apply ref_fine; [apply Hs|exact Hl].
  - destruct Hb as [Hn [Hl Hr]]. eapply IH; [exact Hr| |exact H]. apply tell_good. apply with_type_good; [|exact Hs].
    apply add_group_fine. apply group_in_fine; [apply Hs|exact Hn|exact Hl].
  - destruct Hb as [He Hr]. destruct (element_in res many l plural (i_tree s)) as [[e t]|] eqn:Hx; [|discriminate].
    assert (Hf : inside_good (with_type (add_member e) s)).
    { apply with_type_good; [|exact Hs]. apply add_member_fine. apply (element_in_fine (i_tree s) l plural e t); [apply Hs|exact He|exact Hx]. }
    destruct t.
    + eapply IH; [exact Hr| |exact H]. now apply tell_good.
    + destruct (lost (opened (i_to s)) (with_type (add_member e) s)) as [s1|] eqn:Hl; [|discriminate].
      eapply IH; [exact Hr| |exact H]. now apply (lost_good _ _ _ Hf Hl).
  - destruct Hb as [Hn [Href [Hi Hr]]]. destruct (element_in res many l plural (i_tree s)) as [[e [|]]|] eqn:Hx; try discriminate.
    destruct (body_in res many i plural (mkInside (i_tree s) (mkComplex "" (name_in l) "" [] [] [] []) (i_to s) (i_doc s))) as [s1|] eqn:H1; [|discriminate].
    apply IHi in H1; [|exact Hi|split; [apply Hs | now apply new_type_fine]]. destruct H1 as [H1 H2].
    eapply IH; [exact Hr| |exact H]. split; cbn [i_tree i_type].
    + apply Forall_app. split; [exact H1|]. constructor; [|constructor]. now split.
    + apply add_member_fine; [|apply Hs]. apply untyped in Hx as [Hx1 Hx2]. split; [now rewrite Hx1|]. rewrite Hx2. right. apply res_fine; [apply Hs|exact Href].
  - destruct Hb as [Hn [Hi Hr]]. destruct (element_in res many l plural (i_tree s)) as [[e [|]]|] eqn:Hx; try discriminate.
    unfold inline_member in H. destruct (in_dec string_dec (el_name e) (map el_name (ct_elements (i_type s)))); [discriminate|].
    destruct (inline_element res e docs i (i_tree s)) as [x|] eqn:Hix; [|discriminate].
    destruct (lost (only_values i) (with_type (add_member x) s)) as [s1|] eqn:Hl; [|discriminate].
    eapply IH; [exact Hr| |exact H]. apply (lost_good _ _ _) in Hl; [exact Hl|]. apply with_type_good; [|exact Hs]. apply add_member_fine.
    apply (inline_element_fine (i_tree s) l plural e docs i); try assumption. apply Hs.
  - destruct Hb as [Hi Hr]. destruct (choice_in many l) as [b|]; [|discriminate]. destruct (body_in res many i (b || plural) s) as [s1|] eqn:H1; [|discriminate].
    eapply IH; [exact Hr| |exact H]. now apply (IHi (b || plural) s).
  - destruct Hb as [Hl [Hi Hr]]. destruct (string_dec (ct_name (i_type s)) ""); [discriminate|].
    destruct (body_in res many i plural (with_type (based_on res l (i_tree s)) s)) as [s1|] eqn:H1; [|discriminate].
    eapply IH; [exact Hr| |exact H]. eapply IHi; [exact Hi| |exact H1]. apply with_type_good; [|exact Hs]. apply based_on_fine; [apply Hs|exact Hl].
  - destruct Hb as [Hi Hr]. destruct (i_to s) eqn:Hto; try discriminate.
    + destruct (body_in res many i plural s) as [s1|] eqn:H1; [|discriminate]. apply IHi in H1; [|exact Hi|exact Hs].
      destruct (i_to s1); try discriminate; (eapply IH; [exact Hr|exact H1|exact H]).
    + destruct (body_in res many i plural s) as [s1|] eqn:H1; [|discriminate]. apply IHi in H1; [|exact Hi|exact Hs].
      destruct (i_to s1); try discriminate; (eapply IH; [exact Hr|exact H1|exact H]).
  - destruct (i_to s); try discriminate; (destruct (facet_ok f); [|discriminate]); (eapply IH; [exact Hb| |exact H]; now apply tell_good).
Qed.

Lemma part_in_fine : forall p plural tree g g', Forall good tree -> part_fine lg p -> component_fine lg (PGroup g) ->
  part_in res many p plural tree g = Some g' -> component_fine lg (PGroup g').
Proof.
  induction p as [|d r IH|l docs r IH|l docs r IH|l i IHi r IH]; intros plural tree g g' Ht Hp Hg H; cbn [part_in part_fine] in *.
  - now injection H as <-.
  - now apply (IH plural tree g).
  - destruct Hp as [He Hr]. destruct (element_in res many l plural tree) as [[e [|]]|] eqn:Hx; try discriminate.
    eapply IH; [exact Ht|exact Hr| |exact H]. destruct Hg as [H1 [H2 H3]]. split; [exact H1|]. split; [|exact H3]. cbn [gr_elements].
    apply Forall_app. split; [exact H2|]. constructor; [|constructor]. now apply (element_in_fine tree l plural e true).
  - destruct Hp as [Hn [Hl Hr]]. eapply IH; [exact Ht|exact Hr| |exact H]. destruct Hg as [H1 [H2 H3]]. split; [exact H1|]. split; [exact H2|].
    cbn [gr_groups]. apply Forall_app. split; [exact H3|]. constructor; [|constructor]. now apply group_in_fine.
  - destruct Hp as [Hi Hr]. destruct (choice_in many l) as [b|]; [|discriminate]. destruct (part_in res many i (b || plural) tree g) as [g1|] eqn:H1; [|discriminate].
    eapply IH; [exact Ht|exact Hr| |exact H]. now apply (IHi (b || plural) tree g).
Qed.

(** * Simple types *)

(** A simple type on its way: [made] once it has a base or members. *)
Definition simple_good (made : bool) (v : SimpleType) : Prop :=
  name_ok (st_name v) /\ Forall (member_fine lg) (st_members v) /\ Forall one_line (st_enum v) /\
  (st_base v = "" \/ type_ok lg (st_base v)) /\
  ((st_base v = "" /\ made = true) -> maybe_type lg "" \/ (st_list v = false /\ is_union v = true)) /\
  (made = true -> st_list v = false -> st_union v = false -> st_base v <> "").

Lemma simple_good_good : forall v, simple_good true v -> good (PSimple v).
Proof.
  intros v [H1 [H2 [H3 [H4 [H5 H6]]]]]. split; [|split; [exact H3 | split; [exact H4 | now apply H6]]]. split; [exact H1|]. split; [exact H2|].
  destruct H4 as [He|Ht]; [|left; now right]. destruct H5 as [H5|H5]; [now split|left; now rewrite He|now right].
Qed.

Lemma derive_good : forall d tree v v' made, Forall good tree -> derivation_fine lg d -> simple_good made v -> derive res d tree v = Some v' ->
  simple_good true v'.
Proof.
  intros d tree v v' made Ht Hd [H1 [H2 [H3 [H4 [H5 H6]]]]] H. destruct d as [l docs fs|l docs]; cbn [derive derivation_fine] in *.
  - destruct Hd as [[b [Hl Hb]] Hf]. destruct (facets_ok fs); [|discriminate]. rewrite Hl in H. injection H as <-.
    assert (Hok := base_fine tree l b Ht Hl Hb). repeat split; cbn [st_name st_members st_enum st_base st_list]; try assumption.
    + apply Forall_app. now split.
    + now right.
    + intros [He _]. now apply type_nonempty in Hok.
    + intros _ _ _. now apply type_nonempty.
  - injection H as <-. unfold item_in, typed in *. destruct (last_of ["itemType"] l) as [b|]; cbn [option_map otherwise] in *.
    + assert (Hok := res_fine tree b Ht Hd). repeat split; cbn [st_name st_members st_enum st_base st_list]; try assumption; [now right| |discriminate].
      intros [He _]. now apply type_nonempty in Hok.
    + repeat split; cbn [st_name st_members st_enum st_base st_list]; try assumption; [|discriminate]. intros _. left. now left.
Qed.

Lemma members_in_good : forall ms tree v v' made, Forall good tree -> Forall (inline_fine lg) ms -> simple_good made v ->
  members_in res ms tree v = Some v' -> simple_good (made || match ms with [] => false | _ => true end) v'.
Proof.
  induction ms as [|[l docs d] r IH]; intros tree v v' made Ht Hm Hv H; cbn [members_in] in H.
  - injection H as <-. now rewrite orb_false_r.
  - destruct (last_of ["name"] l); [discriminate|]. destruct (derive res d tree v) as [v1|] eqn:Hd; [|discriminate].
    apply (derive_good d tree v v1 made) in Hd; [|exact Ht|now apply Forall_inv in Hm|exact Hv]. rewrite orb_true_r.
    apply (IH tree v1 v' true); try assumption. now apply Forall_inv_tail in Hm.
Qed.

Lemma put_fine : forall k t m, member_fine lg (k, t) -> Forall (member_fine lg) m -> Forall (member_fine lg) (put k t m).
Proof.
  intros k t m Hk. induction m as [|[k' t'] r IH]; intros H; cbn [put]; [constructor; [assumption | constructor]|].
  destruct (String.eqb k' k) eqn:He; constructor.
  - apply String.eqb_eq in He. now subst.
  - now apply Forall_inv_tail in H.
  - now apply Forall_inv in H.
  - apply IH. now apply Forall_inv_tail in H.
Qed.

Lemma put_some : forall {A} k (t : A) m, put k t m <> [].
Proof. intros A k t [|[k' t'] r]; cbn [put]; [discriminate|]. destruct (String.eqb k' k); discriminate. Qed.

Lemma words_fine : forall tree words m, Forall good tree -> Forall (word_fine lg) words -> Forall (member_fine lg) m ->
  Forall (member_fine lg) (fold_left (fun m v => put (local_part v) (res v tree) m) words m).
Proof.
  intros tree words. induction words as [|x r IH]; intros m Ht Hw Hm; [exact Hm|]. cbn [fold_left]. apply IH; [exact Ht|now apply Forall_inv_tail in Hw|].
  apply Forall_inv in Hw. destruct Hw as [H1 [H2 [H3 H4]]]. apply put_fine; [|exact Hm].
  assert (Hok := res_fine tree x Ht H1). do 3 (split; [assumption|]). split; cbn [fst snd]; [intros He; now apply type_nonempty in Hok | now right].
Qed.

Lemma words_some : forall tree words m, m <> [] \/ words <> [] -> fold_left (fun m v => put (local_part v) (res v tree) m) words m <> [].
Proof.
  intros tree words. induction words as [|x r IH]; intros m H; cbn [fold_left]; [destruct H as [H|H]; [exact H|contradiction]|].
  apply IH. left. apply put_some.
Qed.

Lemma fresh_good : forall doc n, name_ok n -> simple_good false (mkSimple doc n "" false false [] []).
Proof.
  intros doc n Hn. split; [exact Hn|]. split; [constructor|]. split; [constructor|]. split; [now left|]. split; [now intros [_ H] | discriminate].
Qed.

Lemma fresh_union : forall doc n tree l (b : bool), Forall good tree -> name_ok n ->
  Forall (word_fine lg) (flat_map (split_on " ") (values "memberTypes" l)) ->
  (b = true -> flat_map (split_on " ") (values "memberTypes" l) <> [] \/ lg <> Java) ->
  simple_good b (mkSimple doc n "" false true
    (fold_left (fun m v => put (local_part v) (res v tree) m) (flat_map (split_on " ") (values "memberTypes" l)) []) []).
Proof.
  intros doc n tree l b Ht Hn Hw Hb. split; [exact Hn|]. split; [now apply words_fine|]. split; [constructor|]. split; [now left|].
  split; [|discriminate]. cbn [st_base st_list]. intros [_ He]. destruct (Hb He) as [H|H]; [right|left; now left]. split; [reflexivity|].
  unfold is_union. cbn [st_union st_members andb].
  assert (H1 := words_some tree (flat_map (split_on " ") (values "memberTypes" l)) [] (or_intror H)).
  match goal with |- match ?x with _ => _ end = _ => now destruct x end.
Qed.

Lemma simple_in_good : forall name doc s tree v, Forall good tree -> name_ok name -> simple_body_fine lg s ->
  simple_in res name doc s tree = Some v -> good (PSimple v).
Proof.
  intros name doc s tree v Ht Hn Hs H. apply simple_good_good. destruct s as [d|l docs ms]; cbn [simple_in simple_body_fine] in *.
  - apply (derive_good d tree _ v false) in H; try assumption. now apply fresh_good.
  - destruct Hs as [Hw [Hm Hj]].
    destruct ms as [|i r].
    + cbn [members_in] in H. injection H as <-. apply fresh_union; try assumption. intros _. destruct Hj as [Hj|[Hj|Hj]]; [now left|now elim Hj|now right].
    + apply (members_in_good (i :: r) tree _ v false) in H; try assumption. now apply fresh_union.
Qed.

Lemma derive_left_good : forall d x tree v tree' v' made, Forall good tree -> derivation_fine lg d -> simple_good made v ->
  derive_left res d x tree v = Some (tree', v') -> Forall good tree' /\ simple_good true v'.
Proof.
  intros d x tree v tree' v' made Ht Hd Hv H. unfold derive_left in H.
  assert (H0 : option_map (fun v' => (redocument (derivation_texts d) x tree, v')) (derive res d tree v) = Some (tree', v')).
  { destruct d as [l docs [|f fs]|l docs]; [exact H|discriminate|exact H]. }
  destruct (derive res d tree v) as [v1|] eqn:Hx; [|discriminate]. cbn [option_map] in H0. injection H0 as <- <-.
  split; [now apply redocument_good|]. now apply (derive_good d tree v v1 made).
Qed.

Lemma members_left_good : forall ms x tree v tree' v' made, Forall good tree -> Forall (inline_fine lg) ms -> simple_good made v ->
  members_left res ms x tree v = Some (tree', v') -> Forall good tree' /\ simple_good (made || match ms with [] => false | _ => true end) v'.
Proof.
  induction ms as [|[l docs d] r IH]; intros x tree v tree' v' made Ht Hm Hv H; cbn [members_left] in H.
  - injection H as <- <-. rewrite orb_false_r. now split.
  - destruct (last_of ["name"] l); [discriminate|]. destruct (derive_left res d x (redocument docs x tree) v) as [[t1 v1]|] eqn:Hd; [|discriminate].
    apply (derive_left_good d x _ v t1 v1 made) in Hd; [|now apply redocument_good|now apply Forall_inv in Hm|exact Hv]. destruct Hd as [Ht1 Hv1].
    rewrite orb_true_r. apply (IH x t1 v1 tree' v' true); try assumption. now apply Forall_inv_tail in Hm.
Qed.

Lemma simple_left_good : forall name docs s x tree tree' y, Forall good tree -> name_ok name -> simple_body_fine lg s ->
  simple_left res name docs s x tree = Some (tree', y) -> Forall good tree'.
Proof.
  intros name docs s x tree tree' y Ht Hn Hs H. unfold simple_left in H.
  assert (Ht1 : Forall good (redocument docs x tree)) by now apply redocument_good. set (t1 := redocument docs x tree) in *. clearbody t1.
  assert (Hone : forall t v, Forall good t -> simple_good true v -> Forall good (t +++ [PSimple v])).
  { intros t v Hg Hv. apply Forall_app. split; [exact Hg|]. constructor; [now apply simple_good_good|constructor]. }
  destruct s as [d|l docs' ms]; cbn [simple_body_fine] in Hs.
  - assert (Hd : forall r, derive_left res d x t1 (mkSimple "" name "" false false [] []) = Some r -> Forall good (fst r +++ [PSimple (snd r)])).
    { intros [t2 v2] H2. apply (derive_left_good d x t1 _ t2 v2 false) in H2; [|exact Ht1|exact Hs|now apply fresh_good].
      destruct H2 as [H2 H3]. now apply Hone. }
    destruct d as [l docs' [|f fs]|l docs'].
    + destruct (derive_left res (Restricted l docs' []) x t1 (mkSimple "" name "" false false [] [])) as [r|]; [|discriminate].
      cbn [option_map] in H. injection H as <- <-. now apply Hd.
    + destruct Hs as [[b [Hl Hb]] _]. destruct (facets_ok (f :: fs)); [|discriminate]. injection H as <- <-.
      exact (swallow_good _ (f :: fs) x _ (base_fine t1 l b Ht1 Hl Hb) (redocument_good docs' x t1 Ht1)).
    + destruct (derive_left res (ListOf l docs') x t1 (mkSimple "" name "" false false [] [])) as [r|]; [|discriminate].
      cbn [option_map] in H. injection H as <- <-. now apply Hd.
  - destruct Hs as [Hw [Hm Hj]]. destruct (members_left _ _ _ _ _) as [[t2 v2]|] eqn:H2; [|discriminate]. cbn [option_map fst snd] in H. injection H as <- <-.
    destruct ms as [|i r].
    + cbn [members_left] in H2. injection H2 as <- <-. apply Hone; [now apply redocument_good|]. apply fresh_union; try assumption.
      intros _. destruct Hj as [Hj|[Hj|Hj]]; [now left|now elim Hj|now right].
    + apply (members_left_good (i :: r) x _ _ t2 v2 false) in H2; [|now apply redocument_good|exact Hm|now apply fresh_union].
      destruct H2 as [H2 H3]. now apply Hone.
Qed.

(** * Components *)

Lemma component_in_good : forall d tree before tree' before', Forall good tree -> declared_fine lg d -> (strict = true -> attribute_typed d) ->
  component_in res many d tree before = Some (tree', before') -> Forall good tree'.
Proof.
  intros d tree before tree' before' Ht Hd Hg H.
  assert (Hone : forall t p, Forall good t -> good p -> Forall good (t +++ [p])).
  { intros t p Hq Hp. apply Forall_app. split; [exact Hq | constructor; [assumption | constructor]]. }
  destruct d as [d|l docs s|l b|l docs|l docs ct b|l docs i|a|l g|l docs ats]; cbn [component_in declared_fine] in *.
  - injection H as <- <-. destruct before; [now apply redocument_good|exact Ht].
  - destruct Hd as [Hn Hs]. destruct (string_dec (otherwise "" (last_of ["name"] l)) ""); [discriminate|]. destruct before as [x|].
    + destruct (open x); [discriminate|]. destruct (simple_left _ _ _ _ _ _) as [[t y]|] eqn:Hx; [|discriminate]. cbn [option_map fst snd] in H.
      injection H as <- <-. now apply (simple_left_good _ _ _ _ _ _ _ Ht Hn Hs Hx).
    + destruct (simple_in _ _ _ _ _) as [v|] eqn:Hx; [|discriminate]. cbn [option_map] in H. injection H as <- <-.
      apply Hone; [exact Ht|]. now apply (simple_in_good _ _ _ _ _ Ht Hn Hs Hx).
  - destruct Hd as [Hn Hb]. destruct (string_dec (otherwise "" (last_of ["name"] l)) ""); [discriminate|].
    destruct (body_in _ _ _ _ _) as [r|] eqn:Hx; [|discriminate]. cbn [option_map] in H. injection H as <- <-.
    apply body_in_good in Hx; [|exact Hb|split; [exact Ht | now apply new_type_fine]]. destruct Hx as [H1 H2]. apply Hone; [exact H1|]. now split.
  - destruct (element_in res many l false tree) as [[e t]|] eqn:Hx; [|discriminate]. injection H as <- <-. apply Hone; [exact Ht|].
    exact (element_in_fine tree l false e t Ht Hd Hx).
  - destruct Hd as [Hn [Hr Hb]]. destruct (element_in res many l false tree) as [[e [|]]|] eqn:Hx; try discriminate.
    destruct (last_of ["name"] ct); [discriminate|]. destruct (body_in _ _ _ _ _) as [r|] eqn:Hy; [|discriminate]. cbn [option_map] in H. injection H as <- <-.
    apply body_in_good in Hy; [|exact Hb|split; [exact Ht | now apply new_type_fine]]. destruct Hy as [H1 H2].
    apply Forall_app. split; [exact H1|]. constructor; [now split|]. constructor; [|constructor].
    apply untyped in Hx as [Hx1 Hx2]. assert (Ht' := res_fine tree _ Ht Hr).
    split; [split|]; cbn [el_name el_type]; [now rewrite Hx1 | rewrite Hx2; now right | rewrite Hx2; now apply type_nonempty].
  - destruct Hd as [Hn Hi]. destruct (element_in res many l false tree) as [[e [|]]|] eqn:Hx; try discriminate.
    destruct (inline_element res e docs i tree) as [x|] eqn:Hy; [|discriminate]. cbn [option_map] in H. injection H as <- <-.
    apply Hone; [exact Ht|]. exact (inline_element_fine tree l false e docs i x Ht Hn Hi Hx Hy).
  - destruct before as [x|].
    + destruct (has_inline a); [discriminate|]. destruct (attribute_in res false a tree) as [v|] eqn:Hx; [|discriminate]. cbn [option_map] in H.
      injection H as <- <-. apply Hone; [now apply redocument_good|]. split; [now apply (attribute_in_fine tree false a) | intros Hs; now apply (attribute_in_typed tree false a v Ht Hd (Hg Hs))].
    + destruct (attribute_in res true a tree) as [v|] eqn:Hx; [|discriminate]. cbn [option_map] in H.
      injection H as <- <-. apply Hone; [exact Ht|]. split; [now apply (attribute_in_fine tree true a) | intros Hs; now apply (attribute_in_typed tree true a v Ht Hd (Hg Hs))].
  - destruct Hd as [Hn Hp]. destruct before as [x|]; [discriminate|]. destruct (part_in _ _ _ _ _ _) as [v|] eqn:Hx; [|discriminate]. cbn [option_map] in H.
    injection H as <- <-. apply Hone; [exact Ht|]. split; [|exact I]. apply (part_in_fine _ _ _ _ _ Ht Hp) in Hx; [exact Hx|].
    split; [exact Hn|]. split; constructor.
  - destruct Hd as [Hn Ha]. destruct (match before with Some _ => existsb has_inline ats | None => false end); [discriminate|].
    destruct (attributes_in res ats tree) as [xs|] eqn:Hx; [|discriminate]. cbn [option_map] in H. injection H as <- <-.
    apply Hone; [exact Ht|]. split; [|exact I]. split; [exact Hn|]. now apply (attributes_in_fine tree ats).
Qed.

Lemma schema_from_good : forall ds tree before tree', Forall good tree -> schema_fine lg ds -> (strict = true -> Forall attribute_typed ds) ->
  schema_from res many ds tree before = Some tree' -> Forall good tree'.
Proof.
  induction ds as [|d r IH]; intros tree before tree' Ht Hd Hg H; cbn [schema_from] in H; [now injection H as <-|].
  destruct (component_in res many d tree before) as [[t1 b1]|] eqn:H1; [|discriminate].
  apply (IH t1 b1); [|now apply Forall_inv_tail in Hd|intros Hs; now apply Forall_inv_tail in Hg|exact H].
  apply (component_in_good d tree before t1 b1); try assumption; [now apply Forall_inv in Hd | intros Hs; now apply Forall_inv in Hg].
Qed.

Lemma schema_in_good : forall ds tree, schema_fine lg ds -> (strict = true -> Forall attribute_typed ds) -> schema_in res many ds [] = Some tree ->
  Forall good tree.
Proof. intros ds tree Hd Hg H. now apply (schema_from_good ds [] None). Qed.

End Proofs.

Section Resolvers.
Context {E : Env} {P : Pool}.
Variable lg : lang.

Lemma good_fine : forall strict tree, Forall (good lg strict) tree -> tree_fine lg tree /\ tree_ok tree.
Proof. intros strict tree H. split; (eapply Forall_impl; [|exact H]); [now intros p [Hp _] | exact (good_ok lg strict)]. Qed.

Lemma resolution_fine : forall res, resolution false (lname lg) res -> forall tree v, Forall (good lg false) tree -> reference_fine lg v -> type_ok lg (res v tree).
Proof.
  intros res Hres tree v Ht Hv. pose proof (Hres v tree) as H. cbv zeta in H. destruct (representation (lname lg) (local_part v)) as [t|] eqn:Hr.
  - rewrite H. left. now apply (representation_target lg (local_part v)).
  - destruct Hv as [Hv|Hv]; [congruence|]. destruct H as [H1 [H2 H3]]. destruct (TableProofs.first_or_none (local_part v) tree) as [[b Hb]|Hn].
    + destruct (string_dec b "") as [->|He]; [now rewrite (H2 Hb)|]. rewrite (H1 b Hb He). now apply (given_fine lg false (local_part v) tree).
    + now rewrite (H3 Hn).
Qed.

Theorem schema_in_fine : forall res many, resolution false (lname lg) res -> forall ds tree, schema_fine lg ds ->
  schema_in res many ds [] = Some tree -> tree_fine lg tree /\ tree_ok tree.
Proof.
  intros res many Hres ds tree Hd H. apply (good_fine false). apply (schema_in_good lg false res many (resolution_fine res Hres) ds); try assumption. discriminate.
Qed.

(** Where attributes have types, nothing in a tree gives an empty one. *)
Lemma given_typed : forall n tree b, Forall (good lg true) tree -> first_gives n tree b -> type_ok lg b.
Proof.
  intros n tree b Ht Hb. apply (given_fine lg true n tree b Ht Hb). destruct Hb as [x [p [y [-> [Hg _]]]]].
  rewrite Forall_app in Ht. destruct Ht as [_ Ht]. apply Forall_inv in Ht. destruct Ht as [_ Ht].
  destruct Hg as [v H1 H2 H3|v H|v H]; [apply Ht; assumption | now apply Ht | exact Ht].
Qed.

Lemma resolution_typed : forall extract res, resolution extract (lname lg) res -> forall tree v, Forall (good lg true) tree -> reference_fine lg v -> type_ok lg (res v tree).
Proof.
  intros extract res Hres tree v Ht Hv. pose proof (Hres v tree) as H. cbv zeta in H. destruct (representation (lname lg) (local_part v)) as [t|] eqn:Hr.
  - rewrite H. left. now apply (representation_target lg (local_part v)).
  - destruct Hv as [Hv|Hv]; [congruence|]. destruct H as [H1 [_ H3]]. destruct (TableProofs.first_or_none (local_part v) tree) as [[b Hb]|Hn].
    + pose proof (given_typed _ _ _ Ht Hb) as Hok. rewrite (H1 b Hb (type_nonempty lg b Hok)). exact Hok.
    + now rewrite (H3 Hn).
Qed.

End Resolvers.
