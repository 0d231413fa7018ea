(** Proofs for C70. *)

From Coq Require Import String Ascii List NArith Bool Lia.
From Verif Require Import GoStr Utf8 Base Utils GenGo GenC GenJava GenRust GenTS SpecStr SpecTables SpecGen SpecOut SpecSyntax SpecClosed SpecOrder
  StrLemmas StrProofs GenLemmas GenNames GenOutline GenFacts GenRuns NameProofs SyntaxProofs SyntaxDecls ClosedProofs.
Import ListNotations.
Local Open Scope string_scope.

Local Infix "+++" := app (at level 60, right associativity).

(** * More types do no harm *)

Section Wider.
Context {E : Env} {P Q : Pool}.
Variable l : lang.
Hypothesis wider : forall t, pooled (Pool := P) l t -> pooled (Pool := Q) l t.

Lemma type_wider : forall t, type_ok (P := P) l t -> type_ok (P := Q) l t.
Proof. intros t [H|[H1 [H2 [H3 H4]]]]; [now left | right; repeat split; auto]. Qed.

Lemma maybe_wider : forall t, maybe_type (P := P) l t -> maybe_type (P := Q) l t.
Proof. intros t [H|H]; [now left | right; now apply type_wider]. Qed.

Lemma member_wider : forall m, member_fine (P := P) l m -> member_fine (P := Q) l m.
Proof. intros m [H1 [H2 [H3 [H4 H5]]]]. repeat split; auto. destruct H5 as [H5|H5]; [now left | right; now apply type_wider]. Qed.

Lemma component_wider : forall p, component_fine (P := P) l p -> component_fine (P := Q) l p.
Proof.
  pose proof maybe_wider as Hm. pose proof type_wider as Ht. pose proof member_wider as Hw.
  assert (Hel : forall e, element_fine (P := P) l e -> element_fine (P := Q) l e) by (intros e [H1 H2]; split; auto).
  assert (Hat : forall a, attribute_fine (P := P) l a -> attribute_fine (P := Q) l a) by (intros e [H1 H2]; split; auto).
  assert (Hgr : forall x, group_fine (P := P) l x -> group_fine (P := Q) l x) by (intros e [H1 H2]; split; auto).
  assert (Hag : forall x, attrgroup_fine (P := P) l x -> attrgroup_fine (P := Q) l x) by (intros e [H1 H2]; split; auto).
  intros [|v|v|v|v|v|v]; cbn [component_fine]; auto.
  - intros [H1 [H2 H3]]. split; [exact H1|]. split; [now apply (Forall_impl _ Hw)|]. destruct H3 as [H3|H3]; [left; auto | now right].
  - intros [H1 [H2 [H3 [H4 [H5 H6]]]]]. split; [exact H1|]. split; [destruct H2; [now left | right; auto]|].
    repeat split; eapply Forall_impl; eauto.
  - intros [H1 [H2 H3]]. split; [exact H1|]. split; [eapply Forall_impl; [|exact H2]; auto | eapply Forall_impl; [|exact H3]; auto].
  - intros [H1 H2]. split; [exact H1|]. eapply Forall_impl; [|exact H2]; auto.
Qed.

End Wider.

Lemma components_app : forall a b l t, components a l t -> components (a +++ b) l t.
Proof.
  intros a b l t [Hw [p [[pre [post [n [-> [Hn Hpre]]]]] [Hp Hs]]]]. split; [exact Hw|]. exists p. split; [|now split].
  exists pre, (post +++ b), n. split; [now rewrite <- app_assoc | now split].
Qed.

Lemma fine_name : forall {E : Env} {P : Pool} l p n, component_fine l p -> proto_name p = Some n -> name_ok n.
Proof.
  intros E P l [|v|v|v|v|v|v] n H Hn; cbn in Hn; try discriminate; injection Hn as <-; exact (proj1 H).
Qed.

(** * Names stand for the same in the beginning of a tree *)

Lemma stands_name : forall p x, In x (stands_for p) -> proto_name p = Some (fst x).
Proof.
  intros [|v|v|v|v|v|v] x H; cbn [stands_for] in H; try destruct H as [<-|[]]; try reflexivity; try destruct H.
  destruct (st_list v || st_union v); [destruct H | destruct H as [<-|[]]; reflexivity].
Qed.

Lemma find_first : forall (A : Type) (f : A -> bool) a b, (forall x, In x b -> f x = false) -> find f (a +++ b) = find f a.
Proof.
  intros A f a b H. induction a as [|x a IH]; cbn [app find]; [|now rewrite IH].
  induction b as [|x b IH]; [reflexivity|]. cbn [find]. rewrite (H x (or_introl eq_refl)). apply IH. intros y Hy. apply H. now right.
Qed.

Lemma resolved_first : forall a b t, ~ In (Some t) (map proto_name b) -> resolved (a +++ b) t = resolved a t.
Proof.
  intros a b t H. unfold resolved. rewrite flat_map_app, find_first; [reflexivity|]. intros x Hx. apply in_flat_map in Hx as [q [Hq Hx]].
  destruct (string_dec (fst x) t) as [<-|]; [|reflexivity]. elim H. apply in_map_iff. exists q. split; [now apply stands_name | exact Hq].
Qed.

(** * Components look the same in trees in which their types stand for the same *)

Section Same.
Context {E : Env} {P : Pool}.
Variable l : lang.
Variables pt1 pt2 : list proto.
Hypothesis same : forall t, t = "" \/ type_ok l t -> resolved pt1 t = resolved pt2 t.

Lemma plain_colon : forall t, type_ok l t -> local_part t = t.
Proof.
  intros t Ht. apply local_free. destruct Ht as [H|[_ [H _]]]; [|now apply free_of_has_char].
  assert (Ha : forallb (fun t => negb (has_char ":" t)) (targets l) = true) by (destruct l; vm_compute; reflexivity).
  now apply negb_true_iff, (proj1 (forallb_forall _ _) Ha).
Qed.

Lemma same_local : forall t, t = "" \/ type_ok l t -> resolved pt1 (local_part t) = resolved pt2 (local_part t).
Proof.
  intros t [->|H]; [apply same; now left|]. rewrite (plain_colon t H). apply same. now right.
Qed.

Lemma maybe_plain : forall t, maybe_type l t -> t = "" \/ type_ok l t.
Proof. intros t [[H _]|H]; auto. Qed.

Lemma same_shown : forall t, t = "" \/ type_ok l t -> shown l pt1 t = shown l pt2 t.
Proof. intros t H. unfold shown. now rewrite same_local. Qed.

Lemma same_ts : forall t b, t = "" \/ type_ok l t -> shown_ts pt1 t b = shown_ts pt2 t b.
Proof. intros t b H. unfold shown_ts. now rewrite same_local. Qed.

Lemma same_member : forall m, member_fine l m -> member_type pt1 m = member_type pt2 m.
Proof.
  intros m [H1 [H2 [H3 [H4 H5]]]]. unfold member_type. destruct (string_dec (snd m) "") as [He|He]; [|reflexivity].
  apply same. right. right. repeat split; auto.
Qed.

Lemma sorted_fine : forall (ms : smap string) m, Forall (member_fine l) ms -> In m (to_sorted_pairs ms) -> member_fine l m.
Proof. intros ms m H Hm. apply sorted_pairs_in in Hm. exact (proj1 (Forall_forall _ _) H m Hm). Qed.

Lemma flat_map_ext_in' : forall (A B : Type) (f g : A -> list B) xs, (forall x, In x xs -> f x = g x) -> flat_map f xs = flat_map g xs.
Proof.
  intros A B f g xs H. induction xs as [|x xs IH]; [reflexivity|]. cbn [flat_map]. rewrite H by now left. f_equal. apply IH. intros y Hy. apply H. now right.
Qed.
End Same.

Ltac plain_type :=
  match goal with
  | H : Forall (element_fine _) ?xs, Hx : In ?x ?xs |- _ => exact (maybe_plain _ _ (proj2 (proj1 (Forall_forall _ _) H x Hx)))
  | H : Forall (attribute_fine _) ?xs, Hx : In ?x ?xs |- _ => exact (maybe_plain _ _ (proj2 (proj1 (Forall_forall _ _) H x Hx)))
  | H : Forall (group_fine _) ?xs, Hx : In ?x ?xs |- _ => exact (maybe_plain _ _ (proj2 (proj1 (Forall_forall _ _) H x Hx)))
  | H : Forall (attrgroup_fine _) ?xs, Hx : In ?x ?xs |- _ => exact (maybe_plain _ _ (proj2 (proj1 (Forall_forall _ _) H x Hx)))
  | H : element_fine _ ?x |- _ => exact (maybe_plain _ _ (proj2 H))
  | H : attribute_fine _ ?x |- _ => exact (maybe_plain _ _ (proj2 H))
  | H : _ = "" \/ type_ok _ _ |- _ => exact H
  end.

Ltac same_type S :=
  repeat first
    [ rewrite (same_shown _ _ _ S) by plain_type
    | rewrite (same_ts _ _ _ S) by plain_type
    | match goal with
      | H : Forall (member_fine _) ?ms, Hm : In ?m (to_sorted_pairs ?ms) |- _ => rewrite (same_member _ _ _ S m (sorted_fine _ ms m H Hm))
      end ].

Ltac same_all S :=
  same_type S;
  first
    [ reflexivity
    | match goal with
      | |- map _ _ = map _ _ => apply map_ext_in; intros ? ?
      | |- flat_map _ _ = flat_map _ _ => apply flat_map_ext_in'; intros ? ?
      | |- _ => progress f_equal
      end; same_all S ].

Ltac same_items S :=
  cbn [items_of go_items c_items java_items rust_items ts_items];
  unfold go_struct, go_alias, c_struct, j_class, j_wrapper, r_struct, r_field, t_class, t_alias, go_attribute_row, go_group_row, c_attribute_row, c_group_row,
    j_group_rows, j_element_rows, r_group_rows, r_field, t_attribute_row, t_group_row, t_element_row;
  same_all S.

Section Items.
Context {E : Env} {P : Pool}.
Variables pt1 pt2 : list proto.

Lemma items_same : forall l p e id, (forall t, t = "" \/ type_ok l t -> resolved pt1 t = resolved pt2 t) -> component_fine l p ->
  (e = true -> enumerated l p = true) -> items_of l pt1 p e id = items_of l pt2 p e id.
Proof.
  intros l p e id S Hf He. destruct p as [|v|v|v|v|v|v]; cbn [component_fine] in Hf.
  - now destruct l.
  - destruct Hf as [_ [Hm Hb]].
    assert (Hb' : st_list v = false /\ is_union v = true \/ (st_base v = "" \/ type_ok l (st_base v))) by (destruct Hb as [Hb|Hb]; [right; now apply maybe_plain | now left]).
    destruct l; cbn [items_of go_items c_items java_items rust_items ts_items].
    all: try (destruct e; [pose proof (He eq_refl) as Hn; cbn in Hn; destruct (is_union v) eqn:Hu; [discriminate|];
      destruct Hb' as [[_ Hx]|Hb']; [discriminate|]; same_type S; reflexivity|]).
    all: destruct (st_list v); [destruct Hb' as [[Hx _]|Hb']; [discriminate|]; same_type S; reflexivity|].
    all: destruct (is_union v); [|destruct Hb' as [[_ Hx]|Hb']; [discriminate|]; same_type S; reflexivity].
    all: same_items S.
  - destruct Hf as [_ [Hb [H1 [H2 [H3 H4]]]]]. destruct l; same_items S.
  - destruct l; same_items S.
  - destruct l; same_items S.
  - destruct Hf as [_ [H1 H2]]. destruct l; same_items S.
  - destruct Hf as [_ H1]. destruct l; same_items S.
Qed.

Lemma manageable_same : forall l p, (forall t, t = "" \/ type_ok l t -> resolved pt1 t = resolved pt2 t) -> component_fine l p ->
  manageable l pt1 p -> manageable l pt2 p.
Proof.
  intros l p S Hf. destruct p as [|v|v|v|v|v|v]; cbn [component_fine] in Hf.
  - now destruct l.
  - destruct Hf as [_ [Hm Hb]].
    assert (Hb' : st_list v = false /\ is_union v = true \/ (st_base v = "" \/ type_ok l (st_base v))) by (destruct Hb as [Hb|Hb]; [right; now apply maybe_plain | now left]).
    destruct l; cbn [manageable]; auto; intros H He; specialize (H He).
    + destruct Hb' as [[Hx _]|Hb']; [congruence|]. now rewrite <- (same_local _ _ _ S) by exact Hb'.
    + destruct Hb' as [[Hx _]|Hb']; [congruence|]. now rewrite <- (same_shown _ _ _ S) by exact Hb'.
    + cbn in He. destruct (is_union v); [discriminate|]. destruct Hb' as [[_ Hx]|Hb']; [discriminate|]. now rewrite <- (same_ts _ _ _ S) by exact Hb'.
  - destruct Hf as [_ [Hb [H1 [H2 [H3 H4]]]]]. destruct l; cbn [manageable]; auto.
    + intros [Ha Hg]. split; apply Forall_forall; intros x Hx; rewrite <- (same_shown _ _ _ S) by plain_type.
      * exact (proj1 (Forall_forall _ _) Ha x Hx).
      * exact (proj1 (Forall_forall _ _) Hg x Hx).
    + now rewrite (same_shown _ _ _ S) by exact Hb.
  - now destruct l.
  - now destruct l.
  - destruct Hf as [_ [H1 H2]]. destruct l; cbn [manageable]; auto.
    intros [Ha Hg]. split; apply Forall_forall; intros x Hx; rewrite <- (same_shown _ _ _ S) by plain_type.
    + exact (proj1 (Forall_forall _ _) Ha x Hx).
    + exact (proj1 (Forall_forall _ _) Hg x Hx).
  - destruct Hf as [_ H1]. destruct l; cbn [manageable]; auto.
    intros Ha. apply Forall_forall; intros x Hx; rewrite <- (same_shown _ _ _ S) by plain_type. exact (proj1 (Forall_forall _ _) Ha x Hx).
Qed.

End Items.

(** * The beginning of a program is the program of the beginning *)

Section Order.
Context {E : Env}.

Definition contributions (l : lang) (pt : list proto) : list (proto * bool * string) :=
  combine (rendered l [] pt) (identifiers l [] (map fst (rendered l [] pt))).

Lemma rendered_app : forall l a b seen, exists seen', rendered l seen (a +++ b) = rendered l seen a +++ rendered l seen' b.
Proof.
  intros l. induction a as [|p a IH]; intros b seen; [now exists seen|]. cbn [app rendered].
  destruct (proto_name p) as [n|]; [|apply IH].
  destruct (in_dec string_dec n seen); destruct (enumerated l p); destruct (listed p); cbn [andb negb];
    match goal with |- context [rendered _ ?s (_ +++ _)] => destruct (IH b s) as [s' ->]; exists s'; reflexivity end.
Qed.

Lemma identifiers_app : forall l a b used, exists used', identifiers l used (a +++ b) = identifiers l used a +++ identifiers l used' b.
Proof.
  intros l. induction a as [|p a IH]; intros b used; [now exists used|]. cbn [app identifiers]. cbv zeta. destruct (counting l p).
  - destruct (IH b (plain_ident l p :: used)) as [u ->]. now exists u.
  - destruct (IH b used) as [u ->]. now exists u.
Qed.

Lemma combine_app : forall (A B : Type) (a a' : list A) (b b' : list B), length a = length b -> combine (a +++ a') (b +++ b') = combine a b +++ combine a' b'.
Proof.
  intros A B. induction a as [|x a IH]; intros a' [|y b] b' H; try discriminate; [reflexivity|]. cbn [app combine]. f_equal. apply IH. now injection H.
Qed.

Lemma contributions_last : forall l a p, contributions l (a +++ [p]) = contributions l a \/
  exists e id, (e = true -> enumerated l p = true) /\ contributions l (a +++ [p]) = contributions l a +++ [(p, e, id)].
Proof.
  intros l a p. unfold contributions. destruct (rendered_app l a [p] []) as [seen ->]. rewrite map_app.
  destruct (identifiers_app l (map fst (rendered l [] a)) (map fst (rendered l seen [p])) []) as [used ->].
  rewrite combine_app by now rewrite identifiers_length, map_length.
  assert (Hr : rendered l seen [p] = [] \/ exists e, (e = true -> enumerated l p = true) /\ rendered l seen [p] = [(p, e)]).
  { cbn [rendered]. destruct (proto_name p) as [n|]; [|now left]. destruct (in_dec string_dec n seen); destruct (enumerated l p) eqn:He; destruct (listed p); cbn [andb negb];
      first [now left | right; eexists; split; [|reflexivity]; auto]. }
  destruct Hr as [->|[e [He ->]]].
  - left. cbn [map identifiers combine]. now rewrite app_nil_r.
  - right. cbn [map fst identifiers]. cbv zeta. destruct (counting l p); cbn [combine]; eexists; eexists; split; try exact He; reflexivity.
Qed.

Hypothesis tables : case_tables_ok.
Hypothesis upper : upper_idempotent E.

Lemma names_settled : forall l a p b, own_names l (a +++ p :: b) -> ordered_tree l (a +++ p :: b) -> forall t, t = "" \/ type_ok (P := components a) l t ->
  resolved (a +++ [p]) t = resolved (a +++ p :: b) t.
Proof.
  intros l a p b [Hd Ht] Ho t H. change (p :: b) with ([p] +++ b). rewrite app_assoc. rewrite (resolved_first (a +++ [p]) b); [reflexivity|]. intros Hin.
  destruct H as [->|[H|[_ [_ [_ [_ [q [[pre [post [n [-> [Hn _]]]]] [Hq _]]]]]]]]].
  - apply in_map_iff in Hin as [q [Hq Hin]]. apply in_split in Hin as [b1 [b2 ->]].
    pose proof (Ho (a +++ p :: b1) q b2 ltac:(now rewrite <- app_assoc)) as Hf. destruct (fine_name l q "" Hf Hq) as [c [r [Hc _]]]. discriminate.
  - apply (Ht t H). rewrite map_app. apply in_or_app. right. now right.
  - rewrite !map_app in Hd. cbn [map] in Hd. rewrite Hq in Hd. rewrite <- app_assoc in Hd. apply NoDup_remove_2 in Hd. apply Hd. apply in_or_app. right.
    apply in_or_app. right. now right.
Qed.

Lemma ordered_prefix : forall l a b, ordered_tree l (a +++ b) -> ordered_tree l a.
Proof. intros l a b H pre p post ->. apply (H pre p (post +++ b)). now rewrite <- app_assoc. Qed.

Lemma ordered_fine : forall l a, ordered_tree l a -> tree_fine (P := components a) l a.
Proof.
  intros l a H. apply Forall_forall. intros p Hp. apply in_split in Hp as [pre [post ->]].
  apply (component_wider (P := components pre) l); [|now apply (H pre p post)]. intros t Ht. now apply components_app.
Qed.

Lemma snoc_split : forall (A : Type) (ds pre post : list A) x d, ds +++ [x] = pre +++ d :: post ->
  (pre = ds /\ d = x) \/ exists post', ds = pre +++ d :: post'.
Proof.
  intros A ds pre post x d H. destruct post as [|y post _] using rev_ind.
  - apply app_inj_tail in H as [-> ->]. now left.
  - right. exists post. change (d :: post +++ [y]) with ((d :: post) +++ [y]) in H. rewrite app_assoc in H. now apply app_inj_tail in H as [-> _].
Qed.

Theorem expected_ordered : forall l pt, ordered_tree l pt -> own_names l pt -> Forall (manageable l pt) pt ->
  (l = Java -> no_group_attributes pt) -> ordered_program (standard l) l (expected l pt).
Proof.
  intros l pt Ho Hn Hm Hj.
  set (mk := fun x : proto * bool * string => (declares l (fst (fst x)) (snd x), items_of l pt (fst (fst x)) (snd (fst x)) (snd x))).
  exists (map mk (contributions l pt)). split; [rewrite map_map; reflexivity|].
  assert (Hall : forall a b, pt = a +++ b -> forall pre d post, map mk (contributions l a) = pre +++ d :: post ->
    declaration (S := in_scope l (standard l) (map fst pre)) l (fst d) (snd d)).
  { induction a as [|p a IH] using rev_ind; intros b Hab pre d post Hs; [destruct pre; discriminate|]. rewrite <- app_assoc in Hab. cbn [app] in Hab.
    destruct (contributions_last l a p) as [Hc|[e [id [He Hc]]]]; rewrite Hc in Hs; [now apply (IH (p :: b) Hab pre d post)|].
    rewrite map_app in Hs. cbn [map] in Hs. apply snoc_split in Hs as [[-> ->]|[post' Hs]]; [|now apply (IH (p :: b) Hab pre d post')].
    rewrite map_map. cbn [mk fst snd].
    assert (Hsame : forall t, t = "" \/ type_ok (P := components a) l t -> resolved (a +++ [p]) t = resolved pt t) by (rewrite Hab in *; now apply names_settled).
    assert (Hf : tree_fine (P := components a) l (a +++ [p])).
    { apply Forall_app. split; [apply ordered_fine, (ordered_prefix l a (p :: b)); now rewrite <- Hab|]. constructor; [|constructor]. exact (Ho a p b Hab). }
    rewrite <- (items_same (P := components a) (a +++ [p]) pt l p e id Hsame (Ho a p b Hab) He).
    assert (Hma : Forall (manageable l (a +++ [p])) (a +++ [p])).
    { apply Forall_forall. intros q Hq. apply (manageable_same (P := components a) pt (a +++ [p]) l q); [intros t Ht; symmetry; now apply Hsame | exact (proj1 (Forall_forall _ _) Hf q Hq)|].
      apply (proj1 (Forall_forall _ _) Hm). rewrite Hab. apply in_or_app. apply in_app_or in Hq as [Hq|[<-|[]]]; [now left | right; now left]. }
    pose proof (each_declaration (S := in_scope l (standard l) (declared_names l a)) (P := components a) tables upper) as Hd.
    specialize (Hd ltac:(intros l' s Hs' ->; now left)).
    specialize (Hd ltac:(intros l' t Hx Hc' _ Hq _ _ ->; right; now apply component_declared)).
    specialize (Hd ltac:(intros t Hx Hc' Hi Hq _ <-; right; rewrite again_same by assumption; now apply component_declared)).
    specialize (Hd ltac:(intros t Hx Hc' Hi Hq _ _ <-; right; rewrite bare_twice by assumption; now apply component_declared)).
    specialize (Hd (a +++ [p])). 
    specialize (Hd ltac:(intros v x Hv Hx <-; rewrite (Hj eq_refl v) in Hx; [destruct Hx|]; rewrite Hab; apply in_or_app; apply in_app_or in Hv as [Hv|[<-|[]]]; [now left | right; now left])).
    specialize (Hd l Hf Hma). fold (contributions l (a +++ [p])) in Hd. rewrite Hc in Hd. apply Forall_app in Hd as [_ Hd]. now apply Forall_inv in Hd. }
  intros pre d post. apply (Hall pt []). now rewrite app_nil_r.
Qed.

End Order.
