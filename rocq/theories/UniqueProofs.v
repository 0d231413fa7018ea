(** Repeated members of a complex type. *)

From Coq Require Import String Ascii List NArith ZArith Bool Lia.
From Verif Require Import GoStr Base Utils SpecStr SpecDoc World Handlers Parser Reify SpecUnique DocLemmas StayProofs SourceProofs.
Import ListNotations.
Local Open Scope string_scope.

Local Infix "+++" := app (at level 60, right associativity).

Notation pairs l := (map name_and_type l).

Lemma split_snoc : forall A (l pre post : list A) e y, l +++ [e] = pre +++ y :: post ->
  (pre = l /\ y = e /\ post = []) \/ exists post', l = pre +++ y :: post'.
Proof.
  intros A l pre post e y. induction post as [|z post IH] using rev_ind; intros H.
  - apply app_inj_tail in H as [-> ->]. now left.
  - right. exists post. change (pre +++ y :: post +++ [z]) with (pre +++ (y :: post) +++ [z]) in H.
    rewrite app_assoc in H. now apply app_inj_tail in H as [-> _].
Qed.

Lemma merge_pairs : forall e l l', merge_element e l = Some l' -> pairs l' = pairs l.
Proof.
  intros e l. induction l as [|x l IH]; intros l'; cbn; [discriminate|]. destruct (String.eqb _ _).
  - destruct (String.eqb _ _); [|discriminate]. intros H. now injection H as <-.
  - destruct (merge_element e l) as [r|]; [|discriminate]. intros H. injection H as <-. cbn. now rewrite (IH r).
Qed.

Lemma merge_first : forall e l, merge_element e l = None -> first_type (el_name e) (pairs l) <> Some (el_type e).
Proof.
  intros e l. induction l as [|x l IH]; cbn [merge_element map first_type]; [discriminate|].
  destruct (String.eqb_spec (el_name e) (el_name x)) as [Hn|Hn].
  - destruct (String.eqb_spec (el_type x) (el_type e)) as [Ht|Ht]; [discriminate|]. intros _. unfold name_and_type at 1.
    destruct (string_dec _ _) as [_|H]; [congruence|now elim H].
  - destruct (merge_element e l); [discriminate|]. intros _. unfold name_and_type at 1.
    destruct (string_dec _ _) as [H|_]; [now elim Hn|now apply IH].
Qed.

Lemma add_apart : forall e l, told_apart (pairs l) -> told_apart (pairs (add_element e l)).
Proof.
  intros e l H. unfold add_element. destruct (merge_element e l) as [l'|] eqn:Hm; [now rewrite (merge_pairs e l l' Hm)|].
  rewrite map_app. intros pre n t post Hs. cbn [map] in Hs. apply split_snoc in Hs as [[-> [He _]]|[post' Hs]].
  - injection He as -> ->. now apply merge_first.
  - exact (H pre n t post' Hs).
Qed.

Lemma nil_apart : told_apart [].
Proof. intros [|? ?] n t post H; discriminate. Qed.

Lemma in_groups_false : forall g l, in_groups g l = false -> ~ In (gr_name g) (map gr_name l).
Proof.
  intros g l H Hin. apply in_map_iff in Hin as [x [Hx Hin]]. assert (Ht : in_groups g l = true); [|congruence].
  apply existsb_exists. exists x. split; [exact Hin|]. now apply String.eqb_eq.
Qed.

Lemma nodup_snoc : forall A (l : list A) a, NoDup l -> ~ In a l -> NoDup (l +++ [a]).
Proof. intros A l a Hl Ha. apply (NoDup_Add (a := a) (l := l)); [|now split]. rewrite <- (app_nil_r l) at 1. apply Add_app. Qed.

Section Unique.
Context {E : Env}.
Variable gvt : resolver.
(** No restriction inside a complex type. *)
Variable b : Prop.

Definition good (c : ComplexType) : Prop :=
  (b -> told_apart (pairs (ct_elements c))) /\ NoDup (map gr_name (ct_groups c)).

Definition node_good (n : pnode) : Prop := match n with PN (PComplex c) => good c | _ => True end.

Definition inv (k : nat) (p : PState) : Prop :=
  length (p_complex p) <= k /\ Forall good (p_complex p) /\ Forall node_good (p_tree p).

Lemma init_good : forall n, good (mkComplex "" n "" [] [] [] []).
Proof. intros n. split; [intros _; apply nil_apart|constructor]. Qed.

Lemma on_top_length : forall A (f : A -> A) st, length (on_top f st) = length st.
Proof. now intros A f [|x st]. Qed.

Lemma tl_length : forall A (l : list A), length (tl l) = pred (length l).
Proof. now intros A [|x l]. Qed.

Lemma top_inv : forall f k p, (forall c, good c -> good (f c)) -> inv k p -> inv k (set_complex (on_top f (p_complex p)) p).
Proof. intros f k p Hf [H1 [H2 H3]]. split; [cbn; now rewrite on_top_length|]. split; [now apply top_from|exact H3]. Qed.

Lemma tree_inv : forall n k p, node_good n -> inv k p -> inv k (append_tree n p).
Proof. intros n k p Hn [H1 [H2 H3]]. split; [exact H1|]. split; [exact H2|]. now apply app_from. Qed.

Lemma pop_inv : forall k p, inv k p -> inv (pred k) (set_complex (tl (p_complex p)) (append_tree (pop_node PComplex (p_complex p)) p)).
Proof.
  intros k p [H1 [H2 H3]]. split; [cbn; rewrite tl_length; lia|]. split; [now apply tl_from|]. apply app_from; [exact H3|].
  destruct H2; cbn; auto.
Qed.

Lemma inv_le : forall k k' p, k <= k' -> inv k p -> inv k' p.
Proof. intros k k' p Hk [H1 H]. split; [lia|exact H]. Qed.

Lemma extension_inv : forall k tree l p w, inv k p -> gives (inv k) (extension_attrs gvt tree l p w).
Proof.
  intros k tree l. induction l as [|x l IH]; intros p w H; [exact H|]. cbn [extension_attrs]. destruct (String.eqb _ _); [|now apply IH].
  apply gives_any; intros t w1. destruct (nonempty _); [|now apply IH]. apply gives_any; intros t2 w2. apply IH.
  apply top_inv; [|exact H]. intros c Hc. cbn. now destruct (String.eqb _ _).
Qed.
Lemma restriction_inv : forall k tree l p w, inv k p -> gives (inv k) (restriction_attrs gvt tree l p w).
Proof.
  intros k tree l. induction l as [|x l IH]; intros p w H; [exact H|]. cbn [restriction_attrs]. destruct (String.eqb _ _); [|now apply IH].
  apply gives_any; intros t w1. destruct (nonempty _); [|now apply IH]. apply gives_any; intros t2 w2. now apply IH.
Qed.
Lemma list_inv : forall k tree l p w, inv k p -> gives (inv k) (list_attrs gvt tree l p w).
Proof.
  intros k tree l. induction l as [|x l IH]; intros p w H; [exact H|]. cbn [list_attrs]. destruct (String.eqb _ _); [|now apply IH].
  apply gives_any; intros t w1. now apply IH.
Qed.
Lemma members_inv : forall k tree l p w, inv k p -> gives (inv k) (union_members gvt tree l p w).
Proof.
  intros k tree l. induction l as [|x l IH]; intros p w H; [exact H|]. cbn [union_members]. apply gives_any; intros t w1. now apply IH.
Qed.
Lemma union_inv : forall k tree l p w, inv k p -> gives (inv k) (union_attrs gvt tree l p w).
Proof.
  intros k tree l. induction l as [|x l IH]; intros p w H; [exact H|]. cbn [union_attrs]. destruct (String.eqb _ _); [|now apply IH].
  apply (gives_bind _ _ (inv k)); [now apply members_inv|]. intros q w' Hq. now apply IH.
Qed.

Lemma char_inv : forall k d p, inv k p -> inv k (on_char_data d p).
Proof.
  intros k d p H. unfold on_char_data. cbv zeta. destruct (String.eqb _ _); [exact H|]. destruct (_ && _); [exact H|].
  destruct (_ && _); [unfold on_top_element; destruct (p_element p); exact H|]. destruct (nonempty _); [exact H|].
  destruct (String.eqb _ _); [exact H|]. destruct (String.eqb _ _); [|exact H]. apply top_inv; [|exact H].
  intros c Hc. unfold complex_doc. destruct (ct_attributes c); exact Hc.
Qed.

Lemma place_inv : forall k i p w, inv k p -> gives (inv k) (place_element i p w).
Proof.
  intros k i p w H. unfold place_element. cbv zeta. cbn [p_complex set_heap p_in_group p_heap p_group].
  destruct (nonempty _); [|destruct (_ <? _)%Z; exact H]. apply (top_inv _ k (set_heap _ p)); [|exact H].
  intros c [H1 H2]. split; [|exact H2]. intros Hb. now apply add_apart, H1.
Qed.

Lemma start_inv : forall k local l p w, inv k p ->
  gives (inv (if String.eqb (to_title local) "ComplexType" then S k else k)) (dispatch_start gvt local l p w).
Proof.
  intros k local l p w H0. unfold dispatch_start. cbv zeta.
  assert (H : inv k (set_in_element local p)) by exact H0. generalize dependent (set_in_element local p). clear p H0. intros p H.
  generalize (to_title local). intros m.
  destruct (String.eqb_spec m "Attribute") as [->|_]; [apply gives_any; intros a w'; exact H|].
  destruct (String.eqb_spec m "AttributeGroup") as [->|_].
  { apply gives_any; intros a w'. destruct (nonempty _); [|exact H]. now apply top_inv. }
  destruct (String.eqb_spec m "CharData") as [->|_]; [exact Logic.I|].
  destruct (String.eqb_spec m "Choice") as [->|_]; [apply gives_any; intros c w'; exact H|].
  destruct (String.eqb_spec m "ComplexType") as [->|_].
  { assert (Hpush : forall n q, p_complex q = p_complex p -> p_tree q = p_tree p -> inv (S k) (set_complex (mkComplex "" n "" [] [] [] [] :: p_complex q) q)).
    { intros n q Hq1 Hq2. destruct H as [H1 [H2 H3]]. split; [cbn; rewrite Hq1; lia|]. split; [cbn; rewrite Hq1; constructor; [apply init_good|exact H2]|].
      cbn. now rewrite Hq2. }
    unfold on_complex_type. cbv zeta. destruct (nonempty _).
    - destruct (p_element p) as [|i r]; [exact Logic.I|]. exact (Hpush _ (set_element r p) eq_refl eq_refl).
    - destruct (String.eqb _ _).
      + cbn [p_element set_current]. destruct (p_element p) as [|i r]; [exact Logic.I|].
        exact (Hpush _ (set_element r (set_current (p_in_element p) p)) eq_refl eq_refl).
      + exact (Hpush _ (set_current (p_in_element p) p) eq_refl eq_refl). }
  destruct (String.eqb_spec m "Element") as [->|_].
  { unfold on_element. apply gives_any; intros e w'. cbv zeta.
    destruct (String.eqb _ _); [apply gives_any; intros t w2|]; apply place_inv; exact H. }
  destruct (String.eqb_spec m "Enumeration") as [->|_]; [exact H|].
  destruct (String.eqb_spec m "Extension") as [->|_]; [now apply extension_inv|].
  destruct (String.eqb_spec m "Group") as [->|_].
  { apply gives_any; intros g w'. cbv zeta. generalize (gr_set_plural (gr_plural g || choice_plural p) g). clear g. intros g.
    destruct (nonempty _).
    { apply top_inv; [|exact H]. intros c [H1 H2]. destruct (in_groups g (ct_groups c)) eqn:Hg; [now split|]. split; [exact H1|].
      cbn. rewrite map_app. apply nodup_snoc; [exact H2|now apply in_groups_false]. }
    destruct (_ =? _)%Z; [exact H|]. destruct (_ <? _)%Z; [|exact H]. now destruct (p_group p). }
  destruct (String.eqb_spec m "Import") as [->|_]; [exact H|].
  destruct (String.eqb_spec m "Include") as [->|_]; [exact H|].
  destruct (String.eqb_spec m "List") as [->|_].
  { unfold on_list. destruct (nonempty _); [|exact H]. apply list_inv. exact H. }
  destruct (String.eqb_spec m "Restriction") as [->|_]; [now apply restriction_inv|].
  destruct (String.eqb_spec m "Schema") as [->|_]; [exact H|].
  destruct (String.eqb_spec m "SimpleType") as [->|_]; [exact H|].
  destruct (String.eqb_spec m "Union") as [->|_]; [|exact H].
  unfold on_union. cbv zeta. destruct (nonempty _); [|exact H]. apply union_inv. exact H.
Qed.

Lemma base_to_attribute_inv : forall k pop p w, inv k p -> gives (inv k) (base_to_attribute gvt pop p w).
Proof.
  intros k pop p w H. unfold base_to_attribute. destruct (p_attribute p); [exact H|]. destruct (p_simple p); [exact H|].
  apply gives_any; intros t w'. exact H.
Qed.
Lemma base_to_element_inv : forall k pop p w, inv k p -> gives (inv k) (base_to_element gvt pop p w).
Proof.
  intros k pop p w H. unfold base_to_element. destruct (p_simple p); [exact H|]. destruct (p_element p) eqn:He; [exact H|].
  apply gives_any; intros t w'. unfold on_top_element. rewrite He. exact H.
Qed.

Lemma end_inv : forall k local p w, (b -> to_title local = "Restriction" -> k = 0) -> inv k p ->
  gives (inv (if String.eqb (to_title local) "ComplexType" then pred k else k)) (dispatch_end gvt local p w).
Proof.
  intros k local p w Hb H. unfold dispatch_end. cbv zeta.
  destruct (String.eqb_spec (to_title local) "Attribute") as [->|_].
  { unfold end_attribute. destruct (p_attribute p); [exact H|]. destruct (nonempty _); [exact H|].
    destruct (nonempty _); [now apply (top_inv _ k (set_attribute _ p))|]. now apply tree_inv. }
  destruct (String.eqb_spec (to_title local) "AttributeGroup") as [->|_].
  { unfold end_attribute_group. destruct (p_attrgroup p); [exact H|]. now apply (tree_inv _ k). }
  destruct (String.eqb_spec (to_title local) "Choice") as [->|_]; [exact H|].
  destruct (String.eqb_spec (to_title local) "ComplexType") as [_|_]; [exact (pop_inv k p H)|].
  assert (Htwo : forall pop, gives (inv k) (bind (base_to_attribute gvt pop p w) (base_to_element gvt pop))).
  { intros pop. apply (gives_bind _ _ (inv k)); [now apply base_to_attribute_inv|]. intros q w' Hq. now apply base_to_element_inv. }
  destruct (String.eqb _ _).
  { unfold end_element. destruct (p_element p); [exact H|]. destruct (nonempty _); [exact H|]. now apply (tree_inv (PRef n) k p). }
  destruct (String.eqb _ _); [apply Htwo|].
  destruct (String.eqb _ _); [now apply base_to_attribute_inv|].
  destruct (String.eqb _ _).
  { unfold end_group. cbv zeta.
    assert (Hq : inv k (if String.eqb local (p_current p) && (p_in_group p =? 1)%Z
      then set_in_group (p_in_group p - 1)%Z (set_current "" (set_group (tl (p_group p)) (append_tree (pop_node PGroup (p_group p)) p))) else p)).
    { destruct (_ && _); [|exact H]. apply (tree_inv (pop_node PGroup (p_group p)) k p); [|exact H]. now destruct (p_group p). }
    revert Hq. match goal with |- inv k ?q -> _ => generalize q end. intros q Hq. cbn [gives]. destruct (String.eqb _ _); exact Hq. }
  destruct (String.eqb _ _); [apply Htwo|].
  destruct (String.eqb_spec (to_title local) "Restriction") as [Hr|_].
  { apply (gives_bind _ _ (inv k)); [now apply base_to_attribute_inv|]. intros q w' Hq. destruct (p_element q) as [|i r]; [exact Hq|].
    destruct Hq as [H1 [H2 H3]]. destruct (p_complex q) as [|c cs] eqn:Hc; [now split|].
    inversion H2 as [|? ? [Hc1 Hc2] Hcs]; subst. split; [exact H1|]. split; [|exact H3]. constructor; [|exact Hcs].
    split; [|exact Hc2]. intros Hb'. rewrite (Hb Hb' Hr) in H1. cbn in H1. lia. }
  destruct (String.eqb _ _).
  { unfold end_simple_type.
    assert (Hrest : gives (inv k)
      (let p := if String.eqb local (p_current p) && Nat.eqb (length (p_complex p)) 1
         then set_current "" (set_complex (tl (p_complex p)) (append_tree (pop_node PComplex (p_complex p)) p)) else p in
       Ret (if String.eqb local (p_current p) && negb (p_in_union p)
            then set_current "" (set_simple (tl (p_simple p)) (append_tree (pop_node PSimple (p_simple p)) p)) else p) w)).
    { cbv zeta. match goal with |- context [if String.eqb local (p_current p) && ?c then ?x else p] =>
        assert (Hq : inv k (if String.eqb local (p_current p) && c then x else p)) end.
      { destruct (_ && _); [|exact H]. apply (inv_le (pred k)); [lia|]. exact (pop_inv k p H). }
      revert Hq. match goal with |- inv k ?q -> _ => generalize q end. intros q Hq. cbn [gives]. destruct (_ && _); [|exact Hq].
      apply (tree_inv (pop_node PSimple (p_simple q)) k q); [|exact Hq]. now destruct (p_simple q). }
    destruct (p_simple p); [exact Hrest|]. destruct (p_attribute p); [exact Hrest|]. exact H. }
  destruct (String.eqb _ _); [unfold end_union; cbn [gives]; destruct (nonempty _); exact H|].
  destruct (in_set _ _); [now apply base_to_element_inv|exact H].
Qed.

Lemma run_inv : forall l k p w, (b -> restrictions_outside k l) -> inv k p -> gives (fun q => exists k', inv k' q) (run_tokens gvt l p w).
Proof.
  induction l as [|t l IH]; intros k p w Ht Hp; [now exists k|]. cbn [run_tokens].
  destruct t as [local a|local|d|]; cbn [on_token restrictions_outside] in *.
  - rewrite (tag_known "ComplexType") in Ht by (cbn; tauto).
    eapply gives_bind; [apply start_inv; exact Hp|]. intros q w' Hq. eapply IH; eauto.
  - rewrite (tag_known "ComplexType") in Ht by (cbn; tauto).
    eapply gives_bind; [apply end_inv; [|exact Hp]|intros q w' Hq; eapply IH; [|exact Hq]; intros Hb; apply Ht, Hb].
    intros Hb Hr. apply Ht; [exact Hb|]. apply tag_true; [cbn; tauto|exact Hr].
  - apply (IH k); [exact Ht|now apply char_inv].
  - now apply (IH k).
Qed.

End Unique.

Theorem parse_unique : forall (E : Env) (b : Prop) d fuel o w bytes q w', stat (o_file o) w = SFile bytes -> parse d fuel o w = Ret q w' ->
  (b -> restrictions_outside 0 (env_tokens bytes)) -> forall c, In (PComplex c) (freeze q) -> good b c.
Proof.
  intros E b [|d] fuel o w bytes q w' Hs H Hb c Hc; [discriminate|]. cbn [parse] in H. unfold parse_body in H. rewrite Hs in H.
  destruct (env_open_fail (o_file o)); [discriminate|]. cbv zeta in H.
  apply bind_ret in H as [r [w2 [H1 H2]]]. apply finish_ret in H2 as ->.
  match type of H1 with run_tokens ?g _ _ ?w0 = _ => pose proof (run_inv g b (env_tokens bytes) 0 p_init w0 Hb) as HS end.
  rewrite H1 in HS. destruct HS as [k [_ [_ HT]]]; [repeat split; constructor|].
  unfold freeze in Hc. apply in_map_iff in Hc as [n [Hn Hc]]. rewrite Forall_forall in HT. specialize (HT n Hc).
  destruct n as [t|i]; cbn in Hn; [subst t; exact HT|discriminate].
Qed.

(** If the name decides the type, no name is repeated. *)
Lemma apart_nodup : forall l, told_apart l -> name_decides l -> NoDup (map fst l).
Proof.
  intros l. induction l as [|[n t] l IH] using rev_ind; intros Ha Hd; [constructor|].
  rewrite map_app. apply nodup_snoc.
  - apply IH; [|intros m u u' H1 H2; apply (Hd m); apply in_or_app; now left].
    intros pre m u post Hl. apply (Ha pre m u (post +++ [(n, t)])). rewrite Hl, <- app_assoc. reflexivity.
  - intros Hin. cbn in Hin. apply (Ha l n t [] eq_refl).
    assert (Hf : exists u, first_type n l = Some u /\ In (n, u) l).
    { clear - Hin. induction l as [|[m u] l IH]; [now elim Hin|]. cbn in *. destruct (string_dec m n) as [->|Hm]; [exists u; auto|].
      destruct Hin as [Hin|Hin]; [now elim Hm|]. destruct (IH Hin) as [v [Hv1 Hv2]]. exists v. auto. }
    destruct Hf as [u [Hu1 Hu2]]. rewrite Hu1. f_equal. apply (Hd n); apply in_or_app; [now left|right; now left].
Qed.
