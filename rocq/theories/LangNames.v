(** Elements of complex types have different names (C67). *)

From Coq Require Import String Ascii List Arith NArith ZArith Bool Lia.
From Verif Require Import GoStr Base SpecStr Utils World Handlers Parser SpecDoc SpecLang DocLemmas Reify SourceProofs StayProofs LangProofs.
Import ListNotations.
Local Open Scope string_scope.

Local Infix "+++" := app (at level 60, right associativity).

Section Names.
Context {E : Env}.
Variable gvt : resolver.

Fixpoint within (cs : list ComplexType) (st : list (list string)) : Prop :=
  match cs, st with
  | [], _ => True
  | c :: cs, ns :: st => incl (map el_name (ct_elements c)) ns /\ within cs st
  | _ :: _, [] => False
  end.

Definition mine (cs : list ComplexType) (es : list nat) (h : list Element) : Prop :=
  match cs, es with
  | c :: _, i :: _ => exists l e, ct_elements c = l +++ [e] /\ el_name e = el_name (deref h i)
  | _, _ => True
  end.

Definition ninv (all : list string) (own : bool) (st : list (list string)) (p : PState) : Prop :=
  within (p_complex p) st /\ Forall (fun e => In (el_name e) all) (p_heap p) /\ Forall (fun i => i < length (p_heap p)) (p_element p) /\
  (own = true -> mine (p_complex p) (p_element p) (p_heap p)).

Lemma within_tl : forall cs st, within cs st -> within (tl cs) (tl st).
Proof. intros [|c cs] [|ns st]; cbn; tauto. Qed.

Lemma within_more : forall cs ns ns' st, incl ns ns' -> within cs (ns :: st) -> within cs (ns' :: st).
Proof. intros [|c cs] ns ns' st Hi; cbn; [tauto|]. intros [H1 H2]. split; [|exact H2]. intros x Hx. now apply Hi, H1. Qed.

Lemma top_names : forall f all own st p, (forall c, ct_elements (f c) = ct_elements c) -> ninv all own st p ->
  ninv all own st (set_complex (on_top f (p_complex p)) p).
Proof.
  intros f all own st p Hf [H1 [H2 [H3 H4]]]. unfold ninv. cbn. split; [|split; [exact H2|split; [exact H3|]]].
  - destruct (p_complex p), st; cbn in *; try tauto. now rewrite Hf.
  - intros Ho. specialize (H4 Ho). destruct (p_complex p); cbn in *; [exact H4|]. now rewrite Hf.
Qed.

Lemma update_length : forall A i (f : A -> A) l, length (update_nth i f l) = length l.
Proof. intros A i f l. revert i. induction l as [|x l IH]; intros [|i]; cbn; auto. Qed.

Lemma heap_names : forall i f all own st p, (forall e, el_name (f e) = el_name e) -> ninv all own st p ->
  ninv all own st (set_heap (update_nth i f (p_heap p)) p).
Proof.
  intros i f all own st p Hf [H1 [H2 [H3 H4]]]. unfold ninv. cbn. split; [exact H1|]. split; [apply update_from; [intros e; now rewrite Hf|exact H2]|].
  split; [now rewrite update_length|]. intros Ho. specialize (H4 Ho). unfold mine in *. destruct (p_complex p); [exact Logic.I|]. destruct (p_element p); [exact Logic.I|].
  now rewrite update_name.
Qed.

Lemma drop_names : forall all own st p, ninv all own st p -> ninv all false st p.
Proof. intros all own st p [H1 [H2 [H3 _]]]. split; [exact H1|]. split; [exact H2|]. split; [exact H3|discriminate]. Qed.

Lemma extension_names : forall all own st tree l p w, ninv all own st p -> gives (ninv all own st) (extension_attrs gvt tree l p w).
Proof.
  intros all own st tree l. induction l as [|x l IH]; intros p w H; [exact H|]. cbn [extension_attrs]. destruct (String.eqb _ _); [|now apply IH].
  apply gives_any; intros t w1. destruct (nonempty _); [|now apply IH]. apply gives_any; intros t2 w2. apply IH.
  apply top_names; [|exact H]. intros c. cbn. now destruct (String.eqb _ _).
Qed.
Lemma restriction_names : forall all own st tree l p w, ninv all own st p -> gives (ninv all own st) (restriction_attrs gvt tree l p w).
Proof.
  intros all own st tree l. induction l as [|x l IH]; intros p w H; [exact H|]. cbn [restriction_attrs]. destruct (String.eqb _ _); [|now apply IH].
  apply gives_any; intros t w1. destruct (nonempty _); [|now apply IH]. apply gives_any; intros t2 w2. now apply IH.
Qed.
Lemma list_names : forall all own st tree l p w, ninv all own st p -> gives (ninv all own st) (list_attrs gvt tree l p w).
Proof.
  intros all own st tree l. induction l as [|x l IH]; intros p w H; [exact H|]. cbn [list_attrs]. destruct (String.eqb _ _); [|now apply IH].
  apply gives_any; intros t w1. now apply IH.
Qed.
Lemma members_names : forall all own st tree l p w, ninv all own st p -> gives (ninv all own st) (union_members gvt tree l p w).
Proof.
  intros all own st tree l. induction l as [|x l IH]; intros p w H; [exact H|]. cbn [union_members]. apply gives_any; intros t w1. now apply IH.
Qed.
Lemma union_names : forall all own st tree l p w, ninv all own st p -> gives (ninv all own st) (union_attrs gvt tree l p w).
Proof.
  intros all own st tree l. induction l as [|x l IH]; intros p w H; [exact H|]. cbn [union_attrs]. destruct (String.eqb _ _); [|now apply IH].
  apply (gives_bind _ _ (ninv all own st)); [now apply members_names|]. intros q w' Hq. now apply IH.
Qed.

Lemma char_names : forall all own st d p, ninv all own st p -> ninv all own st (on_char_data d p).
Proof.
  intros all own st d p H. unfold on_char_data. cbv zeta. destruct (String.eqb _ _); [exact H|]. destruct (_ && _); [exact H|].
  destruct (_ && _). { unfold on_top_element. destruct (p_element p); [exact H|]. now apply heap_names. }
  destruct (nonempty _); [exact H|].
  destruct (String.eqb _ _); [exact H|]. destruct (String.eqb _ _); [|exact H]. apply top_names; [|exact H].
  intros c. unfold complex_doc. now destruct (ct_attributes c).
Qed.

(** The new element has been allocated and may be on the stack. *)
Lemma place_names : forall all own st n b q e w (p : PState), ninv all own st p -> el_name e = n ->
  q = set_heap (p_heap p +++ [e]) p \/ q = push_element (length (p_heap p)) (set_heap (p_heap p +++ [e]) p) /\ b = true ->
  (b = true -> q = push_element (length (p_heap p)) (set_heap (p_heap p +++ [e]) p)) ->
  match st with [] => True | ns :: _ => ~ In n ns end ->
  gives (ninv (n :: all) match st with [] => false | _ => b end match st with [] => [] | ns :: st' => (n :: ns) :: st' end)
    (place_element (length (p_heap p)) q w).
Proof.
  intros all own st n b q e w p [H1 [H2 [H3 H4]]] He Hq Hb Hn.
  assert (Hqh : p_heap q = p_heap p +++ [e]) by (destruct Hq as [->|[-> _]]; reflexivity).
  assert (Hqc : p_complex q = p_complex p) by (destruct Hq as [->|[-> _]]; reflexivity).
  assert (Hqe : Forall (fun i => i < length (p_heap q)) (p_element q)).
  { assert (Hx : Forall (fun i => i < length (p_heap q)) (p_element p)).
    { eapply Forall_impl; [|exact H3]. cbn. intros i Hi. rewrite Hqh, app_length. cbn. lia. }
    destruct Hq as [->|[-> _]]; [exact Hx|]. constructor; [cbn; rewrite app_length; cbn; lia|exact Hx]. }
  assert (Hqn : Forall (fun x => In (el_name x) (n :: all)) (p_heap q)).
  { rewrite Hqh. apply Forall_app. split; [|constructor; [left; now symmetry|constructor]]. eapply Forall_impl; [|exact H2]. intros x Hx. now right. }
  assert (Hd : el_name (deref (p_heap q) (length (p_heap p))) = n) by (now rewrite Hqh, deref_new).
  unfold place_element. cbv zeta.
  set (f := fun e => el_set_plural (el_plural e || choice_plural q) e).
  assert (Hu : forall j, el_name (deref (update_nth (length (p_heap p)) f (p_heap q)) j) = el_name (deref (p_heap q) j)) by (intros j; now apply update_name).
  set (h := update_nth (length (p_heap p)) f (p_heap q)) in *.
  assert (Hh : Forall (fun x => In (el_name x) (n :: all)) h) by (now apply update_from).
  assert (Hl : length h = length (p_heap q)) by apply update_length.
  clearbody h. cbn [p_complex set_heap p_in_group p_heap p_group]. rewrite Hqc.
  destruct (p_complex p) as [|c cs] eqn:Hc; cbn [nonempty].
  - assert (Hall : ninv (n :: all) match st with [] => false | _ => b end match st with [] => [] | ns :: st' => (n :: ns) :: st' end (set_heap h q)).
    { split; [cbn; now rewrite Hqc|]. split; [exact Hh|]. split; [cbn; now rewrite Hl|]. intros _. cbn. now rewrite Hqc. }
    destruct (_ <? _)%Z; [exact Hall|]. destruct Hall as [A1 [A2 [A3 A4]]]. split; [exact A1|]. split; [exact A2|].
    split; [constructor; [cbn; rewrite Hl, Hqh, app_length; cbn; lia|exact A3]|]. intros _. cbn. now rewrite Hqc.
  - destruct st as [|ns st]; [now elim H1|]. destruct H1 as [Hc1 Hc2].
    assert (Hfresh : ~ In (el_name (deref h (length (p_heap p)))) (map el_name (ct_elements c))).
    { rewrite Hu, Hd. intros Hin. now apply Hn, Hc1. }
    split; [|split; [exact Hh|split; [cbn; now rewrite Hl|]]].
    + cbn. split; [|exact Hc2]. rewrite add_other by exact Hfresh. rewrite map_app. cbn [map]. rewrite Hu, Hd. intros x Hx. apply in_app_iff in Hx as [Hx|[<-|[]]]; [|now left].
      right. now apply Hc1.
    + intros Hbt. assert (Hpe : p_element q = length (p_heap p) :: p_element p) by (rewrite (Hb Hbt); reflexivity). cbn. rewrite Hpe, add_other by exact Hfresh. exists (ct_elements c), (deref h (length (p_heap p))). now split.
Qed.

Lemma element_untyped : forall t l e w e' w', gives_type l = false -> element_attrs gvt t l e w = Ret e' w' -> el_type e' = el_type e.
Proof.
  intros t l. induction l as [|x l IH]; intros e w e' w' Hg H; cbn [element_attrs] in H; [now injection H as <- _|]. cbv zeta in H.
  cbn [gives_type existsb] in Hg. apply orb_false_iff in Hg as [Hx Hl]. apply orb_false_iff in Hx as [Ht Hr]. rewrite orb_false_r in Hr. rewrite Hr, Ht in H.
  destruct (String.eqb _ "name"); [now apply IH in H|].
  destruct (String.eqb _ "maxOccurs"). { destruct (max_occurs _) as [b|]; [|discriminate]. apply IH in H; [|exact Hl]. now destruct b. }
  destruct (String.eqb _ "unbounded"); apply IH in H; try exact Hl; [|exact H]. now destruct (String.eqb _ "0").
Qed.

Definition after_start (m : string) (l : list xattr) (all : list string) (own : bool) (st : list (list string)) : PState -> Prop :=
  if String.eqb m "ComplexType" then ninv all false ([] :: st)
  else if String.eqb m "Element" then
    match st with [] => ninv (element_name l :: all) false [] | ns :: st' => ninv (element_name l :: all) (negb (gives_type l)) ((element_name l :: ns) :: st') end
  else ninv all own st.

Lemma start_names : forall all own st local l p w, ninv all own st p ->
  (to_title local = "Element" -> match st with [] => True | ns :: _ => ~ In (element_name l) ns end) ->
  gives (after_start (to_title local) l all own st) (dispatch_start gvt local l p w).
Proof.
  intros all own st local l p w H0. unfold dispatch_start. cbv zeta.
  assert (H : ninv all own st (set_in_element local p)) by exact H0. generalize dependent (set_in_element local p). clear p H0. intros p H.
  generalize (to_title local). intros m Hn.
  destruct (String.eqb_spec m "Attribute") as [->|_]; [apply gives_any; intros a w'; exact H|].
  destruct (String.eqb_spec m "AttributeGroup") as [->|_].
  { apply gives_any; intros a w'. destruct (nonempty _); [|exact H]. now apply top_names. }
  destruct (String.eqb_spec m "CharData") as [->|_]; [exact Logic.I|].
  destruct (String.eqb_spec m "Choice") as [->|_]; [apply gives_any; intros c w'; exact H|].
  destruct (String.eqb_spec m "ComplexType") as [->|Hm1].
  { assert (Hpush : forall n es, Forall (fun i => i < length (p_heap p)) es -> forall q, p_complex q = p_complex p -> p_heap q = p_heap p -> p_element q = es ->
      ninv all false ([] :: st) (set_complex (mkComplex "" n "" [] [] [] [] :: p_complex q) q)).
    { intros n es Hes q Hq1 Hq2 Hq3. destruct H as [H1 [H2 [H3 H4]]]. split; [cbn; rewrite Hq1; split; [intros x []|exact H1]|].
      cbn. rewrite Hq2, Hq3. split; [exact H2|]. split; [exact Hes|discriminate]. }
    assert (Hp : Forall (fun i => i < length (p_heap p)) (p_element p)) by apply H.
    unfold on_complex_type. cbv zeta. destruct (nonempty _).
    - destruct (p_element p) as [|i r] eqn:He; [exact Logic.I|]. apply Forall_inv_tail in Hp. exact (Hpush _ r Hp (set_element r p) eq_refl eq_refl eq_refl).
    - destruct (String.eqb _ _).
      + cbn [p_element set_current]. destruct (p_element p) as [|i r] eqn:He; [exact Logic.I|]. apply Forall_inv_tail in Hp.
        exact (Hpush _ r Hp (set_element r (set_current (p_in_element p) p)) eq_refl eq_refl eq_refl).
      + exact (Hpush _ (p_element p) Hp (set_current (p_in_element p) p) eq_refl eq_refl eq_refl). }
  destruct (String.eqb_spec m "Element") as [->|Hm2].
  { specialize (Hn eq_refl). unfold on_element. destruct (element_attrs gvt (freeze p) l zero_element w) as [e w'| |] eqn:He; [|exact Logic.I|exact Logic.I].
    cbn [bind]. assert (Hname := element_called gvt _ _ _ _ _ _ He). change (el_name e = element_name l) in Hname.
    assert (Hty : gives_type l = false -> el_type e = "") by (intros Hg; now rewrite (element_untyped _ _ _ _ _ _ Hg He)).
    assert (Hgoal : forall b q e0, el_name e0 = element_name l ->
       q = set_heap (p_heap p +++ [e0]) p \/ q = push_element (length (p_heap p)) (set_heap (p_heap p +++ [e0]) p) /\ b = true ->
       (b = true -> q = push_element (length (p_heap p)) (set_heap (p_heap p +++ [e0]) p)) -> (b = negb (gives_type l) \/ gives_type l = true) ->
       forall w2, gives (after_start "Element" l all own st) (place_element (length (p_heap p)) q w2)).
    { intros b q e0 Hn0 Hq Hb Hbl w2. assert (Hpl := place_names all own st (element_name l) b q e0 w2 p H Hn0 Hq Hb Hn).
      unfold after_start. cbn [String.eqb Ascii.eqb Bool.eqb]. destruct (place_element _ q w2) as [r w3| |]; [|exact Logic.I|exact Logic.I]. cbn [gives] in *.
      destruct st as [|ns st']; [exact Hpl|]. destruct Hbl as [->|Hgt]; [exact Hpl|]. rewrite Hgt. now apply (drop_names _ b). }
    cbv zeta. destruct (String.eqb_spec (el_type e) "") as [Ht|Ht].
    - apply gives_any; intros t w2. apply (Hgoal true _ (el_set_type t e)); [exact Hname|right; now split|reflexivity|].
      destruct (gives_type l); [now right|now left].
    - apply (Hgoal false _ e); [exact Hname|now left|discriminate|]. destruct (gives_type l); [now right|now elim Ht; auto]. }
  assert (Hsame : forall q, ninv all own st q -> after_start m l all own st q).
  { intros q Hq. unfold after_start. destruct (String.eqb_spec m "ComplexType"); [contradiction|]. destruct (String.eqb_spec m "Element"); [contradiction|exact Hq]. }
  assert (Hgs : forall r, gives (ninv all own st) r -> gives (after_start m l all own st) r) by (intros [q w2| |] Hr; cbn in *; auto).
  apply Hgs. clear Hsame Hgs Hn Hm1 Hm2.
  destruct (String.eqb_spec m "Enumeration") as [->|_]; [exact H|].
  destruct (String.eqb_spec m "Extension") as [->|_]; [now apply extension_names|].
  destruct (String.eqb_spec m "Group") as [->|_].
  { apply gives_any; intros g w'. cbv zeta. generalize (gr_set_plural (gr_plural g || choice_plural p) g). clear g. intros g.
    destruct (nonempty _).
    { apply top_names; [|exact H]. intros c. now destruct (in_groups g (ct_groups c)). }
    destruct (_ =? _)%Z; [exact H|]. destruct (_ <? _)%Z; [|exact H]. now destruct (p_group p). }
  destruct (String.eqb_spec m "Import") as [->|_]; [exact H|].
  destruct (String.eqb_spec m "Include") as [->|_]; [exact H|].
  destruct (String.eqb_spec m "List") as [->|_].
  { unfold on_list. destruct (nonempty _); [|exact H]. apply list_names. exact H. }
  destruct (String.eqb_spec m "Restriction") as [->|_]; [now apply restriction_names|].
  destruct (String.eqb_spec m "Schema") as [->|_]; [exact H|].
  destruct (String.eqb_spec m "SimpleType") as [->|_]; [exact H|].
  destruct (String.eqb_spec m "Union") as [->|_]; [|exact H].
  unfold on_union. cbv zeta. destruct (nonempty _); [|exact H]. apply union_names. exact H.
Qed.

Lemma base_to_attribute_names : forall all own st pop p w, ninv all own st p -> gives (ninv all own st) (base_to_attribute gvt pop p w).
Proof.
  intros all own st pop p w H. unfold base_to_attribute. destruct (p_attribute p); [exact H|]. destruct (p_simple p); [exact H|].
  apply gives_any; intros t w'. exact H.
Qed.
Lemma base_to_element_names : forall all own st pop p w, ninv all own st p -> gives (ninv all own st) (base_to_element gvt pop p w).
Proof.
  intros all own st pop p w H. unfold base_to_element. destruct (p_simple p); [exact H|]. destruct (p_element p) eqn:He; [exact H|].
  apply gives_any; intros t w'. unfold on_top_element. rewrite He. exact (heap_names n (el_set_type t) all own st p (fun _ => eq_refl) H).
Qed.

Definition after_end (m : string) (all : list string) (own : bool) (st : list (list string)) : PState -> Prop :=
  if String.eqb m "ComplexType" then ninv all false (tl st)
  else if String.eqb m "Restriction" then
    ninv all own (match st with [] => [] | ns :: st' => (if own then ns else all +++ ns) :: st' end)
  else ninv all own st.

Lemma replace_last_snoc : forall A (e x : A) l, replace_last e (l +++ [x]) = l +++ [e].
Proof.
  intros A e x l. induction l as [|y l IH]; [reflexivity|]. cbn. destruct (l +++ [x]) eqn:Hl; [now destruct l|]. now rewrite IH.
Qed.

Lemma replace_last_in : forall A B (g : A -> B) e l x, In x (map g (replace_last e l)) -> x = g e \/ In x (map g l).
Proof.
  intros A B g e l x. induction l as [|y l IH]; [now right|]. destruct l as [|z l]; cbn [replace_last map] in *.
  - intros [<-|[]]. now left.
  - intros [<-|H]; [right; now left|]. apply IH in H as [H|H]; [now left|right; now right].
Qed.

Lemma restriction_end_names : forall all own st p w, ninv all own st p ->
  gives (ninv all own (match st with [] => [] | ns :: st' => (if own then ns else all +++ ns) :: st' end)) (end_restriction gvt p w).
Proof.
  intros all own st p w H. apply (gives_bind _ _ (ninv all own st)); [now apply base_to_attribute_names|]. intros q w' [H1 [H2 [H3 H4]]].
  assert (Hst : within (p_complex q) (match st with [] => [] | ns :: st' => (if own then ns else all +++ ns) :: st' end)).
  { destruct st as [|ns st]; [exact H1|]. apply (within_more _ ns); [|exact H1]. destruct own; [apply incl_refl|apply incl_appr, incl_refl]. }
  destruct (p_element q) as [|i r] eqn:He; [split; [exact Hst|]; rewrite He; auto|].
  destruct (p_complex q) as [|c cs] eqn:Hc; [split; [exact Hst|]; cbn; rewrite He; auto|].
  destruct st as [|ns st]; [now elim H1|]. destruct H1 as [Hc1 Hc2]. split; [|split; [exact H2|split; [cbn; now rewrite He|]]].
  - cbn. split; [|exact Hc2]. destruct own.
    + destruct (H4 eq_refl) as [l [e [Hl Hn]]]. rewrite Hl, replace_last_snoc in *. rewrite map_app in *. cbn [map] in *. now rewrite <- Hn.
    + intros x Hx. apply in_app_iff. apply replace_last_in in Hx as [->|Hx]; [left|right; now apply Hc1].
      inversion H3 as [|? ? Hi _]; subst. rewrite Forall_forall in H2. apply H2. unfold deref. now apply nth_In.
  - intros Ho. cbn. rewrite He. destruct (H4 Ho) as [l [e [Hl Hn]]]. rewrite Hl, replace_last_snoc. exists l, (deref (p_heap q) i). now split.
Qed.

Lemma end_names : forall all own st local p w, ninv all own st p ->
  gives (after_end (to_title local) all own st) (dispatch_end gvt local p w).
Proof.
  intros all own st local p w H. unfold dispatch_end. cbv zeta. generalize (to_title local). intros m.
  destruct (String.eqb_spec m "Attribute") as [->|_].
  { unfold end_attribute. destruct (p_attribute p); [exact H|]. destruct (nonempty _); [exact H|].
    destruct (nonempty _); [now apply (top_names _ all own st (set_attribute _ p))|]. exact H. }
  destruct (String.eqb_spec m "AttributeGroup") as [->|_].
  { unfold end_attribute_group. destruct (p_attrgroup p); exact H. }
  destruct (String.eqb_spec m "Choice") as [->|_]; [exact H|].
  assert (Hpop : forall o s, (o = own \/ o = false) -> within (tl (p_complex p)) s ->
     (o = true -> mine (tl (p_complex p)) (p_element p) (p_heap p)) ->
     ninv all o s (set_current "" (set_complex (tl (p_complex p)) (append_tree (pop_node PComplex (p_complex p)) p)))).
  { intros o s Ho Hw Hm. destruct H as [H1 [H2 [H3 H4]]]. split; [exact Hw|]. split; [exact H2|]. split; [exact H3|exact Hm]. }
  destruct (String.eqb_spec m "ComplexType") as [->|Hm1].
  { unfold after_end. cbn [String.eqb Ascii.eqb Bool.eqb]. apply (Hpop false (tl st)); [now right|apply within_tl, H|discriminate]. }
  destruct (String.eqb_spec m "Element") as [->|_].
  { unfold end_element. destruct (p_element p) as [|i r] eqn:He; [exact H|]. destruct (p_complex p) as [|c cs] eqn:Hc; cbn [nonempty]; [|exact H].
    destruct H as [H1 [H2 [H3 H4]]]. rewrite He in H3. inversion H3; subst. split; [cbn; now rewrite Hc|]. split; [exact H2|]. split; [assumption|]. cbn. now rewrite Hc. }
  assert (Htwo : forall pop, gives (ninv all own st) (bind (base_to_attribute gvt pop p w) (base_to_element gvt pop))).
  { intros pop. apply (gives_bind _ _ (ninv all own st)); [now apply base_to_attribute_names|]. intros q w' Hq. now apply base_to_element_names. }
  destruct (String.eqb_spec m "Enumeration") as [->|_]; [apply Htwo|].
  destruct (String.eqb_spec m "Extension") as [->|_]; [now apply base_to_attribute_names|].
  destruct (String.eqb_spec m "Group") as [->|_].
  { unfold end_group. cbv zeta.
    assert (Hq : ninv all own st (if String.eqb local (p_current p) && (p_in_group p =? 1)%Z
      then set_in_group (p_in_group p - 1)%Z (set_current "" (set_group (tl (p_group p)) (append_tree (pop_node PGroup (p_group p)) p))) else p))
      by (destruct (_ && _); exact H).
    revert Hq. match goal with |- ninv _ _ _ ?q -> _ => generalize q end. intros q Hq. cbn [gives]. destruct (String.eqb _ _); exact Hq. }
  destruct (String.eqb_spec m "Pattern") as [->|_]; [apply Htwo|].
  destruct (String.eqb_spec m "Restriction") as [->|Hm2]; [now apply restriction_end_names|].
  assert (Hsame : forall q, ninv all own st q -> after_end m all own st q).
  { intros q Hq. unfold after_end. destruct (String.eqb_spec m "ComplexType"); [contradiction|]. destruct (String.eqb_spec m "Restriction"); [contradiction|exact Hq]. }
  assert (Hgs : forall r, gives (ninv all own st) r -> gives (after_end m all own st) r) by (intros [q w2| |] Hr; cbn in *; auto).
  apply Hgs. clear Hsame Hgs.
  destruct (String.eqb _ _).
  { unfold end_simple_type.
    assert (Hrest : gives (ninv all own st)
      (let p := if String.eqb local (p_current p) && Nat.eqb (length (p_complex p)) 1
         then set_current "" (set_complex (tl (p_complex p)) (append_tree (pop_node PComplex (p_complex p)) p)) else p in
       Ret (if String.eqb local (p_current p) && negb (p_in_union p)
            then set_current "" (set_simple (tl (p_simple p)) (append_tree (pop_node PSimple (p_simple p)) p)) else p) w)).
    { cbv zeta. match goal with |- context [if String.eqb local (p_current p) && ?c then ?x else p] =>
        assert (Hq : ninv all own st (if String.eqb local (p_current p) && c then x else p)) end.
      { destruct (String.eqb local (p_current p)); [|exact H]. cbn [andb]. destruct (Nat.eqb_spec (length (p_complex p)) 1) as [Hl|_]; [|exact H].
        assert (Hnil : tl (p_complex p) = []) by (destruct (p_complex p) as [|c [|c2 cs]]; [reflexivity|reflexivity|discriminate]).
        apply Hpop; [now left|now rewrite Hnil|now rewrite Hnil]. }
      revert Hq. match goal with |- ninv _ _ _ ?q -> _ => generalize q end. intros q Hq. cbn [gives]. destruct (_ && _); exact Hq. }
    destruct (p_simple p); [exact Hrest|]. destruct (p_attribute p); [exact Hrest|]. exact H. }
  destruct (String.eqb _ _); [unfold end_union; cbn [gives]; destruct (nonempty _); exact H|].
  destruct (in_set _ _); [now apply base_to_element_names|exact H].
Qed.

Lemma init_names : ninv [] false [] p_init.
Proof. split; [exact Logic.I|]. split; [constructor|]. split; [constructor|discriminate]. Qed.

End Names.
