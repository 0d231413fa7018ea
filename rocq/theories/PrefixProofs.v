(** Namespace prefixes do not matter in documents that need no other (C72). *)

From Coq Require Import String Ascii List Arith NArith ZArith Bool Lia.
From Verif Require Import GoStr GoPath Base SpecStr Utils World Handlers Parser SpecDoc SpecParse SpecOrigin SpecLang SpecPrefix
  DocLemmas DocProofs2 SpecTables SpecOut SpecFile FileProofs Reify ParserProofs SimProofs ParseFacts SourceProofs StayProofs OriginProofs LangProofs LangNames LangParse.
Import ListNotations.
Local Open Scope string_scope.

Local Infix "+++" := app (at level 60, right associativity).

Section Prefix.
Context {E : Env}.

(** Results without the world. *)
Definition bare {A} (m : out A) : A + (goerr + crash) :=
  match m with Ret a _ => inl a | Fail e _ => inr (inl e) | Crash c _ => inr (inr c) end.

Lemma bare_bind : forall A B (m m' : out A) (f f' : A -> World -> out B), bare m = bare m' ->
  (forall a w w', bare (f a w) = bare (f' a w')) -> bare (bind m f) = bare (bind m' f').
Proof.
  intros A B [a w|e w|c w] [a' w'|e' w'|c' w'] f f' H Hf; cbn in *; try discriminate; try congruence.
  injection H as <-. apply Hf.
Qed.

Variable lang : string.

Lemma plain_local : forall v v' t, local_part v = local_part v' -> plain lang v t = plain lang v' t.
Proof. intros v v' t H. unfold plain. now rewrite !trim_local, H. Qed.

Lemma gp_local : forall v v' t w w', local_part v = local_part v' -> bare (gp lang v t w) = bare (gp lang v' t w').
Proof. intros v v' t w w' H. cbn. f_equal. now apply plain_local. Qed.

(** Attributes. *)
Definition same_attrs (named : bool) (local : string) : list xattr -> list xattr -> Prop := Forall2 (same_attr named local).

Lemma same_key : forall n local x y, same_attr n local x y -> ~ In (a_local x) ["type"; "itemType"; "base"; "memberTypes"] -> a_value x = a_value y.
Proof.
  intros n local x y [_ H] Hn. unfold same_value in H. cbn [existsb] in H.
  repeat match type of H with context [String.eqb (a_local x) ?c] => destruct (String.eqb_spec (a_local x) c) as [Hk|?]; [elim Hn; rewrite Hk; cbn; tauto|] end.
  exact H.
Qed.
Lemma same_type : forall n local x y, same_attr n local x y -> In (a_local x) ["type"; "itemType"] -> local_part (a_value x) = local_part (a_value y).
Proof. intros n local x y [_ H] [Hk|[Hk|[]]]; unfold same_value in H; rewrite <- Hk in H; exact H. Qed.
Lemma same_base : forall n local x y, same_attr n local x y -> a_local x = "base" -> local_part (a_value x) = local_part (a_value y).
Proof.
  intros n local x y [_ H] Hk. unfold same_value in H. rewrite Hk in H. cbn [existsb String.eqb Ascii.eqb Bool.eqb orb andb] in H.
  destruct (_ || _); [exact H|]. now rewrite H.
Qed.
Lemma same_members : forall n local x y, same_attr n local x y -> a_local x = "memberTypes" ->
  Forall2 (fun m m' => local_part m = local_part m') (split_on " " (a_value x)) (split_on " " (a_value y)).
Proof. intros n local x y [_ H] Hk. unfold same_value in H. rewrite Hk in H. exact H. Qed.

Ltac other Hxy := match goal with Hkey : a_local ?x = _ |- _ =>
  rewrite <- (same_key _ _ _ _ Hxy) by (rewrite Hkey; cbn; intuition discriminate) end.

Lemma attribute_same : forall n local tree l l', same_attrs n local l l' -> forall a w w',
  bare (attribute_attrs (gp lang) tree l a w) = bare (attribute_attrs (gp lang) tree l' a w').
Proof.
  intros n local tree l l' H. induction H as [|x y l l' Hxy H IH]; intros a w w'; [reflexivity|]. cbn [attribute_attrs]. cbv zeta.
  assert (Hk := proj1 Hxy). rewrite <- Hk.
  destruct (String.eqb_spec (a_local x) "ref") as [Hkey|_].
  { other Hxy. apply bare_bind; [reflexivity|]. intros t u u'. apply IH. }
  destruct (String.eqb_spec (a_local x) "name") as [Hkey|_]. { other Hxy. apply IH. }
  destruct (String.eqb_spec (a_local x) "type") as [Hkey|_].
  { apply bare_bind; [apply gp_local, (same_type _ _ _ _ Hxy); rewrite Hkey; cbn; tauto|]. intros t u u'. apply IH. }
  destruct (String.eqb_spec (a_local x) "use") as [Hkey|_]. { other Hxy. apply IH. }
  apply IH.
Qed.

Lemma attrgroup_same : forall n local tree l l', same_attrs n local l l' -> forall a w w',
  bare (attrgroup_attrs (gp lang) tree l a w) = bare (attrgroup_attrs (gp lang) tree l' a w').
Proof.
  intros n local tree l l' H. induction H as [|x y l l' Hxy H IH]; intros a w w'; [reflexivity|]. cbn [attrgroup_attrs]. cbv zeta.
  assert (Hk := proj1 Hxy). rewrite <- Hk.
  destruct (String.eqb_spec (a_local x) "name") as [Hkey|_]. { other Hxy. apply IH. }
  destruct (String.eqb_spec (a_local x) "ref") as [Hkey|_].
  { other Hxy. apply bare_bind; [reflexivity|]. intros t u u'. apply IH. }
  apply IH.
Qed.

Lemma element_same : forall n local tree l l', same_attrs n local l l' -> forall a w w',
  bare (element_attrs (gp lang) tree l a w) = bare (element_attrs (gp lang) tree l' a w').
Proof.
  intros n local tree l l' H. induction H as [|x y l l' Hxy H IH]; intros a w w'; [reflexivity|]. cbn [element_attrs]. cbv zeta.
  assert (Hk := proj1 Hxy). rewrite <- Hk.
  destruct (String.eqb_spec (a_local x) "ref") as [Hkey|_].
  { other Hxy. apply bare_bind; [reflexivity|]. intros t u u'. apply IH. }
  destruct (String.eqb_spec (a_local x) "name") as [Hkey|_]. { other Hxy. apply IH. }
  destruct (String.eqb_spec (a_local x) "type") as [Hkey|_].
  { apply bare_bind; [apply gp_local, (same_type _ _ _ _ Hxy); rewrite Hkey; cbn; tauto|]. intros t u u'. apply IH. }
  destruct (String.eqb_spec (a_local x) "maxOccurs") as [Hkey|_].
  { other Hxy. destruct (max_occurs _); [apply IH|reflexivity]. }
  destruct (String.eqb_spec (a_local x) "unbounded") as [Hkey|_]. { other Hxy. apply IH. }
  apply IH.
Qed.

Lemma group_same : forall n local tree l l', same_attrs n local l l' -> forall a w w',
  bare (group_attrs (gp lang) tree l a w) = bare (group_attrs (gp lang) tree l' a w').
Proof.
  intros n local tree l l' H. induction H as [|x y l l' Hxy H IH]; intros a w w'; [reflexivity|]. cbn [group_attrs]. cbv zeta.
  assert (Hk := proj1 Hxy). rewrite <- Hk.
  destruct (String.eqb_spec (a_local x) "name") as [Hkey|_]. { other Hxy. apply IH. }
  destruct (String.eqb_spec (a_local x) "ref") as [Hkey|_].
  { other Hxy. apply bare_bind; [reflexivity|]. intros t u u'. apply IH. }
  destruct (String.eqb_spec (a_local x) "maxOccurs") as [Hkey|_]. { other Hxy. apply IH. }
  apply IH.
Qed.

Lemma choice_same : forall n local l l', same_attrs n local l l' -> forall a w w',
  bare (choice_attrs l a w) = bare (choice_attrs l' a w').
Proof.
  intros n local l l' H. induction H as [|x y l l' Hxy H IH]; intros a w w'; [reflexivity|]. cbn [choice_attrs].
  assert (Hk := proj1 Hxy). rewrite <- Hk.
  destruct (String.eqb_spec (a_local x) "maxOccurs") as [Hkey|_]; [|apply IH].
  other Hxy. destruct (max_occurs _); [apply IH|reflexivity].
Qed.

Lemma name_same : forall n local l l', same_attrs n local l l' -> forall a, name_attr l a = name_attr l' a.
Proof.
  intros n local l l' H. unfold name_attr. induction H as [|x y l l' Hxy H IH]; intros a; [reflexivity|]. cbn [fold_left].
  assert (Hk := proj1 Hxy). rewrite <- Hk.
  destruct (String.eqb_spec (a_local x) "name") as [Hkey|_]; [|apply IH]. other Hxy. apply IH.
Qed.

Lemma enumeration_same : forall n local l l', same_attrs n local l l' -> forall p w w',
  bare (on_enumeration l p w) = bare (on_enumeration l' p w').
Proof.
  intros n local l l' H p w w'. unfold on_enumeration. cbn [bare]. do 2 f_equal. generalize (p_simple p).
  induction H as [|x y l l' Hxy H IH]; intros st; [reflexivity|]. cbn [fold_left].
  assert (Hk := proj1 Hxy). rewrite <- Hk.
  destruct (String.eqb_spec (a_local x) "value") as [Hkey|_]; [|apply IH]. other Hxy. apply IH.
Qed.

Lemma list_same : forall n local tree l l', same_attrs n local l l' -> forall p w w',
  bare (list_attrs (gp lang) tree l p w) = bare (list_attrs (gp lang) tree l' p w').
Proof.
  intros n local tree l l' H. induction H as [|x y l l' Hxy H IH]; intros a w w'; [reflexivity|]. cbn [list_attrs].
  assert (Hk := proj1 Hxy). rewrite <- Hk.
  destruct (String.eqb_spec (a_local x) "itemType") as [Hkey|_]; [|apply IH].
  apply bare_bind; [apply gp_local, (same_type _ _ _ _ Hxy); rewrite Hkey; cbn; tauto|]. intros t u u'. apply IH.
Qed.

Lemma members_same : forall tree ms ms', Forall2 (fun m m' => local_part m = local_part m') ms ms' -> forall p w w',
  bare (union_members (gp lang) tree ms p w) = bare (union_members (gp lang) tree ms' p w').
Proof.
  intros tree ms ms' H. induction H as [|x y l l' Hxy H IH]; intros a w w'; [reflexivity|]. cbn [union_members].
  apply bare_bind; [now apply gp_local|]. intros t u u'. rewrite !trim_local, Hxy. apply IH.
Qed.

Lemma union_same : forall n local tree l l', same_attrs n local l l' -> forall p w w',
  bare (union_attrs (gp lang) tree l p w) = bare (union_attrs (gp lang) tree l' p w').
Proof.
  intros n local tree l l' H. induction H as [|x y l l' Hxy H IH]; intros a w w'; [reflexivity|]. cbn [union_attrs].
  assert (Hk := proj1 Hxy). rewrite <- Hk.
  destruct (String.eqb_spec (a_local x) "memberTypes") as [Hkey|_]; [|apply IH].
  apply bare_bind; [apply members_same, (same_members _ _ _ _ Hxy Hkey)|]. intros t u u'. apply IH.
Qed.

(** * Names on the stacks *)

Definition simple_ok (named : bool) (st : list SimpleType) : Prop :=
  match st with [] => True | [s] => named = true -> st_name s <> "" | _ => False end.
Definition called (h : list Element) (i : nat) : Prop := el_name (deref h i) <> "".
Definition ninv (named : bool) (p : PState) : Prop :=
  simple_ok named (p_simple p) /\ Forall (fun c => ct_name c <> "") (p_complex p) /\ Forall (called (p_heap p)) (p_element p).

Lemma ninv_init : ninv true p_init.
Proof. repeat split; constructor. Qed.


Lemma top_kept : forall A (f g : A -> A) (Q : A -> Prop) st, (forall a, Q a -> f a = g a) -> Forall Q st -> on_top f st = on_top g st.
Proof. intros A f g Q st Hf H. destruct H; cbn; [reflexivity|]. now rewrite Hf. Qed.

Lemma extension_same : forall n local tree l l', same_attrs n local l l' -> forall p w w', Forall (fun c => ct_name c <> "") (p_complex p) ->
  bare (extension_attrs (gp lang) tree l p w) = bare (extension_attrs (gp lang) tree l' p w').
Proof.
  intros n local tree l l' H. induction H as [|x y l l' Hxy H IH]; intros p w w' Hp; [reflexivity|]. cbn [extension_attrs].
  assert (Hk := proj1 Hxy). rewrite <- Hk.
  destruct (String.eqb_spec (a_local x) "base") as [Hkey|_]; [|now apply IH].
  apply bare_bind; [apply gp_local, (same_base _ _ _ _ Hxy Hkey)|]. intros t u u'.
  destruct (nonempty _); [|now apply IH]. apply bare_bind; [reflexivity|]. intros t2 u2 u2'. cbv zeta.
  assert (HF : forall v, on_top (fun c => if String.eqb (ct_name (ct_set_base t2 c)) "" then ct_set_name v (ct_set_base t2 c) else ct_set_base t2 c) (p_complex p) =
    on_top (ct_set_base t2) (p_complex p)).
  { intros v. apply (top_kept _ _ _ (fun c => ct_name c <> "")); [|exact Hp]. intros c Hc. cbn. apply String.eqb_neq in Hc. now rewrite Hc. }
  rewrite !HF. apply IH. cbn. now apply top_from.
Qed.

Lemma simple_top : forall named f st, (forall s, st_name s <> "" -> st_name (f s) <> "") -> simple_ok named st -> simple_ok named (on_top f st).
Proof. intros named f [|s [|s' st]] Hf H; cbn in *; [exact Logic.I| |exact H]. intros Hn. apply Hf. now apply H. Qed.
Lemma simple_tl : forall named st, simple_ok named st -> simple_ok named (tl st).
Proof. intros named [|s [|s' st]] H; cbn in *; [exact Logic.I|exact Logic.I|elim H]. Qed.

Lemma restriction_same : forall n local tree l l', tag "Restriction" local = true -> same_attrs n local l l' -> forall p w w', simple_ok n (p_simple p) ->
  bare (restriction_attrs (gp lang) tree l p w) = bare (restriction_attrs (gp lang) tree l' p w').
Proof.
  intros n local tree l l' Ht H. induction H as [|x y l l' Hxy H IH]; intros p w w' Hp; [reflexivity|]. cbn [restriction_attrs].
  assert (Hk := proj1 Hxy). rewrite <- Hk.
  destruct (String.eqb_spec (a_local x) "base") as [Hkey|_]; [|now apply IH].
  apply bare_bind; [apply gp_local, (same_base _ _ _ _ Hxy Hkey)|]. intros t u u'.
  destruct (nonempty _); [|now apply IH]. apply bare_bind; [reflexivity|]. intros t2 u2 u2'. cbv zeta.
  assert (HF : on_top (fun s => if String.eqb (st_name (st_set_base t2 s)) "" then st_set_name (a_value y) (st_set_base t2 s) else st_set_base t2 s) (p_simple p) =
    on_top (fun s => if String.eqb (st_name (st_set_base t2 s)) "" then st_set_name (a_value x) (st_set_base t2 s) else st_set_base t2 s) (p_simple p)).
  { destruct n.
    - destruct (p_simple p) as [|s [|s' st]]; [reflexivity| |elim Hp]. cbn in *. assert (Hs := Hp eq_refl). apply String.eqb_neq in Hs. now rewrite Hs.
    - destruct Hxy as [_ Hv]. unfold same_value in Hv. rewrite Hkey, Ht in Hv. cbn [existsb String.eqb Ascii.eqb Bool.eqb orb andb negb] in Hv. now rewrite Hv. }
  rewrite HF. apply IH. apply simple_top; [|exact Hp]. intros s Hs. cbn. apply String.eqb_neq in Hs as Hs'. now rewrite Hs'.
Qed.

(** Start tags: the same result. *)
Lemma start_same : forall n local l l' p w w', ninv n p -> (tag "Schema" local = true \/ same_attrs n local l l') ->
  tag "Import" local = false -> tag "Include" local = false ->
  bare (dispatch_start (gp lang) local l p w) = bare (dispatch_start (gp lang) local l' p w').
Proof.
  intros n local l l' p w w' H Hl Hi1 Hi2. unfold dispatch_start. cbv zeta.
  assert (Hp : ninv n (set_in_element local p)) by exact H. generalize dependent (set_in_element local p). clear p H. intros p Hp.
  rewrite tag_known in Hi1, Hi2 by (cbn; tauto). rewrite tag_known in Hl by (cbn; tauto).
  destruct Hl as [Hl|Hl]. { apply String.eqb_eq in Hl. rewrite Hl. reflexivity. }
  destruct (String.eqb _ "Attribute").
  { apply bare_bind; [now apply (attribute_same n local)|]. intros a u u'. reflexivity. }
  destruct (String.eqb _ "AttributeGroup").
  { apply bare_bind; [now apply (attrgroup_same n local)|]. intros a u u'. destruct (nonempty _); reflexivity. }
  destruct (String.eqb _ "CharData"); [reflexivity|].
  destruct (String.eqb _ "Choice").
  { apply bare_bind; [now apply (choice_same n local)|]. intros a u u'. reflexivity. }
  destruct (String.eqb _ "ComplexType").
  { unfold on_complex_type. cbv zeta. rewrite (name_same n local l l' Hl). destruct (nonempty _); [destruct (p_element p); reflexivity|].
    destruct (String.eqb (name_attr _ _) _); [|reflexivity]. destruct (p_element _); reflexivity. }
  destruct (String.eqb _ "Element").
  { apply bare_bind; [now apply (element_same n local)|]. intros e u u'. cbv zeta.
    assert (HP : forall i q u u', bare (place_element i q u) = bare (place_element i q u')).
    { intros i q v v'. unfold place_element. cbv zeta. destruct (nonempty _); [reflexivity|]. destruct (_ <? _)%Z; reflexivity. }
    destruct (String.eqb (el_type e) _); [|apply HP]. apply bare_bind; [reflexivity|]. intros t v v'. apply HP. }
  destruct (String.eqb _ "Enumeration"); [now apply (enumeration_same n local)|].
  destruct (String.eqb _ "Extension"); [apply (extension_same n local); [exact Hl|apply Hp]|].
  destruct (String.eqb _ "Group").
  { apply bare_bind; [now apply (group_same n local)|]. intros g u u'. cbv zeta. destruct (nonempty _); [reflexivity|].
    destruct (_ =? _)%Z; [reflexivity|]. destruct (_ <? _)%Z; [|reflexivity]. destruct (p_group p); reflexivity. }
  rewrite Hi1, Hi2.
  destruct (String.eqb _ "List").
  { unfold on_list. destruct (nonempty _); [|reflexivity]. now apply (list_same n local). }
  destruct (String.eqb _ "Restriction") eqn:Hr.
  { apply (restriction_same n local); [now rewrite tag_known by (cbn; tauto)|exact Hl|apply Hp]. }
  destruct (String.eqb _ "Schema"); [reflexivity|].
  destruct (String.eqb _ "SimpleType").
  { unfold on_simple_type. cbn [bare]. do 2 f_equal. destruct (p_simple p) as [|s st]; cbn; now rewrite (name_same n local l l' Hl). }
  destruct (String.eqb _ "Union"); [|reflexivity].
  unfold on_union. cbv zeta. destruct (nonempty _); [|reflexivity]. now apply (union_same n local).
Qed.

Lemma interp_bare : forall A (g : prog A) w w', bare (interp (gp lang) g w) = bare (interp (gp lang) g w').
Proof. intros A g. induction g as [a|e| |v t k IH|o k IH]; intros w w'; cbn; try reflexivity; apply IH. Qed.

Lemma run_bare : forall ts p w w', bare (run_tokens (gp lang) ts p w) = bare (run_tokens (gp lang) ts p w').
Proof. intros ts p w w'. destruct (run_interp ts p) as [g [_ Hg]]. rewrite !Hg. apply interp_bare. Qed.

(** * The names stay *)

Ltac keep H := destruct H as (H1 & H2 & H3); cbn [gives]; repeat split; cbn; try assumption.

Lemma called_update : forall h i f j, (forall e, el_name (f e) = el_name e) -> called h j -> called (update_nth i f h) j.
Proof.
  unfold called, deref. intros h i f j Hf. revert i j. induction h as [|e h IH]; intros i j H; [destruct i, j; exact H|].
  destruct i, j; cbn in *; auto. now rewrite Hf.
Qed.
Lemma called_app : forall h e j, called h j -> called (h +++ [e]) j.
Proof.
  unfold called, deref. intros h e j. revert j. induction h as [|a h IH]; intros j H; [destruct j; cbn in H; now elim H|].
  destruct j; cbn in *; auto.
Qed.
Lemma called_last : forall h e, el_name e <> "" -> called (h +++ [e]) (length h).
Proof. unfold called, deref. intros h e H. now rewrite app_nth2, Nat.sub_diag by lia. Qed.
Lemma called_forall : forall (h h' : list Element) l, (forall j, called h j -> called h' j) -> Forall (called h) l -> Forall (called h') l.
Proof. intros h h' l H. apply Forall_impl. exact H. Qed.

Lemma place_names : forall n i p w, ninv n p -> called (p_heap p) i -> gives (ninv n) (place_element i p w).
Proof.
  intros n i p w H Hi. unfold place_element. cbv zeta.
  set (h := update_nth i (fun e => el_set_plural (el_plural e || choice_plural p) e) (p_heap p)).
  assert (Hh : forall j, called (p_heap p) j -> called h j) by (intros j Hj; now apply called_update).
  clearbody h. cbn [p_complex set_heap p_in_group p_heap p_group].
  destruct (nonempty _).
  { keep H; [now apply top_from|eapply called_forall; eassumption]. }
  destruct (_ <? _)%Z; keep H; try (eapply called_forall; eassumption). constructor; [now apply Hh|eapply called_forall; eassumption].
Qed.

Lemma has_name_attr : forall l init, has_name l = true -> name_attr l init <> "".
Proof.
  intros l init H. unfold has_name in H. rewrite name_attr_last. destruct (last_of _ _); [|discriminate].
  apply negb_true_iff in H. now apply String.eqb_neq.
Qed.

Lemma start_names : forall n local l p w, (tag "Element" local = true -> element_name l <> "") -> ninv n p ->
  gives (ninv (if tag "SimpleType" local then has_name l else n)) (dispatch_start (gp lang) local l p w).
Proof.
  intros n local l p w Hel H. unfold dispatch_start. cbv zeta.
  assert (Hp : ninv n (set_in_element local p)) by exact H. generalize dependent (set_in_element local p). clear p H. intros p H.
  assert (Hel' : to_title local = "Element" -> element_name l <> "") by (intros Ht; apply Hel; rewrite tag_known by (cbn; tauto); now apply String.eqb_eq).
  clear Hel. rename Hel' into Hel. rewrite (tag_known "SimpleType") by (cbn; tauto). rename H into Hp. generalize dependent (to_title local). intros m Hel. rename Hp into H.
  destruct (String.eqb_spec m "Attribute") as [->|_]; [apply gives_any; intros a u; keep H|].
  destruct (String.eqb_spec m "AttributeGroup") as [->|_].
  { apply gives_any; intros a u. destruct (nonempty _); keep H. now apply top_from. }
  destruct (String.eqb_spec m "CharData") as [->|_]; [exact Logic.I|].
  destruct (String.eqb_spec m "Choice") as [->|_]; [apply gives_any; intros b u; keep H|].
  destruct (String.eqb_spec m "ComplexType") as [->|_].
  { unfold on_complex_type. cbv zeta. destruct (nonempty _).
    - destruct (p_element p) eqn:Hpe; [exact Logic.I|]. keep H; rewrite Hpe in *; inversion H3; subst; [|assumption]. now constructor.
    - cbn [p_element set_current p_heap]. destruct (String.eqb_spec (name_attr l "") "").
      + destruct (p_element p) eqn:Hpe; [exact Logic.I|]. keep H; rewrite Hpe in *; inversion H3; subst; [|assumption]. now constructor.
      + keep H. now constructor. }
  destruct (String.eqb_spec m "Element") as [->|_].
  { unfold on_element. destruct (element_attrs (gp lang) (freeze p) l zero_element w) as [e u|e u|c u] eqn:He; [|exact Logic.I..].
    cbn [bind]. assert (Hname := element_called (gp lang) _ _ _ _ _ _ He). change (el_name e = element_name l) in Hname.
    assert (Hne : el_name e <> "") by (rewrite Hname; now apply Hel). cbv zeta.
    destruct (String.eqb (el_type e) _); cbn [bind gp]; (apply place_names; [|now apply called_last]); keep H.
    - constructor; [now apply called_last|]. eapply called_forall; [|eassumption]. intros j Hj. now apply called_app.
    - eapply called_forall; [|eassumption]. intros j Hj. now apply called_app. }
  destruct (String.eqb_spec m "Enumeration") as [->|_].
  { unfold on_enumeration. keep H. generalize dependent (p_simple p). intros st Hst. revert st Hst.
    induction l as [|x l IH]; intros st Hst; [exact Hst|]. cbn. destruct (String.eqb (a_local x) _); apply IH; try exact Hst; try (now apply simple_top); discriminate. }
  destruct (String.eqb_spec m "Extension") as [->|_].
  { unfold on_extension. generalize (freeze p). intros tree. clear Hel. revert p w H. induction l as [|x l IH]; intros p w H; [exact H|]. cbn.
    destruct (String.eqb (a_local x) _); [|now apply IH]. destruct (nonempty _); [|now apply IH]. apply IH. keep H. apply top_from; [|assumption].
    intros c Hc. cbn. apply String.eqb_neq in Hc as Hc'. now rewrite Hc'. }
  destruct (String.eqb_spec m "Group") as [->|_].
  { apply gives_any; intros g u. cbv zeta. destruct (nonempty _).
    { keep H. apply top_from; [|assumption]. intros c Hc. destruct (in_groups _ _); exact Hc. }
    destruct (_ =? _)%Z; [keep H|]. destruct (_ <? _)%Z; [|exact H]. destruct (p_group p); [exact Logic.I|]. keep H. }
  destruct (String.eqb_spec m "Import") as [->|_]; [exact H|].
  destruct (String.eqb_spec m "Include") as [->|_]; [exact H|].
  destruct (String.eqb_spec m "List") as [->|_].
  { unfold on_list. destruct (nonempty _); [|exact H]. generalize (freeze p). intros tree.
    assert (Hq : ninv n (set_simple (on_top (st_set_list true) (p_simple p)) p)) by (keep H; now apply simple_top).
    generalize dependent (set_simple (on_top (st_set_list true) (p_simple p)) p). clear p H Hel. intros p H. revert p w H.
    induction l as [|x l IH]; intros p w H; [exact H|]. cbn. destruct (String.eqb (a_local x) _); [|now apply IH]. apply IH. keep H. now apply simple_top. }
  destruct (String.eqb_spec m "Restriction") as [->|_].
  { unfold on_restriction. generalize (freeze p). intros tree. clear Hel. revert p w H. induction l as [|x l IH]; intros p w H; [exact H|]. cbn.
    destruct (String.eqb (a_local x) _); [|now apply IH]. destruct (nonempty _); [|now apply IH]. apply IH. keep H. apply simple_top; [|assumption].
    intros c Hc. cbn. apply String.eqb_neq in Hc as Hc'. now rewrite Hc'. }
  destruct (String.eqb_spec m "Schema") as [->|_]; [exact H|].
  destruct (String.eqb_spec m "SimpleType") as [->|Hns].
  { unfold on_simple_type. keep H. destruct (p_simple p) as [|s [|s' st]]; [| |elim H1]; cbn; intros Hn; now apply has_name_attr. }
  destruct (String.eqb_spec m "Union") as [->|_]; [|exact H].
  unfold on_union. cbv zeta. destruct (nonempty _); [|exact H]. generalize (freeze (set_in_union true p)). intros tree.
  match goal with |- gives _ (union_attrs _ _ _ ?q _) => assert (Hq : ninv n q) by (keep H; now apply simple_top); generalize dependent q end.
  clear p H Hel Hns. intros p H. revert p w H.
  induction l as [|x l IH]; intros p w H; [exact H|]. cbn [union_attrs]. destruct (String.eqb (a_local x) _); [|now apply IH].
  apply (gives_bind _ _ (ninv n)); [|intros q u Hq; now apply IH]. clear IH. revert p w H.
  induction (split_on " " (a_value x)) as [|v vs IH]; intros p w H; [exact H|]. cbn. apply IH. keep H. now apply simple_top.
Qed.

Lemma to_attribute_names : forall n pop p w, ninv n p -> gives (ninv n) (base_to_attribute (gp lang) pop p w).
Proof.
  intros n pop p w H. unfold base_to_attribute. destruct (p_attribute p); [exact H|]. destruct (p_simple p) as [|s r] eqn:Hs; [exact H|].
  keep H; rewrite Hs in *. destruct pop; [|assumption]. exact (simple_tl _ _ H1).
Qed.

Lemma to_element_names : forall n pop p w, ninv n p -> gives (ninv n) (base_to_element (gp lang) pop p w).
Proof.
  intros n pop p w H. unfold base_to_element. destruct (p_simple p) as [|s r] eqn:Hs; [exact H|]. destruct (p_element p) as [|i r'] eqn:He; [exact H|].
  cbn [bind gp gives]. unfold on_top_element. rewrite He. keep H; rewrite ?Hs in *.
  - destruct pop; [|assumption]. exact (simple_tl _ _ H1).
  - rewrite He in *. eapply called_forall; [|eassumption]. intros j Hj. now apply called_update.
Qed.

Lemma end_names : forall n local p w, ninv n p -> gives (ninv n) (dispatch_end (gp lang) local p w).
Proof.
  intros n local p w H. unfold dispatch_end. cbv zeta.
  destruct (String.eqb _ _).
  { unfold end_attribute. destruct (p_attribute p) as [|a r] eqn:Ha; [exact H|]. destruct (nonempty _); [keep H|].
    destruct (nonempty _); [|keep H]. keep H. now apply top_from. }
  destruct (String.eqb _ _).
  { unfold end_attribute_group. destruct (p_attrgroup p) as [|g r] eqn:Hg; [exact H|]. keep H. }
  destruct (String.eqb _ _); [keep H|].
  destruct (String.eqb _ _). { unfold end_complex_type. keep H. now apply tl_from. }
  destruct (String.eqb _ _).
  { unfold end_element. destruct (p_element p) eqn:He; [exact H|]. destruct (nonempty _); [exact H|]. keep H. rewrite He in *. now inversion H3. }
  destruct (String.eqb _ _).
  { apply (gives_bind _ _ (ninv n)); [now apply to_attribute_names|]. intros q w' Hq. now apply to_element_names. }
  destruct (String.eqb _ _); [now apply to_attribute_names|].
  destruct (String.eqb _ _).
  { unfold end_group. cbv zeta. cbn [gives]. destruct (_ && _); destruct (String.eqb _ _); exact H. }
  destruct (String.eqb _ _).
  { apply (gives_bind _ _ (ninv n)); [now apply to_attribute_names|]. intros q w' Hq. now apply to_element_names. }
  destruct (String.eqb _ _).
  { apply (gives_bind _ _ (ninv n)); [now apply to_attribute_names|]. intros q w' Hq. destruct (p_element q) as [|i r] eqn:He; [exact Hq|].
    keep Hq. now apply top_from. }
  destruct (String.eqb _ _).
  { unfold end_simple_type.
    assert (Hrest : gives (ninv n)
      (let p := if String.eqb local (p_current p) && Nat.eqb (length (p_complex p)) 1
         then set_current "" (set_complex (tl (p_complex p)) (append_tree (pop_node PComplex (p_complex p)) p)) else p in
       Ret (if String.eqb local (p_current p) && negb (p_in_union p)
            then set_current "" (set_simple (tl (p_simple p)) (append_tree (pop_node PSimple (p_simple p)) p)) else p) w)).
    { cbv zeta. match goal with |- context [if String.eqb local (p_current p) && ?b then ?x else p] =>
        assert (Hq : ninv n (if String.eqb local (p_current p) && b then x else p)) end.
      { destruct (_ && _); [|exact H]. keep H. now apply tl_from. }
      revert Hq. match goal with |- ninv n ?q -> _ => generalize q end. intros q Hq. cbn [gives]. destruct (_ && _); [|exact Hq].
      keep Hq. now apply simple_tl. }
    destruct (p_simple p) as [|s r] eqn:Hs; [exact Hrest|]. destruct (p_attribute p) as [|a r'] eqn:Ha; [exact Hrest|].
    clear Hrest. keep H. rewrite Hs in *. exact (simple_tl _ _ H1). }
  destruct (String.eqb _ _); [unfold end_union; cbn [gives]; destruct (nonempty _); exact H|].
  destruct (in_set _ _); [now apply to_element_names|exact H].
Qed.

Lemma char_names : forall n d p, ninv n p -> ninv n (on_char_data d p).
Proof.
  intros n d p H. unfold on_char_data. cbv zeta. destruct (String.eqb _ _); [exact H|]. destruct (_ && _); [exact H|].
  destruct (_ && _).
  { unfold on_top_element. destruct (p_element p) eqn:He; [exact H|]. keep H. rewrite He in *. eapply called_forall; [|eassumption]. intros j Hj. now apply called_update. }
  destruct (nonempty _); [exact H|]. destruct (String.eqb _ _); [keep H; now apply simple_top|].
  destruct (String.eqb _ _); [|exact H]. keep H. apply top_from; [|assumption]. intros c Hc. unfold complex_doc. destruct (ct_attributes c); exact Hc.
Qed.

Lemma run_same : forall ts ts' n p w w', same_document n ts ts' -> self_contained ts -> elements_named ts -> ninv n p ->
  bare (run_tokens (gp lang) ts p w) = bare (run_tokens (gp lang) ts' p w').
Proof.
  induction ts as [|t ts IH]; intros ts' n p w w' H Hs He Hn.
  { destruct ts'; [reflexivity|elim H]. }
  assert (Hs' : self_contained ts) by (intros lo l Hin; apply (Hs lo l); now right).
  assert (He' : elements_named ts) by (intros lo l Hin; apply (He lo l); now right).
  destruct ts' as [|t' ts']; [destruct t; elim H|]. cbn [run_tokens].
  destruct t as [local l|local|data|], t' as [local' l'|local'|data'|]; cbn [same_document] in H; try (now elim H); cbn [on_token].
  - destruct H as [<- [Hl Hr]]. destruct (Hs local l (or_introl eq_refl)) as [T1 T2].
    assert (G1 := start_same n local l l' p w w' Hn Hl T1 T2).
    assert (G2 := start_names n local l p w (He local l (or_introl eq_refl)) Hn).
    destruct (dispatch_start (gp lang) local l p w) as [q u|e u|c u], (dispatch_start (gp lang) local l' p w') as [q' u'|e' u'|c' u'];
      cbn [bare bind gives] in *; try discriminate; try congruence.
    injection G1 as <-. now apply (IH _ _ _ _ _ Hr).
  - destruct H as [<- Hr].
    assert (G1 := run_bare [TEnd local] p w w'). cbn [run_tokens on_token] in G1.
    assert (G2 := end_names n local p w Hn).
    destruct (dispatch_end (gp lang) local p w) as [q u|e u|c u], (dispatch_end (gp lang) local p w') as [q' u'|e' u'|c' u'];
      cbn [bare bind gives] in *; try discriminate; try congruence.
    injection G1 as <-. now apply (IH _ _ _ _ _ Hr).
  - destruct H as [<- Hr]. cbn [bind]. apply (IH _ _ _ _ _ Hr); auto. now apply char_names.
  - cbn [bind]. now apply (IH _ _ _ _ _ H).
Qed.

End Prefix.

Section Parse.
Context {E : Env}.

Lemma reads_prefix : forall o w w' bytes bytes', same_document true (env_tokens bytes) (env_tokens bytes') -> self_contained (env_tokens bytes) ->
  elements_named (env_tokens bytes) -> bare (reads (o_lang o) o w bytes) = bare (reads (o_lang o) o w' bytes').
Proof. intros o w w' bytes bytes' H Hs He. apply (run_same (o_lang o) _ _ true); [assumption..|apply ninv_init]. Qed.

Lemma contained_same : forall n ts ts', same_document n ts ts' -> self_contained ts -> self_contained ts'.
Proof.
  intros n ts. revert n. induction ts as [|t ts IH]; intros n ts' H Hs lo l Hin; [destruct ts'; [elim Hin|elim H]|].
  assert (Hs' : self_contained ts) by (intros lo' l' Hin'; apply (Hs lo' l'); now right).
  destruct ts' as [|t' ts']; [elim Hin|].
  destruct t as [local a|local|data|], t' as [local' a'|local'|data'|]; cbn [same_document] in H; try (now elim H); destruct Hin as [Hin|Hin]; try discriminate.
  - injection Hin as -> ->. destruct H as [<- _]. apply (Hs local a). now left.
  - destruct H as [_ [_ Hr]]. exact (IH _ _ Hr Hs' _ _ Hin).
  - destruct H as [_ Hr]. exact (IH _ _ Hr Hs' _ _ Hin).
  - destruct H as [_ Hr]. exact (IH _ _ Hr Hs' _ _ Hin).
  - exact (IH _ _ H Hs' _ _ Hin).
Qed.

Theorem prefix_same : forall d fuel d' fuel' o w w' bytes bytes' q w1 q' w2, o_extract o = false -> fuel <> 0 -> fuel' <> 0 ->
  stat (o_file o) w = SFile bytes -> stat (o_file o) w' = SFile bytes' ->
  same_document true (env_tokens bytes) (env_tokens bytes') -> self_contained (env_tokens bytes) -> elements_named (env_tokens bytes) ->
  alone o w -> alone o w' ->
  parse d fuel o w = Ret q w1 -> parse d' fuel' o w' = Ret q' w2 -> q = q'.
Proof.
  intros [|d] fuel [|d'] fuel' o w w' bytes bytes' q w1 q' w2 He Hf Hf' Hs Hs' Hd Hc Hn Ha Ha' H1 H2; try discriminate.
  destruct (env_open_fail (o_file o)) eqn:Ho; [rewrite (open_read d fuel o w bytes Hs Ho) in H1; discriminate|].
  rewrite (parse_reads d fuel o w bytes He Hf Hs Ho Hc Ha) in H1.
  rewrite (parse_reads d' fuel' o w' bytes' He Hf' Hs' Ho (contained_same _ _ _ Hd Hc) Ha') in H2.
  apply bind_ret in H1 as [r [v [R1 F1]]]. apply bind_ret in H2 as [r' [v' [R2 F2]]].
  apply finish_ret in F1 as ->. apply finish_ret in F2 as ->.
  assert (HR := reads_prefix o w w' bytes bytes' Hd Hc Hn). rewrite R1, R2 in HR. cbn in HR. congruence.
Qed.

Theorem prefix_refuse : forall d fuel d' fuel' o w w' bytes bytes', o_extract o = false -> fuel <> 0 -> fuel' <> 0 ->
  stat (o_file o) w = SFile bytes -> stat (o_file o) w' = SFile bytes' ->
  same_document true (env_tokens bytes) (env_tokens bytes') -> self_contained (env_tokens bytes) -> elements_named (env_tokens bytes) ->
  alone o w -> alone o w' ->
  (forall x v, parse (S d) fuel o w = Fail (EAtoi x) v -> exists v', parse (S d') fuel' o w' = Fail (EAtoi x) v') /\
  (forall v, parse (S d) fuel o w = Crash Panic v -> exists v', parse (S d') fuel' o w' = Crash Panic v').
Proof.
  intros d fuel d' fuel' o w w' bytes bytes' He Hf Hf' Hs Hs' Hd Hc Hn Ha Ha'.
  destruct (env_open_fail (o_file o)) eqn:Ho; [rewrite (open_read d fuel o w bytes Hs Ho); split; intros; discriminate|].
  rewrite (parse_reads d fuel o w bytes He Hf Hs Ho Hc Ha).
  rewrite (parse_reads d' fuel' o w' bytes' He Hf' Hs' Ho (contained_same _ _ _ Hd Hc) Ha').
  assert (HR := reads_prefix o w w' bytes bytes' Hd Hc Hn).
  destruct (reads (o_lang o) o w bytes) as [r u|e u|c u], (reads (o_lang o) o w' bytes') as [r' u'|e' u'|c' u']; cbn [bare bind] in *; try discriminate HR; split.
  - intros x v H. now elim (finish_writes _ _ _ _ _ H x).
  - intros v H. now elim (finish_no_panic _ _ _ _ H).
  - intros x v H. injection HR as <-. exists u'. now injection H as -> _.
  - intros v H. discriminate.
  - intros x v H. discriminate.
  - intros v H. injection HR as <-. exists u'. now injection H as -> _.
Qed.

Theorem prefix_files : forall d fuel d' fuel' o w w' bytes bytes' q w1 q' w2 l, o_extract o = false -> fuel <> 0 -> fuel' <> 0 ->
  stat (o_file o) w = SFile bytes -> stat (o_file o) w' = SFile bytes' ->
  same_document true (env_tokens bytes) (env_tokens bytes') -> self_contained (env_tokens bytes) -> elements_named (env_tokens bytes) ->
  alone o w -> alone o w' -> selects (o_lang o) l ->
  parse d fuel o w = Ret q w1 -> parse d' fuel' o w' = Ret q' w2 ->
  forall f, output_file o l f -> exists text, get (clean f) (w_fs w1) = Some (NFile text) /\ get (clean f) (w_fs w2) = Some (NFile text).
Proof.
  intros d fuel d' fuel' o w w' bytes bytes' q w1 q' w2 l He Hf Hf' Hs Hs' Hd Hc Hn Ha Ha' Hl H1 H2 f Ho. apply output_file_spec in Ho as ->.
  assert (Hq := prefix_same d fuel d' fuel' o w w' bytes bytes' q w1 q' w2 He Hf Hf' Hs Hs' Hd Hc Hn Ha Ha' H1 H2). subst q'.
  destruct (written_exists (o_lang o) (o_package o) (freeze q) l Hl) as [text [ok Hw]].
  destruct (parse_success d fuel o w bytes q w1 He Hs H1) as [_ G1]. destruct (G1 _ _ _ Hw) as [-> Hg1].
  destruct (parse_success d' fuel' o w' bytes' q w2 He Hs' H2) as [_ G2]. destruct (G2 _ _ _ Hw) as [_ Hg2].
  eexists. split; eassumption.
Qed.

End Parse.
