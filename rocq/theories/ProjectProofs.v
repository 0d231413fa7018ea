(** Projects of schema files: every file is parsed into what the equations of
    SpecProject.v say. *)

From Coq Require Import String Ascii List Arith NArith ZArith Bool Lia.
From Verif Require Import GoStr GoPath Base Utils World Handlers Parser Reify SpecStr SpecDoc SpecTables SpecGen SpecOut SpecFile SpecParse SpecDecl
  SpecWhole SpecProject CallProofs StrLemmas StrProofs TableProofs ParserProofs ParseFacts DocLemmas DocProofs DeclProofs Effects GenRuns FileProofs WholeProofs.
Import ListNotations.
Local Open Scope string_scope.

Local Infix "+++" := app (at level 60, right associativity).

(** * Components do not link *)

Section Links.
Context {E : Env}.

Definition linkless (ts : list token) : Prop := forall t o, In t ts -> ~ token_op t o.

Lemma linkless_app : forall a b, linkless a -> linkless b -> linkless (a +++ b).
Proof. intros a b Ha Hb t o Ht. apply in_app_iff in Ht as [Ht|Ht]; [now apply Ha|now apply Hb]. Qed.
Lemma linkless_cons : forall t a, (forall o, ~ token_op t o) -> linkless a -> linkless (t :: a).
Proof. intros t a H Ha u o [<-|Hu]; [apply H|now apply Ha]. Qed.
Lemma linkless_nil : linkless [].
Proof. intros t o []. Qed.
Lemma linkless_chars : forall docs, linkless (map TChar docs).
Proof. intros docs t o Ht H. apply in_map_iff in Ht as [d [<- _]]. exact H. Qed.

Ltac op_free := let o := fresh in let H := fresh in intros o H; cbn in H; first [exact H | destruct H as [[H _]|[[H _]|[H _]]]; discriminate H].
Ltac ll := repeat first [apply linkless_nil | apply linkless_chars | apply linkless_app | apply linkless_cons; [op_free|]]; auto.

Lemma facet_linkless : forall f, facet_ok f = true -> linkless (facet_tokens f).
Proof.
  intros [local l docs] H. cbn [facet_ok] in H. cbn [facet_tokens]. destruct (in_dec string_dec local facet_locals) as [Hin|]; [|discriminate].
  cbn in Hin. repeat destruct Hin as [<-|Hin]; try ll. now elim Hin.
Qed.

Lemma facets_linkless : forall fs, facets_ok fs = true -> linkless (flat_map facet_tokens fs).
Proof.
  intros fs H. induction fs as [|f fs IH]; [ll|]. unfold facets_ok in H. cbn [forallb] in H. apply andb_true_iff in H as [Hf H].
  cbn [flat_map]. apply linkless_app; [now apply facet_linkless|now apply IH].
Qed.

Definition derivation_ok (d : derivation) : Prop := match d with Restricted _ _ fs => facets_ok fs = true | ListOf _ _ => True end.

Lemma inline_linkless : forall l docs d, derivation_ok d -> linkless (inline_tokens (Inline l docs d)).
Proof.
  intros l docs [lr dr fs|ll dl] H; cbn [inline_tokens derivation_tokens].
  - ll. now apply facets_linkless.
  - ll.
Qed.

Lemma derive_ok : forall res d tree v r, derive res d tree v = Some r -> derivation_ok d.
Proof. intros res [l docs fs|l docs] tree v r H; [|exact I]. cbn [derive] in H. cbn. now destruct (facets_ok fs). Qed.

Lemma attribute_linkless : forall res own a tree x, attribute_in res own a tree = Some x -> linkless (attribute_tokens a).
Proof.
  intros res own [l docs [[ls ds d]|]] tree x H; cbn [attribute_in inline_in] in H; cbn [attribute_tokens]; [|ll].
  apply linkless_cons; [op_free|]. apply linkless_app; [apply linkless_chars|]. apply linkless_app; [|ll]. apply inline_linkless. destruct d as [lr dr fs|ll dl]; [|exact I]. cbn. now destruct (facets_ok fs).
Qed.

Lemma inline_element_linkless : forall res e docs i tree x, inline_element res e docs i tree = Some x -> linkless (inline_tokens i).
Proof.
  intros res e docs [li di [lr dr fs|]] tree x H; [|discriminate]. apply inline_linkless. cbn [inline_element derivation_ok] in *.
  destruct fs as [|f fs]; [reflexivity|]. destruct (last_of ["base"] lr); [|discriminate]. now destruct (facets_ok (f :: fs)).
Qed.

Lemma body_linkless : forall res many b plural s r, body_in res many b plural s = Some r -> linkless (body_tokens b).
Proof.
  intros res many b. induction b as [|d b IH|a b IH|l docs b IH|l docs b IH|l docs b IH|l docs ct i IHi b IH|l docs i b IH|l i IHi b IH|l i IHi b IH|l i IHi b IH|f b IH];
    intros plural s r H; cbn [body_in] in H; cbn [body_tokens]; [ll| | | | | | | | | | |].
  - ll. now apply IH in H.
  - assert (Hx : exists own x s', attribute_in res own a (i_tree s) = Some x /\ body_in res many b plural s' = Some r).
    { destruct (i_to s) as [| | |y].
      - destruct (attribute_in res true a (i_tree s)) as [x|] eqn:Ha; [|discriminate]. exists true; repeat eexists; eassumption.
      - destruct (has_inline a); [discriminate|]. destruct (attribute_in res false a (i_tree s)) as [x|] eqn:Ha; [|discriminate]. exists false; repeat eexists; eassumption.
      - destruct (attribute_in res true a (i_tree s)) as [x|] eqn:Ha; [|discriminate]. exists true; repeat eexists; eassumption.
      - destruct (has_inline a); [discriminate|]. destruct (attribute_in res false a (i_tree s)) as [x|] eqn:Ha; [|discriminate]. exists false; repeat eexists; eassumption. }
    destruct Hx as [own [x [s' [Ha Hb]]]]. ll; [now apply attribute_linkless in Ha|now apply IH in Hb].
  - ll. now apply IH in H.
  - ll. now apply IH in H.
  - destruct (element_in res many l plural (i_tree s)) as [[e [|]]|]; try discriminate; [|destruct (lost _ _) as [s1|]; [|discriminate]]; (ll; now apply IH in H).
  - destruct (element_in res many l plural (i_tree s)) as [[e [|]]|]; try discriminate.
    destruct (body_in res many i plural _) as [s'|] eqn:Hi; [|discriminate]. ll; [now apply IHi in Hi|now apply IH in H].
  - destruct (element_in res many l plural (i_tree s)) as [[e [|]]|]; try discriminate.
    destruct (inline_member _ _ _ _ _ _) as [x|] eqn:Hx; [|discriminate]. destruct (lost _ _) as [s1|]; [|discriminate].
    unfold inline_member in Hx. destruct (in_dec _ _ _); [discriminate|]. apply inline_element_linkless in Hx.
    ll. now apply IH in H.
  - destruct (choice_in many l) as [b0|]; [|discriminate].
    destruct (body_in res many i _ _) as [s'|] eqn:Hi; [|discriminate]. ll; [now apply IHi in Hi|now apply IH in H].
  - destruct (string_dec _ _); [discriminate|].
    destruct (body_in res many i _ _) as [s'|] eqn:Hi; [|discriminate]. ll; [now apply IHi in Hi|now apply IH in H].
  - destruct (body_in res many i plural s) as [s'|] eqn:Hi; [|destruct (i_to s); discriminate].
    assert (Hb : body_in res many b plural s' = Some r) by (destruct (i_to s), (i_to s'); congruence). ll; [now apply IHi in Hi|now apply IH in Hb].
  - destruct (facet_ok f) eqn:Hf; [|destruct (i_to s); discriminate].
    assert (Hb : exists s', body_in res many b plural s' = Some r) by (destruct (i_to s); try discriminate; eexists; exact H).
    destruct Hb as [s' Hb]. ll; [now apply facet_linkless|now apply IH in Hb].
Qed.

Lemma part_linkless : forall b, linkless (part_tokens b).
Proof. induction b as [|d b IH|l docs b IH|l docs b IH|l i IHi b IH]; cbn [part_tokens]; ll. Qed.

Lemma attributes_linkless : forall res ats tree xs, attributes_in res ats tree = Some xs -> linkless (flat_map attribute_tokens ats).
Proof.
  intros res ats. induction ats as [|a ats IH]; intros tree xs H; [ll|]. cbn [attributes_in] in H.
  destruct (attribute_in res false _ tree) as [x|] eqn:Ha; [|discriminate]. destruct (attributes_in res ats tree) as [ys|] eqn:Hs; [|discriminate].
  cbn [flat_map]. apply linkless_app; [now apply attribute_linkless in Ha|now apply IH in Hs].
Qed.

Lemma simple_linkless : forall res name doc s tree v, simple_in res name doc s tree = Some v -> linkless (simple_tokens s).
Proof.
  intros res name doc [d|l docs ms] tree v H; cbn [simple_in] in H; cbn [simple_tokens].
  - apply derive_ok in H. destruct d as [lr dr fs|lr dr]; cbn [derivation_tokens]; ll. now apply facets_linkless.
  - ll. revert H. generalize (mkSimple doc name "" false true (fold_left (fun m v => put (local_part v) (res v tree) m) (flat_map (split_on " ") (values "memberTypes" l)) []) []).
    induction ms as [|[ls ds d] ms IH]; intros v0 H; [ll|]. cbn [members_in] in H. destruct (last_of ["name"] ls); [discriminate|].
    destruct (derive res d tree v0) as [v1|] eqn:Hd; [|discriminate]. cbn [flat_map].
    apply linkless_app; [apply inline_linkless; now apply derive_ok in Hd|now apply IH in H].
Qed.

Lemma derive_left_ok : forall res d x tree v r, derive_left res d x tree v = Some r -> derivation_ok d.
Proof. intros res [l docs [|f fs]|l docs] x tree v r H; [reflexivity|discriminate|exact I]. Qed.

Lemma simple_left_linkless : forall res name docs s x tree r, simple_left res name docs s x tree = Some r -> linkless (simple_tokens s).
Proof.
  intros res name docs [d|l docs' ms] x tree r H; cbn [simple_left] in H; cbn [simple_tokens].
  - destruct d as [lr dr [|f fs]|lr dr]; cbn [derivation_tokens]; [ll| |ll]. destruct (facets_ok (f :: fs)) eqn:Hf; [|discriminate].
    apply facets_linkless in Hf. revert Hf. generalize (flat_map facet_tokens (f :: fs)). intros ts Hf. ll.
  - ll. destruct (members_left _ _ _ _ _) as [q|] eqn:Hm; [|discriminate]. clear H. revert Hm.
    generalize (redocument docs' x (redocument docs x tree)) as t.
    generalize (mkSimple "" name "" false true (fold_left (fun m v => put (local_part v) (res v (redocument docs x tree)) m) (flat_map (split_on " ") (values "memberTypes" l)) []) []).
    induction ms as [|[ls ds d] ms IH]; intros v0 t H; [ll|]. cbn [members_left] in H. destruct (last_of ["name"] ls); [discriminate|].
    destruct (derive_left res d x _ v0) as [[t1 v1]|] eqn:Hd; [|discriminate]. cbn [flat_map].
    apply linkless_app; [apply inline_linkless; now apply derive_left_ok in Hd|now apply IH in H].
Qed.

Lemma component_linkless : forall res many d tree before r, component_in res many d tree before = Some r -> linkless (component_tokens d).
Proof.
  intros res many d tree before r H. destruct d as [t|l docs s|l b|l docs|l docs ct b|l docs i|a|l g|l docs ats]; cbn [component_in] in H; cbn [component_tokens].
  - ll.
  - destruct (string_dec _ _); [discriminate|]. destruct before as [x|].
    { destruct (open x); [discriminate|]. destruct (simple_left _ _ _ s x tree) as [v|] eqn:Hs; [|discriminate]. ll. now apply simple_left_linkless in Hs. }
    destruct (simple_in _ _ _ s tree) as [v|] eqn:Hs; [|discriminate]. ll. now apply simple_linkless in Hs.
  - destruct (string_dec _ _); [discriminate|]. destruct (body_in res many b _ _) as [x|] eqn:Hb; [|discriminate]. ll. now apply body_linkless in Hb.
  - ll.
  - destruct (element_in res many l false tree) as [[e [|]]|]; try discriminate. destruct (last_of _ _); [discriminate|].
    destruct (body_in res many b _ _) as [x|] eqn:Hb; [|discriminate]. ll. now apply body_linkless in Hb.
  - destruct (element_in res many l false tree) as [[e [|]]|]; try discriminate.
    destruct (inline_element _ _ _ _ _) as [x|] eqn:Hx; [|discriminate]. apply inline_element_linkless in Hx. ll.
  - assert (Ha : exists own x, attribute_in res own a tree = Some x).
    { destruct before as [x|].
      - destruct (has_inline a); [discriminate|]. destruct (attribute_in res false a tree) as [v|] eqn:Ha; [|discriminate]. now exists false, v.
      - destruct (attribute_in res true a tree) as [v|] eqn:Ha; [|discriminate]. now exists true, v. }
    destruct Ha as [own [x Ha]]. now apply attribute_linkless in Ha.
  - ll. apply part_linkless.
  - destruct (match before with Some _ => _ | None => _ end); [discriminate|].
    destruct (attributes_in res ats tree) as [xs|] eqn:Ha; [|discriminate]. ll. now apply attributes_linkless in Ha.
Qed.

Lemma components_linkless : forall res many ds tree before tree', schema_from res many ds tree before = Some tree' -> linkless (flat_map component_tokens ds).
Proof.
  intros res many ds. induction ds as [|d ds IH]; intros tree before tree' H; cbn [schema_from] in H; cbn [flat_map]; [ll|].
  destruct (component_in res many d tree before) as [[t1 b1]|] eqn:Hd; [|discriminate]. apply linkless_app; [now apply component_linkless in Hd|now apply IH in H].
Qed.

(** The links at the start of a document. *)
Definition header (s : schema) (w : World) : World :=
  fold_left (fun w k => do_wop (match k with Import l => WImport l | Include l => WInclude l end) w) (s_links s) (do_wop (WSchema (s_tag s)) w).

Lemma header_run : forall gvt s w, exists p, idle p [] None /\ p_heap p = [] /\ forall rest,
  run_tokens gvt (TStart "schema" (s_tag s) :: flat_map link_tokens (s_links s) +++ rest) p_init w = run_tokens gvt rest p (header s w).
Proof.
  intros gvt s w. unfold header.
  assert (H : forall ks p w, idle p [] None -> p_heap p = [] -> exists p', idle p' [] None /\ p_heap p' = [] /\ forall rest, run_tokens gvt (flat_map link_tokens ks +++ rest) p w =
    run_tokens gvt rest p' (fold_left (fun w k => do_wop (match k with Import l => WImport l | Include l => WInclude l end) w) ks w)).
  { induction ks as [|k ks IH]; intros p w0 Hp Hh; [now exists p|]. destruct Hp as [T [H [ie [cu [el [si [F [-> [Ht [-> ->]]]]]]]]]].
    destruct k as [l|l].
    - destruct (IH (mkP T H "import" cu 0 false false [] [] [] [] [] [] []) (do_wop (WImport l) w0)) as [p' [Hp' [Hh' Hr]]].
      { exists T, H, "import", cu, [], [], F. split; [reflexivity|]. split; [exact Ht|now split]. }
      { exact Hh. }
      exists p'. split; [exact Hp'|]. split; [exact Hh'|]. intros rest. cbn [flat_map link_tokens]. cbn [app fold_left]. rewrite <- Hr. reflexivity.
    - destruct (IH (mkP T H "include" cu 0 false false [] [] [] [] [] [] []) (do_wop (WInclude l) w0)) as [p' [Hp' [Hh' Hr]]].
      { exists T, H, "include", cu, [], [], F. split; [reflexivity|]. split; [exact Ht|now split]. }
      { exact Hh. }
      exists p'. split; [exact Hp'|]. split; [exact Hh'|]. intros rest. cbn [flat_map link_tokens]. cbn [app fold_left]. rewrite <- Hr. reflexivity. }
  destruct (H (s_links s) (set_in_element "schema" p_init) (do_wop (WSchema (s_tag s)) w)) as [p' [Hp' [Hh' Hr]]].
  { exists [], [], "schema", "", [], [], []. split; [reflexivity|]. split; [|now split]. split; [reflexivity|]. split; constructor. }
  { reflexivity. }
  exists p'. split; [exact Hp'|]. split; [exact Hh'|]. intros rest. rewrite <- Hr. reflexivity.
Qed.

End Links.

(** * Answers have no prefix *)

Section Plain.

Definition plain (s : string) : Prop := prefix_part s = "".

Lemma plain_dec : forall s, {plain s} + {~ plain s}.
Proof. intros s. apply string_dec. Qed.

Lemma plain_local : forall v, plain (local_part v).
Proof.
  intros v. unfold plain, local_part. destruct (split_on ":" v) as [|a [|b [|c r]]] eqn:H; unfold prefix_part; try now rewrite H.
  assert (Hb : has_char ":" b = false) by (apply (split_on_clean ":" v); rewrite H; cbn; auto).
  now rewrite split_on_no_char.
Qed.

Lemma plain_builtin : forall lang n t, representation lang n = Some t -> plain t.
Proof.
  intros lang n t H. unfold representation in H. destruct (kind_of n) as [k|]; [|discriminate]. injection H as <-.
  repeat match goal with |- context [if ?c then _ else _] => destruct c end; destruct k; reflexivity.
Qed.

Lemma says_plain : forall n tree b, says n tree b -> plain n -> Forall (answers plain) tree -> plain b.
Proof.
  intros n tree b [[before [p [after [-> [Hp _]]]]]|[_ ->]] Hn Ht; [|exact Hn]. apply Forall_app in Ht as [_ Ht]. inversion Ht as [|x y Hx _]; subst.
  destruct Hp; exact Hx.
Qed.

Lemma says_base : forall n tree, says n tree (get_base n tree).
Proof.
  intros n tree. destruct (first_or_none n tree) as [[t Ht]|Hn].
  - left. now rewrite (get_base_first _ _ _ Ht).
  - right. split; [exact Hn|]. now apply get_base_none.
Qed.
Lemma says_eq : forall n tree b, says n tree b -> b = get_base n tree.
Proof. intros n tree b [H|[H ->]]; symmetry; [now apply get_base_first|now apply get_base_none]. Qed.

Lemma settles_dec : forall n b, {settles n b} + {~ settles n b}.
Proof.
  intros n b. unfold settles. destruct (string_dec b n); [right; tauto|]. destruct (string_dec b ""); [right; tauto|left; tauto].
Qed.
Lemma settles_eqb : forall n b, (negb (String.eqb b n) && negb (String.eqb b "")) = if settles_dec n b then true else false.
Proof.
  intros n b. destruct (settles_dec n b) as [[H1 H2]|H].
  - apply String.eqb_neq in H1, H2. now rewrite H1, H2.
  - destruct (String.eqb_spec b n); [reflexivity|]. destruct (String.eqb_spec b ""); [reflexivity|]. now elim H.
Qed.

Lemma resolution_plain : forall lang res, resolution true lang res -> forall v t, Forall (answers plain) t -> plain (res v t).
Proof.
  intros lang res H v t Ht. specialize (H v t). cbv zeta in H. destruct (representation lang (local_part v)) as [b|] eqn:Hr.
  - rewrite H. now apply plain_builtin in Hr.
  - destruct H as [H1 [H2 H3]]. destruct (first_or_none (local_part v) t) as [[b Hb]|Hn].
    + destruct (string_dec b "") as [->|Hne]; [now rewrite (H2 Hb)|]. rewrite (H1 b Hb Hne).
      apply (says_plain (local_part v) t); [now left|apply plain_local|exact Ht].
    + rewrite (H3 Hn). apply plain_local.
Qed.

Context {E : Env}.

(** Components declared with plain answers have plain types. *)
Lemma tree_answers : forall (R : string -> Prop) res many ds tree, (forall s, plain s -> R s) -> (forall v, {R v} + {~ R v}) ->
  (forall v t, R v -> Forall (answers plain) t -> plain (res v t)) ->
  Forall (token_ok R) (flat_map component_tokens ds) -> counts many ->
  schema_in res many ds [] = Some tree -> Forall (answers plain) tree.
Proof.
  intros R res many ds tree HR Rdec Hres Hts Hm Hs. set (w := mkW [] [] [] [] [] [] 0 []).
  destruct (components_run (as_resolver res) w res many (fun v t => eq_refl) Hm ds [] tree None p_init Hs idle_init) as [p [Hp Hi]].
  destruct (guarded_run R plain HR eq_refl Rdec plain_dec res Hres _ _ _ _ Hts (inv_init plain) Hp) as [_ Hinv].
  apply freeze_ok in Hinv; [|reflexivity]. now rewrite <- Hi.
Qed.

End Plain.

(** * The tables of prefixes and locations *)

Section Header.
Context {E : Env}.
Variable P : project.
Hypothesis Hco : coherent P.

Definition tables_ok (w : World) : Prop :=
  (forall p n, get p (w_lns w) = Some n -> n = pr_ns P p) /\ (forall n x, get n (w_nsl w) = Some x -> pr_loc P n = Some x).

Definition grows (w w' : World) : Prop :=
  (forall p, get p (w_lns w) <> None -> get p (w_lns w') <> None) /\ (forall n, get n (w_nsl w) <> None -> get n (w_nsl w') <> None) /\
  (forall k, get k (w_pmap w) <> None -> get k (w_pmap w') <> None).

Lemma grows_refl : forall w, grows w w.
Proof. now split. Qed.
Lemma grows_trans : forall a b c, grows a b -> grows b c -> grows a c.
Proof. intros a b c [H1 [H2 H3]] [H4 [H5 H6]]. repeat split; auto. Qed.

Lemma get_put_none : forall A k k' (v : A) m, get k m <> None -> get k (put k' v m) <> None.
Proof. intros A k k' v m H. destruct (string_dec k' k) as [->|Hne]; [now rewrite get_put_same|now rewrite get_put_other]. Qed.

Lemma tag_tables : forall l m, (forall x, In x l -> a_space x = "xmlns" -> a_value x = pr_ns P (a_local x)) ->
  (forall p n, get p m = Some n -> n = pr_ns P p) ->
  let m' := fold_left (fun m x => if String.eqb (a_space x) "xmlns" then put (a_local x) (a_value x) m else m) l m in
  (forall p n, get p m' = Some n -> n = pr_ns P p) /\ (forall p, get p m <> None -> get p m' <> None) /\
  (forall x, In x l -> a_space x = "xmlns" -> get (a_local x) m' <> None).
Proof.
  intros l. induction l as [|x l IH]; intros m Hl Hm m'.
  - split; [exact Hm|]. split; [auto|]. intros x [].
  - unfold m'. cbn [fold_left].
    assert (Hm1 : forall p n, get p (if String.eqb (a_space x) "xmlns" then put (a_local x) (a_value x) m else m) = Some n -> n = pr_ns P p).
    { intros p n. destruct (String.eqb_spec (a_space x) "xmlns") as [Hx|]; [|apply Hm].
      destruct (string_dec (a_local x) p) as [<-|Hne]; [rewrite get_put_same|rewrite get_put_other by exact Hne; apply Hm].
      intros H. injection H as <-. apply Hl; [now left|exact Hx]. }
    destruct (IH _ (fun y Hy => Hl y (or_intror Hy)) Hm1) as [H1 [H2 H3]]. split; [exact H1|]. split.
    + intros p Hp. apply H2. destruct (String.eqb _ _); [now apply get_put_none|exact Hp].
    + intros y [<-|Hy] Hsp; [|now apply H3]. apply H2. rewrite Hsp. cbn. now rewrite get_put_same.
Qed.

Lemma prep_skip : forall l r cur m, lacks "namespace" l -> lacks "schemaLocation" l -> prepare_nsl (l +++ r) cur m = prepare_nsl r cur m.
Proof.
  intros l r cur m H1. induction H1 as [|x l Hx H1 IH]; intros H2; [reflexivity|]. inversion H2; subst. cbn [app prepare_nsl].
  apply String.eqb_neq in Hx. rewrite Hx. destruct (String.eqb_spec (a_local x) "schemaLocation"); [contradiction|]. now apply IH.
Qed.

Lemma prep_none : forall l cur m, lacks "schemaLocation" l -> prepare_nsl l cur m = m.
Proof.
  intros l. induction l as [|x l IH]; intros cur m H; [reflexivity|]. inversion H; subst. cbn [prepare_nsl].
  destruct (String.eqb_spec (a_local x) "schemaLocation"); [contradiction|]. now apply IH.
Qed.

Lemma prep_import : forall l n x m, import_of l n x ->
  prepare_nsl l "" m = if has_key n m then m else if is_valid_url x then m else put n x m.
Proof.
  intros l n x m [l1 [l2 [l3 [sp [sp' [-> H]]]]]].
  destruct (H "namespace" (or_introl eq_refl)) as [N1 [N2 N3]]. destruct (H "schemaLocation" (or_intror (or_introl eq_refl))) as [L1 [L2 L3]].
  rewrite prep_skip by assumption. cbn [prepare_nsl a_local a_value]. cbn [String.eqb Ascii.eqb Bool.eqb].
  rewrite prep_skip by assumption. cbn [prepare_nsl a_local a_value]. cbn [String.eqb Ascii.eqb Bool.eqb].
  now rewrite prep_none.
Qed.

Lemma header_tables : forall file s w, pr_schema P file = Some s -> tables_ok w ->
  let w' := header s w in
  tables_ok w' /\ grows w w' /\ w_fs w' = w_fs w /\ w_pmap w' = w_pmap w /\
  (forall x, In x (s_tag s) -> a_space x = "xmlns" -> get (a_local x) (w_lns w') <> None) /\
  (forall l n x, In (Import l) (s_links s) -> import_of l n x -> pr_loc P n = Some x -> get n (w_nsl w') <> None) /\
  (forall y, In y (w_inc w') <-> In y (w_inc w) \/ exists l, In (Include l) (s_links s) /\ In y (values "schemaLocation" l)) /\
  ((forall l y, In (Include l) (s_links s) -> In y (values "schemaLocation" l) -> In y (w_inc w)) -> w_inc w' = w_inc w) /\
  length (w_inc w') <= length (w_inc w) + length (flat_map (fun k => match k with Include l => values "schemaLocation" l | _ => [] end) (s_links s)).
Proof.
  intros file s w Hs [Hl Hn]. cbv zeta. unfold header.
  destruct (tag_tables (s_tag s) (w_lns w) (fun x => co_prefixes P Hco file s x Hs) Hl) as [T1 [T2 T3]]. cbv zeta in T1, T2, T3.
  set (w1 := do_wop (WSchema (s_tag s)) w).
  change (fold_left _ (s_tag s) (w_lns w)) with (w_lns w1) in T1, T2, T3.
  assert (Hk : forall ks w2, (forall k, In k ks -> In k (s_links s)) -> tables_ok w2 ->
    let w' := fold_left (fun w k => do_wop (match k with Import l => WImport l | Include l => WInclude l end) w) ks w2 in
    tables_ok w' /\ grows w2 w' /\ w_fs w' = w_fs w2 /\ w_pmap w' = w_pmap w2 /\
    (forall l n x, In (Import l) ks -> import_of l n x -> pr_loc P n = Some x -> get n (w_nsl w') <> None) /\
    (forall y, In y (w_inc w') <-> In y (w_inc w2) \/ exists l, In (Include l) ks /\ In y (values "schemaLocation" l)) /\
    ((forall l y, In (Include l) ks -> In y (values "schemaLocation" l) -> In y (w_inc w2)) -> w_inc w' = w_inc w2) /\
    length (w_inc w') <= length (w_inc w2) + length (flat_map (fun k => match k with Include l => values "schemaLocation" l | _ => [] end) ks)).
  { induction ks as [|k ks IH]; intros w2 Hin H2; cbv zeta.
    - cbn [fold_left]. split; [exact H2|]. split; [apply grows_refl|]. do 2 (split; [reflexivity|]). split; [intros l n x []|].
      split; [intros y; split; [now left|intros [H|[l [[] _]]]; exact H]|]. split; [reflexivity|]. cbn. lia.
    - cbn [fold_left]. set (w3 := do_wop _ w2).
      assert (Hw3 : tables_ok w3 /\ grows w2 w3 /\ w_fs w3 = w_fs w2 /\ w_pmap w3 = w_pmap w2 /\
        (forall l n x, k = Import l -> import_of l n x -> pr_loc P n = Some x -> get n (w_nsl w3) <> None) /\
        (forall y, In y (w_inc w3) <-> In y (w_inc w2) \/ exists l, k = Include l /\ In y (values "schemaLocation" l)) /\
        ((forall l y, k = Include l -> In y (values "schemaLocation" l) -> In y (w_inc w2)) -> w_inc w3 = w_inc w2) /\
        length (w_inc w3) <= length (w_inc w2) + length (match k with Include l => values "schemaLocation" l | _ => [] end)).
      { unfold w3. destruct k as [l|l]; cbn [do_wop].
        - destruct H2 as [H2 H2']. cbn [w_fs w_pmap w_inc w_nsl w_lns set_nsl].
          assert (Hnsl : (forall n x, get n (prepare_nsl l "" (w_nsl w2)) = Some x -> pr_loc P n = Some x) /\
            (forall n, get n (w_nsl w2) <> None -> get n (prepare_nsl l "" (w_nsl w2)) <> None) /\
            (forall n x, import_of l n x -> pr_loc P n = Some x -> get n (prepare_nsl l "" (w_nsl w2)) <> None)).
          { destruct (co_imports P Hco file s l Hs (Hin _ (or_introl eq_refl))) as [Hlk|[n0 [x0 [Hi Hloc]]]].
            - rewrite prep_none by exact Hlk. split; [exact H2'|]. split; [auto|]. intros n x [l1 [l2 [l3 [sp [sp' [-> _]]]]]].
              apply Forall_app in Hlk as [_ Hlk]. inversion Hlk as [|? ? _ Hlk2]; subst. apply Forall_app in Hlk2 as [_ Hlk2].
              inversion Hlk2; subst. now cbn in *.
            - rewrite (prep_import _ _ _ _ Hi).
              assert (Hurl : is_valid_url x0 = true <-> is_url x0) by (apply url_spec).
              assert (Hhas : has_key n0 (w_nsl w2) = true -> get n0 (w_nsl w2) <> None).
              { unfold has_key. now destruct (get n0 (w_nsl w2)). }
              split; [|split].
              + intros n x. destruct (has_key n0 (w_nsl w2)); [apply H2'|]. destruct (is_valid_url x0) eqn:Hu; [apply H2'|].
                destruct (string_dec n0 n) as [<-|Hne]; [rewrite get_put_same|rewrite get_put_other by exact Hne; apply H2'].
                intros H. injection H as <-. destruct Hloc as [Hloc|Hloc]; [exact Hloc|]. apply Hurl in Hloc. congruence.
              + intros n H. destruct (has_key n0 (w_nsl w2)); [exact H|]. destruct (is_valid_url x0); [exact H|]. now apply get_put_none.
              + intros n x Hi' Hx. pose proof (prep_import _ _ _ (w_nsl w2) Hi') as Heq. rewrite (prep_import _ _ _ _ Hi) in Heq. rewrite Heq.
                destruct (has_key n (w_nsl w2)) eqn:Hk; [unfold has_key in Hk; now destruct (get n (w_nsl w2))|].
                assert (Hu : is_valid_url x = false).
                { destruct (is_valid_url x) eqn:Hu; [|reflexivity]. apply url_spec in Hu.
                  now destruct (co_locations P Hco n x Hx) as [_ [Hnu _]]. }
                rewrite Hu. now rewrite get_put_same. }
          destruct Hnsl as [N1 [N2 N3]]. split; [now split|]. split; [now repeat split|]. do 2 (split; [reflexivity|]).
          split; [intros l' n x Heq; injection Heq as <-; apply N3|]. split; [|split; [reflexivity|cbn; lia]].
          intros y. split; [now left|]. intros [H|[l' [H _]]]; [exact H|discriminate].
        - cbn [w_fs w_pmap w_inc w_nsl w_lns set_inc]. split; [exact H2|]. split; [repeat split; auto|]. do 2 (split; [reflexivity|]).
          split; [discriminate|].
          assert (Hf : forall m, let m' := fold_left (fun m x => if String.eqb (a_local x) "schemaLocation" then add_key (a_value x) m else m) l m in
            (forall y, In y m' <-> In y m \/ In y (values "schemaLocation" l)) /\
            ((forall y, In y (values "schemaLocation" l) -> In y m) -> m' = m) /\ length m' <= length m + length (values "schemaLocation" l)).
          { clear. unfold values. induction l as [|x l IH]; intros m; cbv zeta; cbn [fold_left filter].
            - cbn. split; [tauto|]. split; [reflexivity|lia].
            - destruct (String.eqb (a_local x) "schemaLocation"); [|apply IH].
              destruct (IH (add_key (a_value x) m)) as [I1 [I2 I3]]. split; [|split].
              + intros y. rewrite I1, add_key_In. cbn [map In]. split; [intros [[H|H]|H]; auto|intros [H|[H|H]]; auto].
              + intros H. assert (Ha : add_key (a_value x) m = m).
                { unfold add_key. destruct (in_set (a_value x) m) eqn:Hi; [reflexivity|].
                  assert (Hin : In (a_value x) m) by (apply H; now left). apply in_set_In in Hin. congruence. }
                rewrite Ha in I2 |- *. apply I2. intros y Hy. apply H. now right.
              + assert (Ha : length (add_key (a_value x) m) <= S (length m)).
                { unfold add_key. destruct (in_set _ _); [lia|]. rewrite app_length. cbn. lia. }
                cbn [map length]. lia. }
          destruct (Hf (w_inc w2)) as [F1 [F2 F3]]. split; [|split; [|exact F3]].
          + intros y. rewrite F1. split; (intros [H|H]; [now left|right]); [now exists l|]. destruct H as [l' [Heq H]]. now injection Heq as <-.
          + intros H. apply F2. intros y. now apply H. }
      destruct Hw3 as [A1 [A2 [A3 [A4 [A5 [A6 [A7 A8]]]]]]].
      destruct (IH w3 (fun k' Hk' => Hin k' (or_intror Hk')) A1) as [B1 [B2 [B3 [B4 [B5 [B6 [B7 B8]]]]]]].
      split; [exact B1|]. split; [exact (grows_trans _ _ _ A2 B2)|]. split; [congruence|]. split; [congruence|]. split; [|split; [|split]].
      + intros l n x [Heq|Hl'] Hi Hx; [|now apply (B5 l n x)]. apply B2. now apply (A5 l n x).
      + intros y. rewrite B6, A6. split.
        * intros [[H|[l [-> H]]]|[l [H1 H]]]; [now left|right; exists l; split; [now left|exact H]|right; exists l; split; [now right|exact H]].
        * intros [H|[l [[->|H1] H]]]; [left; now left|left; right; now exists l|right; now exists l].
      + intros H. assert (A : w_inc w3 = w_inc w2).
        { apply A7. intros l y -> Hy. apply (H l y); [now left|exact Hy]. }
        rewrite <- A. apply B7. intros l y Hl' Hy. rewrite A. apply (H l y); [now right|exact Hy].
      + cbn [flat_map]. rewrite app_length. lia. }
  assert (Hok1 : tables_ok w1) by (split; [exact T1|exact Hn]).
  destruct (Hk (s_links s) w1 (fun k H => H) Hok1) as [B1 [B2 [B3 [B4 [B5 [B6 [B7 B8]]]]]]].
  assert (G1 : grows w w1) by (split; [exact T2|split; auto]).
  split; [exact B1|]. split; [exact (grows_trans _ _ _ G1 B2)|]. split; [exact B3|]. split; [exact B4|].
  split; [intros x Hx Hsp; apply B2; now apply T3|]. split; [exact B5|]. split; [exact B6|]. split; [exact B7|exact B8].
Qed.

End Header.

(** * Names in a schema *)

Section Names.
Context {E : Env}.

Definition tag_names (l : list xattr) : list string :=
  flat_map (fun x => (if in_dec string_dec (a_local x) ["type"; "ref"; "name"; "base"; "itemType"] then [a_value x] else []) +++
                     (if string_dec (a_local x) "memberTypes" then split_on " " (a_value x) else [])) l.
Definition schema_names (s : schema) : list string :=
  flat_map (fun t => match t with TStart _ l => tag_names l | _ => [] end) (flat_map component_tokens (s_decls s)).

Lemma tag_names_spec : forall l v, In v (tag_names l) <-> exists x, In x l /\ names_in x v.
Proof.
  intros l v. unfold tag_names. rewrite in_flat_map. split; intros [x [Hx H]]; exists x; (split; [exact Hx|]).
  - apply in_app_iff in H as [H|H].
    + destruct (in_dec _ _ _); [|destruct H]. destruct H as [<-|[]]. now left.
    + destruct (string_dec _ _); [|destruct H]. now right.
  - apply in_app_iff. destruct H as [[H ->]|[H Hv]]; [left|right].
    + destruct (in_dec _ _ _); [now left|contradiction].
    + destruct (string_dec _ _); [exact Hv|contradiction].
Qed.

Lemma schema_names_spec : forall s v, In v (schema_names s) <-> mentions s v.
Proof.
  intros s v. unfold schema_names. rewrite in_flat_map. split.
  - intros [[local l|local|data|] [Ht H]]; try now elim H. apply tag_names_spec in H as [x [Hx H]]. now exists local, l, x.
  - intros [local [l [x [Ht [Hx H]]]]]. exists (TStart local l). split; [exact Ht|]. apply tag_names_spec. now exists x.
Qed.

Definition asked (s : schema) (v : string) : Prop := plain v \/ mentions s v.
Lemma asked_dec : forall s v, {asked s v} + {~ asked s v}.
Proof.
  intros s v. destruct (plain_dec v) as [H|H]; [left; now left|]. destruct (in_dec string_dec v (schema_names s)) as [Hi|Hi].
  - left. right. now apply schema_names_spec.
  - right. intros [Hp|Hm]; [contradiction|]. now apply schema_names_spec in Hm.
Qed.

Lemma asked_tokens : forall s, Forall (token_ok (asked s)) (flat_map component_tokens (s_decls s)).
Proof.
  intros s. apply Forall_forall. intros [local l|local|data|] Ht; cbn; auto. intros x v Hx Hv. right. now exists local, l, x.
Qed.

End Names.

Lemma filter_le : forall (A : Type) (f g : A -> bool) xs, (forall x, f x = true -> g x = true) -> length (filter f xs) <= length (filter g xs).
Proof.
  intros A f g xs H. induction xs as [|x xs IH]; [auto|]. cbn [filter]. destruct (f x) eqn:Hf; [rewrite (H x Hf); cbn [length]; lia|].
  destruct (g x); cbn [length]; lia.
Qed.

Lemma filter_shorter : forall (A : Type) (f : A -> bool) xs, length (filter f xs) <= length xs.
Proof. intros A f xs. induction xs as [|x xs IH]; [auto|]. cbn [filter length]. destruct (f x); cbn [length]; lia. Qed.

(** * The whole project *)

Section Project.
Context {E : Env}.
Variables (o : Options) (l : lang) (P : project) (ext full : string -> list proto) (w0 : World) (fuel : nat) (K : list string).
Hypothesis Hco : coherent P.
Hypothesis Hde : declares (o_lang o) P ext full.
Hypothesis Hsel : selects (o_lang o) l.
Hypothesis Hfile : o_file o = pr_root P.
Hypothesis Hex : o_extract o = false.
Hypothesis Hdisk : project_files P w0.
Hypothesis Hout : project_outputs o l P.
Hypothesis Hcan : forall file, separate_file P file -> can_write (options_for o P file) l w0.
Hypothesis Hfmt : forall file, separate_file P file -> ~ unformatted l (o_package (options_for o P file)) (full file).
Hypothesis HK : forall x, In x K <-> included P x.
Hypothesis Hfuel : length K < fuel.

Local Notation op := (options_for o P).
Local Notation sepf := (separate_file P).
Local Notation disk_steps := (steps op l sepf).

Lemma op_root : op (pr_root P) = o.
Proof. unfold options_for. now destruct (string_dec _ _). Qed.
Lemma op_other : forall file, file <> pr_root P -> op file = for_schema o file.
Proof. intros file H. unfold options_for. now destruct (string_dec _ _). Qed.
Lemma op_lang : forall file, o_lang (op file) = o_lang o.
Proof. intros file. unfold options_for. now destruct (string_dec _ _). Qed.
Lemma op_output : forall file, o_output (op file) = o_output o.
Proof. intros file. unfold options_for. now destruct (string_dec _ _). Qed.
Lemma op_file : forall file, o_file (op file) = file.
Proof. intros file. unfold options_for. destruct (string_dec _ _) as [->|]; [exact Hfile|reflexivity]. Qed.
Lemma op_extract : forall file, o_extract (op file) = false.
Proof. intros file. unfold options_for. now destruct (string_dec _ _). Qed.
Lemma op_sel : forall file, selects (o_lang (op file)) l.
Proof. intros file. now rewrite op_lang. Qed.
Lemma op_far : forall a b n p, sepf a -> sepf b -> output_file (op a) l n -> output_place (op b) p -> ~ In (clean n) (lineage (dir p)).
Proof. intros a b n p Ha Hb Hn Hp. destruct (Hout a b n Ha Hn) as [_ H]. now apply H. Qed.

Lemma nested_op : forall file g ex, nested (op file) g ex = mkO g "" (o_output o) ex (o_lang o) "" p_init.
Proof. intros file g ex. unfold nested. now rewrite op_output, op_lang. Qed.

(** Answers. *)
Lemma ext_answers : forall file s, pr_schema P file = Some s -> Forall (answers plain) (ext file).
Proof.
  intros file s Hs. destruct (de_ext _ _ _ _ Hde file s Hs) as [res [many [Hr [Hm Ht]]]].
  apply (tree_answers (fun _ => True) res many (s_decls s)); auto.
  - intros v t _ Ha. now apply (resolution_plain (o_lang o)).
  - apply Forall_forall. intros [local a|local|data|] _; cbn; auto. intros x v _ _. exact I.
Qed.

Lemma separate_schema : forall file, sepf file -> exists s, pr_schema P file = Some s.
Proof.
  intros file [->|[n [x [Hn ->]]]].
  - pose proof (co_root P Hco). destruct (pr_schema P (pr_root P)) as [s|]; [now exists s|contradiction].
  - destruct (co_locations P Hco n x Hn) as [_ [_ H]]. destruct (pr_schema P (at_location P x)) as [s|]; [now exists s|contradiction].
Qed.

Lemma belongs_separate : forall v g, belongs P v g -> sepf g.
Proof. intros v g [x [Hx ->]]. right. now exists (pr_ns P (prefix_part v)), x. Qed.

Lemma within_self : forall g, within P g g.
Proof. intros g H. inversion H; subst; contradiction. Qed.
Lemma within_root : forall file, within P (pr_root P) file.
Proof. intros file H. induction H; contradiction. Qed.
Lemma within_of_root : forall h, within P h (pr_root P) -> h = pr_root P.
Proof. intros h H. destruct (string_dec (pr_root P) h) as [<-|Hne]; [reflexivity|]. elim H. now constructor. Qed.
Lemma within_next : forall file s v g h, pr_schema P file = Some s -> mentions s v -> belongs P v g -> within P h g -> h = g \/ within P h file.
Proof.
  intros file s v g h Hs Hm Hb Hw. destruct (string_dec h g) as [->|Hne]; [now left|right]. intros Hr. apply Hw.
  apply (bypass_next P h file s v g); auto.
Qed.

Lemma plain_nowhere : forall v, plain v -> nowhere P v.
Proof.
  intros v Hv. unfold nowhere. rewrite Hv, (co_plain P Hco). destruct (pr_loc P "") as [x|] eqn:H; [|reflexivity].
  now destruct (co_locations P Hco "" x H).
Qed.

Lemma asked_belongs : forall file s v g, sepf file -> pr_schema P file = Some s -> asked s v -> belongs P v g ->
  (exists x, In x (s_tag s) /\ a_space x = "xmlns" /\ a_local x = prefix_part v) /\
  mentions s v /\
  (g = file /\ file <> pr_root P \/
   (pr_rank P g < pr_rank P file \/ pr_rank P file <= pr_rank P g /\ within P g file) /\
   exists l x, In (Import l) (s_links s) /\ import_of l (pr_ns P (prefix_part v)) x /\ pr_loc P (pr_ns P (prefix_part v)) = Some x).
Proof.
  intros file s v g Hf Hs [Hp|Hm] Hb; [|destruct (co_known P Hco file s v g Hf Hs Hm Hb) as [H1 H2]; now repeat split]. apply plain_nowhere in Hp. destruct Hb as [x [Hx _]]. unfold nowhere in Hp. congruence.
Qed.

Lemma stands_plain : forall file s v tree b, sepf file -> pr_schema P file = Some s -> asked s v ->
  (forall g, sepf g -> pr_rank P g < pr_rank P file -> Forall (answers plain) (full g)) ->
  Forall (answers plain) tree -> stands_for (o_lang o) P ext full file v tree b -> plain b.
Proof.
  intros file s v tree b Hf Hs Hv IH Ht H. assert (Hn := plain_local v).
  assert (Hg : forall g, belongs P v g -> pr_rank P g < pr_rank P file -> Forall (answers plain) (full g)).
  { intros g Hb Hlt. apply IH; [now apply belongs_separate in Hb|exact Hlt]. }
  destruct H as [t Hr|b Hr Hb _|c g b Hr _ _ Hb Hne Hsay _|c g b Hr _ _ Hb _ Hsay|c x b Hr _ _ _ Hi Hsay _|c Hr _ _ _ _].
  - now apply plain_builtin in Hr.
  - exact (says_plain (local_part v) tree _ Hb Hn Ht).
  - apply (says_plain (local_part v) (full g)); auto.
  - pose proof (belongs_separate v g Hb) as Hsg. destruct (separate_schema g Hsg) as [sg Hsg'].
    apply (says_plain (local_part v) (ext g)); auto. now apply (ext_answers g sg).
  - destruct Hi as [sr [lr [Hsr [Hin Hx]]]]. destruct (co_includes P Hco _ sr lr x Hsr Hin Hx) as [_ Hsx].
    destruct (pr_schema P (at_location P x)) as [sx|] eqn:Heq; [|contradiction].
    apply (says_plain (local_part v) (ext (at_location P x))); auto; [now left|]. now apply (ext_answers _ sx).
  - exact Hn.
Qed.

Lemma full_answers : forall r file, pr_rank P file < r -> sepf file -> Forall (answers plain) (full file).
Proof.
  induction r as [|r IH]; intros file Hr Hf; [lia|]. destruct (separate_schema file Hf) as [s Hs].
  destruct (de_full _ _ _ _ Hde file s Hf Hs) as [res [many [Hres [Hm Ht]]]].
  apply (tree_answers (asked s) res many (s_decls s)); auto.
  - now left.
  - apply asked_dec.
  - intros v t Hv Ha. apply (stands_plain file s v t); auto. intros g Hg Hlt. apply IH; [lia|exact Hg].
  - apply asked_tokens.
Qed.

(** The world. *)
Definition untouched (w : World) : Prop := forall h n, sepf h -> get h (w_pmap w) = None -> output_file (op h) l n ->
  get (clean n) (w_fs w) = get (clean n) (w_fs w0).
Definition base_inv (w : World) : Prop := disk_steps w0 w /\ tables_ok P w /\ w_inc w = K /\ untouched w.

Lemma file_there : forall file s w, disk_steps w0 w -> pr_schema P file = Some s -> exists bytes, stat file w = SFile bytes /\
  env_open_fail file = false /\ written_as (document s) (env_tokens bytes) /\ named_tags (env_tokens bytes).
Proof.
  intros file s w Hw Hs. destruct Hdisk as [_ Hd]. destruct (Hd file s Hs) as [bytes [H1 H2]]. exists bytes. split; [|exact H2].
  apply (steps_stat_file op l sepf w0); auto. intros y n Hy Hn. destruct (Hout y file n Hy Hn) as [H _]. apply H. congruence.
Qed.

Lemma dir_there : forall w, disk_steps w0 w -> stat (join2 (pr_dir P) "") w = SDir.
Proof. intros w Hw. destruct Hdisk as [Hd _]. exact (steps_stat_dir op l sepf w0 w _ Hw Hd). Qed.

Lemma includes_known : forall file s lk y, pr_schema P file = Some s -> In (Include lk) (s_links s) -> In y (values "schemaLocation" lk) -> In y K.
Proof. intros file s lk y Hs Hl Hy. apply HK. now destruct (co_includes P Hco file s lk y Hs Hl Hy). Qed.

Lemma header_inv : forall file s w, pr_schema P file = Some s -> base_inv w -> base_inv (header s w).
Proof.
  intros file s w Hs [H1 [H2 [H3 H4]]]. destruct (header_tables P Hco file s w Hs H2) as [A1 [A2 [A3 [A4 [A5 [A6 [A7 [A8 _]]]]]]]].
  split; [|split; [exact A1|split]].
  - intros c. rewrite A3. apply H1.
  - rewrite A8; [exact H3|]. intros lk y Hl Hy. rewrite H3. exact (includes_known file s lk y Hs Hl Hy).
  - unfold untouched. now rewrite A3, A4.
Qed.

(** A schema on its own. *)
Lemma ext_parse : forall d file s w, pr_schema P file = Some s -> base_inv w ->
  exists p w', parse (S d) fuel (mkO file "" (o_output o) true (o_lang o) "" p_init) w = Ret p w' /\ freeze p = ext file /\
    base_inv w' /\ grows w w' /\ w_pmap w' = w_pmap w /\ w_fs w' = w_fs w.
Proof.
  intros d file s w Hs Hw. set (oo := mkO file "" (o_output o) true (o_lang o) "" p_init).
  destruct (file_there file s w (proj1 Hw) Hs) as [bytes [Hst [Hop [Hwr Hn]]]].
  destruct (de_ext _ _ _ _ Hde file s Hs) as [res [many [Hr [Hm Ht]]]].
  destruct (header_tables P Hco file s w Hs (proj1 (proj2 Hw))) as [A1 [A2 [A3 [A4 _]]]].
  destruct fuel as [|f']; [lia|]. set (gvt := get_value_type (parse d (S f')) (S f') oo).
  destruct (header_run gvt s w) as [p1 [Hp1 [_ Hrun]]].
  destruct (components_run gvt (header s w) res many) with (ds := s_decls s) (tree := @nil proto) (tree' := ext file) (before := @None leftover) (p := p1) as [p2 [Hp2 Hi2]]; auto.
  { intros v t. apply resolution_pure; [exact Hr|discriminate]. }
  assert (Hdoc : run_tokens gvt (document s) p_init w = Ret p2 (header s w)).
  { unfold document. rewrite Hrun, run_tokens_app, Hp2. reflexivity. }
  destruct (written_run gvt _ (env_tokens bytes) w p2 _ Hwr Hn Hdoc) as [p3 [Hp3 Hf3]].
  exists p3, (header s w). split.
  { cbn [parse]. unfold parse_body. cbn [o_file oo o_extract]. rewrite Hst, Hop. fold oo. fold gvt. rewrite Hp3. reflexivity. }
  split; [|split; [now apply (header_inv file)|split; [exact A2|now split]]]. rewrite Hf3. exact Hi2.
Qed.

(** Looking through the included schemas. *)
Lemma loop_runs : forall d file name n visited vt w, dir file = pr_dir P -> base_inv w ->
  length (filter (fun k => negb (in_set k visited)) K) < n ->
  (vt = "" /\ (forall x c, In x visited -> In x K -> first_gives name (ext (at_location P x)) c -> c = name \/ c = "") \/
   (exists x, In x K /\ first_gives name (ext (at_location P x)) vt)) ->
  exists vt' w', include_loop (parse (S d) fuel) n (op file) name K visited vt w = Ret (inl vt') w' /\
    base_inv w' /\ grows w w' /\ w_pmap w' = w_pmap w /\ w_fs w' = w_fs w /\
    (vt' = "" /\ (forall x c, In x K -> first_gives name (ext (at_location P x)) c -> c = name \/ c = "") \/
     (exists x, In x K /\ first_gives name (ext (at_location P x)) vt')).
Proof.
  intros d file name n. induction n as [|n IH]; intros visited vt w Hdir Hw Hlen Hvt; [lia|].
  cbn [include_loop]. cbv zeta. pose proof Hw as [_ [_ [Hinc _]]]. rewrite Hinc.
  set (cands := filter (fun k => negb (in_set k visited)) K) in *.
  assert (Hex' : existsb (fun k => negb (in_set k visited)) K = negb (Nat.eqb (length cands) 0)).
  { unfold cands. clear. induction K as [|k K' IH]; [reflexivity|]. cbn. destruct (in_set k visited); cbn; [exact IH|reflexivity]. }
  rewrite Hex'. destruct cands as [|k0 cs] eqn:Hc.
  - cbn [length Nat.eqb negb]. destruct (nth_error [] _) as [k|] eqn:Hn; [now destruct (Nat.modulo _ _)|].
    exists vt, w. split; [reflexivity|]. split; [exact Hw|]. split; [apply grows_refl|]. do 2 (split; [reflexivity|]).
    destruct Hvt as [[-> Hv]|Hv]; [left|now right]. split; [reflexivity|]. intros x c Hx. apply Hv; [|exact Hx].
    destruct (in_set x visited) eqn:Hi; [now apply in_set_In|]. exfalso.
    assert (Hin : In x (filter (fun k => negb (in_set k visited)) K)) by (apply filter_In; split; [exact Hx|now rewrite Hi]).
    fold cands in Hin. rewrite Hc in Hin. exact Hin.
  - cbn [length Nat.eqb negb]. rewrite Nat.add_0_r.
    destruct (nth_error (k0 :: cs) (Nat.modulo (env_choose (w_tick w)) (S (length cs)))) as [k|] eqn:Hn.
    2: { apply nth_error_None in Hn. cbn [length] in Hn. pose proof (Nat.mod_upper_bound (env_choose (w_tick w)) (S (length cs)) (Nat.neq_succ_0 _)). lia. }
    assert (Hk : In k K /\ in_set k visited = false).
    { apply nth_error_In in Hn. rewrite <- Hc in Hn. unfold cands in Hn. apply filter_In in Hn as [H1 H2]. split; [exact H1|]. now apply negb_true_iff. }
    destruct Hk as [Hk Hkv].
    pose proof Hk as Hki. apply HK in Hki. destruct Hki as [sr [lr [Hsr [Hin Hx]]]]. destruct (co_includes P Hco _ sr lr k Hsr Hin Hx) as [_ Hsx].
    destruct (pr_schema P (at_location P k)) as [sk|] eqn:Hsk; [|contradiction].
    assert (Hw1 : base_inv (set_tick (S (w_tick w)) w)) by exact Hw.
    destruct (ext_parse d (at_location P k) sk _ Hsk Hw1) as [p [w2 [Hp [Hfz [Hb2 [Hg2 [Hpm2 Hfs2]]]]]]].
    rewrite nested_op. unfold o_dir. rewrite op_file, Hdir. fold (at_location P k). rewrite Hp, Hfz.
    destruct (IH (k :: visited) (if String.eqb (get_base name (ext (at_location P k))) name then vt else get_base name (ext (at_location P k))) w2 Hdir Hb2)
      as [vt' [w' [Hr [Hb' [Hg' [Hpm' [Hfs' Hv']]]]]]].
    + assert (Hlt : length (filter (fun x => negb (in_set x (k :: visited))) K) < length cands).
      { unfold cands. clear - Hk Hkv. induction K as [|x K' IHK]; [destruct Hk|]. cbn [filter].
        destruct (string_dec x k) as [->|Hne].
        - rewrite Hkv. cbn [in_set existsb]. rewrite String.eqb_refl. cbn [orb negb length].
          apply Nat.lt_succ_r, filter_le. intros y. destruct (String.eqb y k); [discriminate|]. cbn [orb]. now intros H.
        - destruct Hk as [?|Hk]; [contradiction|]. specialize (IHK Hk). cbn [in_set existsb] in *. apply String.eqb_neq in Hne.
          rewrite Hne. cbn [orb]. fold (in_set x visited). destruct (negb (in_set x visited)); cbn [length]; lia. }
      rewrite Hc in Hlt. cbn [length] in Hlt, Hlen. lia.
    + destruct (first_or_none name (ext (at_location P k))) as [[t Ht]|Hnone].
      * rewrite (get_base_first _ _ _ Ht). destruct (String.eqb_spec t name) as [->|Hne]; [|right; now exists k].
        destruct Hvt as [[-> Hv]|Hv]; [left|now right]. split; [reflexivity|]. intros x c [<-|Hx0] Hxk Hfg; [|now apply (Hv x)].
        left. apply get_base_first in Hfg, Ht. congruence.
      * rewrite (get_base_none _ _ Hnone), String.eqb_refl. destruct Hvt as [[-> Hv]|Hv]; [left|now right]. split; [reflexivity|].
        intros x c [<-|Hx0] Hxk Hfg; [|now apply (Hv x)]. exfalso. destruct Hfg as [bf [q [af [Heq [Hq _]]]]].
        apply (Hnone q c); [rewrite Heq; apply in_app_iff; right; now left|exact Hq].
    + exists vt', w'. split; [exact Hr|]. split; [exact Hb'|]. split; [exact (grows_trans _ _ _ Hg2 Hg')|].
      split; [now rewrite Hpm', Hpm2|]. split; [now rewrite Hfs', Hfs2|]. exact Hv'.
Qed.

Local Notation requires := (requires (o_lang o) P ext full).

Definition settled (g : string) (w : World) : Prop :=
  get g (w_pmap w) = Some (full g) /\ output_present o l P g (full g) w /\ forall h, requires g h -> get h (w_pmap w) <> None.
Definition low (r : nat) (w : World) : Prop := forall g, sepf g -> pr_rank P g < r -> get g (w_pmap w) = None \/ settled g w.

Definition own_known (file : string) (w : World) : Prop :=
  forall n x, pr_loc P n = Some x -> at_location P x = file -> get n (w_nsl w) <> None.

Definition located (file : string) : Prop := exists n x, pr_loc P n = Some x /\ at_location P x = file.

(** The files that are still being parsed. *)
Definition unfinished (file : string) (w : World) : Prop :=
  forall h, within P h file -> h <> file -> pr_rank P file < pr_rank P h /\ (located h -> get h (w_pmap w) = Some []).

Definition full_spec (d : nat) (g : string) : Prop := forall w, base_inv w -> low (pr_rank P g) w -> own_known g w -> unfinished g w ->
  exists p w', parse d fuel (for_schema o g) w = Ret p w' /\ freeze p = full g /\ base_inv w' /\ grows w w' /\
    settled g w' /\ low (pr_rank P g) w' /\
    (forall k, k <> g -> ~ (sepf k /\ pr_rank P k < pr_rank P g) -> get k (w_pmap w') = get k (w_pmap w)) /\
    (forall h t, sepf h -> h <> g -> ~ pr_rank P h < pr_rank P g -> output_present o l P h t w -> output_present o l P h t w').

(** While the components of [file] are parsed; [ws]: at the start. *)
Definition during (file : string) (ws w : World) : Prop :=
  base_inv w /\ grows ws w /\ low (pr_rank P file) w /\
  (forall k, ~ (sepf k /\ pr_rank P k < pr_rank P file) -> get k (w_pmap w) = get k (w_pmap ws)) /\
  (forall h t, sepf h -> ~ pr_rank P h < pr_rank P file -> output_present o l P h t ws -> output_present o l P h t w).

Definition known (file : string) (s : schema) (w : World) : Prop :=
  (forall x, In x (s_tag s) -> a_space x = "xmlns" -> get (a_local x) (w_lns w) <> None) /\
  (forall lk n x, In (Import lk) (s_links s) -> import_of lk n x -> pr_loc P n = Some x -> get n (w_nsl w) <> None) /\
  (file <> pr_root P -> own_known file w).

Lemma present_fs : forall file tree w w', w_fs w' = w_fs w -> output_present o l P file tree w -> output_present o l P file tree w'.
Proof. intros file tree w w' H [f [text [H1 [H2 H3]]]]. exists f, text. now rewrite H. Qed.

(** Steps that leave files and parsed schemas alone. *)
Lemma during_same : forall file ws w w', during file ws w -> base_inv w' -> grows w w' -> w_pmap w' = w_pmap w -> w_fs w' = w_fs w ->
  during file ws w'.
Proof.
  intros file ws w w' [H1 [H2 [H3 [H4 H5]]]] Hb Hg Hp Hf. split; [exact Hb|]. split; [exact (grows_trans _ _ _ H2 Hg)|]. split; [|split].
  - intros g Hs Hr. unfold settled. rewrite Hp. destruct (H3 g Hs Hr) as [H|[H [Ho Hq]]]; [now left|right]. split; [exact H|]. split; [now apply (present_fs _ _ w)|exact Hq].
  - intros k Hk. rewrite Hp. now apply H4.
  - intros h t Hh Hr Ho. apply (present_fs _ _ w); [exact Hf|]. now apply H5.
Qed.

Lemma during_nested : forall file ws w w' g, during file ws w -> sepf g -> pr_rank P g < pr_rank P file ->
  base_inv w' -> grows w w' -> settled g w' -> low (pr_rank P g) w' ->
  (forall k, k <> g -> ~ (sepf k /\ pr_rank P k < pr_rank P g) -> get k (w_pmap w') = get k (w_pmap w)) ->
  (forall h t, sepf h -> h <> g -> ~ pr_rank P h < pr_rank P g -> output_present o l P h t w -> output_present o l P h t w') ->
  during file ws w'.
Proof.
  intros file ws w w' g [H1 [H2 [H3 [H4 H5]]]] Hg Hrank Hb Hgr Hpg Hlow Hframe Hkeep.
  split; [exact Hb|]. split; [exact (grows_trans _ _ _ H2 Hgr)|]. split; [|split].
  - intros h Hh Hr. destruct (string_dec h g) as [->|Hne]; [now right|].
    destruct (lt_dec (pr_rank P h) (pr_rank P g)) as [Hlt|Hge]; [now apply Hlow|].
    unfold settled. rewrite Hframe; [|exact Hne|intros [_ H]; contradiction]. destruct (H3 h Hh Hr) as [H|[H [Ho Hq]]]; [now left|right]. split; [exact H|].
    split; [now apply Hkeep|]. intros k Hk. now apply Hgr, Hq.
  - intros k Hk. rewrite <- (H4 k Hk). apply Hframe; [intros ->; apply Hk; now split|]. intros [Ha Hb']. apply Hk. split; [exact Ha|lia].
  - intros h t Hh Hr Ho. apply Hkeep; [exact Hh|intros ->; contradiction|lia|]. now apply H5.
Qed.

Lemma valid_url_empty : is_valid_url "" = false.
Proof. reflexivity. Qed.

Lemma gvt_project : forall d file s res ws, sepf file -> pr_schema P file = Some s ->
  (forall v t, stands_for (o_lang o) P ext full file v t (res v t)) ->
  (forall g, sepf g -> g <> pr_root P -> pr_rank P g < pr_rank P file -> full_spec (S d) g) ->
  known file s ws -> unfinished file ws ->
  (located file -> get file (w_pmap ws) = Some []) ->
  forall v t w, asked s v -> during file ws w ->
  exists w', get_value_type (parse (S d) fuel) fuel (op file) v t w = Ret (res v t) w' /\ during file ws w' /\ grows w w' /\
    forall g, consulted (o_lang o) P file v t g -> get g (w_pmap w') <> None.
Proof.
  intros d file s res ws Hf Hs Hres IH [K1 [K2 K3]] Hprog Hown v t w Hv Hw. specialize (Hres v t).
  unfold get_value_type. change (trim_ns_prefix v) with (local_part v). rewrite representation_eq, op_lang.
  destruct (representation (o_lang o) (local_part v)) as [b|] eqn:Hr.
  { exists w. split; [f_equal; inversion Hres; congruence|]. split; [exact Hw|]. split; [apply grows_refl|]. intros g [Hc _]. congruence. }
  rewrite settles_eqb. destruct (settles_dec (local_part v) (get_base (local_part v) t)) as [Hset|Hset].
  { exists w. split; [|split; [exact Hw|split; [apply grows_refl|intros g [_ [[c [Hc Hc']] _]]; apply says_eq in Hc; congruence]]]. f_equal.
    inversion Hres as [b H1|b H1 H2 H3|c g b H1 H2 H3|c g b H1 H2 H3|c x b H1 H2 H3|c H1 H2 H3]; subst; try congruence;
      apply says_eq in H2; first [congruence|rewrite H2 in H3; contradiction]. }
  rewrite op_extract. cbv zeta.
  assert (Hdir : dir file = pr_dir P) by (now apply (co_dir P Hco file s)).
  assert (Hod : o_dir (op file) = pr_dir P) by (unfold o_dir; now rewrite op_file).
  pose proof Hw as [Hb [Hg [Hlow [Hframe Hkeep]]]]. pose proof Hb as [Hst [[Hlns Hnsl] [Hinc _]]].
  change (get_ns_prefix v) with (prefix_part v).
  destruct (pr_loc P (pr_ns P (prefix_part v))) as [x|] eqn:Hloc.
  - (* belongs to a file *)
    set (g := at_location P x).
    assert (Hbel : belongs P v g) by (now exists x). pose proof (belongs_separate v g Hbel) as Hsg.
    destruct (asked_belongs file s v g Hf Hs Hv Hbel) as [[y [Hy [Hysp Hyl]]] [Hment Hwhere]].
    assert (E1 : get0 (prefix_part v) (w_lns w) = pr_ns P (prefix_part v)).
    { pose proof (proj1 Hg _ (K1 y Hy Hysp)) as Hk. rewrite Hyl in Hk. unfold get0.
      destruct (get (prefix_part v) (w_lns w)) as [m|] eqn:Hm; [now apply Hlns|contradiction]. }
    assert (Hnk : get (pr_ns P (prefix_part v)) (w_nsl w) <> None).
    { apply Hg. destruct Hwhere as [[Heq Hnr]|[_ [lk [x' [Hi [Him Hx']]]]]]; [|now apply (K2 lk _ x')].
      apply K3 with (x := x); [exact Hnr|exact Hloc|now rewrite <- Heq]. }
    assert (E2 : get0 (pr_ns P (prefix_part v)) (w_nsl w) = x).
    { unfold get0. destruct (get (pr_ns P (prefix_part v)) (w_nsl w)) as [m|] eqn:Hm; [|contradiction]. apply Hnsl in Hm. congruence. }
    rewrite E1, E2. destruct (co_locations P Hco _ x Hloc) as [_ [Hnu _]].
    destruct (is_valid_url x) eqn:Hu; [now apply url_spec in Hu|]. rewrite Hod. fold (at_location P x). fold g.
    destruct (separate_schema g Hsg) as [sg Hsg']. destruct (file_there g sg w Hst Hsg') as [bytes [Hstat _]]. rewrite Hstat. rewrite !nested_op.
    assert (Hagain : forall w1, during file ws w1 -> exists w', parse (S d) fuel (mkO g "" (o_output o) true (o_lang o) "" p_init) w1 = Ret (match parse (S d) fuel (mkO g "" (o_output o) true (o_lang o) "" p_init) w1 with Ret p _ => p | _ => p_init end) w' /\
      freeze (match parse (S d) fuel (mkO g "" (o_output o) true (o_lang o) "" p_init) w1 with Ret p _ => p | _ => p_init end) = ext g /\ during file ws w' /\ grows w1 w').
    { intros w1 Hw1. destruct (ext_parse d g sg w1 Hsg' (proj1 Hw1)) as [p [w' [Hp [Hfz [Hb' [Hg' [Hpm Hfs]]]]]]].
      exists w'. rewrite Hp. split; [reflexivity|]. split; [exact Hfz|]. split; [now apply (during_same file ws w1)|exact Hg']. }
    (* the last lookup *)
    assert (Hlast : forall w1, during file ws w1 -> (pr_rank P file <= pr_rank P g \/ ~ settles (local_part v) (get_base (local_part v) (full g))) -> exists w',
      match parse (S d) fuel (mkO g "" (o_output o) true (o_lang o) "" p_init) w1 with
      | Ret p w2 => Ret (get_base (local_part v) (freeze p)) w2 | Fail _ w2 => Ret (get_base (local_part v) (full g)) w2 | Crash c w2 => Crash c w2 end = Ret (res v t) w' /\ during file ws w' /\ grows w1 w').
    { intros w1 Hw1 Hc. destruct (Hagain w1 Hw1) as [w' [Hp [Hfz [Hw' Hgw]]]]. exists w'. split; [|now split]. rewrite Hp.
      rewrite Hfz. f_equal. symmetry.
      inversion Hres as [b H1|b H1 H2 H3|c g' b H1 H2 H3 H4 H5 H6 H7|c g' b H1 H2 H3 H4 H5 H6|c x' b H1 H2 H3 H4|c H1 H2 H3 H4]; subst; try congruence.
      - apply says_eq in H2. rewrite H2 in H3. contradiction.
      - destruct H4 as [x' [Hx' ->]]. rewrite Hx' in Hloc. injection Hloc as ->. fold g in H5, H6, H7. destruct Hc as [?|Hc]; [lia|].
        apply says_eq in H6. rewrite H6 in H7. contradiction.
      - destruct H4 as [x' [Hx' ->]]. rewrite Hx' in Hloc. injection Hloc as ->. fold g in H6. now apply says_eq in H6. }
    destruct (le_lt_dec (pr_rank P file) (pr_rank P g)) as [Hge|Hrank].
    + (* a file that is being parsed *)
      assert (Hpm : get g (w_pmap w) = Some []).
      { rewrite Hframe by (intros [_ H]; lia). destruct (string_dec g file) as [Heq|Hne].
        - rewrite Heq. apply Hown. exists (pr_ns P (prefix_part v)), x. now split.
        - apply Hprog; [|exact Hne|exists (pr_ns P (prefix_part v)), x; now split]. destruct Hwhere as [[? _]|[[?|[_ H]] _]]; [contradiction|lia|exact H]. }
      rewrite Hpm. cbn [get_base]. rewrite String.eqb_refl. cbn [negb andb].
      destruct (Hlast w Hw (or_introl Hge)) as [w' [Hl [Hw' Hgw]]]. exists w'. split; [|split; [exact Hw'|split; [exact Hgw|]]].
      { destruct (Hagain w Hw) as [w2 [Hp [Hfz _]]]. rewrite Hp in Hl |- *. exact Hl. }
      intros g' [_ [_ [[x' [Hx' ->]] Hne]]]. rewrite Hloc in Hx'. injection Hx' as <-. fold g. apply Hgw. congruence.
    + assert (Hgr : g <> pr_root P).
      { intros Heq. destruct (string_dec (pr_root P) file) as [Heq'|Hne]; [rewrite Heq, Heq' in Hrank; lia|].
        destruct (Hprog _ (within_root file) Hne) as [H _]. rewrite <- Heq in H. lia. }
      (* the components of the other file *)
      assert (Hget : exists w1, (during file ws w1 /\ grows w w1 /\ get g (w_pmap w1) <> None) /\ forall A (k : list proto -> World -> out A),
        match get g (w_pmap w) with
        | Some dep => k dep w
        | None => match parse (S d) fuel (mkO g "" (o_output o) false (o_lang o) "" p_init) w with
                  | Ret p w2 => k (freeze p) w2 | Fail _ w2 => Fail EGofmt w2 | Crash c w2 => Crash c w2 end
        end = k (full g) w1 /\ (get g (w_pmap w) = None -> exists p, parse (S d) fuel (mkO g "" (o_output o) false (o_lang o) "" p_init) w = Ret p w1 /\ freeze p = full g) /\
        (get g (w_pmap w) <> None -> get g (w_pmap w) = Some (full g) /\ w1 = w)).
      { destruct (Hlow g Hsg Hrank) as [Hnone|[Hsome _]].
        - destruct (IH g Hsg Hgr Hrank w Hb) as [p [w1 [Hp [Hfz [B1 [B2 [B3 [B5 [B6 B7]]]]]]]]].
          { intros h Hh Hr'. apply Hlow; [exact Hh|lia]. }
          { intros n' x' Hn' Heq'. assert (n' = pr_ns P (prefix_part v)) by (apply (co_namespace P Hco n' _ x' x); auto). now subst n'. }
          { intros h Hh Hne. destruct (within_next file s v g h Hs Hment Hbel Hh) as [?|Hw']; [contradiction|].
            destruct (string_dec h file) as [->|Hnf].
            - split; [exact Hrank|]. intros Hl. rewrite Hframe by (intros [_ H]; lia). now apply Hown.
            - destruct (Hprog h Hw' Hnf) as [Hlt Hp]. split; [lia|]. intros Hl. rewrite Hframe by (intros [_ H]; lia). now apply Hp. }
          exists w1. split; [split; [now apply (during_nested file ws w w1 g)|split; [exact B2|destruct B3 as [B3 _]; congruence]]|]. intros A k. unfold for_schema in Hp. rewrite Hnone, Hp, Hfz.
          split; [reflexivity|]. split; [intros _; now exists p|intros H; now elim H].
        - exists w. split; [split; [exact Hw|split; [apply grows_refl|congruence]]|]. intros A k. rewrite Hsome. split; [reflexivity|]. split; [discriminate|]. intros _. now split. }
      destruct Hget as [w1 [[Hw1 [Hgw1 Hin1]] Hget]].
      assert (Hresolve : forall (fallback : string), exists w',
        (if negb (String.eqb (get_base (local_part v) (full g)) (local_part v)) && negb (String.eqb (get_base (local_part v) (full g)) "") then Ret (get_base (local_part v) (full g)) w1
         else match parse (S d) fuel (mkO g "" (o_output o) true (o_lang o) "" p_init) w1 with
              | Ret p w2 => Ret (get_base (local_part v) (freeze p)) w2 | Fail _ w2 => Ret (get_base (local_part v) (full g)) w2 | Crash c w2 => Crash c w2 end) = Ret (res v t) w' /\ during file ws w' /\ grows w1 w').
      { intros _. rewrite settles_eqb. destruct (settles_dec (local_part v) (get_base (local_part v) (full g))) as [Hset'|Hset'].
        - exists w1. split; [|split; [exact Hw1|apply grows_refl]]. f_equal. symmetry.
          inversion Hres as [b H1|b H1 H2 H3|c g' b H1 H2 H3 H4 H5 H6 H7|c g' b H1 H2 H3 H4 H5 H6|c x' b H1 H2 H3 H4|c H1 H2 H3 H4]; subst; try congruence.
          + apply says_eq in H2. rewrite H2 in H3. contradiction.
          + destruct H4 as [x' [Hx' ->]]. rewrite Hx' in Hloc. injection Hloc as ->. fold g in H6. now apply says_eq in H6.
          + destruct H4 as [x' [Hx' ->]]. rewrite Hx' in Hloc. injection Hloc as ->. fold g in H5. destruct H5 as [?|[c' [Hc' Hns]]]; [lia|].
            apply says_eq in Hc'. subst. contradiction.
        - exact (Hlast w1 Hw1 (or_intror Hset')). }
      destruct (Hresolve "") as [w' [Hrs [Hw' Hgw]]]. exists w'. split; [|split; [exact Hw'|split; [exact (grows_trans _ _ _ Hgw1 Hgw)|]]].
      2: { intros g' [_ [_ [[x' [Hx' ->]] _]]]. rewrite Hloc in Hx'. injection Hx' as <-. fold g. now apply Hgw. }
      destruct (get g (w_pmap w)) as [dep|] eqn:Hpm.
      * destruct (Hget unit (fun _ w => Ret tt w)) as [_ [_ H]]. destruct H as [Hd ->]; [discriminate|]. injection Hd as ->. exact Hrs.
      * destruct (Hget unit (fun _ w => Ret tt w)) as [_ [H _]]. destruct (H eq_refl) as [p [Hp Hfz]]. rewrite Hp, Hfz. exact Hrs.
  - (* belongs to no file *)
    assert (E0 : get0 (get0 (prefix_part v) (w_lns w)) (w_nsl w) = "").
    { assert (Hz : forall m, m = pr_ns P (prefix_part v) \/ m = "" -> get0 m (w_nsl w) = "").
      { intros m Hm. unfold get0. destruct (get m (w_nsl w)) as [y|] eqn:Hy; [|reflexivity]. apply Hnsl in Hy.
        destruct Hm as [->| ->]; [congruence|]. now destruct (co_locations P Hco "" y Hy). }
      apply Hz. unfold get0. destruct (get (prefix_part v) (w_lns w)) as [m|] eqn:Hm; [left; now apply Hlns|now right]. }
    rewrite E0, valid_url_empty, Hod, (dir_there w Hst).
    destruct (loop_runs d file (local_part v) fuel [] "" w Hdir Hb) as [vt [w' [Hl [Hb' [Hg' [Hpm [Hfs Hvt]]]]]]].
    { assert (Hle : length (filter (fun k => negb (in_set k [])) K) <= length K) by apply filter_shorter. lia. }
    { left. split; [reflexivity|]. intros x c []. }
    rewrite Hinc, Hl. cbn [bind]. exists w'. split; [|split; [now apply (during_same file ws w)|split; [exact Hg'|intros g [_ [_ [[x' [Hx' _]] _]]]; congruence]]]. f_equal. symmetry.
    inversion Hres as [b H1|b H1 H2 H3|c g' b H1 H2 H3 H4 H5 H6 H7|c g' b H1 H2 H3 H4 H5 H6|c x' b H1 H2 H3 H4 H5 H6 H7|c H1 H2 H3 H4 H5]; subst; try congruence.
    + apply says_eq in H2. rewrite H2 in H3. contradiction.
    + destruct H4 as [x' [Hx' _]]. congruence.
    + destruct H4 as [x' [Hx' _]]. congruence.
    + destruct Hvt as [[-> Hall]|[y [Hy Hfg]]].
      * cbn [String.eqb]. apply HK in H5. destruct (Hall x' _ H5 H6) as [->|?]; [reflexivity|contradiction].
      * apply HK in Hy. pose proof (de_agree _ _ _ _ Hde (local_part v) x' y _ _ H5 Hy H6 Hfg) as Heq.
        destruct (String.eqb_spec vt "") as [He|_]; [congruence|exact Heq].
    + destruct Hvt as [[-> Hall]|[y [Hy Hfg]]]; [reflexivity|]. apply HK in Hy. rewrite (H5 y vt Hy Hfg). reflexivity.
Qed.

(** The output of a file. *)
Lemma finish_project : forall file p w, sepf file -> freeze p = full file -> base_inv w ->
  exists w', finish (op file) p w = Ret p w' /\ base_inv w' /\ grows w w' /\ w_pmap w' = put file (full file) (w_pmap w) /\
    output_present o l P file (full file) w' /\
    (forall h t, sepf h -> h <> file -> output_present o l P h t w -> output_present o l P h t w').
Proof.
  intros file p w Hf Hp [Hst [Htab [Hinc Hun]]].
  destruct (finish_ok (op file) l p w (op_extract file) (op_sel file)) as [w' [Hw'|[Hbad _]]].
  { apply (steps_can_write op l sepf op_far w0); auto. }
  2: { rewrite Hp in Hbad. now elim (Hfmt file Hf). }
  exists w'. split; [exact Hw'|].
  destruct (finish_effect (op file) p w (op_extract file)) as [_ [_ [F1 [F2 [F3 [_ [_ [F4 [F5 F6]]]]]]]]].
  destruct (F6 p w' Hw') as [_ F7]. rewrite Hw' in F1, F2, F3, F4, F5, F7. cbn [out_world] in *. rewrite Hp in F4, F5, F7. rewrite op_file in F4.
  assert (Hch : forall c, output_change (op file) (full file) c (get c (w_fs w)) (get c (w_fs w'))) by (intros c; apply effect_change, F5).
  assert (Hkeep : forall h f, sepf h -> h <> file -> output_file (op h) l f -> get (clean f) (w_fs w') = get (clean f) (w_fs w)).
  { intros h f Hh Hne Hf1.
    destruct (Hch (clean f)) as [Hc|[[q [Hq [Hl [_ _]]]]|[l' [n [tx [ok [Hl' [Hn [_ [Hc _]]]]]]]]]]; [exact Hc|exfalso; now apply (op_far h file f q)|].
    exfalso. rewrite <- (selects_unique _ _ _ (op_sel file) Hl') in Hn. destruct (Hout file h n Hf Hn) as [_ H].
    destruct (H Hh) as [Heq _]. apply Hne. symmetry. now apply (Heq f). }
  split; [|split; [|split; [exact F4|split]]].
  - split; [|split; [|split; [congruence|]]].
    + apply (steps_trans op l sepf) with (w1 := w); [exact Hst|]. exact (change_steps op l sepf op_sel w w' file (full file) Hf Hch).
    + destruct Htab as [H1 H2]. split; [now rewrite F2|now rewrite F3].
    + intros h n Hh Hnone Hn. rewrite F4 in Hnone. destruct (string_dec file h) as [->|Hne]; [rewrite get_put_same in Hnone; discriminate|].
      rewrite get_put_other in Hnone by exact Hne. rewrite (Hkeep h n Hh (not_eq_sym Hne) Hn). now apply (Hun h).
  - split; [now rewrite F2|]. split; [now rewrite F3|]. intros k Hk. rewrite F4. now apply get_put_none.
  - destruct (written_exists (o_lang (op file)) (o_package (op file)) (full file) l (op_sel file)) as [text [ok Hx]]. destruct (F7 _ _ _ Hx) as [-> Hg].
    exists (file_with_extension (output_path (op file)) (extension l)), text. split; [now apply output_file_spec|]. split; [|exact Hg].
    destruct (written_file _ _ _ _ _ _ Hx) as [l' [Hl' [_ Ht]]]. now rewrite (selects_unique _ _ _ (op_sel file) Hl').
  - intros h t Hh Hne [f [text [Hf1 [Hf2 Hf3]]]]. exists f, text. split; [exact Hf1|]. split; [exact Hf2|]. rewrite <- Hf3. now apply (Hkeep h).
Qed.

(** The world when the components of the file are about to be parsed. *)
Definition opened (file : string) (s : schema) (w : World) : World := header s (register (op file) (freeze (o_ps (op file))) w).

Lemma file_runs : forall d file s w, sepf file -> pr_schema P file = Some s ->
  (forall g, sepf g -> g <> pr_root P -> pr_rank P g < pr_rank P file -> full_spec (S d) g) ->
  disk_steps w0 w -> let ws := opened file s w in base_inv ws -> known file s ws -> low (pr_rank P file) ws -> unfinished file ws ->
  (located file -> get file (w_pmap ws) = Some []) ->
  exists p w', parse (S (S d)) fuel (op file) w = Ret p w' /\ freeze p = full file /\ base_inv w' /\ grows ws w' /\
    settled file w' /\ low (pr_rank P file) w' /\
    (forall k, k <> file -> ~ (sepf k /\ pr_rank P k < pr_rank P file) -> get k (w_pmap w') = get k (w_pmap ws)) /\
    (forall h t, sepf h -> h <> file -> ~ pr_rank P h < pr_rank P file -> output_present o l P h t ws -> output_present o l P h t w').
Proof.
  intros d file s w Hf Hs IH Hst0 ws Hb Hkn Hlow Hprog Hown.
  destruct (file_there file s w Hst0 Hs) as [bytes [Hst [Hop [Hwr Hn]]]].
  destruct (de_full _ _ _ _ Hde file s Hf Hs) as [res [many [Hres [Hm Ht]]]].
  set (gvt := get_value_type (parse (S d) fuel) fuel (op file)).
  set (wr := register (op file) (freeze (o_ps (op file))) w). assert (Hws : ws = header s wr) by reflexivity.
  destruct (header_run gvt s wr) as [p1 [Hp1 [Hh1 Hrun]]]. rewrite <- Hws in Hrun.
  destruct (components_run (as_resolver res) ws res many (fun v t => eq_refl) Hm (s_decls s) [] (full file) None p1 Ht Hp1) as [p2 [Hp2 Hi2]].
  assert (Hd0 : during file ws ws).
  { split; [exact Hb|]. split; [apply grows_refl|]. split; [exact Hlow|]. split; auto. }
  assert (Hinv : inv plain p1).
  { destruct Hp1 as [T [H [ie [cu [el [si [F [-> [[Ht1 _] [-> ->]]]]]]]]]]. cbn in Hh1. subst H. repeat split; cbn; try constructor.
    apply map_eq_nil in Ht1. now subst T. }
  destruct (transfer (asked s) plain (fun v H => or_introl H) eq_refl (asked_dec s) plain_dec res) with
    (I := during file ws) (gvt := gvt) (ts := flat_map component_tokens (s_decls s)) (p := p1) (p' := p2) (w := ws) (w0 := ws) as [w2 [Hr2 Hd2]]; auto.
  { intros v t Hv Ha. apply (stands_plain file s v t); auto. intros g Hg _. now apply (full_answers (S (pr_rank P g))); [lia|]. }
  { apply asked_tokens. }
  { intros op' [t [Hin Hop']]. now apply (components_linkless _ _ _ _ _ _ Ht t op'). }
  { intros v t w1 Hv _ Hw1. destruct (gvt_project d file s res ws Hf Hs Hres IH Hkn Hprog Hown v t w1 Hv Hw1) as [w3 [G1 [G2 _]]]. now exists w3. }
  assert (Hreq : forall h, requires file h -> get h (w_pmap w2) <> None).
  { intros h [s' [res1 [res2 [many1 [v0 [tree0 [other [Hs' [Hcon [Hres1 [Hm1 [Ht1 [Hdiff [Ho Hne]]]]]]]]]]]]]]. rewrite Hs in Hs'. injection Hs' as <-.
    destruct (components_run (as_resolver res1) ws res1 many1 (fun v t => eq_refl) Hm1 (s_decls s) [] (full file) None p1 Ht1 Hp1) as [p4 [Hp4 Hi4]].
    destruct (components_run (as_resolver res2) ws res2 many1 (fun v t => eq_refl) Hm1 (s_decls s) [] other None p1 Ho Hp1) as [p5 [Hp5 Hi5]].
    destruct (consult (asked s) plain (fun v H => or_introl H) eq_refl (asked_dec s) plain_dec res1) with
      (I := during file ws) (Q := fun w => get h (w_pmap w) <> None) (res' := res2) (gvt := gvt) (ts := flat_map component_tokens (s_decls s))
      (p := p1) (p' := p4) (q' := p5) (w := ws) (w0 := ws) as [w4 [Hr4 [HQ|Heq]]]; auto.
    - intros v t Hv Ha. apply (stands_plain file s v t); auto. intros g Hg _. now apply (full_answers (S (pr_rank P g))); [lia|].
    - apply asked_tokens.
    - intros op' [t [Hin Hop']]. now apply (components_linkless _ _ _ _ _ _ Ht t op').
    - intros v t w1 Hv _ Hw1. destruct (gvt_project d file s res1 ws Hf Hs Hres1 IH Hkn Hprog Hown v t w1 Hv Hw1) as [w3 [G1 [G2 [G3 G4]]]].
      exists w3. split; [exact G1|]. split; [exact G2|]. split; [apply G3|].
      destruct (get h (w_pmap w3)) as [dep|] eqn:Hdep; [left; discriminate|right]. apply Hdiff.
      destruct (string_dec v v0) as [->|Hv0]; [right|now left]. intros ->. now apply (G4 h Hcon).
    - rewrite Hr2 in Hr4. now injection Hr4 as _ <-.
    - exfalso. subst p5. congruence. }
  assert (Hdoc : run_tokens gvt (document s) p_init wr = Ret p2 w2).
  { unfold document. rewrite Hrun, run_tokens_app, Hr2. reflexivity. }
  destruct (written_run gvt _ (env_tokens bytes) wr p2 _ Hwr Hn Hdoc) as [p3 [Hp3 Hf3]].
  assert (Hfz : freeze p3 = full file).
  { rewrite Hf3. exact Hi2. }
  destruct Hd2 as [B1 [B2 [B3 [B4 B5]]]].
  destruct (finish_project file p3 w2 Hf Hfz B1) as [w' [C1 [C2 [C3 [C4 [C5 C6]]]]]].
  exists p3, w'. split.
  { change (parse (S (S d)) fuel (op file) w) with (parse_body (parse (S d) fuel) fuel (op file) w).
    unfold parse_body. rewrite op_file, Hst, Hop, op_extract. fold gvt. fold wr. rewrite Hp3. exact C1. }
  split; [exact Hfz|]. split; [exact C2|]. split; [exact (grows_trans _ _ _ B2 C3)|]. 
  split; [split; [rewrite C4; apply get_put_same|split; [exact C5|intros h Hh; now apply C3, Hreq]]|].
  assert (Hne : forall g, pr_rank P g < pr_rank P file -> g <> file) by (intros g Hg ->; lia).
  split; [|split].
  - intros g Hg Hr. destruct (B3 g Hg Hr) as [H|[H [Ho Hq]]]; [left|right]; [|split]; [rewrite C4, get_put_other by (apply not_eq_sym; auto); exact H..|].
    split; [apply C6; auto|]. intros h Hh. now apply C3, Hq.
  - intros k Hk Hnk. rewrite C4, get_put_other by auto. now apply B4.
  - intros h t Hh Hneh Hr Ho. apply C6; auto.
Qed.

Lemma opened_props : forall file s w, pr_schema P file = Some s -> tables_ok P w -> (file <> pr_root P -> own_known file w) ->
  let ws := opened file s w in tables_ok P ws /\ grows w ws /\ known file s ws /\ w_fs ws = w_fs w /\
  w_pmap ws = put file (freeze (o_ps (op file))) (w_pmap w) /\
  (forall y, In y (w_inc ws) <-> In y (w_inc w) \/ exists lk, In (Include lk) (s_links s) /\ In y (values "schemaLocation" lk)) /\
  length (w_inc ws) <= length (w_inc w) + length (flat_map (fun k => match k with Include lk => values "schemaLocation" lk | _ => [] end) (s_links s)) /\
  ((forall lk y, In (Include lk) (s_links s) -> In y (values "schemaLocation" lk) -> In y (w_inc w)) -> w_inc ws = w_inc w).
Proof.
  intros file s w Hs Htab Hown. cbv zeta. unfold opened. set (wr := register _ _ w).
  destruct (header_tables P Hco file s wr Hs Htab) as [A1 [A2 [A3 [A4 [A5 [A6 [A7 [A8 A9]]]]]]]].
  assert (G : grows w wr) by (split; [auto|split; [auto|]]; intros k Hk; now apply get_put_none).
  split; [exact A1|]. split; [exact (grows_trans _ _ _ G A2)|]. split; [|split; [exact A3|split; [|split; [exact A7|split; [exact A9|exact A8]]]]].
  - split; [exact A5|]. split; [exact A6|]. intros Hr n x Hn Hx. apply A2. now apply (Hown Hr n x).
  - rewrite A4. unfold wr, register. cbn. now rewrite op_file.
Qed.

Lemma opened_untouched : forall w w' file t, untouched w -> w_fs w' = w_fs w -> w_pmap w' = put file t (w_pmap w) -> untouched w'.
Proof.
  intros w w' file t Hun Hfs Hpm h n Hh Hnone Hn. rewrite Hfs. rewrite Hpm in Hnone. apply (Hun h); auto.
  destruct (string_dec file h) as [->|Hne]; [rewrite get_put_same in Hnone; discriminate|]. now rewrite get_put_other in Hnone.
Qed.

Lemma full_runs : forall r g d, sepf g -> g <> pr_root P -> pr_rank P g < r -> pr_rank P g < d -> full_spec (S d) g.
Proof.
  induction r as [|r IH]; intros g d Hg Hgr Hr Hd; [lia|]. destruct d as [|d]; [lia|].
  destruct (separate_schema g Hg) as [s Hs]. intros w Hb Hlow Hown Hprog. pose proof Hb as [Hst [Htab [Hinc Hun]]].
  destruct (opened_props g s w Hs Htab (fun _ => Hown)) as [A1 [A2 [A3 [A4 [A5 [_ [_ A6]]]]]]]. rewrite (op_other g Hgr) in A5. cbn [o_ps for_schema] in A5.
  change (freeze p_init) with (@nil proto) in A5.
  destruct (file_runs d g s w Hg Hs) as [p [w' [C1 [C2 [C3 [C4 [C5 [C7 [C8 C9]]]]]]]]]; auto.
  - intros h Hh Hhr Hlt. apply IH; auto; lia.
  - split; [|split; [exact A1|split]].
    + intros c. rewrite A4. apply Hst.
    + rewrite A6; [exact Hinc|]. intros lk y Hl Hy. rewrite Hinc. exact (includes_known g s lk y Hs Hl Hy).
    + now apply (opened_untouched w _ g []).
  - intros h Hh Hlt. unfold settled. rewrite A5, get_put_other by (intros ->; lia). destruct (Hlow h Hh Hlt) as [H|[H [Ho Hq]]]; [now left|right]. split; [exact H|].
    split; [now apply (present_fs _ _ w)|]. intros k Hk. now apply get_put_none, Hq.
  - intros h Hh Hne. destruct (Hprog h Hh Hne) as [Hlt Hl]. split; [exact Hlt|]. intros Hloc. rewrite A5, get_put_other by auto. now apply Hl.
  - intros _. rewrite A5. apply get_put_same.
  - exists p, w'. rewrite (op_other g Hgr) in C1. split; [exact C1|]. split; [exact C2|]. split; [exact C3|]. split; [exact (grows_trans _ _ _ A2 C4)|].
    split; [exact C5|]. split; [exact C7|]. split.
    + intros k Hk Hnk. rewrite C8, A5 by auto. apply get_put_other. auto.
    + intros h t Hh Hne Hr' Ho. apply C9; auto. now apply (present_fs _ _ w).
Qed.

End Project.

(** * Parsing the root *)

Theorem project_runs : forall {E : Env} d fuel o l P ext full w s,
  coherent P -> declares (o_lang o) P ext full -> selects (o_lang o) l -> o_file o = pr_root P -> o_extract o = false ->
  project_files P w -> project_outputs o l P ->
  (forall file, separate_file P file -> can_write (options_for o P file) l w) ->
  (forall file, separate_file P file -> ~ unformatted l (o_package (options_for o P file)) (full file)) ->
  pr_schema P (pr_root P) = Some s -> w_inc w = [] -> w_lns w = [] -> w_nsl w = [] -> w_pmap w = [] ->
  (freeze (o_ps o) = [] \/ forall n x, pr_loc P n = Some x -> at_location P x <> pr_root P) ->
  length (include_locations s) < fuel -> S (pr_rank P (pr_root P)) < d ->
  exists p w', parse d fuel o w = Ret p w' /\ freeze p = full (pr_root P) /\
    output_present o l P (pr_root P) (full (pr_root P)) w' /\
    (forall g, needed (o_lang o) P ext full g -> output_present o l P g (full g) w') /\
    (forall g, separate_file P g -> output_present o l P g (full g) w' \/
       forall n, output_file (options_for o P g) l n -> get (clean n) (w_fs w') = get (clean n) (w_fs w)) /\
    steps (options_for o P) l (separate_file P) w w'.
Proof.
  intros E d fuel o l P ext full w s Hco Hde Hsel Hfile Hex Hdisk Hout Hcan Hfmt Hs Hi Hl Hn Hp Hfresh Hfuel Hd.
  destruct d as [|[|d]]; [lia|lia|].
  assert (Hsep : separate_file P (pr_root P)) by (now left).
  assert (Htab : tables_ok P w) by (split; intros ? ?; [rewrite Hl|rewrite Hn]; discriminate).
  destruct (opened_props o P Hco Hfile (pr_root P) s w Hs Htab (fun H => False_ind _ (H eq_refl))) as [A1 [A2 [A3 [A4 [A5 [A6 [A7 _]]]]]]].
  set (ws := opened o P (pr_root P) s w) in *. rewrite Hi in A6, A7.
  assert (HK : forall x, In x (w_inc ws) <-> included P x).
  { intros x. rewrite A6. split.
    - intros [[]|[lk [H1 H2]]]. now exists s, lk.
    - intros [s' [lk [H0 [H1 H2]]]]. right. exists lk. rewrite Hs in H0. injection H0 as <-. now split. }
  assert (HF : length (w_inc ws) < fuel) by (cbn [length] in A7; fold (include_locations s) in A7; lia).
  assert (Hst : steps (options_for o P) l (separate_file P) w w) by (now apply steps_refl).
  assert (Hother : forall g, g <> pr_root P -> get g (w_pmap ws) = None).
  { intros g Hg. rewrite A5, Hp, get_put_other; [reflexivity|]. auto. }
  destruct (file_runs o l P ext full w fuel (w_inc ws) Hco Hde Hsel Hfile Hex Hdisk Hout Hcan Hfmt HK HF d (pr_root P) s w Hsep Hs) as
    [p [w' [C1 [C2 [C3 [C4 [C5 [C7 [C8 C9]]]]]]]]]; auto.
  - intros g Hg Hgr Hlt. apply (full_runs o l P ext full w fuel (w_inc ws) Hco Hde Hsel Hfile Hex Hdisk Hout Hcan Hfmt HK HF (S (pr_rank P g))); auto; lia.
  - split; [|split; [exact A1|split; [reflexivity|]]].
    + apply steps_refl. exact A4.
    + intros h n _ _ _. fold ws. now rewrite A4.
  - intros g Hg Hlt. left. apply Hother. intros ->. lia.
  - intros h Hh Hne. now apply within_of_root in Hh.
  - intros [n [x [Hx1 Hx2]]]. destruct Hfresh as [Hfr|Hfr]; [|now elim (Hfr n x)]. fold ws. rewrite A5, get_put_same, (op_root o P). now rewrite Hfr.
  - rewrite (op_root o P) in C1. exists p, w'. split; [exact C1|]. split; [exact C2|]. split; [apply C5|]. split; [|split].
    + assert (Hneed : forall g, needed (o_lang o) P ext full g -> settled o l P ext full g w').
      { intros g Hg. induction Hg as [|file g _ [_ [_ IH]] Hreq]; [exact C5|]. specialize (IH g Hreq).
        destruct Hreq as [s' [res [res' [many [v [tree [other [_ [[_ [_ [Hb _]]] _]]]]]]]]].
        pose proof (belongs_separate P v g Hb) as Hsg. destruct (string_dec g (pr_root P)) as [->|Hgr]; [exact C5|].
        destruct (lt_dec (pr_rank P g) (pr_rank P (pr_root P))) as [Hlt|Hge].
        - destruct (C7 g Hsg Hlt) as [H|H]; [contradiction|exact H].
        - elim IH. rewrite C8; auto. intros [_ H]. contradiction. }
      intros g Hg. now apply Hneed.
    + intros g Hg. destruct (string_dec g (pr_root P)) as [->|Hne]; [left; apply C5|].
      destruct (lt_dec (pr_rank P g) (pr_rank P (pr_root P))) as [Hlt|Hge].
      * destruct (C7 g Hg Hlt) as [Hnone|[_ [Ho _]]]; [right|left; exact Ho]. intros n Hn'. now apply (proj2 (proj2 (proj2 C3)) g).
      * right. intros n Hn'. apply (proj2 (proj2 (proj2 C3)) g); auto. rewrite C8; auto. intros [_ H]. contradiction.
    + exact (proj1 C3).
Qed.

(** * Computing what names stand for *)

(** The first included schema that says something about the name. *)
Definition first_included (P : project) (ext : string -> list proto) (locations : list string) (n : string) : string :=
  match find (fun x => negb (String.eqb (get_base n (ext (at_location P x))) n) && negb (String.eqb (get_base n (ext (at_location P x))) ""))
             locations with
  | Some x => get_base n (ext (at_location P x))
  | None => n
  end.

Definition stand_in (lang : string) (P : project) (ext full : string -> list proto) (locations : list string) (file v : string) (tree : list proto)
  : string :=
  let n := local_part v in
  let new b := negb (String.eqb b n) && negb (String.eqb b "") in
  match representation lang n with
  | Some t => t
  | None =>
      if new (get_base n tree) then get_base n tree
      else match pr_loc P (pr_ns P (prefix_part v)) with
           | Some x => let g := at_location P x in
               if (pr_rank P g <? pr_rank P file)%nat && new (get_base n (full g)) then get_base n (full g) else get_base n (ext g)
           | None => first_included P ext locations n
           end
  end.

Lemma included_locations : forall P s x, pr_schema P (pr_root P) = Some s -> included P x <-> In x (include_locations s).
Proof.
  intros P s x Hs. unfold include_locations. rewrite in_flat_map. split.
  - intros [s' [l [H0 [H1 H2]]]]. rewrite Hs in H0. injection H0 as <-. now exists (Include l).
  - intros [[l|l] [H1 H2]]; [destruct H2|]. now exists s, l.
Qed.

Lemma stand_in_stands : forall lang P ext full s file v tree, pr_schema P (pr_root P) = Some s ->
  stands_for lang P ext full file v tree (stand_in lang P ext full (include_locations s) file v tree).
Proof.
  intros lang P ext full s file v tree Hs. unfold stand_in. cbv zeta.
  destruct (representation lang (local_part v)) as [t|] eqn:Hr; [now apply st_builtin|].
  rewrite settles_eqb. destruct (settles_dec (local_part v) (get_base (local_part v) tree)) as [Hset|Hset].
  { apply st_here; auto. apply says_base. }
  destruct (pr_loc P (pr_ns P (prefix_part v))) as [x|] eqn:Hl.
  - assert (Hb : belongs P v (at_location P x)) by (now exists x).
    destruct (Nat.ltb_spec (pr_rank P (at_location P x)) (pr_rank P file)) as [Hne|Hge]; cbn [andb].
    2: eapply st_alone; [exact Hr|apply says_base|exact Hset|exact Hb|now left|apply says_base].
    + rewrite settles_eqb. destruct (settles_dec _ (get_base (local_part v) (full (at_location P x)))) as [Hset'|Hset'].
      * eapply st_there; [exact Hr|apply says_base|exact Hset|exact Hb|exact Hne|apply says_base|exact Hset'].
      * eapply st_alone; [exact Hr|apply says_base|exact Hset|exact Hb| |apply says_base]. right. eexists. split; [apply says_base|exact Hset'].
  - unfold first_included.
    destruct (find _ (include_locations s)) as [x|] eqn:Hf.
    + apply find_some in Hf as [Hin Hx]. rewrite settles_eqb in Hx. destruct (settles_dec _ _) as [[Hx1 Hx2]|]; [|discriminate].
      apply (included_locations P s x Hs) in Hin.
      eapply st_included; [exact Hr|apply says_base|exact Hset|exact Hl|exact Hin| |exact Hx2].
      destruct (says_base (local_part v) (ext (at_location P x))) as [H|[_ H]]; [exact H|contradiction].
    + assert (Hno : forall x b, included P x -> first_gives (local_part v) (ext (at_location P x)) b -> b = local_part v \/ b = "").
      { intros x b Hi Hfg. apply (included_locations P s x Hs) in Hi. pose proof (find_none _ _ Hf x Hi) as Hx. cbv beta in Hx.
        rewrite settles_eqb in Hx. rewrite (get_base_first _ _ _ Hfg) in Hx. destruct (settles_dec (local_part v) b) as [|Hn]; [discriminate|].
        unfold settles in Hn. destruct (string_dec b (local_part v)); [now left|]. destruct (string_dec b ""); [now right|]. tauto. }
      assert (Hd : (exists x, included P x /\ first_gives (local_part v) (ext (at_location P x)) (local_part v)) \/
                   ~ exists x, included P x /\ first_gives (local_part v) (ext (at_location P x)) (local_part v)).
      { assert (Hd : forall L, (exists x, In x L /\ first_gives (local_part v) (ext (at_location P x)) (local_part v)) \/
                   ~ exists x, In x L /\ first_gives (local_part v) (ext (at_location P x)) (local_part v)).
        { induction L as [|y L [[x [Hx1 Hx2]]|IH]]; [right; intros [x [[] _]]|left; exists x; split; [now right|exact Hx2]|].
          destruct (first_or_none (local_part v) (ext (at_location P y))) as [[t Ht]|Hn].
          - destruct (string_dec t (local_part v)) as [->|Hne]; [left; exists y; split; [now left|exact Ht]|].
            right. intros [x [[<-|Hx] Hfg]]; [|apply IH; now exists x]. apply get_base_first in Ht, Hfg. congruence.
          - right. intros [x [[<-|Hx] Hfg]]; [|apply IH; now exists x]. destruct Hfg as [bf [q [af [Heq [Hq _]]]]].
            apply (Hn q (local_part v)); [rewrite Heq; apply in_app_iff; right; now left|exact Hq]. }
        destruct (Hd (include_locations s)) as [[x [Hx Hfg]]|H].
        - left. exists x. split; [now apply (included_locations P s x Hs)|exact Hfg].
        - right. intros [x [Hx Hfg]]. apply H. exists x. split; [now apply (included_locations P s x Hs)|exact Hfg]. }
      destruct (string_dec (local_part v) "") as [He|Hne].
      * eapply st_unknown; [exact Hr|apply says_base|exact Hset|exact Hl|]. intros x b Hi Hfg. destruct (Hno x b Hi Hfg); congruence.
      * destruct Hd as [[x [Hi Hfg]]|Hd].
        -- eapply st_included; [exact Hr|apply says_base|exact Hset|exact Hl|exact Hi|exact Hfg|exact Hne].
        -- eapply st_unknown; [exact Hr|apply says_base|exact Hset|exact Hl|]. intros x b Hi Hfg. destruct (Hno x b Hi Hfg) as [->|H]; [|exact H].
           exfalso. apply Hd. now exists x.
Qed.
