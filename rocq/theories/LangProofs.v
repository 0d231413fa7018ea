(** The target language does not change the shape of the components (C67). *)

From Coq Require Import String Ascii List Arith NArith ZArith Bool Lia.
From Verif Require Import GoStr GoPath Base SpecStr Utils World Handlers Parser SpecTables SpecDoc SpecParse SpecOrigin SpecLang
  StrLemmas DocLemmas TableProofs Reify ParserProofs SimProofs ParseFacts SourceProofs OriginProofs.
Import ListNotations.
Local Open Scope string_scope.

Local Infix "+++" := app (at level 60, right associativity).

Section Shape.
Context {E : Env}.

Definition shape_node (n : pnode) : pnode := match n with PN p => PN (shape p) | PRef i => PRef i end.

Definition ss (p : PState) : PState :=
  mkP (map shape_node (p_tree p)) (map shape_element (p_heap p)) (p_in_element p) (p_current p) (p_in_group p) (p_in_union p) (p_in_ag p)
    (map shape_simple (p_simple p)) (map shape_complex (p_complex p)) (p_element p) (map shape_attribute (p_attribute p))
    (map shape_group (p_group p)) (map shape_attrgroup (p_attrgroup p)) (p_choice p).

Lemma some_empty : forall t, String.eqb (some_type t) "" = String.eqb t "".
Proof. intros t. unfold some_type. destruct (String.eqb t "") eqn:H; reflexivity. Qed.

Lemma some_there : forall t, t <> "" -> some_type t = "?".
Proof. intros t H. unfold some_type. destruct (String.eqb_spec t ""); [contradiction|reflexivity]. Qed.

Lemma shape_deref : forall h i, deref (map shape_element h) i = shape_element (deref h i).
Proof. intros h i. unfold deref. change zero_element with (shape_element zero_element) at 1. apply map_nth. Qed.

Lemma shape_freeze : forall p, freeze (ss p) = map shape (freeze p).
Proof.
  intros p. unfold freeze. cbn. rewrite !map_map. apply map_ext. intros [n|i]; [reflexivity|]. cbn. now rewrite shape_deref.
Qed.

Lemma shape_base : forall t, get_base "" (map shape t) = some_type (get_base "" t).
Proof.
  intros t. induction t as [|[|v|v|v|v|v|v] t IH]; cbn [map shape get_base]; try assumption; try reflexivity; rewrite IH.
  - cbn [shape_simple st_list st_union st_name st_base]. now destruct (_ && _).
  - cbn [shape_element el_name el_type]. now destruct (String.eqb _ _).
  - cbn [shape_attribute at_name at_type]. now destruct (String.eqb _ _).
Qed.

Lemma map_on_top : forall A (b f : A -> A) st, (forall x, b (f x) = f (b x)) -> map b (on_top f st) = on_top f (map b st).
Proof. intros A b f [|x st] H; [reflexivity|]. cbn. now rewrite H. Qed.

Lemma map_on_top2 : forall A (b f g : A -> A) st, (forall x, b (f x) = g (b x)) -> map b (on_top f st) = on_top g (map b st).
Proof. intros A b f g [|x st] H; [reflexivity|]. cbn. now rewrite H. Qed.

Lemma map_update2 : forall A (b f g : A -> A) i l, (forall x, b (f x) = g (b x)) -> map b (update_nth i f l) = update_nth i g (map b l).
Proof. intros A b f g i l H. revert i. induction l as [|x l IH]; intros [|i]; cbn; try reflexivity; [now rewrite H|now rewrite IH]. Qed.

Lemma nonempty_map : forall A B (f : A -> B) l, nonempty (map f l) = nonempty l.
Proof. now intros A B f []. Qed.

Lemma map_tl : forall A B (f : A -> B) l, map f (tl l) = tl (map f l).
Proof. now intros A B f []. Qed.

Lemma replace_last_map : forall A B (f : A -> B) e l, map f (replace_last e l) = replace_last (f e) (map f l).
Proof.
  intros A B f e l. induction l as [|x l IH]; [reflexivity|]. destruct l as [|y l]; [reflexivity|].
  cbn [replace_last map] in *. now rewrite IH.
Qed.

Lemma put_shape : forall k v (m : smap string),
  map (fun e => (fst e, some_type (snd e))) (put k v m) = put k (some_type v) (map (fun e => (fst e, some_type (snd e))) m).
Proof.
  intros k v m. induction m as [|[k' v'] m IH]; [reflexivity|]. cbn. destruct (String.eqb _ _); cbn; [reflexivity|now rewrite IH].
Qed.

Variable lang : string.

(** Resolution in a document that needs no other. *)
Definition plain (v : string) (t : list proto) : string :=
  let name := trim_ns_prefix v in
  match get_build_in_type name lang with
  | Some t => t
  | None => let base := get_base name t in
            if negb (String.eqb base name) && negb (String.eqb base "") then base else name
  end.
Definition gp (v : string) (t : list proto) (w : World) : out string := Ret (plain v t) w.

(** The same, seen without types. *)
Definition faint (v : string) (t : list proto) : string :=
  let name := trim_ns_prefix v in
  match get_build_in_type name "Go" with
  | Some _ => "?"
  | None => if String.eqb name "" then get_base "" t else "?"
  end.
Definition ge (v : string) (t : list proto) (w : World) : out string := Ret (faint v t) w.

Lemma build_in_there : forall name t, get_build_in_type name lang = Some t -> t <> "".
Proof.
  intros name t H. rewrite representation_eq in H. unfold representation in H. destruct (kind_of name) as [k|]; [|discriminate]. injection H as <-.
  repeat match goal with |- context [if ?c then _ else _] => destruct c end; destruct k; discriminate.
Qed.

Lemma build_in_row : forall name, get_build_in_type name lang = None <-> get_build_in_type name "Go" = None.
Proof. intros name. rewrite !representation_eq. unfold representation. destruct (kind_of name); cbn; split; congruence. Qed.

Lemma Hg1 : forall v t, faint v (map shape t) = some_type (plain v t).
Proof.
  intros v t. unfold faint, plain. cbv zeta. destruct (get_build_in_type _ lang) as [s|] eqn:Hb.
  - assert (Hr : get_build_in_type (trim_ns_prefix v) "Go" <> None). { intros Hn. apply build_in_row in Hn. congruence. }
    destruct (get_build_in_type _ "Go"); [|congruence]. symmetry. apply some_there. now apply (build_in_there (trim_ns_prefix v)).
  - assert (Hr := Hb). apply build_in_row in Hr. rewrite Hr. destruct (String.eqb_spec (trim_ns_prefix v) "") as [->|Hn].
    + rewrite shape_base. destruct (String.eqb_spec (get_base "" t) "") as [->|Hb']; reflexivity.
    + symmetry. apply some_there. destruct (String.eqb_spec (get_base (trim_ns_prefix v) t) "") as [Hb'|Hb']; rewrite ?andb_false_r; cbn [negb]; [assumption|].
      now destruct (negb _).
Qed.

Lemma Hg2 : forall v t, local_part v = v -> faint (some_type v) (map shape t) = some_type (plain v t).
Proof.
  intros v t Hv. destruct (String.eqb_spec v "") as [->|Hn]; [apply Hg1|]. rewrite (some_there v Hn). change (faint "?" (map shape t)) with "?". symmetry.
  apply some_there. unfold plain. cbv zeta. rewrite trim_local, Hv. destruct (get_build_in_type _ lang) eqn:Hb; [now apply (build_in_there v)|].
  destruct (String.eqb_spec (get_base v t) "") as [Hb'|Hb']; rewrite ?andb_false_r; cbn [negb]; [assumption|].
  now destruct (negb _).
Qed.

Notation anything := (fun _ : string => True).
Notation T := (type_from lang anything).
Notation C := (comp_types lang anything).

Lemma T_local : forall t, T t -> local_part t = t.
Proof. intros t [->|[[n H]|[n [_ ->]]]]; [reflexivity|now apply (builtin_local lang n)|apply local_again]. Qed.

Lemma plain_T : forall v t, Forall C t -> T (plain v t).
Proof.
  intros v t H. unfold plain. cbv zeta. destruct (get_build_in_type _ lang) as [s|] eqn:Hb.
  - right. left. exists (trim_ns_prefix v). now rewrite <- representation_eq.
  - assert (Hn : T (trim_ns_prefix v)) by (right; right; exists v; split; [exact Logic.I|apply trim_local]).
    destruct (_ && _); [now apply base_types|exact Hn].
Qed.

Lemma gp_good : forall v t w, asked lang anything v -> Forall C t -> True -> good (fun _ => True) T (gp v t w).
Proof. intros v t w _ H _. split; [now apply plain_T|exact Logic.I]. Qed.

Lemma attribute_shape : forall t l a w, attribute_attrs ge (map shape t) l (shape_attribute a) w = map_out shape_attribute (attribute_attrs gp t l a w).
Proof.
  intros t l. induction l as [|x l IH]; intros a w; [reflexivity|]. cbn [attribute_attrs]. cbv zeta.
  destruct (String.eqb _ "ref").
  { unfold ge at 1, gp at 1. rewrite Hg1. cbn [bind]. apply (IH (at_set_type (plain (a_value x) t) (at_set_name (a_value x) a)) w). }
  destruct (String.eqb _ "name"); [apply (IH (at_set_name (a_value x) a) w)|].
  destruct (String.eqb _ "type").
  { unfold ge at 1, gp at 1. rewrite Hg1. cbn [bind]. apply (IH (at_set_type (plain (a_value x) t) a) w). }
  destruct (String.eqb _ "use"); [|apply IH].
  destruct (String.eqb _ "required"); [apply (IH (at_set_optional false a) w)|apply IH].
Qed.

Lemma attrgroup_shape : forall t l a w, attrgroup_attrs ge (map shape t) l (shape_attrgroup a) w = map_out shape_attrgroup (attrgroup_attrs gp t l a w).
Proof.
  intros t l. induction l as [|x l IH]; intros a w; [reflexivity|]. cbn [attrgroup_attrs]. cbv zeta.
  destruct (String.eqb _ "name"); [apply (IH (ag_set_name (a_value x) a) w)|].
  destruct (String.eqb _ "ref"); [|apply IH].
  unfold ge at 1, gp at 1. rewrite Hg1. cbn [bind]. apply (IH (ag_set_ref (plain (a_value x) t) (ag_set_name (a_value x) a)) w).
Qed.

Lemma element_shape : forall t l e w, element_attrs ge (map shape t) l (shape_element e) w = map_out shape_element (element_attrs gp t l e w).
Proof.
  intros t l. induction l as [|x l IH]; intros e w; [reflexivity|]. cbn [element_attrs]. cbv zeta.
  destruct (String.eqb _ "ref").
  { unfold ge at 1, gp at 1. rewrite Hg1. cbn [bind]. apply (IH (el_set_type (plain (a_value x) t) (el_set_name (a_value x) e)) w). }
  destruct (String.eqb _ "name"); [apply (IH (el_set_name (a_value x) e) w)|].
  destruct (String.eqb _ "type").
  { unfold ge at 1, gp at 1. rewrite Hg1. cbn [bind]. apply (IH (el_set_type (plain (a_value x) t) e) w). }
  destruct (String.eqb _ "maxOccurs").
  { destruct (max_occurs _) as [[]|]; [apply (IH (el_set_plural true e) w)|apply IH|reflexivity]. }
  destruct (String.eqb _ "unbounded"); [|apply IH].
  destruct (String.eqb _ "0"); [apply IH|apply (IH (el_set_plural true e) w)].
Qed.

Lemma group_shape : forall t l g w, group_attrs ge (map shape t) l (shape_group g) w = map_out shape_group (group_attrs gp t l g w).
Proof.
  intros t l. induction l as [|x l IH]; intros g w; [reflexivity|]. cbn [group_attrs]. cbv zeta.
  destruct (String.eqb _ "name").
  { rewrite <- IH. now destruct g. }
  destruct (String.eqb _ "ref").
  { unfold ge at 1, gp at 1. rewrite Hg1. cbn [bind]. rewrite <- IH. now destruct g. }
  destruct (String.eqb _ "maxOccurs"); [|apply IH].
  destruct (String.eqb _ "0"); [apply IH|]. rewrite <- IH. now destruct g.
Qed.

Lemma merge_other : forall e l, ~ In (el_name e) (map el_name l) -> merge_element e l = None.
Proof.
  intros e l. induction l as [|x l IH]; intros H; [reflexivity|]. cbn [merge_element map] in *. cbn in H.
  destruct (String.eqb_spec (el_name e) (el_name x)) as [He|_]; [elim H; now left|]. now rewrite IH by tauto.
Qed.

Lemma add_other : forall e l, ~ In (el_name e) (map el_name l) -> add_element e l = l +++ [e].
Proof. intros e l H. unfold add_element. now rewrite merge_other. Qed.

Lemma add_shape : forall e l, ~ In (el_name e) (map el_name l) -> add_element (shape_element e) (map shape_element l) = map shape_element (add_element e l).
Proof.
  intros e l H. rewrite (add_other e l H), add_other; [now rewrite map_app|]. rewrite map_map. exact H.
Qed.

Lemma update_name : forall i f h, (forall e, el_name (f e) = el_name e) -> forall j, el_name (deref (update_nth i f h) j) = el_name (deref h j).
Proof.
  intros i f h Hf. revert i. induction h as [|e h IH]; intros [|i] [|j]; cbn; auto. apply (IH i j).
Qed.

Lemma place_shape : forall i p w, (forall c r, p_complex p = c :: r -> ~ In (el_name (deref (p_heap p) i)) (map el_name (ct_elements c))) ->
  place_element i (ss p) w = map_out ss (place_element i p w).
Proof.
  intros i p w Ha. unfold place_element. cbv zeta. cbn [p_heap set_heap ss p_complex p_group p_in_group].
  change (choice_plural (ss p)) with (choice_plural p).
  set (f := fun e => el_set_plural (el_plural e || choice_plural p) e).
  assert (Hf : map shape_element (update_nth i f (p_heap p)) = update_nth i f (map shape_element (p_heap p))) by (apply map_update2; reflexivity).
  assert (Hn := update_name i f (p_heap p) (fun e => eq_refl) i).
  rewrite <- Hf, shape_deref, nonempty_map.
  destruct (p_complex p) as [|c r] eqn:Hc; cbn [nonempty].
  - destruct (0 <? p_in_group p)%Z.
    + cbn [map_out]. f_equal. unfold set_group, set_heap, ss. cbn. rewrite Hc. f_equal. symmetry.
      apply map_on_top2. intros d. destruct d. cbn. now rewrite map_app.
    + cbn [map_out]. unfold push_element, set_element, set_heap, ss. cbn. rewrite ?Hc. reflexivity.
  - cbn [map_out]. unfold ss at 2. cbn. f_equal. unfold set_complex, set_heap, ss. cbn. f_equal. f_equal.
    unfold ct_set_elements, shape_complex. cbn. rewrite add_shape; [reflexivity|]. rewrite Hn. now apply (Ha c r).
Qed.

Lemma element_called : forall gvt t l e w e' w', element_attrs gvt t l e w = Ret e' w' ->
  el_name e' = fold_left (fun n x => if existsb (String.eqb (a_local x)) ["name"; "ref"] then a_value x else n) l (el_name e).
Proof.
  intros gvt t l. induction l as [|x l IH]; intros e w e' w' H; cbn [element_attrs fold_left existsb] in *; [now injection H as <- _|]. cbv zeta in H.
  destruct (String.eqb _ "ref") eqn:Hr.
  { rewrite orb_true_r. destruct (gvt _ _ _) as [s w1| |]; [|discriminate|discriminate]. apply IH in H. exact H. }
  destruct (String.eqb _ "name"); cbn [orb]; [now apply IH in H|].
  destruct (String.eqb _ "type").
  { destruct (gvt _ _ _) as [s w1| |]; [|discriminate|discriminate]. now apply IH in H. }
  destruct (String.eqb _ "maxOccurs"). { destruct (max_occurs _) as [b|]; [|discriminate]. apply IH in H. now destruct b. }
  destruct (String.eqb _ "unbounded"); apply IH in H; [|exact H]. now destruct (String.eqb _ "0").
Qed.

Lemma deref_new : forall h e, deref (h +++ [e]) (length h) = e.
Proof. intros h e. unfold deref. rewrite app_nth2, Nat.sub_diag by lia. reflexivity. Qed.

Lemma on_element_shape : forall l p w,
  (forall c r, p_complex p = c :: r -> ~ In (element_name l) (map el_name (ct_elements c))) ->
  on_element ge l (ss p) w = map_out ss (on_element gp l p w).
Proof.
  intros l p w Ha. unfold on_element. rewrite shape_freeze. change zero_element with (shape_element zero_element) at 1.
  rewrite element_shape. destruct (element_attrs gp (freeze p) l zero_element w) as [e w1| |] eqn:He; cbn [bind map_out]; [|reflexivity|reflexivity].
  apply element_called in He. change (el_name e = element_name l) in He.
  cbv zeta. change (el_type (shape_element e)) with (some_type (el_type e)). rewrite some_empty. change (el_name (shape_element e)) with (el_name e).
  cbn [p_heap ss]. rewrite map_length. destruct (String.eqb (el_type e) "").
  - unfold ge at 1, gp at 1. rewrite Hg1. cbn [bind]. rewrite <- place_shape.
    + f_equal. unfold push_element, set_heap, set_element, ss. cbn. now rewrite map_app.
    + cbn [p_heap p_complex push_element set_heap set_element]. rewrite deref_new. cbn. rewrite He. exact Ha.
  - rewrite <- place_shape.
    + f_equal. unfold set_heap, ss. cbn. now rewrite map_app.
    + cbn [p_heap p_complex set_heap]. rewrite deref_new, He. exact Ha.
Qed.

Lemma shape_pop : forall A (b : A -> A) mk (st : list A), (forall x, shape (mk x) = mk (b x)) ->
  shape_node (pop_node mk st) = pop_node mk (map b st).
Proof. intros A b mk [|x st] H; [reflexivity|]. cbn. now rewrite H. Qed.

Lemma ss_append : forall n p, ss (append_tree n p) = append_tree (shape_node n) (ss p).
Proof. intros n p. unfold append_tree, set_tree, ss. cbn. now rewrite map_app. Qed.

Notation okay := (inv lang anything).

Lemma simple_local : forall p s r, okay p -> p_simple p = s :: r -> local_part (st_base s) = st_base s.
Proof.
  intros p s r H Hs. assert (Hf : Forall (simple_types lang anything) (s :: r)) by (rewrite <- Hs; apply H).
  inversion Hf as [|? ? [Hb _] _]; subst. now apply T_local.
Qed.

Lemma base_attr_shape : forall b p w, okay p -> base_to_attribute ge b (ss p) w = map_out ss (base_to_attribute gp b p w).
Proof.
  intros b p w H. unfold base_to_attribute. rewrite shape_freeze. cbn [p_attribute p_simple ss].
  destruct (p_attribute p) as [|a r] eqn:Ha; [reflexivity|]. destruct (p_simple p) as [|s r'] eqn:Hs; [reflexivity|]. cbn [map].
  change (st_base (shape_simple s)) with (some_type (st_base s)). unfold ge at 1, gp at 1. rewrite Hg2 by (now apply (simple_local p s r')). cbn [bind map_out].
  unfold set_current, set_simple, set_attribute, ss. cbn. destruct b; reflexivity.
Qed.

Lemma base_elem_shape : forall b p w, okay p -> base_to_element ge b (ss p) w = map_out ss (base_to_element gp b p w).
Proof.
  intros b p w H. unfold base_to_element. rewrite shape_freeze. cbn [p_element p_simple ss].
  destruct (p_simple p) as [|s r'] eqn:Hs; [reflexivity|]. destruct (p_element p) as [|i r] eqn:He; [reflexivity|]. cbn [map].
  change (st_base (shape_simple s)) with (some_type (st_base s)). unfold ge at 1, gp at 1. rewrite Hg2 by (now apply (simple_local p s r')). cbn [bind map_out].
  unfold set_current, set_simple, on_top_element, set_heap, ss. cbn. rewrite He. cbn.
  rewrite (map_update2 _ shape_element (el_set_type (plain (st_base s) (freeze p))) (el_set_type (some_type (plain (st_base s) (freeze p))))) by reflexivity.
  destruct b; reflexivity.
Qed.

Lemma in_groups_shape : forall g l, in_groups (shape_group g) (map shape_group l) = in_groups g l.
Proof.
  intros g l. unfold in_groups. induction l as [|x l IH]; [reflexivity|]. cbn [map existsb]. rewrite IH. now destruct g, x.
Qed.

Lemma extension_shape : forall t l p w, Forall C t -> extension_attrs ge (map shape t) l (ss p) w = map_out ss (extension_attrs gp t l p w).
Proof.
  intros t l. induction l as [|x l IH]; intros p w Ht; [reflexivity|]. cbn [extension_attrs]. destruct (String.eqb _ "base"); [|now apply IH].
  unfold ge at 1, gp at 1. cbn [bind]. rewrite Hg1.
  cbn [p_complex ss]. rewrite nonempty_map. destruct (nonempty _); [|now apply IH].
  unfold ge at 1, gp at 1. cbn [bind]. rewrite Hg2 by (now apply T_local, plain_T).
  rewrite <- IH by exact Ht. f_equal. unfold set_complex, ss. cbn. f_equal. symmetry. apply map_on_top2. intros c.
  cbn. destruct (String.eqb (ct_name c) ""); reflexivity.
Qed.

Lemma restriction_shape : forall t l p w, Forall C t -> restriction_attrs ge (map shape t) l (ss p) w = map_out ss (restriction_attrs gp t l p w).
Proof.
  intros t l. induction l as [|x l IH]; intros p w Ht; [reflexivity|]. cbn [restriction_attrs]. destruct (String.eqb _ "base"); [|now apply IH].
  unfold ge at 1, gp at 1. cbn [bind]. rewrite Hg1.
  cbn [p_simple ss]. rewrite nonempty_map. destruct (nonempty _); [|now apply IH].
  unfold ge at 1, gp at 1. cbn [bind]. rewrite Hg2 by (now apply T_local, plain_T).
  rewrite <- IH by exact Ht. f_equal. unfold set_simple, ss. cbn. f_equal. symmetry. apply map_on_top2. intros c.
  cbn. destruct (String.eqb (st_name c) ""); reflexivity.
Qed.

Lemma list_shape : forall t l p w, list_attrs ge (map shape t) l (ss p) w = map_out ss (list_attrs gp t l p w).
Proof.
  intros t l. induction l as [|x l IH]; intros p w; [reflexivity|]. cbn [list_attrs]. destruct (String.eqb _ "itemType"); [|apply IH].
  unfold ge at 1, gp at 1. cbn [bind]. rewrite Hg1.
  rewrite <- IH. f_equal. unfold set_simple, ss. cbn. f_equal. symmetry. now apply map_on_top2.
Qed.

Lemma members_shape : forall t l p w, union_members ge (map shape t) l (ss p) w = map_out ss (union_members gp t l p w).
Proof.
  intros t l. induction l as [|x l IH]; intros p w; [reflexivity|]. cbn [union_members].
  unfold ge at 1, gp at 1. cbn [bind]. rewrite Hg1.
  rewrite <- IH. f_equal. unfold set_simple, ss. cbn. f_equal. symmetry. apply map_on_top2. intros s.
  unfold st_set_members, shape_simple. cbn. now rewrite put_shape.
Qed.

Lemma union_shape : forall t l p w, union_attrs ge (map shape t) l (ss p) w = map_out ss (union_attrs gp t l p w).
Proof.
  intros t l. induction l as [|x l IH]; intros p w; [reflexivity|]. cbn [union_attrs]. destruct (String.eqb _ "memberTypes"); [|apply IH].
  rewrite members_shape. destruct (union_members _ _ _ p w) as [q w1| |]; cbn [bind map_out]; [|reflexivity|reflexivity]. apply IH.
Qed.

Lemma enum_shape : forall l st,
  map shape_simple (fold_left (fun st x => if String.eqb (a_local x) "value"
                         then on_top (fun s => st_set_enum (st_enum s ++ [a_value x])%list s) st else st) l st) =
  fold_left (fun st x => if String.eqb (a_local x) "value"
                         then on_top (fun s => st_set_enum (st_enum s ++ [a_value x])%list s) st else st) l (map shape_simple st).
Proof.
  intros l. induction l as [|x l IH]; intros st; [reflexivity|]. cbn [fold_left]. rewrite IH. destruct (String.eqb _ "value"); [|reflexivity].
  f_equal. now apply map_on_top.
Qed.

Lemma start_shape : forall local l p w, okay p ->
  (to_title local = "Element" -> forall c r, p_complex p = c :: r -> ~ In (element_name l) (map el_name (ct_elements c))) ->
  dispatch_start ge local l (ss p) w = map_out ss (dispatch_start gp local l p w).
Proof.
  intros local l p w H Ha. unfold dispatch_start. cbv zeta. change (set_in_element local (ss p)) with (ss (set_in_element local p)).
  assert (Hi : okay (set_in_element local p)) by exact H. clear H.
  change (p_complex p) with (p_complex (set_in_element local p)) in Ha. revert Hi Ha. generalize (set_in_element local p). clear p. intros p Hi Ha.
  assert (Hf := freeze_types lang anything p Hi).
  repeat match goal with |- (if ?b then _ else _) = map_out _ (if ?b then _ else _) => destruct b eqn:?Hb end.
  - unfold on_attribute. rewrite shape_freeze. change (mkAttribute "" "" "" false true) with (shape_attribute (mkAttribute "" "" "" false true)) at 1.
    rewrite attribute_shape. now destruct (attribute_attrs _ _ _ _ w).
  - unfold on_attribute_group. rewrite shape_freeze. change (mkAttrGroup "" "" "" []) with (shape_attrgroup (mkAttrGroup "" "" "" [])) at 1.
    rewrite attrgroup_shape. destruct (attrgroup_attrs _ _ _ _ w) as [a w1| |]; cbn [bind map_out]; [|reflexivity|reflexivity].
    cbn [p_complex ss]. rewrite nonempty_map. destruct (nonempty _); [|reflexivity]. cbn [map_out]. f_equal. unfold set_complex, ss. cbn. f_equal. symmetry.
    apply map_on_top2. intros c. unfold ct_set_attrgroups, shape_complex. cbn. now rewrite map_app.
  - reflexivity.
  - unfold on_choice. destruct (choice_attrs l false w); reflexivity.
  - unfold on_complex_type. cbv zeta. cbn [p_complex ss]. rewrite nonempty_map. destruct (nonempty _).
    + cbn [p_element ss]. destruct (p_element p); [reflexivity|]. cbn [map_out p_heap ss]. rewrite shape_deref. reflexivity.
    + destruct (String.eqb _ ""); [|reflexivity].
      cbn [p_element ss set_current]. destruct (p_element p); [reflexivity|]. cbn [map_out p_heap ss set_current]. rewrite shape_deref. reflexivity.
  - apply on_element_shape. apply Ha. now apply String.eqb_eq.
  - unfold on_enumeration. cbn [map_out]. f_equal. unfold set_simple, ss. cbn. now rewrite enum_shape.
  - unfold on_extension. rewrite shape_freeze. now apply extension_shape.
  - unfold on_group. rewrite shape_freeze. change (mkGroup "" "" [] [] false "") with (shape_group (mkGroup "" "" [] [] false "")) at 1.
    rewrite group_shape. destruct (group_attrs _ _ _ _ w) as [g w1| |]; cbn [bind map_out]; [|reflexivity|reflexivity]. cbv zeta.
    change (choice_plural (ss p)) with (choice_plural p).
    replace (gr_set_plural (gr_plural (shape_group g) || choice_plural p) (shape_group g)) with (shape_group (gr_set_plural (gr_plural g || choice_plural p) g))
      by (now destruct g).
    generalize (gr_set_plural (gr_plural g || choice_plural p) g). intros g'.
    cbn [p_complex ss p_in_group p_group]. rewrite nonempty_map. destruct (nonempty (p_complex p)).
    + cbn [map_out]. f_equal. unfold set_complex, ss. cbn. f_equal. symmetry. apply map_on_top2. intros c. cbv beta.
      change (ct_groups (shape_complex c)) with (map shape_group (ct_groups c)). rewrite in_groups_shape.
      destruct (in_groups g' (ct_groups c)); [reflexivity|]. unfold ct_set_groups, shape_complex. cbn. now rewrite map_app.
    + destruct (p_in_group p =? 0)%Z; [reflexivity|]. destruct (0 <? p_in_group p)%Z; [|reflexivity].
      destruct (p_group p) as [|t r]; [reflexivity|]. cbn [map map_out]. f_equal. unfold set_group, set_in_group, ss. cbn. f_equal.
      f_equal. destruct t. cbn. now rewrite map_app.
  - reflexivity.
  - reflexivity.
  - unfold on_list. cbn [p_simple ss]. rewrite nonempty_map. destruct (nonempty _); [|reflexivity]. rewrite shape_freeze, <- list_shape. f_equal.
    unfold set_simple, ss. cbn. f_equal. symmetry. now apply map_on_top.
  - unfold on_restriction. rewrite shape_freeze. now apply restriction_shape.
  - reflexivity.
  - unfold on_simple_type. cbv zeta. cbn [map_out p_simple ss]. f_equal. unfold set_simple, set_current, ss. cbn. f_equal.
    destruct (p_simple p); [reflexivity|]. reflexivity.
  - unfold on_union. cbv zeta. cbn [p_simple ss set_in_union]. rewrite nonempty_map. destruct (nonempty _); [|reflexivity].
    change (set_in_union true (ss p)) with (ss (set_in_union true p)). rewrite shape_freeze, <- union_shape. f_equal.
    unfold set_simple, ss. cbn. f_equal. symmetry. now apply map_on_top.
  - reflexivity.
Qed.

Lemma two_shape : forall b p w, okay p ->
  bind (base_to_attribute ge b (ss p) w) (base_to_element ge b) = map_out ss (bind (base_to_attribute gp b p w) (base_to_element gp b)).
Proof.
  intros b p w H. rewrite base_attr_shape by exact H.
  assert (Hq := base_to_attribute_good lang anything (fun _ => True) gp gp_good b p w H Logic.I).
  destruct (base_to_attribute gp b p w); cbn [bind map_out]; [|reflexivity|reflexivity]. apply base_elem_shape, Hq.
Qed.

Lemma end_shape : forall local p w, okay p -> dispatch_end ge local (ss p) w = map_out ss (dispatch_end gp local p w).
Proof.
  intros local p w Hi. unfold dispatch_end. cbv zeta.
  repeat match goal with |- (if ?b then _ else _) = map_out _ (if ?b then _ else _) => destruct b end.
  - unfold end_attribute. cbn [p_attribute ss p_attrgroup p_complex]. destruct (p_attribute p) as [|a r]; [reflexivity|]. cbn [map].
    rewrite !nonempty_map. destruct (nonempty _).
    { cbn [map_out]. f_equal. unfold set_attrgroup, set_attribute, ss. cbn. f_equal. symmetry. apply map_on_top2. intros g.
      unfold ag_set_attributes, shape_attrgroup. cbn. now rewrite map_app. }
    destruct (nonempty _).
    { cbn [map_out]. f_equal. unfold set_complex, set_attribute, ss. cbn. f_equal. symmetry. apply map_on_top2. intros g.
      unfold ct_set_attributes, shape_complex. cbn. now rewrite map_app. }
    cbn [map_out]. rewrite ss_append. reflexivity.
  - unfold end_attribute_group. cbn [p_attrgroup ss]. destruct (p_attrgroup p) as [|a r]; [reflexivity|]. cbn [map map_out]. f_equal.
    unfold set_in_ag, set_current, set_attrgroup, append_tree, set_tree, ss. cbn. now rewrite map_app.
  - reflexivity.
  - unfold end_complex_type. cbn [map_out]. f_equal. unfold set_current, set_complex, append_tree, set_tree, ss. cbn.
    rewrite map_app, map_tl. cbn [map]. rewrite (shape_pop _ shape_complex) by reflexivity. reflexivity.
  - unfold end_element. cbn [p_element p_complex ss]. destruct (p_element p); [reflexivity|]. rewrite nonempty_map.
    destruct (nonempty _); [reflexivity|]. cbn [map_out]. f_equal. unfold set_element, append_tree, set_tree, ss. cbn. now rewrite map_app.
  - now apply two_shape.
  - now apply base_attr_shape.
  - unfold end_group. cbv zeta. cbn [map_out]. f_equal. cbn [p_current ss p_in_group].
    assert (H : forall q, (if String.eqb local (p_current (ss q)) then set_in_group (p_in_group (ss q) - 1)%Z (ss q) else ss q) =
       ss (if String.eqb local (p_current q) then set_in_group (p_in_group q - 1)%Z q else q)).
    { intros q. cbn [p_current ss p_in_group]. now destruct (String.eqb local (p_current q)). }
    rewrite <- H. destruct (_ && _); [|reflexivity].
    replace (set_in_group _ (set_current "" (set_group (tl (p_group (ss p))) _))) with
      (ss (set_in_group (p_in_group p - 1)%Z (set_current "" (set_group (tl (p_group p)) (append_tree (pop_node PGroup (p_group p)) p)))));
      [reflexivity|].
    unfold set_in_group, set_current, set_group, append_tree, set_tree, ss. cbn. rewrite map_app, map_tl. cbn [map].
    now rewrite (shape_pop _ shape_group) by reflexivity.
  - now apply two_shape.
  - unfold end_restriction. rewrite base_attr_shape by exact Hi. destruct (base_to_attribute gp true p w) as [q w1| |]; cbn [bind map_out]; [|reflexivity|reflexivity].
    cbn [p_element ss]. destruct (p_element q); [reflexivity|]. cbn [map_out]. change (p_heap (ss q)) with (map shape_element (p_heap q)). rewrite shape_deref. generalize (deref (p_heap q) n). intros e.
    f_equal. unfold set_complex, ss. cbn. f_equal. symmetry.
    apply map_on_top2. intros c. unfold ct_set_elements, shape_complex. cbn. now rewrite replace_last_map.
  - unfold end_simple_type. cbv zeta.
    assert (H : forall q, Ret (if String.eqb local (p_current (ss q)) && negb (p_in_union (ss q))
         then set_current "" (set_simple (tl (p_simple (ss q))) (append_tree (pop_node PSimple (p_simple (ss q))) (ss q)))
         else ss q) w = map_out ss
         (Ret (if String.eqb local (p_current q) && negb (p_in_union q)
         then set_current "" (set_simple (tl (p_simple q)) (append_tree (pop_node PSimple (p_simple q)) q))
         else q) w)).
    { intros q. cbn [p_current p_in_union ss map_out]. f_equal. destruct (_ && _); [|reflexivity].
      unfold set_current, set_simple, append_tree, set_tree, ss. cbn. rewrite map_app, map_tl. cbn [map].
      now rewrite (shape_pop _ shape_simple) by reflexivity. }
    assert (Hq : ss (set_current "" (set_complex (tl (p_complex p)) (append_tree (pop_node PComplex (p_complex p)) p))) =
       set_current "" (set_complex (tl (p_complex (ss p))) (append_tree (pop_node PComplex (p_complex (ss p))) (ss p)))).
    { unfold set_current, set_complex, append_tree, set_tree, ss. cbn. rewrite map_app, map_tl. cbn [map].
      now rewrite (shape_pop _ shape_complex) by reflexivity. }
    assert (Hl : Nat.eqb (length (p_complex (ss p))) 1 = Nat.eqb (length (p_complex p)) 1) by (cbn; now rewrite map_length).
    assert (Hgo : Ret (if String.eqb local (p_current
               (if String.eqb local (p_current (ss p)) && Nat.eqb (length (p_complex (ss p))) 1
                then set_current "" (set_complex (tl (p_complex (ss p))) (append_tree (pop_node PComplex (p_complex (ss p))) (ss p))) else ss p))
             && negb (p_in_union
               (if String.eqb local (p_current (ss p)) && Nat.eqb (length (p_complex (ss p))) 1
                then set_current "" (set_complex (tl (p_complex (ss p))) (append_tree (pop_node PComplex (p_complex (ss p))) (ss p))) else ss p))
           then set_current "" (set_simple (tl (p_simple
               (if String.eqb local (p_current (ss p)) && Nat.eqb (length (p_complex (ss p))) 1
                then set_current "" (set_complex (tl (p_complex (ss p))) (append_tree (pop_node PComplex (p_complex (ss p))) (ss p))) else ss p)))
              (append_tree (pop_node PSimple (p_simple
               (if String.eqb local (p_current (ss p)) && Nat.eqb (length (p_complex (ss p))) 1
                then set_current "" (set_complex (tl (p_complex (ss p))) (append_tree (pop_node PComplex (p_complex (ss p))) (ss p))) else ss p)))
               (if String.eqb local (p_current (ss p)) && Nat.eqb (length (p_complex (ss p))) 1
                then set_current "" (set_complex (tl (p_complex (ss p))) (append_tree (pop_node PComplex (p_complex (ss p))) (ss p))) else ss p)))
           else if String.eqb local (p_current (ss p)) && Nat.eqb (length (p_complex (ss p))) 1
                then set_current "" (set_complex (tl (p_complex (ss p))) (append_tree (pop_node PComplex (p_complex (ss p))) (ss p))) else ss p) w =
        map_out ss (Ret (if String.eqb local (p_current
               (if String.eqb local (p_current p) && Nat.eqb (length (p_complex p)) 1
                then set_current "" (set_complex (tl (p_complex p)) (append_tree (pop_node PComplex (p_complex p)) p)) else p))
             && negb (p_in_union
               (if String.eqb local (p_current p) && Nat.eqb (length (p_complex p)) 1
                then set_current "" (set_complex (tl (p_complex p)) (append_tree (pop_node PComplex (p_complex p)) p)) else p))
           then set_current "" (set_simple (tl (p_simple
               (if String.eqb local (p_current p) && Nat.eqb (length (p_complex p)) 1
                then set_current "" (set_complex (tl (p_complex p)) (append_tree (pop_node PComplex (p_complex p)) p)) else p)))
              (append_tree (pop_node PSimple (p_simple
               (if String.eqb local (p_current p) && Nat.eqb (length (p_complex p)) 1
                then set_current "" (set_complex (tl (p_complex p)) (append_tree (pop_node PComplex (p_complex p)) p)) else p)))
               (if String.eqb local (p_current p) && Nat.eqb (length (p_complex p)) 1
                then set_current "" (set_complex (tl (p_complex p)) (append_tree (pop_node PComplex (p_complex p)) p)) else p)))
           else if String.eqb local (p_current p) && Nat.eqb (length (p_complex p)) 1
                then set_current "" (set_complex (tl (p_complex p)) (append_tree (pop_node PComplex (p_complex p)) p)) else p) w)).
    { rewrite Hl, <- Hq. change (p_current (ss p)) with (p_current p).
      destruct (String.eqb local (p_current p) && Nat.eqb (length (p_complex p)) 1); apply H. }
    cbn [p_simple p_attribute ss].
    destruct (p_simple p) as [|s r] eqn:Hs; [exact Hgo|]. destruct (p_attribute p) as [|a r'] eqn:Ha; [exact Hgo|]. reflexivity.
  - unfold end_union. cbn [p_simple ss map_out]. rewrite nonempty_map. destruct (nonempty _); reflexivity.
  - now apply base_elem_shape.
  - reflexivity.
Qed.

End Shape.
