(** Character data influences nothing but documentation (C53). *)

From Coq Require Import String Ascii List Arith NArith ZArith Bool Lia.
From Verif Require Import GoStr GoPath Utf8 Base SpecStr Utils GenGo GenC GenJava GenRust GenTS World Handlers Parser
  StrLemmas StrProofs SpecDoc DocLemmas HandlerProofs DocProofs DocProofs2 PathProofs Reify ParserProofs Effects SpecParse SimProofs ParseFacts
  SpecGen SpecBare.
Import ListNotations.
Local Open Scope string_scope.

Section Bare.
Context {E : Env}.

Definition bare_node (n : pnode) : pnode := match n with PN p => PN (bare p) | PRef i => PRef i end.

Definition bs (p : PState) : PState :=
  mkP (map bare_node (p_tree p)) (map bare_element (p_heap p)) (p_in_element p) (p_current p) (p_in_group p) (p_in_union p) (p_in_ag p)
    (map bare_simple (p_simple p)) (map bare_complex (p_complex p)) (p_element p) (map bare_attribute (p_attribute p))
    (map bare_group (p_group p)) (map bare_attrgroup (p_attrgroup p)) (p_choice p).

Lemma bare_deref : forall h i, deref (map bare_element h) i = bare_element (deref h i).
Proof. intros h i. unfold deref. change zero_element with (bare_element zero_element) at 1. apply map_nth. Qed.

Lemma bare_freeze : forall p, freeze (bs p) = map bare (freeze p).
Proof.
  intros p. unfold freeze. cbn. rewrite !map_map. apply map_ext. intros [n|i]; [reflexivity|]. cbn. now rewrite bare_deref.
Qed.

Lemma bare_base : forall n t, get_base n (map bare t) = get_base n t.
Proof. intros n t. induction t as [|[|v|v|v|v|v|v] t IH]; cbn; try assumption; try reflexivity; now rewrite IH. Qed.

Lemma map_on_top : forall A (b f : A -> A) st, (forall x, b (f x) = f (b x)) -> map b (on_top f st) = on_top f (map b st).
Proof. intros A b f [|x st] H; [reflexivity|]. cbn. now rewrite H. Qed.

Lemma map_on_top2 : forall A (b f g : A -> A) st, (forall x, b (f x) = g (b x)) -> map b (on_top f st) = on_top g (map b st).
Proof. intros A b f g [|x st] H; [reflexivity|]. cbn. now rewrite H. Qed.

Lemma map_update : forall A (b f : A -> A) i l, (forall x, b (f x) = f (b x)) -> map b (update_nth i f l) = update_nth i f (map b l).
Proof. intros A b f i l H. revert i. induction l as [|x l IH]; intros [|i]; cbn; try reflexivity; [now rewrite H|now rewrite IH]. Qed.

Lemma nonempty_map : forall A B (f : A -> B) l, nonempty (map f l) = nonempty l.
Proof. now intros A B f []. Qed.

Variable gvt : string -> list proto -> World -> out string.
Hypothesis Hg : forall v t w, gvt v (map bare t) w = gvt v t w.

Lemma attribute_bare : forall t l a w, attribute_attrs gvt (map bare t) l (bare_attribute a) w = map_out bare_attribute (attribute_attrs gvt t l a w).
Proof.
  intros t l. induction l as [|x l IH]; intros a w; [reflexivity|]. cbn [attribute_attrs]. cbv zeta.
  destruct (String.eqb _ "ref").
  { rewrite Hg. destruct (gvt _ _ _) as [s w1| |]; cbn [bind map_out]; [|reflexivity|reflexivity]. apply (IH (at_set_type s (at_set_name (a_value x) a)) w1). }
  destruct (String.eqb _ "name"); [apply (IH (at_set_name (a_value x) a) w)|].
  destruct (String.eqb _ "type").
  { rewrite Hg. destruct (gvt _ _ _) as [s w1| |]; cbn [bind map_out]; [|reflexivity|reflexivity]. apply (IH (at_set_type s a) w1). }
  destruct (String.eqb _ "use"); [|apply IH].
  destruct (String.eqb _ "required"); [apply (IH (at_set_optional false a) w)|apply IH].
Qed.

Lemma attrgroup_bare : forall t l a w, attrgroup_attrs gvt (map bare t) l (bare_attrgroup a) w = map_out bare_attrgroup (attrgroup_attrs gvt t l a w).
Proof.
  intros t l. induction l as [|x l IH]; intros a w; [reflexivity|]. cbn [attrgroup_attrs]. cbv zeta.
  destruct (String.eqb _ "name"); [apply (IH (ag_set_name (a_value x) a) w)|].
  destruct (String.eqb _ "ref"); [|apply IH].
  rewrite Hg. destruct (gvt _ _ _) as [s w1| |]; cbn [bind map_out]; [|reflexivity|reflexivity]. apply (IH (ag_set_ref s (ag_set_name (a_value x) a)) w1).
Qed.

Lemma element_bare : forall t l e w, element_attrs gvt (map bare t) l (bare_element e) w = map_out bare_element (element_attrs gvt t l e w).
Proof.
  intros t l. induction l as [|x l IH]; intros e w; [reflexivity|]. cbn [element_attrs]. cbv zeta.
  destruct (String.eqb _ "ref").
  { rewrite Hg. destruct (gvt _ _ _) as [s w1| |]; cbn [bind map_out]; [|reflexivity|reflexivity]. apply (IH (el_set_type s (el_set_name (a_value x) e)) w1). }
  destruct (String.eqb _ "name"); [apply (IH (el_set_name (a_value x) e) w)|].
  destruct (String.eqb _ "type").
  { rewrite Hg. destruct (gvt _ _ _) as [s w1| |]; cbn [bind map_out]; [|reflexivity|reflexivity]. apply (IH (el_set_type s e) w1). }
  destruct (String.eqb _ "maxOccurs").
  { destruct (max_occurs _) as [[]|]; [apply (IH (el_set_plural true e) w)|apply IH|reflexivity]. }
  destruct (String.eqb _ "unbounded"); [|apply IH].
  destruct (String.eqb _ "0"); [apply IH|apply (IH (el_set_plural true e) w)].
Qed.

Lemma group_bare : forall t l g w, group_attrs gvt (map bare t) l (bare_group g) w = map_out bare_group (group_attrs gvt t l g w).
Proof.
  intros t l. induction l as [|x l IH]; intros g w; [reflexivity|]. cbn [group_attrs]. cbv zeta.
  destruct (String.eqb _ "name").
  { rewrite <- IH. now destruct g. }
  destruct (String.eqb _ "ref").
  { rewrite Hg. destruct (gvt _ _ _) as [s w1| |]; cbn [bind map_out]; [|reflexivity|reflexivity]. rewrite <- IH. now destruct g. }
  destruct (String.eqb _ "maxOccurs"); [|apply IH].
  destruct (String.eqb _ "0"); [apply IH|]. rewrite <- IH. now destruct g.
Qed.

Lemma merge_bare : forall e l, merge_element (bare_element e) (map bare_element l) = option_map (map bare_element) (merge_element e l).
Proof.
  intros e l. induction l as [|x l IH]; [reflexivity|]. cbn [merge_element map].
  change (el_name (bare_element e)) with (el_name e). change (el_name (bare_element x)) with (el_name x).
  change (el_type (bare_element e)) with (el_type e). change (el_type (bare_element x)) with (el_type x).
  destruct (String.eqb (el_name e) (el_name x)).
  - destruct (String.eqb (el_type x) (el_type e)); reflexivity.
  - rewrite IH. destruct (merge_element e l); reflexivity.
Qed.

Lemma add_bare : forall e l, add_element (bare_element e) (map bare_element l) = map bare_element (add_element e l).
Proof.
  intros e l. unfold add_element. rewrite merge_bare. destruct (merge_element e l); cbn; [reflexivity|]. now rewrite map_app.
Qed.

Lemma place_bare : forall i p w, place_element i (bs p) w = map_out bs (place_element i p w).
Proof.
  intros i p w. unfold place_element. cbv zeta. cbn [p_heap set_heap bs p_complex p_group p_in_group].
  change (choice_plural (bs p)) with (choice_plural p).
  set (f := fun e => el_set_plural (el_plural e || choice_plural p) e).
  assert (Hf : map bare_element (update_nth i f (p_heap p)) = update_nth i f (map bare_element (p_heap p))) by (apply map_update; reflexivity).
  rewrite <- Hf, bare_deref, nonempty_map.
  destruct (nonempty (p_complex p)).
  - cbn [map_out]. unfold bs at 2. cbn. f_equal. unfold set_complex, set_heap, bs. cbn. f_equal. symmetry.
    apply map_on_top2. intros c. unfold ct_set_elements, bare_complex. cbn. now rewrite add_bare.
  - destruct (0 <? p_in_group p)%Z.
    + cbn [map_out]. f_equal. unfold set_group, set_heap, bs. cbn. f_equal. symmetry.
      apply map_on_top2. intros c. destruct c. cbn. now rewrite map_app.
    + reflexivity.
Qed.

Lemma on_element_bare : forall l p w, on_element gvt l (bs p) w = map_out bs (on_element gvt l p w).
Proof.
  intros l p w. unfold on_element. rewrite bare_freeze. change zero_element with (bare_element zero_element) at 1.
  rewrite element_bare. destruct (element_attrs gvt (freeze p) l zero_element w) as [e w1| |]; cbn [bind map_out]; [|reflexivity|reflexivity].
  cbv zeta. change (el_type (bare_element e)) with (el_type e). change (el_name (bare_element e)) with (el_name e).
  cbn [p_heap bs]. rewrite map_length. destruct (String.eqb (el_type e) "").
  - rewrite Hg. destruct (gvt _ _ _) as [t w2| |]; cbn [bind map_out]; [|reflexivity|reflexivity].
    rewrite <- place_bare. f_equal. unfold push_element, set_heap, set_element, bs. cbn. now rewrite map_app.
  - rewrite <- place_bare. f_equal. unfold set_heap, bs. cbn. now rewrite map_app.
Qed.

Lemma bare_pop : forall A (b : A -> A) mk (st : list A), (forall x, bare (mk x) = mk (b x)) ->
  bare_node (pop_node mk st) = pop_node mk (map b st).
Proof. intros A b mk [|x st] H; [reflexivity|]. cbn. now rewrite H. Qed.

Lemma bs_append : forall n p, bs (append_tree n p) = append_tree (bare_node n) (bs p).
Proof. intros n p. unfold append_tree, set_tree, bs. cbn. now rewrite map_app. Qed.

Lemma map_tl : forall A B (f : A -> B) l, map f (tl l) = tl (map f l).
Proof. now intros A B f []. Qed.

Lemma base_attr_bare : forall b p w, base_to_attribute gvt b (bs p) w = map_out bs (base_to_attribute gvt b p w).
Proof.
  intros b p w. unfold base_to_attribute. rewrite bare_freeze. cbn [p_attribute p_simple bs].
  destruct (p_attribute p) as [|a r] eqn:Ha; [reflexivity|]. destruct (p_simple p) as [|s r'] eqn:Hs; [reflexivity|]. cbn [map].
  rewrite Hg. change (st_base (bare_simple s)) with (st_base s). destruct (gvt _ _ w) as [t w1| |]; cbn [bind map_out]; [|reflexivity|reflexivity].
  unfold set_current, set_simple, set_attribute, bs. cbn. destruct b; reflexivity.
Qed.

Lemma base_elem_bare : forall b p w, base_to_element gvt b (bs p) w = map_out bs (base_to_element gvt b p w).
Proof.
  intros b p w. unfold base_to_element. rewrite bare_freeze. cbn [p_element p_simple bs].
  destruct (p_simple p) as [|s r'] eqn:Hs; [reflexivity|]. destruct (p_element p) as [|i r] eqn:He; [reflexivity|]. cbn [map].
  rewrite Hg. change (st_base (bare_simple s)) with (st_base s). destruct (gvt _ _ w) as [t w1| |]; cbn [bind map_out]; [|reflexivity|reflexivity].
  unfold set_current, set_simple, on_top_element, set_heap, bs. cbn. rewrite He. cbn. rewrite map_update by reflexivity. destruct b; reflexivity.
Qed.

Lemma replace_last_map : forall A B (f : A -> B) e l, map f (replace_last e l) = replace_last (f e) (map f l).
Proof.
  intros A B f e l. induction l as [|x l IH]; [reflexivity|]. destruct l as [|y l]; [reflexivity|].
  cbn [replace_last map] in *. now rewrite IH.
Qed.

Lemma in_groups_bare : forall g l, in_groups (bare_group g) (map bare_group l) = in_groups g l.
Proof.
  intros g l. unfold in_groups. induction l as [|x l IH]; [reflexivity|]. cbn [map existsb]. rewrite IH. now destruct g, x.
Qed.

Lemma extension_bare : forall t l p w, extension_attrs gvt (map bare t) l (bs p) w = map_out bs (extension_attrs gvt t l p w).
Proof.
  intros t l. induction l as [|x l IH]; intros p w; [reflexivity|]. cbn [extension_attrs]. destruct (String.eqb _ "base"); [|apply IH].
  rewrite Hg. destruct (gvt _ _ w) as [s w1| |]; cbn [bind map_out]; [|reflexivity|reflexivity].
  cbn [p_complex bs]. rewrite nonempty_map. destruct (nonempty _); [|apply IH].
  rewrite Hg. destruct (gvt _ _ w1) as [s2 w2| |]; cbn [bind map_out]; [|reflexivity|reflexivity].
  rewrite <- IH. f_equal. unfold set_complex, bs. cbn. f_equal. symmetry. apply map_on_top. intros c.
  cbn. destruct (String.eqb (ct_name c) ""); reflexivity.
Qed.

Lemma restriction_bare : forall t l p w, restriction_attrs gvt (map bare t) l (bs p) w = map_out bs (restriction_attrs gvt t l p w).
Proof.
  intros t l. induction l as [|x l IH]; intros p w; [reflexivity|]. cbn [restriction_attrs]. destruct (String.eqb _ "base"); [|apply IH].
  rewrite Hg. destruct (gvt _ _ w) as [s w1| |]; cbn [bind map_out]; [|reflexivity|reflexivity].
  cbn [p_simple bs]. rewrite nonempty_map. destruct (nonempty _); [|apply IH].
  rewrite Hg. destruct (gvt _ _ w1) as [s2 w2| |]; cbn [bind map_out]; [|reflexivity|reflexivity].
  rewrite <- IH. f_equal. unfold set_simple, bs. cbn. f_equal. symmetry. apply map_on_top. intros c.
  cbn. destruct (String.eqb (st_name c) ""); reflexivity.
Qed.

Lemma list_bare : forall t l p w, list_attrs gvt (map bare t) l (bs p) w = map_out bs (list_attrs gvt t l p w).
Proof.
  intros t l. induction l as [|x l IH]; intros p w; [reflexivity|]. cbn [list_attrs]. destruct (String.eqb _ "itemType"); [|apply IH].
  rewrite Hg. destruct (gvt _ _ w) as [s w1| |]; cbn [bind map_out]; [|reflexivity|reflexivity].
  rewrite <- IH. f_equal. unfold set_simple, bs. cbn. f_equal. symmetry. now apply map_on_top.
Qed.

Lemma members_bare : forall t l p w, union_members gvt (map bare t) l (bs p) w = map_out bs (union_members gvt t l p w).
Proof.
  intros t l. induction l as [|x l IH]; intros p w; [reflexivity|]. cbn [union_members].
  rewrite Hg. destruct (gvt _ _ w) as [s w1| |]; cbn [bind map_out]; [|reflexivity|reflexivity].
  rewrite <- IH. f_equal. unfold set_simple, bs. cbn. f_equal. symmetry. now apply map_on_top.
Qed.

Lemma union_bare : forall t l p w, union_attrs gvt (map bare t) l (bs p) w = map_out bs (union_attrs gvt t l p w).
Proof.
  intros t l. induction l as [|x l IH]; intros p w; [reflexivity|]. cbn [union_attrs]. destruct (String.eqb _ "memberTypes"); [|apply IH].
  rewrite members_bare. destruct (union_members _ _ _ p w) as [q w1| |]; cbn [bind map_out]; [|reflexivity|reflexivity]. apply IH.
Qed.

Lemma enum_bare : forall l st,
  map bare_simple (fold_left (fun st x => if String.eqb (a_local x) "value"
                         then on_top (fun s => st_set_enum (st_enum s ++ [a_value x])%list s) st else st) l st) =
  fold_left (fun st x => if String.eqb (a_local x) "value"
                         then on_top (fun s => st_set_enum (st_enum s ++ [a_value x])%list s) st else st) l (map bare_simple st).
Proof.
  intros l. induction l as [|x l IH]; intros st; [reflexivity|]. cbn [fold_left]. rewrite IH. destruct (String.eqb _ "value"); [|reflexivity].
  f_equal. now apply map_on_top.
Qed.

Lemma start_bare : forall local l p w, dispatch_start gvt local l (bs p) w = map_out bs (dispatch_start gvt local l p w).
Proof.
  intros local l p w. unfold dispatch_start. cbv zeta. change (set_in_element local (bs p)) with (bs (set_in_element local p)).
  generalize (set_in_element local p). clear p. intros p.
  repeat match goal with |- (if ?b then _ else _) = map_out _ (if ?b then _ else _) => destruct b end.
  - unfold on_attribute. rewrite bare_freeze. change (mkAttribute "" "" "" false true) with (bare_attribute (mkAttribute "" "" "" false true)) at 1.
    rewrite attribute_bare. now destruct (attribute_attrs _ _ _ _ w).
  - unfold on_attribute_group. rewrite bare_freeze. change (mkAttrGroup "" "" "" []) with (bare_attrgroup (mkAttrGroup "" "" "" [])) at 1.
    rewrite attrgroup_bare. destruct (attrgroup_attrs _ _ _ _ w) as [a w1| |]; cbn [bind map_out]; [|reflexivity|reflexivity].
    cbn [p_complex bs]. rewrite nonempty_map. destruct (nonempty _); [|reflexivity]. cbn [map_out]. f_equal. unfold set_complex, bs. cbn. f_equal. symmetry.
    apply map_on_top2. intros c. unfold ct_set_attrgroups, bare_complex. cbn. now rewrite map_app.
  - reflexivity.
  - unfold on_choice. destruct (choice_attrs l false w); reflexivity.
  - unfold on_complex_type. cbv zeta. cbn [p_complex bs]. rewrite nonempty_map. destruct (nonempty _).
    + cbn [p_element bs]. destruct (p_element p); [reflexivity|]. cbn [map_out p_heap bs]. rewrite bare_deref. reflexivity.
    + destruct (String.eqb _ ""); [|reflexivity].
      cbn [p_element bs set_current]. destruct (p_element p); [reflexivity|]. cbn [map_out p_heap bs set_current]. rewrite bare_deref. reflexivity.
  - apply on_element_bare.
  - unfold on_enumeration. cbn [map_out]. f_equal. unfold set_simple, bs. cbn. now rewrite enum_bare.
  - unfold on_extension. rewrite bare_freeze. apply extension_bare.
  - unfold on_group. rewrite bare_freeze. change (mkGroup "" "" [] [] false "") with (bare_group (mkGroup "" "" [] [] false "")) at 1.
    rewrite group_bare. destruct (group_attrs _ _ _ _ w) as [g w1| |]; cbn [bind map_out]; [|reflexivity|reflexivity]. cbv zeta.
    change (choice_plural (bs p)) with (choice_plural p).
    replace (gr_set_plural (gr_plural (bare_group g) || choice_plural p) (bare_group g)) with (bare_group (gr_set_plural (gr_plural g || choice_plural p) g))
      by (now destruct g).
    generalize (gr_set_plural (gr_plural g || choice_plural p) g). intros g'.
    cbn [p_complex bs p_in_group p_group]. rewrite nonempty_map. destruct (nonempty (p_complex p)).
    + cbn [map_out]. f_equal. unfold set_complex, bs. cbn. f_equal. symmetry. apply map_on_top2. intros c. cbv beta.
      change (ct_groups (bare_complex c)) with (map bare_group (ct_groups c)). rewrite in_groups_bare.
      destruct (in_groups g' (ct_groups c)); [reflexivity|]. unfold ct_set_groups, bare_complex. cbn. now rewrite map_app.
    + destruct (p_in_group p =? 0)%Z; [reflexivity|]. destruct (0 <? p_in_group p)%Z; [|reflexivity].
      destruct (p_group p) as [|t r]; [reflexivity|]. cbn [map map_out]. f_equal. unfold set_group, set_in_group, bs. cbn. f_equal.
      f_equal. destruct t. cbn. now rewrite map_app.
  - reflexivity.
  - reflexivity.
  - unfold on_list. cbn [p_simple bs]. rewrite nonempty_map. destruct (nonempty _); [|reflexivity]. rewrite bare_freeze, <- list_bare. f_equal.
    unfold set_simple, bs. cbn. f_equal. symmetry. now apply map_on_top.
  - unfold on_restriction. rewrite bare_freeze. apply restriction_bare.
  - reflexivity.
  - unfold on_simple_type. cbv zeta. cbn [map_out p_simple bs]. f_equal. unfold set_simple, set_current, bs. cbn. f_equal.
    destruct (p_simple p); [reflexivity|]. reflexivity.
  - unfold on_union. cbv zeta. cbn [p_simple bs set_in_union]. rewrite nonempty_map. destruct (nonempty _); [|reflexivity].
    change (set_in_union true (bs p)) with (bs (set_in_union true p)). rewrite bare_freeze, <- union_bare. f_equal.
    unfold set_simple, bs. cbn. f_equal. symmetry. now apply map_on_top.
  - reflexivity.
Qed.

Lemma end_bare : forall local p w, dispatch_end gvt local (bs p) w = map_out bs (dispatch_end gvt local p w).
Proof.
  intros local p w. unfold dispatch_end. cbv zeta.
  repeat match goal with |- (if ?b then _ else _) = map_out _ (if ?b then _ else _) => destruct b end.
  - unfold end_attribute. cbn [p_attribute bs p_attrgroup p_complex]. destruct (p_attribute p) as [|a r]; [reflexivity|]. cbn [map].
    rewrite !nonempty_map. destruct (nonempty _).
    { cbn [map_out]. f_equal. unfold set_attrgroup, set_attribute, bs. cbn. f_equal. symmetry. apply map_on_top2. intros g.
      unfold ag_set_attributes, bare_attrgroup. cbn. now rewrite map_app. }
    destruct (nonempty _).
    { cbn [map_out]. f_equal. unfold set_complex, set_attribute, bs. cbn. f_equal. symmetry. apply map_on_top2. intros g.
      unfold ct_set_attributes, bare_complex. cbn. now rewrite map_app. }
    cbn [map_out]. rewrite bs_append. reflexivity.
  - unfold end_attribute_group. cbn [p_attrgroup bs]. destruct (p_attrgroup p) as [|a r]; [reflexivity|]. cbn [map map_out]. f_equal.
    unfold set_in_ag, set_current, set_attrgroup, append_tree, set_tree, bs. cbn. now rewrite map_app.
  - reflexivity.
  - unfold end_complex_type. cbn [map_out]. f_equal. unfold set_current, set_complex, append_tree, set_tree, bs. cbn.
    rewrite map_app, map_tl. cbn [map]. rewrite (bare_pop _ bare_complex) by reflexivity. reflexivity.
  - unfold end_element. cbn [p_element p_complex bs]. destruct (p_element p); [reflexivity|]. rewrite nonempty_map.
    destruct (nonempty _); [reflexivity|]. cbn [map_out]. f_equal. unfold set_element, append_tree, set_tree, bs. cbn. now rewrite map_app.
  - unfold end_enumeration. rewrite base_attr_bare. destruct (base_to_attribute gvt false p w); cbn [bind map_out]; [|reflexivity|reflexivity].
    apply base_elem_bare.
  - apply base_attr_bare.
  - unfold end_group. cbv zeta. cbn [map_out]. f_equal. cbn [p_current bs p_in_group].
    assert (H : forall q, (if String.eqb local (p_current (bs q)) then set_in_group (p_in_group (bs q) - 1)%Z (bs q) else bs q) =
       bs (if String.eqb local (p_current q) then set_in_group (p_in_group q - 1)%Z q else q)).
    { intros q. cbn [p_current bs p_in_group]. now destruct (String.eqb local (p_current q)). }
    rewrite <- H. destruct (_ && _); [|reflexivity].
    replace (set_in_group _ (set_current "" (set_group (tl (p_group (bs p))) _))) with
      (bs (set_in_group (p_in_group p - 1)%Z (set_current "" (set_group (tl (p_group p)) (append_tree (pop_node PGroup (p_group p)) p)))));
      [reflexivity|].
    unfold set_in_group, set_current, set_group, append_tree, set_tree, bs. cbn. rewrite map_app, map_tl. cbn [map].
    now rewrite (bare_pop _ bare_group) by reflexivity.
  - unfold end_pattern. rewrite base_attr_bare. destruct (base_to_attribute gvt true p w); cbn [bind map_out]; [|reflexivity|reflexivity].
    apply base_elem_bare.
  - unfold end_restriction. rewrite base_attr_bare. destruct (base_to_attribute gvt true p w) as [q w1| |]; cbn [bind map_out]; [|reflexivity|reflexivity].
    cbn [p_element bs]. destruct (p_element q); [reflexivity|]. cbn [map_out]. change (p_heap (bs q)) with (map bare_element (p_heap q)). rewrite bare_deref. generalize (deref (p_heap q) n). intros e.
    f_equal. unfold set_complex, bs. cbn. f_equal. symmetry.
    apply map_on_top2. intros c. unfold ct_set_elements, bare_complex. cbn. now rewrite replace_last_map.
  - unfold end_simple_type. cbv zeta.
    assert (H : forall q, Ret (if String.eqb local (p_current (bs q)) && negb (p_in_union (bs q))
         then set_current "" (set_simple (tl (p_simple (bs q))) (append_tree (pop_node PSimple (p_simple (bs q))) (bs q)))
         else bs q) w = map_out bs
         (Ret (if String.eqb local (p_current q) && negb (p_in_union q)
         then set_current "" (set_simple (tl (p_simple q)) (append_tree (pop_node PSimple (p_simple q)) q))
         else q) w)).
    { intros q. cbn [p_current p_in_union bs map_out]. f_equal. destruct (_ && _); [|reflexivity].
      unfold set_current, set_simple, append_tree, set_tree, bs. cbn. rewrite map_app, map_tl. cbn [map].
      now rewrite (bare_pop _ bare_simple) by reflexivity. }
    assert (Hq : bs (set_current "" (set_complex (tl (p_complex p)) (append_tree (pop_node PComplex (p_complex p)) p))) =
       set_current "" (set_complex (tl (p_complex (bs p))) (append_tree (pop_node PComplex (p_complex (bs p))) (bs p)))).
    { unfold set_current, set_complex, append_tree, set_tree, bs. cbn. rewrite map_app, map_tl. cbn [map].
      now rewrite (bare_pop _ bare_complex) by reflexivity. }
    assert (Hl : Nat.eqb (length (p_complex (bs p))) 1 = Nat.eqb (length (p_complex p)) 1) by (cbn; now rewrite map_length).
    assert (Hgo : Ret (if String.eqb local (p_current
               (if String.eqb local (p_current (bs p)) && Nat.eqb (length (p_complex (bs p))) 1
                then set_current "" (set_complex (tl (p_complex (bs p))) (append_tree (pop_node PComplex (p_complex (bs p))) (bs p))) else bs p))
             && negb (p_in_union
               (if String.eqb local (p_current (bs p)) && Nat.eqb (length (p_complex (bs p))) 1
                then set_current "" (set_complex (tl (p_complex (bs p))) (append_tree (pop_node PComplex (p_complex (bs p))) (bs p))) else bs p))
           then set_current "" (set_simple (tl (p_simple
               (if String.eqb local (p_current (bs p)) && Nat.eqb (length (p_complex (bs p))) 1
                then set_current "" (set_complex (tl (p_complex (bs p))) (append_tree (pop_node PComplex (p_complex (bs p))) (bs p))) else bs p)))
              (append_tree (pop_node PSimple (p_simple
               (if String.eqb local (p_current (bs p)) && Nat.eqb (length (p_complex (bs p))) 1
                then set_current "" (set_complex (tl (p_complex (bs p))) (append_tree (pop_node PComplex (p_complex (bs p))) (bs p))) else bs p)))
               (if String.eqb local (p_current (bs p)) && Nat.eqb (length (p_complex (bs p))) 1
                then set_current "" (set_complex (tl (p_complex (bs p))) (append_tree (pop_node PComplex (p_complex (bs p))) (bs p))) else bs p)))
           else if String.eqb local (p_current (bs p)) && Nat.eqb (length (p_complex (bs p))) 1
                then set_current "" (set_complex (tl (p_complex (bs p))) (append_tree (pop_node PComplex (p_complex (bs p))) (bs p))) else bs p) w =
        map_out bs (Ret (if String.eqb local (p_current
               (if String.eqb local (p_current p) && Nat.eqb (length (p_complex p)) 1
                then set_current "" (set_complex (tl (p_complex p)) (append_tree (pop_node PComplex (p_complex p)) p)) else p))
             && negb (p_in_union
               (if String.eqb local (p_current p) && Nat.eqb (length (p_complex p)) 1
                then set_current "" (set_complex (tl (p_complex p)) (append_tree (pop_node PComplex (p_complex p)) p)) else p))
           then set_current "" (set_simple (tl (p_simple
               (if String.eqb local (p_current p) && Nat.eqb (length (p_complex p)) 1
                then set_current "" (set_complex (tl (p_complex p)) (append_tree (pop_node PComplex (p_complex p)) p)) else p)))
              (append_tree (pop_node PSimple (p_simple
               (if String.eqb local (p_current p) && Nat.eqb (length (p_complex p)) 1
                then set_current "" (set_complex (tl (p_complex p)) (append_tree (pop_node PComplex (p_complex p)) p)) else p)))
               (if String.eqb local (p_current p) && Nat.eqb (length (p_complex p)) 1
                then set_current "" (set_complex (tl (p_complex p)) (append_tree (pop_node PComplex (p_complex p)) p)) else p)))
           else if String.eqb local (p_current p) && Nat.eqb (length (p_complex p)) 1
                then set_current "" (set_complex (tl (p_complex p)) (append_tree (pop_node PComplex (p_complex p)) p)) else p) w)).
    { rewrite Hl, <- Hq. change (p_current (bs p)) with (p_current p).
      destruct (String.eqb local (p_current p) && Nat.eqb (length (p_complex p)) 1); apply H. }
    cbn [p_simple p_attribute bs].
    destruct (p_simple p) as [|s r] eqn:Hs; [exact Hgo|]. destruct (p_attribute p) as [|a r'] eqn:Ha; [exact Hgo|]. reflexivity.
  - unfold end_union. cbn [p_simple bs map_out]. rewrite nonempty_map. destruct (nonempty _); reflexivity.
  - apply base_elem_bare.
  - reflexivity.
Qed.

Lemma last_doc_bare : forall d l, map bare_attribute (last_attr_doc d l) = map bare_attribute l.
Proof.
  intros d l. induction l as [|a l IH]; [reflexivity|]. destruct l as [|b l]; [reflexivity|].
  cbn [last_attr_doc map] in *. now rewrite IH.
Qed.

Lemma on_top_id : forall A B (b : A -> B) f st, (forall x, b (f x) = b x) -> map b (on_top f st) = map b st.
Proof. intros A B b f [|x st] H; [reflexivity|]. cbn. now rewrite H. Qed.

Lemma update_id : forall A B (b : A -> B) f i l, (forall x, b (f x) = b x) -> map b (update_nth i f l) = map b l.
Proof. intros A B b f i l H. revert i. induction l as [|x l IH]; intros [|i]; cbn; try reflexivity; [now rewrite H|now rewrite IH]. Qed.

Lemma char_bare : forall data p, bs (on_char_data data p) = bs p.
Proof.
  intros data p. unfold on_char_data. cbv zeta. destruct (String.eqb _ ""); [reflexivity|].
  destruct (_ && _). { unfold bs, set_attrgroup. cbn. now rewrite on_top_id by reflexivity. }
  destruct (_ && _).
  { unfold on_top_element. destruct (p_element p) eqn:He; [reflexivity|]. unfold bs, set_heap. cbn. now rewrite update_id, He by reflexivity. }
  destruct (nonempty _). { unfold bs, set_attribute. cbn. now rewrite on_top_id by reflexivity. }
  destruct (String.eqb _ "simpleType"). { unfold bs, set_simple. cbn. now rewrite on_top_id by reflexivity. }
  destruct (String.eqb _ "complexType"); [|reflexivity].
  unfold bs, set_complex. cbn. rewrite on_top_id; [reflexivity|]. intros c. unfold complex_doc. destruct (ct_attributes c) eqn:Hc; [reflexivity|].
  unfold bare_complex, ct_set_attributes. cbn [ct_name ct_base ct_elements ct_attributes ct_groups ct_attrgroups]. now rewrite last_doc_bare, Hc.
Qed.

(** Runs from states that differ in documentation. *)
Lemma run_bare : forall c ts, padded text_token c ts -> forall p q w, bs p = bs q ->
  sim_out eq (fun a b => bs a = bs b) (run_tokens gvt c p w) (run_tokens gvt ts q w).
Proof.
  intros c ts H. induction H as [|t a b H IH|t a b Ht H IH]; intros p q w Hpq.
  - now constructor.
  - cbn [run_tokens]. eapply (sim_bind _ _ _ _ eq (fun a b => bs a = bs b)); [|intros p1 q1 w1 w2 Hd <-; now apply IH].
    assert (Hm : forall m m' : out PState, map_out bs m = map_out bs m' -> sim_out eq (fun a b => bs a = bs b) m m').
    { intros m m' Hmm. destruct m, m'; cbn in Hmm; try discriminate;
      [assert (w0 = w1) by congruence; constructor; congruence|injection Hmm as -> ->; now constructor|injection Hmm as -> ->; now constructor]. }
    apply Hm. destruct t as [local l|local|data|]; cbn [on_token].
    + now rewrite <- !start_bare, Hpq.
    + now rewrite <- !end_bare, Hpq.
    + cbn [map_out]. now rewrite !char_bare, Hpq.
    + cbn [map_out]. now rewrite Hpq.
  - cbn [run_tokens]. destruct Ht as [data|]; cbn [on_token bind]; apply IH; [now rewrite char_bare|exact Hpq].
Qed.

Lemma run_same_core : forall ts ts' w, same_core text_token ts ts' ->
  sim_out eq (fun a b => bs a = bs b) (run_tokens gvt ts p_init w) (run_tokens gvt ts' p_init w).
Proof.
  intros ts ts' w [c [H1 H2]].
  pose proof (run_bare c ts' H2 p_init p_init w eq_refl) as HB.
  destruct (run_bare c ts H1 p_init p_init w eq_refl) as [p p' x x' Hp <-|e x x' <-|k x x' <-]; inversion HB; subst; constructor; congruence.
Qed.

End Bare.

(** * Parse *)

Section Parse.
Context {E : Env}.
Variable S : string -> Prop.
Notation TE := (same_core text_token).
Notation RW := (same_world TE S).

Lemma gvt_bare : forall rec fuel o v t w, get_value_type rec fuel o v (map bare t) w = get_value_type rec fuel o v t w.
Proof. intros rec fuel o v t w. unfold get_value_type. now rewrite bare_base. Qed.

Lemma interp_sim_ops : forall A Q (R : World -> World -> Prop) gvt gvt' (g : prog A), ops Q g ->
  (forall o w w', Q o -> R w w' -> R (do_wop o w) (do_wop o w')) ->
  (forall v t w w', R w w' -> sim_out R eq (gvt v t w) (gvt' v t w')) ->
  forall w w', R w w' -> sim_out R eq (interp gvt g w) (interp gvt' g w').
Proof.
  intros A Q R gvt gvt' g Ho Hw Hg. induction g as [a|e| |v t k IH|o k IH]; intros w w' H; cbn;
    try now constructor.
  - cbn in Ho. eapply sim_bind; [now apply Hg|]. intros a b w1 w2 <- H2. now apply IH.
  - destruct Ho as [H1 H2]. now apply IH, Hw.
Qed.

Definition lonely (o : Options) (w w' : World) : Prop :=
  RW w w' /\ (o_extract o = true \/ w_nsl w = [] /\ w_inc w = [] /\ stat (join2 (o_dir o) "") w = SDir).

Lemma lonely_gvt : forall rec rec' fuel o v t w w', lonely o w w' -> (o_extract o = false -> fuel <> 0) ->
  sim_out (lonely o) eq (get_value_type rec fuel o v t w) (get_value_type rec' fuel o v t w').
Proof.
  intros rec rec' fuel o v t w w' HL Hf. pose proof HL as [H Hq]. unfold get_value_type. cbv zeta.
  destruct (get_build_in_type _ _); [now constructor|].
  destruct (negb _ && negb _); [now constructor|]. destruct (o_extract o) eqn:He; [now constructor|].
  destruct Hq as [Hq|[H1 [H2 H3]]]; [discriminate|]. pose proof H as [I1 [I2 [I3 _]]].
  rewrite <- I3, <- I1, H1, H2.
  change (get0 (get0 (get_ns_prefix v) (w_lns w)) []) with "". change (get0 (get0 (get_ns_prefix v) (w_lns w')) []) with "".
  destruct (is_valid_url ""); [now constructor|]. rewrite H3.
  assert (H3' : stat (join2 (o_dir o) "") w' = SDir).
  { destruct (same_stat_w TE S (join2 (o_dir o) "") w w' H) as [<-|[b [b' [Hb _]]]]; [exact H3|congruence]. }
  rewrite H3'. destruct fuel as [|fuel]; [now elim (Hf eq_refl)|]. cbn [include_loop]. cbv zeta. rewrite <- I1, H2. cbn [filter existsb length].
  rewrite !Nat.add_0_l, !Nat.mod_1_r. cbn. now constructor.
Qed.

Lemma core_tags : forall c ts, padded text_token c ts -> forall local l, In (TStart local l) ts <-> In (TStart local l) c.
Proof.
  intros c ts H. induction H as [|t a b H IH|t a b Ht H IH]; intros local l; cbn; [reflexivity| |].
  - now rewrite IH.
  - rewrite IH. split; [|now right]. intros [->|Hin]; [inversion Ht|exact Hin].
Qed.

Notation FR fs fs' := (forall c, same_node TE S c (get c fs) (get c fs')).

Lemma create_any : forall path bytes bytes' w w', FR (w_fs w) (w_fs w') ->
  match create_write path bytes w, create_write path bytes' w' with
  | Some _, Some _ | None, None => True
  | _, _ => False
  end.
Proof.
  intros path bytes bytes' w w' H. unfold create_write. destruct (_ || _); [exact Logic.I|].
  destruct (same_lookup TE S _ _ path H) as [He|[b [b' [He [He' _]]]]]; [|rewrite He']; rewrite He;
  (destruct (same_lookup TE S _ _ (dir path) H) as [Hd|[c [c' [Hd [Hd' _]]]]]; [|rewrite Hd']; rewrite Hd).
  - destruct (lookup (w_fs w') path), (lookup (w_fs w') (dir path)); exact Logic.I.
  - destruct (lookup (w_fs w') path); exact Logic.I.
  - destruct (lookup (w_fs w') (dir path)); exact Logic.I.
  - exact Logic.I.
Qed.

Definition gofmt_failed (m : out PState) : Prop := exists w, m = Fail EGofmt w.

Lemma generate_any : forall lang pkg path t t' w w', FR (w_fs w) (w_fs w') ->
  (exists w1 w1', generate lang pkg path t w = Ret tt w1 /\ generate lang pkg path t' w' = Ret tt w1') \/
  (exists e w1 w1', generate lang pkg path t w = Fail e w1 /\ generate lang pkg path t' w' = Fail e w1') \/
  (exists w1, generate lang pkg path t w = Fail EGofmt w1) \/ (exists w1, generate lang pkg path t' w' = Fail EGofmt w1).
Proof.
  intros lang pkg path t t' w w' H. unfold generate.
  assert (HP : forall entry source ext,
    (exists w1 w1', gen_plain entry source ext path t w = Ret tt w1 /\ gen_plain entry source ext path t' w' = Ret tt w1') \/
    (exists e w1 w1', gen_plain entry source ext path t w = Fail e w1 /\ gen_plain entry source ext path t' w' = Fail e w1') \/
    (exists w1, gen_plain entry source ext path t w = Fail EGofmt w1) \/ (exists w1, gen_plain entry source ext path t' w' = Fail EGofmt w1)).
  { intros entry source ext. unfold gen_plain. cbv zeta.
    pose proof (create_any (file_with_extension path ext) (source (run_entries entry t)) (source (run_entries entry t'))
                  (set_count (g_count (run_entries entry t)) w) (set_count (g_count (run_entries entry t')) w') H) as HC.
    destruct (create_write _ _ (set_count _ w)), (create_write _ _ (set_count _ w')); try contradiction; [left|right; left]; eauto 6. }
  destruct (String.eqb (to_title lang) "Go").
  - unfold gen_go. cbv zeta.
    destruct (env_gofmt (go_source pkg (run_entries go_entry t))) as [f|], (env_gofmt (go_source pkg (run_entries go_entry t'))) as [f'|];
    match goal with |- context [create_write ?p ?x (set_count ?c w)] => match goal with |- context [create_write ?p ?y (set_count ?c' w')] =>
      pose proof (create_any p x y (set_count c w) (set_count c' w') H) as HC;
      destruct (create_write p x (set_count c w)), (create_write p y (set_count c' w')); try contradiction end end; eauto 10.
  - destruct (String.eqb (to_title lang) "C"); [apply HP|].
    destruct (String.eqb (to_title lang) "Java"); [apply HP|].
    destruct (String.eqb (to_title lang) "Rust"); [apply HP|].
    destruct (String.eqb (to_title lang) "TypeScript"); [apply HP|]. left. eauto.
Qed.

Lemma finish_any : forall o p p' w w', bs p = bs p' -> RW w w' -> 
  same_but_docs_outcome (finish o p w) (finish o p' w') \/ gofmt_failed (finish o p w) \/ gofmt_failed (finish o p' w').
Proof.
  intros o p p' w w' Hp H.
  assert (Hf : same_but_docs (freeze p) (freeze p')) by (unfold same_but_docs; rewrite <- !bare_freeze; now rewrite Hp).
  unfold finish. destruct (o_extract o); [left; now constructor|]. cbv zeta.
  assert (H1 : snd (prepare_output_dir (dir (output_path o)) (register o (freeze p) w)) = snd (prepare_output_dir (dir (output_path o)) (register o (freeze p') w')) /\
     forall c, same_node TE S c (get c (w_fs (fst (prepare_output_dir (dir (output_path o)) (register o (freeze p) w)))))
       (get c (w_fs (fst (prepare_output_dir (dir (output_path o)) (register o (freeze p') w')))))).
  { destruct (same_prepare TE S (dir (output_path o)) w w' H) as [A B].
    assert (K : forall t v, snd (prepare_output_dir (dir (output_path o)) (register o t v)) = snd (prepare_output_dir (dir (output_path o)) v) /\
       w_fs (fst (prepare_output_dir (dir (output_path o)) (register o t v))) = w_fs (fst (prepare_output_dir (dir (output_path o)) v))).
    { intros t v. unfold prepare_output_dir. destruct (String.eqb _ ""); [now split|].
      change (stat (dir (output_path o)) (register o t v)) with (stat (dir (output_path o)) v).
      destruct (stat (dir (output_path o)) v); try (now split). change (w_fs (register o t v)) with (w_fs v).
      destruct (mkdirs (w_fs v) _). now split. }
    destruct (K (freeze p) w) as [-> ->]. destruct (K (freeze p') w') as [-> ->]. split; [exact A|]. apply B. }
  destruct (prepare_output_dir _ (register o (freeze p) w)) as [w1 ok], (prepare_output_dir _ (register o (freeze p') w')) as [w1' ok'].
  cbn in H1. destruct H1 as [<- H1]. destruct ok; [|left; constructor].
  destruct (generate_any (o_lang o) (o_package o) (output_path o) (freeze p) (freeze p') w1 w1' H1)
    as [[a [a' [-> ->]]]|[[e [a [a' [-> ->]]]]|[[a ->]|[a ->]]]]; cbn [bind].
  - left. now constructor.
  - left. constructor.
  - right. left. now exists a.
  - right. right. now exists a.
Qed.

Lemma stat_token : forall o w w' b, RW w w' -> stat (o_file o) w = SFile b ->
  exists b', stat (o_file o) w' = SFile b' /\ TE (env_tokens b) (env_tokens b').
Proof.
  intros o w w' b H Hs. destruct (same_stat_w TE S (o_file o) w w' H) as [He|[c [c' [He [He' Ht]]]]].
  - exists b. split; [congruence|]. exists (env_tokens b). generalize (env_tokens b). intros l. clear.
    split; (induction l as [|t l IH]; [constructor|now apply pad_keep]).
  - rewrite Hs in He. injection He as <-. eauto.
Qed.

Theorem parse_bare : forall d fuel o w w', RW w w' ->
  (o_extract o = true \/ w_nsl w = [] /\ w_inc w = [] /\ stat (join2 (o_dir o) "") w = SDir /\ fuel <> 0 /\
     forall bytes, stat (o_file o) w = SFile bytes -> self_contained (env_tokens bytes)) ->
  same_but_docs_outcome (parse d fuel o w) (parse d fuel o w') \/ gofmt_failed (parse d fuel o w) \/ gofmt_failed (parse d fuel o w').
Proof.
  intros [|d] fuel o w w' H Hq; [left; constructor|]. cbn [parse]. unfold parse_body.
  destruct (stat (o_file o) w) as [|b| |] eqn:Hs.
  1,3,4: destruct (same_stat_w TE S (o_file o) w w' H) as [He|[c [c' [He _]]]]; [|congruence]; rewrite <- He, Hs; left; now constructor.
  destruct (stat_token o w w' b H Hs) as [b' [-> Ht]].
  destruct (env_open_fail (o_file o)); [left; constructor|]. cbv zeta.
  set (v := if o_extract o then w else register o (freeze (o_ps o)) w).
  set (v' := if o_extract o then w' else register o (freeze (o_ps o)) w').
  assert (Hl : lonely o v v').
  { split.
    - unfold v, v'. destruct (o_extract o); [exact H|]. now apply same_register.
    - destruct Hq as [Hq|[Q1 [Q2 [Q3 _]]]]; [now left|right]. unfold v. destruct (o_extract o); now repeat split. }
  set (gv := get_value_type (parse d fuel) fuel o).
  pose proof (run_same_core gv (gvt_bare _ _ _) (env_tokens b) (env_tokens b') v Ht) as HA.
  assert (HB : sim_out (lonely o) eq (run_tokens gv (env_tokens b') p_init v) (run_tokens gv (env_tokens b') p_init v')).
  { destruct (run_interp (env_tokens b') p_init) as [g [Ho Hg]]. rewrite !Hg.
    apply (interp_sim_ops _ (tokens_op (env_tokens b'))); [exact Ho| | |exact Hl].
    - intros op a a' Hop [Ha Ha']. split; [exact (same_ops TE S op a a' Ha)|].
      destruct Hq as [Hq|[_ [_ [_ [_ Hsc]]]]]; [now left|]. destruct Ha' as [Ha'|[A1 [A2 A3]]]; [now left|right].
      destruct Hop as [t [Hin Hop]]. destruct t as [local l| | |]; try (now destruct Hop).
      assert (Hin' : In (TStart local l) (env_tokens b)).
      { destruct Ht as [c [C1 C2]]. apply (core_tags c _ C1). now apply (core_tags c _ C2). }
      destruct (Hsc b eq_refl local l Hin') as [T1 T2]. apply title_import in T1. apply title_include in T2.
      destruct Hop as [[T _]|[[T _]|[_ ->]]]; [contradiction|contradiction|]. now repeat split.
    - intros s t a a' Ha. apply lonely_gvt; [exact Ha|]. intros He. destruct Hq as [Hq|[_ [_ [_ [Hq _]]]]]; [congruence|exact Hq]. }
  destruct HA as [p p' a a' Hp <-|e a a' <-|k a a' <-]; inversion HB as [q q' u u' Hqq [Hu _]|e' u u' Hu|k' u u' Hu]; subst; cbn [bind].
  - now apply finish_any.
  - left. constructor.
  - left. constructor.
Qed.

End Parse.
