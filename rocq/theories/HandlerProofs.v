(** Proofs about the handlers and about runs over token streams. *)

From Coq Require Import String Ascii List NArith ZArith Bool Lia.
From Verif Require Import GoStr Utf8 StrLemmas Base Utils SpecStr StrProofs World Handlers SpecDoc DocLemmas.
Import ListNotations.
Local Open Scope string_scope.

Section Handlers.
Context {E : Env}.
Variable gvt : string -> list proto -> World -> out string.

(** * What the loops over XML attributes can change *)

Lemma extension_attrs_shape : forall tree l p w p' w',
  extension_attrs gvt tree l p w = Ret p' w' ->
  exists c, p' = set_complex c p /\ length c = length (p_complex p).
Proof.
  intros tree l. induction l as [|x l IH]; intros p w p' w' H.
  - cbn in H. injection H as <- _. exists (p_complex p). split; [now destruct p|reflexivity].
  - cbn [extension_attrs] in H. destruct (String.eqb (a_local x) "base"); [|eauto].
    apply bind_ret in H as [t [v [_ H]]]. destruct (nonempty (p_complex p)); [|eauto].
    apply bind_ret in H as [t2 [v2 [_ H]]]. apply IH in H as [c [-> Hc]].
    exists c. split; [now destruct p|]. rewrite Hc. cbn. now destruct (p_complex p).
Qed.

Lemma list_attrs_shape : forall tree l p w p' w',
  list_attrs gvt tree l p w = Ret p' w' ->
  exists c, p' = set_simple c p /\ length c = length (p_simple p).
Proof.
  intros tree l. induction l as [|x l IH]; intros p w p' w' H.
  - cbn in H. injection H as <- _. exists (p_simple p). split; [now destruct p|reflexivity].
  - cbn [list_attrs] in H. destruct (String.eqb (a_local x) "itemType"); [|eauto].
    apply bind_ret in H as [t [v [_ H]]]. apply IH in H as [c [-> Hc]].
    exists c. split; [now destruct p|]. rewrite Hc. cbn. now destruct (p_simple p).
Qed.

Lemma restriction_attrs_shape : forall tree l p w p' w',
  restriction_attrs gvt tree l p w = Ret p' w' ->
  exists c, p' = set_simple c p /\ length c = length (p_simple p).
Proof.
  intros tree l. induction l as [|x l IH]; intros p w p' w' H.
  - cbn in H. injection H as <- _. exists (p_simple p). split; [now destruct p|reflexivity].
  - cbn [restriction_attrs] in H. destruct (String.eqb (a_local x) "base"); [|eauto].
    apply bind_ret in H as [t [v [_ H]]]. destruct (nonempty (p_simple p)); [|eauto].
    apply bind_ret in H as [t2 [v2 [_ H]]]. apply IH in H as [c [-> Hc]].
    exists c. split; [now destruct p|]. rewrite Hc. cbn. now destruct (p_simple p).
Qed.

Lemma union_members_shape : forall tree ms p w p' w',
  union_members gvt tree ms p w = Ret p' w' ->
  exists c, p' = set_simple c p /\ length c = length (p_simple p).
Proof.
  intros tree ms. induction ms as [|m ms IH]; intros p w p' w' H.
  - cbn in H. injection H as <- _. exists (p_simple p). split; [now destruct p|reflexivity].
  - cbn [union_members] in H. apply bind_ret in H as [t [v [_ H]]]. apply IH in H as [c [-> Hc]].
    exists c. split; [now destruct p|]. rewrite Hc. cbn. now destruct (p_simple p).
Qed.

Lemma union_attrs_shape : forall tree l p w p' w',
  union_attrs gvt tree l p w = Ret p' w' ->
  exists c, p' = set_simple c p /\ length c = length (p_simple p).
Proof.
  intros tree l. induction l as [|x l IH]; intros p w p' w' H.
  - cbn in H. injection H as <- _. exists (p_simple p). split; [now destruct p|reflexivity].
  - cbn [union_attrs] in H. destruct (String.eqb (a_local x) "memberTypes"); [|eauto].
    apply bind_ret in H as [q [v [Hq H]]]. apply union_members_shape in Hq as [c [-> Hc]].
    apply IH in H as [c' [-> Hc']]. exists c'. split; [now destruct p|]. rewrite Hc'. exact Hc.
Qed.

Lemma base_to_attribute_shape : forall pop p w p' w',
  base_to_attribute gvt pop p w = Ret p' w' ->
  p' = p \/ exists t s r, p_simple p = s :: r /\
    p' = set_current "" (set_simple (if pop then r else p_simple p)
           (set_attribute (on_top (at_set_type t) (p_attribute p)) p)).
Proof.
  intros pop p w p' w' H. unfold base_to_attribute in H.
  destruct (p_attribute p) as [|a at_]; [left; now injection H as <- _|].
  destruct (p_simple p) as [|s r]; [left; now injection H as <- _|].
  apply bind_ret in H as [t [v [_ H]]]. injection H as <- _. right. now exists t, s, r.
Qed.

Lemma base_to_element_shape : forall pop p w p' w',
  base_to_element gvt pop p w = Ret p' w' ->
  p' = p \/ exists t s r, p_simple p = s :: r /\
    p' = set_current "" (set_simple (if pop then r else p_simple p) (on_top_element (el_set_type t) p)).
Proof.
  intros pop p w p' w' H. unfold base_to_element in H.
  destruct (p_simple p) as [|s r]; [left; now injection H as <- _|].
  destruct (p_element p) as [|a at_]; [left; now injection H as <- _|].
  apply bind_ret in H as [t [v [_ H]]]. injection H as <- _. right. now exists t, s, r.
Qed.

Lemma on_top_length : forall A (f : A -> A) l, length (on_top f l) = length l.
Proof. intros A f [|x l]; reflexivity. Qed.

Lemma update_nth_length : forall A (f : A -> A) l i, length (update_nth i f l) = length l.
Proof. intros A f l. induction l as [|x l IH]; intros [|i]; cbn; auto. Qed.

Lemma update_nth_last : forall A (f : A -> A) l x, update_nth (length l) f (l ++ [x]) = (l ++ [f x])%list.
Proof. intros A f l x. induction l as [|y l IH]; cbn; [reflexivity|]. now rewrite IH. Qed.

Lemma deref_last : forall l x, deref (l ++ [x]) (length l) = x.
Proof. intros l x. unfold deref. rewrite app_nth2, Nat.sub_diag by lia. reflexivity. Qed.

(** * Dispatch *)

Lemma tag_title : forall h local, tag h local = true -> In h all_tags -> to_title local = h.
Proof. intros h local H Hin. now apply tag_true. Qed.

(** * Element start tags *)

(** The element object a start tag creates, and what is done with it. *)
Definition element_result (pushed : bool) (e : Element) (p : PState) : PState :=
  let i := length (p_heap p) in
  let q := set_heap (p_heap p ++ [e]) (if pushed then push_element i p else p) in
  match p_complex p with
  | c :: cs => set_complex (ct_set_elements (add_element e (ct_elements c)) c :: cs) q
  | [] => if (0 <? p_in_group p)%Z
          then set_group (on_top (fun g => gr_set_elements (gr_elements g ++ [e]) g) (p_group p)) q
          else push_element i q
  end.

Lemma on_element_ret : forall l p w p' w',
  on_element gvt l p w = Ret p' w' ->
  exists e0 t w1, element_attrs gvt (freeze p) l zero_element w = Ret e0 w1 /\
    (el_type e0 = "" -> gvt (el_name e0) (freeze p) w1 = Ret t w') /\
    (el_type e0 <> "" -> t = el_type e0 /\ w' = w1) /\
    p' = element_result (String.eqb (el_type e0) "")
           (el_set_plural (el_plural e0 || choice_plural p) (el_set_type t e0)) p.
Proof.
  intros l p w p' w' H. unfold on_element in H. apply bind_ret in H as [e0 [w1 [He H]]].
  destruct (String.eqb_spec (el_type e0) "") as [Ht|Ht].
  - apply bind_ret in H as [t [w2 [Hg H]]]. exists e0, t, w1. split; [exact He|].
    replace (String.eqb (el_type e0) "") with true by (now rewrite Ht).
    assert (Hcp : forall h q, choice_plural (push_element h q) = choice_plural q) by reflexivity.
    unfold place_element in H. cbn [p_heap set_heap push_element set_element choice_plural p_choice] in H.
    rewrite update_nth_last, deref_last in H.
    unfold element_result.
    destruct (p_complex p) as [|c cs] eqn:Hc; cbn [p_complex set_heap push_element set_element nonempty] in H;
      rewrite Hc in H; cbn [nonempty] in H.
    + cbn [p_in_group set_heap push_element set_element] in H. destruct (0 <? p_in_group p)%Z; injection H as <- <-;
        (split; [auto|]; split; [intros Hn; contradiction|]; destruct p; reflexivity).
    + injection H as <- <-. split; [auto|]. split; [intros Hn; contradiction|]. destruct p; reflexivity.
  - exists e0, (el_type e0), w1. split; [exact He|]. split; [contradiction|].
    replace (String.eqb (el_type e0) "") with false by (symmetry; now apply String.eqb_neq).
    unfold place_element in H. cbn [p_heap set_heap] in H.
    rewrite update_nth_last, deref_last in H.
    unfold element_result.
    destruct (p_complex p) as [|c cs] eqn:Hc; cbn [p_complex set_heap nonempty] in H;
      rewrite Hc in H; cbn [nonempty] in H.
    + cbn [p_in_group set_heap] in H. destruct (0 <? p_in_group p)%Z; injection H as <- <-;
        (split; [auto|]; destruct e0, p; reflexivity).
    + injection H as <- <-. split; [auto|]. destruct e0, p; reflexivity.
Qed.

Lemma element_result_heap : forall b e p, p_heap (element_result b e p) = (p_heap p ++ [e])%list.
Proof.
  intros b e p. unfold element_result. destruct (p_complex p) as [|c cs]; [|now destruct b].
  destruct (0 <? p_in_group p)%Z; now destruct b.
Qed.

End Handlers.
