(** Components stay: C60. *)

From Coq Require Import String Ascii List Arith NArith ZArith Bool Lia.
From Verif Require Import GoStr GoPath Utf8 Base Utils World Handlers Parser SpecStr SpecDoc SpecTables DocLemmas HandlerProofs DocProofs DocProofs2
  PathProofs Reify ParserProofs SpecParse SimProofs ParseFacts SpecStay.
Import ListNotations.
Local Open Scope string_scope.
Local Open Scope list_scope.

Section Stay.
Context {E : Env}.
Variable gvt : string -> list proto -> World -> out string.

Definition face (e e' : Element) : Prop :=
  el_name e = el_name e' /\ el_plural e = el_plural e' /\ el_optional e = el_optional e'.

Definition refs_ok (p : PState) : Prop :=
  (forall i, In i (p_element p) -> i < length (p_heap p)) /\ (forall i, In (PRef i) (p_tree p) -> i < length (p_heap p)).

Definition heap_kept (h h' : list Element) : Prop :=
  length h <= length h' /\ forall i, i < length h -> face (deref h i) (deref h' i).

Lemma heap_refl : forall h, heap_kept h h.
Proof. intros h. split; [lia|]. now repeat split. Qed.

Lemma heap_trans : forall a b c, heap_kept a b -> heap_kept b c -> heap_kept a c.
Proof.
  intros a b c [L1 H1] [L2 H2]. split; [lia|]. intros i Hi. destruct (H1 i Hi) as [A1 [A2 A3]].
  destruct (H2 i ltac:(lia)) as [B1 [B2 B3]]. repeat split; congruence.
Qed.

Lemma heap_app : forall h e, heap_kept h (h ++ [e]).
Proof.
  intros h e. split; [rewrite app_length; lia|]. intros i Hi. unfold deref. rewrite app_nth1 by exact Hi. now repeat split.
Qed.

Lemma heap_update : forall f, (forall e, face e (f e)) -> forall h i, heap_kept h (update_nth i f h).
Proof.
  intros f Hf h i. split; [now rewrite update_nth_length|]. revert i. induction h as [|x h IH]; intros i k Hk; [cbn in Hk; lia|].
  destruct i as [|i]; destruct k as [|k]; cbn; try (now repeat split).
  - apply Hf.
  - apply IH. cbn in Hk. lia.
Qed.

(** One step: the tree grows by components that are new or on the stack, and the
    elements keep their faces; those that are not on the stack stay as they are. *)
Definition untouched (p q : PState) : Prop := forall n, n <= length (p_heap p) -> (forall i, In i (p_element p) -> n <= i) ->
  (forall i, In i (p_element q) -> n <= i) /\ forall i, i < n -> deref (p_heap q) i = deref (p_heap p) i.

Definition step (p q : PState) : Prop :=
  refs_ok p -> refs_ok q /\ heap_kept (p_heap p) (p_heap q) /\ untouched p q /\ exists rest, p_tree q = p_tree p ++ rest.

Lemma untouched_heap : forall p q, p_heap q = p_heap p -> incl (p_element q) (p_element p) -> untouched p q.
Proof. intros p q Hh He n Hn Hi. rewrite Hh. split; [|reflexivity]. intros i Hq. apply Hi, He, Hq. Qed.

Lemma step_same : forall p q, p_tree q = p_tree p -> p_heap q = p_heap p -> incl (p_element q) (p_element p) -> step p q.
Proof.
  intros p q Ht Hh He [R1 R2]. pose proof (untouched_heap p q Hh He) as U. unfold refs_ok. rewrite Ht, Hh.
  split; [split; auto|]. split; [apply heap_refl|]. split; [exact U|]. exists []. now rewrite app_nil_r.
Qed.

Lemma step_node : forall p q x, p_tree q = p_tree p ++ [PN x] -> p_heap q = p_heap p -> incl (p_element q) (p_element p) -> step p q.
Proof.
  intros p q x Ht Hh He [R1 R2]. pose proof (untouched_heap p q Hh He) as U. unfold refs_ok. rewrite Ht, Hh.
  split; [split; auto|]. 2:{ split; [apply heap_refl|]. split; [exact U|]. now exists [PN x]. }
  intros i Hi. apply in_app_iff in Hi as [Hi|[Hi|[]]]; [auto|discriminate].
Qed.

Lemma step_ref : forall p q i, In i (p_element p) -> p_tree q = p_tree p ++ [PRef i] -> p_heap q = p_heap p ->
  incl (p_element q) (p_element p) -> step p q.
Proof.
  intros p q i Hi Ht Hh He [R1 R2]. pose proof (untouched_heap p q Hh He) as U. unfold refs_ok. rewrite Ht, Hh.
  split; [split; auto|]. 2:{ split; [apply heap_refl|]. split; [exact U|]. now exists [PRef i]. }
  intros k Hk. apply in_app_iff in Hk as [Hk|[Hk|[]]]; [auto|]. injection Hk as <-. auto.
Qed.

Lemma step_trans : forall p q r, step p q -> step q r -> step p r.
Proof.
  intros p q r H1 H2 Hp. destruct (H1 Hp) as [Hq [K1 [U1 [r1 T1]]]]. destruct (H2 Hq) as [Hr [K2 [U2 [r2 T2]]]].
  split; [exact Hr|]. split; [eapply heap_trans; eassumption|]. split.
  - intros n Hn Hi. destruct (U1 n Hn Hi) as [A B]. destruct (U2 n ltac:(destruct K1; lia) A) as [C D].
    split; [exact C|]. intros i Hl. now rewrite D, B.
  - exists (r1 ++ r2). now rewrite T2, T1, app_assoc.
Qed.

Lemma step_element : forall b e p, step p (element_result b e p).
Proof.
  intros b e p [R1 R2].
  assert (Hh := element_result_heap b e p).
  assert (Ht : p_tree (element_result b e p) = p_tree p).
  { unfold element_result. destruct (p_complex p); [destruct (_ <? _)%Z|]; destruct b; reflexivity. }
  assert (He : forall i, In i (p_element (element_result b e p)) -> In i (p_element p) \/ i = length (p_heap p)).
  { intros i. unfold element_result. destruct (p_complex p); [destruct (_ <? _)%Z|]; destruct b; cbn; intuition. }
  unfold refs_ok. rewrite Hh, Ht. split; [rewrite app_length; cbn [length]; split|].
  - intros i Hi. destruct (He i Hi) as [H|H]; [apply R1 in H; lia|lia].
  - intros i Hi. apply R2 in Hi. lia.
  - split; [apply heap_app|]. split; [|exists []; now rewrite app_nil_r].
    intros n Hn Hi. rewrite Hh. split.
    + intros i Hq. destruct (He i Hq) as [H|H]; [now apply Hi|lia].
    + intros i Hl. unfold deref. apply app_nth1. lia.
Qed.

Lemma update_other : forall A (f : A -> A) d l i k, i <> k -> nth k (update_nth i f l) d = nth k l d.
Proof.
  intros A f d l. induction l as [|x l IH]; intros i k H; [destruct i; reflexivity|]. destruct i as [|i], k as [|k]; cbn; try reflexivity; [now elim H|].
  apply IH. lia.
Qed.

Lemma step_top : forall f p q, (forall e, face e (f e)) -> p_heap q = p_heap (on_top_element f p) -> p_tree q = p_tree p ->
  p_element q = p_element p -> step p q.
Proof.
  intros f p q Hf Hh Ht He. unfold on_top_element in Hh. destruct (p_element p) as [|i r] eqn:Hp.
  - apply step_same; [exact Ht|exact Hh|rewrite He; intros x []].
  - intros [R1 R2]. cbn [p_heap set_heap] in Hh. unfold refs_ok. rewrite Ht, He, Hh.
    split; [split; rewrite update_nth_length; [rewrite Hp in R1; exact R1|exact R2]|].
    split; [now apply heap_update|]. split; [|exists []; now rewrite app_nil_r].
    intros n Hn Hi. rewrite He, Hh. rewrite Hp in Hi. split; [exact Hi|]. intros k Hk. apply update_other.
    specialize (Hi i (or_introl eq_refl)). lia.
Qed.

Lemma step_base_attribute : forall b p w q w', base_to_attribute gvt b p w = Ret q w' -> step p q.
Proof.
  intros b p w q w' H. unfold base_to_attribute in H. destruct (p_attribute p); [inv_ret; apply step_same; auto using incl_refl|].
  destruct (p_simple p); [inv_ret; apply step_same; auto using incl_refl|].
  apply bind_ret in H as [t [w1 [_ H]]]. injection H as <- _. apply step_same; [reflexivity|reflexivity|apply incl_refl].
Qed.

Lemma step_base_element : forall b p w q w', base_to_element gvt b p w = Ret q w' -> step p q.
Proof.
  intros b p w q w' H. unfold base_to_element in H. destruct (p_simple p); [inv_ret; apply step_same; auto using incl_refl|].
  destruct (p_element p) eqn:He; [inv_ret; apply step_same; auto using incl_refl|].
  apply bind_ret in H as [t [w1 [_ H]]]. injection H as <- _. apply (step_top (el_set_type t)).
  - intros e. now repeat split.
  - reflexivity.
  - unfold on_top_element. rewrite He. reflexivity.
  - unfold on_top_element. rewrite He. exact He.
Qed.

Lemma step_char : forall d p, step p (on_char_data d p).
Proof.
  intros d p. unfold on_char_data. cbv zeta.
  repeat match goal with |- step _ (if ?b then _ else _) => destruct b end;
    try (apply step_same; [reflexivity|reflexivity|apply incl_refl]).
  apply (step_top (el_set_doc (trim_space d))).
  - intros e. now repeat split.
  - reflexivity.
  - unfold on_top_element. destruct (p_element p); reflexivity.
  - unfold on_top_element. destruct (p_element p) eqn:He; [exact He|exact He].
Qed.

Ltac inv_plain :=
  repeat match goal with
  | H : Ret _ _ = Ret _ _ |- _ => injection H; clear H; intros; subst
  | H : Fail _ _ = Ret _ _ |- _ => discriminate H
  | H : Crash _ _ = Ret _ _ |- _ => discriminate H
  | H : base_to_attribute _ _ _ _ = Ret _ _ |- _ => apply step_base_attribute in H
  | H : base_to_element _ _ _ _ = Ret _ _ |- _ => apply step_base_element in H
  | H : bind _ _ = Ret _ _ |- _ => apply bind_ret in H as [? [? [? H]]]
  | H : extension_attrs _ _ _ _ _ = Ret _ _ |- _ => apply extension_attrs_shape in H as [? [? ?]]
  | H : list_attrs _ _ _ _ _ = Ret _ _ |- _ => apply list_attrs_shape in H as [? [? ?]]
  | H : restriction_attrs _ _ _ _ _ = Ret _ _ |- _ => apply restriction_attrs_shape in H as [? [? ?]]
  | H : union_attrs _ _ _ _ _ = Ret _ _ |- _ => apply union_attrs_shape in H as [? [? ?]]
  | H : on_element _ _ _ _ = Ret _ _ |- _ => apply on_element_ret in H as [? [? [? [? [? [? ?]]]]]]
  | H : (if ?b then _ else _) = Ret _ _ |- _ => destruct b eqn:?
  | H : match ?l with [] => _ | _ :: _ => _ end = Ret _ _ |- _ => destruct l eqn:?
  end; subst.

Lemma step_in : forall x p q, step (set_in_element x p) q -> step p q.
Proof. intros x p q H Hp. exact (H Hp). Qed.

Lemma pop_node_is : forall A (mk : A -> proto) st, exists x, pop_node mk st = PN x.
Proof. intros A mk [|x r]; cbn; eauto. Qed.

Ltac same := apply step_same; [reflexivity|reflexivity|first [apply incl_refl | cbn; intros ? ?; cbn in *; congruence]].
Ltac node := match goal with
  | |- context [pop_node ?mk ?st] => let x := fresh "x" in let e := fresh "e" in
      destruct (pop_node_is _ mk st) as [x e]; rewrite e; apply (step_node _ _ x); [reflexivity|reflexivity|apply incl_refl]
  | |- _ => eapply step_node; [reflexivity|reflexivity|apply incl_refl]
  end.

Lemma step_start : forall local l p w q w', dispatch_start gvt local l p w = Ret q w' -> step p q.
Proof.
  intros local l p w q w' H. unfold dispatch_start in H. split_title H; unfold_handlers; cbv zeta in *; inv_plain;
    try (apply (step_in local); apply step_element);
    try (apply step_same; [reflexivity|reflexivity|apply incl_refl]);
    try (apply step_same; [reflexivity|reflexivity|];
         match goal with He : p_element _ = _ |- _ => cbn [p_element set_in_element set_current] in He; cbn; rewrite He; intros y Hy; now right end).
Qed.

Lemma step_end : forall local p w q w', dispatch_end gvt local p w = Ret q w' -> step p q.
Proof.
  intros local p w q w' H. unfold dispatch_end in H. split_title H.
  - unfold end_attribute in H. inv_plain; first [same|node].
  - unfold end_attribute_group in H. inv_plain; first [same|node].
  - unfold end_choice in H. inv_plain. same.
  - unfold end_complex_type in H. inv_plain. node.
  - unfold end_element in H. inv_plain; [same|same|].
    match goal with He : p_element p = ?i :: ?r |- _ => apply (step_ref p _ i); [rewrite He; now left|reflexivity|reflexivity|rewrite He; intros y Hy; now right] end.
  - unfold end_enumeration in H. inv_plain. eapply step_trans; eassumption.
  - unfold end_extension in H. inv_plain. assumption.
  - unfold end_group in H. cbv zeta in H. destruct (String.eqb local (p_current p) && (p_in_group p =? 1)%Z).
    + match type of H with Ret (if ?b then _ else _) _ = _ => destruct b end; inv_plain; node.
    + match type of H with Ret (if ?b then _ else _) _ = _ => destruct b end; inv_plain; same.
  - unfold end_pattern in H. inv_plain. eapply step_trans; eassumption.
  - unfold end_restriction in H. inv_plain; [assumption|].
    eapply step_trans; [eassumption|]. same.
  - unfold end_simple_type in H.
    assert (Hc : forall p, Ret (A := PState)
         (if String.eqb local (p_current p) && negb (p_in_union p) then
             set_current "" (set_simple (tl (p_simple p)) (append_tree (pop_node PSimple (p_simple p)) p)) else p) w = Ret q w' -> step p q).
    { clear H. intros p0 H0. destruct (String.eqb local (p_current p0) && negb (p_in_union p0)); inv_plain; [node|same]. }
    cbv zeta in H.
    destruct (p_simple p) as [|s r]; [|destruct (p_attribute p) as [|a ar]; [|inv_plain; same]];
      (match type of H with context [if ?b then set_current "" (set_complex _ _) else _] => destruct b end;
       [eapply step_trans; [|exact (Hc _ H)]; node|exact (Hc _ H)]).
  - unfold end_union in H. destruct (nonempty (p_simple p)); inv_plain; same.
  - unfold end_facet in H. inv_plain. assumption.
  - inv_plain. same.
Qed.

Lemma step_run : forall ts p w q w', run_tokens gvt ts p w = Ret q w' -> step p q.
Proof.
  intros ts. induction ts as [|t ts IH]; intros p w q w' H; cbn [run_tokens] in H; [inv_plain; same|].
  apply bind_ret in H as [p1 [w1 [H1 H]]]. eapply step_trans; [|eapply IH; exact H].
  destruct t as [local l|local|data|]; cbn [on_token] in H1.
  - eapply step_start. exact H1.
  - eapply step_end. exact H1.
  - inv_plain. apply step_char.
  - inv_plain. same.
Qed.

Lemma step_stay : forall p q, refs_ok p -> step p q -> stay (freeze p) (freeze q).
Proof.
  intros p q Hp H. destruct (H Hp) as [_ [[_ Hf] [_ [rest Ht]]]]. unfold freeze. rewrite Ht, map_app.
  exists (map (freeze_node (p_heap q)) (p_tree p)), (map (freeze_node (p_heap q)) rest). split; [reflexivity|].
  destruct Hp as [_ R2]. clear Ht H. revert R2. generalize (p_tree p). intros l. induction l as [|n l IH]; intros R2; [constructor|].
  cbn [map]. constructor.
  - destruct n as [x|i]; [apply k_same|]. cbn [freeze_node].
    pose proof (Hf i (R2 i (or_introl eq_refl))) as [A [B C]]. now apply k_element.
  - apply IH. intros i Hi. apply R2. now right.
Qed.

Lemma step_exact : forall p q, refs_ok p -> step p q -> p_element p = [] -> exists rest, freeze q = freeze p ++ rest.
Proof.
  intros p q Hp H Hn. destruct (H Hp) as [_ [_ [U [rest Ht]]]]. unfold freeze. rewrite Ht, map_app.
  exists (map (freeze_node (p_heap q)) rest). f_equal. apply map_ext_in. intros [x|i] Hi; [reflexivity|]. cbn. f_equal.
  destruct (U (length (p_heap p)) (le_n _)) as [_ D]; [rewrite Hn; intros k []|]. apply D. now apply Hp.
Qed.

Lemma init_ok : refs_ok p_init.
Proof. split; intros i []. Qed.

Lemma run_stay : forall ts more w q w', run_tokens gvt (ts ++ more) p_init w = Ret q w' ->
  exists p w1, run_tokens gvt ts p_init w = Ret p w1 /\ stay (freeze p) (freeze q) /\
    (p_element p = [] -> exists rest, freeze q = freeze p ++ rest).
Proof.
  intros ts more w q w' H. rewrite run_tokens_app in H. apply bind_ret in H as [p [w1 [H1 H]]].
  exists p, w1. split; [exact H1|].
  assert (Hr : refs_ok p) by (apply (step_run ts p_init w p w1 H1); apply init_ok). apply step_run in H.
  split; [now apply step_stay|intros Hn; now apply step_exact].
Qed.

End Stay.

Section Parse.
Context {E : Env}.

Lemma finish_ret : forall o p w q w', finish o p w = Ret q w' -> q = p.
Proof.
  intros o p w q w' H. unfold finish in H. destruct (o_extract o); [congruence|]. cbv zeta in H.
  destruct (prepare_output_dir _ _) as [w1 []]; [|discriminate]. apply bind_ret in H as [u [w2 [_ H]]]. congruence.
Qed.

Theorem parse_stay : forall d fuel o w bytes before after q w', o_extract o = false ->
  stat (o_file o) w = SFile bytes -> env_tokens bytes = before ++ after -> parse (S d) fuel o w = Ret q w' ->
  exists p w1, run_tokens (get_value_type (parse d fuel) fuel o) before p_init (register o (freeze (o_ps o)) w) = Ret p w1 /\
    stay (freeze p) (freeze q) /\ (p_element p = [] -> exists rest, freeze q = freeze p ++ rest).
Proof.
  intros d fuel o w bytes before after q w' He Hs Ht H. cbn [parse] in H. unfold parse_body in H. rewrite Hs in H.
  destruct (env_open_fail (o_file o)); [discriminate|]. cbv zeta in H. rewrite He, Ht in H.
  apply bind_ret in H as [r [w2 [H1 H2]]]. apply finish_ret in H2 as ->. eapply run_stay. exact H1.
Qed.

Theorem truncation_stay : forall d fuel o w bytes bytes' rest p w', o_extract o = true ->
  stat (o_file o) w = SFile bytes -> parse d fuel o w = Ret p w' ->
  env_tokens bytes = env_tokens bytes' ++ rest ->
  forall w2, stat (o_file o) w2 = SFile bytes' -> exists p2 w2', parse d fuel o w2 = Ret p2 w2' /\ stay (freeze p2) (freeze p).
Proof.
  intros [|d] fuel o w bytes bytes' rest p w' He Hs H Ht w2 Hs2; [discriminate|].
  cbn [parse] in *. unfold parse_body in *. rewrite Hs in H. rewrite Hs2.
  destruct (env_open_fail (o_file o)); [discriminate|]. cbv zeta in *. rewrite He in *.
  apply bind_ret in H as [q [w1 [H Hq]]]. apply finish_ret in Hq as ->.
  rewrite Ht in H. apply run_stay in H as [q1 [w3 [H [Hst _]]]].
  pose proof (run_sim (fun _ _ => True) (get_value_type (parse d fuel) fuel o) (get_value_type (parse d fuel) fuel o)) as HS.
  specialize (HS (fun _ _ _ _ => Logic.I)). lapply HS; clear HS.
  - intros HS. specialize (HS (env_tokens bytes') p_init w w2 Logic.I). rewrite H in HS. inversion HS as [a b x y Hab| |]; subst.
    cbn [bind]. rewrite finish_extract by exact He. eauto.
  - intros v t a b _. unfold get_value_type. cbv zeta. destruct (get_build_in_type _ _); [now constructor|].
    destruct (negb _ && negb _); [now constructor|]. rewrite He. now constructor.
Qed.

End Parse.
