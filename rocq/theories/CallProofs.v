(** Which names a document asks the type resolver for: those in its own tags,
    and answers it got before. *)

From Coq Require Import String Ascii List NArith ZArith Bool Lia.
From Verif Require Import GoStr Base Utils SpecStr World Handlers Reify SpecProject.
Import ListNotations.
Local Open Scope string_scope.

Local Infix "+++" := app (at level 60, right associativity).

(** Neither [Crash NoFuel] nor a result outside [Q]. *)
Definition safe {A} (Q : A -> Prop) (m : out A) : Prop :=
  match m with Ret a _ => Q a | Fail _ _ => True | Crash c _ => c <> NoFuel end.

Lemma safe_bind : forall A B (Q : A -> Prop) (Q' : B -> Prop) m f, safe Q m -> (forall a w, Q a -> safe Q' (f a w)) ->
  safe Q' (bind m f).
Proof. intros A B Q Q' [a w|e w|c w] f H Hf; cbn in *; auto. Qed.

Section Calls.
Context {E : Env}.

(** [R]: names that may be asked for; [S]: possible answers. *)
Variable R S : string -> Prop.
Hypothesis HRS : forall s, S s -> R s.
Hypothesis HS : S "".

Definition answers (t : proto) : Prop :=
  match t with
  | PSimple v => S (st_base v)
  | PAttribute v => S (at_type v)
  | PElement v => S (el_type v)
  | _ => True
  end.

Definition node_ok (n : pnode) : Prop := match n with PN t => answers t | PRef _ => True end.

Definition inv (p : PState) : Prop :=
  Forall node_ok (p_tree p) /\ Forall (fun e => S (el_type e)) (p_heap p) /\
  Forall (fun s => S (st_base s)) (p_simple p) /\ Forall (fun a => S (at_type a)) (p_attribute p).

Lemma inv_init : inv p_init.
Proof. repeat split; constructor. Qed.

Lemma deref_ok : forall h i, Forall (fun e => S (el_type e)) h -> S (el_type (deref h i)).
Proof.
  intros h i H. unfold deref. revert i. induction H as [|e h He H IH]; intros [|i]; cbn; auto.
Qed.

Lemma freeze_ok : forall p, inv p -> Forall answers (freeze p).
Proof.
  intros p [H1 [H2 _]]. unfold freeze. apply Forall_forall. intros t Ht. apply in_map_iff in Ht as [n [<- Hn]].
  rewrite Forall_forall in H1. specialize (H1 n Hn). destruct n as [t|i]; cbn; [exact H1|]. now apply deref_ok.
Qed.

(** Names in a tag. *)
Definition tag_ok (l : list xattr) : Prop := forall x v, In x l -> names_in x v -> R v.
Definition token_ok (t : token) : Prop := match t with TStart _ l => tag_ok l | _ => True end.

Lemma tag_cons : forall x l, tag_ok (x :: l) -> (forall v, names_in x v -> R v) /\ tag_ok l.
Proof. intros x l H. split; [intros v; apply H; now left|]. intros y v Hy. apply H. now right. Qed.

Variable gvt : resolver.
Hypothesis Hgvt : forall v t w, R v -> Forall answers t -> safe S (gvt v t w).

Ltac key x := match goal with |- context [String.eqb (a_local x) ?k] => destruct (String.eqb_spec (a_local x) k) as [?Hk|?Hk] end.
Ltac named := match goal with H : forall v, names_in ?x v -> R v |- R _ => apply H; left; split; [|reflexivity];
  match goal with Hk : a_local x = _ |- _ => rewrite Hk; cbn; tauto end end.

Lemma attribute_safe : forall tree l a w, Forall answers tree -> tag_ok l -> S (at_type a) ->
  safe (fun a => S (at_type a)) (attribute_attrs gvt tree l a w).
Proof.
  intros tree l. induction l as [|x l IH]; intros a w Ht Hl Ha; [exact Ha|].
  apply tag_cons in Hl as [Hx Hl]. cbn [attribute_attrs]. cbv zeta.
  key x; [apply (safe_bind _ _ S); [apply Hgvt; [named|exact Ht]|intros s w' Hs; now apply IH]|].
  key x; [now apply IH|]. key x; [apply (safe_bind _ _ S); [apply Hgvt; [named|exact Ht]|intros s w' Hs; now apply IH]|].
  key x; [|now apply IH]. apply IH; auto. now destruct (String.eqb _ _).
Qed.

Lemma attrgroup_safe : forall tree l a w, Forall answers tree -> tag_ok l -> safe (fun _ => True) (attrgroup_attrs gvt tree l a w).
Proof.
  intros tree l. induction l as [|x l IH]; intros a w Ht Hl; [exact Logic.I|].
  apply tag_cons in Hl as [Hx Hl]. cbn [attrgroup_attrs]. cbv zeta. key x; [now apply IH|].
  key x; [apply (safe_bind _ _ S); [apply Hgvt; [named|exact Ht]|intros s w' Hs; now apply IH]|now apply IH].
Qed.

Lemma group_safe : forall tree l a w, Forall answers tree -> tag_ok l -> safe (fun _ => True) (group_attrs gvt tree l a w).
Proof.
  intros tree l. induction l as [|x l IH]; intros a w Ht Hl; [exact Logic.I|].
  apply tag_cons in Hl as [Hx Hl]. cbn [group_attrs]. cbv zeta. key x; [now apply IH|].
  key x; [apply (safe_bind _ _ S); [apply Hgvt; [named|exact Ht]|intros s w' Hs; now apply IH]|].
  key x; now apply IH.
Qed.

Lemma element_safe : forall tree l e w, Forall answers tree -> tag_ok l -> S (el_type e) -> R (el_name e) ->
  safe (fun e => S (el_type e) /\ R (el_name e)) (element_attrs gvt tree l e w).
Proof.
  intros tree l. induction l as [|x l IH]; intros e w Ht Hl He Hn; [now split|].
  apply tag_cons in Hl as [Hx Hl]. cbn [element_attrs]. cbv zeta.
  key x; [apply (safe_bind _ _ S); [apply Hgvt; [named|exact Ht]|intros s w' Hs; apply IH; auto; cbn; named]|].
  key x; [apply IH; auto; cbn; named|].
  key x; [apply (safe_bind _ _ S); [apply Hgvt; [named|exact Ht]|intros s w' Hs; now apply IH]|].
  key x; [destruct (max_occurs _) as [b|]; [apply IH; auto; now destruct b|exact Logic.I]|].
  key x; [|now apply IH]. apply IH; auto; now destruct (String.eqb _ _).
Qed.

Lemma choice_safe : forall l b w, safe (fun _ => True) (choice_attrs l b w).
Proof.
  induction l as [|x l IH]; intros b w; [exact Logic.I|]. cbn [choice_attrs]. destruct (String.eqb _ _); [|apply IH].
  destruct (max_occurs _); [apply IH|exact Logic.I].
Qed.

Lemma extension_safe : forall tree l p w, Forall answers tree -> tag_ok l -> inv p -> safe inv (extension_attrs gvt tree l p w).
Proof.
  intros tree l. induction l as [|x l IH]; intros p w Ht Hl Hp; [exact Hp|].
  apply tag_cons in Hl as [Hx Hl]. cbn [extension_attrs]. key x; [|now apply IH].
  apply (safe_bind _ _ S); [apply Hgvt; [named|exact Ht]|]. intros s w' Hs. destruct (nonempty _); [|now apply IH].
  apply (safe_bind _ _ S); [apply Hgvt; auto|]. intros s2 w2 Hs2. now apply IH.
Qed.

Lemma simple_top : forall f st, (forall s, S (st_base s) -> S (st_base (f s))) -> Forall (fun s => S (st_base s)) st ->
  Forall (fun s => S (st_base s)) (on_top f st).
Proof. intros f st Hf H. destruct H; constructor; auto. Qed.

Lemma attribute_top : forall f st, (forall s, S (at_type s) -> S (at_type (f s))) -> Forall (fun s => S (at_type s)) st ->
  Forall (fun s => S (at_type s)) (on_top f st).
Proof. intros f st Hf H. destruct H; constructor; auto. Qed.

Lemma restriction_safe : forall tree l p w, Forall answers tree -> tag_ok l -> inv p -> safe inv (restriction_attrs gvt tree l p w).
Proof.
  intros tree l. induction l as [|x l IH]; intros p w Ht Hl Hp; [exact Hp|].
  apply tag_cons in Hl as [Hx Hl]. cbn [restriction_attrs]. key x; [|now apply IH].
  apply (safe_bind _ _ S); [apply Hgvt; [named|exact Ht]|]. intros s w' Hs. destruct (nonempty _); [|now apply IH].
  apply (safe_bind _ _ S); [apply Hgvt; auto|]. intros s2 w2 Hs2. apply IH; auto.
  destruct Hp as [H1 [H2 [H3 H4]]]. repeat split; auto. cbn. apply simple_top; [|exact H3]. intros s0 _. cbn. now destruct (String.eqb _ _).
Qed.

Lemma list_safe : forall tree l p w, Forall answers tree -> tag_ok l -> inv p -> safe inv (list_attrs gvt tree l p w).
Proof.
  intros tree l. induction l as [|x l IH]; intros p w Ht Hl Hp; [exact Hp|].
  apply tag_cons in Hl as [Hx Hl]. cbn [list_attrs]. key x; [|now apply IH].
  apply (safe_bind _ _ S); [apply Hgvt; [named|exact Ht]|]. intros s w' Hs. apply IH; auto.
  destruct Hp as [H1 [H2 [H3 H4]]]. repeat split; auto. cbn. now apply simple_top.
Qed.

Lemma members_safe : forall tree ms p w, Forall answers tree -> (forall v, In v ms -> R v) -> inv p -> safe inv (union_members gvt tree ms p w).
Proof.
  intros tree ms. induction ms as [|m ms IH]; intros p w Ht Hl Hp; [exact Hp|]. cbn [union_members].
  apply (safe_bind _ _ S); [apply Hgvt; [apply Hl; now left|exact Ht]|]. intros s w' Hs. apply IH; auto; [intros v Hv; apply Hl; now right|].
  destruct Hp as [H1 [H2 [H3 H4]]]. repeat split; auto. cbn. now apply simple_top.
Qed.

Lemma union_safe : forall tree l p w, Forall answers tree -> tag_ok l -> inv p -> safe inv (union_attrs gvt tree l p w).
Proof.
  intros tree l. induction l as [|x l IH]; intros p w Ht Hl Hp; [exact Hp|].
  apply tag_cons in Hl as [Hx Hl]. cbn [union_attrs]. key x; [|now apply IH].
  apply (safe_bind _ _ inv); [|intros q w' Hq; now apply IH]. apply members_safe; auto. intros v Hv. apply Hx. right. now split.
Qed.

Lemma update_ok : forall f i h, (forall e, S (el_type e) -> S (el_type (f e))) -> Forall (fun e => S (el_type e)) h ->
  Forall (fun e => S (el_type e)) (update_nth i f h).
Proof. intros f i h Hf H. revert i. induction H as [|e h He H IH]; intros [|i]; cbn; constructor; auto. Qed.

Lemma on_top_element_ok : forall f p, (forall e, S (el_type e) -> S (el_type (f e))) -> inv p -> inv (on_top_element f p).
Proof.
  intros f p Hf [H1 [H2 [H3 H4]]]. unfold on_top_element. destruct (p_element p); [now repeat split|]. repeat split; auto. cbn. now apply update_ok.
Qed.

Lemma char_inv : forall d p, inv p -> inv (on_char_data d p).
Proof.
  intros d p Hp. unfold on_char_data. cbv zeta.
  repeat match goal with |- inv (if ?b then _ else _) => destruct b end; try exact Hp; try (apply on_top_element_ok; [auto|exact Hp]);
    destruct Hp as [H1 [H2 [H3 H4]]]; repeat split; auto; cbn; [now apply attribute_top|now apply simple_top].
Qed.

Ltac keep H := destruct H as [?H1 [?H2 [?H3 ?H4]]]; repeat split; cbn; auto.

Lemma place_inv : forall i p w, inv p -> safe inv (place_element i p w).
Proof.
  intros i p w H. unfold place_element. cbv zeta.
  assert (Hh : Forall (fun e => S (el_type e)) (update_nth i (fun e => el_set_plural (el_plural e || choice_plural p) e) (p_heap p))).
  { apply update_ok; [auto|apply H]. }
  destruct (nonempty _); [keep H|]. destruct (_ <? _)%Z; keep H.
Qed.

Lemma app_ok : forall A (Q : A -> Prop) l a, Forall Q l -> Q a -> Forall Q (l +++ [a]).
Proof. intros A Q l a Hl Ha. apply Forall_app. split; [exact Hl|]. constructor; [exact Ha|constructor]. Qed.

Lemma node_inv : forall n p, inv p -> node_ok n -> inv (append_tree n p).
Proof. intros n p H Hn. keep H. now apply app_ok. Qed.

Lemma base_to_attribute_safe : forall pop p w, inv p -> safe inv (base_to_attribute gvt pop p w).
Proof.
  intros pop p w H. unfold base_to_attribute. destruct (p_attribute p) as [|a r] eqn:Ha; [exact H|].
  destruct (p_simple p) as [|s r'] eqn:Hs; [exact H|].
  assert (Hf := freeze_ok p H). destruct H as [H1 [H2 [H3 H4]]]. rewrite Hs in H3. rewrite Ha in H4.
  inversion H3; subst. inversion H4; subst. apply (safe_bind _ _ S); [now apply Hgvt; auto|].
  intros t w' Ht. repeat split; cbn; auto. destruct pop; auto.
Qed.

Lemma base_to_element_safe : forall pop p w, inv p -> safe inv (base_to_element gvt pop p w).
Proof.
  intros pop p w H. unfold base_to_element. destruct (p_simple p) as [|s r] eqn:Hs; [exact H|].
  destruct (p_element p) as [|i r'] eqn:He; [exact H|].
  assert (Hf := freeze_ok p H). pose proof H as [H1 [H2 [H3 H4]]]. rewrite Hs in H3.
  inversion H3; subst. apply (safe_bind _ _ S); [now apply Hgvt; auto|].
  intros t w' Ht. unfold on_top_element. rewrite He. repeat split; cbn; auto; [|destruct pop; auto].
  now apply update_ok.
Qed.

Lemma pop_simple : forall st, Forall (fun s => S (st_base s)) st -> node_ok (pop_node PSimple st).
Proof. intros st H. destruct H; cbn; auto. Qed.
Lemma tl_ok : forall A (Q : A -> Prop) l, Forall Q l -> Forall Q (tl l).
Proof. intros A Q l H. destruct H; [constructor|assumption]. Qed.

Lemma ops_safe : forall A (Q : A -> Prop) a w, Q a -> safe Q (Ret a w).
Proof. auto. Qed.

Lemma start_safe : forall local l p w, tag_ok l -> inv p -> safe inv (dispatch_start gvt local l p w).
Proof.
  intros local l p w Hl H0. unfold dispatch_start. cbv zeta.
  assert (H : inv (set_in_element local p)) by exact H0. generalize dependent (set_in_element local p). clear p H0. intros p H.
  assert (Hf := freeze_ok p H).
  destruct (String.eqb _ _).
  { apply (safe_bind _ _ (fun a => S (at_type a))); [now apply attribute_safe|]. intros a w' Ha. keep H. }
  destruct (String.eqb _ _).
  { apply (safe_bind _ _ (fun _ => True)); [now apply attrgroup_safe|]. intros a w' _. destruct (nonempty _); keep H. }
  destruct (String.eqb _ _); [discriminate|].
  destruct (String.eqb _ _).
  { apply (safe_bind _ _ (fun _ => True)); [apply choice_safe|]. intros a w' _. keep H. }
  destruct (String.eqb _ _).
  { unfold on_complex_type. cbv zeta. destruct (nonempty _); [|destruct (String.eqb _ _)]; cbn [p_element set_current];
      try (destruct (p_element p); [discriminate|]); keep H. }
  destruct (String.eqb _ _).
  { unfold on_element. apply (safe_bind _ _ (fun e => S (el_type e) /\ R (el_name e))); [apply element_safe; auto; now apply HRS|].
    intros e w' [He Hn]. cbv zeta. destruct (String.eqb _ _).
    - apply (safe_bind _ _ S); [now apply Hgvt|]. intros t w2 Ht. apply place_inv. keep H. now apply app_ok.
    - apply place_inv. keep H. now apply app_ok. }
  destruct (String.eqb _ _).
  { unfold on_enumeration. assert (Hs : Forall (fun s => S (st_base s)) (p_simple p)) by apply H. keep H.
    clear - Hs. revert Hs. generalize (p_simple p). induction l as [|x l IH]; intros st Hs; [exact Hs|]. cbn. apply IH.
    destruct (String.eqb _ _); [now apply simple_top|exact Hs]. }
  destruct (String.eqb _ _); [now apply extension_safe|].
  destruct (String.eqb _ _).
  { apply (safe_bind _ _ (fun _ => True)); [now apply group_safe|]. intros a w' _. cbv zeta. destruct (nonempty _); [keep H|].
    destruct (_ =? _)%Z; [keep H|]. destruct (_ <? _)%Z; [|exact H]. destruct (p_group p); [discriminate|keep H]. }
  destruct (String.eqb _ _); [exact H|]. destruct (String.eqb _ _); [exact H|].
  destruct (String.eqb _ _).
  { unfold on_list. destruct (nonempty _); [|exact H]. apply list_safe; auto. keep H. now apply simple_top. }
  destruct (String.eqb _ _); [now apply restriction_safe|].
  destruct (String.eqb _ _); [exact H|].
  destruct (String.eqb _ _).
  { unfold on_simple_type. keep H. apply simple_top; [auto|]. destruct (p_simple p); [repeat constructor; exact HS|assumption]. }
  destruct (String.eqb _ _); [|exact H].
  unfold on_union. cbv zeta. destruct (nonempty _); [|keep H]. apply union_safe; auto. keep H. now apply simple_top.
Qed.

Lemma end_safe : forall local p w, inv p -> safe inv (dispatch_end gvt local p w).
Proof.
  intros local p w H. unfold dispatch_end. cbv zeta.
  destruct (String.eqb _ _).
  { unfold end_attribute. destruct (p_attribute p) as [|a r] eqn:Ha; [exact H|].
    destruct H as [H1 [H2 [H3 H4]]]. rewrite Ha in H4. inversion H4; subst.
    destruct (nonempty _); [repeat split; auto|]. destruct (nonempty _); [repeat split; auto|].
    apply node_inv; [repeat split; auto|assumption]. }
  destruct (String.eqb _ _).
  { unfold end_attribute_group. destruct (p_attrgroup p); [exact H|]. keep H. now apply app_ok. }
  destruct (String.eqb _ _); [keep H|].
  destruct (String.eqb _ _).
  { unfold end_complex_type. keep H. apply app_ok; [assumption|]. now destruct (p_complex p). }
  destruct (String.eqb _ _).
  { unfold end_element. destruct (p_element p); [exact H|]. destruct (nonempty _); [exact H|]. keep H. now apply app_ok. }
  destruct (String.eqb _ _).
  { apply (safe_bind _ _ inv); [now apply base_to_attribute_safe|]. intros q w' Hq. now apply base_to_element_safe. }
  destruct (String.eqb _ _); [now apply base_to_attribute_safe|].
  destruct (String.eqb _ _).
  { unfold end_group. cbv zeta.
    assert (Hq : inv (if String.eqb local (p_current p) && (p_in_group p =? 1)%Z
      then set_in_group (p_in_group p - 1)%Z (set_current "" (set_group (tl (p_group p)) (append_tree (pop_node PGroup (p_group p)) p))) else p)).
    { destruct (_ && _); [|exact H]. keep H. apply app_ok; [assumption|]. now destruct (p_group p). }
    revert Hq. match goal with |- inv ?q -> _ => generalize q end. intros q Hq. cbn [safe]. destruct (String.eqb _ _); exact Hq. }
  destruct (String.eqb _ _).
  { apply (safe_bind _ _ inv); [now apply base_to_attribute_safe|]. intros q w' Hq. now apply base_to_element_safe. }
  destruct (String.eqb _ _).
  { apply (safe_bind _ _ inv); [now apply base_to_attribute_safe|]. intros q w' Hq. destruct (p_element q); [exact Hq|keep Hq]. }
  destruct (String.eqb _ _).
  { unfold end_simple_type.
    assert (Hrest : safe inv
      (let p := if String.eqb local (p_current p) && Nat.eqb (length (p_complex p)) 1
         then set_current "" (set_complex (tl (p_complex p)) (append_tree (pop_node PComplex (p_complex p)) p)) else p in
       Ret (if String.eqb local (p_current p) && negb (p_in_union p)
            then set_current "" (set_simple (tl (p_simple p)) (append_tree (pop_node PSimple (p_simple p)) p)) else p) w)).
    { cbv zeta. match goal with |- context [if String.eqb local (p_current p) && ?b then ?x else p] =>
        assert (Hq : inv (if String.eqb local (p_current p) && b then x else p)) end.
      { destruct (_ && _); [|exact H]. keep H. apply app_ok; [assumption|]. now destruct (p_complex p). }
      revert Hq. match goal with |- inv ?q -> _ => generalize q end. intros q Hq. cbn [safe]. destruct (_ && _); [|exact Hq].
      keep Hq; [apply app_ok; [assumption|now apply pop_simple]|now apply tl_ok]. }
    destruct (p_simple p) as [|s r] eqn:Hs; [exact Hrest|]. destruct (p_attribute p) as [|a r'] eqn:Ha; [exact Hrest|].
    clear Hrest. destruct H as [H1 [H2 [H3 H4]]]. rewrite Hs in H3. rewrite Ha in H4. inversion H3; subst. inversion H4; subst.
    repeat split; cbn; auto. }
  destruct (String.eqb _ _); [unfold end_union; cbn [safe]; destruct (nonempty _); keep H|].
  destruct (in_set _ _); [now apply base_to_element_safe|exact H].
Qed.

Theorem run_safe : forall ts p w, Forall token_ok ts -> inv p -> safe inv (run_tokens gvt ts p w).
Proof.
  intros ts. induction ts as [|t ts IH]; intros p w Ht Hp; [exact Hp|]. inversion Ht; subst. cbn [run_tokens].
  apply (safe_bind _ _ inv); [|intros q w' Hq; now apply IH].
  destruct t; cbn [on_token]; [now apply start_safe|now apply end_safe|now apply char_inv|exact Hp].
Qed.

End Calls.

(** * Resolvers that answer like a function as long as they are asked for
    allowed names *)

Section Transfer.
Context {E : Env}.
Variable R S : string -> Prop.
Hypothesis HRS : forall s, S s -> R s.
Hypothesis HS : S "".
Hypothesis Rdec : forall v, {R v} + {~ R v}.
Hypothesis Sdec : forall v, {S v} + {~ S v}.

Variable res : string -> list proto -> string.
Hypothesis HresS : forall v t, R v -> Forall (answers S) t -> S (res v t).

Definition as_resolver : resolver := fun v t w => Ret (res v t) w.

Definition answers_dec (t : proto) : {answers S t} + {~ answers S t}.
Proof. destruct t; cbn; try (now left); apply Sdec. Defined.

Definition guarded : resolver := fun v t w =>
  if Rdec v then if Forall_dec _ answers_dec t then Ret (res v t) w else Crash NoFuel w else Crash NoFuel w.

Lemma guarded_run : forall ts p p' w, Forall (token_ok R) ts -> inv S p ->
  run_tokens as_resolver ts p w = Ret p' w -> run_tokens guarded ts p w = Ret p' w /\ inv S p'.
Proof.
  intros ts p p' w Ht Hp Hr.
  assert (Hs : safe (inv S) (run_tokens guarded ts p w)).
  { apply (run_safe R S HRS HS); auto. intros v t w1 Hv Ha. unfold guarded. destruct (Rdec v); [|contradiction].
    destruct (Forall_dec _ _ _); [|contradiction]. now apply HresS. }
  assert (Hm : le_out (run_tokens guarded ts p w) (run_tokens as_resolver ts p w)).
  { apply run_mono. intros v t w1. unfold guarded. destruct (Rdec v); [destruct (Forall_dec _ _ _)|];
      [intros _; reflexivity|intros H; now elim (H w1)|intros H; now elim (H w1)]. }
  assert (Hf : finished (run_tokens guarded ts p w)).
  { intros w1 H. rewrite H in Hs. now elim Hs. }
  specialize (Hm Hf). rewrite Hr in Hm. rewrite <- Hm in Hs |- *. now split.
Qed.

Lemma interp_transfer : forall A (I : World -> Prop) gvt (g : prog A) w0 w a w1, ops (fun _ => False) g ->
  (forall v t w, R v -> Forall (answers S) t -> I w -> exists w', gvt v t w = Ret (res v t) w' /\ I w') ->
  interp guarded g w0 = Ret a w1 -> I w -> exists w', interp gvt g w = Ret a w' /\ I w'.
Proof.
  intros A I gvt g. induction g as [a|e| |v t k IH|o k IH]; intros w0 w b w1 Ho Hg Hr Hw; cbn in *; try discriminate.
  - injection Hr as <- <-. now exists w.
  - unfold guarded in Hr at 1. destruct (Rdec v) as [Hv|]; [|discriminate]. destruct (Forall_dec _ _ t) as [Ht|]; [|discriminate].
    cbn [bind] in Hr. destruct (Hg v t w Hv Ht Hw) as [w' [-> Hw']]. cbn [bind]. now apply (IH _ w0 w' b w1).
  - now destruct Ho.
Qed.

Theorem transfer : forall (I : World -> Prop) gvt ts p p' w w0, Forall (token_ok R) ts -> inv S p ->
  (forall o, ~ tokens_op ts o) ->
  (forall v t w, R v -> Forall (answers S) t -> I w -> exists w', gvt v t w = Ret (res v t) w' /\ I w') ->
  run_tokens as_resolver ts p w0 = Ret p' w0 -> I w ->
  exists w', run_tokens gvt ts p w = Ret p' w' /\ I w'.
Proof.
  intros I gvt ts p p' w w0 Ht Hp Ho Hg Hr Hw. destruct (guarded_run ts p p' w0 Ht Hp Hr) as [Hr' _].
  destruct (run_interp ts p) as [g [Hops Hint]]. rewrite Hint in Hr' |- *.
  apply (interp_transfer _ I gvt g w0 w p' w0); auto. apply (ops_impl _ (tokens_op ts)); [exact Ho|exact Hops].
Qed.

(** [res'] answers like [res] except where [Q] holds after the question. *)
Lemma interp_consult : forall A (I Q : World -> Prop) res' gvt (g : prog A) w0 w a w1 a' w1', ops (fun _ => False) g ->
  (forall v t w, R v -> Forall (answers S) t -> I w -> exists w', gvt v t w = Ret (res v t) w' /\ I w' /\ (Q w -> Q w') /\
     (Q w' \/ res' v t = res v t)) ->
  interp guarded g w0 = Ret a w1 -> interp (fun v t w => Ret (res' v t) w) g w0 = Ret a' w1' -> I w ->
  exists w', interp gvt g w = Ret a w' /\ (Q w' \/ a' = a).
Proof.
  intros A I Q res' gvt g. induction g as [a|e| |v t k IH|o k IH]; intros w0 w b w1 b' w1' Ho Hg Hr Hr' Hw; cbn in *; try discriminate.
  - injection Hr as <- <-. injection Hr' as <- <-. exists w. split; [reflexivity|now right].
  - unfold guarded in Hr at 1. destruct (Rdec v) as [Hv|]; [|discriminate]. destruct (Forall_dec _ _ t) as [Ht|]; [|discriminate].
    cbn [bind] in Hr. destruct (Hg v t w Hv Ht Hw) as [w' [-> [Hw' [_ [HQ|Heq]]]]]; cbn [bind].
    + destruct (interp_transfer A (fun w => I w /\ Q w) gvt (k (res v t)) w0 w' b w1) as [w2 [H2 [_ HQ2]]]; auto.
      * intros v' t' w2 Hv' Ht' [Hi Hq]. destruct (Hg v' t' w2 Hv' Ht' Hi) as [w3 [H3 [Hi3 [Hq3 _]]]]. exists w3. auto.
      * exists w2. split; [exact H2|now left].
    + rewrite Heq in Hr'. now apply (IH _ w0 w' b w1 b' w1').
  - now destruct Ho.
Qed.

Theorem consult : forall (I Q : World -> Prop) res' gvt ts p p' q' w w0, Forall (token_ok R) ts -> inv S p ->
  (forall o, ~ tokens_op ts o) ->
  (forall v t w, R v -> Forall (answers S) t -> I w -> exists w', gvt v t w = Ret (res v t) w' /\ I w' /\ (Q w -> Q w') /\
     (Q w' \/ res' v t = res v t)) ->
  run_tokens as_resolver ts p w0 = Ret p' w0 -> run_tokens (fun v t w => Ret (res' v t) w) ts p w0 = Ret q' w0 -> I w ->
  exists w', run_tokens gvt ts p w = Ret p' w' /\ (Q w' \/ q' = p').
Proof.
  intros I Q res' gvt ts p p' q' w w0 Ht Hp Ho Hg Hr Hq Hw. destruct (guarded_run ts p p' w0 Ht Hp Hr) as [Hr' _].
  destruct (run_interp ts p) as [g [Hops Hint]]. rewrite Hint in Hr', Hq |- *.
  apply (interp_consult _ I Q res' gvt g w0 w p' w0 q' w0); auto. apply (ops_impl _ (tokens_op ts)); [exact Ho|exact Hops].
Qed.

End Transfer.
