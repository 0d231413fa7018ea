(** Every document run is a program that does not look at the type resolver
    except by calling it.  General facts about runs are proved once, on such
    programs. *)

From Coq Require Import String Ascii List NArith ZArith Bool Lia.
From Verif Require Import GoStr Base Utils World Handlers.
Import ListNotations.
Local Open Scope string_scope.

Definition resolver : Type := string -> list proto -> World -> out string.

(** Direct changes of the world by handlers. *)
Inductive wop : Type := WImport (l : list xattr) | WInclude (l : list xattr) | WSchema (l : list xattr).

Inductive prog (A : Type) : Type :=
| GRet (a : A)
| GFail (e : goerr)
| GPanic
| GCall (v : string) (t : list proto) (k : string -> prog A)
| GWorld (o : wop) (k : prog A).
Arguments GRet {A}. Arguments GFail {A}. Arguments GPanic {A}. Arguments GCall {A}. Arguments GWorld {A}.

Section Programs.
Context {E : Env}.

Definition do_wop (o : wop) (w : World) : World :=
  match o with
  | WImport l => set_nsl (prepare_nsl l "" (w_nsl w)) w
  | WInclude l => set_inc (fold_left (fun m x => if String.eqb (a_local x) "schemaLocation"
                                                 then add_key (a_value x) m else m) l (w_inc w)) w
  | WSchema l => set_lns (fold_left (fun m x => if String.eqb (a_space x) "xmlns"
                                                then put (a_local x) (a_value x) m else m) l (w_lns w)) w
  end.

Fixpoint interp {A} (gvt : resolver) (g : prog A) (w : World) : out A :=
  match g with
  | GRet a => Ret a w
  | GFail e => Fail e w
  | GPanic => Crash Panic w
  | GCall v t k => bind (gvt v t w) (fun s w => interp gvt (k s) w)
  | GWorld o k => interp gvt k (do_wop o w)
  end.

Fixpoint gbind {A B} (g : prog A) (k : A -> prog B) : prog B :=
  match g with
  | GRet a => k a
  | GFail e => GFail e
  | GPanic => GPanic
  | GCall v t f => GCall v t (fun s => gbind (f s) k)
  | GWorld o f => GWorld o (gbind f k)
  end.

Lemma interp_gbind : forall A B gvt (g : prog A) (k : A -> prog B) w,
  interp gvt (gbind g k) w = bind (interp gvt g w) (fun a w => interp gvt (k a) w).
Proof.
  intros A B gvt g k. induction g as [a|e| |v t f IH|o f IH]; intros w; cbn; try reflexivity.
  - destruct (gvt v t w) as [s w1|e w1|c w1]; cbn; [apply IH|reflexivity|reflexivity].
  - apply IH.
Qed.

(** All direct changes satisfy [Q]. *)
Fixpoint ops {A} (Q : wop -> Prop) (g : prog A) : Prop :=
  match g with
  | GRet _ | GFail _ | GPanic => True
  | GCall _ _ k => forall s, ops Q (k s)
  | GWorld o k => Q o /\ ops Q k
  end.

Lemma ops_gbind : forall A B Q (g : prog A) (k : A -> prog B), ops Q g -> (forall a, ops Q (k a)) ->
  ops Q (gbind g k).
Proof.
  intros A B Q g k Hg Hk. induction g as [a|e| |v t f IH|o f IH]; cbn in Hg |- *; auto.
  destruct Hg as [H1 H2]. split; [exact H1|now apply IH].
Qed.

Lemma ops_impl : forall A (Q Q' : wop -> Prop) (g : prog A), (forall o, Q o -> Q' o) -> ops Q g -> ops Q' g.
Proof.
  intros A Q Q' g H Hg. induction g as [a|e| |v t f IH|o f IH]; cbn in Hg |- *; auto.
  destruct Hg as [H1 H2]. split; [now apply H|now apply IH].
Qed.

(** [F] is such a program. *)
Definition reified {A} (Q : wop -> Prop) (F : resolver -> World -> out A) : Type :=
  {g : prog A | (forall gvt w, F gvt w = interp gvt g w) /\ ops Q g}.

Section Q.
Variable Q : wop -> Prop.

Lemma r_ret : forall A (a : A), reified Q (fun _ w => Ret a w).
Proof. intros A a. now exists (GRet a). Defined.
Lemma r_fail : forall A e, reified Q (fun _ w => @Fail A e w).
Proof. intros A e. now exists (GFail e). Defined.
Lemma r_panic : forall A, reified Q (fun _ w => @Crash A Panic w).
Proof. intros A. now exists GPanic. Defined.
Lemma r_world : forall A o (a : A), Q o -> reified Q (fun _ w => Ret a (do_wop o w)).
Proof. intros A o a H. now exists (GWorld o (GRet a)). Defined.
Lemma r_call : forall v t, reified Q (fun gvt w => gvt v t w).
Proof.
  intros v t. exists (GCall v t GRet). split; [|now cbn]. intros gvt w. cbn. now destruct (gvt v t w).
Defined.
Lemma r_bind : forall A B (F : resolver -> World -> out A) (K : A -> resolver -> World -> out B),
  reified Q F -> (forall a, reified Q (K a)) -> reified Q (fun gvt w => bind (F gvt w) (fun a w => K a gvt w)).
Proof.
  intros A B F K [g [Hg Ho]] HK. exists (gbind g (fun a => proj1_sig (HK a))). split.
  - intros gvt w. rewrite interp_gbind, <- Hg. destruct (F gvt w) as [a w1|e w1|c w1]; cbn; try reflexivity.
    apply (proj2_sig (HK a)).
  - apply ops_gbind; [exact Ho|]. intros a. apply (proj2_sig (HK a)).
Defined.

End Q.

Ltac rstep :=
  match goal with
  | |- reified _ (fun gvt w => bind _ _) => apply r_bind; [|intros]
  | |- reified _ (fun gvt w => gvt _ _ w) => apply r_call
  | |- reified _ (fun gvt w => Ret _ w) => apply r_ret
  | |- reified _ (fun gvt w => Fail _ w) => apply r_fail
  | |- reified _ (fun gvt w => Crash Panic w) => apply r_panic
  | |- reified _ (fun gvt w => if ?b then _ else _) => destruct b
  | |- reified _ (fun gvt w => match ?x with _ => _ end) => destruct x
  | |- reified _ (fun gvt w => let p := ?x in @?f p gvt w) => cbv zeta
  | H : _ |- _ => apply H
  end.
Ltac reify := cbn; repeat rstep.

Lemma r_attribute_attrs : forall Q tree l a, reified Q (fun gvt w => attribute_attrs gvt tree l a w).
Proof. intros Q tree l. induction l as [|x r IH]; intros a; reify. Defined.
Lemma r_attrgroup_attrs : forall Q tree l a, reified Q (fun gvt w => attrgroup_attrs gvt tree l a w).
Proof. intros Q tree l. induction l as [|x r IH]; intros a; reify. Defined.
Lemma r_choice_attrs : forall Q l b, reified Q (fun _ w => choice_attrs l b w).
Proof. intros Q l. induction l as [|x r IH]; intros a; reify. Defined.
Lemma r_element_attrs : forall Q tree l e, reified Q (fun gvt w => element_attrs gvt tree l e w).
Proof. intros Q tree l. induction l as [|x r IH]; intros a; reify. Defined.
Lemma r_extension_attrs : forall Q tree l p, reified Q (fun gvt w => extension_attrs gvt tree l p w).
Proof. intros Q tree l. induction l as [|x r IH]; intros a; reify. Defined.
Lemma r_group_attrs : forall Q tree l g, reified Q (fun gvt w => group_attrs gvt tree l g w).
Proof. intros Q tree l. induction l as [|x r IH]; intros a; reify. Defined.
Lemma r_list_attrs : forall Q tree l p, reified Q (fun gvt w => list_attrs gvt tree l p w).
Proof. intros Q tree l. induction l as [|x r IH]; intros a; reify. Defined.
Lemma r_restriction_attrs : forall Q tree l p, reified Q (fun gvt w => restriction_attrs gvt tree l p w).
Proof. intros Q tree l. induction l as [|x r IH]; intros a; reify. Defined.
Lemma r_union_members : forall Q tree l p, reified Q (fun gvt w => union_members gvt tree l p w).
Proof. intros Q tree l. induction l as [|x r IH]; intros a; reify. Defined.
Lemma r_union_attrs : forall Q tree l p, reified Q (fun gvt w => union_attrs gvt tree l p w).
Proof.
  intros Q tree l. induction l as [|x r IH]; intros a; cbn; [reify|].
  destruct (String.eqb (a_local x) "memberTypes"); [|reify].
  apply (r_bind _ _ _ (fun gvt w => union_members gvt tree (split_on " " (a_value x)) a w)
           (fun a gvt w => union_attrs gvt tree r a w)); [apply r_union_members|exact IH].
Defined.
Lemma r_base_to_attribute : forall Q b p, reified Q (fun gvt w => base_to_attribute gvt b p w).
Proof. intros Q b p. unfold base_to_attribute. reify. Defined.
Lemma r_base_to_element : forall Q b p, reified Q (fun gvt w => base_to_element gvt b p w).
Proof. intros Q b p. unfold base_to_element. reify. Defined.

(** The direct changes a token can make. *)
Definition token_op (t : token) (o : wop) : Prop :=
  match t with
  | TStart local l => (to_title local = "Import" /\ o = WImport l) \/ (to_title local = "Include" /\ o = WInclude l) \/
                      (to_title local = "Schema" /\ o = WSchema l)
  | _ => False
  end.

Lemma r_on_token : forall t p, reified (token_op t) (fun gvt w => on_token gvt t p w).
Proof.
  intros [local l|local|data|] p.
  - cbn. unfold dispatch_start. cbv zeta. set (q := set_in_element local p). clearbody q.
    repeat match goal with |- reified _ (fun gvt w => if ?b then _ else _) => destruct b eqn:? end;
      repeat match goal with H : String.eqb _ _ = true |- _ => apply String.eqb_eq in H end.
    + unfold on_attribute. apply r_bind; [apply r_attribute_attrs|intros; reify].
    + unfold on_attribute_group. apply r_bind; [apply r_attrgroup_attrs|intros; reify].
    + apply r_panic.
    + unfold on_choice. apply r_bind; [apply r_choice_attrs|intros; reify].
    + unfold on_complex_type. reify.
    + unfold on_element. apply r_bind; [apply r_element_attrs|intros; unfold place_element; reify].
    + unfold on_enumeration. reify.
    + apply r_extension_attrs.
    + unfold on_group. apply r_bind; [apply r_group_attrs|intros; reify].
    + apply (r_world _ _ (WImport l)); cbn; auto.
    + apply (r_world _ _ (WInclude l)); cbn; auto.
    + unfold on_list. destruct (nonempty (p_simple q)); [apply r_list_attrs|reify].
    + apply r_restriction_attrs.
    + apply (r_world _ _ (WSchema l)); cbn; auto.
    + unfold on_simple_type. reify.
    + unfold on_union. cbv zeta. destruct (nonempty _); [apply r_union_attrs|reify].
    + reify.
  - cbn. unfold dispatch_end. cbv zeta.
    repeat match goal with |- reified _ (fun gvt w => if ?b then _ else _) => destruct b end.
    + unfold end_attribute. reify.
    + unfold end_attribute_group. reify.
    + unfold end_choice. reify.
    + unfold end_complex_type. reify.
    + unfold end_element. reify.
    + unfold end_enumeration.
      apply (r_bind _ _ _ _ (fun a gvt w => base_to_element gvt false a w));
        [apply r_base_to_attribute|intros; apply r_base_to_element].
    + apply r_base_to_attribute.
    + unfold end_group. reify.
    + unfold end_pattern.
      apply (r_bind _ _ _ _ (fun a gvt w => base_to_element gvt true a w));
        [apply r_base_to_attribute|intros; apply r_base_to_element].
    + unfold end_restriction. apply r_bind; [apply r_base_to_attribute|intros; reify].
    + unfold end_simple_type. reify.
    + unfold end_union. reify.
    + apply r_base_to_element.
    + reify.
  - cbn. apply r_ret.
  - cbn. apply r_ret.
Defined.

Definition tokens_op (ts : list token) (o : wop) : Prop := exists t, In t ts /\ token_op t o.

Lemma r_run_tokens : forall ts p, reified (tokens_op ts) (fun gvt w => run_tokens gvt ts p w).
Proof.
  intros ts. induction ts as [|t r IH]; intros p; cbn [run_tokens]; [apply r_ret|].
  apply (r_bind _ _ _ _ (fun a gvt w => run_tokens gvt r a w)).
  - destruct (r_on_token t p) as [g [Hg Ho]]. exists g. split; [exact Hg|].
    apply (ops_impl _ (token_op t)); [|exact Ho]. intros o H. exists t. cbn. auto.
  - intros a. destruct (IH a) as [g [Hg Ho]]. exists g. split; [exact Hg|].
    apply (ops_impl _ (tokens_op r)); [|exact Ho]. intros o [t' [H1 H2]]. exists t'. cbn. auto.
Defined.

(** * Facts about programs *)

(** One run: a preorder on worlds. *)
Lemma interp_rel : forall A Q (R : World -> World -> Prop) gvt (g : prog A), ops Q g ->
  (forall w, R w w) -> (forall a b c, R a b -> R b c -> R a c) ->
  (forall o w, Q o -> R w (do_wop o w)) -> (forall v t w, R w (out_world (gvt v t w))) ->
  forall w, R w (out_world (interp gvt g w)).
Proof.
  intros A Q R gvt g Ho Hr Ht Hw Hg. induction g as [a|e| |v t k IH|o k IH]; intros w; cbn; auto.
  - pose proof (Hg v t w) as H. cbn in Ho. destruct (gvt v t w) as [s w1|e w1|c w1]; cbn in H |- *; auto.
    eapply Ht; [exact H|exact (IH s (Ho s) _)].
  - destruct Ho as [H1 H2]. eapply Ht; [exact (Hw o w H1)|exact (IH H2 _)].
Qed.

(** One run: an invariant of the world that every step keeps; [C] the possible
    crashes. *)
Definition good {A} (I : World -> Prop) (C : crash -> Prop) (m : out A) : Prop :=
  I (out_world m) /\ match m with Crash c _ => C c | _ => True end.

Lemma interp_inv : forall A Q (I : World -> Prop) (C : crash -> Prop) gvt (g : prog A), ops Q g ->
  (forall o w, Q o -> I w -> I (do_wop o w)) -> (forall v t w, I w -> good I C (gvt v t w)) -> C Panic ->
  forall w, I w -> good I C (interp gvt g w).
Proof.
  intros A Q I C gvt g Ho Hw Hg HP. induction g as [a|e| |v t k IH|o k IH]; intros w Hi; cbn.
  - now split.
  - now split.
  - now split.
  - destruct (Hg v t w Hi) as [H1 H2]. destruct (gvt v t w) as [s w1|e w1|c w1]; cbn in H1, H2 |- *.
    + now apply IH.
    + now split.
    + now split.
  - destruct Ho as [H1 H2]. now apply IH, Hw.
Qed.

(** Two runs. *)
Inductive sim_out {A B} (RW : World -> World -> Prop) (RV : A -> B -> Prop) : out A -> out B -> Prop :=
| sim_ret a b w w' : RV a b -> RW w w' -> sim_out RW RV (Ret a w) (Ret b w')
| sim_fail e w w' : RW w w' -> sim_out RW RV (Fail e w) (Fail e w')
| sim_crash c w w' : RW w w' -> sim_out RW RV (Crash c w) (Crash c w').

Lemma sim_bind : forall A B C D (RW : World -> World -> Prop) (RV : A -> B -> Prop) (RV2 : C -> D -> Prop) m m' f f',
  sim_out RW RV m m' ->
  (forall a b w w', RV a b -> RW w w' -> sim_out RW RV2 (f a w) (f' b w')) ->
  sim_out RW RV2 (bind m f) (bind m' f').
Proof. intros A B C D RW RV RV2 m m' f f' H Hf. destruct H; cbn; [now apply Hf|now constructor|now constructor]. Qed.

Lemma interp_sim : forall A (RW : World -> World -> Prop) gvt gvt' (g : prog A),
  (forall o w w', RW w w' -> RW (do_wop o w) (do_wop o w')) ->
  (forall v t w w', RW w w' -> sim_out RW eq (gvt v t w) (gvt' v t w')) ->
  forall w w', RW w w' -> sim_out RW eq (interp gvt g w) (interp gvt' g w').
Proof.
  intros A RW gvt gvt' g Hw Hg. induction g as [a|e| |v t k IH|o k IH]; intros w w' H; cbn;
    try now constructor.
  - eapply sim_bind; [now apply Hg|]. intros a b w1 w2 <- H2. now apply IH.
  - now apply IH, Hw.
Qed.

(** More budget never changes a proper outcome. *)
Definition finished {A} (m : out A) : Prop := forall w, m <> Crash NoFuel w.
Definition le_out {A} (m m' : out A) : Prop := finished m -> m' = m.

Lemma le_out_refl : forall A (m : out A), le_out m m.
Proof. now intros A m H. Qed.

Lemma le_out_bind : forall A B (m m' : out A) (f f' : A -> World -> out B),
  le_out m m' -> (forall a w, m = Ret a w -> le_out (f a w) (f' a w)) -> le_out (bind m f) (bind m' f').
Proof.
  intros A B m m' f f' Hm Hf Hn. destruct m as [a w|e w|c w].
  - rewrite Hm by discriminate. cbn in Hn |- *. now apply Hf.
  - now rewrite Hm by discriminate.
  - rewrite Hm; [reflexivity|]. intros w1 H. injection H as -> ->. now apply (Hn w1).
Qed.

Lemma interp_mono : forall A gvt gvt' (g : prog A), (forall v t w, le_out (gvt v t w) (gvt' v t w)) ->
  forall w, le_out (interp gvt g w) (interp gvt' g w).
Proof.
  intros A gvt gvt' g Hg. induction g as [a|e| |v t k IH|o k IH]; intros w; cbn; try apply le_out_refl; auto.
  apply le_out_bind; [apply Hg|]. intros s w1 _. apply IH.
Qed.

(** A family of runs that is constant from some index on, with a proper
    outcome. *)
Definition settles {A} (F : nat -> out A) : Prop :=
  exists n r, finished r /\ forall f, n <= f -> F f = r.

Lemma settles_const : forall A (r : out A), finished r -> settles (fun _ => r).
Proof. intros A r H. now exists 0, r. Qed.

Lemma settles_bind : forall A B (F : nat -> out A) (K : nat -> A -> World -> out B),
  settles F -> (forall n a w, F n = Ret a w -> settles (fun f => K f a w)) ->
  settles (fun f => bind (F f) (K f)).
Proof.
  intros A B F K [n [r [Hr Hn]]] HK. destruct r as [a w|e w|c w].
  - destruct (HK n a w (Hn n (le_n _))) as [m [r' [Hr' Hm]]]. exists (Nat.max n m), r'. split; [exact Hr'|].
    intros f Hf. rewrite Hn by lia. cbn. apply Hm. lia.
  - exists n, (Fail e w). split; [intros w1; discriminate|]. intros f Hf. now rewrite Hn.
  - exists n, (Crash c w). split; [intros w1 H; injection H as -> ->; now apply (Hr w1)|].
    intros f Hf. now rewrite Hn.
Qed.

(** Under an invariant of the world. *)
Lemma interp_settles : forall A (I : World -> Prop) (gvt : nat -> resolver) (g : prog A),
  (forall o w, I w -> I (do_wop o w)) ->
  (forall v t w, I w -> settles (fun f => gvt f v t w)) ->
  (forall f v t w s w', I w -> gvt f v t w = Ret s w' -> I w') ->
  forall w, I w -> settles (fun f => interp (gvt f) g w).
Proof.
  intros A I gvt g Hw Hs Hi. induction g as [a|e| |v t k IH|o k IH]; intros w H; cbn.
  - apply settles_const. discriminate.
  - apply settles_const. discriminate.
  - apply settles_const. discriminate.
  - apply (settles_bind _ _ (fun f => gvt f v t w) (fun f s w => interp (gvt f) (k s) w)).
    + now apply Hs.
    + intros n s w1 H1. apply IH. now apply (Hi n v t w s).
  - now apply IH, Hw.
Qed.

Lemma run_interp : forall ts p, exists g, ops (tokens_op ts) g /\
  forall gvt w, run_tokens gvt ts p w = interp gvt g w.
Proof. intros ts p. destruct (r_run_tokens ts p) as [g [H1 H2]]. now exists g. Qed.

Lemma run_rel : forall (R : World -> World -> Prop) gvt ts,
  (forall w, R w w) -> (forall a b c, R a b -> R b c -> R a c) ->
  (forall o w, tokens_op ts o -> R w (do_wop o w)) -> (forall v t w, R w (out_world (gvt v t w))) ->
  forall p w, R w (out_world (run_tokens gvt ts p w)).
Proof.
  intros R gvt ts H1 H2 H3 H4 p w. destruct (run_interp ts p) as [g [Ho Hg]]. rewrite Hg.
  now apply (interp_rel _ (tokens_op ts)).
Qed.

Lemma run_inv : forall (I : World -> Prop) (C : crash -> Prop) gvt ts,
  (forall o w, tokens_op ts o -> I w -> I (do_wop o w)) -> (forall v t w, I w -> good I C (gvt v t w)) -> C Panic ->
  forall p w, I w -> good I C (run_tokens gvt ts p w).
Proof.
  intros I C gvt ts H1 H2 H3 p w H. destruct (run_interp ts p) as [g [Ho Hg]]. rewrite Hg.
  now apply (interp_inv _ (tokens_op ts)).
Qed.

Lemma run_sim : forall (RW : World -> World -> Prop) gvt gvt',
  (forall o w w', RW w w' -> RW (do_wop o w) (do_wop o w')) ->
  (forall v t w w', RW w w' -> sim_out RW eq (gvt v t w) (gvt' v t w')) ->
  forall ts p w w', RW w w' -> sim_out RW eq (run_tokens gvt ts p w) (run_tokens gvt' ts p w').
Proof. intros RW gvt gvt' H1 H2 ts p w w' H. destruct (run_interp ts p) as [g [_ Hg]]. rewrite !Hg. now apply interp_sim. Qed.

Lemma run_mono : forall gvt gvt', (forall v t w, le_out (gvt v t w) (gvt' v t w)) ->
  forall ts p w, le_out (run_tokens gvt ts p w) (run_tokens gvt' ts p w).
Proof. intros gvt gvt' H ts p w. destruct (run_interp ts p) as [g [_ Hg]]. rewrite !Hg. now apply interp_mono. Qed.

Lemma run_settles : forall (I : World -> Prop) (gvt : nat -> resolver),
  (forall o w, I w -> I (do_wop o w)) ->
  (forall v t w, I w -> settles (fun f => gvt f v t w)) ->
  (forall f v t w s w', I w -> gvt f v t w = Ret s w' -> I w') ->
  forall ts p w, I w -> settles (fun f => run_tokens (gvt f) ts p w).
Proof.
  intros I gvt H1 H2 H3 ts p w H. destruct (run_interp ts p) as [g [_ Hg]].
  destruct (interp_settles _ I gvt g H1 H2 H3 w H) as [n [r [Hr Hn]]].
  exists n, r. split; [exact Hr|]. intros f Hf. rewrite Hg. now apply Hn.
Qed.

(** Extensionality. *)
Lemma run_ext : forall gvt gvt', (forall v t w, gvt v t w = gvt' v t w) ->
  forall ts p w, run_tokens gvt ts p w = run_tokens gvt' ts p w.
Proof.
  intros gvt gvt' H ts p w.
  assert (S : sim_out eq eq (run_tokens gvt ts p w) (run_tokens gvt' ts p w)).
  { apply run_sim; [now intros o w1 w2 <-| |reflexivity].
    intros v t w1 w2 <-. rewrite H. destruct (gvt' v t w1); now constructor. }
  destruct S; now subst.
Qed.

End Programs.
