(** Lemmas about interleaved generator runs. *)

From Coq Require Import String Ascii List NArith Bool Lia.
From Verif Require Import GoStr Base Utils GenGo GenC GenJava GenRust GenTS World Handlers Parser StrLemmas SpecStr SpecGen SpecOut
  GenText ParserProofs GenLemmas GenOutline GenRun GenNames GenFacts GenRuns Concurrent.
Import ListNotations.
Local Open Scope string_scope.

Local Infix "+++" := app (at level 60, right associativity).

Ltac same_uniq :=
  match goal with H : fst (uniq_name ?m ?n) = fst (uniq_name ?m' ?n) |- _ =>
    destruct (uniq_name m n) as [id c]; destruct (uniq_name m' n) as [id' c']; cbn [fst snd] in *; subst id' end.

Section Proofs.
Context {E : Env}.

(** The counter is read and changed at the identifier of the component only. *)
Lemma entry_agree : forall l pt p f a t x m m',
  (counting l p = true -> fst (uniq_name m (GenText.plain_ident l p)) = fst (uniq_name m' (GenText.plain_ident l p))) ->
  with_count [] (entry_of l pt (mkG f a t x m) p) = with_count [] (entry_of l pt (mkG f a t x m') p) /\
  (g_count (entry_of l pt (mkG f a t x m) p) = m \/
   counting l p = true /\ g_count (entry_of l pt (mkG f a t x m) p) = snd (uniq_name m (GenText.plain_ident l p))).
Proof.
  intros l pt p f a t x m m' H.
  destruct p as [|v|v|v|v|v|v]; [destruct l; (split; [reflexivity|now left])|..];
    destruct l; cbn [entry_of]; unfold_entries; unfold GenText.plain_ident in *; cbn [proto_name counting] in *;
    unfold declared; cbn [g_ast];
    match goal with |- context [has_key ?n a] => destruct (has_key n a) end; cbn [negb andb];
    rewrite ?andb_false_r; try (split; [reflexivity|now left]).
  all: try (rewrite ?is_union_eq).
  all: try (destruct (st_list v); cbn [andb negb orb] in *).
  all: try (destruct (is_union v); cbn [andb negb orb] in *).
  all: try (destruct (st_enum v); cbn [andb negb orb] in *).
  all: try (split; [reflexivity|now left]).
  all: try (destruct (inner_array _); split; [reflexivity|now left]).
  all: try (specialize (H eq_refl)).
  all: cbn [g_count set_time set_xml] in *.
  all: same_uniq.
  all: try (destruct (inner_array _)).
  all: split; [reflexivity|right; split; reflexivity].
Qed.

Definition counted (l : lang) (ps : list (proto * bool)) : list string :=
  map (GenText.plain_ident l) (filter (counting l) (map fst ps)).

Lemma counted_cons : forall l p e r,
  counted l ((p, e) :: r) = if counting l p then GenText.plain_ident l p :: counted l r else counted l r.
Proof. intros l p e r. unfold counted. cbn [map fst filter]. now destruct (counting l p). Qed.

Lemma declared_count : forall k m g, declared k (with_count m g) = declared k g.
Proof. reflexivity. Qed.

Lemma step_seen : forall l pt p g seen, (forall k, declared k g = true <-> In k seen) ->
  exists seen', (forall k, declared k (entry_of l pt g p) = true <-> In k seen') /\
    ((forall r, rendered l seen (p :: r) = rendered l seen' r) /\
     (forall m, entry_of l pt (with_count m g) p = with_count m g) \/
     exists e, forall r, rendered l seen (p :: r) = (p, e) :: rendered l seen' r).
Proof.
  intros l pt p g seen Hs. cbn [rendered]. destruct (proto_name p) as [n|] eqn:Hn.
  2: { exists seen. rewrite entry_nil by exact Hn. split; [exact Hs|]. left. split; [reflexivity|].
       intros m. now apply entry_nil. }
  destruct (in_dec string_dec n seen) as [Hin|Hin].
  - assert (Hd : declared n g = true) by now apply Hs. exists seen. destruct (enumerated l p) eqn:He.
    + split; [|right; eexists; reflexivity]. intros k. unfold declared in *.
      now rewrite (entry_anon l pt p g n Hn He (or_introl Hd)).
    + split; [|left; split; [reflexivity|]].
      * now rewrite (entry_skips l pt p g n Hn Hd He).
      * intros m. now apply (entry_skips l pt p _ n Hn).
  - assert (Hd : declared n g = false).
    { destruct (declared n g) eqn:Hd; [|reflexivity]. elim Hin. now apply Hs. }
    destruct (enumerated l p && negb (listed p)) eqn:He.
    + exists seen. split; [|right; eexists; reflexivity]. intros k. unfold declared in *.
      apply andb_true_iff in He as [He Hl]. apply negb_true_iff in Hl.
      now rewrite (entry_anon l pt p g n Hn He (or_intror Hl)).
    + exists (n :: seen). split; [|right; eexists; reflexivity].
      destruct (entry_records l pt p g n Hn Hd He) as [c Hc]. intros k.
      rewrite (put_declared _ _ _ _ _ Hc). cbn [In]. destruct (string_dec n k) as [->|Hne]; [now intuition|].
      rewrite Hs. intuition congruence.
Qed.

Lemma uniq_fresh : forall m n, get n m = None -> fst (uniq_name m n) = n.
Proof. intros m n H. unfold uniq_name. now rewrite H. Qed.

Lemma uniq_keys : forall m n k, get k (snd (uniq_name m n)) <> None -> get k m <> None \/ k = n.
Proof.
  intros m n k. unfold uniq_name. cbn [snd]. destruct (string_dec n k) as [->|Hne]; [now right|].
  rewrite get_put_other by exact Hne. now left.
Qed.

Lemma with_count_eq : forall g, with_count (g_count g) g = g.
Proof. now intros []. Qed.

Lemma with_count_twice : forall m m' g, with_count m (with_count m' g) = with_count m g.
Proof. reflexivity. Qed.

(** What one run has used, what it will use, and where it stands. *)
Definition holds (l : lang) (pt : list proto) (r : run_state) (used pending : list string) : Prop :=
  match r with
  | Waiting => used = [] /\ pending = counted l (rendered l [] pt)
  | Working todo g => exists fin seen,
      pt = fin +++ todo /\
      with_count [] g = with_count [] (fold_left (entry_of l pt) fin g_init) /\
      (forall k, declared k g = true <-> In k seen) /\
      pending = counted l (rendered l seen todo) /\
      (forall k, get k (g_count (fold_left (entry_of l pt) fin g_init)) <> None -> In k used)
  end.

Lemma advance_holds : forall l pt m r used pending, holds l pt r used pending ->
  NoDup (used +++ pending) -> (forall k, get k m <> None -> ~ In k pending) ->
  exists used' pending', used' +++ pending' = used +++ pending /\ incl used used' /\
    holds l pt (snd (advance (entry_of l) pt m r)) used' pending' /\
    (forall k, get k (fst (advance (entry_of l) pt m r)) <> None -> get k m <> None \/ In k used').
Proof.
  intros l pt m [|[|p todo] g] used pending Hh Hnd Hm; cbn [holds advance] in *.
  - destruct Hh as [-> ->]. exists [], (counted l (rendered l [] pt)). cbn [fst snd holds].
    split; [reflexivity|]. split; [apply incl_refl|]. split; [|intros k Hk; cbn in Hk; congruence].
    exists [], []. cbn [app fold_left]. repeat split; try reflexivity; try (intros H; cbn in H; congruence || contradiction).
  - exists used, pending. cbn [fst snd]. repeat split; auto using incl_refl.
  - destruct Hh as [fin [seen [Hpt [Hg [Hs [Hp Hk]]]]]]. cbn [fst snd holds].
    set (gs := fold_left (entry_of l pt) fin g_init) in *.
    assert (Hgm : with_count m g = with_count m gs).
    { apply (f_equal (with_count m)) in Hg. now rewrite !with_count_twice in Hg. }
    assert (Hgs : with_count (g_count gs) g = gs).
    { apply (f_equal (with_count (g_count gs))) in Hg. rewrite !with_count_twice in Hg. now rewrite with_count_eq in Hg. }
    destruct (step_seen l pt p (with_count m g) seen) as [seen' [Hs' Hstep]]; [exact Hs|].
    assert (Hfin : pt = (fin +++ [p]) +++ todo) by (now rewrite <- app_assoc).
    assert (Hfold : fold_left (entry_of l pt) (fin +++ [p]) g_init = entry_of l pt gs p).
    { now rewrite fold_left_app. }
    assert (Hgg : forall m', with_count m' g = mkG (g_field g) (g_ast g) (g_time g) (g_xml g) m') by reflexivity.
    assert (Huse : forall ids,
      pending = ids +++ counted l (rendered l seen' todo) ->
      (counting l p = true -> ids = [GenText.plain_ident l p]) ->
      exists used' pending', used' +++ pending' = used +++ pending /\ incl used used' /\
        (exists fin seen, pt = fin +++ todo /\
           with_count [] (entry_of l pt (with_count m g) p) = with_count [] (fold_left (entry_of l pt) fin g_init) /\
           (forall k, declared k (entry_of l pt (with_count m g) p) = true <-> In k seen) /\
           pending' = counted l (rendered l seen todo) /\
           (forall k, get k (g_count (fold_left (entry_of l pt) fin g_init)) <> None -> In k used')) /\
        (forall k, get k (g_count (entry_of l pt (with_count m g) p)) <> None -> get k m <> None \/ In k used')).
    { intros ids Hids Hc.
      assert (Hfr : counting l p = true -> get (GenText.plain_ident l p) m = None /\
                      get (GenText.plain_ident l p) (g_count gs) = None).
      { intros Hct. specialize (Hc Hct). rewrite Hids, Hc in *. split.
        - destruct (get _ m) eqn:Hgt; [|reflexivity]. elim (Hm (GenText.plain_ident l p)); [congruence | now left].
        - destruct (get _ (g_count gs)) eqn:Hgt; [|reflexivity].
          assert (Hin : In (GenText.plain_ident l p) used) by (apply Hk; congruence).
          apply NoDup_remove_2 in Hnd. elim Hnd. apply in_or_app. now left. }
      assert (Heq : counting l p = true -> fst (uniq_name m (GenText.plain_ident l p)) =
                      fst (uniq_name (g_count gs) (GenText.plain_ident l p))).
      { intros Hct. destruct (Hfr Hct). now rewrite !uniq_fresh. }
      destruct (entry_agree l pt p (g_field g) (g_ast g) (g_time g) (g_xml g) m (g_count gs) Heq) as [Ha Hcnt].
      destruct (entry_agree l pt p (g_field g) (g_ast g) (g_time g) (g_xml g) (g_count gs) m
                  (fun H => eq_sym (Heq H))) as [_ Hcnt'].
      rewrite <- !Hgg, Hgs in *.
      exists (used +++ ids), (counted l (rendered l seen' todo)).
      split; [now rewrite Hids, app_assoc|]. split; [now apply incl_appl, incl_refl|]. split.
      - exists (fin +++ [p]), seen'. rewrite Hfold. split; [exact Hfin|]. split; [exact Ha|]. split; [exact Hs'|].
        split; [reflexivity|]. intros k Hkk. apply in_or_app.
        destruct Hcnt' as [Hcn|[Hct Hcn]]; rewrite Hcn in Hkk; [left; now apply Hk|].
        apply uniq_keys in Hkk as [Hkk| ->]; [left; now apply Hk|]. right. rewrite (Hc Hct). now left.
      - intros k Hkk. destruct Hcnt as [Hcn|[Hct Hcn]]; rewrite Hcn in Hkk; [now left|].
        apply uniq_keys in Hkk as [Hkk| ->]; [now left|]. right. apply in_or_app. right. rewrite (Hc Hct). now left. }
    destruct Hstep as [[Hr Hsame]|[e Hr]].
    + exists used, pending. split; [reflexivity|]. split; [apply incl_refl|].
      assert (Hsm : forall m', entry_of l pt (with_count m' g) p = with_count m' g) by (intros m'; apply (Hsame m')).
      split.
      * exists (fin +++ [p]), seen'. rewrite Hfold. split; [exact Hfin|].
        rewrite <- Hgs at 1. rewrite !Hsm. split; [now rewrite !with_count_twice|].
        split; [intros k; rewrite <- (Hsm m); apply Hs'|]. split; [now rewrite <- Hr|].
        rewrite <- Hgs, Hsm, Hgs. exact Hk.
      * rewrite Hsm. intros k Hkk. now left.
    + apply (Huse (if counting l p then [GenText.plain_ident l p] else [])).
      * rewrite Hp, Hr, counted_cons. now destruct (counting l p).
      * now intros ->.
Qed.

Lemma interleave_holds : forall l1 pt1 l2 pt2 schedule m r1 r2 u1 p1 u2 p2,
  holds l1 pt1 r1 u1 p1 -> holds l2 pt2 r2 u2 p2 -> NoDup ((u1 +++ p1) +++ (u2 +++ p2)) ->
  (forall k, get k m <> None -> In k u1 \/ In k u2) ->
  exists u1' p1' u2' p2',
    holds l1 pt1 (snd (fst (interleave (entry_of l1) pt1 (entry_of l2) pt2 schedule m r1 r2))) u1' p1' /\
    holds l2 pt2 (snd (interleave (entry_of l1) pt1 (entry_of l2) pt2 schedule m r1 r2)) u2' p2'.
Proof.
  intros l1 pt1 l2 pt2. induction schedule as [|b s IH]; intros m r1 r2 u1 p1 u2 p2 H1 H2 Hnd Hm.
  { now exists u1, p1, u2, p2. }
  assert (Hnd' : NoDup (u1 +++ p1) /\ NoDup (u2 +++ p2) /\ (forall k, In k (u1 +++ p1) -> ~ In k (u2 +++ p2))).
  { clear -Hnd. induction (u1 +++ p1) as [|a r IH]; cbn in Hnd.
    - repeat split; [constructor|exact Hnd|tauto].
    - inversion Hnd as [|? ? Hn Hr]; subst. destruct (IH Hr) as [Ha [Hb Hc]]. rewrite in_app_iff in Hn. repeat split.
      + constructor; tauto.
      + exact Hb.
      + intros k [<-|Hk]; [tauto | now apply Hc]. }
  destruct Hnd' as [Hn1 [Hn2 Hdis]].
  assert (Hsplit : forall (u p : list string) k, NoDup (u +++ p) -> In k u -> ~ In k p).
  { clear. intros u p k. induction u as [|a u IH]; cbn; [tauto|]. intros H Hu Hp. inversion H as [|? ? Hn Hr]; subst.
    destruct Hu as [->|Hu]; [apply Hn, in_or_app; now right | now apply IH]. }
  destruct b; cbn [interleave].
  - destruct (advance_holds l1 pt1 m r1 u1 p1 H1 Hn1) as [u [p [Hup [Hin [Hh Hk]]]]].
    { intros k Hk Hp. destruct (Hm k Hk) as [Hu|Hu]; [now apply (Hsplit u1 p1 k)|].
      apply (Hdis k); apply in_or_app; tauto. }
    destruct (advance (entry_of l1) pt1 m r1) as [m' r1']. cbn [fst snd] in *.
    apply (IH m' r1' r2 u p u2 p2); try assumption; [now rewrite Hup|].
    intros k Hkk. destruct (Hk k Hkk) as [Hkm|Hku]; [|now left]. destruct (Hm k Hkm) as [Hx|Hx]; [left; now apply Hin | now right].
  - destruct (advance_holds l2 pt2 m r2 u2 p2 H2 Hn2) as [u [p [Hup [Hin [Hh Hk]]]]].
    { intros k Hk Hp. destruct (Hm k Hk) as [Hu|Hu]; [|now apply (Hsplit u2 p2 k)].
      apply (Hdis k); apply in_or_app; tauto. }
    destruct (advance (entry_of l2) pt2 m r2) as [m' r2']. cbn [fst snd] in *.
    apply (IH m' r1 r2' u1 p1 u p); try assumption; [now rewrite Hup|].
    intros k Hkk. destruct (Hk k Hkk) as [Hkm|Hku]; [|now right]. destruct (Hm k Hkm) as [Hx|Hx]; [now left | right; now apply Hin].
Qed.

Lemma interleave_same : forall l1 pt1 l2 pt2 schedule m m' g1 g2,
  NoDup (counted l1 (rendered l1 [] pt1) +++ counted l2 (rendered l2 [] pt2)) ->
  interleave (entry_of l1) pt1 (entry_of l2) pt2 schedule m Waiting Waiting = (m', Working [] g1, Working [] g2) ->
  with_count [] g1 = with_count [] (run_entries (entry_of l1) pt1) /\
  with_count [] g2 = with_count [] (run_entries (entry_of l2) pt2).
Proof.
  intros l1 pt1 l2 pt2 schedule m m' g1 g2 Hnd Hi.
  assert (Hi' : interleave (entry_of l1) pt1 (entry_of l2) pt2 schedule [] Waiting Waiting = (m', Working [] g1, Working [] g2)).
  { destruct schedule as [|[] s]; [discriminate Hi|exact Hi..]. }
  destruct (interleave_holds l1 pt1 l2 pt2 schedule [] Waiting Waiting [] (counted l1 (rendered l1 [] pt1)) []
              (counted l2 (rendered l2 [] pt2))) as [u1 [p1 [u2 [p2 [H1 H2]]]]]; try (now split); try exact Hnd.
  { intros k Hk. cbn in Hk. congruence. }
  rewrite Hi' in H1, H2. cbn [fst snd holds] in H1, H2.
  destruct H1 as [f1 [s1 [E1 [G1 _]]]]. destruct H2 as [f2 [s2 [E2 [G2 _]]]].
  rewrite app_nil_r in E1, E2. subst f1 f2. now split.
Qed.

(** * One run after the other *)

Lemma started_stays : forall e1 pt1 e2 pt2 s m r1 todo g, 
  snd (interleave e1 pt1 e2 pt2 s m r1 (Working todo g)) <> Waiting.
Proof.
  intros e1 pt1 e2 pt2. induction s as [|[] s IH]; intros m r1 todo g; cbn [interleave]; [discriminate|..].
  - destruct (advance e1 pt1 m r1) as [m' r1']. apply IH.
  - destruct todo as [|p todo]; cbn [advance]; apply IH.
Qed.

Lemma finish_alone : forall e1 pt1 e2 pt2 s m todo g m' g',
  interleave e1 pt1 e2 pt2 s m (Working todo g) Waiting = (m', Working [] g', Waiting) ->
  m = g_count g -> g' = fold_left (e1 pt1) todo g.
Proof.
  intros e1 pt1 e2 pt2. induction s as [|[] s IH]; intros m todo g m' g' H Hm; cbn [interleave] in H.
  - now injection H as H1 -> H2.
  - destruct todo as [|p todo]; cbn [advance] in H; [now apply (IH m [] g m' g')|].
    subst m. rewrite with_count_eq in H. now apply (IH _ _ _ _ _ H).
  - cbn [advance] in H. elim (started_stays e1 pt1 e2 pt2 s [] (Working todo g) pt2 g_init). now rewrite H.
Qed.

Lemma first_alone : forall e1 pt1 e2 pt2 s m m' g,
  interleave e1 pt1 e2 pt2 s m Waiting Waiting = (m', Working [] g, Waiting) -> g = run_entries e1 pt1.
Proof.
  intros e1 pt1 e2 pt2 [|[] s] m m' g H; cbn [interleave advance] in H; [discriminate| |].
  - now apply (finish_alone _ _ _ _ _ _ _ _ _ _ H).
  - elim (started_stays e1 pt1 e2 pt2 s [] Waiting pt2 g_init). now rewrite H.
Qed.

Lemma second_finishes : forall e1 pt1 e2 pt2 s m g todo g2 m' g1' g2',
  interleave e1 pt1 e2 pt2 s m (Working [] g) (Working todo g2) = (m', Working [] g1', Working [] g2') ->
  m = g_count g2 -> g1' = g /\ g2' = fold_left (e2 pt2) todo g2.
Proof.
  intros e1 pt1 e2 pt2. induction s as [|[] s IH]; intros m g todo g2 m' g1' g2' H Hm; cbn [interleave] in H.
  - now injection H as H1 -> -> ->.
  - cbn [advance] in H. now apply (IH _ _ _ _ _ _ _ H).
  - destruct todo as [|p todo]; cbn [advance] in H; [now apply (IH _ _ _ _ _ _ _ H)|].
    subst m. rewrite with_count_eq in H. now apply (IH _ _ _ _ _ _ _ H).
Qed.

Lemma second_after : forall e1 pt1 e2 pt2 s m g m' g1 g2,
  interleave e1 pt1 e2 pt2 s m (Working [] g) Waiting = (m', Working [] g1, Working [] g2) ->
  g1 = g /\ g2 = run_entries e2 pt2.
Proof.
  intros e1 pt1 e2 pt2. induction s as [|[] s IH]; intros m g m' g1 g2 H; cbn [interleave advance] in H; [discriminate|..].
  - now apply (IH _ _ _ _ _ H).
  - now apply (second_finishes _ _ _ _ _ _ _ _ _ _ _ _ H).
Qed.

End Proofs.
