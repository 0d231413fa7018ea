(** Lemmas about generator runs interleaved at single accesses. *)

From Coq Require Import String Ascii List Arith NArith ZArith Bool Lia.
From Verif Require Import GoStr Base Utils GenGo GenC GenJava GenRust GenTS World Handlers Parser StrLemmas SpecStr SpecGen SpecOut
  GenText ParserProofs GenLemmas GenOutline GenRun GenNames GenFacts GenRuns Concurrent ConcurrentProofs SpecConc.
Import ListNotations.
Local Open Scope string_scope.

Local Infix "+++" := app (at level 60, right associativity).

Lemma change_same : forall A a (f : A -> A) l d, a < length l -> nth a (change a f l) d = f (nth a l d).
Proof.
  induction a as [|a IH]; intros f [|x r] d H; cbn in *; try lia; [reflexivity|]. apply IH. lia.
Qed.

Lemma change_length : forall A a (f : A -> A) l, length (change a f l) = length l.
Proof. induction a as [|a IH]; intros f [|x r]; cbn; try reflexivity. now rewrite IH. Qed.

Lemma number_same : forall x c m, number x (put x c m) = c.
Proof. intros. unfold number. now rewrite get_put_same. Qed.

Lemma number_other : forall x y c m, x <> y -> number y (put x c m) = number y m.
Proof. intros. unfold number. now rewrite get_put_other. Qed.

Section Proofs.
Context {E : Env}.

Notation current h := (map_at (here h) h).

Lemma asked_cases : forall l pt g p,
  g_count (entry_of l pt (with_count [] g) p) = [] /\ asked (entry_of l) pt g p = [] \/
  counting l p = true /\ g_count (entry_of l pt (with_count [] g) p) = [(GenText.plain_ident l p, 1%Z)] /\
  asked (entry_of l) pt g p = [GenText.plain_ident l p].
Proof.
  intros l pt g p.
  destruct (entry_agree l pt p (g_field g) (g_ast g) (g_time g) (g_xml g) [] [] (fun _ => eq_refl)) as [_ [H|[Hc H]]];
    fold (with_count [] g) in H; unfold asked; rewrite H; [now left|right].
  unfold uniq_name. cbn. now repeat split.
Qed.

Lemma given_one : forall l pt g p x, counting l p = true -> x = GenText.plain_ident l p ->
  given (entry_of l) pt g p x 1 = with_count [] (entry_of l pt (with_count [] g) p).
Proof.
  intros l pt g p x Hc ->. unfold given.
  apply (entry_agree l pt p (g_field g) (g_ast g) (g_time g) (g_xml g)). intros _.
  unfold uniq_name. cbn [get fst]. now rewrite String.eqb_refl.
Qed.

Lemma holds_count : forall l pt todo g m u p,
  holds l pt (Working todo g) u p <-> holds l pt (Working todo (with_count m g)) u p.
Proof. reflexivity. Qed.

(** The identifier an entry asks for is the first one pending. *)
Lemma asked_pending : forall l pt p todo g u pd x r, holds l pt (Working (p :: todo) g) u pd ->
  asked (entry_of l) pt g p = x :: r -> exists pd', pd = x :: pd'.
Proof.
  intros l pt p todo g u pd x r [fin [seen [_ [_ [Hs [Hp _]]]]]] Ha.
  destruct (asked_cases l pt g p) as [[_ H]|[Hc [Hm H]]]; rewrite H in Ha; [discriminate|].
  injection Ha as <- <-.
  destruct (step_seen l pt p (with_count [] g) seen Hs) as [seen' [_ [[_ Hsame]|[e Hr]]]].
  - specialize (Hsame []). rewrite with_count_twice in Hsame. rewrite Hsame in Hm. discriminate.
  - rewrite Hp, Hr, counted_cons, Hc. eexists. reflexivity.
Qed.

(** The number of a run's own pending identifier at each place. *)
Definition placed (x : string) (at_ : place) (h : memory) : Prop :=
  match at_ with
  | Outside => True
  | Loaded a => a = here h /\ number x (current h) = 0%Z
  | Got a c => a = here h /\ c = 0%Z /\ number x (current h) = 0%Z
  | Stored => number x (current h) = 1%Z
  | Reloaded a => a = here h /\ number x (current h) = 1%Z
  end.

Definition fholds (l : lang) (pt : list proto) (h : memory) (r : frun) (used pending : list string) : Prop :=
  match r with
  | FWaiting => used = [] /\ pending = counted l (rendered l [] pt)
  | FWorking todo g at_ =>
      here h < length (maps h) /\ holds l pt (Working todo g) used pending /\
      (at_ = Outside \/
       exists p rest x pending', todo = p :: rest /\ asked (entry_of l) pt g p = [x] /\ pending = x :: pending' /\ placed x at_ h)
  end.

(** Identifiers stored by an entry that is not finished. *)
Definition in_flight (l : lang) (pt : list proto) (r : frun) : list string :=
  match r with
  | FWorking (p :: _) g Stored | FWorking (p :: _) g (Reloaded _) => asked (entry_of l) pt g p
  | _ => []
  end.

Lemma fholds_elsewhere : forall l pt h h' r u p, fholds l pt h r u p ->
  here h' = here h -> length (maps h') = length (maps h) ->
  (forall k, In k p -> number k (current h') = number k (current h)) -> fholds l pt h' r u p.
Proof.
  intros l pt h h' [|todo g at_] u p Hh Ha Hl Hk; [exact Hh|]. destruct Hh as [Hv [Hh Hp]].
  split; [lia|]. split; [exact Hh|]. destruct Hp as [->|[q [rest [x [pd [E1 [E2 [E3 E4]]]]]]]]; [now left|right].
  exists q, rest, x, pd. repeat split; try assumption. subst p.
  destruct at_; cbn [placed] in *; [exact I|..]; rewrite (Hk x (or_introl eq_refl)), ?Ha; exact E4.
Qed.

Lemma fholds_outside : forall l pt h h' r u p, fholds l pt h r u p -> midway r = false ->
  here h' < length (maps h') -> fholds l pt h' r u p.
Proof.
  intros l pt h h' [|todo g at_] u p Hh Hm Hl; [exact Hh|]. destruct Hh as [_ [Hh _]].
  destruct at_; try discriminate Hm. split; [exact Hl|]. split; [exact Hh|now left].
Qed.

Lemma flight_pending : forall l pt h r u p, fholds l pt h r u p -> incl (in_flight l pt r) p.
Proof.
  intros l pt h [|[|q rest] g at_] u p Hh; cbn [in_flight]; try (intros k []).
  destruct Hh as [_ [Hh _]].
  assert (Hi : incl (asked (entry_of l) pt g q) p).
  { destruct (asked (entry_of l) pt g q) as [|x r] eqn:Ha; [intros k []|].
    destruct (asked_pending _ _ _ _ _ _ _ _ _ Hh Ha) as [pd ->].
    destruct (asked_cases l pt g q) as [[_ H]|[_ [_ H]]]; rewrite H in Ha; [discriminate|]. injection Ha as <- <-.
    intros k [<-|[]]. now left. }
  destruct at_; try (intros k []); exact Hi.
Qed.

(** One step of one run; [others] are the identifiers the other run has stored. *)
Lemma fadvance_holds : forall l pt h r u p others, fholds l pt h r u p -> NoDup (u +++ p) ->
  (forall k, In k others -> ~ In k p) ->
  (forall k, r <> FWaiting -> number k (current h) <> 0%Z -> In k u \/ In k (in_flight l pt r) \/ In k others) ->
  let h' := fst (fadvance (entry_of l) pt h r) in
  let r' := snd (fadvance (entry_of l) pt h r) in
  exists u' p', u' +++ p' = u +++ p /\ incl u u' /\ fholds l pt h' r' u' p' /\
    (forall k, number k (current h') <> 0%Z -> In k u' \/ In k (in_flight l pt r') \/ In k others) /\
    here h' < length (maps h') /\
    (r <> FWaiting -> here h' = here h /\ length (maps h') = length (maps h) /\
       forall k, ~ In k p -> number k (current h') = number k (current h)).
Proof.
  intros l pt h r u p others Hh Hnd Ho Hm. cbv zeta.
  destruct r as [|todo g at_].
  - destruct Hh as [-> ->]. exists [], (counted l (rendered l [] pt)). cbn [fadvance fst snd].
    assert (Hc : here (new_map h) < length (maps (new_map h))) by (cbn; rewrite app_length; cbn; lia).
    assert (Hn : current (new_map h) = []).
    { unfold map_at. cbn. rewrite app_nth2 by lia. now rewrite Nat.sub_diag. }
    split; [reflexivity|]. split; [apply incl_refl|]. split.
    { split; [exact Hc|]. split; [|now left].
      exists [], []. cbn [app fold_left]. repeat split; try reflexivity; try (intros H; cbn in H; congruence || contradiction). }
    split; [|split; [exact Hc|congruence]]. intros k Hk.
    rewrite Hn in Hk. cbn in Hk. congruence.
  - specialize (fun k => Hm k ltac:(discriminate)). pose proof Hh as Hh0. destruct Hh as [Hv [Hh Hp]].
    assert (Hidle : forall r', u +++ p = u +++ p -> fholds l pt h r' u p -> in_flight l pt r' = in_flight l pt (FWorking todo g at_) ->
      exists u' p', u' +++ p' = u +++ p /\ incl u u' /\ fholds l pt h r' u' p' /\
        (forall k, number k (current h) <> 0%Z -> In k u' \/ In k (in_flight l pt r') \/ In k others) /\
        here h < length (maps h) /\
        (FWorking todo g at_ <> FWaiting -> here h = here h /\ length (maps h) = length (maps h) /\
           forall k, ~ In k p -> number k (current h) = number k (current h))).
    { intros r' _ Hr' Hf. exists u, p. rewrite Hf. repeat split; auto using incl_refl. }
    destruct todo as [|q rest].
    { cbn [fadvance fst snd]. now apply Hidle. }
    cbn [fadvance].
    (* the end of an entry *)
    assert (Hend : forall g',
      with_count [] g' = with_count [] (entry_of l pt (with_count [] g) q) ->
      (forall k, In k (in_flight l pt (FWorking (q :: rest) g at_)) -> In k (asked (entry_of l) pt g q)) ->
      exists u' p', u' +++ p' = u +++ p /\ incl u u' /\ fholds l pt h (FWorking rest g' Outside) u' p' /\
        (forall k, number k (current h) <> 0%Z -> In k u' \/ In k (in_flight l pt (FWorking rest g' Outside)) \/ In k others) /\
        here h < length (maps h) /\
        (FWorking (q :: rest) g at_ <> FWaiting -> here h = here h /\ length (maps h) = length (maps h) /\
           forall k, ~ In k p -> number k (current h) = number k (current h))).
    { intros g' Hg' Hfl.
      destruct (advance_holds l pt [] (Working (q :: rest) g) u p Hh Hnd) as [u' [p' [Hup [Hin [Hh' Hk]]]]].
      { intros k Hk. cbn in Hk. congruence. }
      exists u', p'. split; [exact Hup|]. split; [exact Hin|]. split.
      { split; [exact Hv|]. split; [|now left]. cbn [advance snd] in Hh'.
        apply (holds_count l pt rest g' [] u' p'). rewrite Hg'. apply holds_count. exact Hh'. }
      split; [|repeat split; auto]. intros k Hkk. destruct (Hm k Hkk) as [H|[H|H]]; [left; now apply Hin| |tauto].
      left. apply Hfl in H. cbn [advance fst] in Hk.
      destruct (asked_cases l pt g q) as [[_ Ha]|[_ [Hc Ha]]]; rewrite Ha in H; [easy|]. destruct H as [<-|[]].
      destruct (Hk (GenText.plain_ident l q)) as [H|H]; [|cbn in H; congruence|exact H].
      rewrite Hc. cbn. now rewrite String.eqb_refl. }
    destruct (asked_cases l pt g q) as [[Hc Ha]|[Hct [Hc Ha]]]; rewrite Ha.
    { cbn [fst snd]. apply Hend; [apply with_count_twice|]. intros k Hk. exfalso. revert Hk.
      cbn [in_flight]. rewrite Ha. now destruct at_. }
    set (x := GenText.plain_ident l q) in *.
    destruct (asked_pending _ _ _ _ _ _ _ _ _ Hh Ha) as [pd Hpd].
    assert (Hxu : ~ In x u).
    { rewrite Hpd in Hnd. apply NoDup_remove_2 in Hnd. intros H. apply Hnd, in_or_app. now left. }
    assert (Hxo : ~ In x others) by (intros H; apply (Ho x H); rewrite Hpd; now left).
    assert (Hpl : at_ <> Outside -> placed x at_ h).
    { destruct Hp as [->|[q' [rest' [x' [pd' [E1 [E2 [E3 E4]]]]]]]]; [congruence|]. intros _.
      injection E1 as <- <-. rewrite Ha in E2. now injection E2 as <-. }
    destruct at_ as [|a|a c| |a]; cbn [fst snd]; try (specialize (Hpl ltac:(discriminate)); cbn [placed] in Hpl).
    + apply Hidle; [reflexivity| |reflexivity]. split; [exact Hv|]. split; [exact Hh|]. right.
      exists q, rest, x, pd. repeat split; try assumption.
      destruct (Z.eq_dec (number x (current h)) 0) as [Hz|Hz]; [exact Hz|].
      destruct (Hm x Hz) as [H|[H|H]]; contradiction.
    + destruct Hpl as [-> Hz]. apply Hidle; [reflexivity| |reflexivity]. split; [exact Hv|]. split; [exact Hh|]. right.
      exists q, rest, x, pd. now repeat split.
    + destruct Hpl as [-> [-> Hz]]. exists u, p. split; [reflexivity|]. split; [apply incl_refl|].
      assert (Hcur : current (store (here h) x (0 + 1) h) = put x 1%Z (current h)).
      { unfold map_at, store. cbn [maps here]. now rewrite change_same. }
      assert (Hlen : length (maps (store (here h) x (0 + 1) h)) = length (maps h)) by apply change_length.
      split; [|split; [|split; [cbn [here store] in *; lia|intros _; split; [reflexivity|split; [exact Hlen|]]]]].
      * split; [cbn [here store]; lia|]. split; [exact Hh|]. right. exists q, rest, x, pd. repeat split; try assumption.
        cbn [placed]. now rewrite Hcur, number_same.
      * intros k Hk. cbn [in_flight]. rewrite Ha. rewrite Hcur in Hk. destruct (string_dec x k) as [<-|Hne].
        { right. left. now left. }
        rewrite number_other in Hk by exact Hne. destruct (Hm k Hk) as [H|[H|H]]; [tauto|easy|tauto].
      * intros k Hk. rewrite Hcur. apply number_other. intros ->. apply Hk. rewrite Hpd. now left.
    + apply Hidle; [reflexivity| |reflexivity]. split; [exact Hv|]. split; [exact Hh|]. right.
      exists q, rest, x, pd. now repeat split.
    + destruct Hpl as [-> Hz]. apply Hend; [|intros k Hk; exact Hk].
      rewrite Hz, given_one by (exact Hct || reflexivity). apply with_count_twice.
Qed.

Lemma NoDup_parts : forall (a b : list string), NoDup (a +++ b) ->
  NoDup a /\ NoDup b /\ (forall k, In k a -> ~ In k b).
Proof.
  induction a as [|x a IH]; intros b H; cbn in H.
  - repeat split; [constructor|exact H|tauto].
  - inversion H as [|? ? Hn Hr]; subst. destruct (IH b Hr) as [Ha [Hb Hc]]. rewrite in_app_iff in Hn. repeat split.
    + constructor; tauto.
    + exact Hb.
    + intros k [<-|Hk]; [tauto|now apply Hc].
Qed.

Lemma finterleave_holds : forall l1 pt1 l2 pt2 schedule h r1 r2 u1 p1 u2 p2,
  fholds l1 pt1 h r1 u1 p1 -> fholds l2 pt2 h r2 u2 p2 -> NoDup ((u1 +++ p1) +++ (u2 +++ p2)) ->
  (r1 <> FWaiting \/ r2 <> FWaiting -> forall k, number k (current h) <> 0%Z ->
     In k u1 \/ In k (in_flight l1 pt1 r1) \/ In k u2 \/ In k (in_flight l2 pt2 r2)) ->
  calm (entry_of l1) pt1 (entry_of l2) pt2 schedule h r1 r2 ->
  exists u1' p1' u2' p2',
    fholds l1 pt1 (fst (fst (finterleave (entry_of l1) pt1 (entry_of l2) pt2 schedule h r1 r2)))
      (snd (fst (finterleave (entry_of l1) pt1 (entry_of l2) pt2 schedule h r1 r2))) u1' p1' /\
    fholds l2 pt2 (fst (fst (finterleave (entry_of l1) pt1 (entry_of l2) pt2 schedule h r1 r2)))
      (snd (finterleave (entry_of l1) pt1 (entry_of l2) pt2 schedule h r1 r2)) u2' p2'.
Proof.
  intros l1 pt1 l2 pt2. induction schedule as [|b s IH]; intros h r1 r2 u1 p1 u2 p2 H1 H2 Hnd Hm Hq.
  { now exists u1, p1, u2, p2. }
  destruct (NoDup_parts _ _ Hnd) as [Hn1 [Hn2 Hdis]].
  destruct (NoDup_parts _ _ Hn1) as [_ [_ Hs1]]. destruct (NoDup_parts _ _ Hn2) as [_ [_ Hs2]].
  assert (Hdis' : forall k, In k (u1 +++ p1) -> In k (u2 +++ p2) -> False) by (intros k Ha Hb; exact (Hdis k Ha Hb)).
  pose proof (flight_pending _ _ _ _ _ _ H1) as Hf1. pose proof (flight_pending _ _ _ _ _ _ H2) as Hf2.
  destruct b; cbn [finterleave]; cbn [calm] in Hq; destruct Hq as [Hq0 Hq].
  - destruct (fadvance_holds l1 pt1 h r1 u1 p1 (u2 +++ in_flight l2 pt2 r2) H1 Hn1) as [u [p [Hup [Hin [Hh [Hk [Hv Hsame]]]]]]].
    { intros k Hk Hp. apply (Hdis' k); [apply in_or_app; now right|]. apply in_app_iff in Hk as [Hk|Hk]; apply in_or_app; auto. }
    { intros k Hr Hk. destruct (Hm (or_introl Hr) k Hk) as [H|[H|[H|H]]]; auto; right; right; apply in_or_app; auto. }
    destruct (fadvance (entry_of l1) pt1 h r1) as [h' r1']. cbn [fst snd] in *.
    apply (IH h' r1' r2 u p u2 p2); try assumption; [|now rewrite Hup|].
    + assert (Hc : r1 = FWaiting \/ r1 <> FWaiting) by (destruct r1; [now left|right; discriminate]).
      destruct Hc as [Hc|Hc]; [apply (fholds_outside _ _ h); auto|].
      destruct (Hsame Hc) as [Ha [Hl Hn]]. apply (fholds_elsewhere _ _ h); auto.
      intros k Hk2. apply Hn. intros Hk1. apply (Hdis' k); apply in_or_app; now right.
    + intros _ k Hkk. destruct (Hk k Hkk) as [H|[H|H]]; auto. apply in_app_iff in H. tauto.
  - destruct (fadvance_holds l2 pt2 h r2 u2 p2 (u1 +++ in_flight l1 pt1 r1) H2 Hn2) as [u [p [Hup [Hin [Hh [Hk [Hv Hsame]]]]]]].
    { intros k Hk Hp. apply (Hdis' k); [|apply in_or_app; now right]. apply in_app_iff in Hk as [Hk|Hk]; apply in_or_app; auto. }
    { intros k Hr Hk. destruct (Hm (or_intror Hr) k Hk) as [H|[H|[H|H]]]; auto; right; right; apply in_or_app; auto. }
    destruct (fadvance (entry_of l2) pt2 h r2) as [h' r2']. cbn [fst snd] in *.
    apply (IH h' r1 r2' u1 p1 u p); try assumption; [|now rewrite Hup|].
    + assert (Hc : r2 = FWaiting \/ r2 <> FWaiting) by (destruct r2; [now left|right; discriminate]).
      destruct Hc as [Hc|Hc]; [apply (fholds_outside _ _ h); auto|].
      destruct (Hsame Hc) as [Ha [Hl Hn]]. apply (fholds_elsewhere _ _ h); auto.
      intros k Hk2. apply Hn. intros Hk1. apply (Hdis' k); apply in_or_app; now right.
    + intros _ k Hkk. destruct (Hk k Hkk) as [H|[H|H]]; auto. apply in_app_iff in H. tauto.
Qed.

Lemma finterleave_same : forall l1 pt1 l2 pt2 schedule h h' g1 g2 a1 a2,
  NoDup (counted l1 (rendered l1 [] pt1) +++ counted l2 (rendered l2 [] pt2)) ->
  calm (entry_of l1) pt1 (entry_of l2) pt2 schedule h FWaiting FWaiting ->
  finterleave (entry_of l1) pt1 (entry_of l2) pt2 schedule h FWaiting FWaiting = (h', FWorking [] g1 a1, FWorking [] g2 a2) ->
  with_count [] g1 = with_count [] (run_entries (entry_of l1) pt1) /\
  with_count [] g2 = with_count [] (run_entries (entry_of l2) pt2).
Proof.
  intros l1 pt1 l2 pt2 schedule h h' g1 g2 a1 a2 Hnd Hq Hi.
  destruct (finterleave_holds l1 pt1 l2 pt2 schedule h FWaiting FWaiting [] (counted l1 (rendered l1 [] pt1)) []
              (counted l2 (rendered l2 [] pt2))) as [u1 [p1 [u2 [p2 [H1 H2]]]]]; try (now split); try assumption.
  { now intros [H|H]. }
  rewrite Hi in H1, H2. cbn [fst snd] in H1, H2. destruct H1 as [_ [H1 _]]. destruct H2 as [_ [H2 _]].
  destruct H1 as [f1 [s1 [E1 [G1 _]]]]. destruct H2 as [f2 [s2 [E2 [G2 _]]]].
  rewrite app_nil_r in E1, E2. subst f1 f2. now split.
Qed.

(** Once both runs have started, none starts. *)
Lemma fadvance_started : forall e pt h r, snd (fadvance e pt h r) <> FWaiting.
Proof.
  intros e pt h [|[|p rest] g a]; cbn [fadvance]; try discriminate.
  destruct (asked e pt g p); [discriminate|]. destruct a; discriminate.
Qed.

Lemma calm_started : forall e1 pt1 e2 pt2 s h r1 r2, r1 <> FWaiting -> r2 <> FWaiting ->
  calm e1 pt1 e2 pt2 s h r1 r2.
Proof.
  intros e1 pt1 e2 pt2. induction s as [|[] s IH]; intros h r1 r2 H1 H2; cbn [calm]; [exact I|..]; (split; [congruence|]).
  - pose proof (fadvance_started e1 pt1 h r1) as H. destruct (fadvance e1 pt1 h r1). now apply IH.
  - pose proof (fadvance_started e2 pt2 h r2) as H. destruct (fadvance e2 pt2 h r2). now apply IH.
Qed.

(** * Whole entries are sequences of accesses *)

Definition sim (r : run_state) (f : frun) : Prop :=
  match r, f with
  | Waiting, FWaiting => True
  | Working todo g, FWorking todo' g' Outside => todo = todo' /\ with_count [] g = with_count [] g'
  | _, _ => False
  end.

Definition mem_sim (m : smap Z) (h : memory) : Prop :=
  here h < length (maps h) /\ forall k, number k (current h) = number k m.

Fixpoint several (e : list proto -> GState -> proto -> GState) (pt : list proto) (n : nat) (h : memory) (r : frun)
  : memory * frun :=
  match n with O => (h, r) | S n => let '(h', r') := fadvance e pt h r in several e pt n h' r' end.

Lemma several_first : forall e1 pt1 e2 pt2 n s h r1 r2,
  finterleave e1 pt1 e2 pt2 (repeat true n +++ s) h r1 r2 =
  let '(h', r1') := several e1 pt1 n h r1 in finterleave e1 pt1 e2 pt2 s h' r1' r2.
Proof.
  intros e1 pt1 e2 pt2. induction n as [|n IH]; intros s h r1 r2; [reflexivity|]. cbn [repeat app finterleave several].
  destruct (fadvance e1 pt1 h r1). apply IH.
Qed.

Lemma several_second : forall e1 pt1 e2 pt2 n s h r1 r2,
  finterleave e1 pt1 e2 pt2 (repeat false n +++ s) h r1 r2 =
  let '(h', r2') := several e2 pt2 n h r2 in finterleave e1 pt1 e2 pt2 s h' r1 r2'.
Proof.
  intros e1 pt1 e2 pt2. induction n as [|n IH]; intros s h r1 r2; [reflexivity|]. cbn [repeat app finterleave several].
  destruct (fadvance e2 pt2 h r2). apply IH.
Qed.

Lemma uniq_by_number : forall m m' x, number x m = number x m' -> fst (uniq_name m x) = fst (uniq_name m' x).
Proof. intros m m' x H. unfold uniq_name. fold (number x m) (number x m'). now rewrite H. Qed.

(** Whether an entry uses the counter does not depend on the counter. *)
Lemma entry_uniform : forall l pt p f a t x,
  (forall m, g_count (entry_of l pt (mkG f a t x m) p) = m /\
             with_count [] (entry_of l pt (mkG f a t x m) p) = with_count [] (entry_of l pt (mkG f a t x []) p)) \/
  counting l p = true /\
  forall m, g_count (entry_of l pt (mkG f a t x m) p) = snd (uniq_name m (GenText.plain_ident l p)).
Proof.
  intros l pt p f a t x.
  destruct p as [|v|v|v|v|v|v]; [destruct l; (left; split; reflexivity)|..];
    destruct l; cbn [entry_of]; unfold_entries; unfold GenText.plain_ident in *; cbn [proto_name counting] in *;
    unfold declared; cbn [g_ast];
    match goal with |- context [has_key ?n a] => destruct (has_key n a) end; cbn [negb andb];
    rewrite ?andb_false_r; try (left; split; reflexivity).
  all: try (rewrite ?is_union_eq).
  all: try (destruct (st_list v); cbn [andb negb orb] in *).
  all: try (destruct (is_union v); cbn [andb negb orb] in *).
  all: try (destruct (st_enum v); cbn [andb negb orb] in *).
  all: try (left; split; reflexivity).
  all: try (destruct (inner_array _); left; split; reflexivity).
  all: right; (split; [reflexivity|]); intros m; cbn [g_count set_time set_xml].
  all: try match goal with |- context [uniq_name ?mm ?n] => destruct (uniq_name mm n) as [id c]; cbn [fst snd] end.
  all: try (destruct (inner_array _)); reflexivity.
Qed.

Lemma number_uniq : forall m x k, number k (snd (uniq_name m x)) = if string_dec x k then (number x m + 1)%Z else number k m.
Proof.
  intros m x k. unfold uniq_name. cbn [snd]. fold (number x m). destruct (string_dec x k) as [<-|Hne].
  - apply number_same.
  - now apply number_other.
Qed.

Lemma given_number : forall l pt g p m x, counting l p = true -> x = GenText.plain_ident l p ->
  given (entry_of l) pt g p x (number x m + 1) = with_count [] (entry_of l pt (with_count m g) p).
Proof.
  intros l pt g p m x Hc ->. unfold given.
  apply (entry_agree l pt p (g_field g) (g_ast g) (g_time g) (g_xml g)). intros _. apply uniq_by_number.
  unfold number at 1. cbn [get]. rewrite String.eqb_refl. lia.
Qed.

Lemma advance_several : forall l pt m r h f, sim r f -> (r <> Waiting -> mem_sim m h) ->
  exists n, mem_sim (fst (advance (entry_of l) pt m r)) (fst (several (entry_of l) pt n h f)) /\
            sim (snd (advance (entry_of l) pt m r)) (snd (several (entry_of l) pt n h f)).
Proof.
  intros l pt m [|[|p rest] g] h [|todo' g' at_] Hs Hm; try contradiction Hs; try (destruct at_; contradiction Hs).
  1: { exists 1. cbn [several fadvance advance fst snd]. split; [|now split]. split.
    + cbn. rewrite app_length. cbn. lia.
    + intros k. unfold map_at. cbn [maps here new_map]. rewrite app_nth2 by lia. now rewrite Nat.sub_diag. }
  all: destruct at_; try contradiction Hs; destruct Hs as [<- Hg].
  1: { exists 0. cbn [several advance fst snd]. split; [now apply Hm|now split]. }
  specialize (Hm ltac:(discriminate)). destruct Hm as [Hv Hm].
  assert (Hg' : forall mm, with_count mm g' = with_count mm g).
  { intros mm. apply (f_equal (with_count mm)) in Hg. now rewrite !with_count_twice in Hg. }
  cbn [advance fst snd].
  destruct (entry_uniform l pt p (g_field g) (g_ast g) (g_time g) (g_xml g)) as [Hu|[Hct Hu]].
  - assert (Hu' : forall mm, g_count (entry_of l pt (with_count mm g) p) = mm /\
      with_count [] (entry_of l pt (with_count mm g) p) = with_count [] (entry_of l pt (with_count [] g) p)) by exact Hu.
    assert (Ha : asked (entry_of l) pt g' p = []).
    { unfold asked. rewrite Hg'. now rewrite (proj1 (Hu' [])). }
    exists 1. cbn [several fadvance]. rewrite Ha. cbn [fst snd]. rewrite Hg'. destruct (Hu' m) as [Hc Ht]. rewrite Hc.
    split; [now split|]. split; [reflexivity|]. rewrite with_count_twice. exact Ht.
  - assert (Hu' : forall mm, g_count (entry_of l pt (with_count mm g) p) = snd (uniq_name mm (GenText.plain_ident l p))) by exact Hu.
    assert (Ha : asked (entry_of l) pt g' p = [GenText.plain_ident l p]).
    { unfold asked. rewrite Hg'. rewrite (Hu' []). reflexivity. }
    remember (GenText.plain_ident l p) as x eqn:Hx.
    exists 5. do 5 (cbn [several fadvance]; rewrite Ha). cbn [several fst snd].
    assert (Hcur : current (store (here h) x (number x (current h) + 1) h) = put x (number x (current h) + 1)%Z (current h)).
    { unfold map_at, store. cbn [maps here]. now rewrite change_same. }
    change (here (store (here h) x (number x (current h) + 1) h)) with (here h) in *.
    split.
    + split; [cbn [here store maps]; now rewrite change_length|]. intros k. cbn [here store] in *. rewrite Hcur, Hu', number_uniq.
      destruct (string_dec x k) as [<-|Hne]; [now rewrite number_same, Hm | now rewrite number_other].
    + split; [reflexivity|]. rewrite Hcur, number_same, Hm, given_number by assumption. now rewrite Hg', with_count_twice.
Qed.

Lemma advance_started : forall e pt m r, snd (advance e pt m r) <> Waiting.
Proof. intros e pt m [|[|p rest] g]; discriminate. Qed.

Lemma entries_as_accesses : forall l1 pt1 l2 pt2 schedule m r1 r2 h f1 f2, sim r1 f1 -> sim r2 f2 ->
  (r1 <> Waiting \/ r2 <> Waiting -> mem_sim m h) ->
  exists fine, 
    let c := interleave (entry_of l1) pt1 (entry_of l2) pt2 schedule m r1 r2 in
    let f := finterleave (entry_of l1) pt1 (entry_of l2) pt2 fine h f1 f2 in
    sim (snd (fst c)) (snd (fst f)) /\ sim (snd c) (snd f).
Proof.
  intros l1 pt1 l2 pt2. induction schedule as [|b s IH]; intros m r1 r2 h f1 f2 H1 H2 Hm; cbv zeta.
  { exists []. now split. }
  destruct b; cbn [interleave].
  - destruct (advance_several l1 pt1 m r1 h f1 H1) as [n [Hn Hs]]; [intros H; apply Hm; now left|].
    pose proof (advance_started (entry_of l1) pt1 m r1) as Hst.
    destruct (advance (entry_of l1) pt1 m r1) as [m' r1']. cbn [fst snd] in *.
    destruct (IH m' r1' r2 (fst (several (entry_of l1) pt1 n h f1)) (snd (several (entry_of l1) pt1 n h f1)) f2 Hs H2)
      as [fine Hf]; [now intros _|].
    exists (repeat true n +++ fine). rewrite several_first. now destruct (several (entry_of l1) pt1 n h f1).
  - destruct (advance_several l2 pt2 m r2 h f2 H2) as [n [Hn Hs]]; [intros H; apply Hm; now right|].
    pose proof (advance_started (entry_of l2) pt2 m r2) as Hst.
    destruct (advance (entry_of l2) pt2 m r2) as [m' r2']. cbn [fst snd] in *.
    destruct (IH m' r1 r2' (fst (several (entry_of l2) pt2 n h f2)) f1 (snd (several (entry_of l2) pt2 n h f2)) H1 Hs)
      as [fine Hf]; [now intros _|].
    exists (repeat false n +++ fine). rewrite several_second. now destruct (several (entry_of l2) pt2 n h f2).
Qed.

(** * Two stores at the same time *)

Lemma rendered_asks : forall l pt p g n, proto_name p = Some n -> declared n g = false \/ enumerated l p = true ->
  counting l p = true -> asked (entry_of l) pt g p <> [].
Proof.
  intros l pt p g n Hn Hd Hc. unfold asked. destruct g as [f a t x m]. unfold with_count. cbn [g_field g_ast g_time g_xml].
  destruct p as [|v|v|v|v|v|v]; try discriminate Hn; injection Hn as <-;
    destruct l; try discriminate Hc; cbn [entry_of]; unfold_entries; cbn [proto_name counting] in *;
    unfold declared in *; cbn [g_ast] in *.
  all: try (destruct Hd as [Hd|Hd]; [rewrite Hd|]).
  all: try discriminate Hd.
  all: cbn [negb andb orb enumerated] in *.
  all: rewrite ?is_union_eq in *.
  all: try (destruct (st_list v); cbn [andb negb orb] in * ).
  all: try (destruct (is_union v); cbn [andb negb orb] in * ).
  all: try (destruct (st_enum v); cbn [andb negb orb] in * ).
  all: try discriminate Hd.
  all: try (destruct (has_key _ a); cbn [andb negb orb] in * ).
  all: try (destruct (inner_array _)).
  all: unfold uniq_name; cbn; discriminate.
Qed.

(** A run comes to its first store without any other. *)
Lemma reach_store : forall l pt todo g seen h, (forall k, declared k g = true <-> In k seen) ->
  counted l (rendered l seen todo) <> [] ->
  exists n p rest g' c, several (entry_of l) pt n h (FWorking todo g Outside) = (h, FWorking (p :: rest) g' (Got (here h) c)) /\
    asked (entry_of l) pt g' p <> [].
Proof.
  intros l pt todo. induction todo as [|p rest IH]; intros g seen h Hs Hc; [now elim Hc|].
  destruct (asked (entry_of l) pt g p) as [|x r] eqn:Ha.
  - destruct (step_seen l pt p (with_count [] g) seen Hs) as [seen' [Hs' Hr]].
    assert (Hc' : counted l (rendered l seen' rest) <> []).
    { destruct Hr as [[Hr _]|[e Hr]]; rewrite Hr in Hc; [exact Hc|]. rewrite counted_cons in Hc.
      destruct (counting l p) eqn:Hct; [|exact Hc]. exfalso.
      destruct (proto_name p) as [n|] eqn:Hn.
      2: { specialize (Hr []). cbn [rendered] in Hr. rewrite Hn in Hr. discriminate Hr. }
      revert Ha. apply (rendered_asks l pt p g n Hn); [|exact Hct].
      specialize (Hr []). cbn [rendered] in Hr. rewrite Hn in Hr. destruct (in_dec string_dec n seen) as [Hin|Hin].
      - right. destruct (enumerated l p); [reflexivity|discriminate Hr].
      - left. destruct (declared n g) eqn:Hd; [|reflexivity]. elim Hin. now apply Hs. }
    destruct (IH (with_count [] (entry_of l pt (with_count [] g) p)) seen' h Hs' Hc') as [n [q [rest' [g' [c [Hn Hq]]]]]].
    exists (S n), q, rest', g', c. split; [|exact Hq]. cbn [several fadvance]. rewrite Ha. exact Hn.
  - exists 2, p, rest, g. eexists. cbn [several fadvance]. rewrite Ha. cbn [fadvance]. rewrite Ha. split; [reflexivity|discriminate].
Qed.

Lemma both_store : forall l1 pt1 l2 pt2 h, counted l1 (rendered l1 [] pt1) <> [] -> counted l2 (rendered l2 [] pt2) <> [] ->
  exists schedule h' p1 rest1 g1 c1 p2 rest2 g2 c2,
    finterleave (entry_of l1) pt1 (entry_of l2) pt2 schedule h FWaiting FWaiting =
      (h', FWorking (p1 :: rest1) g1 (Got (here h') c1), FWorking (p2 :: rest2) g2 (Got (here h') c2)) /\
    asked (entry_of l1) pt1 g1 p1 <> [] /\ asked (entry_of l2) pt2 g2 p2 <> [].
Proof.
  intros l1 pt1 l2 pt2 h H1 H2. set (h' := new_map (new_map h)).
  assert (Hnone : forall k, declared k g_init = true <-> In k []) by (intros k; split; [discriminate|intros []]).
  destruct (reach_store l1 pt1 pt1 g_init [] h' Hnone H1)
    as [n1 [p1 [rest1 [g1 [c1 [R1 A1]]]]]].
  destruct (reach_store l2 pt2 pt2 g_init [] h' Hnone H2)
    as [n2 [p2 [rest2 [g2 [c2 [R2 A2]]]]]].
  exists ([true; false] +++ repeat true n1 +++ repeat false n2 +++ []), h', p1, rest1, g1, c1, p2, rest2, g2, c2.
  split; [|now split]. cbn [app finterleave fadvance]. fold h'. rewrite several_first, R1, several_second, R2. reflexivity.
Qed.
End Proofs.
