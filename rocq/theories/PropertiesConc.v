(** Property theorems about two generator runs at the same time: C29. *)

From Coq Require Import String Ascii List Arith NArith ZArith Bool Lia.
From Verif Require Import GoStr Base Utils GenGo GenC GenJava GenRust GenTS GenText World Handlers Parser SpecGen GenNames
  Concurrent SpecConc ConcurrentProofs AccessProofs Demo.
Import ListNotations.
Local Open Scope string_scope.

Local Infix "+++" := app (at level 60, right associativity).

(** Where both runs end up when they take their steps in the order of the schedule. *)
Notation together l1 pt1 l2 pt2 schedule m :=
  (interleave (entry_of l1) pt1 (entry_of l2) pt2 schedule m Waiting Waiting) (only parsing).

(** The same with single accesses as steps. *)
Notation accessing l1 pt1 l2 pt2 schedule h :=
  (finterleave (entry_of l1) pt1 (entry_of l2) pt2 schedule h FWaiting FWaiting) (only parsing).

(** ** C29 *)

(** As long as no two components of the two lists compete for an identifier,
    every order of the steps gives the text that each run gives alone. *)
Theorem C29_interleaved_partial : forall (E : Env) l1 pt1 l2 pt2 schedule m m' g1 g2,
  NoDup (taken l1 pt1 +++ taken l2 pt2) ->
  together l1 pt1 l2 pt2 schedule m = (m', Working [] g1, Working [] g2) ->
  same_text g1 (run_entries (entry_of l1) pt1) /\ same_text g2 (run_entries (entry_of l2) pt2).
Proof.
  intros E l1 pt1 l2 pt2 schedule m m' g1 g2 Hnd H.
  assert (Ht : forall l pt, taken l pt = counted l (rendered l [] pt)).
  { intros l pt. apply map_ext. intros p. apply plain_ident_eq. }
  rewrite !Ht in Hnd. destruct (interleave_same l1 pt1 l2 pt2 schedule m m' g1 g2 Hnd H) as [H1 H2].
  injection H1 as A1 A2 A3 A4. injection H2 as B1 B2 B3 B4. now repeat split.
Qed.
Print Assumptions C29_interleaved_partial.

(** One after the other: always the text that each run gives alone, whatever the
    counter holds before and whatever the first run leaves in it. *)
Theorem C29_one_after_the_other_partial : forall (E : Env) l1 pt1 l2 pt2 s1 s2 m m1 m2 g g1 g2,
  together l1 pt1 l2 pt2 s1 m = (m1, Working [] g, Waiting) ->
  together l1 pt1 l2 pt2 (s1 +++ s2) m = (m2, Working [] g1, Working [] g2) ->
  g1 = run_entries (entry_of l1) pt1 /\ g2 = run_entries (entry_of l2) pt2.
Proof.
  intros E l1 pt1 l2 pt2 s1 s2 m m1 m2 g g1 g2 H1 H.
  assert (Happ : forall s1 s2 m r1 r2, interleave (entry_of l1) pt1 (entry_of l2) pt2 (s1 +++ s2) m r1 r2 =
    let '(m', r1', r2') := interleave (entry_of l1) pt1 (entry_of l2) pt2 s1 m r1 r2 in
    interleave (entry_of l1) pt1 (entry_of l2) pt2 s2 m' r1' r2').
  { clear. induction s1 as [|[] s1 IH]; intros s2 m r1 r2; [reflexivity|..]; cbn [app interleave].
    - destruct (advance (entry_of l1) pt1 m r1). apply IH.
    - destruct (advance (entry_of l2) pt2 m r2). apply IH. }
  rewrite Happ, H1 in H. apply second_after in H as [-> ->]. split; [|reflexivity]. now apply first_alone in H1.
Qed.
Print Assumptions C29_one_after_the_other_partial.

(** The claim as stated is false: a name that both lists declare is numbered in
    the run that comes second, in every language. *)
Theorem C29_shared_name_refuted : exists (E : Env), forall l, exists pt1 pt2 schedule m' g1 g2,
  NoDup (taken l pt1) /\ NoDup (taken l pt2) /\
  together l pt1 l pt2 schedule [] = (m', Working [] g1, Working [] g2) /\
  g_field g2 <> g_field (run_entries (entry_of l) pt2).
Proof.
  exists (demo [] first_choice). intros l.
  exists [PComplex (mkComplex "" "Foo" "" [] [] [] [])], [PComplex (mkComplex "" "Foo" "" [] [] [] [])], [true; false; true; false].
  destruct l; do 3 eexists;
    (split; [repeat constructor; cbn; tauto|]); (split; [repeat constructor; cbn; tauto|]);
    (split; [vm_compute; reflexivity | vm_compute; discriminate]).
Qed.
Print Assumptions C29_shared_name_refuted.

(** And the start of the other run, even of one that declares nothing, makes the
    first run declare an identifier twice that it would have numbered. *)
Theorem C29_lost_number_refuted : exists (E : Env), forall l, exists pt schedule m' g1 g2,
  together l pt l [] schedule [] = (m', Working [] g1, Working [] g2) /\
  g_field g1 <> g_field (run_entries (entry_of l) pt).
Proof.
  exists (demo [] first_choice). intros l.
  exists [PComplex (mkComplex "" "item" "" [] [] [] []); PComplex (mkComplex "" "Item" "" [] [] [] [])], [true; true; false; true].
  destruct l; do 3 eexists; (split; [vm_compute; reflexivity | vm_compute; discriminate]).
Qed.
Print Assumptions C29_lost_number_refuted.

Example C29_example :
  let E := demo [] first_choice in
  let c n := PComplex (mkComplex "" n "" [] [] [] []) in
  let pt1 := [c "A"; c "B"; c "A"] in
  let pt2 := [c "X"; PSimple (mkSimple "" "Y" "string" false false [] []); c "Z"] in
  NoDup (taken (E := E) Go pt1 +++ taken (E := E) Java pt2) /\
  exists m' g1 g2,
    interleave (entry_of (E := E) Go) pt1 (entry_of (E := E) Java) pt2
      [true; true; false; false; true; false; true; false] [("A", 4%Z)] Waiting Waiting = (m', Working [] g1, Working [] g2) /\
    m' = [("X", 1%Z); ("B", 1%Z); ("Y", 1%Z); ("Z", 1%Z)].
Proof.
  cbv zeta. split.
  - vm_compute. repeat constructor; cbn; intuition discriminate.
  - do 3 eexists. split; vm_compute; reflexivity.
Qed.

(** With single accesses as steps: as long as no two components compete for an
    identifier and no run starts while the other one is in the middle of an
    entry, every order of the accesses gives the text that each run gives alone,
    whatever maps there are before. *)
Theorem C29_accesses_partial : forall (E : Env) l1 pt1 l2 pt2 schedule h h' g1 g2 a1 a2,
  NoDup (taken l1 pt1 +++ taken l2 pt2) ->
  calm (entry_of l1) pt1 (entry_of l2) pt2 schedule h FWaiting FWaiting ->
  accessing l1 pt1 l2 pt2 schedule h = (h', FWorking [] g1 a1, FWorking [] g2 a2) ->
  same_text g1 (run_entries (entry_of l1) pt1) /\ same_text g2 (run_entries (entry_of l2) pt2).
Proof.
  intros E l1 pt1 l2 pt2 schedule h h' g1 g2 a1 a2 Hnd Hq H.
  assert (Ht : forall l pt, taken l pt = counted l (rendered l [] pt)).
  { intros l pt. apply map_ext. intros p. apply plain_ident_eq. }
  rewrite !Ht in Hnd. destruct (finterleave_same l1 pt1 l2 pt2 schedule h h' g1 g2 a1 a2 Hnd Hq H) as [H1 H2].
  injection H1 as A1 A2 A3 A4. injection H2 as B1 B2 B3 B4. now repeat split.
Qed.
Print Assumptions C29_accesses_partial.

(** That is so for all orders in which both runs start before anything else. *)
Theorem C29_both_started_partial : forall (E : Env) l1 pt1 l2 pt2 first schedule h h' g1 g2 a1 a2,
  NoDup (taken l1 pt1 +++ taken l2 pt2) ->
  accessing l1 pt1 l2 pt2 (first :: negb first :: schedule) h = (h', FWorking [] g1 a1, FWorking [] g2 a2) ->
  same_text g1 (run_entries (entry_of l1) pt1) /\ same_text g2 (run_entries (entry_of l2) pt2).
Proof.
  intros E l1 pt1 l2 pt2 first schedule h h' g1 g2 a1 a2 Hnd H.
  apply (C29_accesses_partial E _ _ _ _ _ _ _ _ _ _ _ Hnd) with (2 := H).
  destruct first; cbn [negb calm fadvance midway]; (split; [reflexivity|]); (split; [reflexivity|]); now apply calm_started.
Qed.
Print Assumptions C29_both_started_partial.

(** Steps that are entries are sequences of accesses: what two runs can end up
    with entry by entry, they can end up with access by access. *)
Theorem C29_entries_are_accesses_partial : forall (E : Env) l1 pt1 l2 pt2 schedule m m' g1 g2 h,
  together l1 pt1 l2 pt2 schedule m = (m', Working [] g1, Working [] g2) ->
  exists accesses h' g1' g2',
    accessing l1 pt1 l2 pt2 accesses h = (h', FWorking [] g1' Outside, FWorking [] g2' Outside) /\
    same_text g1 g1' /\ same_text g2 g2'.
Proof.
  intros E l1 pt1 l2 pt2 schedule m m' g1 g2 h H.
  destruct (entries_as_accesses l1 pt1 l2 pt2 schedule m Waiting Waiting h FWaiting FWaiting I I) as [fine Hf].
  { now intros [Hx|Hx]. }
  cbv zeta in Hf. rewrite H in Hf. cbn [fst snd] in Hf. exists fine.
  destruct (accessing l1 pt1 l2 pt2 fine h) as [[h' [|t1 g1' a1]] [|t2 g2' a2]]; cbn [fst snd sim] in Hf;
    destruct Hf as [H1 H2]; try contradiction; try (destruct a1; contradiction).
  destruct a1; try contradiction. destruct a2; try contradiction.
  destruct H1 as [<- H1]. destruct H2 as [<- H2]. exists h', g1', g2'.
  injection H1 as A1 A2 A3 A4. injection H2 as B1 B2 B3 B4. now repeat split.
Qed.
Print Assumptions C29_entries_are_accesses_partial.

(** A run that starts, even one that declares nothing, between the load for the
    increment and the load for the second line of an entry of the other run makes
    that entry read 0 and declare a name with the number 0, in every language,
    with a single component and no competition; before and after, it does not. *)
Theorem C29_zero_refuted : exists (E : Env), forall l, exists pt,
  NoDup (taken l pt) /\ contains (g_field (run_entries (entry_of l) pt)) "Foo0" = false /\
  forall before, 1 <= before <= 6 -> exists h' g1 g2,
    accessing l pt l [] (repeat true before +++ false :: repeat true (6 - before)) (mkMem [] 0)
      = (h', FWorking [] g1 Outside, FWorking [] g2 Outside) /\
    contains (g_field g1) "Foo0" = ((2 <=? before) && (before <=? 4))%nat /\
    (same_text g1 (run_entries (entry_of l) pt) <-> before < 2 \/ 4 < before).
Proof.
  exists (demo [] first_choice). intros l.
  exists [PComplex (mkComplex "" "Foo" "" [] [] [] [])].
  split; [destruct l; repeat constructor; cbn; tauto|]. split; [destruct l; vm_compute; reflexivity|].
  intros before Hb. assert (Hc : before = 1 \/ before = 2 \/ before = 3 \/ before = 4 \/ before = 5 \/ before = 6) by lia.
  destruct Hc as [->|[->|[->|[->|[->| ->]]]]]; destruct l; do 3 eexists;
    (split; [vm_compute; reflexivity|]); (split; [vm_compute; reflexivity|]);
    (split; [intros [H _]; vm_compute in H; first [discriminate H | lia] | intros H; first [exfalso; lia | vm_compute; repeat split; reflexivity]]).
Qed.
Print Assumptions C29_zero_refuted.

(** Two runs with the same component: both are numbered 2, or none is, by the
    order of the accesses. *)
Theorem C29_both_numbered_refuted : exists (E : Env), forall l, exists pt,
  (exists schedule h' g1 g2,
    accessing l pt l pt schedule (mkMem [] 0) = (h', FWorking [] g1 Outside, FWorking [] g2 Outside) /\
    contains (g_field g1) "Foo2" = true /\ contains (g_field g2) "Foo2" = true) /\
  (exists schedule h' g1 g2,
    accessing l pt l pt schedule (mkMem [] 0) = (h', FWorking [] g1 Outside, FWorking [] g2 Outside) /\
    same_text g1 (run_entries (entry_of l) pt) /\ same_text g2 (run_entries (entry_of l) pt) /\
    contains (g_field g1) "Foo2" = false).
Proof.
  exists (demo [] first_choice). intros l. exists [PComplex (mkComplex "" "Foo" "" [] [] [] [])]. split.
  - exists [true; false; true; true; true; false; false; false; true; true; false; false].
    destruct l; do 3 eexists; (split; [vm_compute; reflexivity | vm_compute; split; reflexivity]).
  - exists [true; false; true; true; false; false; true; false; true; true; false; false].
    destruct l; do 3 eexists; (split; [vm_compute; reflexivity | vm_compute; repeat split; reflexivity]).
Qed.
Print Assumptions C29_both_numbered_refuted.

Example C29_accesses_example :
  let E := demo [] first_choice in
  let c n := PComplex (mkComplex "" n "" [] [] [] []) in
  let pt1 := [c "A"; c "B"; c "A"] in
  let pt2 := [c "X"; c "Z"] in
  let schedule := [true; true; true; true; true; true; false; true; false; false; true; true; false; false; true;
                   true; false; false; false; true; false; false; true; false; false] in
  NoDup (taken (E := E) Go pt1 +++ taken (E := E) Rust pt2) /\
  calm (entry_of (E := E) Go) pt1 (entry_of (E := E) Rust) pt2 schedule (mkMem [] 0) FWaiting FWaiting /\
  exists h' g1 g2,
    finterleave (entry_of (E := E) Go) pt1 (entry_of (E := E) Rust) pt2 schedule (mkMem [] 0) FWaiting FWaiting =
      (h', FWorking [] g1 Outside, FWorking [] g2 Outside) /\
    maps h' = [[("A", 1%Z)]; [("B", 1%Z); ("X", 1%Z); ("Z", 1%Z)]].
Proof.
  cbv zeta. split; [|split].
  - vm_compute. repeat constructor; cbn; intuition discriminate.
  - vm_compute. repeat split; congruence.
  - do 3 eexists. split; vm_compute; reflexivity.
Qed.

(** Whatever two runs declare, even if no two names compete: if each of them
    takes an identifier, there is an order of the accesses after which both are
    about to store into the same map.  Two runs that both have to start race from
    the beginning. *)
Theorem C29_race_refuted : forall (E : Env) l1 pt1 l2 pt2 h,
  race (next_access (entry_of l1) pt1 FWaiting) (next_access (entry_of l2) pt2 FWaiting) /\
  (taken l1 pt1 <> [] -> taken l2 pt2 <> [] ->
   exists schedule h' r1 r2 a, accessing l1 pt1 l2 pt2 schedule h = (h', r1, r2) /\
     next_access (entry_of l1) pt1 r1 = StoresMap a /\ next_access (entry_of l2) pt2 r2 = StoresMap a).
Proof.
  intros E l1 pt1 l2 pt2 h. split; [exact I|]. intros H1 H2.
  assert (Ht : forall l pt, taken l pt = counted l (rendered l [] pt)).
  { intros l pt. apply map_ext. intros p. apply plain_ident_eq. }
  rewrite Ht in H1, H2.
  destruct (both_store l1 pt1 l2 pt2 h H1 H2) as [s [h' [p1 [rest1 [g1 [c1 [p2 [rest2 [g2 [c2 [Hs [A1 A2]]]]]]]]]]]].
  do 4 eexists. exists (here h'). split; [exact Hs|]. cbn [next_access].
  destruct (asked (entry_of l1) pt1 g1 p1); [now elim A1|]. destruct (asked (entry_of l2) pt2 g2 p2); [now elim A2|]. now split.
Qed.
Print Assumptions C29_race_refuted.

Example C29_race_example :
  let E := demo [] first_choice in
  let c n := PComplex (mkComplex "" n "" [] [] [] []) in
  let e1 := entry_of (E := E) Go in let e2 := entry_of (E := E) Java in
  NoDup (taken (E := E) Go [c "A"] +++ taken (E := E) Java [c "X"]) /\
  let '(_, r1, r2) := finterleave e1 [c "A"] e2 [c "X"] [true; false; true; true; false; false] (mkMem [] 0) FWaiting FWaiting in
  next_access e1 [c "A"] r1 = StoresMap 1 /\ next_access e2 [c "X"] r2 = StoresMap 1.
Proof. cbv zeta. split; [vm_compute; repeat constructor; cbn; intuition discriminate|vm_compute; now split]. Qed.
