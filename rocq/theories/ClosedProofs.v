(** Proofs for C66. *)

From Coq Require Import String Ascii List NArith Bool Lia.
From Verif Require Import GoStr Utf8 Base Utils GenGo GenC GenJava GenRust GenTS SpecStr SpecTables SpecGen SpecOut SpecSyntax SpecClosed
  StrLemmas StrProofs GenLemmas GenNames GenOutline GenFacts GenRuns NameProofs SyntaxProofs SyntaxDecls.
Import ListNotations.
Local Open Scope string_scope.

Local Infix "+++" := app (at level 60, right associativity).

Lemma first_in : forall {E : Env} l tree seen p pre post n, tree = pre +++ p :: post -> proto_name p = Some n ->
  ~ In n seen -> (forall q, In q pre -> proto_name q <> Some n) -> exists b, In (p, b) (rendered l seen tree).
Proof.
  intros E l. induction tree as [|q tree IH]; intros seen p pre post n Ht Hn Hs Hpre.
  - destruct pre; discriminate.
  - destruct pre as [|q' pre]; injection Ht as <- ->.
    + cbn [rendered]. rewrite Hn. destruct (in_dec string_dec n seen); [contradiction|].
      destruct (enumerated l q && negb (listed q)); eexists; left; reflexivity.
    + cbn [rendered].
      assert (Hrec : forall seen', ~ In n seen' -> exists b, In (p, b) (rendered l seen' (pre +++ p :: post))).
      { intros seen' Hs'. apply (IH seen' p pre post n); auto. intros x Hx. apply Hpre. now right. }
      destruct (proto_name q) as [m|] eqn:Hm; [|now apply Hrec].
      assert (Hne : m <> n) by (intros ->; apply (Hpre q (or_introl eq_refl)); exact Hm).
      assert (Hns : ~ In n (m :: seen)) by (intros [->|H]; contradiction).
      destruct (Hrec seen Hs) as [b Hb]. destruct (Hrec _ Hns) as [b' Hb'].
      destruct (in_dec string_dec m seen); destruct (enumerated l q); destruct (listed q); cbn [andb negb];
        first [exists b; first [exact Hb | right; exact Hb] | exists b'; first [exact Hb' | right; exact Hb']].
Qed.

(** The first use of a name is not numbered. *)
Lemma ident_in : forall {E : Env} l (ps : list (proto * bool)) used p, In p (map fst ps) -> ~ In (plain_ident l p) used ->
  exists c, In (c, plain_ident l p) (combine ps (identifiers l used (map fst ps))) /\ plain_ident l (fst c) = plain_ident l p.
Proof.
  intros E l ps. induction ps as [|[q b] ps IH]; intros used p Hp Hu; [destruct Hp|]. cbn [map fst identifiers].
  destruct (string_dec (plain_ident l q) (plain_ident l p)) as [He|He].
  - exists (q, b). split; [|exact He]. destruct (counting l q); cbn [combine]; left; [|now rewrite He].
    unfold numbered, uses. rewrite He, (proj1 (count_occ_not_In string_dec used _) Hu). reflexivity.
  - cbn [map fst] in Hp; destruct Hp as [Hp|Hp]; [subst q; congruence|]. destruct (counting l q); cbn [combine].
    + destruct (IH (plain_ident l q :: used) p Hp) as [c [Hc Hd]]; [intros [H|H]; contradiction|]. exists c. split; [now right | exact Hd].
    + destruct (IH used p Hp Hu) as [c [Hc Hd]]. exists c. split; [now right | exact Hd].
Qed.

Lemma declares_same : forall {E : Env} l p, declares l p (plain_ident l p) = plain_ident l p.
Proof. intros E l p. destruct l; try reflexivity. destruct p as [|s|s|s|s|s|s]; try reflexivity. cbn [declares]. destruct (st_list s), (is_union s); reflexivity. Qed.

(** Removing an ASCII character from well-formed text. *)
Lemma well_formed_remove : forall d s, (N_of_ascii d < 128)%N -> well_formed s -> well_formed (remove_char d s).
Proof.
  intros d s Hd [rs [Hrs ->]]. exists (filter (fun r => negb (N.eqb r (N_of_ascii d))) rs). split.
  - apply Forall_forall. intros r Hr. apply filter_In in Hr as [Hr _]. exact (proj1 (Forall_forall _ _) Hrs r Hr).
  - induction Hrs as [|r rs Hr Hrs IH]; [reflexivity|]. cbn [map sconcat filter]. rewrite remove_char_app, IH.
    destruct (N.eqb_spec r (N_of_ascii d)) as [->|Hne]; cbn [negb].
    + rewrite encode_ascii by exact Hd. unfold byte. rewrite ascii_N_embedding. cbn [remove_char]. now rewrite Ascii.eqb_refl.
    + cbn [map sconcat]. f_equal. apply remove_char_id. rewrite encode_has_char by exact Hd. now apply N.eqb_neq.
Qed.

Lemma kept_wf : forall s, well_formed s -> kept s = s.
Proof. intros s H. unfold kept. rewrite <- (well_formed_segs s H) at 2. unfold runes. now rewrite map_map. Qed.

Section Closed.
Context {E : Env}.
Hypothesis tables : case_tables_ok.
Hypothesis upper : upper_idempotent E.

Lemma bare_ident : forall l t, well_formed t -> name_ok t -> has_char ":" t = false -> bare_id l t = type_ident l t.
Proof.
  intros l t Hw [a [r [-> [Ha _]]]] Hc.
  assert (Hd : bare (String a r) = camel (String a r)).
  { unfold bare, camel. rewrite capital_eq, !erase_remove, !joined_eq. apply (declared_referenced upper tables); [exact Hw | now apply free_of_has_char | |];
      intros [q Hq]; injection Hq as -> _; discriminate. }
  destruct l; cbn [bare_id type_ident]; try exact Hd; [|reflexivity]. unfold solid. now rewrite Hd.
Qed.

Lemma bare_wf : forall t, well_formed (bare t).
Proof. intros t. unfold bare. rewrite capital_eq. apply to_title_well_formed. Qed.

Lemma again_same : forall t, name_ok t -> has_char ":" t = false -> ~ improper Go t -> again (bare_id Go t) = bare_id Go t.
Proof.
  intros t Hn Hc Hi. destruct (reference_form tables upper Go t Hn Hc Hi) as [_ [Hid _]]. set (i := bare_id Go t) in *.
  assert (Hw : well_formed i) by (unfold i, bare_id; rewrite erase_remove; apply well_formed_remove; [reflexivity | apply bare_wf]).
  pose proof (identifier_every Go i Hid) as He. unfold again. rewrite (kept_wf i Hw).
  rewrite (remove_char_id "-") by (apply (every_free ident_char); [exact He | reflexivity]). rewrite (kept_wf i Hw). apply remove_char_id.
  unfold i, bare_id. rewrite erase_remove. apply has_char_remove.
Qed.

Lemma bare_twice : forall t, name_ok t -> has_char ":" t = false -> ~ improper C t -> bare_id C (bare_id C t) = bare_id C t.
Proof.
  intros t Hn Hc Hi. destruct (reference_form tables upper C t Hn Hc Hi) as [_ [Hid _]]. pose proof (identifier_every C _ Hid) as He.
  cbn [bare_id] in *. unfold bare at 1. rewrite capital_eq, erase_remove, joined_eq. unfold title_join.
  rewrite split_on_no_char by (apply (every_free ident_char); [exact He | reflexivity]). cbn [map sconcat]. rewrite app_nil_r_s.
  assert (Hb : to_title (bare t) = bare t) by (unfold bare; rewrite capital_eq; now apply to_title_idem).
  rewrite Hb, remove_char_id by (apply (every_free ident_char); [exact He | reflexivity]). exact Hb.
Qed.

(** The names that the program for a tree declares. *)
Definition declared_names (l : lang) (pt : list proto) : list string :=
  map (fun c => declares l (fst (fst c)) (snd c)) (combine (rendered l [] pt) (identifiers l [] (map fst (rendered l [] pt)))).

Lemma component_declared : forall l pt t, name_ok t -> has_char ":" t = false -> components pt l t -> In (bare_id l t) (declared_names l pt).
Proof.
  intros l pt t Hn Hc [Hw [p [[pre [post [n [Ht [Hpn Hpre]]]]] [Hpt Hs]]]]. rewrite Hpn in Hpt. injection Hpt as ->.
  rewrite bare_ident by assumption. assert (Hpi : type_ident l t = plain_ident l p).
  { unfold plain_ident. rewrite Hpn. destruct l, p; try reflexivity; elim (Hs I). }
  rewrite Hpi. destruct (first_in l pt [] p pre post t Ht Hpn (fun x => x) Hpre) as [b Hb].
  destruct (ident_in l (rendered l [] pt) [] p) as [c [Hc1 Hc2]]; [apply in_map_iff; now exists (p, b) | intros []|].
  unfold declared_names. apply in_map_iff. exists (c, plain_ident l p). split; [|exact Hc1]. cbn [fst snd]. rewrite <- Hc2. apply declares_same.
Qed.

Theorem expected_within : forall (P : Pool) (known : string -> Prop) l pt,
  (forall t, name_ok t -> has_char ":" t = false -> pooled l t -> known (bare_id l t)) ->
  tree_fine l pt -> Forall (manageable l pt) pt -> (l = Java -> no_group_attributes pt) ->
  exists ds, expected l pt = concat (map snd ds) /\ map fst ds = declared_names l pt /\
    Forall (fun d => declaration (S := fun l' s => l' = l -> In s (standard l) \/ known s) l (fst d) (snd d)) ds.
Proof.
  intros P known l pt Hp Hf Hm Hj.
  destruct (expected_declarations (S := fun l' s => l' = l -> In s (standard l) \/ known s) (P := P) tables upper) with (pt := pt) (l := l) as [ds [H1 [H2 H3]]].
  - intros l' s Hs ->. now left.
  - intros l' t Hn Hc _ Hq _ _ ->. right. now apply Hp.
  - intros t Hn Hc Hi Hq _ <-. right. rewrite again_same by assumption. now apply Hp.
  - intros t Hn Hc Hi Hq _ _ <-. right. rewrite bare_twice by assumption. now apply Hp.
  - intros v a Hv Ha <-. rewrite (Hj eq_refl v Hv) in Ha. destruct Ha.
  - exact Hf.
  - exact Hm.
  - exists ds. now repeat split.
Qed.

Theorem expected_closed : forall l pt, tree_fine (P := components pt) l pt -> Forall (manageable l pt) pt ->
  (l = Java -> no_group_attributes pt) -> closed_program (standard l) l (expected l pt).
Proof.
  intros l pt Hf Hm Hj.
  destruct (expected_within (components pt) (fun s => In s (declared_names l pt)) l pt) as [ds [H1 [H2 H3]]]; try assumption; [exact (component_declared l pt)|].
  exists ds. split; [exact H1|]. rewrite H2. exact H3.
Qed.

End Closed.
