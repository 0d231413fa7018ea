(** Whole generator runs: the outline of the generated text. *)

From Coq Require Import String Ascii List NArith ZArith Bool Lia.
From Verif Require Import GoStr Base Utils GenGo GenC GenJava GenRust GenTS Parser SpecStr SpecGen GenText
  ParserProofs GenLemmas GenOutline.
Import ListNotations.
Local Open Scope string_scope.

Local Infix "+++" := app (at level 60, right associativity).

Section Run.
Context {E : Env}.

Definition counts_ok (used : list string) (m : smap Z) : Prop :=
  forall n, match get n m with Some c => c | None => 0%Z end = Z.of_nat (uses n used).

Lemma uniq_numbered : forall used m n, counts_ok used m -> fst (uniq_name m n) = numbered n (S (uses n used)).
Proof.
  intros used m n H. unfold uniq_name, numbered. cbn [fst]. rewrite (H n).
  replace (Z.of_nat (uses n used) + 1)%Z with (Z.of_nat (S (uses n used))) by lia.
  destruct (uses n used); [reflexivity|].
  destruct (Z.eqb_spec (Z.of_nat (S (S n0))) 1) as [Hc|Hc]; [lia|].
  unfold itoa_int. destruct (Z.ltb_spec (Z.of_nat (S (S n0))) 0) as [Hn|Hn]; [lia|].
  now rewrite <- nat_N_Z, N2Z.id.
Qed.

Lemma uniq_counts : forall used m n, counts_ok used m -> counts_ok (n :: used) (snd (uniq_name m n)).
Proof.
  intros used m n H k. unfold uniq_name. cbn [snd]. rewrite (H n). unfold uses. cbn [count_occ].
  destruct (string_dec n k) as [<-|Hne].
  - rewrite get_put_same. lia.
  - rewrite get_put_other by exact Hne. apply H.
Qed.

Lemma put_declared : forall g g' n c k, g_ast g' = put n c (g_ast g) ->
  declared k g' = if string_dec n k then true else declared k g.
Proof.
  intros g g' n c k H. unfold declared, has_key. rewrite H. destruct (string_dec n k) as [<-|Hne].
  - now rewrite get_put_same.
  - now rewrite get_put_other.
Qed.

(** What a run from a given state appends. *)
Definition section_of (l : lang) (pt : list proto) (ps : list (proto * bool)) (used : list string) : list item :=
  concat (map (fun x => items_of l pt (fst (fst x)) (snd (fst x)) (snd x))
              (combine ps (identifiers l used (map fst ps)))).

Definition used_after (l : lang) (p : proto) (used : list string) : list string :=
  if counting l p then plain_ident l p :: used else used.

Lemma section_cons : forall l pt p e r used, 
  section_of l pt ((p, e) :: r) used =
    items_of l pt p e (if counting l p then numbered (plain_ident l p) (S (uses (plain_ident l p) used)) else plain_ident l p)
    +++ section_of l pt r (used_after l p used).
Proof.
  intros l pt p e r used. unfold section_of, used_after. cbn [map fst identifiers].
  destruct (counting l p); reflexivity.
Qed.

Lemma emits_step : forall l pt p e g g' used its,
  Emits l pt p e g g' -> counts_ok used (g_count g) -> Text (g_field g) its ->
  counts_ok (used_after l p used) (g_count g') /\
  Text (g_field g') (its +++ items_of l pt p e
    (if counting l p then numbered (plain_ident l p) (S (uses (plain_ident l p) used)) else plain_ident l p)).
Proof.
  intros l pt p e g g' used its [[text [Hf Ht]] [Hc _]] Hu Hg.
  unfold count_after, ident_now in *. rewrite Hf, Hc. unfold used_after. destruct (counting l p).
  - split; [now apply uniq_counts|]. rewrite <- (uniq_numbered used (g_count g)) by exact Hu. now apply Text_app.
  - split; [exact Hu|]. now apply Text_app.
Qed.

Lemma fold_outline : forall l pt, case_tables_ok -> tree_ok pt -> forall tree, tree_ok tree ->
  forall g seen used its,
  (forall n, declared n g = true <-> In n seen) -> counts_ok used (g_count g) -> Text (g_field g) its ->
  Text (g_field (fold_left (entry_of l pt) tree g)) (its +++ section_of l pt (rendered l seen tree) used).
Proof.
  intros l pt Htab Hpt. induction tree as [|p tree IH]; intros Ht g seen used its Hs Hu Hg.
  - cbn. now rewrite app_nil_r.
  - inversion Ht as [|? ? Hp Htree]; subst. cbn [fold_left rendered].
    destruct (proto_name p) as [n|] eqn:Hn; [|rewrite entry_nil by exact Hn; now apply IH].
    destruct (in_dec string_dec n seen) as [Hin|Hin].
    + assert (Hd : declared n g = true) by now apply Hs.
      destruct (enumerated l p) eqn:He; [|erewrite entry_skips; eauto].
      assert (Hem := entry_emits_enum Htab pt l p g n Hn Hp He (or_introl Hd)).
      destruct (emits_step l pt p true g _ used its Hem Hu Hg) as [Hu' Hg'].
      rewrite section_cons, app_assoc. apply IH; try assumption.
      intros k. destruct Hem as [_ [_ Ha]]. unfold declared in *. now rewrite Ha.
    + assert (Hd : declared n g = false).
      { destruct (declared n g) eqn:Hd; [|reflexivity]. elim Hin. now apply Hs. }
      destruct (enumerated l p && negb (listed p)) eqn:He.
      * apply andb_true_iff in He as [He Hl]. apply negb_true_iff in Hl.
        assert (Hem := entry_emits_enum Htab pt l p g n Hn Hp He (or_intror Hl)).
        destruct (emits_step l pt p true g _ used its Hem Hu Hg) as [Hu' Hg'].
        rewrite section_cons, app_assoc. apply IH; try assumption.
        intros k. destruct Hem as [_ [_ Ha]]. unfold declared in *. now rewrite Ha.
      * assert (Hem := entry_emits Htab pt Hpt l p g n Hn Hp Hd He).
        destruct (emits_step l pt p false g _ used its Hem Hu Hg) as [Hu' Hg'].
        rewrite section_cons, app_assoc. apply IH; try assumption.
        intros k. destruct Hem as [_ [_ [n' [c [Hn' Ha]]]]].
        assert (n' = n) by congruence. subst. rewrite (put_declared _ _ _ _ _ Ha). cbn [In].
        destruct (string_dec n k) as [->|Hne]; [now intuition|].
        rewrite Hs. intuition congruence.
Qed.

(** The declared names, whatever the names look like. *)
Lemma run_outline : forall l pt, case_tables_ok -> tree_ok pt ->
  outline (g_field (run_entries (entry_of l) pt)) = Some (expected l pt).
Proof.
  intros l pt Htab Hpt. apply Text_outline. unfold run_entries.
  apply (fold_outline l pt Htab Hpt pt Hpt g_init [] [] []).
  - intros n. cbn. split; [discriminate|contradiction].
  - intros n. reflexivity.
  - apply Text_nil.
Qed.

End Run.
