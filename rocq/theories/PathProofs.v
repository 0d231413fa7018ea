(** Lemmas about lexical path cleaning. *)

From Coq Require Import String Ascii List Arith NArith Bool Lia.
From Verif Require Import GoStr GoPath StrLemmas.
Import ListNotations.
Local Open Scope string_scope.

(** A component that [path_comps] keeps. *)
Definition real_comp (c : string) : Prop := has_char "/" c = false /\ c <> "" /\ c <> ".".

Definition pcomps (p : string) : list string := clean_comps (is_rooted p) (path_comps p).

(** Result of [clean_comps]: some ".." in front (none if rooted), then names. *)
Definition normal (rooted : bool) (cs : list string) : Prop :=
  Forall real_comp cs /\
  exists k names, cs = (repeat ".." k ++ names)%list /\ Forall (fun c => c <> "..") names /\
    (rooted = true -> k = 0).

Lemma path_comps_real : forall p, Forall real_comp (path_comps p).
Proof.
  intros p. unfold path_comps. apply Forall_forall. intros c Hc. apply filter_In in Hc as [Hc Hb].
  apply negb_true_iff, orb_false_iff in Hb as [H1 H2].
  split; [now apply (split_on_clean "/" p)|].
  split; [now apply String.eqb_neq|now apply String.eqb_neq].
Qed.

Lemma clean_fold : forall rooted cs out, Forall real_comp cs -> normal rooted (rev out) ->
  normal rooted (rev (fold_left (clean_step rooted) cs out)).
Proof.
  intros rooted cs. induction cs as [|c cs IH]; intros out Hr Hn; [exact Hn|].
  cbn. apply Forall_cons_iff in Hr as [Hc Hr]. apply IH; [exact Hr|].
  destruct Hn as [Hf [k [names [He [Hd Hk]]]]]. unfold clean_step.
  destruct (String.eqb_spec c "..") as [->|Hne].
  - destruct out as [|top rest].
    + destruct rooted; [split; [constructor|]; exists 0, []; cbn; auto|].
      split; [cbn; now constructor|]. exists 1, []. cbn. split; [reflexivity|split; [constructor|discriminate]].
    + cbn in He. assert (Hf' : Forall real_comp (rev rest)).
      { cbn in Hf. now apply Forall_app in Hf as [Hf _]. }
      destruct (String.eqb_spec top "..") as [->|Ht].
      * assert (names = []) as ->.
        { destruct names as [|n names] using rev_ind; [reflexivity|].
          rewrite app_assoc in He. apply app_inj_tail in He as [_ <-].
          apply Forall_app in Hd as [_ Hd]. apply Forall_cons_iff in Hd as [Hd _]. now elim Hd. }
        rewrite app_nil_r in He. change (rev (".." :: ".." :: rest)) with ((rev rest ++ [".."]) ++ [".."])%list.
        split; [apply Forall_app; split; [exact Hf|constructor; [exact Hc|constructor]]|].
        exists (S k), []. rewrite app_nil_r, He. split.
        -- clear. induction k as [|k IH]; [reflexivity|]. cbn. cbn in IH. now rewrite IH.
        -- split; [constructor|]. intros ->. destruct k; [|discriminate (Hk eq_refl)].
           destruct (rev rest); discriminate.
      * destruct names as [|n names _] using rev_ind.
        -- rewrite app_nil_r in He. destruct k as [|k]; [destruct (rev rest); discriminate|].
           replace (S k) with (k + 1) in He by lia. rewrite repeat_app in He. cbn in He.
           apply app_inj_tail in He as [_ He]. contradiction.
        -- rewrite app_assoc in He. apply app_inj_tail in He as [He <-].
           split; [exact Hf'|]. exists k, names. split; [exact He|]. split; [|exact Hk].
           now apply Forall_app in Hd as [Hd _].
  - cbn. split; [apply Forall_app; split; [exact Hf|constructor; [exact Hc|constructor]]|].
    exists k, (names ++ [c])%list. rewrite He, app_assoc. split; [reflexivity|]. split; [|exact Hk].
    apply Forall_app. split; [exact Hd|constructor; [exact Hne|constructor]].
Qed.

Lemma pcomps_normal : forall p, normal (is_rooted p) (pcomps p).
Proof.
  intros p. unfold pcomps, clean_comps. apply clean_fold; [apply path_comps_real|].
  split; [constructor|]. exists 0, []. cbn. auto.
Qed.

Lemma clean_names : forall rooted names out, Forall (fun c => c <> "..") names ->
  fold_left (clean_step rooted) names out = (rev names ++ out)%list.
Proof.
  intros rooted names. induction names as [|c names IH]; intros out H; [reflexivity|].
  apply Forall_cons_iff in H as [Hc H]. cbn. rewrite IH by exact H. unfold clean_step.
  destruct (String.eqb_spec c ".."); [contradiction|]. now rewrite <- app_assoc.
Qed.

Lemma clean_dots : forall k n, fold_left (clean_step false) (repeat ".." k) (repeat ".." n) = repeat ".." (k + n).
Proof.
  induction k as [|k IH]; intros n; [reflexivity|]. cbn [repeat fold_left].
  replace (clean_step false (repeat ".." n) "..") with (repeat ".." (S n)) by (destruct n; reflexivity).
  rewrite IH. f_equal. lia.
Qed.

Lemma clean_comps_normal : forall rooted cs, normal rooted cs -> clean_comps rooted cs = cs.
Proof.
  intros rooted cs [_ [k [names [-> [Hd Hk]]]]]. unfold clean_comps. rewrite fold_left_app.
  rewrite clean_names by exact Hd. rewrite rev_app_distr, rev_involutive. f_equal.
  destruct rooted; [now rewrite (Hk eq_refl)|].
  change (@nil string) with (repeat ".." 0). rewrite clean_dots, Nat.add_0_r.
  clear. induction k as [|k IH]; [reflexivity|]. cbn. rewrite IH. clear.
  induction k as [|k IH]; [reflexivity|]. cbn. now rewrite IH.
Qed.

Lemma path_comps_cons : forall c p, has_char "/" c = false ->
  path_comps (c ++ "/" ++ p) = (path_comps c ++ path_comps p)%list.
Proof.
  intros c p H. unfold path_comps. change ("/" ++ p) with (String "/" p). rewrite split_on_app_char by exact H.
  rewrite (split_on_no_char _ _ H). cbn [filter]. destruct (negb _); reflexivity.
Qed.

Lemma path_comps_one : forall c, real_comp c -> path_comps c = [c].
Proof.
  intros c [H1 [H2 H3]]. unfold path_comps. rewrite (split_on_no_char _ _ H1). cbn.
  apply String.eqb_neq in H2, H3. now rewrite H2, H3.
Qed.

Lemma path_comps_join : forall cs, Forall real_comp cs -> path_comps (sjoin "/" cs) = cs.
Proof.
  induction cs as [|c cs IH]; intros H; [reflexivity|]. apply Forall_cons_iff in H as [Hc H].
  destruct cs as [|d cs]; [now apply path_comps_one|].
  change (sjoin "/" (c :: d :: cs)) with (c ++ "/" ++ sjoin "/" (d :: cs)).
  rewrite path_comps_cons by apply Hc. rewrite IH by exact H. now rewrite path_comps_one.
Qed.

Lemma path_comps_slash : forall p, path_comps ("/" ++ p) = path_comps p.
Proof. intros p. change ("/" ++ p) with ("" ++ "/" ++ p). now rewrite path_comps_cons. Qed.

Lemma rooted_join : forall cs, Forall real_comp cs -> is_rooted (sjoin "/" cs) = false.
Proof.
  intros [|c cs] H; [reflexivity|]. apply Forall_cons_iff in H as [[H1 [H2 _]] _].
  assert (forall s, is_rooted (c ++ s) = false) as Hc.
  { intros s. destruct c as [|a c]; [now elim H2|]. cbn in H1. apply orb_false_iff in H1 as [H1 _].
    destruct (is_rooted (String a c ++ s)) eqn:Hr; [|reflexivity].
    apply has_prefix_spec in Hr as [r Hr]. injection Hr as -> _. now rewrite Ascii.eqb_refl in H1. }
  destruct cs as [|d cs]; [rewrite <- (app_nil_r_s c); apply Hc|].
  change (sjoin "/" (c :: d :: cs)) with (c ++ ("/" ++ sjoin "/" (d :: cs))). apply Hc.
Qed.

Lemma is_rooted_slash : forall p, is_rooted ("/" ++ p) = true.
Proof. intros p. unfold is_rooted. apply has_prefix_spec. now exists p. Qed.

(** What [clean] makes of a normal component list. *)
Definition unparse (rooted : bool) (cs : list string) : string :=
  if rooted then "/" ++ sjoin "/" cs else match cs with [] => "." | _ => sjoin "/" cs end.

Lemma clean_unparse : forall p, clean p = unparse (is_rooted p) (pcomps p).
Proof. reflexivity. Qed.

Lemma unparse_rooted : forall r cs, normal r cs -> is_rooted (unparse r cs) = r.
Proof.
  intros [] cs [H _]; unfold unparse; [apply is_rooted_slash|].
  destruct cs; [reflexivity|]. now apply rooted_join.
Qed.

Lemma unparse_path_comps : forall r cs, normal r cs -> path_comps (unparse r cs) = cs.
Proof.
  intros [] cs [H _]; unfold unparse; [rewrite path_comps_slash; now apply path_comps_join|].
  destruct cs; [reflexivity|]. now apply path_comps_join.
Qed.

Lemma unparse_comps : forall r cs, normal r cs -> pcomps (unparse r cs) = cs.
Proof.
  intros r cs H. unfold pcomps. rewrite unparse_rooted, unparse_path_comps by exact H.
  now apply clean_comps_normal.
Qed.

Lemma unparse_inj : forall r r' cs cs', normal r cs -> normal r' cs' ->
  unparse r cs = unparse r' cs' -> r = r' /\ cs = cs'.
Proof.
  intros r r' cs cs' H H' He. split.
  - now rewrite <- (unparse_rooted r cs H), He, unparse_rooted.
  - now rewrite <- (unparse_comps r cs H), He, unparse_comps.
Qed.

Lemma clean_rooted : forall p, is_rooted (clean p) = is_rooted p.
Proof. intros p. rewrite clean_unparse. apply unparse_rooted, pcomps_normal. Qed.

Lemma clean_comps_id : forall p, pcomps (clean p) = pcomps p.
Proof. intros p. rewrite clean_unparse. apply unparse_comps, pcomps_normal. Qed.

Theorem clean_idem : forall p, clean (clean p) = clean p.
Proof. intros p. rewrite (clean_unparse (clean p)), clean_rooted, clean_comps_id. reflexivity. Qed.

Lemma join2_clean : forall a b, join2 a b = "" \/ clean (join2 a b) = join2 a b.
Proof.
  intros a b. unfold join2. destruct (String.eqb a ""); [destruct (String.eqb b ""); [now left|]|];
  right; apply clean_idem.
Qed.

Lemma join2_dir : forall p b, clean (join2 (dir p) b) = join2 (dir p) b.
Proof.
  intros p b. unfold join2. replace (String.eqb (dir p) "") with false; [apply clean_idem|].
  symmetry. apply String.eqb_neq. unfold dir. rewrite clean_unparse. unfold unparse.
  destruct (is_rooted (dir_part p)); [discriminate|].
  destruct (pcomps (dir_part p)) as [|c cs] eqn:He; [discriminate|].
  pose proof (pcomps_normal (dir_part p)) as [H _]. rewrite He in H.
  apply Forall_cons_iff in H as [[_ [H _]] _]. intros Hs. destruct cs as [|d cs]; [now apply H|].
  cbn in Hs. apply app_eq_nil_s in Hs as [_ Hs]. discriminate.
Qed.

Lemma clean_not_empty : forall p, clean p <> "".
Proof.
  intros p. rewrite clean_unparse. unfold unparse.
  destruct (is_rooted p); [discriminate|].
  destruct (pcomps p) as [|c cs] eqn:He; [discriminate|].
  pose proof (pcomps_normal p) as [H _]. rewrite He in H.
  apply Forall_cons_iff in H as [[_ [H _]] _]. intros Hs. destruct cs as [|d cs]; [now apply H|].
  cbn in Hs. apply app_eq_nil_s in Hs as [_ Hs]. discriminate.
Qed.
