(** Proofs for C26: paths with "..". *)

From Coq Require Import String Ascii List NArith Bool Arith Lia.
From Verif Require Import GoStr GoPath Base Utils World Parser SpecStr SpecParse SpecGen SpecOut SpecFile SpecInside StrLemmas StrProofs PathProofs ParseFacts FileProofs.
Import ListNotations.
Local Open Scope string_scope.

Local Infix "+++" := app (at level 60, right associativity).

Lemma walk_stack : forall r cs names out m, Forall (fun c => c <> "..") names -> Forall real_comp names ->
  Forall (fun c => has_char "/" c = false) cs -> walk (length names) cs = Some m ->
  exists names', length names' = m /\ Forall (fun c => c <> "..") names' /\ Forall real_comp names' /\
    fold_left (clean_step r) (filter (fun c => negb (String.eqb c "" || String.eqb c ".")) cs) (names +++ out) = names' +++ out.
Proof.
  intros r cs. induction cs as [|c cs IH]; intros names out m Hd Hr Hc H.
  - cbn [walk] in H. injection H as <-. exists names. auto.
  - apply Forall_cons_iff in Hc as [Hc1 Hc]. cbn [walk] in H. cbn [filter]. destruct (string_dec c "..") as [->|Hn].
    + destruct names as [|x names]; [discriminate|]. cbn [length] in H. apply Forall_cons_iff in Hd as [Hx Hd]. apply Forall_cons_iff in Hr as [_ Hr].
      destruct (IH names out m Hd Hr Hc H) as [names' [H1 [H2 [H3 H4]]]]. exists names'. split; [exact H1|]. split; [exact H2|]. split; [exact H3|].
      cbn [String.eqb Ascii.eqb Bool.eqb orb negb fold_left clean_step app]. cbn. apply String.eqb_neq in Hx. now rewrite Hx.
    + destruct (string_dec c "") as [->|He]; [exact (IH names out m Hd Hr Hc H)|]. destruct (string_dec c ".") as [->|Hp]; [exact (IH names out m Hd Hr Hc H)|].
      pose proof He as He'. pose proof Hp as Hp'. pose proof Hn as Hn'. apply String.eqb_neq in He', Hp', Hn'. rewrite He', Hp'. cbn [orb negb fold_left].
      unfold clean_step at 2. rewrite Hn'. apply (IH (c :: names) out m); [now constructor | constructor; [now repeat split|exact Hr] | exact Hc | exact H].
Qed.

(** A walk that stays inside can do without "..". *)
Lemma walk_straight : forall d rel m, d <> "" -> walk 0 (split_on "/" rel) = Some m ->
  exists names, length names = m /\ Forall (fun c => c <> "..") names /\ Forall real_comp names /\ join2 d rel = join2 d (sjoin "/" names).
Proof.
  intros d rel m Hd H.
  assert (Hc : Forall (fun c => has_char "/" c = false) (split_on "/" rel)) by (apply Forall_forall; intros c Hc; now apply (split_on_clean "/" rel)).
  destruct (walk_stack (is_rooted d) (split_on "/" rel) [] (fold_left (clean_step (is_rooted d)) (path_comps d) []) m) as [names [H1 [H2 [H3 H4]]]]; auto.
  exists (rev names). split; [now rewrite rev_length|]. split; [now apply Forall_rev|]. split; [now apply Forall_rev|].
  unfold join2. replace (String.eqb d "") with false by (symmetry; now apply String.eqb_neq).
  rewrite !clean_unparse, !rooted_app by exact Hd. f_equal. unfold pcomps. rewrite !rooted_app by exact Hd. rewrite !path_comps_app.
  unfold clean_comps. rewrite !fold_left_app. f_equal. cbn [app] in H4. unfold path_comps at 1. rewrite H4.
  rewrite path_comps_join by now apply Forall_rev. rewrite (clean_names _ (rev names)) by now apply Forall_rev. now rewrite rev_involutive.
Qed.

Section Inside.
Context {E : Env}.

Theorem walk_inside : forall o rel l f n, o_output o <> "" -> relative (o_input o) (o_file o) rel -> walk 0 (split_on "/" rel) = Some (S n) ->
  output_file o l f -> inside (o_output o) (clean f).
Proof.
  intros o rel l f n Ho Hr Hw Hf. destruct (walk_straight _ _ _ Ho Hw) as [names [H1 [H2 [H3 H4]]]].
  set (o' := mkO (sjoin "/" names) "" (o_output o) (o_extract o) (lname l) (o_package o) (o_ps o)).
  assert (Hsplit : split_on "/" (sjoin "/" names) = names).
  { apply split_on_sjoin; [now destruct names|]. eapply Forall_impl; [|exact H3]. now intros a [H _]. }
  apply (file_inside o' (sjoin "/" names) l f).
  - exact Ho.
  - left. reflexivity.
  - rewrite Hsplit. now apply Forall_forall.
  - rewrite Hsplit. destruct names as [|x names]; [discriminate|]. apply Forall_inv in H3. exists x. split; [now left|]. now destruct H3 as [_ H3].
  - destruct l; vm_compute; reflexivity.
  - destruct Hf as [p [[rel' [Hr' ->]] Hx]]. rewrite (relative_unique _ _ _ _ Hr' Hr), H4 in Hx.
    exists (join2 (o_output o) (sjoin "/" names)). split; [|exact Hx]. exists (sjoin "/" names). split; [now left|reflexivity].
Qed.

(** The last component with an extension. *)
Lemma normal_extended : forall r init l ext, normal r (init +++ [l]) -> has_char "/" ext = false -> 1 < String.length ext ->
  normal r (init +++ [(l ++ ext)%string]).
Proof.
  intros r init l ext [H [k [names [He [Hn Hk]]]]] Hs Hl. apply Forall_app in H as [H1 H2]. apply Forall_inv in H2. destruct H2 as [L1 [L2 L3]].
  assert (Hlen : forall y, l ++ ext = y -> String.length y < 3 -> False) by (intros y <- Hy; rewrite length_app_s in Hy; destruct l; [now elim L2|cbn in Hy; lia]).
  assert (Hr : real_comp (l ++ ext)).
  { split; [now rewrite has_char_app, L1, Hs|]. split; intros Hx; apply (Hlen _ Hx); cbn; lia. }
  assert (Hd : l ++ ext <> "..") by (intros Hx; apply (Hlen _ Hx); cbn; lia).
  split; [apply Forall_app; split; [exact H1|now constructor]|]. destruct names as [|x names _] using rev_ind.
  - rewrite app_nil_r in He. destruct k as [|k]; [destruct init; discriminate|]. replace (S k) with (k + 1) in He by lia.
    rewrite repeat_app in He. cbn [repeat] in He. apply app_inj_tail in He as [-> _].
    exists k, [(l ++ ext)%string]. split; [reflexivity|]. split; [now constructor|]. intros Hx. specialize (Hk Hx). discriminate.
  - rewrite app_assoc in He. apply app_inj_tail in He as [-> _]. exists k, (names +++ [(l ++ ext)%string]). rewrite app_assoc. split; [reflexivity|].
    split; [|exact Hk]. apply Forall_app in Hn as [Hn _]. apply Forall_app. split; [exact Hn|now constructor].
Qed.

Lemma clean_extended : forall d ext, clean d <> "." -> clean d <> "/" -> has_char "/" ext = false -> 1 < String.length ext ->
  clean (clean d ++ ext) = clean d ++ ext.
Proof.
  intros d ext H1 H2 Hs Hl. rewrite (clean_unparse d) in *. pose proof (pcomps_normal d) as Hn. set (r := is_rooted d) in *. set (cs := pcomps d) in *.
  destruct cs as [|l init _] using rev_ind; [destruct r; [now elim H2|now elim H1]|].
  assert (He : unparse r (init +++ [l]) ++ ext = unparse r (init +++ [(l ++ ext)%string])).
  { unfold unparse. destruct r; [now rewrite <- sjoin_last, app_assoc_s|].
    destruct (init +++ [l]) eqn:Hx; [destruct init; discriminate|]. rewrite <- Hx, sjoin_last.
    destruct (init +++ [(l ++ ext)%string]) eqn:Hy; [destruct init; discriminate|]. reflexivity. }
  rewrite He. pose proof (normal_extended r init l ext Hn Hs Hl) as Hn'. now rewrite clean_unparse, unparse_rooted, unparse_comps.
Qed.

Theorem walk_end : forall o rel l f, o_output o <> "" -> clean (o_output o) <> "." -> clean (o_output o) <> "/" ->
  relative (o_input o) (o_file o) rel -> walk 0 (split_on "/" rel) = Some 0 -> output_file o l f -> ~ inside (o_output o) (clean f).
Proof.
  intros o rel l f Ho Hp Hs Hr Hw [p [[rel' [Hr' ->]] Hx]]. rewrite (relative_unique _ _ _ _ Hr' Hr) in Hx.
  destruct (walk_straight _ _ _ Ho Hw) as [names [H1 [_ [_ H4]]]]. destruct names; [|discriminate]. cbn [sjoin] in H4.
  assert (Hj : join2 (o_output o) rel = clean (o_output o)).
  { rewrite H4. destruct (join_comps (o_output o) "" Ho (Forall_nil _)) as [Hj _]. rewrite Hj. cbn [path_comps split_on filter String.eqb orb negb].
    rewrite app_nil_r. symmetry. apply clean_unparse. }
  rewrite Hj in Hx. intros [rest [R1 [_ [_ R4]]]]. rewrite clean_idem in R4.
  replace (String.eqb (clean (o_output o)) ".") with false in R4 by (symmetry; now apply String.eqb_neq).
  replace (String.eqb (clean (o_output o)) "/") with false in R4 by (symmetry; now apply String.eqb_neq).
  assert (Hext : has_char "/" (extension l) = false /\ 1 < String.length (extension l)) by (destruct l; cbn; split; reflexivity || lia).
  destruct Hext as [E1 E2]. destruct Hx as [[_ ->]|[_ ->]].
  - rewrite clean_idem in R4. apply (f_equal String.length) in R4. rewrite length_app_s in R4. cbn in R4. lia.
  - rewrite (clean_extended _ _ Hp Hs E1 E2) in R4. apply app_inj_l in R4. destruct l; discriminate.
Qed.

End Inside.
