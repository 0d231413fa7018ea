(** Runs of the tool on documents that need no others (C72). *)

From Coq Require Import String Ascii List Arith NArith ZArith Bool Lia.
From Verif Require Import GoStr GoPath Base Utils World Handlers Parser Cli SpecStr SpecDoc SpecTables SpecGen SpecOut SpecFile SpecParse SpecCli SpecDecl
  SpecWhole SpecLang SpecPrefix Effects ParserProofs ParseFacts FileProofs CliProofs WholeProofs SimProofs DocLemmas StayProofs LangProofs LangParse SpecBare BareProofs PrefixProofs.
Import ListNotations.
Local Open Scope string_scope.

Section Tool.
Context {E : Env}.
Variables (d fuel : nat) (f : flags) (l : lang) (bytes : string -> string) (schemas : string -> Prop).
Hypothesis lang_ok : lname l = fl_l f.
Hypothesis separate : separate_outputs f l schemas.

Definition fit (w : World) (x : string) : Prop := stat x w = SDir \/ (schemas x /\ lone_file w x (bytes x)).

Local Notation steps := (steps (tool_options f) l schemas).
Local Notation selected := (tool_selects f l lang_ok).

Lemma steps_fit : forall w w' x, steps w w' -> fit w x -> fit w' x.
Proof.
  intros w w' x Hs [Hd|[Hx [Hst [Hc Hdir]]]]; [left; exact (steps_stat_dir (tool_options f) l schemas w w' x Hs Hd)|right].
  split; [exact Hx|]. split; [|split; [exact Hc|exact (steps_stat_dir (tool_options f) l schemas w w' _ Hs Hdir)]].
  apply (steps_stat_file (tool_options f) l schemas w); auto. intros y n Hy Hn. exact (proj1 (separate y x n Hy Hx Hn)).
Qed.

(** The components of a document that needs no other. *)
Definition found (lang text : string) (p : PState) : Prop := forall w, bare (run_tokens (gp lang) (env_tokens text) p_init w) = inl p.

Lemma parse_found : forall o w text p w', o_extract o = false -> alone o w -> stat (o_file o) w = SFile text -> self_contained (env_tokens text) ->
  parse (S d) (S fuel) o w = Ret p w' -> found (o_lang o) text p.
Proof.
  intros o w text p w' He Ha Hs Hc H. destruct (env_open_fail (o_file o)) eqn:Ho; [rewrite (open_read d (S fuel) o w text Hs Ho) in H; discriminate|].
  rewrite (parse_reads d (S fuel) o w text He ltac:(discriminate) Hs Ho Hc Ha) in H. apply bind_ret in H as [r [v [R F]]]. apply finish_ret in F as ->.
  intros u. rewrite (run_bare (o_lang o) _ _ u (register o (freeze (o_ps o)) w)). unfold reads in R. now rewrite R.
Qed.

Lemma fit_step : forall x w, fit w x ->
  let r := parse (S d) (S fuel) (tool_options f x) (with_new_maps w) in
  (forall c, get c (w_fs (out_world r)) = get c (w_fs w) \/
     schemas x /\ exists pt, output_change (tool_options f x) pt c (get c (w_fs w)) (get c (w_fs (out_world r)))) /\
  (stat x w = SDir \/ forall p w', r = Ret p w' -> found (fl_l f) (bytes x) p /\
     forall ext text ok, written (fl_l f) (o_package (tool_options f x)) (freeze p) ext text ok ->
     ok = true /\ let n := file_with_extension (output_path (tool_options f x)) ext in get (clean n) (w_fs w') = Some (NFile (env_write n text))).
Proof.
  intros x w [Hd|[Hx [Hst [Hc Hdir]]]] r.
  - assert (Hr : r = Ret p_init (with_new_maps w)).
    { unfold r. cbn [parse]. unfold parse_body. cbn [tool_options o_file o_ps]. change (stat x (with_new_maps w)) with (stat x w). now rewrite Hd. }
    rewrite Hr. split; [now left|now left].
  - split.
    + intros c. destruct (single_changes (S d) (S fuel) (tool_options f x) (with_new_maps w) (bytes x) eq_refl Hst Hdir eq_refl eq_refl Hc ltac:(discriminate) c)
        as [H|[pt [_ H]]]; [now left|right]. split; [exact Hx|]. now exists pt.
    + right. intros p w' Hp. split.
      * apply (parse_found (tool_options f x) (with_new_maps w) (bytes x) p w'); auto. repeat split; assumption.
      * intros ext text ok Hw. exact (proj2 (parse_success (S d) (S fuel) (tool_options f x) (with_new_maps w) (bytes x) p w' eq_refl Hst Hp) ext text ok Hw).
Qed.

Lemma fit_steps : forall x w, fit w x -> steps w (out_world (parse (S d) (S fuel) (tool_options f x) (with_new_maps w))).
Proof.
  intros x w H c. destruct (fit_step x w H) as [Hc _]. destruct (Hc c) as [Heq|[Hx [pt Ho]]]; [now left|].
  destruct Ho as [Ho|[[p [H1 [H2 [H3 H4]]]]|[l' [n [text [ok [H1 [H2 [_ [H4 [H5 H6]]]]]]]]]]]; [now left|right; left|right; right].
  - repeat split; auto. now exists x, p.
  - rewrite <- (selects_unique _ _ _ (selected x) H1) in H2. split; [exact H5|]. split; [eauto|]. now exists x, n.
Qed.

Lemma fit_keeps : forall files w w' n x, all_parsed (S d) (S fuel) f files w w' -> (forall y, In y files -> fit w y) ->
  ~ In x files -> schemas x -> output_file (tool_options f x) l n -> forall b, get (clean n) (w_fs w) = Some (NFile b) ->
  get (clean n) (w_fs w') = Some (NFile b).
Proof.
  intros files w w' n x H. induction H as [w|y files w p w1 w2 Hp H IH]; intros Hg Hni Hx Hn b Hb; [exact Hb|].
  assert (Hs := fit_steps y w (Hg y (or_introl eq_refl))). destruct (fit_step y w (Hg y (or_introl eq_refl))) as [Hc _]. rewrite Hp in Hs, Hc. cbn [out_world] in *.
  apply IH; auto.
  - intros z Hz. apply (steps_fit w); [exact Hs|]. apply Hg. now right.
  - intros Hin. apply Hni. now right.
  - destruct (Hc (clean n)) as [->|[Hy [pt Ho]]]; [exact Hb|].
    destruct Ho as [->|[[q [_ [_ [H3 _]]]]|[l' [m [text [ok [H1 [H2 [_ [H4 _]]]]]]]]]]; [exact Hb|congruence|].
    rewrite <- (selects_unique _ _ _ (selected y) H1) in H2.
    destruct (separate x y n Hx Hy Hn) as [_ [He _]]. elim Hni. left. symmetry. exact (He m H2 H4).
Qed.

(** The output of a file depends on the file only. *)
Lemma fit_outputs : forall files w w', all_parsed (S d) (S fuel) f files w w' -> (forall y, In y files -> fit w y) ->
  forall x, In x files -> stat x w <> SDir -> exists p, found (fl_l f) (bytes x) p /\
    forall text ok, written (fl_l f) (o_package (tool_options f x)) (freeze p) (extension l) text ok -> ok = true /\
    forall n, output_file (tool_options f x) l n -> get (clean n) (w_fs w') = Some (NFile (env_write n text)).
Proof.
  intros files w w' H. induction H as [w|y files w p w1 w2 Hp H IH]; intros Hg x Hin Hb; [destruct Hin|].
  assert (Hs := fit_steps y w (Hg y (or_introl eq_refl))). rewrite Hp in Hs. cbn [out_world] in Hs.
  assert (Hg1 : forall z, In z (y :: files) -> fit w1 z) by (intros z Hz; apply (steps_fit w); auto).
  assert (Hx : schemas x /\ stat x w1 <> SDir).
  { destruct (Hg x Hin) as [Hx|[Hx [Hst _]]]; [contradiction|]. split; [exact Hx|].
    rewrite (steps_stat_file (tool_options f) l schemas w w1 x (bytes x) Hs); [discriminate| |exact Hst].
    intros z n Hz Hn. exact (proj1 (separate z x n Hz Hx Hn)). }
  destruct Hx as [Hx Hb1]. destruct (in_dec string_dec x files) as [Hlater|Hlast].
  - exact (IH (fun z Hz => Hg1 z (or_intror Hz)) x Hlater Hb1).
  - destruct Hin as [->|Hin]; [|contradiction]. destruct (fit_step x w (Hg x (or_introl eq_refl))) as [_ [Hd|Hr]]; [contradiction|].
    destruct (Hr p w1 Hp) as [Hf Hw]. exists p. split; [exact Hf|]. intros text ok Ht. destruct (Hw _ _ _ Ht) as [Hok Hget]. split; [exact Hok|]. intros n Hn.
    apply (fit_keeps files w1 w2 n x H (fun z Hz => Hg1 z (or_intror Hz)) Hlast Hx Hn).
    apply output_file_spec in Hn as ->. exact Hget.
Qed.

(** What a run leaves alone. *)
Lemma step_untouched : forall y w n x, fit w y -> x <> y -> schemas x -> output_file (tool_options f x) l n ->
  get (clean n) (w_fs (out_world (parse (S d) (S fuel) (tool_options f y) (with_new_maps w)))) = get (clean n) (w_fs w).
Proof.
  intros y w n x Hy Hne Hx Hn. destruct (fit_step y w Hy) as [Hc _]. destruct (Hc (clean n)) as [->|[Hs [pt Ho]]]; [reflexivity|].
  destruct (separate x y n Hx Hs Hn) as [_ [He Hp]].
  destruct Ho as [->|[[q [H1 [H2 _]]]|[l' [m [text [ok [H1 [H2 [_ [H4 _]]]]]]]]]]; [reflexivity|elim (Hp q H1 H2)|].
  rewrite <- (selects_unique _ _ _ (selected y) H1) in H2. elim Hne. exact (He m H2 H4).
Qed.

Lemma fit_untouched : forall files w w' n x, all_parsed (S d) (S fuel) f files w w' -> (forall y, In y files -> fit w y) ->
  ~ In x files -> schemas x -> output_file (tool_options f x) l n -> get (clean n) (w_fs w') = get (clean n) (w_fs w).
Proof.
  intros files w w' n x H. induction H as [w|y files w p w1 w2 Hp H IH]; intros Hg Hni Hx Hn; [reflexivity|].
  assert (Hs := fit_steps y w (Hg y (or_introl eq_refl))). rewrite Hp in Hs. cbn [out_world] in Hs. rewrite IH; auto.
  - assert (Hu := step_untouched y w n x (Hg y (or_introl eq_refl)) ltac:(intros ->; apply Hni; now left) Hx Hn). now rewrite Hp in Hu.
  - intros z Hz. apply (steps_fit w); [exact Hs|]. apply Hg. now right.
  - intros Hin. apply Hni. now right.
Qed.

Lemma fit_all : forall files w w', all_parsed (S d) (S fuel) f files w w' -> (forall y, In y files -> fit w y) -> forall x, fit w x -> fit w' x.
Proof.
  intros files w w' H. induction H as [w|y files w p w1 w2 Hp H IH]; intros Hg x Hx; [exact Hx|].
  assert (Hs := fit_steps y w (Hg y (or_introl eq_refl))). rewrite Hp in Hs. cbn [out_world] in Hs.
  apply IH; [|exact (steps_fit w w1 x Hs Hx)]. intros z Hz. apply (steps_fit w); [exact Hs|]. apply Hg. now right.
Qed.

(** A run that stops at a file. *)
Lemma fit_stopped : forall before file after w v bad, all_parsed (S d) (S fuel) f before w v -> (forall y, In y (before ++ file :: after)%list -> fit w y) ->
  parse (S d) (S fuel) (tool_options f file) (with_new_maps v) = bad -> (forall p u, bad <> Ret p u) ->
  (schemas file /\ stat file w = SFile (bytes file)) /\
  (forall x n, x <> file -> schemas x -> output_file (tool_options f x) l n -> get (clean n) (w_fs (out_world bad)) = get (clean n) (w_fs v)) /\
  (forall x n, ~ In x before -> x <> file -> schemas x -> output_file (tool_options f x) l n -> get (clean n) (w_fs (out_world bad)) = get (clean n) (w_fs w)).
Proof.
  intros before file after w v bad H Hg Hb Hn.
  assert (Hgb : forall y, In y before -> fit w y) by (intros y Hy; apply Hg, in_or_app; now left).
  assert (Hf : fit w file) by (apply Hg, in_or_app; right; now left).
  assert (Hv : fit v file) by exact (fit_all before w v H Hgb file Hf).
  assert (H2 : forall x n, x <> file -> schemas x -> output_file (tool_options f x) l n -> get (clean n) (w_fs (out_world bad)) = get (clean n) (w_fs v)).
  { intros x n Hne Hx Ho. rewrite <- Hb. now apply (step_untouched file v n x). }
  split; [|split; [exact H2|]].
  - destruct Hf as [Hd|[Hs [Hst _]]]; [|now split]. exfalso.
    assert (Hd' : stat file v = SDir).
    { clear - H Hd Hgb separate lang_ok. induction H as [w|y files w p w1 w2 Hp H IH]; [exact Hd|].
      assert (Hs := fit_steps y w (Hgb y (or_introl eq_refl))). rewrite Hp in Hs. cbn [out_world] in Hs. apply IH.
      - intros z Hz. apply (steps_fit w); [exact Hs|]. apply Hgb. now right.
      - exact (steps_stat_dir (tool_options f) l schemas w w1 file Hs Hd). }
    apply (Hn p_init (with_new_maps v)). rewrite <- Hb. cbn [parse]. unfold parse_body. cbn [tool_options o_file o_ps].
    change (stat file (with_new_maps v)) with (stat file v). now rewrite Hd'.
  - intros x n Hni Hne Hx Ho. rewrite (H2 x n Hne Hx Ho). exact (fit_untouched before w v n x H Hgb Hni Hx Ho).
Qed.

End Tool.

Section Both.
Context {E : Env}.

Theorem prefix_outputs : forall d fuel d' fuel' f l bytes bytes' schemas files w w' v v', lname l = fl_l f -> separate_outputs f l schemas ->
  (forall y, In y files -> fit bytes schemas w y) -> (forall y, In y files -> fit bytes' schemas w' y) ->
  all_parsed (S d) (S fuel) f files w v -> all_parsed (S d') (S fuel') f files w' v' ->
  forall x, In x files -> stat x w <> SDir -> stat x w' <> SDir -> same_document true (env_tokens (bytes x)) (env_tokens (bytes' x)) ->
  self_contained (env_tokens (bytes x)) -> elements_named (env_tokens (bytes x)) ->
  forall n, output_file (tool_options f x) l n -> exists text, get (clean n) (w_fs v) = Some (NFile text) /\ get (clean n) (w_fs v') = Some (NFile text).
Proof.
  intros d fuel d' fuel' f l bytes bytes' schemas files w w' v v' Hl Hsep Hg Hg' H H' x Hin Hb Hb' Hd Hc Hn n Ho.
  destruct (fit_outputs d fuel f l bytes schemas Hl Hsep files w v H Hg x Hin Hb) as [p [Hp Hw]].
  destruct (fit_outputs d' fuel' f l bytes' schemas Hl Hsep files w' v' H' Hg' x Hin Hb') as [p' [Hp' Hw']].
  assert (HR := run_same (fl_l f) _ _ true p_init w w' Hd Hc Hn ninv_init). rewrite Hp, Hp' in HR. injection HR as <-.
  destruct (written_exists (fl_l f) (o_package (tool_options f x)) (freeze p) l (tool_selects f l Hl x)) as [text [ok Ht]].
  exists (env_write n text). split; [now apply (proj2 (Hw text ok Ht))|now apply (proj2 (Hw' text ok Ht))].
Qed.

End Both.

Section Others.
Context {E : Env}.

(** The output of a document depends on nothing else. *)
Theorem alone_outputs : forall d fuel d' fuel' f f' l bytes bytes' schemas schemas' files files' w w' v v',
  lname l = fl_l f -> lname l = fl_l f' -> fl_p f = fl_p f' -> separate_outputs f l schemas -> separate_outputs f' l schemas' ->
  (forall y, In y files -> fit bytes schemas w y) -> (forall y, In y files' -> fit bytes' schemas' w' y) ->
  all_parsed (S d) (S fuel) f files w v -> all_parsed (S d') (S fuel') f' files' w' v' ->
  forall x x', In x files -> In x' files' -> stat x w <> SDir -> stat x' w' <> SDir -> env_tokens (bytes x) = env_tokens (bytes' x') ->
  forall n n', output_file (tool_options f x) l n -> output_file (tool_options f' x') l n' ->
  exists text, get (clean n) (w_fs v) = Some (NFile (env_write n text)) /\ get (clean n') (w_fs v') = Some (NFile (env_write n' text)).
Proof.
  intros d fuel d' fuel' f f' l bytes bytes' schemas schemas' files files' w w' v v' Hl Hl' Hk Hsep Hsep' Hg Hg' H H' x x' Hin Hin' Hb Hb' Ht n n' Ho Ho'.
  destruct (fit_outputs d fuel f l bytes schemas Hl Hsep files w v H Hg x Hin Hb) as [p [Hp Hw]].
  destruct (fit_outputs d' fuel' f' l bytes' schemas' Hl' Hsep' files' w' v' H' Hg' x' Hin' Hb') as [p' [Hp' Hw']].
  assert (HR := Hp' w). rewrite <- Hl', Hl, <- Ht, (Hp w) in HR. injection HR as <-.
  destruct (written_exists (fl_l f) (o_package (tool_options f x)) (freeze p) l (tool_selects f l Hl x)) as [text [ok Hx]].
  exists text. split; [now apply (proj2 (Hw text ok Hx))|]. refine (proj2 (Hw' text ok _) n' Ho').
  rewrite <- Hl', Hl. cbn [tool_options o_package] in *. rewrite <- Hk. exact Hx.
Qed.

(** Documents that differ in their texts only. *)
Theorem docs_outputs : forall d fuel d' fuel' f f' l bytes bytes' schemas schemas' files files' w w' v v',
  lname l = fl_l f -> lname l = fl_l f' -> fl_p f = fl_p f' -> separate_outputs f l schemas -> separate_outputs f' l schemas' ->
  (forall y, In y files -> fit bytes schemas w y) -> (forall y, In y files' -> fit bytes' schemas' w' y) ->
  all_parsed (S d) (S fuel) f files w v -> all_parsed (S d') (S fuel') f' files' w' v' ->
  forall x x', In x files -> In x' files' -> stat x w <> SDir -> stat x' w' <> SDir -> same_core text_token (env_tokens (bytes x)) (env_tokens (bytes' x')) ->
  forall n n', output_file (tool_options f x) l n -> output_file (tool_options f' x') l n' ->
  exists pt pt' text text', same_but_docs pt pt' /\ file_text l (o_package (tool_options f x)) pt text true /\ file_text l (o_package (tool_options f x)) pt' text' true /\
    get (clean n) (w_fs v) = Some (NFile (env_write n text)) /\ get (clean n') (w_fs v') = Some (NFile (env_write n' text')).
Proof.
  intros d fuel d' fuel' f f' l bytes bytes' schemas schemas' files files' w w' v v' Hl Hl' Hk Hsep Hsep' Hg Hg' H H' x x' Hin Hin' Hb Hb' Ht n n' Ho Ho'.
  destruct (fit_outputs d fuel f l bytes schemas Hl Hsep files w v H Hg x Hin Hb) as [p [Hp Hw]].
  destruct (fit_outputs d' fuel' f' l bytes' schemas' Hl' Hsep' files' w' v' H' Hg' x' Hin' Hb') as [p' [Hp' Hw']].
  assert (Hbp : BareProofs.bs p = BareProofs.bs p').
  { assert (Hgp : forall a t u, gp (fl_l f) a (map SpecBare.bare t) u = gp (fl_l f) a t u) by (intros a t u; unfold gp, plain; now rewrite BareProofs.bare_base).
    assert (HR := BareProofs.run_same_core (gp (fl_l f)) Hgp (env_tokens (bytes x)) (env_tokens (bytes' x')) w Ht).
    assert (H1 := Hp w). assert (H2 := Hp' w). rewrite <- Hl', Hl in H2.
    destruct HR as [q q' a b Hq _|e a b _|c a b _]; [injection H1 as <-; injection H2 as <-; exact Hq|discriminate|discriminate]. }
  assert (Hpk : o_package (tool_options f' x') = o_package (tool_options f x)) by (cbn [tool_options o_package]; now rewrite Hk).
  rewrite <- Hl', Hl, Hpk in Hw'. pose proof (tool_selects f l Hl x) as Hs. cbn [tool_options o_lang] in Hs.
  destruct (written_exists (fl_l f) (o_package (tool_options f x)) (freeze p) l Hs) as [text [ok Hx]].
  destruct (written_exists (fl_l f) (o_package (tool_options f x)) (freeze p') l Hs) as [text' [ok' Hx']].
  destruct (Hw text ok Hx) as [-> W]. destruct (Hw' text' ok' Hx') as [-> W'].
  destruct (written_file _ _ _ _ _ _ Hx) as [l1 [L1 [_ T]]]. rewrite <- (selects_unique _ _ _ Hs L1) in T.
  destruct (written_file _ _ _ _ _ _ Hx') as [l2 [L2 [_ T']]]. rewrite <- (selects_unique _ _ _ Hs L2) in T'.
  exists (freeze p), (freeze p'), text, text'. split; [unfold same_but_docs; now rewrite <- !BareProofs.bare_freeze, Hbp|]. auto.
Qed.

End Others.
