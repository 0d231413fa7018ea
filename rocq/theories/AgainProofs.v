(** Running the tool again. *)

From Coq Require Import String Ascii List Arith NArith Bool Sorted Lia.
From Verif Require Import GoStr GoPath Base Utils GenGo GenC GenJava GenRust GenTS World Handlers Parser Cli StrLemmas TableProofs SpecStr SpecDoc SpecTables SpecGen SpecOut
  SpecFile SpecParse SpecCli SpecDecl SpecWhole SpecLocal Effects PathProofs ParserProofs ParseFacts FileProofs CliProofs DeclProofs Termination WholeProofs
  OutputProofs TreeProofs.
Import ListNotations.
Local Open Scope string_scope.

Local Infix "+++" := app (at level 60, right associativity).

Section Again.
Context {E : Env}.

Definition same_files (w w' : World) : Prop := forall c, get c (w_fs w') = get c (w_fs w).

Definition out_name (o : Options) (l : lang) : string := file_with_extension (output_path o) (extension l).

(** The output for the components is in its place and can be written. *)
Definition there (o : Options) (l : lang) (tree : list proto) (w : World) : Prop :=
  exists text, written (o_lang o) (o_package o) tree (extension l) text true /\
    get (clean (out_name o l)) (w_fs w) = Some (NFile (env_write (out_name o l) text)) /\ env_create_fail (out_name o l) = false.

Lemma create_allowed : forall path text w w', create_write path text w = Some w' -> env_create_fail path = false.
Proof. intros path text w w' H. unfold create_write in H. now destruct (env_create_fail path). Qed.

Lemma finish_created : forall o p w q v l, o_extract o = false -> selects (o_lang o) l -> finish o p w = Ret q v ->
  env_create_fail (out_name o l) = false.
Proof.
  intros o p w q v l He Hl H. unfold finish in H. rewrite He in H. cbv zeta in H.
  destruct (prepare_output_dir _ _) as [w2 [|]]; [|discriminate].
  apply selects_title in Hl. unfold generate in H. rewrite Hl in H. unfold out_name.
  assert (Hp : forall entry source ext, (forall q v, bind (gen_plain entry source ext (output_path o) (freeze p) w2) (fun _ w => Ret p w) = Ret q v ->
    env_create_fail (file_with_extension (output_path o) ext) = false)).
  { intros entry source ext q' v' H'. unfold gen_plain in H'. destruct (create_write _ _ _) eqn:Hc; [|discriminate]. now apply create_allowed in Hc. }
  destruct l; cbn [lname String.eqb Ascii.eqb Bool.eqb extension] in *.
  - unfold gen_go in H. destruct (env_gofmt _); [|destruct (create_write _ _ _); discriminate].
    destruct (create_write _ _ _) eqn:Hc; [|discriminate]. now apply create_allowed in Hc.
  - now apply Hp in H.
  - now apply Hp in H.
  - now apply Hp in H.
  - now apply Hp in H.
Qed.

Lemma finish_there : forall o p w q v l, o_extract o = false -> selects (o_lang o) l -> finish o p w = Ret q v -> there o l (freeze p) v.
Proof.
  intros o p w q v l He Hl H. destruct (finish_effect o p w He) as [_ [_ [_ [_ [_ [_ [_ [_ [_ Hret]]]]]]]]].
  destruct (written_exists (o_lang o) (o_package o) (freeze p) l Hl) as [text [ok Hx]].
  destruct (Hret q v H) as [_ Hw]. destruct (Hw _ _ _ Hx) as [-> Hg]. rewrite H in Hg. exists text. split; [exact Hx|]. split; [exact Hg|].
  now apply (finish_created o p w q v).
Qed.

Lemma put_same : forall A k (v : A) m, get k m = Some v -> forall c, get c (put k v m) = get c m.
Proof.
  intros A k v m H c. destruct (string_dec k c) as [->|Hne]; [rewrite get_put_same; now symmetry|now rewrite get_put_other].
Qed.

(** Writing the output that is already there. *)
Lemma finish_again : forall o p w l, o_extract o = false -> selects (o_lang o) l -> tree_shaped (w_fs w) -> there o l (freeze p) w ->
  exists w', finish o p w = Ret p w' /\ same_files w w'.
Proof.
  intros o p w l He Hl Ht [text [Hw [Hg Hc]]]. set (f := out_name o l) in *.
  assert (Hx : with_extension (output_path o) (extension l) f) by (now apply with_extension_spec).
  assert (Hdir : dir f = dir (output_path o)) by (now apply (dir_with_extension _ l)).
  assert (Hk : In (clean f) (keys (w_fs w))) by (apply keys_get; congruence).
  destruct (proj2 Ht _ Hk) as [_ [Hi Ha]].
  assert (Hd : lookup (w_fs w) (dir f) = SDir).
  { destruct (clean_lineage (dir f)) as [Himp|Hin]; [unfold lookup; now rewrite Himp|]. rewrite place_clean_dir in Hin.
    apply Ha; [|intros Heq; apply (extension_not_above _ _ _ Hx); now rewrite <- Heq].
    apply lineage_spec in Hin as [m [s [Hm [Hs Heq]]]]. apply lineage_spec. rewrite clean_comps_id, clean_rooted.
    unfold dir in Hs, Heq. rewrite clean_comps_id in Hs. rewrite clean_rooted, dir_rooted in Heq.
    destruct (dir_comps f) as [[y Hy]|[[r Hr] _]].
    - exists m, (s +++ [y]). rewrite Hy, Hs, <- app_assoc. auto.
    - exfalso. destruct (clean_lineage f) as [Hif|Hif]; [congruence|]. apply (extension_not_above _ _ _ Hx).
      apply lineage_spec in Hif as [m' [s' [Hm' [Hs' He']]]]. apply lineage_spec. exists m', (s' +++ r).
      unfold dir. rewrite clean_comps_id, clean_rooted, dir_rooted, Hr, Hs', <- app_assoc. auto. }
  unfold finish. rewrite He. cbv zeta. set (w1 := register o (freeze p) w).
  assert (Hprep : prepare_output_dir (dir (output_path o)) w1 = (w1, true)).
  { unfold prepare_output_dir. destruct (String.eqb _ ""); [reflexivity|]. unfold stat. destruct (env_stat_fail _); [reflexivity|].
    destruct (String.eqb_spec (dir (output_path o)) "") as [H0|_]; [exfalso; revert H0; apply clean_not_empty|].
    change (w_fs w1) with (w_fs w). rewrite <- Hdir, Hd. reflexivity. }
  rewrite Hprep.
  assert (Hmake : forall n, create_write f text (set_count n w1) = Some (set_fs (put (clean f) (NFile (env_write f text)) (w_fs w)) (set_count n w1))).
  { intros n. unfold create_write. rewrite Hc. replace (String.eqb f "") with false.
    2: { symmetry. apply String.eqb_neq. apply (output_nonempty o l). now apply output_file_spec. }
    change (w_fs (set_count n w1)) with (w_fs w). cbn [orb]. rewrite Hd. unfold lookup. rewrite Hi, Hg. reflexivity. }
  assert (Hsame : forall n, same_files w (set_fs (put (clean f) (NFile (env_write f text)) (w_fs w)) (set_count n w1))).
  { intros n c. cbn [w_fs set_fs]. now apply put_same. }
  assert (Hplain : forall entry source ext, f = file_with_extension (output_path o) ext -> text = source (run_entries entry (freeze p)) ->
    exists w', bind (gen_plain entry source ext (output_path o) (freeze p) w1) (fun _ w => Ret p w) = Ret p w' /\ same_files w w').
  { intros entry source ext Hext Htext. unfold gen_plain. cbv zeta. rewrite <- Hext, <- Htext, Hmake. cbn [bind]. eexists. split; [reflexivity|apply Hsame]. }
  apply selects_title in Hl. unfold generate. unfold written in Hw. rewrite Hl in Hw |- *.
  destruct l; cbn [lname String.eqb Ascii.eqb Bool.eqb].
  - unfold gen_go. cbv zeta. change (file_with_extension (output_path o) ".go") with f.
    destruct Hw as [[_ [_ Hw]]|[_ Hw]]; [|exfalso; cbn [lname] in Hw; intuition congruence].
    rewrite Hw, Hmake. cbn [bind]. eexists. split; [reflexivity|apply Hsame].
  - apply Hplain; [reflexivity|]. cbn [lname] in Hw. intuition congruence.
  - apply Hplain; [reflexivity|]. cbn [lname] in Hw. intuition congruence.
  - apply Hplain; [reflexivity|]. cbn [lname] in Hw. intuition congruence.
  - apply Hplain; [reflexivity|]. cbn [lname] in Hw. intuition congruence.
Qed.

(** * One file *)

Lemma schema_finish : forall d fuel o w l tree, o_extract o = false -> selects (o_lang o) l -> w_inc w = [] -> w_nsl w = [] ->
  schema_file (o_lang o) w (o_file o) tree ->
  exists p w1, parse (S d) (S fuel) o w = finish o p w1 /\ freeze p = tree /\ w_fs w1 = w_fs w.
Proof.
  intros d fuel o w l tree He Hl Hinc Hnsl [bytes [res [many [loc [ds [Hst [Hop [Hdir [Hwr [Hnt [Hres [Hmany Htree]]]]]]]]]]]].
  apply (parse_finish d fuel o w bytes res many loc ds tree Hst Hop); auto. now rewrite He.
Qed.

Section Tool.
Variables (d fuel : nat) (f : flags) (l : lang) (trees : string -> list proto) (schemas : string -> Prop).
Hypothesis lang_ok : lname l = fl_l f.
Hypothesis separate : separate_outputs f l schemas.

Local Notation good := (WholeProofs.good f trees schemas).
Local Notation steps := (WholeProofs.steps (tool_options f) l schemas).

Lemma step_there : forall x w p w1, good w x -> parse (S d) (S fuel) (tool_options f x) (with_new_maps w) = Ret p w1 ->
  forall b, stat x w = SFile b -> there (tool_options f x) l (trees x) w1.
Proof.
  intros x w p w1 [Hd|[_ Hs]] Hp b Hb; [congruence|].
  destruct (schema_finish d fuel (tool_options f x) (with_new_maps w) l (trees x) eq_refl (tool_selects f l lang_ok x) eq_refl eq_refl Hs) as [q [w0 [Hq [Hf _]]]].
  rewrite Hq in Hp. rewrite <- Hf. apply (finish_there _ q w0 p); [reflexivity|now apply tool_selects|exact Hp].
Qed.

Lemma all_there : forall files w w', all_parsed (S d) (S fuel) f files w w' -> (forall y, In y files -> good w y) ->
  forall x b, In x files -> stat x w = SFile b -> there (tool_options f x) l (trees x) w'.
Proof.
  intros files w w' H. induction H as [w|y files w p w1 w2 Hp H IH]; intros Hg x b Hin Hb; [destruct Hin|].
  pose proof (tool_step d fuel f l trees schemas lang_ok y w (Hg y (or_introl eq_refl))) as Hstep. cbv zeta in Hstep. rewrite Hp in Hstep. cbn [out_world] in Hstep.
  destruct Hstep as [Hs _].
  assert (Hg1 : forall z, In z (y :: files) -> good w1 z) by (intros z Hz; apply (steps_good f l trees schemas separate w); auto).
  assert (Hx : schemas x /\ schema_file (fl_l f) w1 x (trees x)).
  { destruct (Hg x Hin) as [Hx|[Hx Hxs]]; [congruence|]. split; [exact Hx|].
    destruct (steps_good f l trees schemas separate w w1 x Hs (or_intror (conj Hx Hxs))) as [Hd1|[_ H1]]; [|exact H1].
    exfalso. pose proof (stat_file _ _ _ Hb) as Hk.
    assert (Hk1 : exists b', get (clean x) (w_fs w1) = Some (NFile b')).
    { destruct (Hs (clean x)) as [He|[[He _]|[_ [He _]]]]; [exists b; congruence|congruence|exact He]. }
    destruct Hk1 as [b' Hk1]. destruct (stat_kind x w w1 b Hb) as [b2 H2]; [eauto|congruence]. }
  destruct Hx as [Hx Hxs]. assert (Hb1 : exists b1, stat x w1 = SFile b1) by (destruct Hxs as [b1 [_ [_ [_ [_ [H1 _]]]]]]; now exists b1).
  destruct Hb1 as [b1 Hb1]. destruct (in_dec string_dec x files) as [Hlater|Hlast].
  - apply (IH (fun z Hz => Hg1 z (or_intror Hz)) x b1 Hlater Hb1).
  - destruct Hin as [->|Hin]; [|contradiction].
    destruct (step_there x w p w1 (Hg x (or_introl eq_refl)) Hp b Hb) as [text [T1 [T2 T3]]]. exists text. split; [exact T1|]. split; [|exact T3].
    apply (tool_keeps d fuel f l trees schemas lang_ok separate files w1 w2 (out_name (tool_options f x) l) x H (fun z Hz => Hg1 z (or_intror Hz)) Hlast Hx); [|exact T2].
    now apply output_file_spec.
Qed.

Lemma same_steps : forall w w', same_files w w' -> steps w w'.
Proof. intros w w' H c. left. apply H. Qed.

Lemma step_again : forall x w, tree_shaped (w_fs w) -> good w x -> (forall b, stat x w = SFile b -> there (tool_options f x) l (trees x) w) ->
  exists p w', parse (S d) (S fuel) (tool_options f x) (with_new_maps w) = Ret p w' /\ same_files w w'.
Proof.
  intros x w Ht [Hd|[_ Hs]] Hth.
  - exists p_init, (with_new_maps w). split; [|now intros c]. cbn [parse]. unfold parse_body. cbn [tool_options o_file o_ps].
    change (stat x (with_new_maps w)) with (stat x w). now rewrite Hd.
  - assert (Hb : exists b, stat x w = SFile b) by (destruct Hs as [b [_ [_ [_ [_ [H1 _]]]]]]; now exists b). destruct Hb as [b Hb].
    destruct (schema_finish d fuel (tool_options f x) (with_new_maps w) l (trees x) eq_refl (tool_selects f l lang_ok x) eq_refl eq_refl Hs) as [q [w0 [Hq [Hf Hfs]]]].
    rewrite Hq. change (w_fs (with_new_maps w)) with (w_fs w) in Hfs.
    destruct (finish_again (tool_options f x) q w0 l) as [w' [H1 H2]]; [reflexivity|now apply tool_selects|now rewrite Hfs| |].
    + rewrite Hf. destruct (Hth b Hb) as [text [T1 [T2 T3]]]. exists text. rewrite Hfs. auto.
    + exists q, w'. split; [exact H1|]. intros c. rewrite (H2 c). now rewrite Hfs.
Qed.

Lemma run_again : forall files w, tree_shaped (w_fs w) -> (forall y, In y files -> good w y) ->
  (forall y b, In y files -> stat y w = SFile b -> there (tool_options f y) l (trees y) w) ->
  exists w', process (S d) (S fuel) (tool_config f) files w = CExit 0 true w' /\ same_files w w'.
Proof.
  induction files as [|y files IH]; intros w Ht Hg Hth; cbn [process]; [exists w; split; [reflexivity|now intros c]|].
  change (file_options (tool_config f) y) with (tool_options f y). change (fresh_maps w) with (with_new_maps w).
  destruct (step_again y w Ht (Hg y (or_introl eq_refl)) (fun b => Hth y b (or_introl eq_refl))) as [p [w1 [Hp Hsame]]]. rewrite Hp.
  assert (Hs : steps w w1) by now apply same_steps.
  destruct (IH w1) as [w' [H1 H2]].
  - pose proof (parse_tree (S d) (S fuel) (tool_options f y) (with_new_maps w) Ht) as H. now rewrite Hp in H.
  - intros z Hz. apply (steps_good f l trees schemas separate w); [exact Hs|]. apply Hg. now right.
  - intros z b Hz Hb. assert (Hth1 : there (tool_options f z) l (trees z) w).
    { destruct (Hg z (or_intror Hz)) as [Hd|[_ Hsf]].
      - apply (steps_stat_dir (tool_options f) l schemas w w1 _ Hs) in Hd. congruence.
      - destruct Hsf as [b0 [_ [_ [_ [_ [H0 _]]]]]]. exact (Hth z b0 (or_intror Hz) H0). }
    destruct Hth1 as [text [T1 [T2 T3]]]. exists text. rewrite (Hsame _). auto.
  - exists w'. split; [exact H1|]. intros c. now rewrite (H2 c).
Qed.

End Tool.

(** * The list of files *)

Lemma parts_asym : forall a b, parts_before a b -> parts_before b a -> False.
Proof.
  intros a b H. induction H as [x b|x y a b Hxy|x a b H IH]; intros H2; inversion H2; subst.
  - apply (byte_lt_irrefl x). eapply byte_lt_trans; eassumption.
  - now apply (byte_lt_irrefl x).
  - now apply (byte_lt_irrefl x).
  - now apply IH.
Qed.

Lemma sorted_same : forall a b, StronglySorted path_before a -> StronglySorted path_before b -> (forall x, In x a <-> In x b) -> a = b.
Proof.
  induction a as [|x a IH]; intros b Ha Hb H.
  - destruct b as [|y b]; [reflexivity|]. destruct (H y) as [_ Hy]. destruct Hy. now left.
  - destruct b as [|y b]; [destruct (H x) as [Hx _]; destruct Hx; now left|].
    apply StronglySorted_inv in Ha as [Ha Hxa]. apply StronglySorted_inv in Hb as [Hb Hyb]. rewrite Forall_forall in Hxa, Hyb.
    assert (x = y).
    { destruct (proj1 (H x) (or_introl eq_refl)) as [->|Hx]; [reflexivity|]. destruct (proj2 (H y) (or_introl eq_refl)) as [->|Hy]; [reflexivity|].
      exfalso. apply (parts_asym (split_on "/" x) (split_on "/" y)); [now apply Hxa|now apply Hyb]. }
    subst y. f_equal. apply IH; auto. intros z. split; intros Hz.
    + destruct (proj1 (H z) (or_intror Hz)) as [->|Hz']; [|exact Hz']. exfalso. apply (parts_irrefl (split_on "/" z)). now apply Hxa.
    + destruct (proj2 (H z) (or_intror Hz)) as [->|Hz']; [|exact Hz']. exfalso. apply (parts_irrefl (split_on "/" z)). now apply Hyb.
Qed.

Lemma same_list : forall path w w', tree_shaped (w_fs w) -> tree_shaped (w_fs w') -> readable path -> stat path w = SDir -> stat path w' = SDir ->
  (forall k, SpecParse.inside path k -> (get k (w_fs w) = None <-> get k (w_fs w') = None)) -> get_file_list path w' = get_file_list path w.
Proof.
  intros path w w' Ht Ht' Hr Hs Hs' Hk.
  destruct (file_list_dir path w Ht Hs) as [a [-> [A1 [_ [A2 A3]]]]]. destruct (file_list_dir path w' Ht' Hs') as [b [-> [B1 [_ [B2 B3]]]]].
  replace b with a; [reflexivity|]. apply sorted_same; auto. intros x. split; intros Hx.
  - destruct (A2 x Hx) as [H1 H2]. apply (B3 Hr); [|exact H2]. intros H. apply H1. now apply Hk.
  - destruct (B2 x Hx) as [H1 H2]. apply (A3 Hr); [|exact H2]. intros H. apply H1. now apply Hk.
Qed.

(** Where the tool makes directories. *)
Lemma made_dirs : forall f w files x b p c, tree_shaped (w_fs w) -> stat (fl_i f) w = SDir -> fl_o f <> "" ->
  fl_i f <> "." -> fl_i f = clean (fl_i f) \/ fl_i f = clean (fl_i f) ++ "/" ->
  get_file_list (fl_i f) w = Some files -> In x files -> stat x w = SFile b ->
  output_place (tool_options f x) p -> In c (lineage (dir p)) -> In c (lineage (fl_o f)) \/ SpecParse.inside (fl_o f) c.
Proof.
  intros f w files x b p c Ht Hd Ho Hdot Hcl Hl Hx Hs Hp Ha.
  destruct (placed f w files x b Ht Hd Ho Hdot Hcl Hl Hx Hs) as [i [last [A1 [A2 [A3 [A4 [A5 [A6 A7]]]]]]]].
  set (r := is_rooted (fl_o f)) in *. set (cs := pcomps (fl_o f)) in *.
  assert (Hcs : normal r cs) by apply pcomps_normal.
  assert (Hin : forall m, m <> [] -> Forall real_comp m -> Forall (fun c => c <> "..") m -> SpecParse.inside (fl_o f) (unparse r (cs +++ m))).
  { intros m Hm H1 H2. assert (Hnm : normal r (cs +++ m)) by now apply normal_app_names.
    apply inside_under; [exact Ho| |].
    - rewrite clean_unparse, unparse_rooted, unparse_comps by exact Hnm. reflexivity.
    - exists m. split; [exact Hm|]. split; [now apply unparse_rooted|]. split; [now apply unparse_comps|exact H2]. }
  assert (Nb : normal r ((cs +++ i) +++ [last])) by (rewrite <- app_assoc; now apply normal_app_names).
  apply Forall_app in A4 as [R1 R2]. apply Forall_app in A5 as [D1 D2]. inversion_clear R2 as [|? ? Rl _]. inversion_clear D2 as [|? ? Dl _].
  rewrite (A7 p Hp), app_assoc in Ha.
  apply lineage_spec in Ha as [m [s [Hm [Hs' He]]]]. rewrite dir_of_names in Hs' by assumption.
  unfold dir in He. rewrite clean_rooted, dir_rooted, unparse_rooted in He by exact Nb. subst c.
  assert (Hcase : (exists t, cs = m +++ t) \/ exists t, t <> [] /\ m = cs +++ t /\ exists u, i = t +++ u).
  { clear - Hs'. revert m Hs'. induction cs as [|c cs IH]; intros m H.
    - destruct m as [|y m]; [left; now exists []|]. right. exists (y :: m). split; [discriminate|]. split; [reflexivity|]. now exists s.
    - destruct m as [|y m]; [left; now exists (c :: cs)|]. cbn in H. injection H as -> H. destruct (IH m H) as [[t Ht]|[t [H1 [H2 H3]]]].
      + left. exists t. now rewrite Ht.
      + right. exists t. now rewrite H2. }
  destruct Hcase as [[t Ht']|[t [Ht1 [Ht2 [u Hu]]]]].
  - left. apply lineage_spec. exists m, t. auto.
  - right. rewrite Ht2. rewrite Hu in R1, D1. apply Forall_app in R1 as [R1 _]. apply Forall_app in D1 as [D1 _]. now apply Hin.
Qed.

End Again.
