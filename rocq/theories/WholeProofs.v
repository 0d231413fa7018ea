(** Making output files; runs from schema files to output files. *)

From Coq Require Import String Ascii List Arith NArith Bool Lia.
From Verif Require Import GoStr GoPath Base Utils GenGo GenC GenJava GenRust GenTS World Handlers Parser Cli StrLemmas SpecStr SpecDoc SpecTables SpecGen SpecOut Effects
  SpecFile SpecParse SpecCli SpecDecl SpecWhole StrProofs PathProofs ParserProofs ParseFacts GenOutline GenRun GenNames GenRuns FileProofs CliProofs DeclProofs Termination.
Import ListNotations.
Local Open Scope string_scope.

Local Infix "+++" := app (at level 60, right associativity).

(** * Directories *)

Lemma dir_part_app : forall p e, has_char "/" e = false -> dir_part (p ++ e) = dir_part p.
Proof.
  intros p e He. induction p as [|a p IH].
  - cbn [append]. destruct e as [|b e]; [reflexivity|]. cbn [dir_part]. now rewrite He.
  - cbn [append dir_part]. rewrite IH. change (String a (p ++ e)) with (String a p ++ e).
    rewrite has_char_app, He, orb_false_r. reflexivity.
Qed.

Lemma dir_with_extension : forall p l f, with_extension p (extension l) f -> dir f = dir p.
Proof.
  intros p l f [[_ ->]|[_ ->]]; [reflexivity|]. unfold dir. f_equal. apply dir_part_app. now destruct l.
Qed.

(** The part before the last separator and the rest. *)
Lemma dir_part_spec : forall p, exists b, has_char "/" b = false /\ p = dir_part p ++ b /\
  (dir_part p = "" \/ exists q, dir_part p = q ++ "/").
Proof.
  intros p. induction p as [|a p [b [Hb [Hp Hq]]]]; [exists ""; repeat split; now left|].
  destruct (has_char "/" (String a p)) eqn:Hc.
  - exists b. split; [exact Hb|]. cbn [dir_part]. rewrite Hc. cbn [append]. split; [now rewrite <- Hp|]. right.
    destruct Hq as [Hq|[q Hq]].
    + exists "". cbn [append]. rewrite Hq. f_equal. cbn [has_char] in Hc. rewrite Hq in Hp. cbn [append] in Hp. subst b.
      rewrite Hb, orb_false_r in Hc. now apply Ascii.eqb_eq in Hc.
    + exists (String a q). now rewrite Hq.
  - exists (String a p). cbn [dir_part]. rewrite Hc. split; [reflexivity|]. split; [reflexivity|now left].
Qed.

Lemma dir_rooted : forall p, is_rooted (dir_part p) = is_rooted p.
Proof.
  intros p. destruct (dir_part_spec p) as [b [Hb [Hp Hq]]]. destruct Hq as [Hq|[q Hq]].
  - rewrite Hq in *. cbn [append] in Hp. subst p. destruct b as [|x b]; [reflexivity|].
    unfold is_rooted, has_prefix. cbn [strip_prefix]. cbn [has_char] in Hb. apply orb_false_iff in Hb as [Hb _].
    rewrite Ascii.eqb_sym in Hb. now rewrite Hb.
  - rewrite Hp at 2. symmetry. apply rooted_app. rewrite Hq. now destruct q.
Qed.

Lemma path_comps_base : forall b, has_char "/" b = false -> path_comps b = [] \/ path_comps b = [b].
Proof.
  intros b Hb. destruct (string_dec b "") as [->|H1]; [now left|]. destruct (string_dec b ".") as [->|H2]; [now left|].
  right. apply path_comps_one. now split.
Qed.

Lemma dir_comps : forall p, (exists x, pcomps p = pcomps (dir_part p) +++ [x]) \/
  (exists r, pcomps (dir_part p) = pcomps p +++ r) /\
  exists b, p = dir_part p ++ b /\ (b = "" \/ b = "." \/ b = "..").
Proof.
  intros p. destruct (dir_part_spec p) as [b [Hb [Hp Hq]]].
  assert (Hc : path_comps p = path_comps (dir_part p) +++ path_comps b).
  { destruct Hq as [Hq|[q Hq]].
    - rewrite Hp at 1. now rewrite Hq.
    - rewrite Hp at 1. rewrite Hq. change (q ++ "/") with (q ++ "/" ++ ""). rewrite path_comps_app, app_assoc_s.
      change (("/" ++ "") ++ b) with ("/" ++ b). rewrite path_comps_app. change (path_comps "") with (@nil string).
      now rewrite app_nil_r. }
  unfold pcomps, clean_comps. rewrite dir_rooted, Hc.
  destruct (path_comps_base b Hb) as [Hbase | ->].
  - right. rewrite Hbase. split; [exists []; now rewrite !app_nil_r|]. exists b. split; [exact Hp|].
    destruct (string_dec b "") as [->|H1]; [now left|]. destruct (string_dec b ".") as [->|H2]; [right; now left|].
    rewrite path_comps_one in Hbase by (now split). discriminate.
  - rewrite fold_left_app. cbn [fold_left]. set (out := fold_left _ (path_comps (dir_part p)) []).
    unfold clean_step. destruct (String.eqb_spec b "..") as [He|_]; [|left; now exists b].
    assert (Hl : exists b0, p = dir_part p ++ b0 /\ (b0 = "" \/ b0 = "." \/ b0 = "..")) by (exists b; auto).
    destruct out as [|top rest]; [destruct (is_rooted p); [right; split; [now exists []|exact Hl]|left; now exists ".."]|].
    destruct (String.eqb top ".."); [left; now exists ".."|right]. split; [exists [top]; reflexivity|exact Hl].
Qed.

Lemma lineage_dir : forall p a, In a (lineage p) -> a = clean p \/ In a (lineage (dir p)).
Proof.
  intros p a H. apply lineage_spec in H as [m [r [Hm [Hr ->]]]].
  assert (Hd : forall s, pcomps (dir_part p) = m +++ s -> In (unparse (is_rooted p) m) (lineage (dir p))).
  { intros s Hs. apply lineage_spec. exists m, s. unfold dir. rewrite clean_comps_id, clean_rooted, dir_rooted. auto. }
  destruct (dir_comps p) as [[x Hx]|[[s Hs] _]].
  - destruct (exists_last (l := m) Hm) as [m' [y Hy]]. destruct r as [|z r _] using rev_ind.
    + left. now rewrite clean_unparse, Hr, app_nil_r.
    + right. rewrite Hr in Hx. rewrite app_assoc in Hx. apply app_inj_tail in Hx as [Hx _]. now apply (Hd r).
  - right. apply (Hd (r +++ s)). now rewrite Hs, Hr, <- app_assoc.
Qed.

(** A file is not above its own directory. *)
Lemma file_not_above : forall f, ~ In (clean f) (lineage (dir f)) \/ exists b, f = dir_part f ++ b /\ (b = "" \/ b = "." \/ b = "..").
Proof.
  intros f. destruct (dir_comps f) as [[x Hx]|[_ H]]; [left|now right]. intros H. apply lineage_spec in H as [m [r [Hm [Hr He]]]].
  unfold dir in Hr, He. rewrite clean_comps_id in Hr. rewrite clean_rooted, dir_rooted in He. rewrite clean_unparse in He.
  apply unparse_inj in He as [_ He]; [|apply pcomps_normal|].
  - rewrite Hx, Hr in He. apply (f_equal (@length string)) in He. rewrite !app_length in He. cbn in He. lia.
  - apply (normal_prefix _ m r). rewrite <- Hr, <- dir_rooted. apply pcomps_normal.
Qed.

Lemma last_byte : forall a b x y, a ++ String x "" = b ++ String y "" -> x = y.
Proof.
  induction a as [|c a IH]; intros [|d b] x y H; cbn [append] in H; injection H; intros; subst; auto.
  - now destruct b.
  - now destruct a.
  - now apply (IH b).
Qed.

Lemma extension_not_above : forall p l f, with_extension p (extension l) f -> ~ In (clean f) (lineage (dir f)).
Proof.
  intros p l f Hf. destruct (file_not_above f) as [H|[b [Hb Hc]]]; [exact H|exfalso].
  assert (He : exists q c, f = q ++ String c "" /\ c <> "."%char /\ c <> "/"%char).
  { assert (He : exists q, f = q ++ extension l) by (destruct Hf as [[[q ->] ->]|[_ ->]]; eauto).
    destruct He as [q ->]. clear. destruct l; cbn [extension];
      [exists (q ++ ".g"), "o"%char|exists (q ++ "."), "h"%char|exists (q ++ ".jav"), "a"%char|exists (q ++ ".r"), "s"%char
      |exists (q ++ ".t"), "s"%char]; rewrite app_assoc_s; repeat split; discriminate. }
  destruct He as [q [c [Hq [H1 H2]]]]. destruct (dir_part_spec f) as [b' [Hb' [Hp Hd]]].
  rewrite Hp in Hb at 1. apply app_inj_l in Hb. subst b'. rewrite Hq in Hp at 1.
  destruct Hc as [->|[->| ->]].
  - rewrite app_nil_r_s in Hp. destruct Hd as [Hd|[d Hd]]; rewrite Hd in Hp.
    + now destruct q.
    + now apply last_byte in Hp.
  - now apply last_byte in Hp.
  - change ".." with ("." ++ ".") in Hp. rewrite <- app_assoc_s in Hp. now apply last_byte in Hp.
Qed.

Section Whole.
Context {E : Env}.

(** * Making directories *)

(** Nothing on the way is a file, and directories can be made. *)
Definition open_way (fs : smap node) (cs : list string) : Prop :=
  forall a, In a cs -> env_mkdir_fail a = false /\ forall b, get a fs <> Some (NFile b).

Lemma lineage_trans : forall p a b, In a (lineage p) -> In b (lineage a) -> In b (lineage p).
Proof.
  intros p a b Ha Hb. apply lineage_spec in Ha as [m [r [Hm [Hr ->]]]].
  assert (Hn : normal (is_rooted p) m) by (apply (normal_prefix _ m r); rewrite <- Hr; apply pcomps_normal).
  apply lineage_spec in Hb as [m' [r' [Hm' [Hr' ->]]]]. rewrite unparse_rooted by exact Hn.
  rewrite unparse_comps in Hr' by exact Hn. apply lineage_spec. exists m', (r' +++ r). rewrite Hr, Hr', <- app_assoc. auto.
Qed.

Lemma no_file : forall fs cs p, open_way fs cs -> incl (lineage p) cs -> existsb (is_file fs) (lineage p) = false.
Proof.
  intros fs cs p Ho Hi. apply not_true_is_false. intros H. apply existsb_exists in H as [a [Ha Hf]].
  destruct (Ho a (Hi a Ha)) as [_ Hn]. unfold is_file in Hf. destruct (get a fs) as [[|b]|]; try discriminate. now elim (Hn b).
Qed.

Lemma mkdirs_ok : forall all cs fs, open_way fs all -> incl cs all -> (forall c, In c cs -> incl (lineage c) all /\ clean c = c) ->
  exists fs', mkdirs fs cs = (fs', true) /\ forall c, In c cs -> lookup fs' c = SDir.
Proof.
  intros all cs. induction cs as [|c cs IH]; intros fs Ho Hi Hl; [exists fs; split; [reflexivity|contradiction]|].
  assert (Hcs : forall d, In d cs -> incl (lineage d) all /\ clean d = d) by (intros d Hd; apply Hl; now right).
  assert (Hi' : incl cs all) by (intros d Hd; apply Hi; now right).
  destruct (Hl c (or_introl eq_refl)) as [Hlc Hcc]. destruct (Ho c (Hi c (or_introl eq_refl))) as [Hmk Hnf].
  assert (H1 : exists fs1, mkdir1 fs c = (fs1, true) /\ lookup fs1 c = SDir /\ open_way fs1 all).
  { unfold mkdir1. destruct (lookup fs c) eqn:Hk.
    - exists fs. auto.
    - exfalso. unfold lookup in Hk. rewrite Hcc in Hk. destruct (implicit_dir c); [discriminate|].
      destruct (get c fs) as [[|b]|] eqn:Hg; [discriminate|now elim (Hnf b)|]. destruct (existsb _ _); discriminate.
    - rewrite Hmk. exists (put c NDir fs). split; [reflexivity|]. split.
      + unfold lookup. rewrite Hcc. destruct (implicit_dir c); [reflexivity|]. now rewrite get_put_same.
      + intros a Ha. destruct (Ho a Ha) as [Ha1 Ha2]. split; [exact Ha1|]. intros b.
        destruct (string_dec c a) as [<-|Hne]; [rewrite get_put_same; discriminate|]. rewrite get_put_other by exact Hne. apply Ha2.
    - exfalso. unfold lookup in Hk. rewrite Hcc in Hk. destruct (implicit_dir c); [discriminate|].
      destruct (get c fs) as [[|b]|] eqn:Hg; [discriminate|discriminate|]. now rewrite (no_file fs all c Ho Hlc) in Hk. }
  destruct H1 as [fs1 [H1 [H2 H3]]]. destruct (IH fs1 H3 Hi' Hcs) as [fs' [H4 H5]]. exists fs'. cbn [mkdirs]. rewrite H1.
  split; [exact H4|]. intros d [<-|Hd]; [|now apply H5].
  assert (Hk : only_dirs (fun x => In x cs) fs1 fs') by (apply (mkdirs_dirs cs fs1 fs' true); [intros x Hx; now apply Hcs|exact H4]).
  revert H2. unfold lookup. rewrite Hcc. destruct (implicit_dir c); [reflexivity|].
  destruct (Hk c) as [->|[_ [_ ->]]]; [|reflexivity].
  destruct (get c fs1) as [[|b]|]; [auto|auto|]. destruct (existsb _ _); discriminate.
Qed.

Lemma clean_lineage : forall p, implicit_dir (clean p) = true \/ In (clean p) (lineage p).
Proof.
  intros p. destruct (pcomps p) as [|x cs] eqn:Hp.
  - left. rewrite clean_unparse, Hp. now destruct (is_rooted p).
  - right. apply lineage_spec. exists (pcomps p), []. rewrite app_nil_r, Hp. split; [discriminate|]. split; [reflexivity|].
    now rewrite <- Hp.
Qed.

Lemma prepare_ok : forall path w, env_stat_fail path = false -> clean path = path -> open_way (w_fs w) (lineage path) ->
  exists w', prepare_output_dir path w = (w', true) /\ lookup (w_fs w') path = SDir.
Proof.
  intros path w Hs Hc Ho. unfold prepare_output_dir.
  assert (Hne : String.eqb path "" = false) by (apply String.eqb_neq; rewrite <- Hc; apply clean_not_empty).
  rewrite Hne. unfold stat. rewrite Hs, Hne. destruct (lookup (w_fs w) path) eqn:Hk.
  - exists w. auto.
  - exfalso. unfold lookup in Hk. destruct (clean_lineage path) as [Hi|Hi]; [now rewrite Hi in Hk|].
    destruct (implicit_dir (clean path)); [discriminate|]. destruct (Ho _ Hi) as [_ Hn].
    destruct (get (clean path) (w_fs w)) as [[|b]|]; [discriminate|now elim (Hn b)|]. destruct (existsb _ _); discriminate.
  - destruct (mkdirs_ok (lineage path) (lineage path) (w_fs w) Ho (incl_refl _)) as [fs' [Hm Hl]].
    { intros c Hcl. split; [intros b; now apply lineage_trans|now apply (lineage_clean path)]. }
    rewrite Hm. exists (set_fs fs' w). split; [reflexivity|]. cbn [w_fs set_fs].
    destruct (clean_lineage path) as [Hi|Hi]; [unfold lookup; now rewrite Hi|]. rewrite Hc in Hi. now apply Hl.
  - exfalso. unfold lookup in Hk. destruct (implicit_dir (clean path)); [discriminate|].
    destruct (get (clean path) (w_fs w)) as [[|b]|]; [discriminate|discriminate|].
    now rewrite (no_file _ _ _ Ho (incl_refl _)) in Hk.
Qed.

Lemma create_ok : forall f text w, f <> "" -> env_create_fail f = false -> implicit_dir (clean f) = false ->
  get (clean f) (w_fs w) <> Some NDir -> lookup (w_fs w) (dir f) = SDir -> open_way (w_fs w) (lineage (dir f)) ->
  exists w', create_write f text w = Some w'.
Proof.
  intros f text w Hf Hc Hi Hn Hd Ho. unfold create_write. rewrite Hc. apply String.eqb_neq in Hf. rewrite Hf. cbn [orb].
  rewrite Hd. unfold lookup at 1. rewrite Hi. destruct (get (clean f) (w_fs w)) as [[|b]|] eqn:Hg; [now elim Hn|eauto|].
  replace (existsb (is_file (w_fs w)) (lineage f)) with false; [eauto|]. symmetry. apply not_true_is_false.
  intros H. apply existsb_exists in H as [a [Ha Hfile]]. unfold is_file in Hfile.
  destruct (lineage_dir f a Ha) as [->|Ha']; [now rewrite Hg in Hfile|].
  destruct (Ho a Ha') as [_ Hnf]. destruct (get a (w_fs w)) as [[|b]|]; try discriminate. now elim (Hnf b).
Qed.

(** * One file *)

Lemma output_file_unique : forall o l f f', output_file o l f -> output_file o l f' -> f = f'.
Proof. intros o l f f' H H'. apply output_file_spec in H, H'. congruence. Qed.

Lemma place_clean_dir : forall p, clean (dir p) = dir p.
Proof. intros p. apply clean_idem. Qed.

Lemma output_nonempty : forall o l f, output_file o l f -> f <> "".
Proof.
  intros o l f [p [_ [[[q ->] ->]|[_ ->]]]] H; apply (f_equal String.length) in H; rewrite length_app_s in H; destruct l; cbn in H; lia.
Qed.

Lemma finish_ok : forall o l p w, o_extract o = false -> selects (o_lang o) l -> can_write o l w ->
  exists w', finish o p w = Ret p w' \/ (unformatted l (o_package o) (freeze p) /\ finish o p w = Fail EGofmt w').
Proof.
  intros o l p w He Hl [Hd Hf]. unfold finish. rewrite He. cbv zeta. set (w1 := register o (freeze p) w).
  assert (Hplace : output_place o (output_path o)) by (now apply place_spec).
  set (f := file_with_extension (output_path o) (extension l)).
  assert (Hfile : output_file o l f) by (now apply output_file_spec).
  destruct (Hd _ Hplace) as [Hs Hway]. destruct (Hf _ Hfile) as [Hc [Hi Hn]].
  destruct (prepare_ok (dir (output_path o)) w1 Hs (place_clean_dir _) Hway) as [w2 [Hp Hk]]. rewrite Hp.
  pose proof (prepare_effect _ _ _ _ Hp) as [_ Ho].
  assert (He' : with_extension (output_path o) (extension l) f) by (now apply with_extension_spec).
  assert (Hdir : dir f = dir (output_path o)) by (now apply (dir_with_extension _ l)).
  assert (Hnd : get (clean f) (w_fs w2) <> Some NDir).
  { destruct (Ho (clean f)) as [->|[Hin _]]; [exact Hn|]. exfalso. apply (extension_not_above _ _ _ He').
    now rewrite Hdir. }
  assert (Hway2 : open_way (w_fs w2) (lineage (dir f))).
  { rewrite Hdir. intros a Ha. destruct (Hway a Ha) as [H1 H2]. split; [exact H1|]. intros b.
    destruct (Ho a) as [->|[_ [_ ->]]]; [apply H2|discriminate]. }
  assert (Hmake : forall text n, exists w', create_write f text (set_count n w2) = Some w').
  { intros text n. apply create_ok; auto; [now apply (output_nonempty o l)|]. rewrite Hdir. exact Hk. }
  pose proof (source_text l (o_package o) (freeze p)) as Hsrc. pose proof (body_source l (o_package o) (freeze p)) as Hbody.
  rewrite <- Hsrc in Hbody. apply selects_title in Hl. unfold generate. rewrite Hl.
  assert (Hplain : forall entry source ext, f = file_with_extension (output_path o) ext ->
            exists w', bind (gen_plain entry source ext (output_path o) (freeze p) w2) (fun _ w => Ret p w) = Ret p w').
  { intros entry source ext Hext. unfold gen_plain. cbv zeta. rewrite <- Hext.
    destruct (Hmake (source (run_entries entry (freeze p))) (g_count (run_entries entry (freeze p)))) as [w' Hw]. rewrite Hw.
    now exists w'. }
  destruct l; cbn [lname].
  - cbn [String.eqb Ascii.eqb Bool.eqb]. unfold gen_go. cbv zeta. fold f.
    cbn [extension] in f. fold f.
    destruct (env_gofmt (go_source (o_package o) (run_entries go_entry (freeze p)))) as [t|] eqn:Hg.
    + destruct (Hmake t (g_count (run_entries go_entry (freeze p)))) as [w' Hw]. rewrite Hw. exists w'. now left.
    + destruct (Hmake (go_fallback (o_package o) (run_entries go_entry (freeze p))) (g_count (run_entries go_entry (freeze p)))) as [w' Hw].
      rewrite Hw. exists w'. right. split; [|reflexivity]. split; [reflexivity|]. eexists. split; [exact Hbody|exact Hg].
  - destruct (Hplain c_entry c_source ".h" eq_refl) as [w' Hw]. exists w'. now left.
  - destruct (Hplain java_entry (java_source (o_package o)) ".java" eq_refl) as [w' Hw]. exists w'. now left.
  - destruct (Hplain rust_entry rust_source ".rs" eq_refl) as [w' Hw]. exists w'. now left.
  - destruct (Hplain ts_entry ts_source ".ts" eq_refl) as [w' Hw]. exists w'. now left.
Qed.

(** A schema file is parsed into its components, and only its output is written. *)
Lemma schema_parsed : forall d fuel o w l tree, o_extract o = false -> selects (o_lang o) l -> w_inc w = [] -> w_nsl w = [] ->
  schema_file (o_lang o) w (o_file o) tree ->
  (forall c, output_change o tree c (get c (w_fs w)) (get c (w_fs (out_world (parse (S d) (S fuel) o w))))) /\
  (forall p w', parse (S d) (S fuel) o w = Ret p w' -> exists f text, output_file o l f /\
     file_text l (o_package o) tree text true /\ get (clean f) (w_fs w') = Some (NFile (env_write f text))) /\
  (can_write o l w -> exists w', (exists p, parse (S d) (S fuel) o w = Ret p w') \/
     (unformatted l (o_package o) tree /\ parse (S d) (S fuel) o w = Fail EGofmt w')).
Proof.
  intros d fuel o w l tree He Hl Hinc Hnsl [bytes [res [many [loc [ds [Hst [Hop [Hdir [Hwr [Hnt [Hres [Hmany Htree]]]]]]]]]]]].
  destruct (parse_finish d fuel o w bytes res many loc ds tree Hst Hop) as [p [w1 [Hp [Hf Hfs]]]]; auto.
  { now rewrite He. }
  destruct (finish_effect o p w1 He) as [_ [_ [_ [_ [_ [_ [_ [_ [Hc Hret]]]]]]]]]. rewrite Hf in Hc, Hret.
  rewrite Hp. split; [|split].
  - intros c. apply effect_change. rewrite <- Hfs. apply Hc.
  - intros q w' Hq. destruct (Hret q w' Hq) as [_ Hw]. rewrite Hq in Hw. cbn [out_world] in Hw.
    destruct (written_exists (o_lang o) (o_package o) tree l Hl) as [text [ok Hx]]. destruct (Hw _ _ _ Hx) as [-> Hg].
    exists (file_with_extension (output_path o) (extension l)), text. split; [now apply output_file_spec|]. split; [|exact Hg].
    destruct (written_file _ _ _ _ _ _ Hx) as [l' [Hl' [_ Ht]]]. now rewrite (selects_unique _ _ _ Hl Hl').
  - intros Hcan. destruct (finish_ok o l p w1 He Hl) as [w' H].
    { unfold can_write. rewrite Hfs. exact Hcan. }
    rewrite Hf in H. exists w'. destruct H as [H|H]; [left; now exists p|now right].
Qed.

(** * What writing outputs can change *)

Section Steps.
Context {A : Type}.
Variables (op : A -> Options) (l : lang) (schemas : A -> Prop).
Hypothesis op_selects : forall x, selects (o_lang (op x)) l.
Hypothesis op_apart : forall a b n p, schemas a -> schemas b -> output_file (op a) l n -> output_place (op b) p ->
  ~ In (clean n) (lineage (dir p)).

Definition steps (w w' : World) : Prop :=
  forall c, get c (w_fs w') = get c (w_fs w) \/
    (get c (w_fs w) = None /\ get c (w_fs w') = Some NDir /\ exists x p, schemas x /\ output_place (op x) p /\ In c (lineage (dir p))) \/
    (get c (w_fs w) <> Some NDir /\ (exists b, get c (w_fs w') = Some (NFile b)) /\
     exists x n, schemas x /\ output_file (op x) l n /\ c = clean n).

Lemma steps_refl : forall w w', w_fs w' = w_fs w -> steps w w'.
Proof. intros w w' H c. left. now rewrite H. Qed.

Lemma change_steps : forall w w' x tree, schemas x ->
  (forall c, output_change (op x) tree c (get c (w_fs w)) (get c (w_fs w'))) -> steps w w'.
Proof.
  intros w w' x tree Hx H c. destruct (H c) as [Hc|[[p [H1 [H2 [H3 H4]]]]|[l' [n [text [ok [H1 [H2 [_ [H4 [H5 H6]]]]]]]]]]]; [now left|right; left|right; right].
  - repeat split; auto. now exists x, p.
  - rewrite <- (selects_unique _ _ _ (op_selects x) H1) in H2. split; [exact H5|]. split; [eauto|]. now exists x, n.
Qed.

Lemma steps_stat_dir : forall w w' x, steps w w' -> stat x w = SDir -> stat x w' = SDir.
Proof.
  intros w w' x Hs. unfold stat, lookup. destruct (env_stat_fail x); [auto|]. destruct (String.eqb x ""); [auto|].
  destruct (implicit_dir (clean x)); [auto|].
  destruct (Hs (clean x)) as [->|[[-> [-> _]]|[Hn [[b ->] _]]]].
  - destruct (get (clean x) (w_fs w)) as [[|b]|]; auto. destruct (existsb _ _); discriminate.
  - auto.
  - destruct (get (clean x) (w_fs w)) as [[|b']|]; [now elim Hn|discriminate|]. destruct (existsb _ _); discriminate.
Qed.

Lemma steps_stat_file : forall w w' x bytes, steps w w' -> (forall y n, schemas y -> output_file (op y) l n -> clean n <> clean x) ->
  stat x w = SFile bytes -> stat x w' = SFile bytes.
Proof.
  intros w w' x bytes Hs Hne Hst. pose proof (stat_file x w bytes Hst) as Hg.
  assert (Hg' : get (clean x) (w_fs w') = get (clean x) (w_fs w)).
  { destruct (Hs (clean x)) as [Heq|[[Hn _]|[_ [_ [y [n [Hy [Hn Hc]]]]]]]]; [exact Heq|congruence|]. now elim (Hne y n Hy Hn). }
  revert Hst. unfold stat, lookup. destruct (env_stat_fail x); [auto|]. destruct (String.eqb x ""); [auto|].
  destruct (implicit_dir (clean x)); [auto|]. rewrite Hg'. now rewrite Hg.
Qed.

Lemma steps_can_write : forall w w' x, steps w w' -> schemas x -> can_write (op x) l w -> can_write (op x) l w'.
Proof.
  intros w w' x Hs Hx [Hd Hf]. split.
  - intros p Hp. destruct (Hd p Hp) as [H1 H2]. split; [exact H1|]. intros a Ha. destruct (H2 a Ha) as [H3 H4]. split; [exact H3|].
    intros b. destruct (Hs a) as [->|[[_ [-> _]]|[_ [_ [y [n [Hy [Hn Hc]]]]]]]]; [apply H4|discriminate|].
    elim (op_apart y x n p Hy Hx Hn Hp). now rewrite <- Hc.
  - intros n Hn. destruct (Hf n Hn) as [H1 [H2 H3]]. split; [exact H1|]. split; [exact H2|].
    destruct (Hs (clean n)) as [->|[[_ [_ [y [p [Hy [Hp Hin]]]]]]|[_ [[b ->] _]]]]; [exact H3| |discriminate].
    now elim (op_apart x y n p Hx Hy Hn Hp).
Qed.

Lemma steps_trans : forall w w1 w2, steps w w1 -> steps w1 w2 -> steps w w2.
Proof.
  intros w w1 w2 H1 H2 c. specialize (H1 c). specialize (H2 c).
  destruct H1 as [H1|[[H1 [H1' X]]|[H1 [[b1 H1'] X]]]], H2 as [H2|[[H2 [H2' Y]]|[H2 [[b2 H2'] Y]]]].
  - left. congruence.
  - right. left. rewrite <- H1. auto.
  - right. right. rewrite <- H1. eauto.
  - right. left. rewrite H2. auto.
  - congruence.
  - congruence.
  - right. right. rewrite H2. eauto.
  - congruence.
  - right. right. eauto.
Qed.

End Steps.

(** * All files *)

Section Tool.
Variables (d fuel : nat) (f : flags) (l : lang) (trees : string -> list proto) (schemas : string -> Prop).
Hypothesis lang_ok : lname l = fl_l f.
Hypothesis separate : separate_outputs f l schemas.

Lemma tool_selects : forall x, selects (o_lang (tool_options f x)) l.
Proof. intros x. cbn [tool_options o_lang]. rewrite <- lang_ok. apply selects_self. Qed.

Lemma tool_apart : forall a b n p, schemas a -> schemas b -> output_file (tool_options f a) l n -> output_place (tool_options f b) p ->
  ~ In (clean n) (lineage (dir p)).
Proof. intros a b n p Ha Hb Hn. exact (proj2 (proj2 (separate a b n Ha Hb Hn)) p). Qed.

(** A directory, or a schema file with its components. *)
Definition good (w : World) (x : string) : Prop :=
  stat x w = SDir \/ (schemas x /\ schema_file (fl_l f) w x (trees x)).

Local Notation steps := (steps (tool_options f) l schemas).

Lemma steps_good : forall w w' x, steps w w' -> good w x -> good w' x.
Proof.
  intros w w' x Hs [Hd|[Hx [bytes [res [many [loc [ds [Hst [Hop [Hdir H]]]]]]]]]];
    [left; exact (steps_stat_dir (tool_options f) l schemas w w' x Hs Hd)|right].
  split; [exact Hx|]. exists bytes, res, many, loc, ds.
  split; [|split; [exact Hop|split; [exact (steps_stat_dir (tool_options f) l schemas w w' _ Hs Hdir)|exact H]]].
  apply (steps_stat_file (tool_options f) l schemas w); auto. intros y n Hy Hn. exact (proj1 (separate y x n Hy Hx Hn)).
Qed.

(** One file of the list. *)
Lemma tool_step : forall x w, good w x ->
  let r := parse (S d) (S fuel) (tool_options f x) (with_new_maps w) in
  steps w (out_world r) /\
  (forall b, stat x w = SFile b -> forall c, output_change (tool_options f x) (trees x) c (get c (w_fs w)) (get c (w_fs (out_world r)))) /\
  (stat x w = SDir -> w_fs (out_world r) = w_fs w) /\
  (forall b p w', stat x w = SFile b -> r = Ret p w' -> exists n text, output_file (tool_options f x) l n /\
     file_text l (o_package (tool_options f x)) (trees x) text true /\ get (clean n) (w_fs w') = Some (NFile (env_write n text))) /\
  ((forall b, stat x w = SFile b -> can_write (tool_options f x) l w) -> exists w', (exists p, r = Ret p w') \/
     (schemas x /\ unformatted l (o_package (tool_options f x)) (trees x) /\ r = Fail EGofmt w')).
Proof.
  intros x w [Hd|[Hx Hs]] r.
  - assert (Hr : r = Ret p_init (with_new_maps w)).
    { unfold r. cbn [parse]. unfold parse_body. cbn [tool_options o_file o_ps]. change (stat x (with_new_maps w)) with (stat x w).
      now rewrite Hd. }
    rewrite Hr. cbn [out_world]. split; [now apply steps_refl|]. split; [intros b Hb; congruence|]. split; [reflexivity|].
    split; [intros b p w' Hb; congruence|]. intros _. exists (with_new_maps w). left. now exists p_init.
  - destruct (schema_parsed d fuel (tool_options f x) (with_new_maps w) l (trees x) eq_refl (tool_selects x) eq_refl eq_refl Hs) as [H1 [H2 H3]].
    fold r in H1, H2, H3. assert (Hf : exists b, stat x w = SFile b) by (destruct Hs as [b [_ [_ [_ [_ [Hs _]]]]]]; now exists b).
    destruct Hf as [b Hb].
    split; [apply (change_steps _ _ _ tool_selects _ _ x (trees x) Hx H1)|]. split; [intros _ _; exact H1|]. split; [congruence|].
    split; [intros _ p w' _; apply H2|]. intros Hc. destruct (H3 (Hc b Hb)) as [w' [H|[H H']]]; exists w'; [now left|right; auto].
Qed.

(** A node that no file of the list writes stays. *)
Lemma tool_keeps : forall files w w' n x, all_parsed (S d) (S fuel) f files w w' -> (forall y, In y files -> good w y) ->
  ~ In x files -> schemas x -> output_file (tool_options f x) l n -> forall b, get (clean n) (w_fs w) = Some (NFile b) ->
  get (clean n) (w_fs w') = Some (NFile b).
Proof.
  intros files w w' n x H. induction H as [w|y files w p w1 w2 Hp H IH]; intros Hg Hni Hx Hn b Hb; [exact Hb|].
  pose proof (tool_step y w (Hg y (or_introl eq_refl))) as Hstep. cbv zeta in Hstep. rewrite Hp in Hstep. cbn [out_world] in Hstep.
  destruct Hstep as [Hs [Hc [Hd _]]]. apply IH; auto.
  - intros z Hz. apply (steps_good w); [exact Hs|]. apply Hg. now right.
  - intros Hin. apply Hni. now right.
  - destruct (Hg y (or_introl eq_refl)) as [Hy|[Hy Hsf]]; [now rewrite Hd|].
    destruct Hsf as [bytes [_ [_ [_ [_ [Hst _]]]]]].
    destruct (Hc bytes Hst (clean n)) as [->|[[q [_ [_ [H3 _]]]]|[l' [m [text [ok [H1 [H2 [_ [H4 _]]]]]]]]]]; [exact Hb|congruence|].
    rewrite <- (selects_unique _ _ _ (tool_selects y) H1) in H2.
    destruct (separate x y n Hx Hy Hn) as [_ [He _]]. elim Hni. left. symmetry. exact (He m H2 H4).
Qed.

Lemma tool_outputs : forall files w w', all_parsed (S d) (S fuel) f files w w' -> (forall y, In y files -> good w y) ->
  forall x b, In x files -> stat x w = SFile b -> exists n text, output_file (tool_options f x) l n /\
     file_text l (o_package (tool_options f x)) (trees x) text true /\ get (clean n) (w_fs w') = Some (NFile (env_write n text)).
Proof.
  intros files w w' H. induction H as [w|y files w p w1 w2 Hp H IH]; intros Hg x b Hin Hb; [destruct Hin|].
  pose proof (tool_step y w (Hg y (or_introl eq_refl))) as Hstep. cbv zeta in Hstep. rewrite Hp in Hstep. cbn [out_world] in Hstep.
  destruct Hstep as [Hs [_ [_ [Hret _]]]].
  assert (Hg1 : forall z, In z (y :: files) -> good w1 z) by (intros z Hz; apply (steps_good w); auto).
  assert (Hb1 : schemas x /\ exists b1, stat x w1 = SFile b1).
  { pose proof (Hg1 x Hin) as [Hx|[Hx [b1 [_ [_ [_ [_ [Hx1 _]]]]]]]].
    - exfalso. destruct (Hg x Hin) as [Hx'|[Hx' _]]; [congruence|]. pose proof (stat_file _ _ _ Hb) as Hk.
      assert (Hk1 : exists b', get (clean x) (w_fs w1) = Some (NFile b')).
      { destruct (Hs (clean x)) as [He|[[He _]|[_ [He _]]]]; [exists b; congruence|congruence|exact He]. }
      destruct Hk1 as [b' Hk1]. destruct (stat_kind x w w1 b Hb) as [b2 H2]; [eauto|congruence].
    - split; [exact Hx|]. now exists b1. }
  destruct Hb1 as [Hx [b1 Hb1]]. destruct (in_dec string_dec x files) as [Hlater|Hlast].
  - apply (IH (fun z Hz => Hg1 z (or_intror Hz)) x b1 Hlater Hb1).
  - destruct Hin as [->|Hin]; [|contradiction]. destruct (Hret b p w1 Hb eq_refl) as [n [text [Hn [Ht Hk]]]].
    exists n, text. split; [exact Hn|]. split; [exact Ht|].
    apply (tool_keeps files w1 w2 n x H (fun z Hz => Hg1 z (or_intror Hz)) Hlast Hx Hn _ Hk).
Qed.

Lemma tool_run : forall files w, (forall y, In y files -> good w y) ->
  match process (S d) (S fuel) (tool_config f) files w with
  | CExit _ _ w' => steps w w'
  | CNoFuel w' => steps w w'
  end /\
  ((forall y b, In y files -> stat y w = SFile b -> can_write (tool_options f y) l w) ->
   exists w', process (S d) (S fuel) (tool_config f) files w = CExit 0 true w' \/
     exists x, In x files /\ unformatted l (o_package (tool_options f x)) (trees x) /\
       process (S d) (S fuel) (tool_config f) files w = CExit 1 false w').
Proof.
  induction files as [|y files IH]; intros w Hg; cbn [process]; [split; [now apply steps_refl|intros _; exists w; now left]|].
  change (file_options (tool_config f) y) with (tool_options f y). change (fresh_maps w) with (with_new_maps w).
  pose proof (tool_step y w (Hg y (or_introl eq_refl))) as Hstep. cbv zeta in Hstep. destruct Hstep as [Hs [_ [_ [_ Hok]]]].
  destruct (parse (S d) (S fuel) (tool_options f y) (with_new_maps w)) as [p w1|e w1|c w1] eqn:Hp; cbn [out_world] in Hs.
  - assert (Hg1 : forall z, In z files -> good w1 z) by (intros z Hz; apply (steps_good w); [exact Hs|apply Hg; now right]).
    destruct (IH w1 Hg1) as [I1 I2]. split.
    + destruct (process (S d) (S fuel) (tool_config f) files w1) as [code done w2|w2]; now apply (steps_trans (tool_options f) l schemas w w1).
    + intros Hcan. destruct I2 as [w' Hw].
      { intros z b Hz Hb. assert (Hz' : In z (y :: files)) by now right.
        destruct (Hg z Hz') as [Hd|[Hx [b0 [_ [_ [_ [_ [Hb0 _]]]]]]]].
        - apply (steps_stat_dir (tool_options f) l schemas w w1 _ Hs) in Hd; congruence.
        - apply (steps_can_write (tool_options f) l schemas tool_apart w); auto. now apply (Hcan z b0). }
      exists w'. destruct Hw as [Hw|[x [Hx Hw]]]; [now left|right]. exists x. split; [now right|exact Hw].
  - split; [exact Hs|]. intros Hcan. destruct Hok as [w' [[q Hq]|[_ [Hu Hq]]]]; [intros b Hb; now apply (Hcan y b (or_introl eq_refl))|discriminate|].
    exists w1. right. exists y. split; [now left|]. split; [exact Hu|reflexivity].
  - split; [now destruct c|]. intros Hcan. destruct Hok as [w' [[q Hq]|[_ [Hu Hq]]]]; [intros b Hb; now apply (Hcan y b (or_introl eq_refl))|discriminate|discriminate].
Qed.

End Tool.

End Whole.
