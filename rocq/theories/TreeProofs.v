(** A file system that is a tree stays one. *)

From Coq Require Import String Ascii List Arith NArith Bool Lia.
From Verif Require Import GoStr GoPath Base World Handlers Parser Cli StrLemmas PathProofs SpecStr SpecFile SpecParse SpecCli Reify
  ParseFacts ParserProofs Termination FileProofs CliProofs WholeProofs.
Import ListNotations.
Local Open Scope string_scope.

Local Infix "+++" := app (at level 60, right associativity).

Lemma keys_put : forall A k (v : A) m, (In k (keys m) /\ keys (put k v m) = keys m) \/ (~ In k (keys m) /\ keys (put k v m) = keys m +++ [k]).
Proof.
  intros A k v m. induction m as [|[a x] m IH]; [right; split; [intros []|reflexivity]|]. cbn [put keys map fst In].
  destruct (String.eqb_spec a k) as [->|Hne]; [left; split; [now left|reflexivity]|].
  destruct IH as [[H1 H2]|[H1 H2]]; unfold keys in *; cbn [map fst app]; rewrite H2; [left|right]; (split; [|reflexivity]).
  - now right.
  - intros [->|H]; [now elim Hne|contradiction].
Qed.

Lemma nodup_put : forall A k (v : A) m, NoDup (keys m) -> NoDup (keys (put k v m)).
Proof.
  intros A k v m H. destruct (keys_put A k v m) as [[_ ->]|[Hn ->]]; [exact H|].
  apply NoDup_Add with (a := k) (l := keys m); [|now split]. rewrite <- (app_nil_r (keys m)) at 1. apply Add_app.
Qed.

Lemma key_of_put : forall A k (v : A) m x, In x (keys (put k v m)) -> x = k \/ In x (keys m).
Proof.
  intros A k v m x. destruct (keys_put A k v m) as [[_ ->]|[_ ->]]; [now right|]. rewrite in_app_iff. cbn. intuition.
Qed.

(** Ancestors of a chain of "..". *)
Lemma implicit_comps : forall r cs, normal r cs -> implicit_dir (unparse r cs) = true -> Forall (fun c => c = "..") cs.
Proof.
  intros r cs Hn H. destruct cs as [|c cs]; [constructor|].
  assert (Hempty : forall b, normal b []) by (intros b; split; [constructor|]; exists 0, []; repeat split; constructor).
  unfold implicit_dir in H. apply orb_true_iff in H as [H|H]; [apply orb_true_iff in H as [H|H]; apply String.eqb_eq in H|].
  - change "." with (unparse false []) in H. apply unparse_inj in H as [_ H]; [discriminate|exact Hn|apply Hempty].
  - change "/" with (unparse true []) in H. apply unparse_inj in H as [_ H]; [discriminate|exact Hn|apply Hempty].
  - destruct r.
    + unfold unparse in H. change ("/" ++ sjoin "/" (c :: cs)) with (String "/" (sjoin "/" (c :: cs))) in H.
      pose proof (split_on_app_char "/" "" (sjoin "/" (c :: cs)) eq_refl) as E1. cbn [append] in E1. rewrite E1 in H. discriminate.
    + unfold unparse in H. rewrite split_on_sjoin in H; [|discriminate|].
      * rewrite forallb_forall in H. apply Forall_forall. intros x Hx. apply H in Hx. now apply String.eqb_eq in Hx.
      * destruct Hn as [Hf _]. eapply Forall_impl; [|exact Hf]. now intros a [Ha _].
Qed.

Lemma dots_implicit : forall cs, Forall (fun c => c = "..") cs -> implicit_dir (unparse false cs) = true.
Proof.
  intros cs H. destruct cs as [|c cs]; [reflexivity|]. unfold implicit_dir. apply orb_true_iff. right. unfold unparse.
  rewrite split_on_sjoin; [|discriminate|].
  - apply forallb_forall. intros x Hx. rewrite Forall_forall in H. rewrite (H x Hx). reflexivity.
  - eapply Forall_impl; [|exact H]. intros a Ha. cbn beta in Ha. now rewrite Ha.
Qed.

Section Tree.
Context {E : Env}.

Lemma dir_kept : forall k v fs a, lookup fs a = SDir -> clean a <> k \/ v = NDir -> lookup (put k v fs) a = SDir.
Proof.
  intros k v fs a H Hv. unfold lookup in *. destruct (implicit_dir (clean a)); [reflexivity|].
  destruct (string_dec k (clean a)) as [He|Hne].
  - destruct Hv as [Hv|Hv]; [congruence|]. subst k v. now rewrite get_put_same.
  - rewrite get_put_other by exact Hne. destruct (get (clean a) fs) as [[|b]|]; [reflexivity|discriminate|]. destruct (existsb _ _); discriminate.
Qed.

Lemma put_tree : forall fs k v, tree_shaped fs -> clean k = k -> implicit_dir k = false ->
  (forall a, In a (lineage k) -> a <> k -> lookup fs a = SDir) -> v = NDir \/ get k fs <> Some NDir -> tree_shaped (put k v fs).
Proof.
  intros fs k v [Hnd Hk] Hc Hi Ha Hv. split; [now apply nodup_put|]. intros x Hx. apply key_of_put in Hx as [->|Hx].
  - split; [exact Hc|]. split; [exact Hi|]. intros a Hin Hne. apply dir_kept; [now apply Ha|left]. now rewrite (lineage_clean k a Hin).
  - destruct (Hk x Hx) as [X1 [X2 X3]]. split; [exact X1|]. split; [exact X2|]. intros a Hin Hne. pose proof (X3 a Hin Hne) as Hl.
    apply dir_kept; [exact Hl|]. rewrite (lineage_clean x a Hin). destruct (string_dec a k) as [->|Hak]; [right|now left].
    destruct Hv as [Hv|Hv]; [exact Hv|]. unfold lookup in Hl. rewrite Hc, Hi in Hl.
    destruct (get k fs) as [[|b]|]; [now elim Hv|discriminate|]. destruct (existsb _ _); discriminate.
Qed.

(** All ancestors of a directory are directories. *)
Lemma above_dir : forall fs q a, tree_shaped fs -> lookup fs q = SDir -> In a (lineage q) -> lookup fs a = SDir.
Proof.
  intros fs q a [_ Hk] Hq Ha. pose proof (lineage_clean q a Ha) as Hca. apply lineage_spec in Ha as [m [s [Hm [Hs He]]]].
  unfold lookup in Hq. destruct (implicit_dir (clean q)) eqn:Hi.
  - assert (Hd : Forall (fun c => c = "..") (pcomps q)) by (apply (implicit_comps (is_rooted q)); [apply pcomps_normal|exact Hi]).
    unfold lookup. rewrite Hca. assert (Hir : is_rooted q = false).
    { destruct (is_rooted q) eqn:Hr; [|reflexivity]. pose proof (pcomps_normal q) as [_ [k [names [H1 [H2 H3]]]]].
      rewrite (H3 Hr) in H1. cbn in H1. rewrite Hs in H1. destruct m as [|y m]; [now elim Hm|].
      rewrite <- H1 in H2. cbn in H2. rewrite Hs in Hd. cbn in Hd. inversion Hd; subst. inversion H2; subst. now elim H5. }
    assert (Hia : implicit_dir a = true); [|now rewrite Hia].
    rewrite He, Hir. apply dots_implicit. rewrite Hs in Hd. now apply Forall_app in Hd as [Hd _].
  - destruct (get (clean q) fs) as [[|b]|] eqn:Hg; [|discriminate|destruct (existsb _ _); discriminate].
    destruct (string_dec a (clean q)) as [Haq|Hne].
    + unfold lookup. rewrite Hca, Haq, Hi, Hg. reflexivity.
    + assert (Hin : In (clean q) (keys fs)) by (apply keys_get; congruence). destruct (Hk _ Hin) as [_ [_ H]]. apply H; [|exact Hne].
      apply lineage_spec. exists m, s. rewrite clean_comps_id, clean_rooted. auto.
Qed.

Lemma mkdirs_tree : forall r l pre fs, normal r (pre +++ l) -> tree_shaped fs ->
  (forall m s, m <> [] -> pre = m +++ s -> lookup fs (unparse r m) = SDir) ->
  tree_shaped (fst (mkdirs fs (map (fun m => unparse r (pre +++ m)) (prefixes l)))).
Proof.
  intros r l. induction l as [|x l IH]; intros pre fs Hn Ht Hp; [exact Ht|]. cbn [prefixes map mkdirs].
  set (c := unparse r (pre +++ [x])).
  assert (Hnx : normal r (pre +++ [x])) by (apply (normal_prefix r _ l); now rewrite <- app_assoc).
  assert (Hcc : clean c = c) by (unfold c; rewrite clean_unparse, unparse_rooted, unparse_comps by exact Hnx; reflexivity).
  assert (Hup : forall a, In a (lineage c) -> a <> c -> lookup fs a = SDir).
  { intros a Ha Hne. apply lineage_spec in Ha as [m [s [Hm [Hs He]]]]. unfold c in Hs, He.
    rewrite unparse_comps in Hs by exact Hnx. rewrite unparse_rooted in He by exact Hnx.
    destruct s as [|y s _] using rev_ind; [elim Hne; rewrite He; unfold c; now rewrite Hs, app_nil_r|].
    rewrite app_assoc in Hs. apply app_inj_tail in Hs as [Hs _]. rewrite He. now apply (Hp m s). }
  destruct (mkdir1 fs c) as [fs1 ok] eqn:Hmk.
  assert (Ht1 : tree_shaped fs1 /\ (ok = true -> lookup fs1 c = SDir /\ forall a, lookup fs a = SDir -> lookup fs1 a = SDir)).
  { unfold mkdir1 in Hmk. destruct (lookup fs c) eqn:Hl.
    - injection Hmk as <- <-. auto.
    - injection Hmk as <- <-. split; [exact Ht|discriminate].
    - destruct (env_mkdir_fail c); injection Hmk as <- <-; [split; [exact Ht|discriminate]|].
      assert (Hi : implicit_dir c = false) by (unfold lookup in Hl; rewrite Hcc in Hl; now destruct (implicit_dir c)).
      split; [apply put_tree; auto|]. intros _. split.
      + unfold lookup. rewrite Hcc, Hi, get_put_same. reflexivity.
      + intros a Ha. apply dir_kept; auto.
    - injection Hmk as <- <-. split; [exact Ht|discriminate]. }
  destruct Ht1 as [Ht1 Hok]. destruct ok; [|exact Ht1]. destruct (Hok eq_refl) as [Hc1 Hkeep].
  replace (map (fun m => unparse r (pre +++ m)) (map (cons x) (prefixes l)))
    with (map (fun m => unparse r ((pre +++ [x]) +++ m)) (prefixes l)).
  2: { rewrite map_map. apply map_ext. intros m. now rewrite <- app_assoc. }
  apply IH; [now rewrite <- app_assoc|exact Ht1|].
  intros m s Hm Hs. destruct s as [|y s _] using rev_ind.
  - rewrite app_nil_r in Hs. subst m. exact Hc1.
  - rewrite app_assoc in Hs. apply app_inj_tail in Hs as [Hs _]. apply Hkeep. now apply (Hp m s).
Qed.

Lemma prepare_tree : forall path w w' ok, tree_shaped (w_fs w) -> prepare_output_dir path w = (w', ok) -> tree_shaped (w_fs w').
Proof.
  intros path w w' ok Ht H. unfold prepare_output_dir in H. destruct (String.eqb path ""); [now injection H as <- _|].
  destruct (stat path w); try (injection H as <- _; exact Ht).
  destruct (mkdirs (w_fs w) (lineage path)) as [fs b] eqn:Hm. injection H as <- _. cbn [set_fs w_fs].
  replace fs with (fst (mkdirs (w_fs w) (lineage path))) by (now rewrite Hm).
  assert (Hl : lineage path = map (fun m => unparse (is_rooted path) ([] +++ m)) (prefixes (pcomps path))).
  { unfold lineage. fold (pcomps path). apply map_ext_in. intros m Hin. apply prefixes_spec in Hin as [Hin _]. unfold unparse. cbn [app].
    destruct (is_rooted path); [reflexivity|]. destruct m; [now elim Hin|reflexivity]. }
  rewrite Hl. apply mkdirs_tree; [apply pcomps_normal|exact Ht|]. intros m s Hm' Hs. symmetry in Hs. now apply app_eq_nil in Hs as [-> _].
Qed.

Lemma create_tree : forall path text w w', tree_shaped (w_fs w) -> create_write path text w = Some w' -> tree_shaped (w_fs w').
Proof.
  intros path text w w' Ht H. unfold create_write in H. destruct (env_create_fail path || String.eqb path ""); [discriminate|].
  assert (Hl : lookup (w_fs w) path <> SDir /\ lookup (w_fs w) (dir path) = SDir /\
    w' = set_fs (put (clean path) (NFile (env_write path text)) (w_fs w)) w).
  { destruct (lookup (w_fs w) path); try discriminate; destruct (lookup (w_fs w) (dir path)); try discriminate; injection H as <-; repeat split; discriminate. }
  destruct Hl as [H1 [H2 ->]]. cbn [set_fs w_fs].
  assert (Hi : implicit_dir (clean path) = false) by (unfold lookup in H1; destruct (implicit_dir (clean path)); [now elim H1|reflexivity]).
  apply put_tree; [exact Ht|apply clean_idem|exact Hi| |right].
  - intros a Ha Hne. destruct (lineage_dir path a) as [He|Ha']; [|contradiction|now apply (above_dir _ (dir path))].
    apply lineage_spec in Ha as [m [s [Hm [Hs He]]]]. rewrite clean_comps_id in Hs. rewrite clean_rooted in He. apply lineage_spec. now exists m, s.
  - intros Hg. apply H1. unfold lookup. now rewrite Hi, Hg.
Qed.

(** What making directories and writing files keeps, every program keeps. *)
Section Kept.
Context (I : smap node -> Prop).
Context (Hdirs : forall path w w' ok, I (w_fs w) -> prepare_output_dir path w = (w', ok) -> I (w_fs w')).
Context (Hfile : forall path text w w', I (w_fs w) -> create_write path text w = Some w' -> I (w_fs w')).

Lemma generate_kept : forall lang pkg file pt w, I (w_fs w) -> I (w_fs (out_world (generate lang pkg file pt w))).
Proof.
  intros lang pkg file pt w Ht.
  assert (Hp : forall entry source ext, I (w_fs (out_world (gen_plain entry source ext file pt w)))).
  { intros entry source ext. unfold gen_plain. destruct (create_write _ _ _) eqn:Hc; cbn [out_world]; [|exact Ht]. now apply Hfile in Hc. }
  unfold generate. repeat match goal with |- context [if ?b then _ else _] => destruct b end; try apply Hp; try exact Ht.
  unfold gen_go. destruct (env_gofmt _); destruct (create_write _ _ _) eqn:Hc; cbn [out_world]; try exact Ht; now apply Hfile in Hc.
Qed.

Lemma finish_kept : forall o p w, I (w_fs w) -> I (w_fs (out_world (finish o p w))).
Proof.
  intros o p w Ht. unfold finish. destruct (o_extract o); [exact Ht|]. cbv zeta.
  destruct (prepare_output_dir (dir (output_path o)) (register o (freeze p) w)) as [w2 ok] eqn:Hp.
  apply Hdirs in Hp; [|exact Ht]. destruct ok; [|exact Hp].
  pose proof (generate_kept (o_lang o) (o_package o) (output_path o) (freeze p) w2 Hp) as Hg.
  now destruct (generate (o_lang o) (o_package o) (output_path o) (freeze p) w2).
Qed.

Theorem parse_kept : forall d fuel o w, I (w_fs w) -> I (w_fs (out_world (parse d fuel o w))).
Proof.
  intros d. assert (H : forall fuel o w, I (w_fs w) -> Reify.good (fun v => I (w_fs v)) any_crash (parse d fuel o w)).
  2: { intros fuel o w Hw. now apply (H fuel o w). }
  induction d as [|d IH]; intros fuel o w Hw; [now split|].
  cbn [parse]. unfold parse_body.
  destruct (stat (o_file o) w) as [|bytes| |] eqn:Hs; [now split| |now split|now split].
  destruct (env_open_fail (o_file o)); [now split|]. cbv zeta.
  set (w1 := if o_extract o then w else register o (freeze (o_ps o)) w).
  assert (H1 : I (w_fs w1)) by (unfold w1; destruct (o_extract o); exact Hw).
  set (gvt := get_value_type (parse d fuel) fuel o).
  assert (H2 : Reify.good (fun v => I (w_fs v)) any_crash (run_tokens gvt (env_tokens bytes) p_init w1)).
  { split; [|destruct (run_tokens gvt (env_tokens bytes) p_init w1); exact Logic.I].
    apply (run_inv (fun v => I (w_fs v)) any_crash); [now intros [] v| |exact Logic.I|exact H1].
    intros v t w2 H2. apply gvt_inv; auto. exact Logic.I. }
  destruct (run_tokens gvt (env_tokens bytes) p_init w1) as [p w2|e w2|c w2]; cbn [bind] in *; [|exact H2|exact H2].
  destruct H2 as [H2 _]. split; [now apply finish_kept|now destruct (finish o p w2)].
Qed.

Theorem process_kept : forall d fuel c files w, I (w_fs w) ->
  match process d fuel c files w with CExit _ _ w' | CNoFuel w' => I (w_fs w') end.
Proof.
  intros d fuel c. induction files as [|file files IH]; intros w Hw; cbn [process]; [exact Hw|].
  pose proof (parse_kept d fuel (file_options c file) (fresh_maps w) Hw) as H.
  destruct (parse d fuel (file_options c file) (fresh_maps w)) as [p w1|e w1|[] w1]; try exact H. now apply IH.
Qed.

Theorem main_kept : forall d fuel f w, I (w_fs w) ->
  match main d fuel f w with CExit _ _ w' | CNoFuel w' => I (w_fs w') end.
Proof.
  intros d fuel f w Hw. unfold main. destruct (parse_flags f); [|exact Hw]. destruct (get_file_list _ _); [|exact Hw]. now apply process_kept.
Qed.

Theorem run_kept : forall d fuel args w, I (w_fs w) ->
  match run d fuel args w with CExit _ _ w' | CNoFuel w' => I (w_fs w') end.
Proof. intros d fuel args w Hw. unfold run. destruct (parse_args args default_flags); [|exact Hw]. now apply main_kept. Qed.

End Kept.

Theorem parse_tree : forall d fuel o w, tree_shaped (w_fs w) -> tree_shaped (w_fs (out_world (parse d fuel o w))).
Proof. apply parse_kept; [exact prepare_tree|exact create_tree]. Qed.

Theorem run_tree : forall d fuel args w, tree_shaped (w_fs w) ->
  match run d fuel args w with CExit _ _ w' | CNoFuel w' => tree_shaped (w_fs w') end.
Proof. apply run_kept; [exact prepare_tree|exact create_tree]. Qed.

(** Directories and files stay what they are. *)
Definition kinds_kept (fs0 fs : smap node) : Prop := forall c,
  (lookup fs0 c = SDir -> lookup fs c = SDir) /\ (forall b, get c fs0 = Some (NFile b) -> exists b', get c fs = Some (NFile b')).

Lemma put_kinds : forall fs0 fs k v, kinds_kept fs0 fs ->
  (v = NDir /\ get k fs = None) \/ (exists b, v = NFile b /\ get k fs <> Some NDir) -> kinds_kept fs0 (put k v fs).
Proof.
  intros fs0 fs k v H Hv c. destruct (H c) as [H1 H2]. split.
  - intros Hd. specialize (H1 Hd). destruct Hv as [[-> _]|[b [-> Hn]]]; [apply dir_kept; auto|].
    unfold lookup in *. destruct (implicit_dir (clean c)); [reflexivity|]. destruct (string_dec k (clean c)) as [->|Hne].
    + destruct (get (clean c) fs) as [[|b']|]; [now elim Hn|discriminate|destruct (existsb _ _); discriminate].
    + rewrite get_put_other by exact Hne. destruct (get (clean c) fs) as [[|b']|]; [reflexivity|discriminate|destruct (existsb _ _); discriminate].
  - intros b Hb. destruct (H2 b Hb) as [b' Hb']. destruct (string_dec k c) as [->|Hne]; [|rewrite get_put_other by exact Hne; now exists b'].
    rewrite get_put_same. destruct Hv as [[_ Hn]|[b2 [-> _]]]; [congruence|now exists b2].
Qed.

Lemma mkdirs_kinds : forall fs0 l fs, (forall c, In c l -> clean c = c) -> kinds_kept fs0 fs -> kinds_kept fs0 (fst (mkdirs fs l)).
Proof.
  intros fs0 l. induction l as [|c l IH]; intros fs Hc H; [exact H|]. cbn [mkdirs].
  assert (H1 : kinds_kept fs0 (fst (mkdir1 fs c))).
  { unfold mkdir1. destruct (lookup fs c) eqn:Hl; try exact H. destruct (env_mkdir_fail c); [exact H|]. cbn [fst]. apply put_kinds; [exact H|left].
    split; [reflexivity|]. unfold lookup in Hl. rewrite (Hc c) in Hl by now left. destruct (implicit_dir c); [discriminate|].
    now destruct (get c fs) as [[|b]|]. }
  destruct (mkdir1 fs c) as [fs1 ok]. cbn [fst] in H1. destruct ok; [|exact H1]. apply IH; [|exact H1]. intros x Hx. apply Hc. now right.
Qed.

Lemma prepare_kinds : forall fs0 path w w' ok, kinds_kept fs0 (w_fs w) -> prepare_output_dir path w = (w', ok) -> kinds_kept fs0 (w_fs w').
Proof.
  intros fs0 path w w' ok Ht H. unfold prepare_output_dir in H. destruct (String.eqb path ""); [now injection H as <- _|].
  destruct (stat path w); try (injection H as <- _; exact Ht).
  destruct (mkdirs (w_fs w) (lineage path)) as [fs b] eqn:Hm. injection H as <- _. cbn [set_fs w_fs].
  replace fs with (fst (mkdirs (w_fs w) (lineage path))) by (now rewrite Hm). apply mkdirs_kinds; [|exact Ht].
  intros c Hc. now apply (lineage_clean path).
Qed.

Lemma create_kinds : forall fs0 path text w w', kinds_kept fs0 (w_fs w) -> create_write path text w = Some w' -> kinds_kept fs0 (w_fs w').
Proof.
  intros fs0 path text w w' Ht H. unfold create_write in H. destruct (env_create_fail path || String.eqb path ""); [discriminate|].
  assert (Hl : lookup (w_fs w) path <> SDir /\ w' = set_fs (put (clean path) (NFile (env_write path text)) (w_fs w)) w).
  { destruct (lookup (w_fs w) path); try discriminate; destruct (lookup (w_fs w) (dir path)); try discriminate; injection H as <-; split; (discriminate || reflexivity). }
  destruct Hl as [H1 ->]. cbn [set_fs w_fs]. apply put_kinds; [exact Ht|right]. eexists. split; [reflexivity|].
  intros Hg. apply H1. unfold lookup. rewrite Hg. now destruct (implicit_dir (clean path)).
Qed.

Theorem run_kinds : forall d fuel args w, 
  match run d fuel args w with CExit _ _ w' | CNoFuel w' => kinds_kept (w_fs w) (w_fs w') end.
Proof.
  intros d fuel args w. apply (run_kept (kinds_kept (w_fs w)) (prepare_kinds (w_fs w)) (create_kinds (w_fs w))).
  intros c. split; [auto|]. intros b Hb. now exists b.
Qed.

Theorem parse_kinds : forall d fuel o w, kinds_kept (w_fs w) (w_fs (out_world (parse d fuel o w))).
Proof.
  intros d fuel o w. apply (parse_kept (kinds_kept (w_fs w)) (prepare_kinds (w_fs w)) (create_kinds (w_fs w))).
  intros c. split; [auto|]. intros b Hb. now exists b.
Qed.

End Tree.
