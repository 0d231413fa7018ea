(** The effect of a parse on the file system meets SpecFile.v. *)

From Coq Require Import String Ascii List NArith Bool Lia.
From Verif Require Import GoStr GoPath Utf8 Base Utils World Handlers Parser StrLemmas SpecStr SpecDoc SpecTables SpecGen SpecOut
  Effects SpecFile SpecParse StrProofs DocLemmas ParserProofs ParseFacts GenOutline GenRun GenNames GenRuns.
Import ListNotations.
Local Open Scope string_scope.

Section Files.
Context {E : Env}.

Lemma selects_title : forall name l, selects name l <-> to_title name = lname l.
Proof.
  intros name l. unfold selects. rewrite tag_wf by (destruct l; apply ascii_well_formed; vm_compute; reflexivity).
  apply String.eqb_eq.
Qed.

Lemma selects_unique : forall name l l', selects name l -> selects name l' -> l = l'.
Proof. intros name l l' H H'. apply selects_title in H, H'. rewrite H in H'. now destruct l, l'. Qed.

Lemma relative_trim : forall input file, relative input file (trim_prefix file input).
Proof.
  intros input file. unfold trim_prefix. destruct (strip_prefix input file) as [r|] eqn:H.
  - left. now apply strip_prefix_spec.
  - right. split; [reflexivity|]. intros [r Hr]. apply (strip_prefix_spec input) in Hr. congruence.
Qed.

Lemma relative_unique : forall input file rel rel', relative input file rel -> relative input file rel' -> rel = rel'.
Proof.
  intros input file rel rel' [H|[-> H]] [H'|[-> H']]; [|elim H'; now exists rel|elim H; now exists rel'|reflexivity].
  rewrite H in H'. rewrite <- (trim_prefix_app input rel), H'. apply trim_prefix_app.
Qed.

Lemma place_spec : forall o p, output_place o p <-> p = output_path o.
Proof.
  intros o p. split.
  - intros [rel [Hr ->]]. unfold output_path. now rewrite (relative_unique _ _ _ _ Hr (relative_trim _ _)).
  - intros ->. exists (trim_prefix (o_file o) (o_input o)). split; [apply relative_trim|reflexivity].
Qed.

Lemma dotted_ext : forall l, dotted (extension l) = extension l.
Proof. now destruct l. Qed.

Lemma with_extension_spec : forall p l f, with_extension p (extension l) f <-> f = file_with_extension p (extension l).
Proof.
  intros p l f. rewrite file_with_extension_eq, dotted_ext. unfold with_extension.
  pose proof (has_suffix_spec p (extension l)) as Hs. destruct (has_suffix p (extension l)) eqn:He.
  - assert (Hw : ends_with p (extension l)) by (now apply Hs). split; [intros [[_ H]|[H _]]; [exact H|now elim H]|now left].
  - assert (Hw : ~ ends_with p (extension l)) by (intros H; apply Hs in H; discriminate).
    split; [intros [[H _]|[_ H]]; [now elim Hw|exact H]|now right].
Qed.

Lemma output_file_spec : forall o l f, output_file o l f <-> f = file_with_extension (output_path o) (extension l).
Proof.
  intros o l f. split.
  - intros [p [Hp Hf]]. apply place_spec in Hp as ->. now apply with_extension_spec.
  - intros H. exists (output_path o). split; [now apply place_spec|now apply with_extension_spec].
Qed.

Lemma body_source : forall l pkg pt, source_of l pkg pt (preamble l pkg (imports pt) ++ g_field (run_entries (entry_of l) pt)).
Proof. intros l pkg pt. eexists. split; [reflexivity|]. intros H1 H2. now apply outline_of_run. Qed.

Lemma written_file : forall name pkg pt ext text ok, written name pkg pt ext text ok ->
  exists l, selects name l /\ ext = extension l /\ file_text l pkg pt text ok.
Proof.
  intros name pkg pt ext text ok H. destruct (written_text name pkg pt ext text ok H) as [l [Hl [He Ht]]].
  exists l. split; [now apply selects_title|]. split; [exact He|]. eexists. split; [apply body_source|]. cbv zeta in Ht.
  destruct ok.
  - destruct (string_dec (lname l) "Go") as [Hg|Hg]; [now destruct l|]. destruct l; [now elim Hg|exact Ht..].
  - destruct Ht as [-> Ht]. exact Ht.
Qed.

Lemma written_exists : forall name pkg pt l, selects name l -> exists text ok, written name pkg pt (extension l) text ok.
Proof.
  intros name pkg pt l Hl. apply selects_title in Hl. unfold written. rewrite Hl. destruct l.
  - destruct (env_gofmt (GenGo.go_source pkg (run_entries GenGo.go_entry pt))) as [t|] eqn:Hg.
    + exists t, true. left. split; [reflexivity|]. split; reflexivity.
    + eexists. exists false. left. split; [reflexivity|]. split; [reflexivity|]. split; reflexivity.
  - eexists. exists true. right. split; [reflexivity|]. left. split; [reflexivity|]. split; reflexivity.
  - eexists. exists true. right. split; [reflexivity|]. right. left. split; [reflexivity|]. split; reflexivity.
  - eexists. exists true. right. split; [reflexivity|]. right. right. left. split; [reflexivity|]. split; reflexivity.
  - eexists. exists true. right. split; [reflexivity|]. right. right. right. split; [reflexivity|]. split; reflexivity.
Qed.

Lemma target_spec : forall o c, target o c <-> exists l f, selects (o_lang o) l /\ output_file o l f /\ c = clean f.
Proof.
  intros o c. split.
  - intros [pt [ext [text [ok [Hw ->]]]]]. destruct (written_file _ _ _ _ _ _ Hw) as [l [Hl [-> _]]].
    exists l, (file_with_extension (output_path o) (extension l)). split; [exact Hl|]. split; [now apply output_file_spec|reflexivity].
  - intros [l [f [Hl [Hf ->]]]]. apply output_file_spec in Hf as ->.
    destruct (written_exists (o_lang o) (o_package o) [] l Hl) as [text [ok Hw]].
    exists [], (extension l), text, ok. split; [exact Hw|reflexivity].
Qed.

Lemma effect_change : forall o pt c n n', node_effect o pt c n n' -> output_change o pt c n n'.
Proof.
  intros o pt c n n' [H|[[H1 H2]|[ext [text [ok [Hw [Hc Hn]]]]]]]; [now left|right; left|right; right].
  - exists (output_path o). split; [now apply place_spec|]. now split.
  - destruct (written_file _ _ _ _ _ _ Hw) as [l [Hl [-> Ht]]].
    exists l, (file_with_extension (output_path o) (extension l)), text, ok.
    split; [exact Hl|]. split; [now apply output_file_spec|]. split; [exact Ht|]. split; [exact Hc|exact Hn].
Qed.

Lemma nested_for : forall o f, nested o f false = for_schema o f.
Proof. reflexivity. Qed.

(** * Whole parses *)

Theorem parse_changes : forall d fuel o w, o_extract o = false ->
  let w' := out_world (parse d fuel o w) in
  forall c, get c (w_fs w') = get c (w_fs w) \/
    (exists pt, get (o_file o) (w_pmap w') = Some pt /\ output_change o pt c (get c (w_fs w)) (get c (w_fs w'))) \/
    exists f pt, f <> o_file o /\ get f (w_pmap w) = None /\ get f (w_pmap w') = Some pt /\
      output_change (for_schema o f) pt c (get c (w_fs w)) (get c (w_fs w')).
Proof.
  intros d fuel o w He w' c. destruct (parse_effects d fuel o w He) as [_ [_ H]].
  destruct (H c) as [Heq|[[pt [Hp Hn]]|[g [pt [H1 [H2 [H3 Hn]]]]]]].
  - now left.
  - right. left. exists pt. split; [exact Hp|]. now apply effect_change.
  - right. right. exists g, pt. do 3 (split; [assumption|]). rewrite nested_for in Hn. now apply effect_change.
Qed.

Theorem single_changes : forall d fuel o w bytes, o_extract o = false ->
  stat (o_file o) w = SFile bytes -> stat (join2 (o_dir o) "") w = SDir ->
  w_nsl w = [] -> w_inc w = [] -> self_contained (env_tokens bytes) -> fuel <> 0 ->
  let w' := out_world (parse d fuel o w) in
  forall c, get c (w_fs w') = get c (w_fs w) \/
    exists pt, get (o_file o) (w_pmap w') = Some pt /\ output_change o pt c (get c (w_fs w)) (get c (w_fs w')).
Proof.
  intros d fuel o w bytes He Hs Hd Hn Hi Hsc Hf w' c.
  destruct (single_effects d fuel o w bytes He Hs Hd Hn Hi Hsc Hf) as [_ H].
  destruct (H c) as [Heq|[pt [Hp Hc]]]; [now left|right]. exists pt. split; [exact Hp|]. now apply effect_change.
Qed.

Theorem parse_writes : forall d fuel o w bytes p w' l, o_extract o = false -> stat (o_file o) w = SFile bytes ->
  parse d fuel o w = Ret p w' -> selects (o_lang o) l ->
  exists f text, output_file o l f /\ file_text l (o_package o) (freeze p) text true /\
    get (clean f) (w_fs w') = Some (NFile (env_write f text)).
Proof.
  intros d fuel o w bytes p w' l He Hs Hp Hl.
  destruct (written_exists (o_lang o) (o_package o) (freeze p) l Hl) as [text [ok Hw]].
  destruct (parse_success d fuel o w bytes p w' He Hs Hp) as [_ H]. destruct (H _ _ _ Hw) as [-> Hg].
  exists (file_with_extension (output_path o) (extension l)), text. split; [now apply output_file_spec|]. split; [|exact Hg].
  destruct (written_file _ _ _ _ _ _ Hw) as [l' [Hl' [_ Ht]]]. now rewrite (selects_unique _ _ _ Hl Hl').
Qed.

Theorem bad_occurs_changes : forall d fuel o w bytes t, stat (o_file o) w = SFile bytes ->
  In t (env_tokens bytes) -> bad_occurs t ->
  (forall p w', parse d fuel o w <> Ret p w') /\
  (o_extract o = false -> forall c, get c (w_fs (out_world (parse d fuel o w))) = get c (w_fs w) \/
    exists f pt, f <> o_file o /\ get f (w_pmap w) = None /\ get f (w_pmap (out_world (parse d fuel o w))) = Some pt /\
      output_change (for_schema o f) pt c (get c (w_fs w)) (get c (w_fs (out_world (parse d fuel o w))))).
Proof.
  intros d fuel o w bytes t Hs Ht Hb. destruct (bad_occurs_fails d fuel o w bytes t Hs Ht Hb) as [H1 H2]. split; [exact H1|].
  intros He c. destruct (H2 He c) as [H|[f [pt [Hf [Hw [Hp Hn]]]]]]; [now left|right]. exists f, pt.
  do 3 (split; [assumption|]). rewrite nested_for in Hn. now apply effect_change.
Qed.

(** * Code generators *)

Theorem generate_writes : forall name pkg file pt w u w' l, generate name pkg file pt w = Ret u w' -> selects name l ->
  exists f text, with_extension file (extension l) f /\ file_text l pkg pt text true /\
    get (clean f) (w_fs w) <> Some NDir /\ w_fs w' = put (clean f) (NFile (env_write f text)) (w_fs w).
Proof.
  intros name pkg file pt w u w' l Hg Hl. destruct (written_exists name pkg pt l Hl) as [t0 [ok0 Hw0]].
  pose proof (generate_effect name pkg file pt w) as H. cbv zeta in H. rewrite Hg in H. cbn [out_world] in H.
  destruct H as [_ [_ [_ [_ [_ [_ [_ [[_ H]|[ext [text [ok [Hw [Hok [Hd Hf]]]]]]]]]]]]]].
  - elim (H u w' eq_refl _ _ _ Hw0).
  - assert (Ht : ok = true) by (apply Hok; eauto). subst ok.
    destruct (written_file _ _ _ _ _ _ Hw) as [l' [Hl' [-> Ht]]]. rewrite <- (selects_unique _ _ _ Hl Hl') in *.
    exists (file_with_extension file (extension l)), text. split; [now apply with_extension_spec|]. now split.
Qed.

Theorem generate_failed : forall name pkg file pt w e w', generate name pkg file pt w = Fail e w' ->
  exists l f, selects name l /\ with_extension file (extension l) f /\
    (w_fs w' = w_fs w \/
     l = Go /\ exists text, file_text l pkg pt text false /\ w_fs w' = put (clean f) (NFile (env_write f text)) (w_fs w)).
Proof.
  intros name pkg file pt w e w' Hg. pose proof (generate_effect name pkg file pt w) as H. cbv zeta in H. rewrite Hg in H.
  cbn [out_world] in H.
  assert (Hl : exists l, selects name l).
  { revert Hg. unfold generate. setoid_rewrite selects_title.
    destruct (String.eqb_spec (to_title name) "Go") as [->|_]; [now exists Go|].
    destruct (String.eqb_spec (to_title name) "C") as [->|_]; [now exists C|].
    destruct (String.eqb_spec (to_title name) "Java") as [->|_]; [now exists Java|].
    destruct (String.eqb_spec (to_title name) "Rust") as [->|_]; [now exists Rust|].
    destruct (String.eqb_spec (to_title name) "TypeScript") as [->|_]; [now exists TypeScript|discriminate]. }
  destruct Hl as [l Hl]. exists l, (file_with_extension file (extension l)).
  split; [exact Hl|]. split; [now apply with_extension_spec|].
  destruct H as [_ [_ [_ [_ [_ [_ [_ [[Hf _]|[ext [text [ok [Hw [Hok [_ Hf]]]]]]]]]]]]]]; [now left|right].
  destruct (written_file _ _ _ _ _ _ Hw) as [l' [Hl' [-> Ht]]]. rewrite <- (selects_unique _ _ _ Hl Hl') in *.
  assert (ok = false) as -> by (destruct ok; [destruct (proj1 Hok eq_refl) as [u [v H]]; discriminate|reflexivity]).
  destruct Ht as [s [Hs Ht]]. destruct l; try now destruct Ht. split; [reflexivity|].
  exists text. split; [|exact Hf]. now exists s.
Qed.

(** For a language other than Go the only failure is a file that cannot be made. *)
Theorem generate_plain : forall name pkg file pt w l, selects name l -> l <> Go ->
  exists s f w0, source_of l pkg pt s /\ with_extension file (extension l) f /\ w_fs w0 = w_fs w /\
    generate name pkg file pt w = match create_write f s w0 with Some w' => Ret tt w' | None => Fail (ECreate f) w0 end.
Proof.
  intros name pkg file pt w l Hl Hg. apply selects_title in Hl.
  destruct (plain_outcome l name pkg file pt w Hg Hl) as [w0 [Hw H]].
  exists (preamble l pkg (imports pt) ++ g_field (run_entries (entry_of l) pt)), (file_with_extension file (extension l)), w0.
  split; [apply body_source|]. split; [now apply with_extension_spec|]. split; [exact Hw|exact H].
Qed.

Theorem generate_unknown : forall name pkg file pt w, (forall l, ~ selects name l) -> generate name pkg file pt w = Ret tt w.
Proof.
  intros name pkg file pt w H. unfold generate. pose proof (fun l Hl => H l (proj2 (selects_title name l) Hl)) as K.
  repeat match goal with |- context [String.eqb (to_title name) ?s] =>
    destruct (String.eqb_spec (to_title name) s) as [He|_]; [exfalso|] end; [..|reflexivity].
  - now apply (K Go).
  - now apply (K C).
  - now apply (K Java).
  - now apply (K Rust).
  - now apply (K TypeScript).
Qed.

(** * Places *)

Theorem change_where : forall o pt c n n', output_change o pt c n n' -> n' <> n ->
  (exists p, output_place o p /\ In c (lineage (dir p))) \/
  exists l f, selects (o_lang o) l /\ output_file o l f /\ c = clean f.
Proof.
  intros o pt c n n' [->|[[p [Hp [Hc _]]]|[l [f [text [ok [Hl [Hf [_ [Hc _]]]]]]]]]] Hne; [now elim Hne|left; eauto|right; eauto 6].
Qed.

Theorem file_inside : forall o rel l f, o_output o <> "" -> relative (o_input o) (o_file o) rel ->
  (forall x, In x (split_on "/" rel) -> x <> "..") -> (exists x, In x (split_on "/" rel) /\ x <> "" /\ x <> ".") ->
  selects (o_lang o) l -> output_file o l f -> inside (o_output o) (clean f).
Proof.
  intros o rel l f Ho Hr H1 H2 Hl Hf. rewrite (relative_unique _ _ _ _ Hr (relative_trim _ _)) in *.
  apply output_inside; [exact Ho|exact H1|exact H2|]. apply target_spec. exists l, f. auto.
Qed.

End Files.
