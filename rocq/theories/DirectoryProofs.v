(** The tool on a directory of schemas that import and include each other. *)

From Coq Require Import String Ascii List Arith NArith ZArith Bool Lia.
From Verif Require Import GoStr GoPath Base Utils World Handlers Parser Cli SpecStr SpecDoc SpecTables SpecGen SpecOut SpecFile SpecParse SpecCli SpecDecl
  SpecWhole SpecProject ParserProofs FileProofs CliProofs WholeProofs ProjectProofs.
Import ListNotations.
Local Open Scope string_scope.

Lemma needed_separate : forall {E : Env} lang P ext full g, coherent P -> needed lang P ext full g -> separate_file P g.
Proof.
  intros E lang P ext full g Hco H. destruct H as [|file g _ [s [res [res' [many [v [tree [other [_ [[_ [_ [[x [Hx ->]] _]]] _]]]]]]]]]]; [now left|].
  right. now exists (pr_ns P (prefix_part v)), x.
Qed.

Section Directory.
Context {E : Env}.
Variables (d fuel : nat) (f : flags) (l : lang) (P : string -> project) (ext full : string -> string -> list proto) (roots : string -> Prop).
Hypothesis lang_ok : lname l = fl_l f.
Hypothesis apart : run_outputs f l roots P.
Hypothesis formatted : forall x g, roots x -> separate_file (P x) g ->
  ~ unformatted l (o_package (options_for (tool_options f x) (P x) g)) (full x g).

Local Notation op := (fun a : string * string => options_for (tool_options f (fst a)) (P (fst a)) (snd a)).
Local Notation sep := (fun a : string * string => roots (fst a) /\ separate_file (P (fst a)) (snd a)).
Local Notation wsteps := (steps op l sep).

Lemma run_apart : forall a b n p, sep a -> sep b -> output_file (op a) l n -> output_place (op b) p -> ~ In (clean n) (lineage (dir p)).
Proof.
  intros [x a] [y b] n p [Hx Ha] [Hy Hb] Hn Hp. exact (proj2 (proj2 (apart x y a b n Hx Hy Ha Hn) Hb) p Hp).
Qed.

Definition writable (w : World) (x : string) : Prop :=
  forall g, separate_file (P x) g -> can_write (options_for (tool_options f x) (P x) g) l w.

(** A directory or the root of a project. *)
Definition ready (w : World) (x : string) : Prop :=
  stat x w = SDir \/ (roots x /\ root_of d fuel (fl_l f) (P x) (ext x) (full x) x /\ project_files (P x) w /\ writable w x).

Lemma steps_of_project : forall x w w', roots x -> steps (options_for (tool_options f x) (P x)) l (separate_file (P x)) w w' -> wsteps w w'.
Proof.
  intros x w w' Hx H c. destruct (H c) as [Hc|[[H1 [H2 [g [p [H3 [H4 H5]]]]]]|[H1 [H2 [g [n [H3 [H4 H5]]]]]]]]; [now left|right; left|right; right].
  - split; [exact H1|]. split; [exact H2|]. now exists (x, g), p.
  - split; [exact H1|]. split; [exact H2|]. now exists (x, g), n.
Qed.

Lemma steps_ready : forall w w' x, wsteps w w' -> ready w x -> ready w' x.
Proof.
  intros w w' x Hs [Hd|[Hx [Hr [[Hd Hf] Hw]]]]; [left; exact (steps_stat_dir op l sep w w' x Hs Hd)|right].
  split; [exact Hx|]. split; [exact Hr|]. split; [split|].
  - exact (steps_stat_dir op l sep w w' _ Hs Hd).
  - intros file s Hfs. destruct (Hf file s Hfs) as [bytes [Hb H]]. exists bytes. split; [|exact H].
    apply (steps_stat_file op l sep w); auto. intros [y a] n [Hy Ha] Hn. apply (proj1 (apart y x a file n Hy Hx Ha Hn)). congruence.
  - intros g Hg. apply (steps_can_write op l sep run_apart w w' (x, g) Hs); [now split|]. now apply Hw.
Qed.

(** The output of some project for the file. *)
Definition delivered (x g : string) (w : World) : Prop :=
  exists y, roots y /\ separate_file (P y) g /\ (g = x <-> g = y) /\ output_present (tool_options f y) l (P y) g (full y g) w.

Lemma root_stat : forall w x, ready w x -> (exists b, stat x w = SFile b) ->
  roots x /\ root_of d fuel (fl_l f) (P x) (ext x) (full x) x /\ project_files (P x) w /\ writable w x.
Proof. intros w x [Hd|H] [b Hb]; [congruence|exact H]. Qed.

Lemma root_step : forall x w, 0 < d -> ready w x ->
  exists p w', parse d fuel (tool_options f x) (with_new_maps w) = Ret p w' /\ wsteps w w' /\
    (forall b g, stat x w = SFile b -> needed (fl_l f) (P x) (ext x) (full x) g -> delivered x g w') /\
    (forall y g, roots y -> separate_file (P y) g -> delivered y g w -> delivered y g w').
Proof.
  intros x w Hd0 [Hd|[Hx [Hr [Hdisk Hw]]]].
  - exists p_init, (with_new_maps w). split; [|split; [now apply steps_refl|split; [congruence|]]].
    + destruct d as [|d']; [lia|]. cbn [parse]. unfold parse_body. cbn [tool_options o_file o_ps]. change (stat x (with_new_maps w)) with (stat x w).
      now rewrite Hd.
    + intros y g _ _ H. exact H.
  - destruct Hr as [Hroot [Hco [Hde [s [Hs [Hfuel Hdep]]]]]].
    destruct (project_runs d fuel (tool_options f x) l (P x) (ext x) (full x) (with_new_maps w) s) as [p [w' [R1 [_ [R3 [R4 [R5 R6]]]]]]]; auto; try congruence.
    { cbn [tool_options o_lang]. rewrite <- lang_ok. apply selects_self. }
    { intros a b n Ha Hn. destruct (apart x x a b n Hx Hx Ha Hn) as [H1 H2]. split; [exact H1|]. intros Hb. destruct (H2 Hb) as [H3 H4].
      split; [|exact H4]. intros m Hm He. exact (proj1 (H3 m Hm He)). }
    exists p, w'. split; [exact R1|]. split; [exact (steps_of_project x w w' Hx R6)|]. split.
    + intros b g _ Hg. exists x. split; [exact Hx|]. split; [now apply (needed_separate (fl_l f) (P x) (ext x) (full x))|]. split; [reflexivity|]. now apply R4.
    + intros y g Hy Hg [z [Hz [Hgz [Hiff [n [text [Hn [Ht Hk]]]]]]]].
      destruct (R6 (clean n)) as [He|[[He _]|[_ [_ [h [m [Hh [Hm He]]]]]]]].
      * exists z. split; [exact Hz|]. split; [exact Hgz|]. split; [exact Hiff|]. exists n, text. split; [exact Hn|]. split; [exact Ht|].
        rewrite He. exact Hk.
      * cbn [with_new_maps w_fs] in He. congruence.
      * destruct (proj1 (proj2 (apart z x g h n Hz Hx Hgz Hn) Hh) m Hm He) as [<- Hi]. destruct (R5 g Hh) as [Ho|Hsame].
        -- exists x. split; [exact Hx|]. split; [exact Hh|]. split; [tauto|exact Ho].
        -- exists z. split; [exact Hz|]. split; [exact Hgz|]. split; [exact Hiff|]. exists n, text. split; [exact Hn|]. split; [exact Ht|].
           rewrite He, (Hsame m Hm), <- He. exact Hk.
Qed.

Lemma directory_run : forall files w, 0 < d -> (forall x, In x files -> ready w x) ->
  exists w', process d fuel (tool_config f) files w = CExit 0 true w' /\ wsteps w w' /\
    (forall x b g, In x files -> stat x w = SFile b -> needed (fl_l f) (P x) (ext x) (full x) g -> delivered x g w') /\
    (forall y g, roots y -> separate_file (P y) g -> delivered y g w -> delivered y g w').
Proof.
  intros files w Hd0. revert w. induction files as [|x files IH]; intros w Hg; cbn [process].
  - exists w. split; [reflexivity|]. split; [now apply steps_refl|]. split; [intros x b g []|auto].
  - change (file_options (tool_config f) x) with (tool_options f x). change (fresh_maps w) with (with_new_maps w).
    destruct (root_step x w Hd0 (Hg x (or_introl eq_refl))) as [p [w1 [R1 [R2 [R3 R4]]]]]. rewrite R1.
    destruct (IH w1) as [w' [I1 [I2 [I3 I4]]]].
    { intros y Hy. apply (steps_ready w); [exact R2|]. apply Hg. now right. }
    exists w'. split; [exact I1|]. split; [exact (steps_trans op l sep w w1 w' R2 I2)|]. split.
    + intros y b g [<-|Hy] Hb Hn.
      * destruct (root_stat w x (Hg x (or_introl eq_refl))) as [Hx [[_ [Hco _]] _]]; [now exists b|].
        apply I4; [exact Hx|now apply (needed_separate (fl_l f) (P x) (ext x) (full x))|]. now apply (R3 b).
      * destruct (root_stat w y (Hg y (or_intror Hy))) as [Hx [Hr [[_ Hf] _]]]; [now exists b|].
        assert (Hb' : exists b', stat y w1 = SFile b').
        { destruct Hr as [Hroot [_ [_ [s [Hs _]]]]]. destruct (steps_ready w w1 y R2 (Hg y (or_intror Hy))) as [Hd|[_ [_ [[_ Hf1] _]]]].
          - exfalso. destruct (Hf y s Hs) as [b0 [Hb0 _]].
            assert (Hb1 : stat y w1 = SFile b0); [|congruence].
            apply (steps_stat_file op l sep w); auto. intros [z a] n [Hz Ha] Hn'. apply (proj1 (apart z y a y n Hz Hx Ha Hn')). congruence.
          - destruct (Hf1 y s Hs) as [b1 [Hb1 _]]. now exists b1. }
        destruct Hb' as [b' Hb']. now apply (I3 y b').
    + intros y g Hy Hs H. apply I4; auto.
Qed.

End Directory.
