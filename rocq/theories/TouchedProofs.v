(** Proofs for C74. *)

From Coq Require Import String Ascii List NArith Bool Arith Lia.
From Verif Require Import GoStr GoPath Base Utils World Handlers Parser Cli SpecStr SpecTables SpecParse SpecGen SpecOut SpecFile SpecCli SpecTouched StrLemmas StrProofs PathProofs ParseFacts
  FileProofs CliProofs WholeProofs InsideProofs LangParse.
Import ListNotations.
Local Open Scope string_scope.

(** The last characters of a name. *)
Lemma ends_last : forall c a b, ends_with c a -> ends_with c b -> String.length a <= String.length b -> ends_with b a.
Proof.
  intros c a b [p Hp] [q Hq] Hle. revert q Hq. revert c Hp. induction p as [|x p IH]; intros c Hp q Hq.
  - cbn in Hp. subst c. assert (q = "") as ->; [|now exists ""].
    apply (f_equal String.length) in Hq. rewrite length_app_s in Hq. destruct q; [reflexivity|cbn in Hq; lia].
  - destruct q as [|y q]; [cbn in Hq; subst c b; now exists (String x p)|]. subst c. injection Hq as _ Hq. exact (IH _ eq_refl q Hq).
Qed.

Lemma ends_check : forall s e, ends_with s e -> has_suffix s e = true.
Proof. intros s e H. now apply has_suffix_spec. Qed.

Lemma endings_differ : forall c l l', ends_with c (extension l) -> ends_with c (extension l') -> l = l'.
Proof.
  intros c l l' H H'. destruct (Nat.le_ge_cases (String.length (extension l)) (String.length (extension l'))) as [Hle|Hle].
  - pose proof (ends_check _ _ (ends_last c _ _ H H' Hle)) as He. destruct l, l'; try reflexivity; vm_compute in He; discriminate.
  - pose proof (ends_check _ _ (ends_last c _ _ H' H Hle)) as He. destruct l, l'; try reflexivity; vm_compute in He; discriminate.
Qed.

Lemma schema_names : forall c l, ends_with c ".xsd" -> ~ ends_with c (extension l).
Proof.
  intros c l H H'. destruct (Nat.le_ge_cases (String.length (extension l)) 4) as [Hle|Hle].
  - pose proof (ends_check _ _ (ends_last c _ _ H' H Hle)) as He. destruct l; vm_compute in He; discriminate.
  - pose proof (ends_check _ _ (ends_last c _ _ H H' Hle)) as He. destruct l; vm_compute in He; discriminate.
Qed.

Section Touched.
Context {E : Env}.

Lemma touched_trans : forall l c a b d, touched l c a b -> touched l c b d -> touched l c a d.
Proof.
  intros l c a b d [->|[[-> ->]|[H1 [H2 [x ->]]]]] H; [exact H| |].
  - destruct H as [->|[[H _]|[_ [H _]]]]; [right; now left|discriminate|now elim H].
  - destruct H as [->|[[H _]|[_ [_ H]]]]; [right; right; eauto|discriminate|right; right; eauto].
Qed.

Lemma output_ends : forall o l f, output_file o l f -> ends_with (clean f) (extension l).
Proof.
  intros o l f [p [[rel [_ Hp]] Hx]].
  assert (Hext : has_char "/" (extension l) = false /\ 1 < String.length (extension l)) by (destruct l; cbn; split; reflexivity || lia).
  destruct Hext as [E1 E2]. pose proof (join2_clean (o_output o) rel) as Hc. rewrite <- Hp in Hc. clear Hp.
  destruct Hx as [[He ->]|[_ ->]].
  - destruct Hc as [->| ->]; [|exact He]. destruct He as [a He]. apply (f_equal String.length) in He. rewrite length_app_s in He. cbn in He. lia.
  - destruct Hc as [->|Hc]; [exists ""; destruct l; reflexivity|]. destruct (string_dec p ".") as [->|H1]; [exists "."; destruct l; reflexivity|].
    destruct (string_dec p "/") as [->|H2]; [exists "/"; destruct l; reflexivity|].
    exists p. rewrite <- Hc at 1. rewrite clean_extended; try congruence.
Qed.

Lemma change_touched : forall o l pt c a b, selects (o_lang o) l -> output_change o pt c a b -> touched l c a b.
Proof.
  intros o l pt c a b Hl [->|[[p [_ [_ [-> ->]]]]|[l' [f [text [ok [H1 [H2 [_ [-> [H4 ->]]]]]]]]]]]; [now left|right; now left|right; right].
  rewrite <- (selects_unique _ _ _ Hl H1) in H2. split; [exact (output_ends o l f H2)|]. split; [exact H4|eauto].
Qed.

Theorem parse_touched : forall d fuel o w l, o_extract o = false -> selects (o_lang o) l ->
  forall c, touched l c (get c (w_fs w)) (get c (w_fs (out_world (parse d fuel o w)))).
Proof.
  intros d fuel o w l He Hl c. destruct (parse_changes d fuel o w He c) as [->|[[pt [_ H]]|[f [pt [_ [_ [_ H]]]]]]]; [now left| |].
  - exact (change_touched o l pt c _ _ Hl H).
  - exact (change_touched (for_schema o f) l pt c _ _ Hl H).
Qed.

Lemma process_touched : forall d fuel f l files w, lname l = fl_l f ->
  match process d fuel (tool_config f) files w with CExit _ _ w' | CNoFuel w' => forall c, touched l c (get c (w_fs w)) (get c (w_fs w')) end.
Proof.
  intros d fuel f l files w Hl. revert w. induction files as [|x files IH]; intros w; cbn [process]; [now left|].
  change (file_options (tool_config f) x) with (tool_options f x). change (fresh_maps w) with (with_new_maps w).
  pose proof (parse_touched d fuel (tool_options f x) (with_new_maps w) l eq_refl (tool_selects f l Hl x)) as Hp.
  destruct (parse d fuel (tool_options f x) (with_new_maps w)) as [p w1|e w1|[] w1]; try exact Hp. specialize (IH w1).
  destruct (process d fuel (tool_config f) files w1); intros c; exact (touched_trans l c _ _ _ (Hp c) (IH c)).
Qed.

Theorem main_touched : forall d fuel f l w, lname l = fl_l f ->
  match main d fuel f w with CExit _ _ w' | CNoFuel w' => forall c, touched l c (get c (w_fs w)) (get c (w_fs w')) end.
Proof.
  intros d fuel f l w Hl. unfold main. destruct (parse_flags f) as [cf|code] eqn:Hf; [|now left].
  assert (Hcf : cf = tool_config f).
  { unfold parse_flags in Hf. destruct (fl_h f), (fl_v f), (String.eqb (fl_i f) ""), (String.eqb (fl_l f) ""), (negb (in_set (fl_l f) support_lang)); try discriminate.
    injection Hf as <-. unfold tool_config. destruct (String.eqb_spec (fl_p f) ""), (string_dec (fl_p f) ""); reflexivity || contradiction. }
  subst cf. destruct (get_file_list (cf_i (tool_config f)) w) as [files|]; [|now left]. now apply process_touched.
Qed.

End Touched.
