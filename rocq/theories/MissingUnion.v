(** A member of a union whose schema file does not exist (C24). *)

From Coq Require Import String Ascii List Arith NArith ZArith Bool Lia.
From Verif Require Import GoStr GoPath Utf8 Base Utils SpecStr World Handlers Parser StrLemmas StrProofs SpecDoc DocLemmas HandlerProofs DocProofs DocProofs2
  SpecTables SpecParse SpecMissing ParserProofs ParseFacts MembersProofs.
Import ListNotations.
Local Open Scope string_scope.

Lemma no_blank : forall v, ~ (exists a b, v = a ++ " " ++ b) -> has_char " " v = false.
Proof.
  intros v Hn. destruct (has_char " " v) eqn:Hc; [|reflexivity]. exfalso. apply Hn. clear Hn. induction v as [|a v IH]; [discriminate|].
  cbn in Hc. apply orb_true_iff in Hc as [Hc|Hc].
  - apply Ascii.eqb_eq in Hc. subst a. now exists "", v.
  - destruct (IH Hc) as [x [y ->]]. now exists (String a x), y.
Qed.

Lemma split_concat : forall ms, ms <> [] -> Forall (fun x => ~ exists a b, x = a ++ " " ++ b) ms -> split_on " " (String.concat " " ms) = ms.
Proof.
  induction ms as [|m ms IH]; intros Hne H; [contradiction|]. inversion H as [|? ? Hm Hms]; subst. apply no_blank in Hm.
  destruct ms as [|m' ms]; [now apply split_on_no_char|].
  change (String.concat " " (m :: m' :: ms)) with (m ++ String " " (String.concat " " (m' :: ms))).
  rewrite split_on_both, IH by (discriminate || assumption). now rewrite split_on_no_char.
Qed.

Section Union.
Context {E : Env}.

Lemma members_missing : forall d fuel o tree ms v rest w w2 err w3 p, references_resolved d fuel o tree ms w w2 ->
  get_value_type (parse d fuel) fuel o v tree w2 = Fail err w3 ->
  union_members (get_value_type (parse d fuel) fuel o) tree (ms ++ v :: rest)%list p w = Fail err w3.
Proof.
  intros d fuel o tree ms v rest w w2 err w3 p H Hv. revert p. induction H as [w|m ms t w w1 w2 Hm H IH]; intros p; cbn [app union_members].
  - now rewrite Hv.
  - rewrite Hm. cbn [bind]. now apply IH.
Qed.

Lemma union_later : forall d fuel o tree ms v rest w w2 err w3, references_resolved d fuel o tree ms w w2 ->
  get_value_type (parse d fuel) fuel o v tree w2 = Fail err w3 -> Forall (fun x => ~ exists a b, x = a ++ " " ++ b) (ms ++ v :: rest)%list ->
  forall sp l1 l2 p, lacks "memberTypes" l1 ->
  union_attrs (get_value_type (parse d fuel) fuel o) tree (l1 ++ mkAttr sp "memberTypes" (String.concat " " (ms ++ v :: rest)%list) :: l2)%list p w = Fail err w3.
Proof.
  intros d fuel o tree ms v rest w w2 err w3 H Hv Hb sp l1 l2. induction l1 as [|x l1 IH]; intros p Hl.
  - cbn [app union_attrs a_local a_value]. cbn [String.eqb Ascii.eqb Bool.eqb]. rewrite split_concat by (assumption || now destruct ms).
    now rewrite (members_missing d fuel o tree ms v rest w w2 err w3 p H Hv).
  - apply lacks_cons in Hl as [Hx Hl]. cbn [app union_attrs]. rewrite Hx. now apply IH.
Qed.

Theorem missing_member : forall d fuel o w bytes before local l1 sp l2 ms v rest after q w1 w2 file,
  o_extract o = false -> stat (o_file o) w = SFile bytes -> env_open_fail (o_file o) = false ->
  env_tokens bytes = (before ++ TStart local (l1 ++ mkAttr sp "memberTypes" (String.concat " " (ms ++ v :: rest)) :: l2) :: after)%list ->
  tag "Union" local = true -> in_place before local -> lacks "memberTypes" l1 -> Forall (fun x => ~ exists a b, x = a ++ " " ++ b) (ms ++ v :: rest)%list ->
  run_tokens (get_value_type (parse d fuel) fuel o) before p_init (register o (freeze (o_ps o)) w) = Ret q w1 ->
  references_resolved d fuel o (freeze q) ms w1 w2 -> missing_reference o v (freeze q) w2 file ->
  parse (S d) fuel o w = Fail (EStat file) w2.
Proof.
  intros d fuel o w bytes before local l1 sp l2 ms v rest after q w1 w2 file He Hs Ho Ht Htag Hin Hl Hb Hrun Hms Hm.
  cbn [parse]. unfold parse_body. rewrite Hs, Ho. cbv zeta. rewrite He, Ht.
  set (gvt := get_value_type (parse d fuel) fuel o) in *.
  rewrite (run_app_fail _ _ _ _ _ _ q w1 (EStat file) w2 Hrun); [reflexivity|].
  assert (Hg : gvt v (freeze q) w2 = Fail (EStat file) w2) by now apply gvt_missing.
  assert (Hsimple : p_simple q <> []).
  { destruct (Hin (or_intror Htag)) as [b [st [ls [sp' [-> [Hst Hsp]]]]]]. rewrite run_tokens_app in Hrun.
    destruct (run_tokens gvt b p_init _) as [q0 w0|e0 w0|c0 w0]; try discriminate. cbn [bind run_tokens] in Hrun.
    rewrite (start_dispatch gvt "SimpleType") in Hrun by (exact Hst || known). cbn -[on_simple_type] in Hrun. unfold on_simple_type in Hrun.
    cbn [bind] in Hrun. rewrite spacing_all in Hrun by exact Hsp. injection Hrun as <- _. cbn. now destruct (p_simple q0). }
  rewrite (start_dispatch gvt _ local _ _ _ Htag) by known; cbn [String.eqb Ascii.eqb Bool.eqb]; cbv zeta.
  unfold on_union. cbv zeta. change (p_simple (set_in_union true (set_in_element local q))) with (p_simple q).
  destruct (p_simple q) as [|s ss]; [contradiction|]. cbn [nonempty].
  change (freeze (set_in_union true (set_in_element local q))) with (freeze q).
  now rewrite (union_later d fuel o (freeze q) ms v rest w1 w2 (EStat file) w2 Hms Hg Hb sp l1 l2 _ Hl).
Qed.

End Union.
