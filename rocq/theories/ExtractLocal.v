(** A token is read with lookups in the components that are there before it. *)

From Coq Require Import String Ascii List Arith NArith ZArith Bool Lia.
From Verif Require Import GoStr GoPath Base SpecStr Utils World Handlers Parser SpecDoc SpecTables SpecParse SpecLang SpecExtract
  DocLemmas Reify TableProofs ParserProofs ParseFacts LangProofs LangParse.
Import ListNotations.
Local Open Scope string_scope.

Section Tokens.
Context {E : Env}.
Variables (gvt gvt' : resolver) (tree : list proto).
Hypothesis Hg : forall v w, gvt v tree w = gvt' v tree w.

Ltac walk IH :=
  repeat match goal with
  | |- context [gvt ?v tree ?w] => rewrite (Hg v w)
  | |- bind ?m _ = bind ?m _ => destruct m; cbn [bind]; [|reflexivity|reflexivity]
  | |- (if ?b then _ else _) = (if ?b then _ else _) => destruct b
  | |- match ?b with _ => _ end = match ?b with _ => _ end => destruct b
  | |- _ => apply IH
  | |- _ => reflexivity
  end.

Lemma l_attribute : forall l a w, attribute_attrs gvt tree l a w = attribute_attrs gvt' tree l a w.
Proof. induction l as [|x r IH]; intros a w; cbn; [reflexivity|]. walk IH. Qed.
Lemma l_attrgroup : forall l a w, attrgroup_attrs gvt tree l a w = attrgroup_attrs gvt' tree l a w.
Proof. induction l as [|x r IH]; intros a w; cbn; [reflexivity|]. walk IH. Qed.
Lemma l_element : forall l a w, element_attrs gvt tree l a w = element_attrs gvt' tree l a w.
Proof. induction l as [|x r IH]; intros a w; cbn; [reflexivity|]. walk IH. Qed.
Lemma l_extension : forall l a w, extension_attrs gvt tree l a w = extension_attrs gvt' tree l a w.
Proof. induction l as [|x r IH]; intros a w; cbn; [reflexivity|]. walk IH. Qed.
Lemma l_group : forall l a w, group_attrs gvt tree l a w = group_attrs gvt' tree l a w.
Proof. induction l as [|x r IH]; intros a w; cbn; [reflexivity|]. walk IH. Qed.
Lemma l_list : forall l a w, list_attrs gvt tree l a w = list_attrs gvt' tree l a w.
Proof. induction l as [|x r IH]; intros a w; cbn; [reflexivity|]. walk IH. Qed.
Lemma l_restriction : forall l a w, restriction_attrs gvt tree l a w = restriction_attrs gvt' tree l a w.
Proof. induction l as [|x r IH]; intros a w; cbn; [reflexivity|]. walk IH. Qed.
Lemma l_members : forall l a w, union_members gvt tree l a w = union_members gvt' tree l a w.
Proof. induction l as [|x r IH]; intros a w; cbn; [reflexivity|]. walk IH. Qed.
Lemma l_union : forall l a w, union_attrs gvt tree l a w = union_attrs gvt' tree l a w.
Proof. induction l as [|x r IH]; intros a w; cbn; [reflexivity|]. rewrite l_members. walk IH. Qed.
Lemma l_to_attribute : forall b p w, freeze p = tree -> base_to_attribute gvt b p w = base_to_attribute gvt' b p w.
Proof. intros b p w H. unfold base_to_attribute. destruct (p_attribute p), (p_simple p); try reflexivity. now rewrite H, Hg. Qed.
Lemma l_to_element : forall b p w, freeze p = tree -> base_to_element gvt b p w = base_to_element gvt' b p w.
Proof. intros b p w H. unfold base_to_element. destruct (p_element p), (p_simple p); try reflexivity. now rewrite H, Hg. Qed.
Lemma attribute_frozen : forall (g : resolver) b p w q w', base_to_attribute g b p w = Ret q w' -> freeze q = freeze p.
Proof.
  intros g b p w q w' H. unfold base_to_attribute in H. destruct (p_attribute p), (p_simple p); try (injection H as <- _; reflexivity).
  destruct (g _ _ _) as [t w1|e w1|c w1]; cbn [bind] in H; [|discriminate|discriminate]. injection H as <- _. reflexivity.
Qed.
Lemma l_both : forall b p w, freeze p = tree ->
  bind (base_to_attribute gvt b p w) (base_to_element gvt b) = bind (base_to_attribute gvt' b p w) (base_to_element gvt' b).
Proof.
  intros b p w H. rewrite (l_to_attribute b p w H). destruct (base_to_attribute gvt' b p w) as [q w1|e w1|c w1] eqn:Hb; cbn [bind]; [|reflexivity|reflexivity].
  apply l_to_element. rewrite (attribute_frozen _ _ _ _ _ _ Hb). exact H.
Qed.

Lemma token_local : forall t p w, freeze p = tree -> on_token gvt t p w = on_token gvt' t p w.
Proof.
  intros [local l|local|data|] p w Hp; cbn [on_token]; [| |reflexivity|reflexivity].
  - unfold dispatch_start. cbv zeta. assert (Hq : freeze (set_in_element local p) = tree) by exact Hp.
    set (q := set_in_element local p) in *. clearbody q.
    repeat match goal with |- (if ?b then _ else _) = (if ?b then _ else _) => destruct b; [try reflexivity|] end; try reflexivity.
    + unfold on_attribute. now rewrite Hq, l_attribute.
    + unfold on_attribute_group. now rewrite Hq, l_attrgroup.
    + unfold on_element. rewrite Hq, l_element. destruct (element_attrs gvt' tree l zero_element w) as [e w1|e w1|c w1]; cbn [bind]; try reflexivity.
      cbv zeta. destruct (String.eqb (el_type e) ""); [now rewrite Hg|reflexivity].
    + unfold on_extension. rewrite Hq. apply l_extension.
    + unfold on_group. now rewrite Hq, l_group.
    + unfold on_list. rewrite Hq. destruct (nonempty _); [apply l_list|reflexivity].
    + unfold on_restriction. rewrite Hq. apply l_restriction.
    + unfold on_union. cbv zeta. destruct (nonempty _); [|reflexivity]. match goal with |- union_attrs _ ?t _ _ _ = _ => change t with (freeze q) end. rewrite Hq. apply l_union.
  - unfold dispatch_end. cbv zeta.
    repeat match goal with |- (if ?b then _ else _) = (if ?b then _ else _) => destruct b; [try reflexivity|] end; try reflexivity.
    + now apply l_both.
    + now apply l_to_attribute.
    + now apply l_both.
    + unfold end_restriction. now rewrite l_to_attribute.
    + now apply l_to_element.
Qed.

End Tokens.

Section Run.
Context {E : Env}.

Definition extracts (o : Options) : resolver := get_value_type (fun _ w => Crash NoFuel w) 0 (extracting o).

Lemma extracts_any : forall rec fuel o v t w, get_value_type rec fuel (extracting o) v t w = extracts o v t w.
Proof.
  intros rec fuel o v t w. unfold extracts, get_value_type. cbv zeta. destruct (get_build_in_type _ _); [reflexivity|].
  destruct (negb _ && negb _); reflexivity.
Qed.

Lemma first_or_none : forall n t, get_base n t = "" -> n <> "" -> first_gives n t "".
Proof.
  intros n t H Hn. destruct (get_base_spec n t) as [H1 [H2 [[u [H3|[H3 ->]]] _]]].
  - rewrite <- H at 1. rewrite (H1 u H3). exact H3.
  - rewrite (H2 H3) in H. contradiction.
Qed.

Lemma extracts_plain : forall o t, (forall n, ~ first_gives n t "") -> forall v w, extracts o v t w = gp (o_lang o) v t w.
Proof.
  intros o t Ht v w. unfold extracts, get_value_type, gp, plain. cbv zeta. cbn [o_lang o_extract extracting].
  destruct (get_build_in_type _ _); [reflexivity|]. set (n := trim_ns_prefix v).
  destruct (String.eqb_spec (get_base n t) n) as [H1|H1]; cbn [negb andb]; [now rewrite H1|].
  destruct (String.eqb_spec (get_base n t) "") as [H2|H2]; cbn [negb]; [|reflexivity].
  exfalso. apply (Ht n). apply first_or_none; [exact H2|]. intros ->. now rewrite H2 in H1.
Qed.

Lemma run_join : forall (g : resolver) a b p w, run_tokens g (a ++ b)%list p w = bind (run_tokens g a p w) (fun q w => run_tokens g b q w).
Proof.
  intros g a b. induction a as [|t a IH]; intros p w; [reflexivity|]. cbn [app run_tokens].
  destruct (on_token g t p w); cbn [bind]; [apply IH|reflexivity|reflexivity].
Qed.

(** [done] has been read. *)
Lemma run_typed : forall o ts, typed_throughout o ts -> forall rest done p w v, ts = (done ++ rest)%list ->
  run_tokens (extracts o) done p_init v = Ret p w -> run_tokens (extracts o) rest p w = run_tokens (gp (o_lang o)) rest p w.
Proof.
  intros o ts Ht rest. induction rest as [|t rest IH]; intros done p w v Hts Hd; [reflexivity|]. cbn [run_tokens].
  rewrite (token_local (extracts o) (gp (o_lang o)) (freeze p)) by (try reflexivity; apply extracts_plain; exact (Ht done _ p v w Hts Hd)).
  destruct (on_token (gp (o_lang o)) t p w) as [q w1|e w1|c w1] eqn:Hq; cbn [bind]; [|reflexivity|reflexivity].
  apply (IH (done ++ [t])%list q w1 v); [now rewrite <- app_assoc|].
  rewrite run_join, Hd. cbn [bind run_tokens].
  rewrite (token_local (extracts o) (gp (o_lang o)) (freeze p)) by (try reflexivity; apply extracts_plain; exact (Ht done _ p v w Hts Hd)).
  now rewrite Hq.
Qed.

Lemma extracts_worlds : forall o ts p w w', sim_out (fun _ _ => True) eq (run_tokens (extracts o) ts p w) (run_tokens (extracts o) ts p w').
Proof.
  intros o ts p w w'. apply run_sim; [easy| |easy]. intros v t u u' _. unfold extracts, get_value_type. cbv zeta.
  destruct (get_build_in_type _ _); [now constructor|]. destruct (negb _ && negb _); now constructor.
Qed.

Lemma parse_extracts : forall d fuel o w bytes, stat (o_file o) w = SFile bytes -> env_open_fail (o_file o) = false ->
  parse (S d) fuel (extracting o) w = run_tokens (extracts o) (env_tokens bytes) p_init w.
Proof.
  intros d fuel o w bytes Hs Ho. cbn [parse]. unfold parse_body. cbn [o_file extracting o_extract]. rewrite Hs, Ho.
  rewrite (run_ext _ (extracts o)) by (intros; apply extracts_any).
  destruct (run_tokens _ _ _ _); cbn [bind]; [|reflexivity|reflexivity]. now apply finish_extract.
Qed.

Theorem extract_same : forall d fuel d' fuel' o w w' bytes, o_extract o = false -> fuel <> 0 ->
  stat (o_file o) w = SFile bytes -> stat (o_file o) w' = SFile bytes -> env_open_fail (o_file o) = false ->
  self_contained (env_tokens bytes) -> typed_throughout o (env_tokens bytes) ->
  w_nsl w = [] -> w_inc w = [] -> stat (join2 (dir (o_file o)) "") w = SDir ->
  match parse (S d') fuel' (extracting o) w' with
  | Ret q _ => exists v, parse (S d) fuel o w = finish o q v /\ w_fs v = w_fs w
  | Fail e _ => exists v, parse (S d) fuel o w = Fail e v /\ w_fs v = w_fs w
  | Crash c _ => exists v, parse (S d) fuel o w = Crash c v /\ w_fs v = w_fs w
  end.
Proof.
  intros d fuel d' fuel' o w w' bytes He Hf Hs Hs' Ho Hc Ht A1 A2 A3.
  rewrite (parse_extracts d' fuel' o w' bytes Hs' Ho).
  rewrite (parse_reads d fuel o w bytes He Hf Hs Ho Hc (conj A1 (conj A2 A3))). unfold reads.
  set (u := register o (freeze (o_ps o)) w).
  rewrite <- (run_typed o _ Ht (env_tokens bytes) [] p_init u u eq_refl eq_refl).
  assert (Hk : w_fs (out_world (run_tokens (extracts o) (env_tokens bytes) p_init u)) = w_fs w).
  { change (w_fs w) with (w_fs u). apply (run_rel (fun a b => w_fs b = w_fs a)); [reflexivity|congruence| |].
    - intros op x _. destruct op; reflexivity.
    - intros v t x. unfold extracts, get_value_type. cbv zeta. destruct (get_build_in_type _ _); [reflexivity|]. destruct (negb _ && negb _); reflexivity. }
  pose proof (extracts_worlds o (env_tokens bytes) p_init w' u) as H.
  destruct (run_tokens (extracts o) (env_tokens bytes) p_init u) as [q2 v|e2 v|c2 v]; inversion H; subst; cbn [bind out_world] in *; exists v; auto.
Qed.

(** Checking a given document. *)
Definition typedb (q : proto) : bool :=
  match q with
  | PSimple v => st_list v || st_union v || negb (String.eqb (st_base v) "")
  | PAttribute v => negb (String.eqb (at_type v) "")
  | PElement v => negb (String.eqb (el_type v) "")
  | _ => true
  end.

Lemma typed_tree : forall t, forallb typedb t = true -> forall n, ~ first_gives n t "".
Proof.
  intros t H n [a [q [b [-> [Hq _]]]]]. rewrite forallb_app in H. apply andb_true_iff in H as [_ H]. cbn [forallb] in H. apply andb_true_iff in H as [H _].
  assert (Hx : forall u, gives n q u -> u = "" -> typedb q = false).
  { intros u [v A B C|v A|v A] Hz; cbn [typedb]; [rewrite A, B, Hz|rewrite Hz|rewrite Hz]; reflexivity. }
  rewrite (Hx "" Hq eq_refl) in H. discriminate.
Qed.

Lemma typed_check : forall o ts w0, forallb (fun k => match run_tokens (extracts o) (firstn k ts) p_init w0 with Ret p _ => forallb typedb (freeze p) | _ => true end)
    (seq 0 (S (length ts))) = true -> typed_throughout o ts.
Proof.
  intros o ts w0 H before after p w w' Hts Hr. apply typed_tree. rewrite forallb_forall in H.
  specialize (H (length before)). rewrite Hts in H at 2. rewrite firstn_app, Nat.sub_diag, firstn_all in H. cbn [firstn] in H. rewrite app_nil_r in H.
  pose proof (extracts_worlds o before p_init w w0) as Hs. unfold extracts at 1 in Hs. rewrite Hr in Hs. inversion Hs as [a b x y Hab _ Ha Hb| |]; subst.
  rewrite <- Hb in H. apply H. apply in_seq. rewrite app_length. lia.
Qed.

Theorem extract_exact : forall d fuel d' fuel' o w w' bytes, o_extract o = false -> fuel <> 0 ->
  stat (o_file o) w = SFile bytes -> stat (o_file o) w' = SFile bytes -> env_open_fail (o_file o) = false ->
  self_contained (env_tokens bytes) -> typed_throughout o (env_tokens bytes) ->
  w_nsl w = [] -> w_inc w = [] -> stat (join2 (dir (o_file o)) "") w = SDir ->
  let full := parse (S d) fuel o w in let types := parse (S d') fuel' (extracting o) w' in
  (forall q v, full = Ret q v -> exists v', types = Ret q v') /\
  (forall q v', types = Ret q v' -> get (o_file o) (w_pmap (out_world full)) = Some (freeze q)) /\
  (forall x, (exists v, full = Fail (EAtoi x) v) <-> exists v', types = Fail (EAtoi x) v') /\
  ((exists v, full = Crash Panic v) <-> exists v', types = Crash Panic v').
Proof.
  intros d fuel d' fuel' o w w' bytes He Hf Hs Hs' Ho Hc Ht A1 A2 A3 full types.
  pose proof (extract_same d fuel d' fuel' o w w' bytes He Hf Hs Hs' Ho Hc Ht A1 A2 A3) as H. fold full types in H.
  destruct types as [q v'|e v'|c v']; destruct H as [v [Hv _]].
  - destruct (finish_effect o q v He) as [_ [_ [_ [_ [_ [_ [_ [Hpm [_ Hret]]]]]]]]]. split; [|split; [|split]].
    + intros q2 v2 H2. rewrite H2 in Hv. symmetry in Hv. destruct (Hret q2 v2 Hv) as [-> _]. eauto.
    + intros q2 v2 H2. injection H2 as <- <-. rewrite Hv. cbv zeta in Hpm. rewrite Hpm. clear.
      induction (w_pmap v) as [|[k x] m IH]; cbn; [now rewrite String.eqb_refl|].
      destruct (String.eqb k (o_file o)) eqn:Hk; cbn; [now rewrite String.eqb_refl|]. now rewrite Hk.
    + intros x. split; [|intros [v2 H2]; discriminate]. intros [v2 H2]. rewrite H2 in Hv. symmetry in Hv.
      now elim (finish_writes o q v _ _ Hv x).
    + split; [|intros [v2 H2]; discriminate]. intros [v2 H2]. rewrite H2 in Hv. symmetry in Hv. now apply finish_no_panic in Hv.
  - rewrite Hv. split; [discriminate|]. split; [discriminate|]. split; [|split; intros [v2 H2]; discriminate].
    intros x. split; intros [v2 H2]; injection H2 as -> _; eauto.
  - rewrite Hv. split; [discriminate|]. split; [discriminate|]. split; [intros x; split; intros [v2 H2]; discriminate|].
    split; intros [v2 H2]; injection H2 as -> _; eauto.
Qed.

End Run.
