(** Whole documents in several languages (C67). *)

From Coq Require Import String Ascii List Arith NArith ZArith Bool Lia.
From Verif Require Import GoStr GoPath Base SpecStr Utils World Handlers Parser SpecDoc SpecParse SpecOrigin SpecLang
  DocLemmas Reify ParserProofs SimProofs ParseFacts SourceProofs StayProofs OriginProofs LangProofs LangNames.
Import ListNotations.
Local Open Scope string_scope.

Section Run.
Context {E : Env}.

Lemma last_doc_shape : forall d l, map shape_attribute (last_attr_doc d l) = last_attr_doc d (map shape_attribute l).
Proof.
  intros d l. induction l as [|a l IH]; [reflexivity|]. destruct l as [|b l]; [reflexivity|].
  cbn [last_attr_doc map] in *. now rewrite IH.
Qed.

Lemma char_shape : forall d p, on_char_data d (ss p) = ss (on_char_data d p).
Proof.
  intros d p. unfold on_char_data. cbv zeta. cbn [p_in_ag p_attrgroup p_in_element p_element p_attribute p_current ss].
  rewrite !nonempty_map. destruct (String.eqb _ ""); [reflexivity|].
  destruct (_ && _). { unfold ss, set_attrgroup. cbn. f_equal. symmetry. now apply map_on_top2. }
  destruct (_ && _).
  { unfold on_top_element. cbn [p_element ss]. destruct (p_element p) eqn:He; [reflexivity|]. unfold ss, set_heap. cbn. rewrite He. f_equal. symmetry. now apply map_update2. }
  destruct (nonempty _). { unfold ss, set_attribute. cbn. f_equal. symmetry. now apply map_on_top2. }
  destruct (String.eqb _ "simpleType"). { unfold ss, set_simple. cbn. f_equal. symmetry. now apply map_on_top2. }
  destruct (String.eqb _ "complexType"); [|reflexivity].
  unfold ss, set_complex. cbn. f_equal. symmetry. apply map_on_top2. intros c. unfold complex_doc. cbn [shape_complex ct_attributes].
  destruct (ct_attributes c) as [|a l] eqn:Hc; [cbn; unfold shape_complex; cbn; now rewrite Hc|].
  unfold shape_complex, ct_set_attributes. cbn [ct_doc ct_name ct_base ct_elements ct_attributes ct_groups ct_attrgroups]. now rewrite last_doc_shape.
Qed.

Notation anything := (fun _ : string => True).

Lemma run_shape : forall lang ts all own st p w, inv lang anything p -> ninv all own st p -> members_apart all own st ts ->
  run_tokens ge ts (ss p) w = map_out ss (run_tokens (gp lang) ts p w).
Proof.
  intros lang ts. induction ts as [|t ts IH]; intros all own st p w Hi Hn Ha; [reflexivity|]. cbn [run_tokens].
  destruct t as [local l|local|data|]; cbn [on_token members_apart] in *.
  - rewrite !tag_known in Ha by (cbn; tauto).
    assert (Hfresh : to_title local = "Element" -> match st with [] => True | ns :: _ => ~ In (element_name l) ns end).
    { intros Hl. rewrite Hl in Ha. cbn in Ha. destruct st; [exact Logic.I|apply Ha]. }
    assert (Hc : to_title local = "Element" -> forall c r, p_complex p = c :: r -> ~ In (element_name l) (map el_name (ct_elements c))).
    { intros Hl c r Hc. specialize (Hfresh Hl). destruct Hn as [Hw _]. rewrite Hc in Hw. destruct st as [|ns st]; [now elim Hw|].
      destruct Hw as [Hw _]. intros Hin. now apply Hfresh, Hw. }
    rewrite (start_shape lang local l p w Hi Hc).
    assert (G1 := start_good lang anything (fun _ => True) (fun _ _ _ => Logic.I) (fun _ _ _ => Logic.I) (fun _ _ _ => Logic.I) (gp lang) (gp_good lang)
                    local l p w (fun _ _ _ _ => Logic.I) Hi Logic.I).
    assert (G2 := start_names (gp lang) all own st local l p w Hn Hfresh).
    destruct (dispatch_start (gp lang) local l p w) as [q w1| |]; cbn [bind map_out]; [|reflexivity|reflexivity].
    cbn [gives] in G2. unfold after_start in G2. destruct G1 as [G1 _].
    destruct (String.eqb (to_title local) "ComplexType"); [now apply (IH _ _ _ q w1 G1 G2)|].
    destruct (String.eqb (to_title local) "Element"); [|now apply (IH _ _ _ q w1 G1 G2)].
    destruct st as [|ns st]; [now apply (IH _ _ _ q w1 G1 G2)|]. now apply (IH _ _ _ q w1 G1 G2).
  - rewrite !tag_known in Ha by (cbn; tauto). rewrite (end_shape lang local p w Hi).
    assert (G1 := end_good lang anything (fun _ => True) (gp lang) (gp_good lang) local p w Hi Logic.I).
    assert (G2 := end_names (gp lang) all own st local p w Hn).
    destruct (dispatch_end (gp lang) local p w) as [q w1| |]; cbn [bind map_out]; [|reflexivity|reflexivity].
    cbn [gives] in G2. unfold after_end in G2. destruct G1 as [G1 _].
    destruct (String.eqb (to_title local) "ComplexType"); [now apply (IH _ _ _ q w1 G1 G2)|].
    destruct (String.eqb (to_title local) "Restriction"); now apply (IH _ _ _ q w1 G1 G2).
  - cbn [bind]. rewrite char_shape. apply (IH all own st); [now apply char_types|now apply char_names|exact Ha].
  - cbn [bind]. now apply (IH all own st).
Qed.

(** The world of a document that needs no other. *)
Definition alone (o : Options) (w : World) : Prop := w_nsl w = [] /\ w_inc w = [] /\ stat (join2 (o_dir o) "") w = SDir.

Lemma alone_resolve : forall rec fuel o v t w, o_extract o = false -> fuel <> 0 -> alone o w -> get_value_type rec fuel o v t w = gp (o_lang o) v t w.
Proof.
  intros rec fuel o v t w He Hf [H1 [H2 H3]]. unfold get_value_type, gp, plain. cbv zeta.
  destruct (get_build_in_type _ _); [reflexivity|]. destruct (negb _ && negb _); [reflexivity|]. rewrite He, H1, H2.
  change (get0 (get0 (get_ns_prefix v) (w_lns w)) []) with "". destruct (is_valid_url "") eqn:Hu; [discriminate|]. rewrite H3.
  destruct fuel as [|fuel]; [now elim Hf|]. cbn [include_loop]. cbv zeta. rewrite H2. cbn [filter existsb length].
  rewrite ?Nat.add_0_l, ?Nat.mod_1_r. reflexivity.
Qed.

Lemma interp_plain : forall A Q (I : World -> Prop) gvt lang (g : prog A), ops Q g -> (forall o w, Q o -> I w -> I (do_wop o w)) ->
  (forall v t w, I w -> gvt v t w = gp lang v t w) -> forall w, I w -> interp gvt g w = interp (gp lang) g w.
Proof.
  intros A Q I gvt lang g Ho Hw Hg. induction g as [a|e| |v t k IH|o k IH]; intros w H; cbn; try reflexivity.
  - rewrite Hg by exact H. cbn. now apply IH.
  - destruct Ho as [H1 H2]. apply IH; [exact H2|]. now apply Hw.
Qed.

Lemma run_plain : forall rec fuel o ts p w, o_extract o = false -> fuel <> 0 -> self_contained ts -> alone o w ->
  run_tokens (get_value_type rec fuel o) ts p w = run_tokens (gp (o_lang o)) ts p w.
Proof.
  intros rec fuel o ts p w He Hf Hs Ha. destruct (run_interp ts p) as [g [Ho Hg]]. rewrite !Hg.
  apply (interp_plain _ (tokens_op ts) (alone o)); [exact Ho| |intros v t u Hu; now apply alone_resolve|exact Ha].
  intros op u [t [Hin Hop]] Hu. destruct t as [local l| | |]; try (now destruct Hop).
  destruct (Hs local l Hin) as [T1 T2]. apply title_import in T1. apply title_include in T2.
  destruct Hop as [[T _]|[[T _]|[_ ->]]]; [contradiction|contradiction|]. exact Hu.
Qed.

End Run.

Section Parse.
Context {E : Env}.

(** How Parse goes on after reading the document. *)
Definition reads (lang : string) (o : Options) (w : World) (bytes : string) : out PState :=
  run_tokens (gp lang) (env_tokens bytes) p_init (register o (freeze (o_ps o)) w).

Lemma parse_reads : forall d fuel o w bytes, o_extract o = false -> fuel <> 0 -> stat (o_file o) w = SFile bytes -> env_open_fail (o_file o) = false ->
  self_contained (env_tokens bytes) -> alone o w ->
  parse (S d) fuel o w = bind (reads (o_lang o) o w bytes) (finish o).
Proof.
  intros d fuel o w bytes He Hf Hs Ho Hsc Ha. cbn [parse]. unfold parse_body. rewrite Hs, Ho, He. cbv zeta. unfold reads. f_equal.
  now apply run_plain.
Qed.

Lemma reads_same : forall l l' o w bytes, members_apart [] false [] (env_tokens bytes) ->
  map_out ss (reads l o w bytes) = map_out ss (reads l' o w bytes).
Proof.
  intros l l' o w bytes H. unfold reads.
  rewrite <- (run_shape l _ [] false [] p_init _ (inv_init l _) init_names H), <- (run_shape l' _ [] false [] p_init _ (inv_init l' _) init_names H).
  reflexivity.
Qed.

Lemma finish_writes : forall o p w e v, finish o p w = Fail e v -> forall x, e <> EAtoi x.
Proof.
  intros o p w e v H x. unfold finish in H. destruct (o_extract o); [discriminate|]. cbv zeta in H.
  destruct (prepare_output_dir _ _) as [w1 ok]. destruct ok; [|discriminate].
  destruct (generate _ _ _ _ w1) as [u w2|e2 w2|c w2] eqn:Hg; [discriminate| |discriminate]. injection H as <- _.
  unfold generate in Hg. cbv zeta in Hg.
  assert (HP : forall en so ex, gen_plain en so ex (output_path o) (freeze p) w1 = Fail e2 w2 -> e2 <> EAtoi x).
  { intros en so ex Hp. unfold gen_plain in Hp. cbv zeta in Hp. destruct (create_write _ _ _); [discriminate|]. injection Hp as <- _. discriminate. }
  repeat match type of Hg with (if ?b then _ else _) = _ => destruct b; [try now apply HP in Hg|] end; [|discriminate].
  unfold gen_go in Hg. cbv zeta in Hg. destruct (env_gofmt _); (destruct (create_write _ _ _); [try discriminate|]); injection Hg as <- _; discriminate.
Qed.

Lemma finish_no_panic : forall o p w v, finish o p w <> Crash Panic v.
Proof.
  intros o p w v H. unfold finish in H. destruct (o_extract o); [discriminate|]. cbv zeta in H.
  destruct (prepare_output_dir _ _) as [w1 ok]. destruct ok; [|discriminate].
  destruct (generate _ _ _ _ w1) as [u w2|e2 w2|c w2] eqn:Hg; [discriminate|discriminate|]. injection H as -> _.
  unfold generate in Hg. cbv zeta in Hg.
  repeat match type of Hg with (if ?b then _ else _) = _ => destruct b end; unfold gen_go, gen_plain in Hg; cbv zeta in Hg;
  repeat match type of Hg with context [match ?b with _ => _ end] => destruct b end; discriminate.
Qed.

Lemma open_read : forall d fuel o w bytes, stat (o_file o) w = SFile bytes -> env_open_fail (o_file o) = true ->
  parse (S d) fuel o w = Fail (EOpen (o_file o)) w.
Proof. intros d fuel o w bytes Hs Ho. cbn [parse]. unfold parse_body. now rewrite Hs, Ho. Qed.

Theorem languages_same : forall d fuel d' fuel' lang o w bytes q w1 q' w2, o_extract o = false -> fuel <> 0 -> fuel' <> 0 ->
  stat (o_file o) w = SFile bytes -> self_contained (env_tokens bytes) -> alone o w -> members_apart [] false [] (env_tokens bytes) ->
  parse d fuel o w = Ret q w1 -> parse d' fuel' (in_language lang o) w = Ret q' w2 -> same_but_types (freeze q) (freeze q').
Proof.
  intros [|d] fuel [|d'] fuel' lang o w bytes q w1 q' w2 He Hf Hf' Hs Hc Ha Hm H1 H2; try discriminate.
  destruct (env_open_fail (o_file o)) eqn:Ho; [rewrite (open_read d fuel o w bytes Hs Ho) in H1; discriminate|].
  rewrite (parse_reads d fuel o w bytes He Hf Hs Ho Hc Ha) in H1.
  rewrite (parse_reads d' fuel' (in_language lang o) w bytes He Hf' Hs Ho Hc Ha) in H2. cbn [o_lang in_language] in H2.
  apply bind_ret in H1 as [r [v [R1 F1]]]. apply bind_ret in H2 as [r' [v' [R2 F2]]].
  apply finish_ret in F1 as ->. apply finish_ret in F2 as ->.
  assert (HR := reads_same (o_lang o) lang o w bytes Hm). rewrite R1 in HR.
  change (reads lang (in_language lang o) w bytes) with (reads lang o w bytes) in R2. rewrite R2 in HR. cbn in HR.
  unfold same_but_types. rewrite <- !shape_freeze. congruence.
Qed.

Theorem languages_refuse : forall d fuel d' fuel' lang o w bytes, o_extract o = false -> fuel <> 0 -> fuel' <> 0 ->
  stat (o_file o) w = SFile bytes -> self_contained (env_tokens bytes) -> alone o w -> members_apart [] false [] (env_tokens bytes) ->
  (forall x v, parse (S d) fuel o w = Fail (EAtoi x) v -> exists v', parse (S d') fuel' (in_language lang o) w = Fail (EAtoi x) v') /\
  (forall v, parse (S d) fuel o w = Crash Panic v -> exists v', parse (S d') fuel' (in_language lang o) w = Crash Panic v').
Proof.
  intros d fuel d' fuel' lang o w bytes He Hf Hf' Hs Hc Ha Hm.
  destruct (env_open_fail (o_file o)) eqn:Ho; [rewrite (open_read d fuel o w bytes Hs Ho); split; intros; discriminate|].
  rewrite (parse_reads d fuel o w bytes He Hf Hs Ho Hc Ha).
  rewrite (parse_reads d' fuel' (in_language lang o) w bytes He Hf' Hs Ho Hc Ha). cbn [o_lang in_language].
  change (reads lang (in_language lang o) w bytes) with (reads lang o w bytes).
  assert (HR := reads_same (o_lang o) lang o w bytes Hm).
  destruct (reads (o_lang o) o w bytes) as [r u|e u|c u], (reads lang o w bytes) as [r' u'|e' u'|c' u']; cbn [map_out bind] in *; try discriminate HR; split.
  - intros x v H. now elim (finish_writes _ _ _ _ _ H x).
  - intros v H. now elim (finish_no_panic _ _ _ _ H).
  - intros x v H. injection HR as <- <-. exists u. now injection H as -> _.
  - intros v H. discriminate.
  - intros x v H. discriminate.
  - intros v H. injection HR as <- <-. exists u. now injection H as -> _.
Qed.

End Parse.
