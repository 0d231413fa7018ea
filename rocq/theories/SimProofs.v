(** Parse on worlds that differ in irrelevant ways: C18, C27, C40. *)

From Coq Require Import String Ascii List Arith NArith ZArith Bool Lia.
From Verif Require Import GoStr GoPath Utf8 Base SpecStr Utils GenGo GenC GenJava GenRust GenTS World Handlers Parser
  StrLemmas StrProofs SpecDoc DocLemmas HandlerProofs DocProofs DocProofs2 PathProofs Reify ParserProofs Effects SpecParse.
Import ListNotations.
Local Open Scope string_scope.

Section Sim.
Context {E : Env}.
Variable TE : list token -> list token -> Prop.
Variable S : string -> Prop.

Definition same_freeze (p p' : PState) : Prop := freeze p = freeze p'.

Hypothesis TE_run : forall ts ts' gvt w, TE ts ts' ->
  sim_out eq same_freeze (run_tokens gvt ts p_init w) (run_tokens gvt ts' p_init w).

Notation RW := (same_world TE S).
Notation FR fs fs' := (forall c, same_node TE S c (get c fs) (get c fs')).

Lemma same_is_file : forall fs fs' c, FR fs fs' -> is_file fs c = is_file fs' c.
Proof.
  intros fs fs' c H. unfold is_file. destruct (H c) as [->|[_ [b [b' [-> [-> _]]]]]]; reflexivity.
Qed.

Lemma same_lineage : forall fs fs' l, FR fs fs' -> existsb (is_file fs) l = existsb (is_file fs') l.
Proof. intros fs fs' l H. induction l as [|c l IH]; cbn; [reflexivity|]. now rewrite IH, (same_is_file fs fs'). Qed.

Definition same_stat (s s' : stat_res) : Prop :=
  s = s' \/ exists b b', s = SFile b /\ s' = SFile b' /\ TE (env_tokens b) (env_tokens b').

Lemma same_lookup : forall fs fs' p, FR fs fs' -> same_stat (lookup fs p) (lookup fs' p).
Proof.
  intros fs fs' p H. unfold lookup. destruct (implicit_dir (clean p)); [now left|].
  rewrite (same_lineage fs fs' (lineage p) H).
  destruct (H (clean p)) as [->|[_ [b [b' [-> [-> Ht]]]]]]; [now left|]. right. eauto.
Qed.

Lemma same_stat_w : forall p w w', RW w w' -> same_stat (stat p w) (stat p w').
Proof.
  intros p w w' [_ [_ [_ [_ [_ [_ H]]]]]]. unfold stat. destruct (env_stat_fail p); [now left|].
  destruct (String.eqb p ""); [now left|]. now apply same_lookup.
Qed.

Lemma same_put : forall fs fs' c n, FR fs fs' -> FR (put c n fs) (put c n fs').
Proof.
  intros fs fs' c n H d. destruct (string_dec c d) as [<-|Hne].
  - rewrite !get_put_same. now left.
  - rewrite !get_put_other by exact Hne. apply H.
Qed.

Lemma same_mkdirs : forall cs fs fs', FR fs fs' ->
  snd (mkdirs fs cs) = snd (mkdirs fs' cs) /\ FR (fst (mkdirs fs cs)) (fst (mkdirs fs' cs)).
Proof.
  intros cs. induction cs as [|c cs IH]; intros fs fs' H; cbn; [now split|].
  unfold mkdir1. destruct (same_lookup fs fs' c H) as [He|[b [b' [He [He' _]]]]].
  - rewrite He. destruct (lookup fs' c).
    + now apply IH.
    + now split.
    + destruct (env_mkdir_fail c); [now split|]. apply IH. now apply same_put.
    + now split.
  - rewrite He, He'. now split.
Qed.

Lemma same_prepare : forall path w w', RW w w' ->
  snd (prepare_output_dir path w) = snd (prepare_output_dir path w') /\
  RW (fst (prepare_output_dir path w)) (fst (prepare_output_dir path w')).
Proof.
  intros path w w' H. unfold prepare_output_dir. destruct (String.eqb path ""); [now split|].
  destruct (same_stat_w path w w' H) as [He|[b [b' [He [He' _]]]]].
  - rewrite He. destruct (stat path w'); try (now split).
    destruct H as [H1 [H2 [H3 [H4 [H5 [H6 H7]]]]]]. destruct (same_mkdirs (lineage path) (w_fs w) (w_fs w') H7) as [A B].
    destruct (mkdirs (w_fs w) (lineage path)), (mkdirs (w_fs w') (lineage path)). cbn in *.
    split; [exact A|]. now repeat split.
  - rewrite He, He'. now split.
Qed.

Lemma same_create : forall path bytes w w', RW w w' ->
  match create_write path bytes w, create_write path bytes w' with
  | Some w1, Some w1' => RW w1 w1'
  | None, None => True
  | _, _ => False
  end.
Proof.
  intros path bytes w w' H. unfold create_write.
  destruct (env_create_fail path || String.eqb path ""); [exact Logic.I|].
  assert (HF : forall c, same_node TE S c (get c (w_fs w)) (get c (w_fs w'))) by apply H.
  assert (Hd : match lookup (w_fs w) (dir path) with SDir => true | _ => false end =
               match lookup (w_fs w') (dir path) with SDir => true | _ => false end).
  { destruct (same_lookup _ _ (dir path) HF) as [He|[b [b' [He [He' _]]]]]; [now rewrite He|now rewrite He, He']. }
  assert (Hgo : match (match lookup (w_fs w) (dir path) with
                       | SDir => Some (set_fs (put (clean path) (NFile (env_write path bytes)) (w_fs w)) w) | _ => None end),
                      (match lookup (w_fs w') (dir path) with
                       | SDir => Some (set_fs (put (clean path) (NFile (env_write path bytes)) (w_fs w')) w') | _ => None end) with
                | Some w1, Some w1' => RW w1 w1' | None, None => True | _, _ => False end).
  { destruct (lookup (w_fs w) (dir path)), (lookup (w_fs w') (dir path)); try discriminate; try exact Logic.I.
    destruct H as [H1 [H2 [H3 [H4 [H5 [H6 H7]]]]]]. repeat split; try assumption. now apply same_put. }
  destruct (same_lookup _ _ path HF) as [He|[b [b' [He [He' _]]]]].
  - rewrite He. destruct (lookup (w_fs w') path); try exact Logic.I; exact Hgo.
  - rewrite He, He'. exact Hgo.
Qed.

Lemma same_count : forall c c' w w', RW w w' -> RW (set_count c w) (set_count c' w').
Proof. now intros c c' w w' H. Qed.

Lemma same_generate : forall lang pkg path pt w w', RW w w' ->
  sim_out RW eq (generate lang pkg path pt w) (generate lang pkg path pt w').
Proof.
  intros lang pkg path pt w w' H. unfold generate.
  assert (HP : forall entry source ext, sim_out RW eq (gen_plain entry source ext path pt w) (gen_plain entry source ext path pt w')).
  { intros entry source ext. unfold gen_plain. cbv zeta.
    pose proof (same_create (file_with_extension path ext) (source (run_entries entry pt)) _ _
                  (same_count (g_count (run_entries entry pt)) (g_count (run_entries entry pt)) w w' H)) as HC.
    destruct (create_write _ _ (set_count _ w)), (create_write _ _ (set_count _ w')); try (now destruct HC); constructor; auto. }
  destruct (String.eqb (to_title lang) "Go").
  - unfold gen_go. cbv zeta. set (g := run_entries go_entry pt). destruct (env_gofmt _) as [formatted|].
    + pose proof (same_create (file_with_extension path ".go") formatted _ _ (same_count (g_count g) (g_count g) w w' H)) as HC.
      destruct (create_write _ _ (set_count _ w)), (create_write _ _ (set_count _ w')); try (now destruct HC); constructor; auto.
    + pose proof (same_create (file_with_extension path ".go") (go_fallback pkg g) _ _ (same_count (g_count g) (g_count g) w w' H)) as HC.
      destruct (create_write _ _ (set_count _ w)), (create_write _ _ (set_count _ w')); try (now destruct HC); constructor; auto.
  - destruct (String.eqb (to_title lang) "C"); [apply HP|].
    destruct (String.eqb (to_title lang) "Java"); [apply HP|].
    destruct (String.eqb (to_title lang) "Rust"); [apply HP|].
    destruct (String.eqb (to_title lang) "TypeScript"); [apply HP|]. now constructor.
Qed.

Lemma same_register : forall o o' t w w', o_file o = o_file o' -> RW w w' -> RW (register o t w) (register o' t w').
Proof.
  intros o o' t w w' Ho [H1 [H2 [H3 [H4 [H5 [H6 H7]]]]]]. unfold register. rewrite Ho.
  repeat split; try assumption; cbn; congruence.
Qed.

Lemma same_finish : forall ps o p p' w w', same_freeze p p' -> RW w w' ->
  sim_out RW same_freeze (finish o p w) (finish (with_ps ps o) p' w').
Proof.
  intros ps o p p' w w' Hp H. unfold finish. cbn [o_extract with_ps]. destruct (o_extract o); [now constructor|].
  cbv zeta. unfold same_freeze in Hp. rewrite Hp.
  change (output_path (with_ps ps o)) with (output_path o).
  pose proof (same_register o (with_ps ps o) (freeze p') w w' eq_refl H) as H1.
  destruct (same_prepare (dir (output_path o)) _ _ H1) as [H2 H3].
  destruct (prepare_output_dir _ (register o _ w)) as [w1 ok], (prepare_output_dir _ (register _ _ w')) as [w1' ok'].
  cbn in H2, H3. subst ok'. destruct ok; [|now constructor].
  eapply sim_bind; [apply same_generate; exact H3|]. intros a b w2 w2' _ H4. now constructor.
Qed.

Section Rec.
Variables rec rec' : Options -> World -> out PState.
Hypothesis Hrec : forall o w w', RW w w' -> sim_out RW same_freeze (rec o w) (rec' o w').

Lemma same_include : forall o name n initial visited vt w w', RW w w' ->
  sim_out RW eq (include_loop rec n o name initial visited vt w) (include_loop rec' n o name initial visited vt w').
Proof.
  intros o name n. induction n as [|n IH]; intros initial visited vt w w' H; [now constructor|].
  cbn [include_loop]. cbv zeta. pose proof H as [H1 [_ [_ [_ [_ [H6 _]]]]]]. rewrite H1, H6.
  destruct (nth_error _ _) as [k|]; [|now constructor].
  assert (Hw : RW (set_tick (Datatypes.S (w_tick w')) w) (set_tick (Datatypes.S (w_tick w')) w')) by exact (conj H1 (conj (proj1 (proj2 H)) (conj (proj1 (proj2 (proj2 H))) (conj (proj1 (proj2 (proj2 (proj2 H)))) (conj (proj1 (proj2 (proj2 (proj2 (proj2 H))))) (conj eq_refl (proj2 (proj2 (proj2 (proj2 (proj2 (proj2 H)))))))))))).
  pose proof (Hrec (nested o (join2 (o_dir o) k) true) _ _ Hw) as HR.
  destruct HR as [p p' w1 w1' Hp Hw1|e w1 w1' Hw1|c w1 w1' Hw1]; [|now constructor|now constructor].
  unfold same_freeze in Hp. rewrite Hp. now apply IH.
Qed.

Lemma same_gvt : forall fuel ps o v t w w', RW w w' ->
  sim_out RW eq (get_value_type rec fuel o v t w) (get_value_type rec' fuel (with_ps ps o) v t w').
Proof.
  intros fuel ps o v t w w' H. unfold get_value_type. cbv zeta.
  change (o_dir (with_ps ps o)) with (o_dir o). cbn [o_lang o_extract with_ps].
  destruct (get_build_in_type _ _); [now constructor|].
  destruct (negb _ && negb _); [now constructor|]. destruct (o_extract o); [now constructor|].
  pose proof H as [H1 [H2 [H3 [H4 [H5 [H6 H7]]]]]]. rewrite <- H2, <- H3, <- H5.
  destruct (is_valid_url _); [now constructor|].
  match goal with |- sim_out _ _ (match stat ?f _ with _ => _ end) _ => set (file := f) end.
  change (nested (with_ps ps o)) with (nested o). set (name := trim_ns_prefix v).
  assert (Hfile : sim_out RW eq
     (match get file (w_pmap w) with
      | Some dep => if negb (String.eqb (get_base name dep) name) && negb (String.eqb (get_base name dep) "") then Ret (get_base name dep) w
                    else match rec (nested o file true) w with Crash c w => Crash c w | Fail _ w => Ret (get_base name dep) w
                         | Ret p w => Ret (get_base name (freeze p)) w end
      | None => match rec (nested o file false) w with Crash c w => Crash c w | Fail _ w => Ret (get_base name t) w
                | Ret p w => if negb (String.eqb (get_base name (freeze p)) name) && negb (String.eqb (get_base name (freeze p)) "") then Ret (get_base name (freeze p)) w
                    else match rec (nested o file true) w with Crash c w => Crash c w | Fail _ w => Ret (get_base name (freeze p)) w
                         | Ret p w => Ret (get_base name (freeze p)) w end end end)
     (match get file (w_pmap w) with
      | Some dep => if negb (String.eqb (get_base name dep) name) && negb (String.eqb (get_base name dep) "") then Ret (get_base name dep) w'
                    else match rec' (nested o file true) w' with Crash c w => Crash c w | Fail _ w => Ret (get_base name dep) w
                         | Ret p w => Ret (get_base name (freeze p)) w end
      | None => match rec' (nested o file false) w' with Crash c w => Crash c w | Fail _ w => Ret (get_base name t) w
                | Ret p w => if negb (String.eqb (get_base name (freeze p)) name) && negb (String.eqb (get_base name (freeze p)) "") then Ret (get_base name (freeze p)) w
                    else match rec' (nested o file true) w with Crash c w => Crash c w | Fail _ w => Ret (get_base name (freeze p)) w
                         | Ret p w => Ret (get_base name (freeze p)) w end end end)).
  { assert (Ha : forall t1 w1 w1', RW w1 w1' -> sim_out RW eq
        (match rec (nested o file true) w1 with Crash c w => Crash c w | Fail _ w => Ret t1 w
                         | Ret p w => Ret (get_base name (freeze p)) w end)
        (match rec' (nested o file true) w1' with Crash c w => Crash c w | Fail _ w => Ret t1 w
                         | Ret p w => Ret (get_base name (freeze p)) w end)).
    { intros t1 w1 w1' Hw1. destruct (Hrec (nested o file true) w1 w1' Hw1) as [p p' w2 w2' Hp Hw2|e w2 w2' Hw2|c w2 w2' Hw2];
        constructor; auto. unfold same_freeze in Hp. now rewrite Hp. }
    destruct (get file (w_pmap w)) as [dep|].
    - destruct (negb _ && negb _); [now constructor|now apply Ha].
    - destruct (Hrec (nested o file false) w w' H) as [p p' w2 w2' Hp Hw2|e w2 w2' Hw2|c w2 w2' Hw2]; [|now constructor|now constructor].
      unfold same_freeze in Hp. rewrite Hp. destruct (negb _ && negb _); [now constructor|now apply Ha]. }
  destruct (same_stat_w file w w' H) as [He|[b [b' [He [He' _]]]]].
  - rewrite He. destruct (stat file w') as [|bytes| |]; [|exact Hfile|now constructor|now constructor].
    rewrite <- H1.
    apply (sim_bind _ _ _ _ RW eq eq).
    + replace (include_loop rec' fuel (with_ps ps o) name (w_inc w) [] "" w')
        with (include_loop rec' fuel o name (w_inc w) [] "" w'); [now apply same_include|].
      clear. generalize (w_inc w) as initial. intros initial. generalize (@nil string) as visited. generalize "" as vt. revert w'.
      induction fuel as [|n IH]; intros w' vt visited; [reflexivity|]. cbn [include_loop]. cbv zeta.
      destruct (nth_error _ _); [|reflexivity]. change (nested (with_ps ps o)) with (nested o). change (o_dir (with_ps ps o)) with (o_dir o).
      destruct (rec' _ _); [apply IH|reflexivity|reflexivity].
    + intros r r' w1 w1' <- Hw1. destruct r; now constructor.
  - rewrite He, He'. exact Hfile.
Qed.

Lemma same_ops : forall op w w', RW w w' -> RW (do_wop op w) (do_wop op w').
Proof.
  intros op w w' [H1 [H2 [H3 [H4 [H5 [H6 H7]]]]]]. destruct op; repeat split; try assumption; cbn; congruence.
Qed.

Lemma same_body : forall fuel ps o w w', freeze (o_ps o) = freeze ps -> RW w w' ->
  sim_out RW same_freeze (parse_body rec fuel o w) (parse_body rec' fuel (with_ps ps o) w').
Proof.
  intros fuel ps o w w' Hps H. unfold parse_body. cbn [o_file o_extract with_ps].
  assert (Hrun : forall b b', TE (env_tokens b) (env_tokens b') \/ b = b' -> sim_out RW same_freeze
     (if env_open_fail (o_file o) then Fail (EOpen (o_file o)) w else
       let w := if o_extract o then w else register o (freeze (o_ps o)) w in
       bind (run_tokens (get_value_type rec fuel o) (env_tokens b) p_init w) (finish o))
     (if env_open_fail (o_file o) then Fail (EOpen (o_file o)) w' else
       let w := if o_extract o then w' else register (with_ps ps o) (freeze (o_ps (with_ps ps o))) w' in
       bind (run_tokens (get_value_type rec' fuel (with_ps ps o)) (env_tokens b') p_init w) (finish (with_ps ps o)))).
  { intros b b' Hb. destruct (env_open_fail (o_file o)); [now constructor|]. cbv zeta.
    match goal with |- sim_out _ _ (bind (run_tokens _ _ _ ?x) _) (bind (run_tokens _ _ _ ?y) _) =>
      assert (Hw : RW x y); [|generalize dependent x; generalize dependent y] end.
    { destruct (o_extract o); [exact H|]. cbn [o_ps with_ps]. rewrite Hps. now apply same_register. }
    intros w1' w1 Hw.
    apply (sim_bind _ _ _ _ RW same_freeze same_freeze).
    - pose proof (run_sim RW (get_value_type rec fuel o) (get_value_type rec' fuel (with_ps ps o)) same_ops
                    (fun v t a b Hab => same_gvt fuel ps o v t a b Hab) (env_tokens b) p_init w1 w1' Hw) as H1.
      destruct Hb as [Hb| <-].
      + pose proof (TE_run _ _ (get_value_type rec' fuel (with_ps ps o)) w1' Hb) as H2.
        destruct H1 as [p p' a a' <- Ha|e a a' Ha|c a a' Ha]; inversion H2; subst; now constructor.
      + destruct H1 as [p p' a a' <- Ha|e a a' Ha|c a a' Ha]; now constructor.
    - intros p p' a a' Hp Ha. now apply same_finish. }
  cbv zeta in Hrun |- *.
  destruct (same_stat_w (o_file o) w w' H) as [He|[b [b' [He [He' Ht]]]]].
  - rewrite He. destruct (stat (o_file o) w') as [|bytes| |]; [now constructor| |now constructor|now constructor].
    apply Hrun. now right.
  - rewrite He, He'. apply Hrun. now left.
Qed.

End Rec.

Lemma with_ps_id : forall o, with_ps (o_ps o) o = o.
Proof. now intros []. Qed.

Lemma parse_same : forall d fuel ps o w w', freeze (o_ps o) = freeze ps -> RW w w' ->
  sim_out RW same_freeze (parse d fuel o w) (parse d fuel (with_ps ps o) w').
Proof.
  induction d as [|d IH]; intros fuel ps o w w' Hps H; [now constructor|].
  cbn [parse]. apply same_body; [|exact Hps|exact H].
  intros o1 w1 w1' Hw. pose proof (IH fuel (o_ps o1) o1 w1 w1' eq_refl Hw) as H1. now rewrite with_ps_id in H1.
Qed.

Lemma sim_outcome : forall m m', sim_out RW same_freeze m m' -> same_outcome RW m m'.
Proof. intros m m' []; now constructor. Qed.

Theorem parse_irrelevant : forall d fuel ps o w w', freeze (o_ps o) = freeze ps -> RW w w' ->
  same_outcome RW (parse d fuel o w) (parse d fuel (with_ps ps o) w').
Proof. intros. now apply sim_outcome, parse_same. Qed.

End Sim.

(** * Spacing *)

Section Tokens.
Context {E : Env}.

Lemma spacing_run : forall gvt t p w, spacing t -> on_token gvt t p w = Ret p w.
Proof.
  intros gvt t p w [data Hb|]; [|reflexivity]. cbn. unfold on_char_data. apply blank_trim in Hb. now rewrite Hb.
Qed.

Lemma padded_spacing : forall gvt a b, padded spacing a b -> forall p w, run_tokens gvt b p w = run_tokens gvt a p w.
Proof.
  intros gvt a b H. induction H as [|t a b H IH|t a b Ht H IH]; intros p w; [reflexivity| |].
  - cbn [run_tokens]. destruct (on_token gvt t p w); cbn; [apply IH|reflexivity|reflexivity].
  - cbn [run_tokens]. rewrite spacing_run by exact Ht. cbn. apply IH.
Qed.

Lemma spacing_TE : forall ts ts' gvt w, same_core spacing ts ts' ->
  sim_out eq same_freeze (run_tokens gvt ts p_init w) (run_tokens gvt ts' p_init w).
Proof.
  intros ts ts' gvt w [c [H1 H2]]. rewrite (padded_spacing gvt c ts H1), (padded_spacing gvt c ts' H2).
  destruct (run_tokens gvt c p_init w); now constructor.
Qed.

(** * Foreign tags *)

Definition map_out {A B} (f : A -> B) (m : out A) : out B :=
  match m with Ret a w => Ret (f a) w | Fail e w => Fail e w | Crash c w => Crash c w end.

Lemma end_base_attr : forall gvt b x p w, base_to_attribute gvt b (set_in_element x p) w =
  map_out (set_in_element x) (base_to_attribute gvt b p w).
Proof.
  intros gvt b x p w. unfold base_to_attribute. change (freeze (set_in_element x p)) with (freeze p).
  cbn [p_attribute p_simple set_in_element]. destruct (p_attribute p); [reflexivity|]. destruct (p_simple p); [reflexivity|].
  destruct (gvt _ _ w); cbn; [destruct b; reflexivity|reflexivity|reflexivity].
Qed.

Lemma end_base_elem : forall gvt b x p w, base_to_element gvt b (set_in_element x p) w =
  map_out (set_in_element x) (base_to_element gvt b p w).
Proof.
  intros gvt b x p w. unfold base_to_element, on_top_element. change (freeze (set_in_element x p)) with (freeze p).
  cbn [p_element p_simple set_in_element]. destruct (p_simple p); [reflexivity|]. destruct (p_element p) eqn:He; [reflexivity|].
  destruct (gvt _ _ w); cbn; [destruct b; reflexivity|reflexivity|reflexivity].
Qed.

Lemma end_commutes : forall gvt local x p w,
  dispatch_end gvt local (set_in_element x p) w = map_out (set_in_element x) (dispatch_end gvt local p w).
Proof.
  intros gvt local x p w. unfold dispatch_end. cbv zeta.
  repeat match goal with |- (if ?b then _ else _) = map_out _ (if ?b then _ else _) => destruct b end.
  - unfold end_attribute. cbn [p_attribute p_attrgroup p_complex set_in_element]. destruct (p_attribute p); [reflexivity|].
    destruct (nonempty (p_attrgroup p)); [reflexivity|]. destruct (nonempty (p_complex p)); reflexivity.
  - unfold end_attribute_group. cbn [p_attrgroup set_in_element]. destruct (p_attrgroup p); reflexivity.
  - reflexivity.
  - reflexivity.
  - unfold end_element. cbn [p_element p_complex set_in_element]. destruct (p_element p); [reflexivity|].
    destruct (nonempty (p_complex p)); reflexivity.
  - unfold end_enumeration. rewrite end_base_attr. destruct (base_to_attribute gvt false p w); cbn; [|reflexivity|reflexivity].
    apply end_base_elem.
  - unfold end_extension. apply end_base_attr.
  - unfold end_group. cbv zeta. cbn [p_current p_in_group set_in_element].
    destruct (String.eqb local (p_current p) && (p_in_group p =? 1)%Z).
    + change (Ret (if String.eqb local "" then
          set_in_element x (set_in_group (p_in_group p - 1 - 1)%Z (set_in_group (p_in_group p - 1)%Z
            (set_current "" (set_group (tl (p_group p)) (append_tree (pop_node PGroup (p_group p)) p)))))
        else set_in_element x (set_in_group (p_in_group p - 1)%Z
            (set_current "" (set_group (tl (p_group p)) (append_tree (pop_node PGroup (p_group p)) p))))) w =
        Ret (set_in_element x (if String.eqb local "" then
          set_in_group (p_in_group p - 1 - 1)%Z (set_in_group (p_in_group p - 1)%Z
            (set_current "" (set_group (tl (p_group p)) (append_tree (pop_node PGroup (p_group p)) p))))
        else set_in_group (p_in_group p - 1)%Z
            (set_current "" (set_group (tl (p_group p)) (append_tree (pop_node PGroup (p_group p)) p))))) w).
      destruct (String.eqb local ""); reflexivity.
    + cbn [p_current set_in_element p_in_group]. destruct (String.eqb local (p_current p)); reflexivity.
  - unfold end_pattern. rewrite end_base_attr. destruct (base_to_attribute gvt true p w); cbn; [|reflexivity|reflexivity].
    apply end_base_elem.
  - unfold end_restriction. rewrite end_base_attr. destruct (base_to_attribute gvt true p w) as [p1 w1|e w1|c w1]; cbn; [|reflexivity|reflexivity].
    destruct (p_element p1); reflexivity.
  - unfold end_simple_type. cbv zeta. cbn [p_simple p_attribute p_current p_complex set_in_element].
    assert (H : forall q, Ret (if String.eqb local (p_current (set_in_element x q)) && negb (p_in_union (set_in_element x q))
         then set_current "" (set_simple (tl (p_simple (set_in_element x q)))
               (append_tree (pop_node PSimple (p_simple (set_in_element x q))) (set_in_element x q)))
         else set_in_element x q) w = map_out (set_in_element x)
         (Ret (if String.eqb local (p_current q) && negb (p_in_union q)
         then set_current "" (set_simple (tl (p_simple q)) (append_tree (pop_node PSimple (p_simple q)) q))
         else q) w)).
    { intros q. cbn [p_current p_in_union set_in_element]. destruct (_ && _); reflexivity. }
    destruct (p_simple p) eqn:Hs; [|destruct (p_attribute p); [|reflexivity]];
    (destruct (String.eqb local (p_current p) && Nat.eqb (length (p_complex p)) 1);
     [apply (H (set_current "" (set_complex (tl (p_complex p)) (append_tree (pop_node PComplex (p_complex p)) p))))|apply (H p)]).
  - unfold end_union. cbn [p_simple set_in_element]. destruct (nonempty (p_simple p)); reflexivity.
  - unfold end_facet. apply end_base_elem.
  - reflexivity.
Qed.


Lemma in_element_id : forall p, set_in_element (p_in_element p) p = p.
Proof. now intros []. Qed.

Lemma end_in_element : forall gvt local p w q w', dispatch_end gvt local p w = Ret q w' -> p_in_element q = p_in_element p.
Proof.
  intros gvt local p w q w' H. pose proof (end_commutes gvt local (p_in_element p) p w) as H1.
  rewrite in_element_id, H in H1. cbn in H1. injection H1 as H1. now rewrite H1.
Qed.

Lemma on_top_element_in : forall f p, p_in_element (on_top_element f p) = p_in_element p.
Proof. intros f p. unfold on_top_element. destruct (p_element p); reflexivity. Qed.

Lemma element_result_in : forall b e p, p_in_element (element_result b e p) = p_in_element p.
Proof.
  intros b e p. unfold element_result. destruct (p_complex p); [destruct (_ <? _)%Z|]; destruct b; reflexivity.
Qed.

Lemma start_in_element : forall gvt local l p w q w', dispatch_start gvt local l p w = Ret q w' -> p_in_element q = local.
Proof.
  intros gvt local l p w q w' H. unfold dispatch_start in H. split_title H; unfold_handlers; cbv zeta in *; inv_ret;
    try reflexivity; try (rewrite element_result_in; reflexivity);
    repeat match goal with |- context [if ?b then _ else _] => destruct b end; try reflexivity.
Qed.

Lemma on_top_element_nil : forall f p, p_element (on_top_element f p) = p_element p.
Proof. intros f p. unfold on_top_element. destruct (p_element p) eqn:H; [exact H|exact H]. Qed.

Lemma end_no_push : forall gvt local p w q w', p_element p = [] -> dispatch_end gvt local p w = Ret q w' -> p_element q = [].
Proof.
  intros gvt local p w q w' Hp H. unfold dispatch_end in H. split_title H; unfold_handlers; cbv zeta in *; inv_ret;
    try assumption; try congruence; cbn; rewrite ?on_top_element_nil; cbn; try assumption;
    repeat match goal with |- context [if ?b then _ else _] => destruct b; cbn end; try assumption.
Qed.

Definition tags_differ (p p' : PState) : Prop :=
  exists x, p' = set_in_element x p /\ (p_element p = [] \/ p_in_element p <> "" /\ x <> "").

Lemma char_commutes : forall data p p', tags_differ p p' -> tags_differ (on_char_data data p) (on_char_data data p').
Proof.
  intros data p p' [x [-> H]].
  assert (A : on_char_data data (set_in_element x p) = set_in_element x (on_char_data data p) /\
              p_in_element (on_char_data data p) = p_in_element p /\
              p_element (on_char_data data p) = p_element p).
  { unfold on_char_data. cbv zeta. cbn [p_in_ag p_attrgroup p_element p_in_element p_attribute p_current p_simple p_complex set_in_element].
    destruct (String.eqb (trim_space data) ""); [now repeat split|].
    destruct (p_in_ag p && nonempty (p_attrgroup p)); [now repeat split|].
    replace (negb (String.eqb x "") && nonempty (p_element p)) with (negb (String.eqb (p_in_element p) "") && nonempty (p_element p)).
    2:{ destruct H as [->|[H1 H2]]; [now rewrite !andb_false_r|].
        apply String.eqb_neq in H1, H2. now rewrite H1, H2. }
    destruct (negb _ && nonempty _).
    - unfold on_top_element. cbn [p_element set_in_element]. destruct (p_element p) eqn:He; now repeat split.
    - destruct (nonempty (p_attribute p)); [now repeat split|].
      destruct (String.eqb (p_current p) "simpleType"); [now repeat split|].
      destruct (String.eqb (p_current p) "complexType"); now repeat split. }
  destruct A as [A [B C]]. exists x. split; [exact A|]. now rewrite B, C.
Qed.

Lemma foreign_run : forall gvt c ts, padded foreign c ts -> named_tags c ->
  forall p q w, (tags_differ p q) ->
  sim_out eq tags_differ (run_tokens gvt c p w) (run_tokens gvt ts q w).
Proof.
  intros gvt c ts H. induction H as [|t a b H IH|t a b Ht H IH]; intros Hn p q w Hpq.
  - now constructor.
  - cbn [run_tokens].
    assert (Hn' : named_tags a) by (intros local l Hl; apply (Hn local l); now right).
    specialize (IH Hn').
    eapply (sim_bind _ _ _ _ eq tags_differ tags_differ); [|intros p1 q1 w1 w2 Hd <-; now apply IH].
    destruct t as [local l|local|data|]; cbn [on_token].
    + destruct Hpq as [x [-> Hx]]. unfold dispatch_start at 2. change (set_in_element local (set_in_element x p)) with (set_in_element local p).
      fold (dispatch_start gvt local l p w). destruct (dispatch_start gvt local l p w) as [r v| |] eqn:Hr; constructor; try reflexivity.
      apply start_in_element in Hr. assert (Hl : local <> "") by (apply (Hn local l); now left).
      exists (p_in_element r). split; [now rewrite in_element_id|]. right. now rewrite Hr.
    + destruct Hpq as [x [-> Hx]]. rewrite end_commutes. destruct (dispatch_end gvt local p w) as [r v| |] eqn:Hr; constructor; try reflexivity.
      exists x. split; [reflexivity|]. destruct Hx as [Hx|Hx]; [left; eapply end_no_push; eassumption|right].
      now rewrite (end_in_element _ _ _ _ _ _ Hr).
    + constructor; [now apply char_commutes|reflexivity].
    + now constructor.
  - cbn [run_tokens]. destruct Ht as [local l Hu Hne|local Hu].
    + rewrite unknown_start by exact Hu. cbn [bind]. apply IH; [exact Hn|]. destruct Hpq as [x [-> Hx]].
      exists local. split; [reflexivity|]. destruct Hx as [Hx|[Hx _]]; [now left|now right].
    + rewrite unknown_end by exact Hu. cbn [bind]. now apply IH.
Qed.

Lemma named_core : forall P a b, padded P a b -> named_tags b -> named_tags a.
Proof.
  intros P a b H. induction H as [|t a b H IH|t a b Ht H IH]; intros Hn; [exact Hn| |].
  - intros local l [->|Hl]; [apply (Hn local l); now left|]. apply (IH (fun local l Hx => Hn local l (or_intror Hx)) local l Hl).
  - apply IH. intros local l Hl. apply (Hn local l). now right.
Qed.

Lemma foreign_TE : forall ts ts' gvt w, named_tags ts /\ same_core foreign ts ts' ->
  sim_out eq same_freeze (run_tokens gvt ts p_init w) (run_tokens gvt ts' p_init w).
Proof.
  intros ts ts' gvt w [Hn [c [H1 H2]]]. pose proof (named_core _ _ _ H1 Hn) as Hc.
  assert (Hi : tags_differ p_init p_init) by (exists ""; split; [reflexivity|now left]).
  pose proof (foreign_run gvt c ts H1 Hc p_init p_init w Hi) as A.
  pose proof (foreign_run gvt c ts' H2 Hc p_init p_init w Hi) as B.
  destruct A as [p q a a' Hpq <-|e a a' <-|x a a' <-]; inversion B as [p' q' b b' Hpq'| |]; subst; constructor; auto.
  destruct Hpq as [y [-> _]], Hpq' as [y' [-> _]]. reflexivity.
Qed.

End Tokens.
