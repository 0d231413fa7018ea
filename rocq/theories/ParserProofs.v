(** Facts about Parse as a whole: effects on the world, termination. *)

From Coq Require Import String Ascii List Arith NArith ZArith Bool Lia.
From Verif Require Import GoStr GoPath Base Utils GenGo GenC GenJava GenRust GenTS World Handlers Parser
  StrLemmas StrProofs PathProofs Reify SpecDoc Effects SpecParse.
Import ListNotations.
Local Open Scope string_scope.

(** * Maps *)

Lemma get_put_same : forall A k (v : A) m, get k (put k v m) = Some v.
Proof.
  intros A k v m. induction m as [|[k' v'] m IH]; cbn; [now rewrite String.eqb_refl|].
  destruct (String.eqb k' k) eqn:Hk; cbn; [now rewrite String.eqb_refl|now rewrite Hk].
Qed.

Lemma get_put_other : forall A k k' (v : A) m, k <> k' -> get k' (put k v m) = get k' m.
Proof.
  intros A k k' v m Hne. induction m as [|[k2 v2] m IH]; cbn.
  - apply String.eqb_neq in Hne. now rewrite Hne.
  - destruct (String.eqb_spec k2 k) as [->|Hk]; cbn.
    + apply String.eqb_neq in Hne. now rewrite Hne.
    + destruct (String.eqb k2 k'); [reflexivity|exact IH].
Qed.

Lemma add_key_In : forall k l x, In x (add_key k l) <-> In x l \/ x = k.
Proof.
  intros k l x. unfold add_key. destruct (in_set k l) eqn:H.
  - apply in_set_In in H. intuition congruence.
  - rewrite in_app_iff. cbn. intuition congruence.
Qed.

(** * Effects on the file system *)

Lemma prefixes_spec : forall A (l m : list A), In m (prefixes l) <-> m <> [] /\ exists r, l = (m ++ r)%list.
Proof.
  intros A l. induction l as [|x l IH]; intros m; cbn.
  - split; [intros []|]. intros [H [r Hr]]. now destruct m.
  - split.
    + intros [<-|H]; [split; [discriminate|now exists l]|].
      apply in_map_iff in H as [m' [<- H]]. apply IH in H as [_ [r ->]]. split; [discriminate|now exists r].
    + intros [H [r Hr]]. destruct m as [|y m]; [now elim H|]. injection Hr as -> Hr.
      destruct m as [|z m]; [now left|]. right. apply in_map. apply IH. split; [discriminate|now exists r].
Qed.

Lemma normal_prefix : forall r m n, normal r (m ++ n) -> normal r m.
Proof.
  intros r m n [Hf [k [names [He [Hd Hk]]]]]. apply Forall_app in Hf as [Hf _].
  split; [exact Hf|]. clear Hf. revert m He Hk. induction k as [|k IH]; intros m He Hk.
  - cbn in He. subst names. apply Forall_app in Hd as [Hd _]. exists 0, m. auto.
  - destruct m as [|x m]; [exists 0, []; auto|]. cbn in He. injection He as -> He.
    assert (Hk' : r = true -> k = 0) by (intros H; discriminate (Hk H)).
    destruct (IH m He Hk') as [k' [nm [-> [H1 H2]]]].
    exists (S k'), nm. split; [reflexivity|]. split; [exact H1|]. intros H. discriminate (Hk H).
Qed.

Lemma lineage_spec : forall p c, In c (lineage p) <->
  exists m r, m <> [] /\ pcomps p = (m ++ r)%list /\ c = unparse (is_rooted p) m.
Proof.
  intros p c. unfold lineage. fold (pcomps p). rewrite in_map_iff. split.
  - intros [m [<- H]]. apply prefixes_spec in H as [H [r Hr]]. exists m, r. split; [exact H|].
    split; [exact Hr|]. destruct (is_rooted p); [reflexivity|]. destruct m; [now elim H|reflexivity].
  - intros [m [r [H [Hr ->]]]]. exists m. split; [|apply prefixes_spec; eauto].
    destruct (is_rooted p); [reflexivity|]. destruct m; [now elim H|reflexivity].
Qed.

Lemma lineage_clean : forall p c, In c (lineage p) -> clean c = c.
Proof.
  intros p c H. apply lineage_spec in H as [m [r [Hm [Hr ->]]]].
  assert (Hn : normal (is_rooted p) m).
  { apply (normal_prefix _ m r). rewrite <- Hr. apply pcomps_normal. }
  rewrite clean_unparse, unparse_rooted, unparse_comps by exact Hn. reflexivity.
Qed.

Section Parser.
Context {E : Env}.

(** Entries only appear, as directories. *)
Definition only_dirs (P : string -> Prop) (fs fs' : smap node) : Prop :=
  forall c, get c fs' = get c fs \/ (P c /\ get c fs = None /\ get c fs' = Some NDir).

Lemma mkdirs_dirs : forall cs fs fs' ok, (forall c, In c cs -> clean c = c) -> mkdirs fs cs = (fs', ok) ->
  only_dirs (fun c => In c cs) fs fs'.
Proof.
  intros cs. induction cs as [|c cs IH]; intros fs fs' ok Hc H; cbn in H.
  - injection H as <- _. intros c. now left.
  - unfold mkdir1, lookup in H. rewrite (Hc c (or_introl eq_refl)) in H.
    assert (Hcs : forall d, In d cs -> clean d = d) by (intros d Hd; apply Hc; now right).
    assert (IH' : forall fs2, mkdirs fs2 cs = (fs', ok) -> only_dirs (fun d => In d (c :: cs)) fs2 fs').
    { intros fs2 H2. intros d. destruct (IH fs2 fs' ok Hcs H2 d) as [H3|[H3 H4]]; [now left|right].
      split; [now right|exact H4]. }
    destruct (implicit_dir c); [now apply IH'|].
    destruct (get c fs) as [[|b]|] eqn:Hg.
    + now apply IH'.
    + injection H as <- _. intros d. now left.
    + destruct (existsb (is_file fs) (lineage c)); [injection H as <- _; intros d; now left|].
      destruct (env_mkdir_fail c); [injection H as <- _; intros d; now left|].
      intros d. destruct (IH' _ H d) as [H3|[H3 [H4 H5]]].
      * destruct (string_dec c d) as [<-|Hne].
        -- right. rewrite get_put_same in H3. split; [now left|]. now split.
        -- left. now rewrite H3, get_put_other.
      * right. destruct (string_dec c d) as [<-|Hne]; [now rewrite get_put_same in H4|].
        rewrite get_put_other in H4 by exact Hne. auto.
Qed.

Lemma prepare_effect : forall path w w' ok, prepare_output_dir path w = (w', ok) ->
  (exists fs, w' = set_fs fs w) /\ only_dirs (fun c => In c (lineage path)) (w_fs w) (w_fs w').
Proof.
  intros path w w' ok H. unfold prepare_output_dir in H.
  assert (Hsame : (exists fs, w = set_fs fs w) /\ only_dirs (fun c => In c (lineage path)) (w_fs w) (w_fs w)).
  { split; [exists (w_fs w); now destruct w|]. intros c. now left. }
  destruct (String.eqb path ""); [now injection H as <- _|].
  destruct (stat path w); try (now injection H as <- _).
  destruct (mkdirs (w_fs w) (lineage path)) as [fs ok'] eqn:Hm. injection H as <- <-.
  split; [now exists fs|]. apply (mkdirs_dirs (lineage path) _ _ ok'); [|exact Hm].
  intros c. apply lineage_clean.
Qed.

Lemma create_effect : forall path bytes w w', create_write path bytes w = Some w' ->
  w' = set_fs (put (clean path) (NFile (env_write path bytes)) (w_fs w)) w /\
  get (clean path) (w_fs w) <> Some NDir.
Proof.
  intros path bytes w w' H. unfold create_write in H.
  destruct (env_create_fail path || String.eqb path ""); [discriminate|].
  unfold lookup in H. destruct (implicit_dir (clean path)); [discriminate|].
  destruct (get (clean path) (w_fs w)) as [[|b]|]; [discriminate| |];
  try (destruct (existsb (is_file (w_fs w)) (lineage path)); [discriminate|]);
  match type of H with match ?x with _ => _ end = _ => destruct x end; try discriminate;
  injection H as <-; now split.
Qed.

(** The world after generating into [path]. *)
Lemma generate_effect : forall lang pkg path pt w,
  let r := generate lang pkg path pt w in let w' := out_world r in
  (forall c, r <> Crash c w') /\
  w_inc w' = w_inc w /\ w_lns w' = w_lns w /\ w_nsl w' = w_nsl w /\ w_plist w' = w_plist w /\
  w_pmap w' = w_pmap w /\ w_tick w' = w_tick w /\
  ((w_fs w' = w_fs w /\
      (forall u v, r = Ret u v -> forall ext text ok, ~ written lang pkg pt ext text ok)) \/
   exists ext text ok, written lang pkg pt ext text ok /\
     (ok = true <-> exists u v, r = Ret u v) /\
     let f := file_with_extension path ext in
     get (clean f) (w_fs w) <> Some NDir /\ w_fs w' = put (clean f) (NFile (env_write f text)) (w_fs w)).
Proof.
  intros lang pkg path pt w. cbv zeta. unfold generate.
  assert (HP : forall entry source ext,
    let text := source (run_entries entry pt) in
    written lang pkg pt ext text true ->
    let r := gen_plain entry source ext path pt w in let w' := out_world r in
    (forall c, r <> Crash c w') /\
    w_inc w' = w_inc w /\ w_lns w' = w_lns w /\ w_nsl w' = w_nsl w /\ w_plist w' = w_plist w /\
    w_pmap w' = w_pmap w /\ w_tick w' = w_tick w /\
    ((w_fs w' = w_fs w /\
      (forall u v, r = Ret u v -> forall ext text ok, ~ written lang pkg pt ext text ok)) \/
     exists ext text ok, written lang pkg pt ext text ok /\ (ok = true <-> exists u v, r = Ret u v) /\
     let f := file_with_extension path ext in
     get (clean f) (w_fs w) <> Some NDir /\ w_fs w' = put (clean f) (NFile (env_write f text)) (w_fs w))).
  { intros entry source ext. cbv zeta. intros Hw. unfold gen_plain. cbv zeta.
    match goal with |- context [create_write ?a ?b ?c] => destruct (create_write a b c) as [w1|] eqn:Hc end.
    - apply create_effect in Hc as [-> Hn]. split; [discriminate|]. cbn. repeat split.
      right. exists ext, (source (run_entries entry pt)), true. split; [exact Hw|]. split; [split; eauto|]. now split.
    - split; [discriminate|]. cbn. repeat split. left. split; [reflexivity|discriminate]. }
  cbv zeta in HP.
  destruct (String.eqb_spec (to_title lang) "Go") as [Hl|Hl].
  - unfold gen_go. cbv zeta. destruct (env_gofmt _) as [formatted|] eqn:Hg.
    + match goal with |- context [create_write ?a ?b ?c] => destruct (create_write a b c) as [w1|] eqn:Hc end.
      * apply create_effect in Hc as [-> Hn]. split; [discriminate|]. cbn. repeat split.
        right. exists ".go", formatted, true. split; [now left|]. split; [split; eauto|]. now split.
      * split; [discriminate|]. cbn. repeat split. left. split; [reflexivity|discriminate].
    + match goal with |- context [create_write ?a ?b ?c] => destruct (create_write a b c) as [w1|] eqn:Hc end.
      * apply create_effect in Hc as [-> Hn]. split; [discriminate|]. cbn. repeat split.
        right. exists ".go", (go_fallback pkg (run_entries go_entry pt)), false. split; [now left|].
        split; [split; [discriminate|intros [u [v H]]; discriminate]|]. now split.
      * split; [discriminate|]. cbn. repeat split. left. split; [reflexivity|discriminate].
  - destruct (String.eqb_spec (to_title lang) "C"); [apply HP; right; tauto|].
    destruct (String.eqb_spec (to_title lang) "Java"); [apply HP; right; tauto|].
    destruct (String.eqb_spec (to_title lang) "Rust"); [apply HP; right; tauto|].
    destruct (String.eqb_spec (to_title lang) "TypeScript"); [apply HP; right; tauto|].
    split; [discriminate|]. cbn. repeat split. left. split; [reflexivity|].
    intros u v _ ext text ok H. unfold written in H. intuition congruence.
Qed.

Lemma written_fun : forall lang pkg pt ext text ok ext' text' ok',
  written lang pkg pt ext text ok -> written lang pkg pt ext' text' ok' -> ext = ext' /\ text = text' /\ ok = ok'.
Proof.
  intros lang pkg pt ext text ok ext' text' ok' H H'. unfold written in H, H'.
  destruct H as [[H1 [H2 H3]]|H]; destruct H' as [[H1' [H2' H3']]|H']; try (intuition congruence).
  destruct ok, ok'; intuition congruence.
Qed.

Lemma written_ext : forall lang, exists ext, forall pkg pt ext' text ok, written lang pkg pt ext' text ok -> ext' = ext.
Proof.
  intros lang. destruct (string_dec (to_title lang) "Go"); [exists ".go"; unfold written; intuition congruence|].
  destruct (string_dec (to_title lang) "C"); [exists ".h"; unfold written; intuition congruence|].
  destruct (string_dec (to_title lang) "Java"); [exists ".java"; unfold written; intuition congruence|].
  destruct (string_dec (to_title lang) "Rust"); [exists ".rs"; unfold written; intuition congruence|].
  exists ".ts"; unfold written; intuition congruence.
Qed.

Lemma finish_effect : forall o p w, o_extract o = false ->
  let w' := out_world (finish o p w) in
  (forall w1, finish o p w <> Crash NoFuel w1) /\ (forall w1, finish o p w <> Crash Panic w1) /\
  w_inc w' = w_inc w /\ w_lns w' = w_lns w /\ w_nsl w' = w_nsl w /\ w_tick w' = w_tick w /\
  w_plist w' = add_key (o_file o) (w_plist w) /\ w_pmap w' = put (o_file o) (freeze p) (w_pmap w) /\
  (forall c, node_effect o (freeze p) c (get c (w_fs w)) (get c (w_fs w'))) /\
  (forall q v, finish o p w = Ret q v -> q = p /\
    forall ext text ok, written (o_lang o) (o_package o) (freeze p) ext text ok ->
      ok = true /\ let f := file_with_extension (output_path o) ext in
      get (clean f) (w_fs w') = Some (NFile (env_write f text))).
Proof.
  intros o p w He. cbv zeta. unfold finish. rewrite He. cbv zeta.
  set (w1 := register o (freeze p) w).
  destruct (prepare_output_dir (dir (output_path o)) w1) as [w2 ok] eqn:Hp.
  apply prepare_effect in Hp as [[fs ->] Hd].
  assert (Hfs1 : w_fs w1 = w_fs w) by reflexivity. cbn [w_fs set_fs] in Hd. rewrite Hfs1 in Hd.
  assert (Hkeep : forall c, node_effect o (freeze p) c (get c (w_fs w)) (get c fs)).
  { intros c. destruct (Hd c) as [H8|H8]; [now left|right; now left]. }
  destruct ok.
  - pose proof (generate_effect (o_lang o) (o_package o) (output_path o) (freeze p) (set_fs fs w1)) as H.
    cbv zeta in H. destruct (generate _ _ _ _ _) as [u w3|e w3|c w3] eqn:Hg; cbn [out_world bind] in H |- *.
    3: { destruct H as [H _]. exfalso. now apply (H c). }
    all: destruct H as [_ [H1 [H2 [H3 [H4 [H5 [H6 H7]]]]]]];
      (split; [discriminate|]); (split; [discriminate|]);
      rewrite H1, H2, H3, H4, H5, H6; do 6 (split; [reflexivity|]).
    all: split; [intros c; destruct H7 as [[-> _]|[ext [text [ok [Hw [_ [Hn ->]]]]]]]; [apply Hkeep|] |].
    1,3: destruct (string_dec (clean (file_with_extension (output_path o) ext)) c) as [<-|Hne];
       [ right; right; exists ext, text, ok; split; [exact Hw|]; rewrite get_put_same;
         split; [reflexivity|]; split; [|reflexivity];
         destruct (Hd (clean (file_with_extension (output_path o) ext))) as [H8|[_ [H8 H9]]];
         [rewrite <- H8; exact Hn|rewrite H8; discriminate]
       | rewrite get_put_other by exact Hne; apply Hkeep].
    2: discriminate.
    intros q v [= <- <-]. split; [reflexivity|]. intros ext text ok Hw. destruct H7 as [[_ H7]|[ext' [text' [ok' [Hw' [Hok [Hn Hf]]]]]]].
    + exfalso. exact (H7 u w3 eq_refl ext text ok Hw).
    + destruct (written_fun _ _ _ _ _ _ _ _ _ Hw Hw') as [-> [-> ->]]. split; [apply Hok; eauto|].
      cbv zeta. rewrite Hf. apply get_put_same.
  - cbn [out_world]. split; [discriminate|]. split; [discriminate|]. cbn. do 6 (split; [reflexivity|]).
    split; [exact Hkeep|discriminate].
Qed.

(** At most one regular file is written. *)
Lemma finish_one_file : forall o p w, o_extract o = false ->
  exists t, forall c b, get c (w_fs (out_world (finish o p w))) = Some (NFile b) -> c <> t -> get c (w_fs w) = Some (NFile b).
Proof.
  intros o p w He. destruct (finish_effect o p w He) as [_ [_ [_ [_ [_ [_ [_ [_ [H _]]]]]]]]].
  destruct (written_ext (o_lang o)) as [ext Hext]. exists (clean (file_with_extension (output_path o) ext)).
  intros c b Hc Hne. destruct (H c) as [H1|[[_ [_ H1]]|[ext' [text [ok [Hw [H1 _]]]]]]]; [congruence|congruence|].
  apply Hext in Hw. subst ext'. cbv zeta in H1. contradiction.
Qed.

Lemma finish_extract : forall o p w, o_extract o = true -> finish o p w = Ret p w.
Proof. intros o p w H. unfold finish. now rewrite H. Qed.

(** * A preorder on worlds that every step respects *)

Section Rel.
Variable R : World -> World -> Prop.
Hypothesis R_refl : forall w, R w w.
Hypothesis R_trans : forall a b c, R a b -> R b c -> R a c.
Hypothesis R_tick : forall n w, R w (set_tick n w).

Lemma include_rel : forall rec o name n initial visited vt w,
  (forall f w, R w (out_world (rec (nested o f true) w))) ->
  R w (out_world (include_loop rec n o name initial visited vt w)).
Proof.
  intros rec o name n. induction n as [|n IH]; intros initial visited vt w Hr; [apply R_refl|].
  cbn [include_loop]. cbv zeta. destruct (nth_error _ _) as [k|]; [|apply R_refl].
  eapply R_trans; [apply (R_tick (S (w_tick w)))|].
  pose proof (Hr (join2 (o_dir o) k) (set_tick (S (w_tick w)) w)) as H.
  destruct (rec _ _) as [p w1|e w1|c w1]; cbn [out_world] in H |- *; [|exact H|exact H].
  eapply R_trans; [exact H|now apply IH].
Qed.

Lemma gvt_rel : forall rec fuel o v t w,
  (forall f b w, R w (out_world (rec (nested o f b) w))) ->
  R w (out_world (get_value_type rec fuel o v t w)).
Proof.
  intros rec fuel o v t w Hr. unfold get_value_type. cbv zeta.
  destruct (get_build_in_type _ _); [apply R_refl|].
  destruct (negb _ && negb _); [apply R_refl|]. destruct (o_extract o); [apply R_refl|].
  destruct (is_valid_url _); [apply R_refl|].
  destruct (stat _ w); try apply R_refl.
  - pose proof (include_rel rec o (trim_ns_prefix v) fuel (w_inc w) [] "" w (fun f => Hr f true)) as H.
    destruct (include_loop _ _ _ _ _ _ _ _) as [[vt|vt] w1|e w1|c w1]; exact H.
  - match goal with |- R w (out_world match get ?f _ with _ => _ end) => set (file := f) end.
    assert (Ha : forall t w1, R w w1 ->
      R w (out_world (match rec (nested o file true) w1 with
                      | Crash c w => Crash c w
                      | Fail _ w => Ret t w
                      | Ret p w => Ret (get_base (trim_ns_prefix v) (freeze p)) w
                      end))).
    { intros t1 w1 H. pose proof (Hr file true w1) as H2.
      destruct (rec _ w1); cbn [out_world] in H2 |- *; eapply R_trans; eauto. }
    destruct (get file (w_pmap w)) as [dep|].
    + destruct (negb _ && negb _); [apply R_refl|now apply Ha].
    + pose proof (Hr file false w) as H. destruct (rec _ w) as [p w1|e w1|c w1]; cbn [out_world] in H |- *; try exact H.
      destruct (negb _ && negb _); [exact H|now apply Ha].
Qed.

Hypothesis R_op : forall op w, R w (do_wop op w).
Variable O : Options -> Prop.
Hypothesis O_nested : forall o f b, O o -> O (nested o f b).
Hypothesis R_register : forall o tree w, O o -> o_extract o = false -> R w (register o tree w).
Hypothesis R_finish : forall o p w, O o -> o_extract o = false -> R w (out_world (finish o p w)).

Lemma parse_rel : forall d fuel o w, O o -> R w (out_world (parse d fuel o w)).
Proof.
  induction d as [|d IH]; intros fuel o w Ho; [apply R_refl|]. cbn [parse]. unfold parse_body.
  destruct (stat (o_file o) w) as [|bytes| |]; [apply R_refl| |apply R_refl|apply R_refl].
  destruct (env_open_fail (o_file o)); [apply R_refl|]. cbv zeta.
  set (w1 := if o_extract o then w else register o (freeze (o_ps o)) w).
  assert (H1 : R w w1) by (unfold w1; destruct (o_extract o) eqn:He; [apply R_refl|now apply R_register]).
  assert (H2 : R w1 (out_world (run_tokens (get_value_type (parse d fuel) fuel o) (env_tokens bytes) p_init w1))).
  { apply run_rel; auto. intros v t w2. apply gvt_rel. intros f b w3. now apply IH, O_nested. }
  destruct (run_tokens _ _ _ w1) as [p w2|e w2|c w2]; cbn [bind out_world] in H2 |- *;
    try (eapply R_trans; eauto; fail).
  eapply R_trans; [exact H1|]. eapply R_trans; [exact H2|].
  destruct (o_extract o) eqn:He; [rewrite finish_extract by exact He; apply R_refl|now apply R_finish].
Qed.

End Rel.

(** * Extract mode *)

Lemma gvt_extract : forall rec fuel o v t w, o_extract o = true ->
  exists s, forall rec' fuel' o' w', o_extract o' = true -> o_lang o' = o_lang o ->
    get_value_type rec fuel o v t w = Ret s w /\ get_value_type rec' fuel' o' v t w' = Ret s w'.
Proof.
  intros rec fuel o v t w He. unfold get_value_type. cbv zeta.
  destruct (get_build_in_type (trim_ns_prefix v) (o_lang o)) as [s|] eqn:Hb.
  - exists s. intros rec' fuel' o' w' He' Hl. now rewrite Hl, Hb.
  - exists (get_base (trim_ns_prefix v) t). intros rec' fuel' o' w' He' Hl. rewrite Hl, Hb, He, He'.
    destruct (negb _ && negb _); now split.
Qed.

Lemma gvt_extract_eq : forall rec rec' fuel fuel' o v t w, o_extract o = true ->
  get_value_type rec fuel o v t w = get_value_type rec' fuel' o v t w.
Proof.
  intros rec rec' fuel fuel' o v t w He. destruct (gvt_extract rec fuel o v t w He) as [s Hs].
  destruct (Hs rec' fuel' o w He eq_refl) as [H1 H2]. congruence.
Qed.

(** No nested parse: neither the recursive call nor the budget matters. *)
Lemma body_extract : forall rec rec' fuel fuel' o w, o_extract o = true ->
  parse_body rec fuel o w = parse_body rec' fuel' o w.
Proof.
  intros rec rec' fuel fuel' o w He. unfold parse_body.
  destruct (stat (o_file o) w) as [|bytes| |]; [reflexivity| |reflexivity|reflexivity].
  destruct (env_open_fail (o_file o)); [reflexivity|]. cbv zeta.
  apply (f_equal (fun m => bind m (finish o))). apply run_ext. intros v t w1. now apply gvt_extract_eq.
Qed.

Definition same_files (w w' : World) : Prop :=
  w_fs w' = w_fs w /\ w_plist w' = w_plist w /\ w_pmap w' = w_pmap w /\
  w_tick w' = w_tick w /\ w_count w' = w_count w.

Lemma body_extract_effect : forall rec fuel o w, o_extract o = true ->
  let r := parse_body rec fuel o w in
  same_files w (out_world r) /\ (forall c w', r = Crash c w' -> c = Panic).
Proof.
  intros rec fuel o w He. cbv zeta. unfold parse_body.
  assert (Hs : same_files w w) by (now repeat split).
  destruct (stat (o_file o) w) as [|bytes| |]; try (split; [exact Hs|discriminate]).
  destruct (env_open_fail (o_file o)); [split; [exact Hs|discriminate]|]. cbv zeta. rewrite He.
  destruct (run_inv (same_files w) (fun c => c = Panic) (get_value_type rec fuel o) (env_tokens bytes)) with (p := p_init) (w := w)
    as [H1 H2]; auto.
  - intros op w1 _ [A1 [A2 [A3 [A4 A5]]]]. destruct op; now repeat split.
  - intros v t w1 H. destruct (gvt_extract rec fuel o v t w1 He) as [s H']. destruct (H' rec fuel o w1 He eq_refl) as [-> _].
    now split.
  - destruct (run_tokens _ _ _ _) as [p w1|e w1|c w1]; cbn [bind out_world] in *.
    + rewrite finish_extract by exact He. split; [exact H1|discriminate].
    + split; [exact H1|discriminate].
    + split; [exact H1|]. intros c' w' H. injection H as <- _. exact H2.
Qed.

(** * More budget does not change the outcome *)

Section Mono.
Variables rec rec' : Options -> World -> out PState.
Hypothesis Hrec : forall o w, le_out (rec o w) (rec' o w).

Lemma include_mono : forall o name n n' initial visited vt w, n <= n' ->
  le_out (include_loop rec n o name initial visited vt w) (include_loop rec' n' o name initial visited vt w).
Proof.
  intros o name n. induction n as [|n IH]; intros n' initial visited vt w Hle.
  - intros H. cbn in H. now elim (H w).
  - destruct n' as [|n']; [lia|]. cbn [include_loop]. cbv zeta.
    destruct (nth_error _ _) as [k|]; [|apply le_out_refl].
    set (w1 := set_tick _ w). pose proof (Hrec (nested o (join2 (o_dir o) k) true) w1) as H.
    intros Hf. destruct (rec _ w1) as [p w2|e w2|c w2].
    + rewrite H by discriminate. apply IH; [lia|exact Hf].
    + now rewrite H by discriminate.
    + rewrite H; [reflexivity|]. intros w3 H3. injection H3 as -> ->. now apply (Hf w3).
Qed.

Lemma gvt_mono : forall fuel fuel' o v t w, fuel <= fuel' ->
  le_out (get_value_type rec fuel o v t w) (get_value_type rec' fuel' o v t w).
Proof.
  intros fuel fuel' o v t w Hle. unfold get_value_type. cbv zeta.
  destruct (get_build_in_type _ _); [apply le_out_refl|].
  destruct (negb _ && negb _); [apply le_out_refl|]. destruct (o_extract o); [apply le_out_refl|].
  destruct (is_valid_url _); [apply le_out_refl|].
  destruct (stat _ w); try apply le_out_refl.
  - apply le_out_bind; [now apply include_mono|]. intros r w1 _. apply le_out_refl.
  - match goal with |- le_out match get ?f _ with _ => _ end _ => set (file := f) end.
    set (name := trim_ns_prefix v).
    assert (Ha : forall t w1,
      le_out (match rec (nested o file true) w1 with
              | Crash c w => Crash c w | Fail _ w => Ret t w
              | Ret p w => Ret (get_base name (freeze p)) w end)
             (match rec' (nested o file true) w1 with
              | Crash c w => Crash c w | Fail _ w => Ret t w
              | Ret p w => Ret (get_base name (freeze p)) w end)).
    { intros t1 w1 Hf. pose proof (Hrec (nested o file true) w1) as H.
      destruct (rec _ w1) as [p w2|e w2|c w2]; try (now rewrite H by discriminate).
      rewrite H; [reflexivity|]. intros w3 H3. injection H3 as -> ->. now apply (Hf w3). }
    destruct (get file (w_pmap w)) as [dep|].
    + destruct (negb _ && negb _); [apply le_out_refl|apply Ha].
    + intros Hf. pose proof (Hrec (nested o file false) w) as H.
      destruct (rec _ w) as [p w2|e w2|c w2].
      * rewrite H by discriminate. destruct (negb _ && negb _); [reflexivity|now apply Ha].
      * now rewrite H by discriminate.
      * rewrite H; [reflexivity|]. intros w3 H3. injection H3 as -> ->. now apply (Hf w3).
Qed.

Lemma body_mono : forall fuel fuel' o w, fuel <= fuel' ->
  le_out (parse_body rec fuel o w) (parse_body rec' fuel' o w).
Proof.
  intros fuel fuel' o w Hle. unfold parse_body.
  destruct (stat (o_file o) w) as [|bytes| |]; [apply le_out_refl| |apply le_out_refl|apply le_out_refl].
  destruct (env_open_fail (o_file o)); [apply le_out_refl|]. cbv zeta.
  apply le_out_bind; [|intros p w1 _; apply le_out_refl].
  apply run_mono. intros v t w1. now apply gvt_mono.
Qed.

End Mono.

Theorem parse_mono : forall d d' fuel fuel' o w, d <= d' -> fuel <= fuel' ->
  le_out (parse d fuel o w) (parse d' fuel' o w).
Proof.
  induction d as [|d IH]; intros d' fuel fuel' o w Hd Hf.
  - intros H. cbn in H. now elim (H w).
  - destruct d' as [|d']; [lia|]. cbn [parse]. apply body_mono; [|exact Hf].
    intros o1 w1. apply IH; [lia|exact Hf].
Qed.

End Parser.
