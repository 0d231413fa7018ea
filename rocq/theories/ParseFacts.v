(** Proofs about Parse: C19, C20, C24, C25, C26, C47. *)

From Coq Require Import String Ascii List Arith NArith ZArith Bool Lia.
From Verif Require Import GoStr GoPath Utf8 Base Utils SpecStr GenGo GenC GenJava GenRust GenTS World Handlers Parser
  StrLemmas StrProofs SpecDoc DocLemmas HandlerProofs DocProofs DocProofs2 PathProofs Reify SpecTables TableProofs Effects SpecParse ParserProofs Termination.
Import ListNotations.
Local Open Scope string_scope.

Section Facts.
Context {E : Env}.

(** * C19 *)

Lemma url_spec : forall v, is_valid_url v = true <-> is_url v.
Proof.
  intros v. unfold is_valid_url, is_url. rewrite andb_true_iff. split; intros [H1 H2]; (split; [|exact H2]).
  - clear H2. induction v as [|a v IH]; [discriminate|]. cbn in H1. apply orb_true_iff in H1 as [H1|H1].
    + apply Ascii.eqb_eq in H1. subst a. now exists "", v.
    + destruct (IH H1) as [x [y ->]]. now exists (String a x), y.
  - destruct H1 as [a [b ->]]. clear H2. induction a as [|x a IH]; [reflexivity|]. cbn in *. now rewrite IH, orb_true_r.
Qed.

Lemma prepare_nsl_grow : forall l ns m,
  (forall k loc, get k m = Some loc -> get k (prepare_nsl l ns m) = Some loc) /\
  (forall k loc, get k (prepare_nsl l ns m) = Some loc -> get k m = Some loc \/ ~ is_url loc).
Proof.
  intros l. induction l as [|x l IH]; intros ns m; [split; auto|]. cbn [prepare_nsl]. cbv zeta.
  set (ns1 := if String.eqb (a_local x) "namespace" then a_value x else ns).
  match goal with |- context [prepare_nsl l ns1 ?q] => set (m1 := q) end.
  assert (H : (forall k loc, get k m = Some loc -> get k m1 = Some loc) /\
              (forall k loc, get k m1 = Some loc -> get k m = Some loc \/ ~ is_url loc)).
  { subst m1. destruct (String.eqb (a_local x) "schemaLocation"); [|split; auto].
    unfold has_key. destruct (get ns1 m) eqn:Hg; [split; auto|]. destruct (is_valid_url (a_value x)) eqn:Hu; [split; auto|].
    split; intros k loc Hk; (destruct (string_dec ns1 k) as [<-|Hne]; [|rewrite get_put_other in * by exact Hne; auto]).
    - congruence.
    - rewrite get_put_same in Hk. injection Hk as <-. right. intros Hv. apply url_spec in Hv. congruence. }
  destruct (IH ns1 m1) as [H1 H2]. split; intros k loc Hk.
  - apply H1. now apply H.
  - apply H2 in Hk as [Hk|Hk]; [now apply H|now right].
Qed.

Lemma fold_include : forall l (m : list string) k, In k m ->
  In k (fold_left (fun m x => if String.eqb (a_local x) "schemaLocation" then add_key (a_value x) m else m) l m).
Proof.
  intros l. induction l as [|x l IH]; intros m k Hk; [exact Hk|]. cbn. apply IH.
  destruct (String.eqb _ _); [|exact Hk]. apply add_key_In. now left.
Qed.

Lemma grow_same : forall w w', w_nsl w' = w_nsl w -> w_inc w' = w_inc w -> locations_grow w w'.
Proof. intros w w' H1 H2. unfold locations_grow. rewrite H1, H2. repeat split; auto. Qed.

Theorem parse_locations : forall d fuel o w, locations_grow w (out_world (parse d fuel o w)).
Proof.
  intros d fuel o w. apply (parse_rel locations_grow) with (O := fun _ => True); auto.
  - intros w1. now apply grow_same.
  - intros a b c [H1 [H2 H3]] [H1' [H2' H3']]. split; [auto|]. split; [|auto].
    intros ns loc H. apply H2' in H as [H|H]; [|now right]. now apply H2.
  - intros n w1. now apply grow_same.
  - intros [l|l|l] w1.
    + destruct (prepare_nsl_grow l "" (w_nsl w1)) as [H1 H2]. split; [exact H1|]. split; [exact H2|auto].
    + split; [auto|]. split; [auto|]. intros k Hk. cbn. now apply fold_include.
    + now apply grow_same.
  - intros o1 t w1 _ _. now apply grow_same.
  - intros o1 p w1 _ He. destruct (finish_effect o1 p w1 He) as [_ [_ [H1 [_ [H2 _]]]]]. now apply grow_same.
Qed.

(** * C25: effects on the file system *)

Lemma nested_nested : forall o f b f' b', nested (nested o f b) f' b' = nested o f' b'.
Proof. reflexivity. Qed.

(** The work of nested parses between two worlds. *)
Definition nested_effect (o : Options) (w w' : World) : Prop :=
  (forall f pt, get f (w_pmap w) = Some pt -> get f (w_pmap w') = Some pt) /\
  forall c, get c (w_fs w') = get c (w_fs w) \/
    exists f pt, get f (w_pmap w) = None /\ get f (w_pmap w') = Some pt /\
      node_effect (nested o f false) pt c (get c (w_fs w)) (get c (w_fs w')).

Lemma node_effect_trans : forall o1 pt1 o2 pt2 c n1 n2 n3,
  node_effect o1 pt1 c n1 n2 -> node_effect o2 pt2 c n2 n3 -> node_effect o1 pt1 c n1 n3 \/ node_effect o2 pt2 c n1 n3.
Proof.
  intros o1 pt1 o2 pt2 c n1 n2 n3 H1 H2. destruct H2 as [->|[[H2 [-> ->]]|[ext [text [ok [Hw [Hc [Hn ->]]]]]]]]; [now left| |].
  - right. destruct H1 as [<-|[[_ [_ H1]]|[ext [text [ok [_ [_ [_ H1]]]]]]]]; [|discriminate|discriminate].
    right. left. auto.
  - right. destruct H1 as [<-|[[_ [_ ->]]|[ext' [text' [ok' [_ [_ [Hn' _]]]]]]]]; [|now elim Hn|]; right; right;
      exists ext, text, ok; auto.
Qed.

Lemma nested_effect_same : forall o w w', w_pmap w' = w_pmap w -> w_fs w' = w_fs w -> nested_effect o w w'.
Proof. intros o w w' H1 H2. split; [now rewrite H1|]. intros c. left. now rewrite H2. Qed.

Lemma nested_effect_trans : forall o a b c, nested_effect o a b -> nested_effect o b c -> nested_effect o a c.
Proof.
  intros o a b c [H1 H2] [H1' H2']. split; [auto|]. intros x.
  destruct (H2' x) as [He|[f' [pt' [Hf' [Hp' He']]]]].
  - rewrite He. destruct (H2 x) as [Hx|[f [pt [Hf [Hp Hx]]]]]; [now left|]. right. exists f, pt. auto.
  - assert (Ha : get f' (w_pmap a) = None).
    { destruct (get f' (w_pmap a)) eqn:Hg; [|reflexivity]. apply H1 in Hg. congruence. }
    destruct (H2 x) as [Hx|[f [pt [Hf [Hp Hx]]]]].
    + right. exists f', pt'. rewrite <- Hx. auto.
    + destruct (node_effect_trans _ _ _ _ _ _ _ _ Hx He') as [H|H]; right; [exists f, pt|exists f', pt']; auto.
Qed.

(** The work of one parse. *)
Definition parse_effect (o : Options) (w w' : World) : Prop :=
  (forall f pt, f <> o_file o -> get f (w_pmap w) = Some pt -> get f (w_pmap w') = Some pt) /\
  (get (o_file o) (w_pmap w) <> None -> get (o_file o) (w_pmap w') <> None) /\
  forall c, get c (w_fs w') = get c (w_fs w) \/
    (exists pt, get (o_file o) (w_pmap w') = Some pt /\ node_effect o pt c (get c (w_fs w)) (get c (w_fs w'))) \/
    exists f pt, f <> o_file o /\ get f (w_pmap w) = None /\ get f (w_pmap w') = Some pt /\
      node_effect (nested o f false) pt c (get c (w_fs w)) (get c (w_fs w')).

Lemma parse_effect_nested : forall o f w w', get f (w_pmap w) = None ->
  parse_effect (nested o f false) w w' -> nested_effect o w w'.
Proof.
  intros o f w w' Hf [H1 [_ H2]]. split.
  - intros g pt Hg. destruct (string_dec g f) as [->|Hne]; [congruence|]. now apply H1.
  - intros c. destruct (H2 c) as [H|[[pt [H H']]|[g [pt [Hg [Hg1 [Hg2 H]]]]]]]; [now left| |].
    + right. exists f, pt. auto.
    + right. exists g, pt. auto.
Qed.

Lemma gvt_nested_effect : forall rec fuel o,
  (forall f w, same_files w (out_world (rec (nested o f true) w))) ->
  (forall f w, get f (w_pmap w) = None -> parse_effect (nested o f false) w (out_world (rec (nested o f false) w))) ->
  forall v t w, nested_effect o w (out_world (get_value_type rec fuel o v t w)).
Proof.
  intros rec fuel o Hx Hn v t w.
  assert (H : good (nested_effect o w) any_crash (get_value_type rec fuel o v t w)).
  { apply gvt_inv.
    - intros n w1 H. eapply nested_effect_trans; [exact H|now apply nested_effect_same].
    - exact Logic.I.
    - intros f w1 H. apply good_any. eapply nested_effect_trans; [exact H|].
      destruct (Hx f w1) as [H1 [_ [H2 _]]]. now apply nested_effect_same.
    - intros f w1 H _ Hf. apply good_any. eapply nested_effect_trans; [exact H|].
      apply (parse_effect_nested o f); [exact Hf|]. now apply Hn.
    - now apply nested_effect_same. }
  apply H.
Qed.

Lemma parse_extract_same : forall d fuel o w, o_extract o = true -> same_files w (out_world (parse d fuel o w)).
Proof.
  intros [|d] fuel o w He; [now repeat split|]. cbn [parse]. now apply body_extract_effect.
Qed.

Theorem parse_effects : forall d fuel o w, o_extract o = false -> parse_effect o w (out_world (parse d fuel o w)).
Proof.
  assert (refl : forall o w, parse_effect o w w) by (intros o w; split; [auto|split; [auto|now left]]).
  induction d as [|d IH]; intros fuel o w He; [apply refl|]. cbn [parse]. unfold parse_body. rewrite He.
  destruct (stat (o_file o) w) as [|bytes| |]; [apply refl| |apply refl|apply refl].
  destruct (env_open_fail (o_file o)); [apply refl|]. cbv zeta.
  set (w1 := register o (freeze (o_ps o)) w).
  assert (H2 : nested_effect o w1 (out_world (run_tokens (get_value_type (parse d fuel) fuel o) (env_tokens bytes) p_init w1))).
  { apply (run_rel (nested_effect o)).
    - intros w2. now apply nested_effect_same.
    - apply nested_effect_trans.
    - intros op w2 _. apply nested_effect_same; now destruct op.
    - intros v t w2. apply gvt_nested_effect; [intros f w3; now apply parse_extract_same|intros f w3 _; now apply IH]. }
  set (r := run_tokens _ _ _ w1) in *.
  destruct H2 as [Ha Hb].
  assert (Hown2 : get (o_file o) (w_pmap (out_world r)) = Some (freeze (o_ps o))) by (apply Ha; apply get_put_same).
  assert (Hm1 : forall f pt, f <> o_file o -> get f (w_pmap w) = Some pt -> get f (w_pmap (out_world r)) = Some pt).
  { intros f pt Hne Hf. apply Ha. cbn. now rewrite get_put_other by congruence. }
  assert (Hm3 : forall c, get c (w_fs (out_world r)) = get c (w_fs w) \/
    exists f pt, f <> o_file o /\ get f (w_pmap w) = None /\ get f (w_pmap (out_world r)) = Some pt /\
      node_effect (nested o f false) pt c (get c (w_fs w)) (get c (w_fs (out_world r)))).
  { intros c. destruct (Hb c) as [H|[f [pt [H1 [H2 H3]]]]]; [now left|]. right. exists f, pt.
    assert (Hne : f <> o_file o).
    { intros ->. cbn in H1. now rewrite get_put_same in H1. }
    split; [exact Hne|]. split; [|now split]. cbn in H1. now rewrite get_put_other in H1 by congruence. }
  assert (Hstop : parse_effect o w (out_world r)).
  { split; [exact Hm1|]. split; [intros _; now rewrite Hown2|]. intros c. destruct (Hm3 c) as [H|H]; [now left|right; now right]. }
  destruct r as [p w2|e w2|c w2]; cbn [bind out_world] in *; [|exact Hstop|exact Hstop].
  destruct (finish_effect o p w2 He) as [_ [_ [_ [_ [_ [_ [_ [Hp [Hc _]]]]]]]]].
  set (w3 := out_world (finish o p w2)) in *.
  assert (Hown : get (o_file o) (w_pmap w3) = Some (freeze p)) by (rewrite Hp; apply get_put_same).
  assert (Hoth : forall f, f <> o_file o -> get f (w_pmap w3) = get f (w_pmap w2)).
  { intros f Hne. rewrite Hp. apply get_put_other. congruence. }
  split; [|split].
  - intros f pt Hne Hf. rewrite Hoth by exact Hne. now apply Hm1.
  - intros _. now rewrite Hown.
  - intros c. specialize (Hc c). destruct (Hm3 c) as [H|[f [pt [Hne [H1 [H2 H3]]]]]].
    + rewrite H in Hc. right. left. exists (freeze p). now split.
    + destruct (node_effect_trans _ _ _ _ _ _ _ _ H3 Hc) as [H4|H4].
      * right. right. exists f, pt. rewrite Hoth by exact Hne. auto.
      * right. left. exists (freeze p). now split.
Qed.

(** * C25: documents without import and include *)

Lemma title_import : forall local, tag "Import" local = false -> to_title local <> "Import".
Proof. intros local H. apply tag_false in H; [exact H|known]. Qed.
Lemma title_include : forall local, tag "Include" local = false -> to_title local <> "Include".
Proof. intros local H. apply tag_false in H; [exact H|known]. Qed.

(** Everything but the namespace map and registrations is kept. *)
Definition quiet (w w' : World) : Prop :=
  w_fs w' = w_fs w /\ w_inc w' = [] /\ w_nsl w' = [] /\ w_pmap w' = w_pmap w.

Lemma gvt_quiet : forall rec fuel o v t w0 w, stat (join2 (o_dir o) "") w0 = SDir -> fuel <> 0 ->
  quiet w0 w -> exists s, get_value_type rec fuel o v t w = Ret s w.
Proof.
  intros rec fuel o v t w0 w Hs Hf [H1 [H2 [H3 _]]]. unfold get_value_type. cbv zeta. rewrite H2, H3.
  destruct (get_build_in_type _ _); [eauto|]. destruct (negb _ && negb _); [eauto|]. destruct (o_extract o); [eauto|].
  change (get0 (get0 (get_ns_prefix v) (w_lns w)) []) with "".
  destruct (is_valid_url ""); [eauto|].
  assert (Hs' : stat (join2 (o_dir o) "") w = SDir) by (unfold stat in *; now rewrite H1). rewrite Hs'.
  destruct fuel as [|fuel]; [now elim Hf|]. cbn [include_loop]. cbv zeta. rewrite H2. cbn [filter existsb length].
  rewrite Nat.add_0_l, Nat.mod_1_r. cbn. eauto.
Qed.

Theorem single_effects : forall d fuel o w bytes, o_extract o = false ->
  stat (o_file o) w = SFile bytes -> stat (join2 (o_dir o) "") w = SDir ->
  w_nsl w = [] -> w_inc w = [] -> self_contained (env_tokens bytes) -> fuel <> 0 ->
  let w' := out_world (parse d fuel o w) in
  (forall f, f <> o_file o -> get f (w_pmap w') = get f (w_pmap w)) /\
  (forall c, get c (w_fs w') = get c (w_fs w) \/
    exists pt, get (o_file o) (w_pmap w') = Some pt /\ node_effect o pt c (get c (w_fs w)) (get c (w_fs w'))).
Proof.
  intros [|d] fuel o w bytes He Hs Hd Hn Hi Ht Hf; cbv zeta; [now split; [|left]|].
  cbn [parse]. unfold parse_body. rewrite Hs, He. destruct (env_open_fail (o_file o)); [now split; [|left]|]. cbv zeta.
  set (w1 := register o (freeze (o_ps o)) w).
  assert (H2 : good (quiet w1) any_crash (run_tokens (get_value_type (parse d fuel) fuel o) (env_tokens bytes) p_init w1)).
  { apply run_inv; [| |exact Logic.I|now repeat split].
    - intros op w2 [t [Hin Hop]] [Q1 [Q2 [Q3 Q4]]]. destruct t as [local l| | |]; try (now destruct Hop).
      destruct (Ht local l Hin) as [T1 T2]. apply title_import in T1. apply title_include in T2.
      destruct Hop as [[H _]|[[H _]|[_ ->]]]; [contradiction|contradiction|]. now repeat split.
    - intros v t w2 Hq. destruct (gvt_quiet (parse d fuel) fuel o v t w1 w2 Hd Hf Hq) as [s ->]. now split. }
  destruct H2 as [[Q1 [_ [_ Q4]]] _]. set (r := run_tokens _ _ _ w1) in *.
  assert (Hkeep : forall f, f <> o_file o -> get f (w_pmap (out_world r)) = get f (w_pmap w)).
  { intros f Hne. rewrite Q4. cbn. apply get_put_other. congruence. }
  destruct r as [p w2|e w2|c w2]; cbn [bind out_world] in *.
  - destruct (finish_effect o p w2 He) as [_ [_ [_ [_ [_ [_ [_ [Hp [Hc _]]]]]]]]].
    split.
    + intros f Hne. rewrite Hp, get_put_other by congruence. now apply Hkeep.
    + intros c. right. exists (freeze p). split; [rewrite Hp; apply get_put_same|].
      specialize (Hc c). rewrite Q1 in Hc. exact Hc.
  - split; [exact Hkeep|]. intros c. left. now rewrite Q1.
  - split; [exact Hkeep|]. intros c'. left. now rewrite Q1.
Qed.

(** A successful Parse has written the generated text. *)
Theorem parse_success : forall d fuel o w bytes p w', o_extract o = false -> stat (o_file o) w = SFile bytes ->
  parse d fuel o w = Ret p w' ->
  get (o_file o) (w_pmap w') = Some (freeze p) /\
  forall ext text ok, written (o_lang o) (o_package o) (freeze p) ext text ok ->
    ok = true /\ let f := file_with_extension (output_path o) ext in
    get (clean f) (w_fs w') = Some (NFile (env_write f text)).
Proof.
  intros [|d] fuel o w bytes p w' He Hs H; [discriminate|]. cbn [parse] in H. unfold parse_body in H. rewrite Hs, He in H.
  destruct (env_open_fail (o_file o)); [discriminate|]. cbv zeta in H.
  apply bind_ret in H as [q [w2 [_ H]]]. destruct (finish_effect o q w2 He) as [_ [_ [_ [_ [_ [_ [_ [Hp [_ Hr]]]]]]]]].
  destruct (Hr p w' H) as [<- H']. rewrite H in Hp, H'. cbn [out_world] in Hp, H'. split; [rewrite Hp; apply get_put_same|exact H'].
Qed.

(** * C26 *)

Lemma split_on_app : forall c a b, split_on c (a ++ String c b) = (split_on c a ++ split_on c b)%list.
Proof.
  intros c a b. induction a as [|x a IH]; cbn; [now rewrite Ascii.eqb_refl|].
  destruct (Ascii.eqb x c); [cbn; now rewrite IH|]. rewrite IH.
  destruct (split_on c a) eqn:Ha; [now apply split_on_nonempty in Ha|reflexivity].
Qed.

Lemma path_comps_app : forall a b, path_comps (a ++ "/" ++ b) = (path_comps a ++ path_comps b)%list.
Proof. intros a b. unfold path_comps. change ("/" ++ b) with (String "/" b). now rewrite split_on_app, filter_app. Qed.

Lemma sjoin_app : forall a b, a <> [] -> b <> [] -> sjoin "/" (a ++ b) = sjoin "/" a ++ "/" ++ sjoin "/" b.
Proof.
  intros a b Ha Hb. induction a as [|x a IH]; [now elim Ha|]. destruct a as [|y a].
  - destruct b as [|z b]; [now elim Hb|]. reflexivity.
  - change ((x :: y :: a) ++ b)%list with (x :: y :: (a ++ b))%list.
    change (sjoin "/" (x :: y :: a)) with (x ++ "/" ++ sjoin "/" (y :: a)).
    change (sjoin "/" (x :: y :: a ++ b)) with (x ++ "/" ++ sjoin "/" ((y :: a) ++ b)).
    rewrite IH by discriminate. now rewrite !app_assoc_s.
Qed.

Lemma split_on_sjoin : forall l, l <> [] -> Forall (fun c => has_char "/" c = false) l -> split_on "/" (sjoin "/" l) = l.
Proof.
  intros l Hl H. induction H as [|x l Hx H IH]; [now elim Hl|]. destruct l as [|y l]; [now apply split_on_no_char|].
  change (sjoin "/" (x :: y :: l)) with (x ++ String "/" (sjoin "/" (y :: l))).
  rewrite split_on_app_char by exact Hx. now rewrite IH.
Qed.

Lemma sjoin_last : forall l x s, sjoin "/" (l ++ [x]) ++ s = sjoin "/" (l ++ [x ++ s]).
Proof.
  intros l x s. destruct l as [|y l]; [reflexivity|]. rewrite !sjoin_app by discriminate. rewrite !app_assoc_s; reflexivity.
Qed.

Lemma has_char_app : forall c a b, has_char c (a ++ b) = has_char c a || has_char c b.
Proof. intros c a b. induction a as [|x a IH]; [reflexivity|]. cbn. now rewrite IH, orb_assoc. Qed.

Lemma rooted_app : forall a b, a <> "" -> is_rooted (a ++ b) = is_rooted a.
Proof.
  intros [|x a] b H; [now elim H|]. unfold is_rooted, has_prefix. cbn [append strip_prefix]. destruct (Ascii.eqb _ _); reflexivity.
Qed.

(** Joining names without ".." to a directory. *)
Lemma join_comps : forall d rel, d <> "" -> Forall (fun c => c <> "..") (path_comps rel) ->
  join2 d rel = unparse (is_rooted d) (pcomps d ++ path_comps rel) /\ normal (is_rooted d) (pcomps d ++ path_comps rel).
Proof.
  intros d rel Hd Hr. unfold join2. replace (String.eqb d "") with false by (symmetry; now apply String.eqb_neq).
  assert (Hp : pcomps (d ++ "/" ++ rel) = (pcomps d ++ path_comps rel)%list).
  { unfold pcomps at 1. rewrite rooted_app by exact Hd. rewrite path_comps_app. unfold clean_comps at 1.
    rewrite fold_left_app, clean_names by exact Hr. rewrite rev_app_distr, rev_involutive. reflexivity. }
  rewrite clean_unparse, rooted_app by exact Hd. rewrite Hp. split; [reflexivity|].
  rewrite <- Hp, <- (rooted_app d ("/" ++ rel)) by exact Hd. apply pcomps_normal.
Qed.

Lemma normal_app_names : forall r cs names, normal r cs -> Forall real_comp names -> Forall (fun c => c <> "..") names ->
  normal r (cs ++ names).
Proof.
  intros r cs names [H [k [ns [-> [Hn Hk]]]]] Hr Hd. split; [now apply Forall_app|].
  exists k, (ns ++ names)%list. rewrite app_assoc. split; [reflexivity|]. split; [now apply Forall_app|exact Hk].
Qed.

Lemma written_exts : forall lang pkg pt ext text ok, written lang pkg pt ext text ok ->
  In ext [".go"; ".h"; ".java"; ".rs"; ".ts"].
Proof. intros lang pkg pt ext text ok H. unfold written in H. cbn. intuition subst; tauto. Qed.

Theorem output_inside : forall o c, o_output o <> "" ->
  (forall x, In x (split_on "/" (trim_prefix (o_file o) (o_input o))) -> x <> "..") ->
  (exists x, In x (split_on "/" (trim_prefix (o_file o) (o_input o))) /\ x <> "" /\ x <> ".") ->
  target o c -> inside (o_output o) c.
Proof.
  intros o c Ho Hdots [x [Hx [Hx1 Hx2]]] [pt [ext [text [ok [Hw ->]]]]]. apply written_exts in Hw.
  set (rel := trim_prefix (o_file o) (o_input o)) in *.
  assert (Hd : Forall (fun c => c <> "..") (path_comps rel)).
  { apply Forall_forall. intros y Hy. apply filter_In in Hy as [Hy _]. now apply Hdots. }
  assert (Hin : In x (path_comps rel)).
  { apply filter_In. split; [exact Hx|]. apply String.eqb_neq in Hx1, Hx2. now rewrite Hx1, Hx2. }
  destruct (join_comps (o_output o) rel Ho Hd) as [Hj Hn]. unfold output_path. fold rel. rewrite Hj.
  destruct (exists_last (l := path_comps rel)) as [init [l Hl]]; [intros He; now rewrite He in Hin|].
  pose proof (path_comps_real rel) as Hreal. rewrite Hl in *. clear Hl Hin Hx Hdots.
  set (r := is_rooted (o_output o)) in *. set (cs := pcomps (o_output o)) in *.
  assert (Hl' : exists l', real_comp l' /\ l' <> ".." /\
    file_with_extension (unparse r (cs ++ init ++ [l])) ext = unparse r (cs ++ init ++ [l'])).
  { apply Forall_app in Hreal as [_ Hreal]. apply Forall_cons_iff in Hreal as [[L1 [L2 L3]] _].
    apply Forall_app in Hd as [_ Hd]. apply Forall_cons_iff in Hd as [L4 _].
    unfold file_with_extension.
    assert (Hext : has_prefix ext "." = true) by (cbn in Hw; intuition subst; reflexivity). rewrite Hext.
    destruct (has_suffix _ ext); [now exists l|]. exists (l ++ ext).
    assert (Hlen : forall y, String.length (l ++ ext) <= String.length y -> String.length y < 3 -> False).
    { intros y H1 H2. destruct l as [|a l]; [now elim L2|]. rewrite length_app_s in H1. cbn in H1.
      cbn in Hw. intuition subst; cbn in H1; lia. }
    split; [split; [|split]|split].
    - rewrite has_char_app, L1. cbn in Hw. intuition subst; reflexivity.
    - intros H. apply (Hlen ""); [rewrite H|]; cbn; lia.
    - intros H. apply (Hlen "."); [rewrite H|]; cbn; lia.
    - intros H. apply (Hlen ".."); [rewrite H|]; cbn; lia.
    - unfold unparse. rewrite !app_assoc. destruct r; [now rewrite <- sjoin_last, app_assoc_s|].
      destruct ((cs ++ init) ++ [l])%list eqn:He; [now apply app_eq_nil in He as [_ He]|]. rewrite <- He, sjoin_last.
      destruct ((cs ++ init) ++ [(l ++ ext)%string])%list eqn:He'; [now apply app_eq_nil in He' as [_ He']|]. reflexivity. }
  destruct Hl' as [l' [R1 [R2 ->]]]. set (names := (init ++ [l'])%list).
  assert (N1 : Forall real_comp names).
  { apply Forall_app in Hreal as [Hreal _]. apply Forall_app. split; [exact Hreal|]. now constructor. }
  assert (N2 : Forall (fun c => c <> "..") names).
  { apply Forall_app in Hd as [Hd _]. apply Forall_app. split; [exact Hd|]. now constructor. }
  assert (N3 : names <> []) by (unfold names; now destruct init).
  assert (Hcs : normal r cs) by apply pcomps_normal.
  assert (Hnn : normal r (cs ++ names)) by now apply normal_app_names.
  unfold inside. rewrite !clean_idem.
  rewrite clean_unparse, unparse_rooted, unparse_comps by exact Hnn.
  exists (sjoin "/" names).
  assert (Hsplit : split_on "/" (sjoin "/" names) = names).
  { apply split_on_sjoin; [exact N3|]. eapply Forall_impl; [|exact N1]. now intros a [H _]. }
  split; [|split; [|split]].
  - intros He. rewrite He in Hsplit. cbn in Hsplit. rewrite <- Hsplit in N1. inversion N1 as [|? ? [_ [Hne _]] _]. now elim Hne.
  - now apply rooted_join.
  - rewrite Hsplit. rewrite Forall_forall in N1, N2. intros y Hy. split; [now apply (N1 y)|now apply (N2 y)].
  - rewrite (clean_unparse (o_output o)). fold r cs.
    assert (Hsj : unparse r (cs ++ names) = match cs with [] => unparse r names | _ => unparse r cs ++ "/" ++ sjoin "/" names end).
    { destruct cs as [|z cs']; [reflexivity|]. unfold unparse. rewrite sjoin_app by (discriminate || exact N3).
      destruct r; [now rewrite !app_assoc_s|]. reflexivity. }
    rewrite Hsj. destruct cs as [|z cs'].
    + destruct r; cbn -[sjoin]; [reflexivity|]. destruct names; [now elim N3|reflexivity].
    + replace (String.eqb (unparse r (z :: cs')) ".") with false.
      2:{ symmetry. apply String.eqb_neq. intros He. change "." with (unparse false []) in He.
          apply unparse_inj in He as [_ He]; [discriminate|exact Hcs|]. split; [constructor|]. exists 0, []. repeat split; constructor. }
      replace (String.eqb (unparse r (z :: cs')) "/") with false; [reflexivity|].
      symmetry. apply String.eqb_neq. intros He. change "/" with (unparse true []) in He.
      apply unparse_inj in He as [_ He]; [discriminate|exact Hcs|]. split; [constructor|]. exists 0, []. repeat split; constructor.
Qed.

(** * C20 *)

Lemma interp_agree : forall A (I : World -> Prop) gvt gvt' (g : prog A),
  (forall o w, I w -> I (do_wop o w)) -> (forall v t w, I w -> gvt v t w = gvt' v t w) ->
  (forall v t w s w', I w -> gvt v t w = Ret s w' -> I w') ->
  forall w, I w -> interp gvt g w = interp gvt' g w.
Proof.
  intros A I gvt gvt' g H1 H2 H3. induction g as [a|e| |v t k IH|o k IH]; intros w Hw; cbn; try reflexivity.
  - rewrite <- H2 by exact Hw. destruct (gvt v t w) eqn:Hg; cbn; try reflexivity. apply IH. eapply H3; eassumption.
  - apply IH. now apply H1.
Qed.

Lemma run_agree : forall (I : World -> Prop) gvt gvt', (forall o w, I w -> I (do_wop o w)) ->
  (forall v t w, I w -> gvt v t w = gvt' v t w) -> (forall v t w s w', I w -> gvt v t w = Ret s w' -> I w') ->
  forall ts p w, I w -> run_tokens gvt ts p w = run_tokens gvt' ts p w.
Proof.
  intros I gvt gvt' H1 H2 H3 ts p w Hw. destruct (run_interp ts p) as [g [_ Hg]]. rewrite !Hg. now apply (interp_agree _ I).
Qed.

Definition not_panic (c : crash) : Prop := c <> Panic.

Theorem parse_no_panic : (forall path s, SpecDoc.fits 0 false (env_tokens (env_write path s))) ->
  forall d fuel o w, schemas_fit w -> good schemas_fit not_panic (parse d fuel o w).
Proof.
  intros Hwrite. induction d as [|d IH]; intros fuel o w Hw; [now split|].
  cbn [parse]. unfold parse_body.
  destruct (stat (o_file o) w) as [|bytes| |] eqn:Hs; [now split| |now split|now split].
  destruct (env_open_fail (o_file o)); [now split|]. cbv zeta. apply stat_file in Hs.
  set (w1 := if o_extract o then w else register o (freeze (o_ps o)) w).
  assert (H1 : schemas_fit w1) by (unfold w1; destruct (o_extract o); exact Hw).
  pose (gvt := get_value_type (parse d fuel) fuel o). fold gvt.
  assert (Hop : forall op w2, schemas_fit w2 -> schemas_fit (do_wop op w2)) by (intros [] w2 H; exact H).
  assert (Hg : forall v t w2, schemas_fit w2 -> good schemas_fit not_panic (gvt v t w2)).
  { intros v t w2 H2. apply gvt_inv; auto. discriminate. }
  assert (H2 : schemas_fit (out_world (run_tokens gvt (env_tokens bytes) p_init w1))).
  { apply (run_inv schemas_fit any_crash); [now auto| |exact Logic.I|exact H1].
    intros v t w2 H2. apply good_any. now apply Hg. }
  assert (H3 : no_panic (run_tokens gvt (env_tokens bytes) p_init w1)).
  { pose (gvt' := fun v t w => match gvt v t w with Crash Panic w => Fail EGofmt w | m => m end).
    rewrite (run_agree schemas_fit gvt gvt').
    - apply document_no_panic; [|now apply (Hw _ _ Hs)].
      intros v t w2 w3. unfold gvt'. destruct (gvt v t w2) as [| |[]]; discriminate.
    - exact Hop.
    - intros v t w2 Hw2. unfold gvt'. destruct (Hg v t w2 Hw2) as [_ Hc]. destruct (gvt v t w2) as [| |[]]; try reflexivity.
      now elim Hc.
    - intros v t w2 s w3 Hw2 He. destruct (Hg v t w2 Hw2) as [Hc _]. rewrite He in Hc. exact Hc.
    - exact H1. }
  destruct (run_tokens gvt (env_tokens bytes) p_init w1) as [p w2|e w2|c w2]; cbn [bind out_world] in *.
  - destruct (o_extract o) eqn:He; [rewrite finish_extract by exact He; now split|].
    destruct (finish_effect o p w2 He) as [_ [Hp [_ [_ [_ [_ [_ [_ [Hc _]]]]]]]]]. split.
    + intros path b Hb. destruct (Hc path) as [H|[[_ [_ H]]|[ext [text [ok [_ [_ [_ H]]]]]]]].
      * rewrite H in Hb. now apply (H2 path).
      * congruence.
      * rewrite H in Hb. injection Hb as <-. apply Hwrite.
    + destruct (finish o p w2) as [| |c w3]; try exact Logic.I. intros ->. now apply (Hp w3).
  - now split.
  - split; [exact H2|]. intros ->. now apply (H3 w2).
Qed.

(** * C24 *)

Lemma location_get0 : forall v w loc, location v w loc -> get0 (get0 (get_ns_prefix v) (w_lns w)) (w_nsl w) = loc.
Proof.
  intros v w loc [ns [H1 H2]]. change (get_ns_prefix v) with (prefix_part v). unfold get0. destruct H1 as [H1|[H1 ->]]; rewrite H1;
  (destruct H2 as [H2|[H2 ->]]; now rewrite H2).
Qed.

Lemma undecided_base : forall name tree,
  negb (String.eqb (get_base name tree) name) && negb (String.eqb (get_base name tree) "") = false <-> undecided name tree.
Proof.
  intros name tree. split.
  - intros H t Ht. rewrite (get_base_first _ _ _ Ht) in H. destruct (String.eqb_spec t name) as [e|_]; [now left|].
    destruct (String.eqb_spec t "") as [e|_]; [now right|discriminate].
  - intros H. destruct (first_or_none name tree) as [[t Ht]|Hn].
    + rewrite (get_base_first _ _ _ Ht). destruct (H t Ht) as [-> | ->]; [now rewrite String.eqb_refl|].
      now rewrite andb_comm.
    + now rewrite (get_base_none _ _ Hn), String.eqb_refl.
Qed.

Lemma gvt_missing : forall rec fuel o v t w file, o_extract o = false -> missing_reference o v t w file ->
  get_value_type rec fuel o v t w = Fail (EStat file) w.
Proof.
  intros rec fuel o v t w file He [H1 [H2 [loc [H3 [H4 [-> H6]]]]]]. unfold get_value_type. cbv zeta.
  change (trim_ns_prefix v) with (local_part v). rewrite representation_eq, H1.
  rewrite (proj2 (undecided_base _ _) H2), He.
  rewrite (location_get0 _ _ _ H3). destruct (is_valid_url loc) eqn:Hu; [now apply url_spec in Hu|].
  unfold o_dir. now destruct H6 as [-> | ->].
Qed.

Lemma run_app_fail : forall gvt ts t rest p w q w1 e w2, run_tokens gvt ts p w = Ret q w1 ->
  on_token gvt t q w1 = Fail e w2 -> run_tokens gvt (ts ++ t :: rest) p w = Fail e w2.
Proof.
  intros gvt ts t rest p w q w1 e w2 H1 H2. rewrite run_tokens_app, H1. cbn. now rewrite H2.
Qed.

Lemma lacks_cons : forall k x l, lacks k (x :: l) -> String.eqb (a_local x) k = false /\ lacks k l.
Proof. intros k x l H. inversion H; subst. split; [now apply String.eqb_neq|assumption]. Qed.

Section Missing.
Variable gvt : string -> list proto -> World -> out string.
Variables (tree : list proto) (v : string) (w w' : World) (err : goerr).
Hypothesis Hg : gvt v tree w = Fail err w'.

Ltac step x IH := cbn [app]; intros; repeat match goal with H : lacks ?k (x :: _) |- _ => apply lacks_cons in H as [? H] end;
  repeat match goal with H : String.eqb (a_local x) ?k = false |- _ => rewrite ?H in *; clear H end;
  cbv zeta; repeat match goal with |- context [if String.eqb (a_local x) ?k then _ else _] => destruct (String.eqb (a_local x) k) end;
  now apply IH.

Lemma attribute_missing : forall k sp l1 l2 a, In k ["type"; "ref"] -> lacks "type" l1 -> lacks "ref" l1 ->
  attribute_attrs gvt tree (l1 ++ mkAttr sp k v :: l2) a w = Fail err w'.
Proof.
  intros k sp l1 l2 a Hk. revert a. induction l1 as [|x l1 IH]; intros a.
  - intros _ _. destruct Hk as [<-|[<-|[]]]; cbn; now rewrite Hg.
  - cbn [attribute_attrs app]. step x IH.
Qed.

Lemma element_missing : forall k sp l1 l2 e, In k ["type"; "ref"] -> lacks "type" l1 -> lacks "ref" l1 ->
  lacks "maxOccurs" l1 -> lacks "unbounded" l1 ->
  element_attrs gvt tree (l1 ++ mkAttr sp k v :: l2) e w = Fail err w'.
Proof.
  intros k sp l1 l2 e Hk. revert e. induction l1 as [|x l1 IH]; intros e.
  - intros _ _ _ _. destruct Hk as [<-|[<-|[]]]; cbn; now rewrite Hg.
  - cbn [element_attrs app]. step x IH.
Qed.

Lemma attrgroup_missing : forall sp l1 l2 a, lacks "ref" l1 ->
  attrgroup_attrs gvt tree (l1 ++ mkAttr sp "ref" v :: l2) a w = Fail err w'.
Proof.
  intros sp l1 l2. induction l1 as [|x l1 IH]; intros a; [intros _; cbn; now rewrite Hg|]. cbn [attrgroup_attrs app]. step x IH.
Qed.

Lemma group_missing : forall sp l1 l2 a, lacks "ref" l1 ->
  group_attrs gvt tree (l1 ++ mkAttr sp "ref" v :: l2) a w = Fail err w'.
Proof.
  intros sp l1 l2. induction l1 as [|x l1 IH]; intros a; [intros _; cbn; now rewrite Hg|]. cbn [group_attrs app]. step x IH.
Qed.

Lemma extension_missing : forall sp l1 l2 p, lacks "base" l1 ->
  extension_attrs gvt tree (l1 ++ mkAttr sp "base" v :: l2) p w = Fail err w'.
Proof.
  intros sp l1 l2. induction l1 as [|x l1 IH]; intros a; [intros _; cbn; now rewrite Hg|]. cbn [extension_attrs app]. step x IH.
Qed.

Lemma restriction_missing : forall sp l1 l2 p, lacks "base" l1 ->
  restriction_attrs gvt tree (l1 ++ mkAttr sp "base" v :: l2) p w = Fail err w'.
Proof.
  intros sp l1 l2. induction l1 as [|x l1 IH]; intros a; [intros _; cbn; now rewrite Hg|]. cbn [restriction_attrs app]. step x IH.
Qed.

Lemma list_missing : forall sp l1 l2 p, lacks "itemType" l1 ->
  list_attrs gvt tree (l1 ++ mkAttr sp "itemType" v :: l2) p w = Fail err w'.
Proof.
  intros sp l1 l2. induction l1 as [|x l1 IH]; intros a; [intros _; cbn; now rewrite Hg|]. cbn [list_attrs app]. step x IH.
Qed.

Lemma union_missing : forall sp l1 l2 p value rest, lacks "memberTypes" l1 -> split_on " " value = v :: rest ->
  union_attrs gvt tree (l1 ++ mkAttr sp "memberTypes" value :: l2) p w = Fail err w'.
Proof.
  intros sp l1 l2 p value rest H Hs. revert p H. induction l1 as [|x l1 IH]; intros a; [intros _; cbn; rewrite Hs; cbn; now rewrite Hg|].
  cbn [union_attrs app]. step x IH.
Qed.

End Missing.

Lemma split_first : forall v value, (value = v \/ exists rest, value = v ++ " " ++ rest) -> ~ (exists a b, v = a ++ " " ++ b) ->
  exists rest, split_on " " value = v :: rest.
Proof.
  intros v value Hv Hn. assert (Hc : has_char " " v = false).
  { destruct (has_char " " v) eqn:Hc; [|reflexivity]. exfalso. apply Hn. clear Hv Hn. induction v as [|a v IH]; [discriminate|].
    cbn in Hc. apply orb_true_iff in Hc as [Hc|Hc].
    - apply Ascii.eqb_eq in Hc. subst a. now exists "", v.
    - destruct (IH Hc) as [x [y ->]]. now exists (String a x), y. }
  destruct Hv as [->|[rest ->]].
  - exists []. now apply split_on_no_char.
  - exists (split_on " " rest). now apply (split_on_app_char " " v rest).
Qed.

Lemma spacing_all : forall gvt sp p w, Forall spacing sp -> run_tokens gvt sp p w = Ret p w.
Proof.
  intros gvt sp p w H. induction H as [|t sp Ht H IH]; [reflexivity|]. cbn [run_tokens].
  assert (Hr : on_token gvt t p w = Ret p w).
  { destruct Ht as [data Hb|]; [|reflexivity]. cbn. unfold on_char_data. apply blank_trim in Hb. now rewrite Hb. }
  now rewrite Hr.
Qed.

Theorem missing_file : forall d fuel o w bytes before local l v after q w1 file,
  o_extract o = false -> stat (o_file o) w = SFile bytes -> env_open_fail (o_file o) = false ->
  env_tokens bytes = (before ++ TStart local l :: after)%list -> first_reference local l v -> in_place before local ->
  run_tokens (get_value_type (parse d fuel) fuel o) before p_init (register o (freeze (o_ps o)) w) = Ret q w1 ->
  missing_reference o v (freeze q) w1 file ->
  parse (S d) fuel o w = Fail (EStat file) w1.
Proof.
  intros d fuel o w bytes before local l v after q w1 file He Hs Ho Ht Href Hin Hrun Hm.
  cbn [parse]. unfold parse_body. rewrite Hs, Ho. cbv zeta. rewrite He, Ht.
  set (gvt := get_value_type (parse d fuel) fuel o) in *.
  rewrite (run_app_fail _ _ _ _ _ _ q w1 (EStat file) w1 Hrun); [reflexivity|].
  assert (Hg : gvt v (freeze q) w1 = Fail (EStat file) w1) by now apply gvt_missing.
  assert (Hsimple : tag "List" local = true \/ tag "Union" local = true -> p_simple q <> []).
  { intros H. destruct (Hin H) as [b [st [ls [sp [-> [Hst Hsp]]]]]]. rewrite run_tokens_app in Hrun.
    destruct (run_tokens gvt b p_init _) as [q0 w0|e0 w0|c0 w0]; try discriminate. cbn [bind run_tokens] in Hrun.
    rewrite (start_dispatch gvt "SimpleType") in Hrun by (exact Hst || known). cbn -[on_simple_type] in Hrun. unfold on_simple_type in Hrun.
    cbn [bind] in Hrun. rewrite spacing_all in Hrun by exact Hsp. injection Hrun as <- _. cbn. now destruct (p_simple q0). }
  destruct Href as [h [keys [l1 [sp [k [value [l2 [Hh [Htag [-> [Hk [Hl [Hocc [Hv Hu]]]]]]]]]]]]]].
  cbn [reference_attributes In] in Hh.
  repeat match type of Hh with _ \/ _ => destruct Hh as [Hh|Hh] end; try contradiction; injection Hh as <- <-;
    rewrite (start_dispatch gvt _ local _ _ _ Htag) by known; cbn [String.eqb Ascii.eqb Bool.eqb]; cbv zeta;
    try (rewrite (Hv ltac:(discriminate)) in *).
  - destruct (Hocc eq_refl) as [O1 O2]. unfold on_element. change (freeze (set_in_element local q)) with (freeze q).
    now rewrite (element_missing gvt (freeze q) v w1 w1 (EStat file) Hg k sp l1 l2 _ Hk (Hl "type" ltac:(cbn; tauto)) (Hl "ref" ltac:(cbn; tauto)) O1 O2).
  - unfold on_attribute. change (freeze (set_in_element local q)) with (freeze q).
    now rewrite (attribute_missing gvt (freeze q) v w1 w1 (EStat file) Hg k sp l1 l2 _ Hk (Hl "type" ltac:(cbn; tauto)) (Hl "ref" ltac:(cbn; tauto))).
  - destruct Hk as [<-|[]]. unfold on_attribute_group. change (freeze (set_in_element local q)) with (freeze q).
    now rewrite (attrgroup_missing gvt (freeze q) v w1 w1 (EStat file) Hg sp l1 l2 _ (Hl "ref" ltac:(cbn; tauto))).
  - destruct Hk as [<-|[]]. unfold on_group. change (freeze (set_in_element local q)) with (freeze q).
    now rewrite (group_missing gvt (freeze q) v w1 w1 (EStat file) Hg sp l1 l2 _ (Hl "ref" ltac:(cbn; tauto))).
  - destruct Hk as [<-|[]]. unfold on_extension. change (freeze (set_in_element local q)) with (freeze q).
    now rewrite (extension_missing gvt (freeze q) v w1 w1 (EStat file) Hg sp l1 l2 _ (Hl "base" ltac:(cbn; tauto))).
  - destruct Hk as [<-|[]]. unfold on_restriction. change (freeze (set_in_element local q)) with (freeze q).
    now rewrite (restriction_missing gvt (freeze q) v w1 w1 (EStat file) Hg sp l1 l2 _ (Hl "base" ltac:(cbn; tauto))).
  - destruct Hk as [<-|[]]. unfold on_list. change (p_simple (set_in_element local q)) with (p_simple q).
    specialize (Hsimple (or_introl Htag)). destruct (p_simple q) as [|s ss]; [contradiction|]. cbn [nonempty].
    change (freeze (set_in_element local q)) with (freeze q).
    now rewrite (list_missing gvt (freeze q) v w1 w1 (EStat file) Hg sp l1 l2 _ (Hl "itemType" ltac:(cbn; tauto))).
  - destruct Hk as [<-|[]]. destruct (Hu eq_refl) as [U1 U2]. destruct (split_first v value U1 U2) as [rest Hsplit].
    unfold on_union. cbv zeta. change (p_simple (set_in_union true (set_in_element local q))) with (p_simple q).
    specialize (Hsimple (or_intror Htag)). destruct (p_simple q) as [|s ss]; [contradiction|]. cbn [nonempty].
    change (freeze (set_in_union true (set_in_element local q))) with (freeze q).
    now rewrite (union_missing gvt (freeze q) v w1 w1 (EStat file) Hg sp l1 l2 _ value rest (Hl "memberTypes" ltac:(cbn; tauto)) Hsplit).
Qed.

(** * C23 *)

Theorem truncation : forall d fuel o w bytes bytes' rest p w', o_extract o = true ->
  stat (o_file o) w = SFile bytes -> parse d fuel o w = Ret p w' ->
  env_tokens bytes = (env_tokens bytes' ++ rest)%list ->
  forall w2, stat (o_file o) w2 = SFile bytes' -> exists p2 w2', parse d fuel o w2 = Ret p2 w2'.
Proof.
  intros [|d] fuel o w bytes bytes' rest p w' He Hs H Ht w2 Hs2; [discriminate|].
  cbn [parse] in *. unfold parse_body in *. rewrite Hs in H. rewrite Hs2.
  destruct (env_open_fail (o_file o)); [discriminate|]. cbv zeta in *. rewrite He in *.
  apply bind_ret in H as [q [w1 [H _]]]. rewrite Ht, run_tokens_app in H. apply bind_ret in H as [q1 [w3 [H _]]].
  pose proof (run_sim (fun _ _ => True) (get_value_type (parse d fuel) fuel o) (get_value_type (parse d fuel) fuel o)) as HS.
  specialize (HS (fun _ _ _ _ => Logic.I)). lapply HS; clear HS.
  - intros HS. specialize (HS (env_tokens bytes') p_init w w2 Logic.I). rewrite H in HS. inversion HS as [a b x y Hab| |]; subst.
    cbn [bind]. rewrite finish_extract by exact He. eauto.
  - intros v t a b _. unfold get_value_type. cbv zeta. destruct (get_build_in_type _ _); [now constructor|].
    destruct (negb _ && negb _); [now constructor|]. rewrite He. now constructor.
Qed.

(** * C19, one tag *)

Lemma prepare_lacks : forall l ns m, lacks "schemaLocation" l -> prepare_nsl l ns m = m.
Proof.
  intros l ns m H. revert ns. induction H as [|x l Hx H IH]; intros ns; [reflexivity|]. cbn [prepare_nsl]. cbv zeta.
  apply String.eqb_neq in Hx. rewrite Hx. apply IH.
Qed.

Lemma prepare_app : forall l1 l2 ns m, lacks "schemaLocation" l1 -> exists ns',
  prepare_nsl (l1 ++ l2) ns m = prepare_nsl l2 ns' m /\ (lacks "namespace" l1 -> ns' = ns).
Proof.
  intros l1 l2 ns m H. revert ns. induction H as [|x l Hx H IH]; intros ns; [now exists ns|]. cbn [app prepare_nsl]. cbv zeta.
  apply String.eqb_neq in Hx. rewrite Hx. destruct (IH (if String.eqb (a_local x) "namespace" then a_value x else ns)) as [ns' [H1 H2]].
  exists ns'. split; [exact H1|]. intros Hl. inversion Hl as [|? ? Hn Hl']; subst. apply String.eqb_neq in Hn. rewrite Hn in H2. now apply H2.
Qed.

Theorem import_tag : forall gvt local l1 l2 l3 sp sp' ns loc p w,
  tag "Import" local = true -> lacks "schemaLocation" l1 -> lacks "namespace" l2 -> lacks "schemaLocation" l2 ->
  lacks "schemaLocation" l3 ->
  exists w', on_token gvt (TStart local (l1 ++ mkAttr sp "namespace" ns :: l2 ++ mkAttr sp' "schemaLocation" loc :: l3)) p w
      = Ret (set_in_element local p) w' /\
    w_fs w' = w_fs w /\ w_inc w' = w_inc w /\ w_lns w' = w_lns w /\
    (forall ns', ns' <> ns -> get ns' (w_nsl w') = get ns' (w_nsl w)) /\
    (get ns (w_nsl w) <> None -> get ns (w_nsl w') = get ns (w_nsl w)) /\
    (get ns (w_nsl w) = None -> is_url loc -> get ns (w_nsl w') = None) /\
    (get ns (w_nsl w) = None -> ~ is_url loc -> get ns (w_nsl w') = Some loc).
Proof.
  intros gvt local l1 l2 l3 sp sp' ns loc p w Ht H1 H2 H3 H4.
  rewrite (start_dispatch _ "Import") by (exact Ht || known). cbn -[on_import]. unfold on_import.
  eexists. split; [reflexivity|]. cbn [w_fs w_inc w_lns w_nsl set_nsl]. split; [reflexivity|]. split; [reflexivity|]. split; [reflexivity|].
  destruct (prepare_app l1 (mkAttr sp "namespace" ns :: l2 ++ mkAttr sp' "schemaLocation" loc :: l3) "" (w_nsl w) H1) as [ns1 [-> _]].
  change (prepare_nsl (mkAttr sp "namespace" ns :: l2 ++ mkAttr sp' "schemaLocation" loc :: l3) ns1 (w_nsl w)) with
    (prepare_nsl (l2 ++ mkAttr sp' "schemaLocation" loc :: l3) ns (w_nsl w)).
  destruct (prepare_app l2 (mkAttr sp' "schemaLocation" loc :: l3) ns (w_nsl w) H3) as [ns2 [-> Hns]]. rewrite (Hns H2).
  change (prepare_nsl (mkAttr sp' "schemaLocation" loc :: l3) ns (w_nsl w)) with
    (prepare_nsl l3 ns (if has_key ns (w_nsl w) then w_nsl w else if is_valid_url loc then w_nsl w else put ns loc (w_nsl w))).
  rewrite prepare_lacks by exact H4. unfold has_key.
  destruct (get ns (w_nsl w)) as [old|] eqn:Hold.
  - repeat split; try congruence.
  - destruct (is_valid_url loc) eqn:Hu.
    + apply url_spec in Hu. repeat split; try congruence.
    + assert (Hu' : ~ is_url loc) by (intros Hx; apply url_spec in Hx; congruence).
      split; [|split; [congruence|split; [contradiction|intros _ _; apply get_put_same]]].
      intros ns' Hne. now rewrite get_put_other by congruence.
Qed.

(** * C47 *)

Lemma values_cons : forall k x l v, In v (values k (x :: l)) ->
  (a_local x = k /\ v = a_value x) \/ In v (values k l).
Proof.
  intros k x l v H. unfold values in *. cbn [filter] in H. destruct (String.eqb_spec (a_local x) k) as [He|He]; [|now right].
  destruct H as [<-|H]; [now left|now right].
Qed.

Lemma element_attrs_bad : forall gvt tree l v, In v (values "maxOccurs" l) -> ~ occurs_ok v ->
  forall e w e' w', element_attrs gvt tree l e w <> Ret e' w'.
Proof.
  intros gvt tree l v Hin Hv. apply max_occurs_none in Hv. induction l as [|x l IH]; [contradiction|].
  intros e w e' w'. cbn [element_attrs]. cbv zeta. apply values_cons in Hin.
  assert (Hn : a_local x <> "maxOccurs" -> In v (values "maxOccurs" l)) by intuition.
  destruct (String.eqb_spec (a_local x) "ref") as [Hx|_].
  { destruct (gvt _ _ _); cbn; try discriminate. apply IH. apply Hn. now rewrite Hx. }
  destruct (String.eqb_spec (a_local x) "name") as [Hx|_].
  { apply IH. apply Hn. now rewrite Hx. }
  destruct (String.eqb_spec (a_local x) "type") as [Hx|_].
  { destruct (gvt _ _ _); cbn; try discriminate. apply IH. apply Hn. now rewrite Hx. }
  destruct (String.eqb_spec (a_local x) "maxOccurs") as [Hx|Hx].
  { destruct (max_occurs (a_value x)) eqn:Hm; [|discriminate]. apply IH.
    destruct Hin as [[_ ->]|Hin]; [congruence|exact Hin]. }
  destruct (String.eqb_spec (a_local x) "unbounded"); apply IH; now apply Hn.
Qed.

Lemma choice_attrs_bad : forall l v, In v (values "maxOccurs" l) -> ~ occurs_ok v ->
  forall b w b' w', choice_attrs l b w <> Ret b' w'.
Proof.
  intros l v Hin Hv. apply max_occurs_none in Hv. induction l as [|x l IH]; [contradiction|].
  intros b w b' w'. cbn [choice_attrs]. apply values_cons in Hin.
  destruct (String.eqb_spec (a_local x) "maxOccurs") as [Hx|Hx].
  - destruct (max_occurs (a_value x)) eqn:Hm; [|discriminate]. apply IH. destruct Hin as [[_ ->]|Hin]; [congruence|exact Hin].
  - apply IH. intuition.
Qed.

Lemma bad_token : forall gvt t p w p' w', bad_occurs t -> on_token gvt t p w <> Ret p' w'.
Proof.
  intros gvt t p w p' w' [local [l [v [-> [Ht [Hin Hv]]]]]]. destruct Ht as [Ht|Ht].
  - rewrite (start_dispatch gvt "Element") by (exact Ht || known). cbn -[on_element]. unfold on_element.
    destruct (element_attrs _ _ _ _ _) as [e w1| |] eqn:He; cbn; try discriminate. exfalso.
    exact (element_attrs_bad _ _ _ _ Hin Hv _ _ _ _ He).
  - rewrite (start_dispatch gvt "Choice") by (exact Ht || known). cbn -[on_choice]. unfold on_choice.
    destruct (choice_attrs _ _ _) as [e w1| |] eqn:He; cbn; try discriminate. exfalso.
    exact (choice_attrs_bad _ _ Hin Hv _ _ _ _ He).
Qed.

Lemma run_bad : forall gvt ts t, In t ts -> bad_occurs t -> forall p w p' w', run_tokens gvt ts p w <> Ret p' w'.
Proof.
  intros gvt ts t Hin Ht. induction ts as [|x ts IH]; [contradiction|]. intros p w p' w'. cbn [run_tokens].
  destruct (on_token gvt x p w) as [q w1| |] eqn:Hx; cbn; try discriminate. destruct Hin as [->|Hin]; [|now apply IH].
  exfalso. exact (bad_token _ _ _ _ _ _ Ht Hx).
Qed.

(** A document whose tokens are not all processed is not written. *)
Theorem bad_occurs_fails : forall d fuel o w bytes t, stat (o_file o) w = SFile bytes ->
  In t (env_tokens bytes) -> bad_occurs t ->
  (forall p w', parse d fuel o w <> Ret p w') /\
  (o_extract o = false -> forall c, get c (w_fs (out_world (parse d fuel o w))) = get c (w_fs w) \/
    exists f pt, f <> o_file o /\ get f (w_pmap w) = None /\ get f (w_pmap (out_world (parse d fuel o w))) = Some pt /\
      node_effect (nested o f false) pt c (get c (w_fs w)) (get c (w_fs (out_world (parse d fuel o w))))).
Proof.
  intros [|d] fuel o w bytes t Hs Hin Ht; [split; [discriminate|now left]|].
  cbn [parse]. unfold parse_body. rewrite Hs.
  destruct (env_open_fail (o_file o)); [split; [discriminate|now left]|]. cbv zeta.
  pose proof (run_bad (get_value_type (parse d fuel) fuel o) _ t Hin Ht p_init (if o_extract o then w else register o (freeze (o_ps o)) w)) as Hbad.
  split.
  - intros p w' H. apply bind_ret in H as [q [w2 [H _]]]. now apply Hbad in H.
  - intros He. rewrite He in *. set (w1 := register o (freeze (o_ps o)) w) in *.
    assert (H2 : nested_effect o w1 (out_world (run_tokens (get_value_type (parse d fuel) fuel o) (env_tokens bytes) p_init w1))).
    { apply (run_rel (nested_effect o)).
      - intros w2. now apply nested_effect_same.
      - apply nested_effect_trans.
      - intros op w2 _. apply nested_effect_same; now destruct op.
      - intros v u w2. apply gvt_nested_effect; [intros f w3; now apply parse_extract_same|intros f w3 _; now apply parse_effects]. }
    destruct (run_tokens _ _ _ w1) as [p w2|e w2|c w2]; [exfalso; now apply (Hbad p w2)| |]; cbn [bind out_world] in *;
    destruct H2 as [_ Hb]; intros x; destruct (Hb x) as [H|[f [pt [H1 [H2 H3]]]]]; try (now left);
    right; exists f, pt; (assert (Hne : f <> o_file o) by (intros ->; cbn in H1; now rewrite get_put_same in H1));
    (split; [exact Hne|]); (split; [|now split]); cbn in H1; now rewrite get_put_other in H1 by congruence.
Qed.

End Facts.
