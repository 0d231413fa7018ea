(** Whole generator runs without any assumption on the names: what is recorded,
    which imports are requested, what nil entries do, which file is written. *)

From Coq Require Import String Ascii List NArith Bool Lia.
From Verif Require Import GoStr Utf8 Base Utils GenGo GenC GenJava GenRust GenTS World Handlers Parser StrLemmas SpecStr SpecGen SpecOut
  SpecDoc SpecTables Effects SpecParse StrProofs ParserProofs GenLemmas GenOutline GenRun GenNames GenFacts.
From Verif Require GenText.
Import ListNotations.
Local Open Scope string_scope.

Local Infix "+++" := app (at level 60, right associativity).

Ltac unfold_entries := unfold go_entry, c_entry, java_entry, rust_entry, ts_entry,
  go_simple_type, go_complex_type, go_element, go_attribute, go_group, go_attribute_group,
  c_simple_type, c_complex_type, c_element, c_attribute, c_group, c_attribute_group,
  java_simple_type, java_complex_type, java_element, java_attribute, java_group, java_attribute_group,
  rust_simple_type, rust_complex_type, rust_element, rust_attribute, rust_group, rust_attribute_group,
  ts_simple_type, ts_complex_type, ts_element, ts_attribute, ts_group, ts_attribute_group,
  go_unique_name, c_unique_name, java_unique_name, rust_unique_name, ts_unique_name in *.

Section Runs.
Context {E : Env}.

(** * What is recorded *)

Lemma emit_ast : forall n c t m g, g_ast (emit n c t m g) = put n c (g_ast g).
Proof. reflexivity. Qed.

Lemma entry_records : forall l pt p g n, proto_name p = Some n -> declared n g = false ->
  enumerated l p && negb (listed p) = false -> exists c, g_ast (entry_of l pt g p) = put n c (g_ast g).
Proof.
  intros l pt p g n Hn Hd He.
  destruct p as [|v|v|v|v|v|v]; cbn [proto_name] in Hn; [discriminate|..]; injection Hn as Hn; subst n;
    destruct l; cbn [entry_of]; unfold_entries; rewrite Hd; cbn [negb andb];
    try (eexists; reflexivity).
  all: rewrite ?is_union_eq; cbn [enumerated listed] in He.
  all: try (destruct (st_list v); cbn [andb]; [eexists; reflexivity|]).
  all: try (destruct (is_union v); [eexists; reflexivity|]).
  all: try (eexists; reflexivity).
  all: try (destruct (inner_array _); eexists; reflexivity).
  cbn [negb andb] in He. destruct (st_enum v); [cbn; eexists; reflexivity | discriminate].
Qed.

Lemma entry_anon : forall l pt p g n, proto_name p = Some n -> enumerated l p = true ->
  declared n g = true \/ listed p = false -> g_ast (entry_of l pt g p) = g_ast g.
Proof.
  intros l pt p g n Hn He Hd. destruct l; try discriminate. destruct p as [|v|v|v|v|v|v]; try discriminate.
  injection Hn as <-. cbn [enumerated listed entry_of] in *. unfold ts_entry, ts_simple_type.
  apply andb_true_iff in He as [Hu He]. apply negb_true_iff in Hu. rewrite is_union_eq, Hu.
  assert (Hl : st_list v && negb (declared (st_name v) g) = false).
  { destruct Hd as [-> | ->]; [apply andb_false_r | reflexivity]. }
  rewrite Hl. destruct (st_enum v); [discriminate|]. reflexivity.
Qed.

(** A component with a name that was already declared changes nothing, wherever it stands. *)
Lemma declared_kept : forall l pt p g n, declared n g = true -> declared n (entry_of l pt g p) = true.
Proof.
  intros l pt p g n Hd. destruct (proto_name p) as [m|] eqn:Hm; [|now rewrite entry_nil].
  destruct (declared m g) eqn:Hdm.
  - destruct (enumerated l p) eqn:He; [|now rewrite (entry_skips l pt p g m)].
    unfold declared in *. now rewrite (entry_anon l pt p g m Hm He (or_introl Hdm)).
  - destruct (enumerated l p && negb (listed p)) eqn:He.
    + apply andb_true_iff in He as [He Hl]. apply negb_true_iff in Hl. unfold declared in *.
      now rewrite (entry_anon l pt p g m Hm He (or_intror Hl)).
    + destruct (entry_records l pt p g m Hm Hdm He) as [c Hc]. rewrite (put_declared _ _ _ _ _ Hc).
      now destruct (string_dec m n).
Qed.

Lemma fold_declared : forall l pt tree g n, declared n g = true -> declared n (fold_left (entry_of l pt) tree g) = true.
Proof.
  intros l pt. induction tree as [|p tree IH]; intros g n H; [exact H|]. cbn [fold_left]. apply IH. now apply declared_kept.
Qed.

Lemma fold_declares : forall l pt tree g p n, In p tree -> proto_name p = Some n -> enumerated l p = false ->
  declared n (fold_left (entry_of l pt) tree g) = true.
Proof.
  intros l pt. induction tree as [|q tree IH]; intros g p n Hp Hn He; [contradiction|]. cbn [fold_left].
  destruct Hp as [->|Hp]; [|now apply (IH _ p)]. apply fold_declared.
  destruct (declared n g) eqn:Hd; [now apply declared_kept|].
  destruct (entry_records l pt p g n Hn Hd) as [c Hc]; [now rewrite He|].
  rewrite (put_declared _ _ _ _ _ Hc). destruct (string_dec n n); congruence.
Qed.

Lemma repeated_ignored : forall l pt pre p post q n g, In q pre -> proto_name q = Some n -> enumerated l q = false ->
  proto_name p = Some n -> enumerated l p = false ->
  fold_left (entry_of l pt) (pre +++ p :: post) g = fold_left (entry_of l pt) (pre +++ post) g.
Proof.
  intros l pt pre p post q n g Hq Hqn Hqe Hp Hpe. rewrite !fold_left_app. cbn [fold_left].
  rewrite (entry_skips l pt p _ n Hp (fold_declares l pt pre g q n Hq Hqn Hqe) Hpe). reflexivity.
Qed.

(** The text grows by what the component alone makes. *)
Definition no_text (g : GState) : GState := mkG "" (g_ast g) (g_time g) (g_xml g) (g_count g).

Lemma entry_appends : forall l pt p g,
  g_field (entry_of l pt g p) = g_field g ++ g_field (entry_of l pt (no_text g) p).
Proof.
  intros l pt p g. destruct g as [f a t x c]. unfold no_text. cbn [g_field g_ast g_time g_xml g_count].
  assert (Hnil : forall s : string, s = s ++ "") by (intros s; now rewrite app_nil_r_s).
  destruct p as [|v|v|v|v|v|v]; destruct l; cbn [entry_of]; unfold_entries; unfold declared; cbn [g_ast g_count];
    try apply Hnil;
    repeat match goal with
    | |- context [if ?b then _ else _] => match b with context [has_key] => destruct b | context [st_list] => destruct b
        | context [st_union] => destruct b | context [st_enum] => destruct b | context [inner_array _] => destruct b end
    end; try apply Hnil;
    cbn [set_time set_xml g_field g_ast g_time g_xml g_count]; repeat match goal with |- context [let '(_, _) := ?u in _] => destruct u end;
    cbn [emit emit_anon set_time set_xml g_field g_ast g_time g_xml g_count append]; try apply Hnil; try reflexivity.
Qed.

Lemma run_texts : forall l pt tree seen g, (forall n, declared n g = true <-> In n seen) ->
  exists gs, length gs = length (rendered l seen tree) /\
    g_field (fold_left (entry_of l pt) tree g) =
      g_field g ++ sconcat (map (fun x : proto * bool * GState => g_field (entry_of l pt (snd x) (fst (fst x)))) (combine (rendered l seen tree) gs)) /\
    Forall (fun g => g_field g = "") gs.
Proof.
  intros l pt. induction tree as [|p tree IH]; intros seen g Hs.
  - exists []. cbn. split; [reflexivity|]. split; [now rewrite app_nil_r_s|constructor].
  - cbn [fold_left rendered]. destruct (proto_name p) as [n|] eqn:Hn; [|rewrite entry_nil by exact Hn; now apply IH].
    assert (Hstep : forall e seen', (forall k, declared k (entry_of l pt g p) = true <-> In k seen') ->
      exists gs, length gs = length ((p, e) :: rendered l seen' tree) /\
        g_field (fold_left (entry_of l pt) tree (entry_of l pt g p)) =
          g_field g ++ sconcat (map (fun x : proto * bool * GState => g_field (entry_of l pt (snd x) (fst (fst x))))
            (combine ((p, e) :: rendered l seen' tree) gs)) /\
        Forall (fun g => g_field g = "") gs).
    { intros e seen' Hs'. destruct (IH seen' (entry_of l pt g p) Hs') as [gs [H1 [H2 H3]]].
      exists (no_text g :: gs). split; [cbn; now rewrite H1|]. split; [|constructor; [reflexivity|exact H3]].
      rewrite H2, entry_appends. cbn [combine map fst snd]. cbn [sconcat]. now rewrite app_assoc_s. }
    destruct (in_dec string_dec n seen) as [Hin|Hin].
    + assert (Hd : declared n g = true) by now apply Hs.
      destruct (enumerated l p) eqn:He; [|rewrite (entry_skips l pt p g n Hn Hd He); now apply IH].
      apply Hstep. intros k. unfold declared in *. rewrite (entry_anon l pt p g n Hn He (or_introl Hd)). apply Hs.
    + assert (Hd : declared n g = false).
      { destruct (declared n g) eqn:Hd; [|reflexivity]. elim Hin. now apply Hs. }
      destruct (enumerated l p && negb (listed p)) eqn:He.
      * apply andb_true_iff in He as [He Hl]. apply negb_true_iff in Hl.
        apply Hstep. intros k. unfold declared in *. rewrite (entry_anon l pt p g n Hn He (or_intror Hl)). apply Hs.
      * apply Hstep. intros k. destruct (entry_records l pt p g n Hn Hd He) as [c Hc].
        rewrite (put_declared _ _ _ _ _ Hc). cbn [In].
        destruct (string_dec n k) as [->|Hne]; [now intuition|]. rewrite Hs. intuition congruence.
Qed.

Lemma existsb_ext : forall A (f g : A -> bool), (forall x, f x = g x) -> forall l, existsb f l = existsb g l.
Proof. intros A f g H. induction l as [|x l IH]; [reflexivity|]. cbn. now rewrite H, IH. Qed.

(** * The tree matters only through the types it defines *)

Section SameTypes.
Variables pt pt' : list proto.
Hypothesis same : forall n, get_base n pt = get_base n pt'.

Ltac unfold_lines := unfold go_union_member, go_attrgroup_line, go_attrgroup_time, go_attribute_line, go_attribute_time, go_group_line, go_element_line, go_element_time, go_group_element_line, c_union_member, c_attrgroup_line, c_attribute_line, c_group_line, c_element_line, c_group_element_line, java_union_member, java_attrgroup_line, java_attribute_line, java_group_line, java_element_line, java_value_line, java_group_attribute_line, rust_union_member, rust_attrgroup_line, rust_attribute_line, rust_group_line, rust_element_line, rust_base_line, rust_group_element_line, rust_group_attribute_line, ts_union_member, ts_attrgroup_line, ts_attribute_line, ts_group_line, ts_element_line, ts_value_line,
    go_member_type, c_member_type, java_member_type, rust_member_type, ts_member_type.

Ltac lines := repeat match goal with
  | |- context [map (?f pt) ?l] => rewrite (map_ext (f pt) (f pt')) by
      (intros ?; unfold_lines; rewrite ?same; reflexivity)
  | |- context [map (?f pt ?b) ?l] => rewrite (map_ext (f pt b) (f pt' b)) by
      (intros ?; unfold_lines; rewrite ?same; reflexivity)
  | |- context [existsb (?f pt) ?l] => rewrite (existsb_ext _ (f pt) (f pt')) by
      (intros ?; unfold_lines; rewrite ?same; reflexivity)
  end.

Lemma go_same : forall g p, go_entry pt g p = go_entry pt' g p.
Proof.
  intros g [|v|v|v|v|v|v]; unfold_entries; try reflexivity; unfold go_member_type; rewrite ?same; lines; reflexivity.
Qed.

Lemma c_same : forall g p, c_entry pt g p = c_entry pt' g p.
Proof.
  intros g [|v|v|v|v|v|v]; unfold_entries; try reflexivity; unfold c_member_type; rewrite ?same; lines; reflexivity.
Qed.

Lemma java_same : forall g p, java_entry pt g p = java_entry pt' g p.
Proof.
  intros g [|v|v|v|v|v|v]; unfold_entries; try reflexivity; unfold java_value_line, java_extension, java_member_type;
    rewrite ?same; lines; reflexivity.
Qed.

Lemma rust_same : forall g p, rust_entry pt g p = rust_entry pt' g p.
Proof.
  intros g [|v|v|v|v|v|v]; unfold_entries; try reflexivity; unfold rust_base_line, rust_member_type;
    rewrite ?same; lines;
    rewrite ?(map_ext (fun x => rust_group_line pt (gr_plural x) x) (fun x => rust_group_line pt' (gr_plural x) x))
      by (intros ?; unfold_lines; rewrite ?same; reflexivity);
    reflexivity.
Qed.

Lemma ts_same : forall g p, ts_entry pt g p = ts_entry pt' g p.
Proof.
  intros g [|v|v|v|v|v|v]; unfold_entries; try reflexivity; unfold ts_value_line, ts_extension, ts_member_type;
    rewrite ?same; lines; reflexivity.
Qed.

Lemma entry_same : forall l g p, entry_of l pt g p = entry_of l pt' g p.
Proof. intros []; [apply go_same | apply c_same | apply java_same | apply rust_same | apply ts_same]. Qed.

Lemma fold_same : forall l tree g, fold_left (entry_of l pt) tree g = fold_left (entry_of l pt') tree g.
Proof. intros l. induction tree as [|p tree IH]; intros g; [reflexivity|]. cbn [fold_left]. rewrite entry_same. apply IH. Qed.

End SameTypes.

Lemma get_base_nil : forall n pt, get_base n (without_nil pt) = get_base n pt.
Proof.
  intros n. induction pt as [|p pt IH]; [reflexivity|]. unfold without_nil in *.
  destruct p; cbn [filter get_base]; rewrite ?IH; reflexivity.
Qed.

Lemma fold_nil : forall l pt tree g, fold_left (entry_of l pt) (without_nil tree) g = fold_left (entry_of l pt) tree g.
Proof.
  intros l pt. induction tree as [|p tree IH]; intros g; [reflexivity|]. unfold without_nil in *.
  destruct p; cbn [filter fold_left]; rewrite ?IH; try reflexivity. now rewrite (entry_nil l pt PNil).
Qed.

Lemma run_nil : forall l pt, run_entries (entry_of l) (without_nil pt) = run_entries (entry_of l) pt.
Proof.
  intros l pt. unfold run_entries. rewrite (fold_same (without_nil pt) pt) by (intros n; apply get_base_nil).
  apply fold_nil.
Qed.

(** * Imports of Go files *)

Lemma go_type_time : forall t, String.eqb (go_field_type t) "time.Time" = String.eqb t "time.Time".
Proof.
  intros t. unfold go_field_type. destruct (in_set t go_buildin_type) eqn:H; [reflexivity|].
  assert (Hn : String.eqb t "time.Time" = false).
  { destruct (String.eqb_spec t "time.Time") as [->|]; [discriminate H | reflexivity]. }
  rewrite Hn. now destruct (String.eqb _ "").
Qed.

Lemma is_time_eq : forall t, is_time t = String.eqb t "time.Time".
Proof. intros t. unfold is_time. destruct (String.eqb_spec t "time.Time"); destruct (string_dec t "time.Time"); congruence. Qed.

Lemma shown_time : forall pt t, is_time (shown Go pt t) = String.eqb (go_member_type pt t) "time.Time".
Proof. intros pt t. rewrite is_time_eq, shown_eq. reflexivity. Qed.

Lemma neq_eq : forall a b, (if string_dec a b then false else true) = negb (String.eqb a b).
Proof. intros a b. destruct (String.eqb_spec a b); destruct (string_dec a b); try reflexivity; congruence. Qed.

Lemma go_flags_step : forall pt p g n, proto_name p = Some n -> declared n g = false ->
  g_time (go_entry pt g p) = g_time g || asks_time pt p /\
  g_xml (go_entry pt g p) = g_xml g || asks_xml p (ident_now Go p g).
Proof.
  intros pt p g n Hn Hd. unfold ident_now.
  destruct p as [|v|v|v|v|v|v]; cbn [proto_name] in Hn; [discriminate|..]; injection Hn as <-;
    unfold_entries; rewrite Hd; cbn [negb andb asks_time asks_xml counting];
    unfold GenText.plain_ident; cbn [proto_name]; rewrite ?neq_eq.
  - rewrite shown_time. destruct (st_list v); cbn [andb negb].
    + cbn. now rewrite !orb_false_r.
    + rewrite is_union_eq. destruct (is_union v); cbn [andb]; cbn; rewrite ?orb_false_r; auto.
  - cbn [g_time g_xml emit set_time set_xml]. split; [|reflexivity].
    rewrite !(existsb_ext _ _ _ (fun a => shown_time pt (at_type a))), !(existsb_ext _ _ _ (fun a => shown_time pt (el_type a))),
      !(existsb_ext _ _ _ (fun a => shown_time pt (ag_ref a))).
    unfold go_attribute_time, go_element_time.
    rewrite (existsb_ext _ (go_attrgroup_time pt) (fun a => String.eqb (go_member_type pt (ag_ref a)) "time.Time")).
    + now rewrite !orb_assoc.
    + intros a. unfold go_attrgroup_time, go_member_type. now rewrite go_type_time.
  - cbn. now rewrite !orb_false_r.
  - cbn. now rewrite !orb_false_r.
  - cbn. now rewrite !orb_false_r.
  - cbn. now rewrite !orb_false_r.
Qed.

Lemma entry_counts : forall pt p g n, proto_name p = Some n -> declared n g = false ->
  g_count (go_entry pt g p) = count_after Go p g.
Proof.
  intros pt p g n Hn Hd. unfold count_after.
  destruct p as [|v|v|v|v|v|v]; cbn [proto_name] in Hn; [discriminate|..]; injection Hn as <-;
    unfold_entries; rewrite Hd; cbn [negb andb counting]; unfold GenText.plain_ident; cbn [proto_name]; try reflexivity.
  destruct (st_list v); cbn [andb]; [reflexivity|]. now destruct (st_union v && _).
Qed.

Lemma go_flags : forall pt tree g seen used,
  (forall n, declared n g = true <-> In n seen) -> counts_ok used (g_count g) ->
  let g' := fold_left (go_entry pt) tree g in
  let ps := map fst (rendered Go seen tree) in
  g_time g' = g_time g || existsb (asks_time pt) ps /\
  g_xml g' = g_xml g || existsb (fun x => asks_xml (fst x) (snd x)) (combine ps (identifiers Go used ps)).
Proof.
  intros pt. induction tree as [|p tree IH]; intros g seen used Hs Hu; cbn [fold_left rendered].
  - cbn. now rewrite !orb_false_r.
  - destruct (proto_name p) as [n|] eqn:Hn.
    2:{ pose proof (entry_nil Go pt p g Hn) as Hnil. cbn [entry_of] in Hnil. rewrite Hnil. now apply IH. }
    cbn [enumerated andb].
    destruct (in_dec string_dec n seen) as [Hin|Hin].
    + assert (Hd : declared n g = true) by now apply Hs.
      pose proof (entry_skips Go pt p g n Hn Hd eq_refl) as Hsk. cbn [entry_of] in Hsk. rewrite Hsk. now apply IH.
    + assert (Hd : declared n g = false).
      { destruct (declared n g) eqn:Hd; [|reflexivity]. elim Hin. now apply Hs. }
      destruct (go_flags_step pt p g n Hn Hd) as [Ht Hx].
      destruct (entry_records Go pt p g n Hn Hd eq_refl) as [c Hc]. cbn [entry_of] in Hc.
      pose proof (entry_counts pt p g n Hn Hd) as Hco.
      assert (Hs' : forall k, declared k (go_entry pt g p) = true <-> In k (n :: seen)).
      { intros k. rewrite (put_declared _ _ _ _ _ Hc). cbn [In]. destruct (string_dec n k) as [->|Hne]; [now intuition|].
        rewrite Hs. intuition congruence. }
      assert (Hu' : counts_ok (used_after Go p used) (g_count (go_entry pt g p))).
      { rewrite Hco. unfold count_after, used_after. destruct (counting Go p); [now apply uniq_counts | exact Hu]. }
      destruct (IH _ _ _ Hs' Hu') as [Ht' Hx']. rewrite Ht', Hx', Ht, Hx. cbn [map fst].
      assert (Hid : ident_now Go p g = if counting Go p then numbered (plain_ident Go p) (S (uses (plain_ident Go p) used))
                                       else plain_ident Go p).
      { unfold ident_now. rewrite <- plain_ident_eq. destruct (counting Go p); [|reflexivity]. now apply uniq_numbered. }
      assert (Hua : used_after Go p used = if counting Go p then plain_ident Go p :: used else used).
      { unfold used_after. now rewrite <- plain_ident_eq. }
      rewrite Hid, Hua. cbn [existsb identifiers].
      destruct (counting Go p); cbn [combine existsb fst snd]; rewrite !orb_assoc; auto.
Qed.

Lemma run_imports : forall pt, let g := run_entries go_entry pt in
  go_imports g = import_block (imports pt).
Proof.
  intros pt g. unfold g, run_entries, imports.
  destruct (go_flags pt pt g_init [] []) as [Ht Hx].
  - intros n. cbn. split; [discriminate | contradiction].
  - intros n. reflexivity.
  - unfold go_imports. rewrite Ht, Hx. cbn [g_init g_time g_xml orb].
    destruct (existsb (asks_time pt) _), (existsb _ (combine _ _)); reflexivity.
Qed.

(** No import without a use. *)

Lemma mentions_app_l : forall a b s, mentions a s -> mentions (a ++ b) s.
Proof. intros a b s [x [y ->]]. exists x, (y ++ b). now rewrite !app_assoc_s. Qed.
Lemma mentions_app_r : forall a b s, mentions b s -> mentions (a ++ b) s.
Proof. intros a b s [x [y ->]]. exists (a ++ x), y. now rewrite !app_assoc_s. Qed.
Lemma mentions_refl : forall s, mentions s s.
Proof. intros s. exists "", "". cbn. now rewrite app_nil_r_s. Qed.
Lemma mentions_sconcat : forall A (f : A -> string) l x s, In x l -> mentions (f x) s -> mentions (sconcat (map f l)) s.
Proof.
  intros A f. induction l as [|y l IH]; intros x s Hx Hm; [contradiction|]. cbn [map sconcat].
  destruct Hx as [->|Hx]; [now apply mentions_app_l | apply mentions_app_r; eauto].
Qed.

Lemma sconcat_cons : forall a l, sconcat (a :: l) = a ++ sconcat l.
Proof. reflexivity. Qed.

Ltac find := solve [apply mentions_refl | apply mentions_app_l; find | apply mentions_app_r; find].

Lemma xmlname_mentions : forall id name, String.eqb id name = false -> mentions (go_xmlname id name) "xml.Name".
Proof.
  intros id name H. unfold go_xmlname. rewrite H.
  apply mentions_app_r, mentions_app_r, mentions_app_r, mentions_app_l, mentions_refl.
Qed.

Definition used_flags (g : GState) : Prop :=
  (g_time g = true -> mentions (g_field g) "time.Time") /\ (g_xml g = true -> mentions (g_field g) "xml.Name").

Lemma step_used : forall pt p g, used_flags g -> used_flags (go_entry pt g p).
Proof.
  intros pt p g [Ht Hx]. unfold used_flags.
  destruct (proto_name p) as [n|] eqn:Hn.
  2:{ pose proof (entry_nil Go pt p g Hn) as Hnil. cbn [entry_of] in Hnil. rewrite Hnil. now split. }
  destruct (declared n g) eqn:Hd.
  { pose proof (entry_skips Go pt p g n Hn Hd eq_refl) as Hsk. cbn [entry_of] in Hsk. rewrite Hsk. now split. }
  destruct p as [|v|v|v|v|v|v]; cbn [proto_name] in Hn; [discriminate|..]; injection Hn as <-;
    unfold_entries; rewrite Hd; cbn [negb andb].
  - destruct (st_list v); cbn [andb].
    + cbn [uniq_name]. unfold uniq_name. cbn [emit g_time g_xml g_field set_time].
      split; [|intros H; apply mentions_app_l; now apply Hx]. intros H. apply orb_true_iff in H as [H|H].
      * apply mentions_app_l. now apply Ht.
      * apply String.eqb_eq in H. rewrite H. apply mentions_app_r. unfold go_decl.
        apply mentions_app_r, mentions_app_r, mentions_app_r, mentions_app_r, mentions_app_l, mentions_refl.
    + destruct (st_union v && _); unfold uniq_name; cbn [emit g_time g_xml g_field set_xml].
      * split; [intros H; apply mentions_app_l; now apply Ht|]. intros H. apply orb_true_iff in H as [H|H].
        -- apply mentions_app_l. now apply Hx.
        -- apply negb_true_iff in H. apply mentions_app_r. unfold go_decl.
           apply mentions_app_r, mentions_app_r, mentions_app_r, mentions_app_r, mentions_app_r, mentions_app_l.
           now apply xmlname_mentions.
      * split; intros H; apply mentions_app_l; auto.
  - unfold uniq_name; cbn [emit g_time g_xml g_field set_xml set_time]. split; intros H.
    + repeat (apply orb_true_iff in H; destruct H as [H|H]).
      * apply mentions_app_l. now apply Ht.
      * apply existsb_exists in H as [a [Ha H]]. apply mentions_app_r. unfold go_decl.
        do 5 apply mentions_app_r. apply mentions_app_r, mentions_app_l.
        apply (mentions_sconcat _ _ _ a); [exact Ha|]. unfold go_attrgroup_time in H. apply String.eqb_eq in H.
        unfold go_attrgroup_line. rewrite H. do 3 apply mentions_app_r. apply mentions_app_l, mentions_refl.
      * apply existsb_exists in H as [a [Ha H]]. apply mentions_app_r. unfold go_decl.
        do 7 apply mentions_app_r. apply mentions_app_l.
        apply (mentions_sconcat _ _ _ a); [exact Ha|]. unfold go_attribute_time in H. apply String.eqb_eq in H.
        unfold go_attribute_line. rewrite H. do 4 apply mentions_app_r. apply mentions_app_l, mentions_refl.
      * apply existsb_exists in H as [a [Ha H]]. apply mentions_app_r. unfold go_decl.
        do 9 apply mentions_app_r. apply mentions_app_l.
        apply (mentions_sconcat _ _ _ a); [exact Ha|]. unfold go_element_time in H. apply String.eqb_eq in H.
        unfold go_element_line. rewrite H. do 4 apply mentions_app_r. apply mentions_app_l, mentions_refl.
    + apply orb_true_iff in H as [H|H]; [apply mentions_app_l; now apply Hx|]. apply negb_true_iff in H.
      apply mentions_app_r. unfold go_decl. do 5 apply mentions_app_r. apply mentions_app_l. now apply xmlname_mentions.
  - cbn. split; intros H; apply mentions_app_l; auto.
  - cbn. split; intros H; apply mentions_app_l; auto.
  - unfold uniq_name; cbn [emit g_time g_xml g_field set_xml]. split; intros H; [apply mentions_app_l; auto|].
    apply orb_true_iff in H as [H|H]; [apply mentions_app_l; now apply Hx|]. apply negb_true_iff in H.
    apply mentions_app_r. unfold go_decl. do 5 apply mentions_app_r. apply mentions_app_l. now apply xmlname_mentions.
  - unfold uniq_name; cbn [emit g_time g_xml g_field set_xml]. split; intros H; [apply mentions_app_l; auto|].
    apply orb_true_iff in H as [H|H]; [apply mentions_app_l; now apply Hx|]. apply negb_true_iff in H.
    apply mentions_app_r. unfold go_decl. do 5 apply mentions_app_r. apply mentions_app_l. now apply xmlname_mentions.
Qed.

Lemma run_used : forall pt, used_flags (run_entries go_entry pt).
Proof.
  intros pt. unfold run_entries. assert (H : used_flags g_init) by (split; discriminate).
  revert H. generalize g_init. assert (Hg : forall tree g, used_flags g -> used_flags (fold_left (go_entry pt) tree g)).
  { induction tree as [|p tree IH]; intros g H; [exact H|]. cbn [fold_left]. apply IH. now apply step_used. }
  intros g H. now apply Hg.
Qed.

Lemma imports_used : forall pt,
  (In "time" (imports pt) -> mentions (g_field (run_entries go_entry pt)) "time.Time") /\
  (In "encoding/xml" (imports pt) -> mentions (g_field (run_entries go_entry pt)) "xml.Name").
Proof.
  intros pt. destruct (run_used pt) as [Ht Hx].
  destruct (go_flags pt pt g_init [] []) as [Hgt Hgx].
  { intros n. cbn. split; [discriminate | contradiction]. } { intros n. reflexivity. }
  cbn [g_init g_time g_xml orb] in Hgt, Hgx. unfold imports. fold (run_entries go_entry pt) in Hgt, Hgx.
  destruct (existsb (asks_time pt) _), (existsb _ (combine _ _)); cbn [app In]; split; intros H;
    try (apply Ht; exact Hgt); try (apply Hx; exact Hgx); intuition discriminate.
Qed.

(** * The file *)

Lemma source_text : forall l pkg pt,
  (match l with Go => go_source pkg | C => c_source | Java => java_source pkg | Rust => rust_source | TypeScript => ts_source end)
    (run_entries (entry_of l) pt) =
  preamble l pkg (imports pt) ++ g_field (run_entries (entry_of l) pt).
Proof.
  intros l pkg pt. assert (Hp : package_name pkg = package pkg) by now destruct pkg.
  destruct l; unfold go_source, c_source, java_source, rust_source, ts_source, preamble, text_lines; cbn [entry_of];
    rewrite ?run_imports, ?Hp; cbn [map]; rewrite ?sconcat_cons; change (sconcat []) with "";
    rewrite ?app_nil_r_s, ?app_assoc_s; try reflexivity.
Qed.

(** * Components in the outline *)

Lemma expected_block : forall l pt p e, In (p, e) (rendered l [] pt) ->
  exists id, contains (expected l pt) (items_of l pt p e id).
Proof.
  intros l pt p e H. unfold expected.
  destruct (in_combine_ex _ _ _ (identifiers l [] (map fst (rendered l [] pt))) _
    ltac:(now rewrite identifiers_length, map_length) H) as [id Hid].
  exists id. apply in_split in Hid as [a [b Heq]]. rewrite Heq, map_app, concat_app. cbn [map concat fst snd].
  now eexists _, _.
Qed.

Lemma first_rendered : forall l tree seen p pre post n, tree = pre +++ p :: post -> proto_name p = Some n ->
  ~ In n seen -> (forall q, In q pre -> proto_name q <> Some n) -> enumerated l p && negb (listed p) = false ->
  In (p, false) (rendered l seen tree).
Proof.
  intros l. induction tree as [|q tree IH]; intros seen p pre post n Ht Hn Hs Hpre He.
  - destruct pre; discriminate.
  - destruct pre as [|q' pre]; injection Ht as <- ->.
    + cbn [rendered]. rewrite Hn. destruct (in_dec string_dec n seen); [contradiction|]. rewrite He. now left.
    + cbn [rendered].
      assert (Hrec : forall seen', ~ In n seen' -> In (p, false) (rendered l seen' (pre +++ p :: post))).
      { intros seen' Hs'. apply (IH seen' p pre post n); auto. intros x Hx. apply Hpre. now right. }
      destruct (proto_name q) as [m|] eqn:Hm; [|now apply Hrec].
      assert (Hne : m <> n) by (intros ->; apply (Hpre q (or_introl eq_refl)); exact Hm).
      destruct (in_dec string_dec m seen).
      * destruct (enumerated l q); [right|]; now apply Hrec.
      * destruct (enumerated l q && negb (listed q)); right; apply Hrec; auto. intros [H|H]; [congruence | contradiction].
Qed.

Lemma first_block : forall l pt p, first_of p pt -> enumerated l p && negb (listed p) = false ->
  exists id, contains (expected l pt) (items_of l pt p false id).
Proof.
  intros l pt p [pre [post [n [Ht [Hn Hpre]]]]] He. apply expected_block.
  now apply (first_rendered l pt [] p pre post n).
Qed.

Lemma contains_app : forall A (a b c s : list A), contains b s -> contains (a +++ b +++ c) s.
Proof. intros A a b c s [x [y ->]]. exists (a +++ x), (y +++ c). now rewrite <- !app_assoc. Qed.

Lemma contains_l : forall A (b c s : list A), contains b s -> contains (b +++ c) s.
Proof. intros A b c s H. apply (contains_app A [] b c s H). Qed.
Lemma contains_r : forall A (a b s : list A), contains b s -> contains (a +++ b) s.
Proof. intros A a b s H. pose proof (contains_app A a b [] s H) as H'. now rewrite app_nil_r in H'. Qed.

Lemma contains_trans : forall A (a b c : list A), contains a b -> contains b c -> contains a c.
Proof. intros A a b c [x [y ->]] H. now apply contains_app. Qed.

Lemma contains_map : forall A B (f : A -> B) l x, In x l -> contains (map f l) [f x].
Proof. intros A B f l x H. apply in_split in H as [a [b ->]]. exists (map f a), (map f b). now rewrite map_app. Qed.

Lemma contains_flat : forall A B (f : A -> list B) l x, In x l -> contains (flat_map f l) (f x).
Proof.
  intros A B f l x H. apply in_split in H as [a [b ->]]. exists (flat_map f a), (flat_map f b).
  now rewrite flat_map_app.
Qed.

Lemma contains_rows : forall its its', contains its its' -> contains (all_rows its) (all_rows its').
Proof. intros its its' [a [b ->]]. exists (all_rows a), (all_rows b). unfold all_rows. now rewrite !flat_map_app. Qed.

Lemma c_declarator_plain : forall t name plural, ~ array_type t ->
  c_declarator t name plural = t ++ " " ++ name ++ when plural "[]".
Proof.
  intros t name plural H. unfold c_declarator. destruct (strip_suffix t "[]") as [u|] eqn:Hs; [|reflexivity].
  apply strip_suffix_some in Hs. elim H. now exists u.
Qed.

Ltac here := first [apply contains_map; assumption | apply contains_flat; assumption].

Lemma complex_elements : forall l pt v id e, In e (ct_elements v) ->
  (l = Rust -> el_plural e = false -> el_optional e = false) ->
  (l = TypeScript -> el_plural e = true -> builtin l (resolved pt (local_part (el_type e))) = false) ->
  (l = C -> ~ array_type (shown l pt (el_type e))) ->
  contains (all_rows (items_of l pt (PComplex v) false id)) (element_rows l pt e).
Proof.
  intros l pt v id e He Hr Ht Hc. unfold all_rows. destruct l; cbn [items_of].
  - cbn [go_items]. unfold go_struct. cbn [flat_map rows]. apply contains_l.
    apply contains_r, contains_r, contains_r, contains_r, contains_l.
    pose proof (contains_map _ _ (fun e => cols [member_ident Go (el_name e); when (el_plural e) "[]" ++ shown Go pt (el_type e);
                                xml_tag (el_name e)]) (ct_elements v) e He) as H.
    cbv beta in H. unfold element_rows. destruct (el_plural e); exact H.
  - cbn [c_items]. unfold c_struct. cbn [flat_map rows]. apply contains_l, contains_r, contains_r, contains_r.
    pose proof (contains_map _ _ (fun e => c_declarator (shown C pt (el_type e)) (member_ident C (el_name e)) (el_plural e) ++ ";")
      (ct_elements v) e He) as H.
    unfold element_rows. cbv beta in H. rewrite c_declarator_plain in H by now apply Hc.
    rewrite !app_assoc_s in H. unfold many. destruct (el_plural e); exact H.
  - cbn [java_items]. unfold j_class. cbn [flat_map rows]. apply contains_l, contains_r, contains_r, contains_r, contains_l.
    pose proof (contains_flat _ _ (j_element_rows pt) (ct_elements v) e He) as H. exact H.
  - cbn [rust_items]. unfold r_struct. cbn [flat_map rows app].
    apply contains_l, contains_r, contains_r, contains_r, contains_l.
    pose proof (contains_flat _ _ (fun e => r_field (el_name e) (member_ident Rust (el_name e))
                                 (if el_plural e then r_vec true (shown Rust pt (el_type e))
                                  else if el_optional e then "Option<" ++ shown Rust pt (el_type e) ++ ">"
                                  else shown Rust pt (el_type e))) (ct_elements v) e He) as H.
    cbv beta in H. unfold element_rows. destruct (el_plural e); [exact H|]. rewrite (Hr eq_refl eq_refl) in H. exact H.
  - cbn [ts_items]. unfold t_class. cbn [flat_map rows].
    apply contains_l, contains_r, contains_r, contains_r, contains_l.
    pose proof (contains_map _ _ (t_element_row pt) (ct_elements v) e He) as H.
    unfold t_element_row, t_field, shown_ts, array in H. unfold element_rows, shown, many.
    destruct (el_plural e); [|exact H]. rewrite Ht in H by reflexivity. exact H.
Qed.

Lemma attribute_rows_ts : forall pt a, at_plural a = false -> [t_attribute_row pt a] = attribute_rows TypeScript pt a.
Proof.
  intros pt a H. unfold t_attribute_row, attribute_rows, t_field, shown_ts, shown, array. rewrite H.
  destruct (at_optional a); unfold when; rewrite !app_assoc_s; [reflexivity|]. cbn [append]. reflexivity.
Qed.

Lemma attribute_rows_c : forall pt a, ~ array_type (shown C pt (at_type a)) -> [c_attribute_row pt a] = attribute_rows C pt a.
Proof.
  intros pt a H. unfold c_attribute_row, attribute_rows. rewrite c_declarator_plain by exact H. rewrite !app_assoc_s.
  destruct (at_optional a); reflexivity.
Qed.

Lemma attribute_rows_go : forall pt a, [go_attribute_row pt a] = attribute_rows Go pt a.
Proof.
  intros pt a. unfold go_attribute_row, attribute_rows, cols, xml_tag. cbn [sjoin]. rewrite !app_assoc_s.
  destruct (at_optional a); reflexivity.
Qed.

Lemma complex_attributes : forall l pt v id a, In a (ct_attributes v) ->
  (l = TypeScript -> at_plural a = false) -> (l = C -> ~ array_type (shown l pt (at_type a))) ->
  contains (all_rows (items_of l pt (PComplex v) false id)) (attribute_rows l pt a).
Proof.
  intros l pt v id a Ha Ht Hc. unfold all_rows. destruct l; cbn [items_of].
  - rewrite <- attribute_rows_go. cbn [go_items]. unfold go_struct. cbn [flat_map rows].
    apply contains_l, contains_r, contains_r, contains_l. here.
  - rewrite <- attribute_rows_c by now apply Hc. cbn [c_items]. unfold c_struct. cbn [flat_map rows].
    apply contains_l, contains_r, contains_l. here.
  - cbn [java_items]. unfold j_class. cbn [flat_map rows]. apply contains_l, contains_r, contains_l.
    pose proof (contains_flat _ _ (fun a => [j_attribute_mark a;
      j_field (shown Java pt (at_type a)) (member_ident Java (at_name a) ++ "Attr")]) (ct_attributes v) a Ha) as H.
    unfold attribute_rows. unfold j_attribute_mark, j_field in H. rewrite !app_assoc_s in H.
    destruct (at_optional a); exact H.
  - cbn [rust_items]. unfold r_struct. cbn [flat_map rows app]. apply contains_l, contains_r, contains_l.
    pose proof (contains_flat _ _ (fun a => r_field (at_name a) (member_ident Rust (at_name a))
                                 (if at_optional a then "Option<" ++ shown Rust pt (at_type a) ++ ">"
                                  else shown Rust pt (at_type a))) (ct_attributes v) a Ha) as H.
    exact H.
  - rewrite <- attribute_rows_ts by now apply Ht. cbn [ts_items]. unfold t_class. cbn [flat_map rows].
    apply contains_l, contains_r, contains_l. here.
Qed.

Lemma group_attributes : forall l pt v id a, In a (ag_attributes v) ->
  (l = TypeScript -> at_plural a = false) -> (l = C -> ~ array_type (shown l pt (at_type a))) ->
  l <> Java -> (l = Rust -> at_optional a = true) ->
  contains (all_rows (items_of l pt (PAttrGroup v) false id)) (attribute_rows l pt a).
Proof.
  intros l pt v id a Ha Ht Hc Hj Hr. unfold all_rows. destruct l; cbn [items_of].
  - rewrite <- attribute_rows_go. cbn [go_items]. unfold go_struct. cbn [flat_map rows].
    apply contains_l, contains_r. here.
  - rewrite <- attribute_rows_c by now apply Hc. cbn [c_items]. unfold c_struct. cbn [flat_map rows].
    apply contains_l. here.
  - congruence.
  - cbn [rust_items]. unfold r_struct. cbn [flat_map rows app]. apply contains_l.
    pose proof (contains_flat _ _ (fun a => r_field (at_name a) (member_ident Rust (at_name a))
                              (if at_optional a then "Option<" ++ shown Rust pt (at_type a) ++ ">"
                               else r_vec true (shown Rust pt (at_type a)))) (ag_attributes v) a Ha) as H.
    unfold attribute_rows. cbv beta in H. rewrite Hr in * by reflexivity. exact H.
  - rewrite <- attribute_rows_ts by now apply Ht. cbn [ts_items]. unfold t_class. cbn [flat_map rows].
    apply contains_l. here.
Qed.

(** * References *)

Lemma written_text : forall lang pkg pt ext text ok, written lang pkg pt ext text ok ->
  exists l, to_title lang = lname l /\ ext = extension l /\
    let source := preamble l pkg (imports pt) ++ g_field (run_entries (entry_of l) pt) in
    if ok then (if string_dec (lname l) "Go" then env_gofmt source = Some text else text = source)
    else l = Go /\ env_gofmt source = None /\ source = text_lines [marker; ""] ++ text.
Proof.
  intros lang pkg pt ext text ok H. unfold written in H.
  destruct H as [[H1 [-> H3]]|[-> [[H1 [-> ->]]|[[H1 [-> ->]]|[[H1 [-> ->]]|[H1 [-> ->]]]]]]].
  - exists Go. split; [exact H1|]. split; [reflexivity|]. intros source. subst source.
    rewrite <- source_text. destruct ok; [exact H3|]. destruct H3 as [H3 ->]. split; [reflexivity|]. now split.
  - exists C. split; [exact H1|]. split; [reflexivity|]. apply (source_text C pkg).
  - exists Java. split; [exact H1|]. split; [reflexivity|]. apply (source_text Java).
  - exists Rust. split; [exact H1|]. split; [reflexivity|]. apply (source_text Rust pkg).
  - exists TypeScript. split; [exact H1|]. split; [reflexivity|]. apply (source_text TypeScript pkg).
Qed.

(** * Columns of Go structures *)

Lemma split_sjoin : forall c ls, ls <> [] -> Forall (fun s => has_char c s = false) ls ->
  split_on c (sjoin (String c "") ls) = ls.
Proof.
  intros c. induction ls as [|a [|b ls] IH]; intros Hne H; [congruence|..]; inversion H as [|? ? Ha Hls]; subst.
  - now apply split_on_no_char.
  - change (sjoin (String c "") (a :: b :: ls)) with (a ++ String c (sjoin (String c "") (b :: ls))).
    rewrite split_on_app_char by exact Ha. rewrite IH; [reflexivity | discriminate | exact Hls].
Qed.

Section Columns.
Hypothesis tables : case_tables_ok.
Variable pt : list proto.
Hypothesis Hpt : tree_free "009" pt.

Local Notation clean s := (has_char "009" s = false) (only parsing).

Lemma mark_tab : mark "009".
Proof. apply mark_of; try (vm_compute; congruence). unfold ascii_letter. change (N_of_ascii "009") with 9%N. lia. Qed.

Lemma tab_ident : forall n, free_of "009" n -> clean (member_ident Go n).
Proof.
  intros n H. rewrite member_ident_eq. apply (names_mark tables "009" mark_tab). now apply free_of_has_char.
Qed.

Lemma tab_type_name : forall t, clean t -> clean (type_name Go t).
Proof.
  intros t H. rewrite type_name_eq. cbn [GenText.type_name]. unfold go_field_type.
  destruct (in_set t _); [exact H|].
  assert (Hm : clean (remove_char "_" (to_title (remove_char "-" (title_join "." t))))).
  { apply has_char_remove_other, (to_title_mark tables "009" mark_tab), has_char_remove_other,
      (title_join_mark tables "009" mark_tab), H. }
  destruct (String.eqb _ ""); [reflexivity|]. cbn [append has_char]. now rewrite Hm.
Qed.

Lemma tab_base : forall n, clean n -> clean (get_base n pt).
Proof.
  intros n H. revert Hpt. induction pt as [|p tree IH]; intros Hpt; [exact H|].
  inversion Hpt as [|? ? Hp Ht]; subst. specialize (IH Ht). cbn [get_base].
  destruct p as [|v|v|v|v|v|v]; try exact IH; cbn [component_free] in Hp.
  - destruct (negb (st_list v) && negb (st_union v) && String.eqb (st_name v) n); [|exact IH]. apply free_of_has_char, Hp.
  - destruct (String.eqb (el_name v) n); [|exact IH]. apply free_of_has_char, Hp.
  - destruct (String.eqb (at_name v) n); [|exact IH]. apply free_of_has_char, Hp.
Qed.

Lemma tab_local : forall n, clean n -> clean (local_part n).
Proof.
  intros n H. unfold local_part. destruct (split_on ":" n) as [|a [|b [|? ?]]] eqn:Hs; try exact H.
  apply (split_on_has_char "009" ":" n); [exact H|]. rewrite Hs. right. now left.
Qed.

Lemma tab_shown : forall t, free_of "009" t -> clean (shown Go pt t).
Proof.
  intros t H. unfold shown. apply tab_type_name. rewrite resolved_eq. apply tab_base, tab_local. now apply free_of_has_char.
Qed.

Lemma tab_tag : forall s, clean s -> clean ("`xml:" ++ quoted s ++ "`").
Proof. intros s H. unfold quoted. rewrite !has_char_app, H. reflexivity. Qed.

Lemma split_rows : forall A (f : A -> string) (g : A -> list string) l,
  (forall x, In x l -> f x = cols (g x) /\ g x <> [] /\ Forall (fun s => clean s) (g x)) ->
  map (split_on "009") (map f l) = map g l.
Proof.
  intros A f g. induction l as [|x l IH]; intros H; [reflexivity|]. cbn [map]. rewrite IH by (intros y Hy; apply H; now right).
  destruct (H x (or_introl eq_refl)) as [Hf [Hne Hcl]]. rewrite Hf. f_equal. now apply split_sjoin.
Qed.

Lemma go_columns : forall v id, component_free "009" (PComplex v) ->
  map (split_on "009") (all_rows (items_of Go pt (PComplex v) false id)) = go_fields pt id v.
Proof.
  intros v id [Hn [Hb [Hag [Hat [Hgr Hel]]]]]. rewrite Forall_forall in Hag, Hat, Hgr, Hel.
  unfold all_rows. cbn [items_of go_items]. unfold go_struct. cbn [flat_map rows]. rewrite !app_nil_r, !map_app.
  unfold go_fields. repeat f_equal.
  - unfold go_name_row. destruct (string_dec id (ct_name v)); [reflexivity|]. cbn [map]. f_equal.
    apply split_sjoin; [discriminate|]. repeat constructor. apply tab_tag. now apply free_of_has_char.
  - apply split_rows. intros a Ha. destruct (Hag a Ha). split; [reflexivity|]. split; [discriminate|].
    repeat constructor; auto using tab_ident, tab_shown.
  - apply split_rows. intros a Ha. destruct (Hat a Ha) as [H1 H2].
    split; [unfold go_attribute_row, xml_tag; destruct (at_optional a); reflexivity|]. split; [discriminate|].
    constructor; [rewrite has_char_app, tab_ident by exact H1; reflexivity|].
    constructor; [now apply tab_shown|]. constructor; [|constructor].
    apply tab_tag. apply free_of_has_char in H1. rewrite has_char_app, H1. now destruct (at_optional a).
  - apply split_rows. intros x Hx. destruct (Hgr x Hx) as [H1 H2]. split; [reflexivity|]. split; [discriminate|].
    constructor; [now apply tab_ident|]. constructor; [|constructor].
    rewrite has_char_app, tab_shown by exact H2. now destruct (gr_plural x).
  - apply split_rows. intros x Hx. destruct (Hel x Hx) as [H1 H2]. split; [reflexivity|]. split; [discriminate|].
    constructor; [now apply tab_ident|]. constructor; [|constructor; [|constructor]].
    + rewrite has_char_app, tab_shown by exact H2. now destruct (el_plural x).
    + apply tab_tag. now apply free_of_has_char.
  - apply free_of_has_char in Hb. unfold go_base_row. destruct (ct_base v) as [|c b] eqn:Hbase; [reflexivity|].
    destruct (builtin Go (String c b)); cbn [map]; f_equal.
    + apply (split_sjoin "009" ["Value"; String c b; xml_tag ",chardata"]); [discriminate|]. repeat constructor. exact Hb.
    + apply split_on_no_char. now apply tab_type_name.
Qed.

End Columns.

(** * References *)

Lemma reference_exact : forall l n, upper_idempotent E -> case_tables_ok -> well_formed n -> free_of ":" n ->
  ~ starts_with n "-" -> ~ starts_with n "." -> builtin l n = false ->
  type_name l n =
    if string_dec (type_ident l n) "" then
      match l with Go => "interface{}" | C | Java => "void" | Rust => "char" | TypeScript => "any" end
    else match l with
      | TypeScript => if string_dec (type_ident l n) "Any" then "any" else type_ident l n
      | _ => star l (type_ident l n)
      end.
Proof.
  intros l n Hidem Htab Hwf Hcol Hm Hd Hb.
  pose proof (NameProofs.declared_referenced Hidem Htab n Hwf Hcol Hm Hd) as Hdr.
  unfold type_name. rewrite Hb. unfold reference.
  assert (Hbare : capital (erase "-" (SpecGen.joined "." n)) = camel n).
  { unfold camel. rewrite capital_eq, !erase_remove, !joined_eq. exact Hdr. }
  rewrite Hbare. destruct l; reflexivity.
Qed.

Lemma reference_ident : forall l n, upper_idempotent E -> case_tables_ok -> well_formed n -> free_of ":" n ->
  ~ starts_with n "-" -> ~ starts_with n "." -> builtin l n = false -> type_ident l n <> "" ->
  (l = TypeScript -> type_ident l n <> "Any") -> type_name l n = star l (type_ident l n).
Proof.
  intros l n Hidem Htab Hwf Hcol Hm Hd Hb Hne Hany. rewrite reference_exact by assumption.
  destruct (string_dec (type_ident l n) ""); [contradiction|]. destruct l; try reflexivity.
  destruct (string_dec (type_ident TypeScript n) "Any"); [now elim (Hany eq_refl)|reflexivity].
Qed.

Lemma asks_time_complex : forall pt v, first_of (PComplex v) pt ->
  (exists a, In a (ct_attributes v) /\ shown Go pt (at_type a) = "time.Time") \/
  (exists e, In e (ct_elements v) /\ shown Go pt (el_type e) = "time.Time") \/
  (exists a, In a (ct_attrgroups v) /\ shown Go pt (ag_ref a) = "time.Time") ->
  In "time" (imports pt).
Proof.
  intros pt v [pre [post [n [Ht [Hn Hpre]]]]] H.
  pose proof (first_rendered Go pt [] _ pre post n Ht Hn (fun x => x) Hpre eq_refl) as Hr.
  unfold imports. assert (Hx : existsb (asks_time pt) (map fst (rendered Go [] pt)) = true).
  { apply existsb_exists. exists (PComplex v). split; [apply in_map_iff; now exists (PComplex v, false)|].
    cbn [asks_time]. destruct H as [[a [Ha H]]|[[a [Ha H]]|[a [Ha H]]]].
    - assert (Hy : existsb (fun a => is_time (shown Go pt (at_type a))) (ct_attributes v) = true).
      { apply existsb_exists. exists a. split; [exact Ha|]. now rewrite H. }
      rewrite Hy. now rewrite orb_true_r.
    - assert (Hy : existsb (fun e => is_time (shown Go pt (el_type e))) (ct_elements v) = true).
      { apply existsb_exists. exists a. split; [exact Ha|]. now rewrite H. }
      rewrite Hy. apply orb_true_r.
    - assert (Hy : existsb (fun a => is_time (shown Go pt (ag_ref a))) (ct_attrgroups v) = true).
      { apply existsb_exists. exists a. split; [exact Ha|]. now rewrite H. }
      now rewrite Hy. }
  rewrite Hx. now left.
Qed.

(** * Outcomes *)

Lemma plain_outcome : forall l lang pkg file pt w, l <> Go -> to_title lang = lname l ->
  let source := preamble l pkg (imports pt) ++ g_field (run_entries (entry_of l) pt) in
  let path := file_with_extension file (extension l) in
  exists w0, w_fs w0 = w_fs w /\
    generate lang pkg file pt w =
      match create_write path source w0 with
      | Some w' => Ret tt w'
      | None => Fail (ECreate path) w0
      end.
Proof.
  intros l lang pkg file pt w Hl Hn source path. unfold generate. rewrite Hn.
  exists (set_count (g_count (run_entries (entry_of l) pt)) w). split; [now destruct w|].
  subst source. rewrite <- source_text.
  destruct l; [congruence|..]; reflexivity.
Qed.

End Runs.
