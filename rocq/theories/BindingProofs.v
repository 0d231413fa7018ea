(** Proofs for C71. *)

From Coq Require Import String Ascii List NArith Bool Lia.
From Verif Require Import GoStr Utf8 Base Utils SpecStr SpecTables SpecGen SpecOut SpecBinding
  StrLemmas StrProofs GenLemmas GenOutline GenRun GenNames GenFacts GenRuns.
Import ListNotations.
Local Open Scope string_scope.

Local Infix "+++" := app (at level 60, right associativity).

Lemma quoted_read : forall a n b, has_char """" a = false -> has_char """" n = false -> has_char """" b = false -> in_quotes (a ++ quoted n ++ b) = Some n.
Proof.
  intros a n b Ha Hn Hb. assert (He : a ++ quoted n ++ b = a ++ String """" (n ++ String """" b)).
  { unfold quoted, DQ. cbn [append]. now rewrite app_assoc_s. }
  rewrite He. unfold in_quotes. rewrite split_on_app_char by exact Ha. rewrite split_on_app_char by exact Hn. now rewrite split_on_no_char.
Qed.

Lemma bind_map : forall A (f : A -> string) (r : string -> list binding) (g : A -> binding) xs, (forall x, In x xs -> r (f x) = [g x]) ->
  flat_map r (map f xs) = map g xs.
Proof.
  intros A f r g xs H. induction xs as [|x xs IH]; [reflexivity|]. cbn [map flat_map].
  rewrite H by now left. rewrite IH by (intros; apply H; now right). reflexivity.
Qed.

Lemma bind_flat : forall A (f : A -> list string) (r : string -> list binding) (g : A -> binding) xs, (forall x, In x xs -> flat_map r (f x) = [g x]) ->
  flat_map r (flat_map f xs) = map g xs.
Proof.
  intros A f r g xs H. induction xs as [|x xs IH]; [reflexivity|]. cbn [map flat_map]. rewrite flat_map_app.
  rewrite H by now left. rewrite IH by (intros; apply H; now right). reflexivity.
Qed.

Lemma bind_none : forall A (f : A -> list string) (r : string -> list binding) xs, (forall x, In x xs -> flat_map r (f x) = []) ->
  flat_map r (flat_map f xs) = [].
Proof.
  intros A f r xs H. induction xs as [|x xs IH]; [reflexivity|]. cbn [map flat_map]. rewrite flat_map_app.
  rewrite H by now left. rewrite IH by (intros; apply H; now right). reflexivity.
Qed.

Lemma bind_none_map : forall A (f : A -> string) (r : string -> list binding) xs, (forall x, In x xs -> r (f x) = []) -> flat_map r (map f xs) = [].
Proof.
  intros A f r xs H. induction xs as [|x xs IH]; [reflexivity|]. cbn [map flat_map].
  rewrite H by now left. rewrite IH by (intros; apply H; now right). reflexivity.
Qed.

Lemma bindings_concat : forall l blocks, concat (map (bindings l) blocks) = bindings l (concat blocks).
Proof.
  intros l blocks. induction blocks as [|b blocks IH]; [reflexivity|]. cbn [map concat]. rewrite IH. unfold bindings. now rewrite !flat_map_app.
Qed.

Section Bindings.
Context {E : Env}.
Hypothesis tables : case_tables_ok.
Variable pt : list proto.
Hypothesis marks : unmarked pt.

Local Notation clean s := (has_char "009" s = false) (only parsing).

(** * Go *)

Lemma go_tag_read : forall i t s, clean i -> clean t -> clean s -> has_char """" s = false ->
  go_binding (cols [i; t; xml_tag s]) =
    match split_on "," s with [n] => [Elem n] | n :: k :: _ => if string_dec k "attr" then [Attr n] else [Content] | [] => [] end.
Proof.
  intros i t s Hi Ht Hs Hq. unfold go_binding, cols. change TAB with (String "009" "").
  rewrite split_sjoin; [|discriminate|repeat constructor; try assumption; now apply tab_tag].
  unfold xml_tag. rewrite (quoted_read "`xml:" s "`" eq_refl Hq eq_refl). reflexivity.
Qed.

Lemma go_two_read : forall i t, clean i -> clean t -> go_binding (cols [i; t]) = [].
Proof. intros i t Hi Ht. unfold go_binding, cols. change TAB with (String "009" ""). rewrite split_sjoin; [reflexivity|discriminate|repeat constructor; assumption]. Qed.

Lemma shown_tab : forall t, free_of "009" t -> clean (shown Go pt t).
Proof. intros t H. apply (tab_shown tables pt); [exact (proj1 marks) | exact H]. Qed.

Lemma go_own_read : forall id n, free_of "009" n -> free_of """" n -> free_of "," n -> flat_map go_binding (go_name_row id n) = own_name id n.
Proof.
  intros id n H1 H2 H3. apply free_of_has_char in H1, H2, H3. unfold go_name_row, own_name. destruct (string_dec id n); [reflexivity|]. cbn [flat_map].
  rewrite go_tag_read by (reflexivity || assumption). rewrite split_on_no_char by exact H3. reflexivity.
Qed.

Lemma go_attribute_read : forall a, free_of "009" (at_name a) -> free_of "009" (at_type a) -> free_of """" (at_name a) -> free_of "," (at_name a) ->
  go_binding (go_attribute_row pt a) = [Attr (at_name a)].
Proof.
  intros a H1 H2 H3 H4. unfold go_attribute_row. rewrite go_tag_read.
  - apply free_of_has_char in H4. change (at_name a ++ ",attr" ++ when (at_optional a) ",omitempty") with (at_name a ++ String "," ("attr" ++ when (at_optional a) ",omitempty")).
    rewrite split_on_app_char by exact H4. destruct (at_optional a); reflexivity.
  - rewrite has_char_app, (tab_ident tables) by exact H1. reflexivity.
  - now apply shown_tab.
  - apply free_of_has_char in H1. rewrite !has_char_app, H1. now destruct (at_optional a).
  - apply free_of_has_char in H3. rewrite !has_char_app, H3. now destruct (at_optional a).
Qed.

Lemma go_group_read : forall x, free_of "009" (gr_name x) -> free_of "009" (gr_ref x) -> go_binding (go_group_row pt x) = [].
Proof.
  intros x H1 H2. apply go_two_read; [now apply (tab_ident tables)|]. rewrite has_char_app, shown_tab by exact H2. now destruct (gr_plural x).
Qed.

Ltac frees :=
  repeat match goal with
  | H : component_free _ _ |- _ => cbn [component_free] in H
  | H : _ /\ _ |- _ => destruct H
  end;
  repeat match goal with H : Forall _ _ |- _ => rewrite Forall_forall in H end.
Ltac use_in x :=
  repeat match goal with
  | H : forall y, In y ?xs -> _, Hx : In x ?xs |- _ => let K := fresh "K" in pose proof (H x Hx) as K; cbv beta in K; clear H; destruct K
  end.

Lemma go_names_read : forall p id, component_free "009" p -> component_free """" p -> component_free "," p ->
  bindings Go (go_items pt p id) = xml_names Go p id.
Proof.
  intros p id Ht Hq Hc. destruct p as [|v|v|v|v|v|v]; try reflexivity; frees; unfold bindings; cbn [go_items].
  { cbn [xml_names]. destruct (st_list v); [reflexivity|]. destruct (is_union v); [|reflexivity]. unfold go_struct.
    cbn [flat_map rows]. rewrite ?app_nil_r, ?flat_map_app, go_own_read by assumption. rewrite bind_none_map; [now rewrite app_nil_r|].
    intros m Hm. apply sorted_pairs_in in Hm. use_in m. apply go_two_read; [now apply (tab_ident tables)|]. apply (tab_type_name tables).
    unfold member_type. destruct (string_dec (snd m) ""); [|now apply free_of_has_char]. rewrite resolved_eq. apply (tab_base pt (proj1 marks)).
    now apply free_of_has_char. }
  all: unfold go_struct; cbn [flat_map rows]; rewrite ?app_nil_r, ?flat_map_app; cbn [xml_names]; rewrite go_own_read by assumption.
  - f_equal. rewrite bind_none_map by (intros x Hx; use_in x; apply go_two_read; [now apply (tab_ident tables) | now apply shown_tab]). cbn [app].
    f_equal; [apply bind_map; intros x Hx; use_in x; now apply go_attribute_read|].
    rewrite bind_none_map by (intros x Hx; use_in x; now apply go_group_read). cbn [app]. f_equal.
    + apply bind_map. intros x Hx. use_in x. repeat match goal with K : free_of _ (el_name x) |- _ => apply free_of_has_char in K end. rewrite go_tag_read.
      * now rewrite split_on_no_char.
      * apply (tab_ident tables). now apply free_of_has_char.
      * rewrite has_char_app, shown_tab by assumption. now destruct (el_plural x).
      * assumption.
      * assumption.
    + unfold go_base_row, content. destruct (ct_base v) as [|c b] eqn:Hb; [reflexivity|]. destruct (builtin Go (String c b)) eqn:Hbi; cbn [flat_map app].
      * rewrite go_tag_read; [reflexivity | reflexivity | now apply free_of_has_char | reflexivity | reflexivity].
      * unfold go_binding. rewrite split_on_no_char by (apply (tab_type_name tables); now apply free_of_has_char). reflexivity.
  - rewrite bind_none_map, bind_none_map; [now rewrite app_nil_r | |]; intros x Hx; use_in x.
    + now apply go_group_read.
    + apply go_two_read; [now apply (tab_ident tables)|]. rewrite has_char_app, shown_tab by assumption. now destruct (el_plural x).
  - f_equal. apply bind_map. intros x Hx. use_in x. now apply go_attribute_read.
Qed.

(** * Java *)

Lemma java_field_read : forall t n, java_binding (j_field t n) = [].
Proof. intros t n. unfold java_binding, j_field. cbn [append prefix]. destruct (in_quotes _); reflexivity. Qed.

Lemma java_mark_read : forall a, free_of """" (at_name a) -> java_binding (j_attribute_mark a) = [Attr (at_name a)].
Proof.
  intros a H. apply free_of_has_char in H. unfold java_binding, j_attribute_mark.
  assert (Hq : in_quotes ("@XmlAttribute(name = " ++ quoted (at_name a) ++ (if at_optional a then "" else ", required = true") ++ ")") = Some (at_name a))
    by (apply quoted_read; [reflexivity | exact H | now destruct (at_optional a)]).
  rewrite Hq. reflexivity.
Qed.

Lemma java_element_read : forall e, free_of """" (el_name e) -> flat_map java_binding (j_element_rows pt e) = [Elem (el_name e)].
Proof.
  intros e H. apply free_of_has_char in H. unfold j_element_rows. cbn [flat_map]. rewrite java_field_read. unfold java_binding.
  rewrite (quoted_read "@XmlElement(required = true, name = " (el_name e) ")" eq_refl H eq_refl). reflexivity.
Qed.

Lemma java_names_read : forall p id, component_free """" p -> bindings Java (java_items pt p id) = xml_names Java p id.
Proof.
  intros p id Hq. destruct p as [|v|v|v|v|v|v]; try reflexivity; frees; unfold bindings; cbn [java_items].
  { cbn [xml_names]. destruct (st_list v); [unfold j_wrapper, j_class; cbn [flat_map rows app]; now rewrite java_field_read|].
    destruct (is_union v); [|unfold j_wrapper, j_class; cbn [flat_map rows app]; now rewrite java_field_read].
    unfold j_class. cbn [flat_map rows]. rewrite ?app_nil_r. apply bind_none. intros x Hx. cbn [flat_map]. rewrite java_field_read. reflexivity. }
  2, 3: unfold j_wrapper, j_class; cbn [flat_map rows app]; now rewrite java_field_read.
  all: cbv zeta; unfold j_class; cbn [flat_map rows]; rewrite ?app_nil_r, ?flat_map_app; cbn [xml_names].
  - rewrite bind_none by (intros x Hx; cbn [flat_map]; rewrite java_field_read; reflexivity). cbn [app]. f_equal.
    { apply bind_flat. intros x Hx. use_in x. cbn [flat_map]. rewrite java_mark_read, java_field_read by assumption. reflexivity. }
    rewrite bind_none by (intros x Hx; cbn [j_group_rows flat_map]; rewrite java_field_read; reflexivity). cbn [app]. f_equal.
    { apply bind_flat. intros x Hx. use_in x. now apply java_element_read. }
    unfold content. destruct (builtin Java (ct_base v)); [|reflexivity]. cbn [flat_map]. rewrite java_field_read. reflexivity.
  - rewrite (bind_none _ (j_group_rows pt)) by (intros x Hx; cbn [j_group_rows flat_map]; rewrite java_field_read; reflexivity). rewrite app_nil_r.
    apply bind_flat. intros x Hx. use_in x. now apply java_element_read.
  - apply bind_flat. intros x Hx. use_in x. cbn [flat_map]. rewrite java_mark_read, java_field_read by assumption. reflexivity.
Qed.

(** * Rust *)

Lemma rust_field_read : forall n i t, has_char """" n = false -> flat_map rust_binding (r_field n i t) = [Field n].
Proof.
  intros n i t H. unfold r_field. cbn [flat_map]. unfold rust_binding. rewrite (quoted_read "#[serde(rename = " n ")]" eq_refl H eq_refl). reflexivity.
Qed.

Lemma rust_names_read : forall p id, component_free """" p -> bindings Rust (rust_items pt p id) = xml_names Rust p id.
Proof.
  intros p id Hq. destruct p as [|v|v|v|v|v|v]; try reflexivity; frees; unfold bindings; cbn [rust_items].
  { cbn [xml_names]. unfold r_struct. destruct (st_list v); [cbn [flat_map rows app]; rewrite app_nil_r; apply rust_field_read; now apply free_of_has_char|].
    destruct (is_union v); cbn [flat_map rows app]; rewrite app_nil_r; [|apply rust_field_read; now apply free_of_has_char].
    apply bind_flat. intros x Hx. apply rust_field_read. now apply free_of_has_char. }
  2, 3: unfold r_struct; cbn [flat_map rows app]; rewrite app_nil_r; apply rust_field_read; now apply free_of_has_char.
  all: unfold r_struct; cbn [flat_map rows app]; rewrite ?app_nil_r, ?flat_map_app; cbn [xml_names app]; rewrite ?map_app, ?map_map, <- ?app_assoc.
  - f_equal; [|f_equal; [|f_equal; [|f_equal]]]; try (apply bind_flat; intros x Hx; use_in x; apply rust_field_read; now apply free_of_has_char).
    unfold content. destruct (ct_base v) as [|c b]; [reflexivity|]. destruct (builtin Rust (String c b)); [now apply rust_field_read | reflexivity].
  - f_equal; apply bind_flat; intros x Hx; use_in x; apply rust_field_read; now apply free_of_has_char.
  - apply bind_flat; intros x Hx; use_in x; apply rust_field_read; now apply free_of_has_char.
Qed.

Theorem names_read : forall l p e id, In l [Go; Java; Rust] -> In p pt -> bindings l (items_of l pt p e id) = xml_names l p id.
Proof.
  intros l p e id Hl Hin. destruct marks as [M1 [M2 M3]]. unfold tree_free in M1, M2, M3. rewrite Forall_forall in M1, M2, M3.
  destruct Hl as [<-|[<-|[<-|[]]]]; cbn [items_of].
  - apply go_names_read; auto.
  - apply java_names_read; auto.
  - apply rust_names_read; auto.
Qed.

Theorem expected_names : forall l, In l [Go; Java; Rust] -> let cs := combine (rendered l [] pt) (identifiers l [] (map fst (rendered l [] pt))) in
  exists blocks, expected l pt = concat blocks /\ map (bindings l) blocks = map (fun x => xml_names l (fst (fst x)) (snd x)) cs.
Proof.
  intros l Hl cs. exists (map (fun x => items_of l pt (fst (fst x)) (snd (fst x)) (snd x)) cs). split; [reflexivity|]. rewrite map_map.
  apply map_ext_in. intros [[p e] id] Hx. cbn [fst snd]. apply names_read; [exact Hl|]. apply in_combine_l in Hx.
  apply rendered_named in Hx. exact (proj1 Hx).
Qed.

End Bindings.
