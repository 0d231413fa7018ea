(** The outline of generated code, language by language. *)

From Coq Require Import String Ascii List NArith ZArith Bool Lia.
From Verif Require Import GoStr Base Utils GenGo GenC GenJava GenRust GenTS Utf8 StrLemmas SpecStr StrProofs
  SpecTables TableProofs SpecGen GenText GenLemmas.
Import ListNotations.
Local Open Scope string_scope.

Local Infix "+++" := app (at level 60, right associativity).

Create HintDb lf.

Lemma lf_of : forall s, one_line s -> has_char LF s = false.
Proof. intros s H. now apply free_of_has_char. Qed.

Lemma sorted_pairs_in : forall m x, In x (to_sorted_pairs m) -> In x m.
Proof.
  intros m x H. eapply Permutation.Permutation_in; [|exact H]. apply Permutation.Permutation_sym, sorted_pairs_perm.
Qed.

Lemma is_union_eq : forall v, st_union v && negb (Nat.eqb (length (st_members v)) 0) = is_union v.
Proof. intros v. unfold is_union. destruct (st_members v); reflexivity. Qed.

Lemma in_set_dec : forall A k l (a b : A), (if in_set k l then a else b) = if in_dec string_dec k l then a else b.
Proof.
  intros A k l a b. destruct (in_set k l) eqn:H; destruct (in_dec string_dec k l) as [Hi|Hi]; try reflexivity.
  - now apply in_set_In in H.
  - apply in_set_In in Hi. congruence.
Qed.

Lemma length_ltb : forall b, Nat.ltb 0 (String.length b) = match b with EmptyString => false | _ => true end.
Proof. now destruct b. Qed.

Lemma snd_eqb : forall A m (a b : A), (if String.eqb m "" then a else b) = match m with EmptyString => a | _ => b end.
Proof. now destruct m. Qed.

Lemma lf_cons : forall c s, Ascii.eqb c LF = false -> has_char LF s = false -> has_char LF (String c s) = false.
Proof. intros c s H1 H2. cbn [has_char]. now rewrite H1, H2. Qed.

Ltac nolf := repeat (match goal with |- has_char LF (String _ _) = false => apply lf_cons; [reflexivity|] end);
  repeat (rewrite has_char_app; apply orb_false_iff; split); try reflexivity; eauto with lf.
Ltac norm := unfold cols, xml_tag, quoted; cbn [map sjoin append];
  repeat (progress (rewrite ?app_assoc_s; cbn [append])); reflexivity.
Create HintDb lines.
Ltac la :=
  lazymatch goal with
  | |- LA _ (NL ++ _) _ => apply LA_nl; [nolf | norm | la]
  | |- LA _ NL _ => apply LA_end; [nolf | norm]
  | |- LA "" (_ ++ _) _ => first [apply LA_block; [solve [eauto with lines] | la] | apply LA_push; la]
  | |- LA _ (_ ++ _) _ => apply LA_push; la
  | |- LA "" _ _ => solve [unfold LA; cbn [append]; eauto with lines]
  end.
Ltac head_ok := intros [? ?]; reflexivity.

Lemma map_flat_map : forall A B D (g : B -> D) (f : A -> list B) l,
  map g (flat_map f l) = flat_map (fun x => map g (f x)) l.
Proof. induction l as [|x l IH]; [reflexivity|]. cbn. now rewrite map_app, IH. Qed.

Lemma lf_uniq : forall counts n, has_char LF n = false -> has_char LF (fst (uniq_name counts n)) = false.
Proof.
  intros counts n H. unfold uniq_name. cbn [fst]. destruct (_ =? 1)%Z; [exact H|].
  rewrite has_char_app, H. unfold itoa_int. destruct (_ <? 0)%Z; [|apply itoa_LF].
  rewrite has_char_app, itoa_LF. reflexivity.
Qed.

Lemma strip_suffix_app : forall p suf, strip_suffix (p ++ suf) suf = Some p.
Proof.
  induction p as [|a p IH]; intros suf.
  - destruct suf; cbn [append strip_suffix]; destruct (string_dec _ _); congruence.
  - cbn [append strip_suffix]. destruct (string_dec (String a (p ++ suf)) suf) as [Heq|_].
    + apply (f_equal String.length) in Heq. cbn in Heq. rewrite length_app_s in Heq. lia.
    + now rewrite IH.
Qed.

Lemma strip_suffix_some : forall t suf u, strip_suffix t suf = Some u -> t = u ++ suf.
Proof.
  induction t as [|a t IH]; intros suf u; cbn [strip_suffix]; destruct (string_dec _ _) as [Heq|H].
  - intros H0. injection H0 as <-. exact Heq.
  - discriminate.
  - intros H0. injection H0 as <-. exact Heq.
  - destruct (strip_suffix t suf) as [v|] eqn:Hv; [|discriminate]. intros [= <-]. cbn. now rewrite (IH suf v Hv) at 1.
Qed.

Lemma inner_array_eq : forall t, inner_array t =
  match strip_suffix t "[]" with Some u => (u, true) | None => (t, false) end.
Proof.
  intros t. unfold inner_array. destruct (strip_suffix t "[]") as [u|] eqn:Hs.
  - apply strip_suffix_some in Hs. subst t.
    rewrite (proj2 (has_suffix_spec _ _) (ex_intro _ u eq_refl)). now rewrite trim_suffix_app.
  - destruct (has_suffix t "[]") eqn:H; [|reflexivity].
    apply has_suffix_spec in H as [p ->]. now rewrite strip_suffix_app in Hs.
Qed.

(** One component is rendered. *)
Definition ident_now {E : Env} (l : lang) (p : proto) (g : GState) : string :=
  if counting l p then fst (uniq_name (g_count g) (plain_ident l p)) else plain_ident l p.
Definition count_after {E : Env} (l : lang) (p : proto) (g : GState) : smap Z :=
  if counting l p then snd (uniq_name (g_count g) (plain_ident l p)) else g_count g.
Definition Emits {E : Env} (l : lang) (pt : list proto) (p : proto) (e : bool) (g g' : GState) : Prop :=
  (exists text, g_field g' = g_field g ++ text /\ Text text (items_of l pt p e (ident_now l p g))) /\
  g_count g' = count_after l p g /\
  if e then g_ast g' = g_ast g
  else exists n content, proto_name p = Some n /\ g_ast g' = put n content (g_ast g).

Lemma Text_eq : forall s s' its, s = s' -> Text s' its -> Text s its.
Proof. intros s s' its -> H. exact H. Qed.

Section Outline.
Context {E : Env}.
Hypothesis tables : case_tables_ok.
Variable pt : list proto.
Hypothesis Hpt : tree_ok pt.

Lemma lf_names : forall s, has_char LF s = false ->
  has_char LF (go_field_name s) = false /\ has_char LF (c_field_name s) = false /\
  has_char LF (java_field_name s) = false /\ has_char LF (rust_struct_name s) = false /\
  has_char LF (ts_field_name s) = false /\ has_char LF (rust_field_name s) = false.
Proof. exact (names_mark tables LF mark_LF). Qed.

Lemma lf_go : forall s, has_char LF s = false -> has_char LF (go_field_name s) = false.
Proof. intros s H. apply (lf_names s H). Qed.
Lemma lf_c : forall s, has_char LF s = false -> has_char LF (c_field_name s) = false.
Proof. intros s H. apply (lf_names s H). Qed.
Lemma lf_java : forall s, has_char LF s = false -> has_char LF (java_field_name s) = false.
Proof. intros s H. apply (lf_names s H). Qed.
Lemma lf_rust : forall s, has_char LF s = false -> has_char LF (rust_struct_name s) = false.
Proof. intros s H. apply (lf_names s H). Qed.
Lemma lf_ts : forall s, has_char LF s = false -> has_char LF (ts_field_name s) = false.
Proof. intros s H. apply (lf_names s H). Qed.
Lemma lf_rust_field : forall s, has_char LF s = false -> has_char LF (rust_field_name s) = false.
Proof. intros s H. apply (lf_names s H). Qed.

Lemma lf_mangled : forall s, has_char LF s = false ->
  has_char LF (to_title (remove_char "-" (title_join "." s))) = false.
Proof.
  intros s H. apply (to_title_mark tables LF mark_LF), has_char_remove_other, (title_join_mark tables LF mark_LF), H.
Qed.

Lemma lf_go_type : forall s, has_char LF s = false -> has_char LF (go_field_type s) = false.
Proof.
  intros s H. unfold go_field_type. destruct (in_set s _); [exact H|].
  destruct (String.eqb _ ""); [reflexivity|]. cbn [append has_char]. cbn [orb].
  apply has_char_remove_other, lf_mangled, H.
Qed.
Lemma lf_c_type : forall s, has_char LF s = false -> has_char LF (c_field_type s) = false.
Proof.
  intros s H. unfold c_field_type. destruct (in_set s _); [exact H|].
  destruct (String.eqb _ ""); [reflexivity|]. apply lf_mangled, H.
Qed.
Lemma lf_java_type : forall s, has_char LF s = false -> has_char LF (java_field_type s) = false.
Proof.
  intros s H. unfold java_field_type. destruct (in_set s _); [exact H|].
  destruct (String.eqb _ ""); [reflexivity|]. apply lf_mangled, H.
Qed.
Lemma lf_rust_type : forall s, has_char LF s = false -> has_char LF (rust_field_type s) = false.
Proof.
  intros s H. unfold rust_field_type. destruct (in_set s _); [exact H|].
  destruct (String.eqb _ ""); [reflexivity|]. apply lf_rust, H.
Qed.
Lemma lf_ts_type : forall s b, has_char LF s = false -> has_char LF (ts_field_type s b) = false.
Proof.
  intros s b H. unfold ts_field_type. destruct (in_set s _); [exact H|].
  assert (H1 : has_char LF (if String.eqb (to_title (remove_char "-" (title_join "." s))) ""
                               || String.eqb (to_title (remove_char "-" (title_join "." s))) "Any"
                            then "any" else to_title (remove_char "-" (title_join "." s))) = false).
  { destruct (_ || _); [reflexivity | apply lf_mangled, H]. }
  destruct b; [nolf | exact H1].
Qed.

Lemma lf_get_base : forall s, has_char LF s = false -> has_char LF (get_base s pt) = false.
Proof.
  intros s H. unfold tree_ok in Hpt. induction pt as [|p r IH]; [exact H|].
  assert (Hp : component_ok p) by (now inversion Hpt). assert (Hr : Forall component_ok r) by (now inversion Hpt).
  specialize (IH Hr). destruct p; cbn in *; try exact IH.
  - destruct (_ && _); [apply lf_of; tauto | exact IH].
  - destruct (String.eqb _ s); [apply lf_of, Hp | exact IH].
  - destruct (String.eqb _ s); [apply lf_of, Hp | exact IH].
Qed.

Lemma lf_trim : forall s, has_char LF s = false -> has_char LF (trim_ns_prefix s) = false.
Proof.
  intros s H. unfold trim_ns_prefix. pose proof (fun x => split_on_has_char LF ":" s x H) as Hx.
  destruct (split_on ":" s) as [|a [|b [|]]]; try exact H. apply Hx. cbn. tauto.
Qed.

Lemma lf_shown : forall l s, has_char LF s = false -> has_char LF (shown l pt s) = false.
Proof.
  intros l s H. unfold shown, type_name. pose proof (lf_get_base _ (lf_trim _ H)) as Hb.
  destruct l; auto using lf_go_type, lf_c_type, lf_java_type, lf_rust_type, lf_ts_type.
Qed.
Lemma lf_shown_ts : forall s b, has_char LF s = false -> has_char LF (shown_ts pt s b) = false.
Proof. intros s b H. apply lf_ts_type, lf_get_base, lf_trim, H. Qed.

Lemma lf_member : forall m, has_char LF (fst m) = false -> has_char LF (snd m) = false ->
  has_char LF (member_type pt m) = false.
Proof. intros m H1 H2. unfold member_type. destruct (snd m); [now apply lf_get_base | exact H2]. Qed.

Lemma lf_when : forall b s, has_char LF s = false -> has_char LF (when b s) = false.
Proof. now intros [|] s H. Qed.

Local Hint Resolve lf_of lf_go lf_c lf_java lf_rust lf_ts lf_rust_field lf_go_type lf_c_type lf_java_type
  lf_rust_type lf_ts_type lf_shown lf_shown_ts lf_member lf_when : lf.

(** ** Go *)

Lemma go_struct_text : forall id doc rest ms, has_char LF id = false ->
  Lines rest (map (fun m => TAB ++ m) ms +++ ["}"]) ->
  Text (go_decl id doc (" struct {" ++ NL ++ rest)) (go_struct id doc ms).
Proof.
  intros id doc rest ms Hid Hm.
  exists ((CR :: comment id doc) +++ (("type " ++ id ++ " struct {") :: map (fun m => TAB ++ m) ms +++ ["}"])).
  split.
  - unfold go_decl. apply LA_start, LA_block; [apply Lines_comment, Hid|]. la.
  - cbn [app]. apply Reads_skip; [now right|].
    change (go_struct id doc ms) with ([mkItem (comment id doc) ("type " ++ id ++ " struct {") ms] +++ [mkItem [] "}" []]).
    rewrite app_comm_cons, app_assoc. apply Reads_app.
    + apply Reads_item; [head_ok | apply comment_marked].
    + apply (Reads_item [] "}" []); [head_ok | intros x []].
Qed.

Lemma go_alias_text : forall id doc rest, has_char LF id = false -> has_char LF rest = false ->
  Text (go_decl id doc (rest ++ NL)) (go_alias id doc rest).
Proof.
  intros id doc rest Hid Hr.
  exists ((CR :: comment id doc) +++ ["type " ++ id ++ rest]). split.
  - unfold go_decl. apply LA_start, LA_block; [apply Lines_comment, Hid|]. la.
  - cbn [app]. apply Reads_skip; [now right|].
    apply (Reads_item (comment id doc) ("type " ++ id ++ rest) []); [head_ok | apply comment_marked].
Qed.

Lemma go_xmlname_lines : forall id name, has_char LF name = false ->
  Lines (go_xmlname id name) (map (fun m => TAB ++ m) (go_name_row id name)).
Proof.
  intros id name Hn. unfold go_xmlname, go_name_row. destruct (String.eqb id name); [reflexivity|].
  apply LA_start. la.
Qed.

Ltac rows H := rewrite ?map_map; apply Lines_map; intros ?a ?Ha;
  let H1 := fresh in let H2 := fresh in
  destruct (proj1 (Forall_forall _ _) H _ ltac:(eassumption)) as [H1 H2]; apply lf_of in H1, H2;
  apply LA_start.
Ltac frows H := rewrite ?map_flat_map; apply Lines_flat_map; intros ?a ?Ha;
  let H1 := fresh in let H2 := fresh in
  destruct (proj1 (Forall_forall _ _) H _ ltac:(eassumption)) as [H1 H2]; apply lf_of in H1, H2;
  cbn [map]; apply LA_start.

Lemma go_attribute_lines : forall l, Forall attribute_ok l ->
  Lines (sconcat (map (go_attribute_line pt) l)) (map (fun m => TAB ++ m) (map (go_attribute_row pt) l)).
Proof.
  intros l Hl. rows Hl. unfold go_attribute_line, go_attribute_row.
  change (go_member_type pt (at_type a)) with (shown Go pt (at_type a)).
  change (if at_optional a then ",omitempty" else "") with (when (at_optional a) ",omitempty"). la.
Qed.

Lemma go_group_lines : forall l, Forall group_ref_ok l ->
  Lines (sconcat (map (go_group_line pt) l)) (map (fun m => TAB ++ m) (map (go_group_row pt) l)).
Proof.
  intros l Hl. rows Hl. unfold go_group_line, go_group_row.
  change (go_member_type pt (gr_ref a)) with (shown Go pt (gr_ref a)).
  change (plural_brackets (gr_plural a)) with (when (gr_plural a) "[]"). la.
Qed.

Lemma go_attrgroup_lines : forall l, Forall (fun a => one_line (ag_name a) /\ one_line (ag_ref a)) l ->
  Lines (sconcat (map (go_attrgroup_line pt) l))
    (map (fun m => TAB ++ m) (map (fun a => cols [go_field_name (ag_name a); shown Go pt (ag_ref a)]) l)).
Proof.
  intros l Hl. rows Hl. unfold go_attrgroup_line.
  change (go_field_type (get_base (trim_ns_prefix (ag_ref a)) pt)) with (shown Go pt (ag_ref a)). la.
Qed.

Lemma go_element_lines : forall l, Forall element_ok l ->
  Lines (sconcat (map (go_element_line pt) l))
    (map (fun m => TAB ++ m)
       (map (fun e => cols [go_field_name (el_name e); when (el_plural e) "[]" ++ shown Go pt (el_type e);
                            xml_tag (el_name e)]) l)).
Proof.
  intros l Hl. rows Hl. unfold go_element_line.
  change (go_member_type pt (el_type a)) with (shown Go pt (el_type a)).
  change (plural_brackets (el_plural a)) with (when (el_plural a) "[]"). la.
Qed.

Lemma go_group_element_lines : forall l, Forall element_ok l ->
  Lines (sconcat (map (go_group_element_line pt) l))
    (map (fun m => TAB ++ m)
       (map (fun e => cols [go_field_name (el_name e); when (el_plural e) "[]" ++ shown Go pt (el_type e)]) l)).
Proof.
  intros l Hl. rows Hl. unfold go_group_element_line.
  change (go_member_type pt (el_type a)) with (shown Go pt (el_type a)).
  change (plural_brackets (el_plural a)) with (when (el_plural a) "[]"). la.
Qed.

Lemma go_builtin_verbatim : forall t, in_set t go_buildin_type = true -> go_field_type t = t.
Proof. intros t H. unfold go_field_type. now rewrite H. Qed.

Lemma go_base_lines : forall b, has_char LF b = false ->
  Lines (go_base_line b) (map (fun m => TAB ++ m) (go_base_row b)).
Proof.
  intros b Hb. unfold go_base_line, go_base_row, is_go_builtin. rewrite length_ltb.
  destruct b as [|x b]; [reflexivity|]. set (t := String x b) in *. clearbody t.
  destruct (in_set t go_buildin_type) eqn:Hi.
  - destruct (in_dec string_dec t go_buildin_type) as [Hd|Hd]; [|now apply in_set_In in Hi].
    rewrite go_builtin_verbatim by exact Hi. apply LA_start. la.
  - destruct (in_dec string_dec t go_buildin_type) as [Hd|Hd]; [apply in_set_In in Hd; congruence|].
    apply LA_start. la.
Qed.

Definition members_ok (m : smap string) : Prop := Forall (fun x => one_line (fst x) /\ one_line (snd x)) m.

Lemma members_sorted : forall m, members_ok m ->
  Forall (fun x => one_line (fst x) /\ one_line (snd x)) (to_sorted_pairs m).
Proof.
  intros m H. apply Forall_forall. intros x Hx. apply sorted_pairs_in in Hx.
  exact (proj1 (Forall_forall _ _) H x Hx).
Qed.

Lemma go_union_lines : forall m, members_ok m ->
  Lines (sconcat (map (go_union_member pt) (to_sorted_pairs m)))
    (map (fun m => TAB ++ m)
       (map (fun m => cols [go_field_name (fst m); go_field_type (member_type pt m)]) (to_sorted_pairs m))).
Proof.
  intros m Hm. apply members_sorted in Hm. rows Hm. unfold go_union_member. rewrite snd_eqb.
  change (match snd a with "" => get_base (fst a) pt | _ => snd a end) with (member_type pt a). la.
Qed.

Local Hint Resolve go_xmlname_lines go_attribute_lines go_group_lines go_attrgroup_lines go_element_lines
  go_group_element_lines go_base_lines go_union_lines : lines.

Ltac members := rewrite ?map_app, <- ?app_assoc; apply LA_start; la.

Lemma go_emits : forall p g n, proto_name p = Some n -> component_ok p -> declared n g = false ->
  Emits Go pt p false g (go_entry pt g p).
Proof.
  intros p g n Hn Hp Hd.
  assert (Hid : has_char LF (ident_now Go p g) = false).
  { unfold ident_now, plain_ident. rewrite Hn.
    assert (Hln : has_char LF n = false).
    { destruct p; [discriminate|..]; injection Hn as <-; cbn in Hp; apply lf_of; apply Hp. }
    destruct (counting Go p); [apply lf_uniq|]; now apply lf_go. }
  destruct p as [|v|v|v|v|v|v]; cbn [proto_name] in Hn; [discriminate|..]; injection Hn as Hn;
    cbn [component_ok] in Hp; unfold go_entry, Emits, count_after;
    unfold ident_now in *; unfold plain_ident in *; cbn [proto_name counting] in *.
  - destruct Hp as [H1 [H2 [H3 H4]]]. apply lf_of in H1, H2.
    unfold go_simple_type, go_unique_name. rewrite is_union_eq, Hn, Hd.
    cbn [negb]. rewrite !andb_true_r. cbn [items_of go_items]. rewrite Hn in *.
    cbn [set_time set_xml g_count g_field g_ast emit].
    destruct (uniq_name (g_count g) (go_field_name n)) as [id counts]. cbn [fst snd] in *.
    destruct (st_list v); [|destruct (is_union v)]; cbn [emit g_field g_ast g_count set_time set_xml];
      (split; [|split; [reflexivity | eexists; eexists; split; reflexivity]]);
      (eexists; split; [reflexivity|]).
    + change (go_member_type pt (st_base v)) with (shown Go pt (st_base v)).
      rewrite <- app_assoc_s. apply go_alias_text; nolf.
    + apply go_struct_text; [exact Hid|]. members.
    + change (go_member_type pt (st_base v)) with (shown Go pt (st_base v)).
      rewrite <- app_assoc_s. apply go_alias_text; nolf.
  - destruct Hp as [H1 [H2 [H3 [H4 [H5 H6]]]]]. apply lf_of in H1, H2.
    unfold go_complex_type, go_unique_name. rewrite Hn, Hd in *.
    cbn [negb items_of go_items set_time set_xml g_count g_field g_ast emit] in *. rewrite Hn in *.
    destruct (uniq_name (g_count g) (go_field_name n)) as [id counts]. cbn [fst snd] in *.
    cbn [emit g_field g_ast g_count set_time set_xml].
    (split; [|split; [reflexivity | eexists; eexists; split; reflexivity]]).
    eexists; split; [reflexivity|]. apply go_struct_text; [exact Hid|]. members.
  - destruct Hp as [H1 H2]. apply lf_of in H1, H2.
    unfold go_element. rewrite Hn, Hd in *.
    cbn [negb items_of go_items set_time set_xml g_count g_field g_ast emit] in *.
    (split; [|split; [reflexivity | eexists; eexists; split; reflexivity]]).
    eexists; split; [reflexivity|].
    change (go_member_type pt (el_type v)) with (shown Go pt (el_type v)).
    change (plural_brackets (el_plural v)) with (when (el_plural v) "[]").
    rewrite <- !app_assoc_s. rewrite (app_assoc_s TAB). apply go_alias_text; nolf.
  - destruct Hp as [H1 H2]. apply lf_of in H1, H2.
    unfold go_attribute, go_unique_name. rewrite Hn, Hd in *.
    cbn [negb items_of go_items set_time set_xml g_count g_field g_ast emit] in *.
    destruct (uniq_name (g_count g) (go_field_name n)) as [id counts]. cbn [fst snd] in *.
    cbn [emit g_field g_ast g_count set_time set_xml].
    (split; [|split; [reflexivity | eexists; eexists; split; reflexivity]]).
    eexists; split; [reflexivity|].
    change (go_member_type pt (at_type v)) with (shown Go pt (at_type v)).
    change (plural_brackets (at_plural v)) with (when (at_plural v) "[]").
    rewrite <- !app_assoc_s. rewrite (app_assoc_s TAB). apply go_alias_text; nolf.
  - destruct Hp as [H1 [H2 H3]]. apply lf_of in H1.
    unfold go_group, go_unique_name. rewrite Hn, Hd in *.
    cbn [negb items_of go_items set_time set_xml g_count g_field g_ast emit] in *. rewrite Hn in *.
    destruct (uniq_name (g_count g) (go_field_name n)) as [id counts]. cbn [fst snd] in *.
    cbn [emit g_field g_ast g_count set_time set_xml].
    (split; [|split; [reflexivity | eexists; eexists; split; reflexivity]]).
    eexists; split; [reflexivity|]. apply go_struct_text; [exact Hid|]. members.
  - destruct Hp as [H1 H2]. apply lf_of in H1.
    unfold go_attribute_group, go_unique_name. rewrite Hn, Hd in *.
    cbn [negb items_of go_items set_time set_xml g_count g_field g_ast emit] in *. rewrite Hn in *.
    destruct (uniq_name (g_count g) (go_field_name n)) as [id counts]. cbn [fst snd] in *.
    cbn [emit g_field g_ast g_count set_time set_xml].
    (split; [|split; [reflexivity | eexists; eexists; split; reflexivity]]).
    eexists; split; [reflexivity|]. apply go_struct_text; [exact Hid|]. members.
Qed.

(** ** C *)

Lemma c_declare : forall t name plural,
  (let '(ft, ok) := inner_array t in ft ++ " " ++ name ++ c_brackets (ok || plural)) = c_declarator t name plural.
Proof.
  intros t name plural. rewrite inner_array_eq. unfold c_declarator.
  destruct (strip_suffix t "[]"); cbn; destruct plural; reflexivity.
Qed.

Lemma c_declare1 : forall t name,
  (let '(ft, ok) := inner_array t in ft ++ " " ++ name ++ c_brackets ok) = c_declarator t name false.
Proof.
  intros t name. rewrite inner_array_eq. unfold c_declarator. destruct (strip_suffix t "[]"); reflexivity.
Qed.

Lemma lf_declarator : forall t name plural, has_char LF t = false -> has_char LF name = false ->
  has_char LF (c_declarator t name plural) = false.
Proof.
  intros t name plural Ht Hn. unfold c_declarator. destruct (strip_suffix t "[]") as [u|] eqn:Hs.
  - apply strip_suffix_some in Hs. subst t. rewrite has_char_app in Ht. apply orb_false_iff in Ht as [Hu _]. nolf.
  - nolf.
Qed.

Local Hint Resolve lf_declarator : lf.

Lemma c_struct_text : forall id doc rest ms, has_char LF id = false ->
  Lines rest (map (fun m => TAB ++ m) ms +++ ["} " ++ id ++ ";"]) ->
  Text (gen_field_comment id doc "//" ++ "typedef " ++ "struct {" ++ NL ++ rest) (c_struct id doc ms).
Proof.
  intros id doc rest ms Hid Hm.
  exists ((CR :: comment id doc) +++ ("typedef struct {" :: map (fun m => TAB ++ m) ms +++ ["} " ++ id ++ ";"])).
  split.
  - apply LA_start, LA_block; [apply Lines_comment, Hid|]. la.
  - cbn [app]. apply Reads_skip; [now right|].
    change (c_struct id doc ms) with
      ([mkItem (comment id doc) "typedef struct {" ms] +++ [mkItem [] ("} " ++ id ++ ";") []]).
    rewrite app_comm_cons, app_assoc. apply Reads_app.
    + apply Reads_item; [head_ok | apply comment_marked].
    + apply (Reads_item [] ("} " ++ id ++ ";") []); [head_ok | intros x []].
Qed.

Lemma c_alias_text : forall id doc rest, has_char LF id = false -> has_char LF rest = false ->
  Text (gen_field_comment id doc "//" ++ "typedef " ++ rest ++ NL) [mkItem (comment id doc) ("typedef " ++ rest) []].
Proof.
  intros id doc rest Hid Hr.
  exists ((CR :: comment id doc) +++ ["typedef " ++ rest]). split.
  - apply LA_start, LA_block; [apply Lines_comment, Hid|]. la.
  - cbn [app]. apply Reads_skip; [now right|].
    apply (Reads_item (comment id doc) ("typedef " ++ rest) []); [head_ok | apply comment_marked].
Qed.

Lemma c_attribute_lines : forall l, Forall attribute_ok l ->
  Lines (sconcat (map (c_attribute_line pt) l)) (map (fun m => TAB ++ m) (map (c_attribute_row pt) l)).
Proof.
  intros l Hl. rows Hl. unfold c_attribute_line, c_attribute_row.
  change (c_member_type pt (at_type a)) with (shown C pt (at_type a)).
  change (if at_optional a then ", optional" else "") with (when (at_optional a) ", optional").
  rewrite <- c_declare1. pose proof (lf_declarator (shown C pt (at_type a)) (c_field_name (at_name a) ++ "Attr") false
    ltac:(nolf) ltac:(nolf)) as Hd. rewrite <- c_declare1 in Hd.
  destruct (inner_array _) as [ft ok]. rewrite !has_char_app in Hd. repeat apply orb_false_iff in Hd as [? Hd].
  la.
Qed.

Lemma c_group_lines : forall l, Forall group_ref_ok l ->
  Lines (sconcat (map (c_group_line pt) l)) (map (fun m => TAB ++ m) (map (c_group_row pt) l)).
Proof.
  intros l Hl. rows Hl. unfold c_group_line, c_group_row.
  change (c_member_type pt (gr_ref a)) with (shown C pt (gr_ref a)).
  change (c_brackets (gr_plural a)) with (when (gr_plural a) "[]"). la.
Qed.

Lemma c_attrgroup_lines : forall l, Forall (fun a => one_line (ag_name a) /\ one_line (ag_ref a)) l ->
  Lines (sconcat (map (c_attrgroup_line pt) l))
    (map (fun m => TAB ++ m) (map (fun a => shown C pt (ag_ref a) ++ " " ++ c_field_name (ag_name a) ++ ";") l)).
Proof.
  intros l Hl. rows Hl. unfold c_attrgroup_line.
  change (c_member_type pt (ag_ref a)) with (shown C pt (ag_ref a)). la.
Qed.

Lemma c_element_lines : forall l, Forall element_ok l ->
  Lines (sconcat (map (c_element_line pt) l))
    (map (fun m => TAB ++ m)
       (map (fun e => c_declarator (shown C pt (el_type e)) (c_field_name (el_name e)) (el_plural e) ++ ";") l)).
Proof.
  intros l Hl. rows Hl. unfold c_element_line.
  change (c_member_type pt (el_type a)) with (shown C pt (el_type a)).
  pose proof (lf_declarator (shown C pt (el_type a)) (c_field_name (el_name a)) (el_plural a)
    ltac:(nolf) ltac:(nolf)) as Hd. rewrite <- c_declare in Hd |- *.
  destruct (inner_array _) as [ft ok]. rewrite !has_char_app in Hd. repeat apply orb_false_iff in Hd as [? Hd].
  la.
Qed.

Lemma c_group_element_lines : forall l, Forall element_ok l ->
  Lines (sconcat (map (c_group_element_line pt) l))
    (map (fun m => TAB ++ m)
       (map (fun e => shown C pt (el_type e) ++ " " ++ c_field_name (el_name e) ++ when (el_plural e) "[]" ++ ";") l)).
Proof.
  intros l Hl. rows Hl. unfold c_group_element_line.
  change (c_member_type pt (el_type a)) with (shown C pt (el_type a)).
  change (c_brackets (el_plural a)) with (when (el_plural a) "[]"). la.
Qed.

Lemma c_union_lines : forall m, members_ok m ->
  Lines (sconcat (map (c_union_member pt) (to_sorted_pairs m)))
    (map (fun m => TAB ++ m)
       (map (fun m => c_declarator (c_field_type (member_type pt m)) (c_field_name (fst m)) false ++ ";")
            (to_sorted_pairs m))).
Proof.
  intros m Hm. apply members_sorted in Hm. rows Hm. unfold c_union_member. rewrite snd_eqb.
  change (match snd a with "" => get_base (fst a) pt | _ => snd a end) with (member_type pt a).
  pose proof (lf_declarator (c_field_type (member_type pt a)) (c_field_name (fst a)) false
    ltac:(nolf) ltac:(nolf)) as Hd. rewrite <- c_declare1 in Hd |- *.
  destruct (inner_array _) as [ft ok]. rewrite !has_char_app in Hd. repeat apply orb_false_iff in Hd as [? Hd].
  la.
Qed.

Local Hint Resolve c_attribute_lines c_group_lines c_attrgroup_lines c_element_lines c_group_element_lines
  c_union_lines : lines.

Ltac emitted := split; [|split; [reflexivity | eexists; eexists; split; reflexivity]];
  eexists; split; [reflexivity|].

Lemma c_struct_decl_text : forall id doc body ms, has_char LF id = false ->
  Lines (body ++ "}" ++ " " ++ id ++ ";" ++ NL) (map (fun m => TAB ++ m) ms +++ ["} " ++ id ++ ";"]) ->
  Text (c_struct_decl id doc ("struct {" ++ NL ++ body ++ "}")) (c_struct id doc ms).
Proof.
  intros id doc body ms Hid H. unfold c_struct_decl. rewrite !app_assoc_s. now apply c_struct_text.
Qed.

Lemma ident_lf : forall l p n, proto_name p = Some n -> component_ok p ->
  has_char LF n = false /\ has_char LF (plain_ident l p) = false /\
  forall g, has_char LF (ident_now l p g) = false.
Proof.
  intros l p n Hn Hp.
  assert (Hln : has_char LF n = false).
  { destruct p; [discriminate|..]; injection Hn as <-; cbn in Hp; apply lf_of; apply Hp. }
  assert (Hpl : has_char LF (plain_ident l p) = false).
  { unfold plain_ident. rewrite Hn.
    destruct l; [| | |destruct p|]; auto using lf_go, lf_c, lf_java, lf_rust, lf_ts, lf_rust_field. }
  split; [exact Hln|]. split; [exact Hpl|]. intros g. unfold ident_now.
  destruct (counting l p); [now apply lf_uniq | exact Hpl].
Qed.

Lemma c_emits : forall p g n, proto_name p = Some n -> component_ok p -> declared n g = false ->
  Emits C pt p false g (c_entry pt g p).
Proof.
  intros p g n Hn Hp Hd.
  destruct (ident_lf C p n Hn Hp) as [Hln [Hpl Hid]]. specialize (Hid g).
  destruct p as [|v|v|v|v|v|v]; cbn [proto_name] in Hn; [discriminate|..]; injection Hn as Hn;
    cbn [component_ok] in Hp; unfold c_entry, Emits, count_after;
    unfold ident_now in *; unfold plain_ident in *; cbn [proto_name counting] in *.
  - destruct Hp as [H1 [H2 [H3 H4]]]. apply lf_of in H1, H2.
    unfold c_simple_type, c_unique_name. rewrite is_union_eq, Hn, Hd.
    cbn [negb]. rewrite !andb_true_r. cbn [items_of c_items]. unfold plain_ident. cbn [proto_name]. rewrite Hn in *.
    change (c_member_type pt (st_base v)) with (shown C pt (st_base v)).
    pose proof (lf_declarator (shown C pt (st_base v)) (c_field_name n) false ltac:(nolf) ltac:(nolf)) as Hdec.
    rewrite <- c_declare1 in Hdec |- *.
    destruct (inner_array (shown C pt (st_base v))) as [ft ok].
    rewrite !has_char_app in Hdec. repeat apply orb_false_iff in Hdec as [? Hdec].
    destruct (uniq_name (g_count g) (c_field_name n)) as [id counts]. cbn [fst snd] in *.
    destruct (st_list v); [|destruct (is_union v)]; cbn [emit g_field g_ast g_count]; emitted.
    + eapply Text_eq; [|apply (c_alias_text id (st_doc v) (c_field_type (shown C pt (st_base v)) ++ " " ++ c_field_name n ++ "[];")); nolf].
      norm.
    + apply c_struct_decl_text; [exact Hid|]. members.
    + eapply Text_eq; [|apply (c_alias_text id (st_doc v) ((ft ++ " " ++ c_field_name n ++ c_brackets ok) ++ ";")); nolf].
      norm.
  - destruct Hp as [H1 [H2 [H3 [H4 [H5 H6]]]]]. apply lf_of in H1, H2.
    unfold c_complex_type, c_unique_name. rewrite Hn, Hd in *. cbn [negb items_of c_items].
    destruct (uniq_name (g_count g) (c_field_name n)) as [id counts]. cbn [fst snd] in *.
    cbn [emit g_field g_ast g_count]. emitted.
    unfold c_struct_decl. rewrite ?app_assoc_s. apply c_struct_text; [exact Hid | members].
  - destruct Hp as [H1 H2]. apply lf_of in H1, H2.
    unfold c_element. rewrite Hn, Hd in *. cbn [negb items_of c_items].
    change (c_member_type pt (el_type v)) with (shown C pt (el_type v)).
    pose proof (lf_declarator (shown C pt (el_type v)) (c_field_name n) (el_plural v) ltac:(nolf) ltac:(nolf)) as Hdec.
    rewrite <- c_declare in Hdec |- *.
    destruct (inner_array (shown C pt (el_type v))) as [ft ok].
    rewrite !has_char_app in Hdec. repeat apply orb_false_iff in Hdec as [? Hdec].
    cbn [emit g_field g_ast g_count]. emitted.
    exists ["";  "typedef " ++ (ft ++ " " ++ c_field_name n ++ c_brackets (ok || el_plural v)) ++ ";"]. split.
    + apply LA_start. la.
    + apply Reads_skip; [now left|]. apply (Reads_item [] _ []); [head_ok | intros x []].
  - destruct Hp as [H1 H2]. apply lf_of in H1, H2.
    unfold c_attribute, c_unique_name. rewrite Hn, Hd in *. cbn [negb items_of c_items].
    unfold plain_ident. cbn [proto_name]. rewrite Hn.
    change (c_member_type pt (at_type v)) with (shown C pt (at_type v)).
    pose proof (lf_declarator (shown C pt (at_type v)) (c_field_name n) (at_plural v) ltac:(nolf) ltac:(nolf)) as Hdec.
    rewrite <- c_declare in Hdec |- *.
    destruct (inner_array (shown C pt (at_type v))) as [ft ok].
    rewrite !has_char_app in Hdec. repeat apply orb_false_iff in Hdec as [? Hdec].
    destruct (uniq_name (g_count g) (c_field_name n)) as [id counts]. cbn [fst snd] in *.
    cbn [emit g_field g_ast g_count]. emitted.
    eapply Text_eq; [|apply (c_alias_text id (at_doc v) ((ft ++ " " ++ c_field_name n ++ c_brackets (ok || at_plural v)) ++ ";")); nolf].
    norm.
  - destruct Hp as [H1 [H2 H3]]. apply lf_of in H1.
    unfold c_group, c_unique_name. rewrite Hn, Hd in *. cbn [negb items_of c_items].
    destruct (uniq_name (g_count g) (c_field_name n)) as [id counts]. cbn [fst snd] in *.
    cbn [emit g_field g_ast g_count]. emitted.
    unfold c_struct_decl. rewrite ?app_assoc_s. apply c_struct_text; [exact Hid | members].
  - destruct Hp as [H1 H2]. apply lf_of in H1.
    unfold c_attribute_group, c_unique_name. rewrite Hn, Hd in *. cbn [negb items_of c_items].
    destruct (uniq_name (g_count g) (c_field_name n)) as [id counts]. cbn [fst snd] in *.
    cbn [emit g_field g_ast g_count]. emitted.
    unfold c_struct_decl. rewrite ?app_assoc_s. apply c_struct_text; [exact Hid | members].
Qed.

(** ** Java *)

Lemma java_class_text : forall id doc ext rest ms, has_char LF id = false -> has_char LF ext = false ->
  Lines rest (map (fun m => TAB ++ m) ms +++ ["}"]) ->
  Text (java_class id doc ext (" {" ++ NL ++ rest)) (j_class (comment id doc) id ext ms).
Proof.
  intros id doc ext rest ms Hid Hext Hm.
  exists ((CR :: comment id doc) +++ (("public class " ++ id ++ ext ++ " {") :: map (fun m => TAB ++ m) ms +++ ["}"])).
  split.
  - unfold java_class. apply LA_start, LA_block; [apply Lines_comment, Hid|]. la.
  - cbn [app]. apply Reads_skip; [now right|].
    change (j_class (comment id doc) id ext ms) with
      ([mkItem (comment id doc) ("public class " ++ id ++ ext ++ " {") ms] +++ [mkItem [] "}" []]).
    rewrite app_comm_cons, app_assoc. apply Reads_app.
    + apply Reads_item; [head_ok | apply comment_marked].
    + apply (Reads_item [] "}" []); [head_ok | intros x []].
Qed.

Lemma java_wrapper_reads : forall ns ann name id field, (forall x, In x ns -> exists t, x = "//" ++ t) ->
  Reads (ns +++ ["@XmlAccessorType(XmlAccessType.FIELD)";
                 "@" ++ ann ++ "(required = true, name = " ++ quoted name ++ ")";
                 "public class " ++ id ++ " {"; TAB ++ field; "}"])
        (j_wrapper ns ann name id field).
Proof.
  intros ns ann name id field Hns.
  set (l1 := "@XmlAccessorType(XmlAccessType.FIELD)").
  set (l2 := "@" ++ ann ++ "(required = true, name = " ++ quoted name ++ ")").
  set (l3 := "public class " ++ id ++ " {").
  change (j_wrapper ns ann name id field) with
    ([mkItem ns l1 []] +++ [mkItem [] l2 []] +++ [mkItem [] l3 [field]] +++ [mkItem [] "}" []]).
  change (ns +++ [l1; l2; l3; TAB ++ field; "}"]) with
    (ns +++ ([l1] +++ [l2] +++ ([l3] +++ map (fun m => TAB ++ m) [field]) +++ ["}"])).
  rewrite app_assoc. apply Reads_app; [apply (Reads_item ns l1 []); [head_ok | exact Hns]|].
  apply Reads_app; [apply (Reads_item [] l2 []); [head_ok | intros x []]|].
  apply Reads_app; [apply (Reads_item [] l3 [field]); [head_ok | intros x []]|].
  apply (Reads_item [] "}" []); [head_ok | intros x []].
Qed.

Lemma java_field_eq : forall t name, java_field t name = TAB ++ j_field t name ++ NL.
Proof. intros t name. unfold java_field, j_field. norm. Qed.

Lemma lf_j_field : forall t name, has_char LF t = false -> has_char LF name = false -> has_char LF (j_field t name) = false.
Proof. intros t name H1 H2. unfold j_field. nolf. Qed.
Lemma lf_j_list : forall b t, has_char LF t = false -> has_char LF (j_list b t) = false.
Proof. intros [|] t H; unfold j_list; nolf. Qed.
Lemma lf_quoted : forall t, has_char LF t = false -> has_char LF (quoted t) = false.
Proof. intros t H; unfold quoted; nolf. Qed.
Lemma lf_j_mark : forall a, has_char LF (at_name a) = false -> has_char LF (j_attribute_mark a) = false.
Proof. intros a H; unfold j_attribute_mark. destruct (at_optional a); nolf; apply lf_quoted, H. Qed.

Local Hint Resolve lf_j_field lf_j_list lf_quoted lf_j_mark : lf.

(** wrapper without and with a comment *)
Lemma java_wrapper_lines : forall ann name id field, has_char LF ann = false -> has_char LF name = false ->
  has_char LF id = false -> has_char LF field = false ->
  Lines (java_wrapper ann name id (TAB ++ field ++ NL))
    ["@XmlAccessorType(XmlAccessType.FIELD)"; "@" ++ ann ++ "(required = true, name = " ++ quoted name ++ ")";
     "public class " ++ id ++ " {"; TAB ++ field; "}"].
Proof.
  intros ann name id field H1 H2 H3 H4. unfold java_wrapper. apply LA_start.
  rewrite !app_assoc_s. la.
Qed.

Lemma java_bare_text : forall ann name id field, has_char LF ann = false -> has_char LF name = false ->
  has_char LF id = false -> has_char LF field = false ->
  Text (NL ++ java_wrapper ann name id (TAB ++ field ++ NL)) (j_wrapper [] ann name id field).
Proof.
  intros ann name id field H1 H2 H3 H4. eexists. split.
  - apply LA_start. apply LA_nl; [reflexivity | reflexivity|]. apply java_wrapper_lines; assumption.
  - apply Reads_skip; [now left|]. apply (java_wrapper_reads []). intros x [].
Qed.

Lemma java_commented_text : forall ann doc name id field, has_char LF ann = false -> has_char LF name = false ->
  has_char LF id = false -> has_char LF field = false ->
  Text (gen_field_comment id doc "//" ++ java_wrapper ann name id (TAB ++ field ++ NL))
    (j_wrapper (comment id doc) ann name id field).
Proof.
  intros ann doc name id field H1 H2 H3 H4. eexists. split.
  - apply Lines_app; [apply Lines_comment, H3 | apply java_wrapper_lines; assumption].
  - cbn [app]. apply Reads_skip; [now right|]. apply java_wrapper_reads, comment_marked.
Qed.

Lemma java_attrgroup_lines : forall l, Forall (fun a => one_line (ag_name a) /\ one_line (ag_ref a)) l ->
  Lines (sconcat (map (java_attrgroup_line pt) l))
    (map (fun m => TAB ++ m)
       (flat_map (fun a => ["@XmlElement(required = true)";
                             j_field (shown Java pt (ag_ref a)) (java_field_name (ag_name a))]) l)).
Proof.
  intros l Hl. frows Hl. unfold java_attrgroup_line. rewrite java_field_eq.
  change (java_member_type pt (ag_ref a)) with (shown Java pt (ag_ref a)). la.
Qed.

Lemma java_annotation_eq : forall a, java_attribute_annotation a = TAB ++ j_attribute_mark a ++ NL.
Proof. intros a. unfold java_attribute_annotation, j_attribute_mark, java_required. destruct (at_optional a); norm. Qed.

Lemma java_attribute_lines : forall l, Forall attribute_ok l ->
  Lines (sconcat (map (java_attribute_line pt) l))
    (map (fun m => TAB ++ m)
       (flat_map (fun a => [j_attribute_mark a;
                             j_field (shown Java pt (at_type a)) (java_field_name (at_name a) ++ "Attr")]) l)).
Proof.
  intros l Hl. frows Hl. unfold java_attribute_line. rewrite java_field_eq, java_annotation_eq.
  change (java_member_type pt (at_type a)) with (shown Java pt (at_type a)). rewrite !app_assoc_s.
  assert (has_char LF (j_field (shown Java pt (at_type a)) (java_field_name (at_name a) ++ "Attr")) = false)
    by (apply lf_j_field; nolf). la.
Qed.

Lemma java_group_attribute_lines : forall l, Forall attribute_ok l ->
  Lines (sconcat (map (java_group_attribute_line pt) l))
    (map (fun m => TAB ++ m)
       (flat_map (fun a => [j_attribute_mark a;
                             j_field (shown Java pt (at_type a) ++ "Attr") (java_field_name (at_name a))]) l)).
Proof.
  intros l Hl. frows Hl. unfold java_group_attribute_line. rewrite java_field_eq, java_annotation_eq.
  change (java_member_type pt (at_type a)) with (shown Java pt (at_type a)). rewrite !app_assoc_s.
  assert (has_char LF (j_field (shown Java pt (at_type a) ++ "Attr") (java_field_name (at_name a))) = false)
    by (apply lf_j_field; nolf). la.
Qed.

Lemma java_group_lines : forall l, Forall group_ref_ok l ->
  Lines (sconcat (map (java_group_line pt) l)) (map (fun m => TAB ++ m) (flat_map (j_group_rows pt) l)).
Proof.
  intros l Hl. frows Hl. unfold java_group_line, j_group_rows. rewrite java_field_eq.
  change (java_member_type pt (gr_ref a)) with (shown Java pt (gr_ref a)).
  change (java_list (gr_plural a)) with (j_list (gr_plural a)). la.
Qed.

Lemma java_element_lines : forall l, Forall element_ok l ->
  Lines (sconcat (map (java_element_line pt) l)) (map (fun m => TAB ++ m) (flat_map (j_element_rows pt) l)).
Proof.
  intros l Hl. frows Hl. unfold java_element_line, j_element_rows. rewrite java_field_eq.
  change (java_member_type pt (el_type a)) with (shown Java pt (el_type a)).
  change (java_list (el_plural a)) with (j_list (el_plural a)). la.
Qed.

Lemma java_union_lines : forall m, members_ok m ->
  Lines (sconcat (map (java_union_member pt) (to_sorted_pairs m)))
    (map (fun m => TAB ++ m)
       (flat_map (fun m => ["@XmlElement(required = true)";
                            j_field (java_field_type (member_type pt m)) (java_field_name (fst m))])
            (to_sorted_pairs m))).
Proof.
  intros m Hm. apply members_sorted in Hm. frows Hm. unfold java_union_member. rewrite snd_eqb, java_field_eq.
  change (match snd a with "" => get_base (fst a) pt | _ => snd a end) with (member_type pt a). la.
Qed.

Lemma builtin_nonempty : forall (A : Type) b l (x y : A), ~ In "" l ->
  (if Nat.ltb 0 (String.length b) && in_set b l then x else y) = if in_dec string_dec b l then x else y.
Proof.
  intros A b l x y Hl. rewrite length_ltb, <- in_set_dec. destruct b as [|c b]; [|reflexivity].
  destruct (in_set "" l) eqn:H; [|reflexivity]. now apply in_set_In in H.
Qed.

Lemma java_value_lines : forall b, has_char LF b = false ->
  Lines (java_value_line pt b)
    (map (fun m => TAB ++ m)
       (if (if in_dec string_dec b java_buildin_type then true else false)
        then ["@XmlValue"; j_field (shown Java pt b) "value"] else [])).
Proof.
  intros b Hb. unfold java_value_line, is_java_builtin.
  rewrite builtin_nonempty by (vm_compute; intuition discriminate).
  destruct (in_dec string_dec b java_buildin_type); [|reflexivity].
  rewrite java_field_eq. change (java_member_type pt b) with (shown Java pt b). apply LA_start. cbn [map].
  assert (has_char LF (j_field (shown Java pt b) "value") = false) by (apply lf_j_field; nolf). la.
Qed.

Lemma java_extension_eq : forall b, java_extension pt b =
  if (if in_dec string_dec b java_buildin_type then true else false) then ""
  else match b with EmptyString => "" | _ => " extends " ++ shown Java pt b ++ " " end.
Proof.
  intros b. unfold java_extension, is_java_builtin. rewrite length_ltb.
  assert (Hd := in_set_dec bool b java_buildin_type true false). rewrite <- Hd.
  destruct b as [|x b]; [now destruct (in_set "" _)|]. destruct (in_set (String x b) java_buildin_type); reflexivity.
Qed.

Lemma lf_extension : forall b, has_char LF b = false -> has_char LF (java_extension pt b) = false.
Proof.
  intros b Hb. rewrite java_extension_eq. destruct (if in_dec _ _ _ then true else false); [reflexivity|].
  destruct b; [reflexivity|]. nolf.
Qed.

Local Hint Resolve java_attrgroup_lines java_attribute_lines java_group_attribute_lines java_group_lines
  java_element_lines java_union_lines java_value_lines : lines.
Local Hint Resolve lf_extension : lf.

Lemma java_emits : forall p g n, proto_name p = Some n -> component_ok p -> declared n g = false ->
  Emits Java pt p false g (java_entry pt g p).
Proof.
  intros p g n Hn Hp Hd.
  destruct (ident_lf Java p n Hn Hp) as [Hln [Hpl Hid]]. specialize (Hid g).
  destruct p as [|v|v|v|v|v|v]; cbn [proto_name] in Hn; [discriminate|..]; injection Hn as Hn;
    cbn [component_ok] in Hp; unfold java_entry, Emits, count_after;
    unfold ident_now in *; unfold plain_ident in *; cbn [proto_name counting] in *.
  - destruct Hp as [H1 [H2 [H3 H4]]]. apply lf_of in H1, H2.
    unfold java_simple_type, java_unique_name. rewrite is_union_eq, Hn, Hd.
    cbn [negb]. rewrite !andb_true_r. cbn [items_of java_items]. unfold plain_ident. cbn [proto_name]. rewrite Hn in *.
    change (java_member_type pt (st_base v)) with (shown Java pt (st_base v)).
    destruct (uniq_name (g_count g) (java_field_name n)) as [id counts]. cbn [fst snd] in *.
    destruct (st_list v); [|destruct (is_union v)]; cbn [emit g_field g_ast g_count]; emitted.
    + rewrite java_field_eq. apply java_bare_text; eauto with lf.
    + apply java_class_text; [exact Hid | reflexivity|]. members.
    + rewrite java_field_eq. apply java_commented_text; eauto with lf.
  - destruct Hp as [H1 [H2 [H3 [H4 [H5 H6]]]]]. apply lf_of in H1, H2.
    unfold java_complex_type, java_unique_name. rewrite Hn, Hd in *. cbn [negb items_of java_items].
    rewrite <- java_extension_eq.
    destruct (uniq_name (g_count g) (java_field_name n)) as [id counts]. cbn [fst snd] in *.
    cbn [emit g_field g_ast g_count]. emitted.
    apply java_class_text; [exact Hid | eauto with lf|]. members.
  - destruct Hp as [H1 H2]. apply lf_of in H1, H2.
    unfold java_element, java_unique_name. rewrite Hn, Hd in *. cbn [negb items_of java_items].
    unfold plain_ident. cbn [proto_name]. rewrite Hn.
    destruct (uniq_name (g_count g) (java_field_name n)) as [id counts]. cbn [fst snd] in *.
    cbn [emit g_field g_ast g_count]. emitted. rewrite java_field_eq.
    apply (java_bare_text "XmlElement" n id (j_field (j_list (el_plural v) (shown Java pt (el_type v))) (java_field_name n)));
      eauto with lf.
  - destruct Hp as [H1 H2]. apply lf_of in H1, H2.
    unfold java_attribute, java_unique_name. rewrite Hn, Hd in *. cbn [negb items_of java_items].
    unfold plain_ident. cbn [proto_name]. rewrite Hn.
    destruct (uniq_name (g_count g) (java_field_name n)) as [id counts]. cbn [fst snd] in *.
    cbn [emit g_field g_ast g_count]. emitted. rewrite java_field_eq.
    apply (java_bare_text "XmlAttribute" n id (j_field (j_list (at_plural v) (shown Java pt (at_type v))) (java_field_name n)));
      eauto with lf.
  - destruct Hp as [H1 [H2 H3]]. apply lf_of in H1.
    unfold java_group, java_unique_name. rewrite Hn, Hd in *. cbn [negb items_of java_items].
    destruct (uniq_name (g_count g) (java_field_name n)) as [id counts]. cbn [fst snd] in *.
    cbn [emit g_field g_ast g_count]. emitted.
    apply java_class_text; [exact Hid | reflexivity|]. members.
  - destruct Hp as [H1 H2]. apply lf_of in H1.
    unfold java_attribute_group, java_unique_name. rewrite Hn, Hd in *. cbn [negb items_of java_items].
    destruct (uniq_name (g_count g) (java_field_name n)) as [id counts]. cbn [fst snd] in *.
    cbn [emit g_field g_ast g_count]. emitted.
    apply java_class_text; [exact Hid | reflexivity|]. members.
Qed.

(** ** Rust *)

Lemma rust_struct_lines : forall id rest ms, has_char LF id = false ->
  Lines rest (map (fun m => TAB ++ m) ms) ->
  Lines (rust_struct id rest)
    ("#[derive(Debug, Deserialize, Serialize, PartialEq)]" :: ("pub struct " ++ id ++ " {")
     :: map (fun m => TAB ++ m) ms +++ ["}"]).
Proof. intros id rest ms Hid Hm. unfold rust_struct. apply LA_start. la. Qed.

Lemma rust_struct_reads : forall ns id ms, (forall x, In x ns -> exists t, x = "//" ++ t) ->
  Reads (ns +++ "#[derive(Debug, Deserialize, Serialize, PartialEq)]" :: ("pub struct " ++ id ++ " {")
         :: map (fun m => TAB ++ m) ms +++ ["}"]) (r_struct ns id ms).
Proof.
  intros ns id ms Hns.
  set (l1 := "#[derive(Debug, Deserialize, Serialize, PartialEq)]").
  set (l2 := "pub struct " ++ id ++ " {").
  change (r_struct ns id ms) with ([mkItem ns l1 []] +++ [mkItem [] l2 ms] +++ [mkItem [] "}" []]).
  change (l1 :: l2 :: map (fun m => TAB ++ m) ms +++ ["}"]) with
    ([l1] +++ (l2 :: map (fun m => TAB ++ m) ms) +++ ["}"]).
  rewrite app_assoc. apply Reads_app; [apply (Reads_item ns l1 []); [head_ok | exact Hns]|].
  apply Reads_app; [apply (Reads_item [] l2 ms); [head_ok | intros x []]|].
  apply (Reads_item [] "}" []); [head_ok | intros x []].
Qed.

Lemma rust_decl_text : forall id doc rest ms, has_char LF id = false ->
  Lines rest (map (fun m => TAB ++ m) ms) ->
  Text (rust_decl id doc rest) (r_struct (comment id doc) id ms).
Proof.
  intros id doc rest ms Hid Hm. unfold rust_decl. eexists. split.
  - apply LA_start. apply LA_nl; [reflexivity | reflexivity|]. apply LA_block; [apply Lines_comment, Hid|].
    apply rust_struct_lines; eassumption.
  - apply Reads_skip; [now left|]. cbn [app]. apply Reads_skip; [now right|].
    apply rust_struct_reads, comment_marked.
Qed.

Lemma rust_bare_text : forall id rest ms, has_char LF id = false ->
  Lines rest (map (fun m => TAB ++ m) ms) ->
  Text (NL ++ rust_struct id rest) (r_struct [] id ms).
Proof.
  intros id rest ms Hid Hm. eexists. split.
  - apply LA_start. apply LA_nl; [reflexivity | reflexivity|]. apply rust_struct_lines; eassumption.
  - apply Reads_skip; [now left|]. apply (rust_struct_reads []). intros x [].
Qed.

Lemma rust_field_lines : forall name id t, has_char LF name = false -> has_char LF id = false ->
  has_char LF t = false -> Lines (rust_field name id t) (map (fun m => TAB ++ m) (r_field name id t)).
Proof.
  intros name id t H1 H2 H3. unfold rust_field, r_field. cbn [map]. apply LA_start. la.
Qed.

Lemma lf_r_vec : forall b t, has_char LF t = false -> has_char LF (r_vec b t) = false.
Proof. intros [|] t H; unfold r_vec; nolf. Qed.
Local Hint Resolve lf_r_vec : lf.

Lemma rust_attrgroup_lines : forall l, Forall (fun a => one_line (ag_name a) /\ one_line (ag_ref a)) l ->
  Lines (sconcat (map (rust_attrgroup_line pt) l))
    (map (fun m => TAB ++ m)
       (flat_map (fun a => r_field (ag_name a) (rust_field_name (ag_name a)) (r_vec true (shown Rust pt (ag_ref a)))) l)).
Proof.
  intros l Hl. frows Hl. unfold LA. cbn [append]. unfold rust_attrgroup_line.
  apply (rust_field_lines _ _ (r_vec true (shown Rust pt (ag_ref a)))); eauto with lf.
Qed.

Lemma rust_attribute_lines : forall l, Forall attribute_ok l ->
  Lines (sconcat (map (rust_attribute_line pt) l))
    (map (fun m => TAB ++ m)
       (flat_map (fun a => r_field (at_name a) (rust_field_name (at_name a))
                             (if at_optional a then "Option<" ++ shown Rust pt (at_type a) ++ ">"
                              else shown Rust pt (at_type a))) l)).
Proof.
  intros l Hl. frows Hl. unfold LA. cbn [append]. unfold rust_attribute_line.
  change (rust_member_type pt (at_type a)) with (shown Rust pt (at_type a)).
  destruct (at_optional a); apply rust_field_lines; eauto with lf; unfold rust_option; nolf.
Qed.

Lemma rust_group_attribute_lines : forall l, Forall attribute_ok l ->
  Lines (sconcat (map (rust_group_attribute_line pt) l))
    (map (fun m => TAB ++ m)
       (flat_map (fun a => r_field (at_name a) (rust_field_name (at_name a))
                             (if at_optional a then "Option<" ++ shown Rust pt (at_type a) ++ ">"
                              else r_vec true (shown Rust pt (at_type a)))) l)).
Proof.
  intros l Hl. frows Hl. unfold LA. cbn [append]. unfold rust_group_attribute_line.
  change (rust_member_type pt (at_type a)) with (shown Rust pt (at_type a)).
  destruct (at_optional a).
  - apply rust_field_lines; eauto with lf; unfold rust_option; nolf.
  - apply (rust_field_lines _ _ (r_vec true (shown Rust pt (at_type a)))); eauto with lf.
Qed.

Lemma rust_group_lines : forall b l, Forall group_ref_ok l ->
  Lines (sconcat (map (rust_group_line pt b) l)) (map (fun m => TAB ++ m) (flat_map (r_group_rows pt b) l)).
Proof.
  intros b l Hl. frows Hl. unfold LA. cbn [append]. unfold rust_group_line, r_group_rows.
  change (rust_member_type pt (gr_ref a)) with (shown Rust pt (gr_ref a)).
  destruct b; [apply (rust_field_lines _ _ (r_vec true (shown Rust pt (gr_ref a)))) | apply rust_field_lines];
    eauto with lf.
Qed.

Lemma rust_own_group_lines : forall l, Forall group_ref_ok l ->
  Lines (sconcat (map (fun x => rust_group_line pt (gr_plural x) x) l))
    (map (fun m => TAB ++ m) (flat_map (fun x => r_group_rows pt (gr_plural x) x) l)).
Proof.
  intros l Hl. frows Hl. unfold LA. cbn [append]. unfold rust_group_line, r_group_rows.
  change (rust_member_type pt (gr_ref a)) with (shown Rust pt (gr_ref a)).
  destruct (gr_plural a); [apply (rust_field_lines _ _ (r_vec true (shown Rust pt (gr_ref a)))) | apply rust_field_lines];
    eauto with lf.
Qed.

Lemma rust_element_lines : forall l, Forall element_ok l ->
  Lines (sconcat (map (rust_element_line pt) l))
    (map (fun m => TAB ++ m)
      (flat_map (fun e => r_field (el_name e) (rust_field_name (el_name e))
                            (if el_plural e then r_vec true (shown Rust pt (el_type e))
                             else if el_optional e then "Option<" ++ shown Rust pt (el_type e) ++ ">"
                             else shown Rust pt (el_type e))) l)).
Proof.
  intros l Hl. frows Hl. unfold LA. cbn [append]. unfold rust_element_line.
  change (rust_member_type pt (el_type a)) with (shown Rust pt (el_type a)).
  destruct (el_plural a); [|destruct (el_optional a)].
  - apply (rust_field_lines _ _ (r_vec true (shown Rust pt (el_type a)))); eauto with lf.
  - apply rust_field_lines; eauto with lf; unfold rust_option; nolf.
  - apply rust_field_lines; eauto with lf.
Qed.

Lemma rust_group_element_lines : forall b l, Forall element_ok l ->
  Lines (sconcat (map (rust_group_element_line pt b) l))
    (map (fun m => TAB ++ m)
      (flat_map (fun e => r_field (el_name e) (rust_field_name (el_name e)) (r_vec b (shown Rust pt (el_type e)))) l)).
Proof.
  intros b l Hl. frows Hl. unfold LA. cbn [append]. unfold rust_group_element_line.
  change (rust_member_type pt (el_type a)) with (shown Rust pt (el_type a)).
  destruct b; [apply (rust_field_lines _ _ (r_vec true (shown Rust pt (el_type a)))) | apply rust_field_lines];
    eauto with lf.
Qed.

Lemma rust_union_lines : forall name m, has_char LF name = false -> members_ok m ->
  Lines (sconcat (map (rust_union_member pt name) (to_sorted_pairs m)))
    (map (fun m => TAB ++ m)
       (flat_map (fun m => r_field name (rust_field_name (fst m)) (rust_field_type (member_type pt m)))
            (to_sorted_pairs m))).
Proof.
  intros name m Hname Hm. apply members_sorted in Hm. frows Hm. unfold LA. cbn [append].
  unfold rust_union_member. rewrite snd_eqb.
  change (match snd a with "" => get_base (fst a) pt | _ => snd a end) with (member_type pt a).
  apply rust_field_lines; eauto with lf.
Qed.

Lemma rust_base_lines : forall b, has_char LF b = false ->
  Lines (rust_base_line pt b)
    (map (fun m => TAB ++ m)
       match b with
       | EmptyString => []
       | _ => if in_dec string_dec b rust_buildin_type
              then r_field "$value" "value" (shown Rust pt b)
              else ["#[serde(flatten)]";
                    "pub " ++ rust_field_name (shown Rust pt b) ++ ": " ++ shown Rust pt b ++ ","]
       end).
Proof.
  intros b Hb. unfold rust_base_line, is_rust_builtin. rewrite length_ltb.
  destruct b as [|x b]; [reflexivity|]. set (t := String x b) in *. clearbody t.
  change (rust_member_type pt t) with (shown Rust pt t). rewrite in_set_dec.
  destruct (in_dec string_dec t rust_buildin_type).
  - apply rust_field_lines; eauto with lf.
  - cbn [map]. apply LA_start. la.
Qed.


Ltac rline := lazymatch goal with
  | |- Lines (sconcat (map (rust_attrgroup_line _) _)) _ => apply rust_attrgroup_lines
  | |- Lines (sconcat (map (rust_attribute_line _) _)) _ => apply rust_attribute_lines
  | |- Lines (sconcat (map (rust_group_attribute_line _) _)) _ => apply rust_group_attribute_lines
  | |- Lines (sconcat (map (rust_group_line _ _) _)) _ => apply rust_group_lines
  | |- Lines (sconcat (map (rust_element_line _) _)) _ => apply rust_element_lines
  | |- Lines (sconcat (map (rust_group_element_line _ _) _)) _ => apply rust_group_element_lines
  | |- Lines (sconcat (map (rust_union_member _ _) _)) _ => apply rust_union_lines
  | |- Lines (rust_base_line _ _) _ => apply rust_base_lines
  | |- Lines (sconcat (map _ _)) _ => apply rust_own_group_lines
  end; assumption.
Ltac rmembers := rewrite ?map_app; repeat (apply Lines_app; [rline|]); rline.

Lemma rust_emits : forall p g n, proto_name p = Some n -> component_ok p -> declared n g = false ->
  Emits Rust pt p false g (rust_entry pt g p).
Proof.
  intros p g n Hn Hp Hd.
  destruct (ident_lf Rust p n Hn Hp) as [Hln [Hpl Hid]]. specialize (Hid g).
  destruct p as [|v|v|v|v|v|v]; cbn [proto_name] in Hn; [discriminate|..]; injection Hn as Hn;
    cbn [component_ok] in Hp; unfold rust_entry, Emits, count_after;
    unfold ident_now in *; unfold plain_ident in *; cbn [proto_name counting] in *.
  - destruct Hp as [H1 [H2 [H3 H4]]]. apply lf_of in H1, H2.
    unfold rust_simple_type, rust_unique_name. rewrite is_union_eq, Hn, Hd.
    cbn [negb]. rewrite !andb_true_r. cbn [items_of rust_items]. rewrite Hn in *.
    change (rust_member_type pt (st_base v)) with (shown Rust pt (st_base v)).
    destruct (uniq_name (g_count g) (rust_struct_name n)) as [id counts]. cbn [fst snd] in *.
    destruct (st_list v); [|destruct (is_union v)]; cbn [emit g_field g_ast g_count]; emitted.
    + apply rust_decl_text; [exact Hid|].
      apply (rust_field_lines n (rust_field_name n) (r_vec true (shown Rust pt (st_base v)))); eauto with lf.
    + apply rust_bare_text; [exact Hid|]. rline.
    + apply rust_decl_text; [exact Hid|]. apply rust_field_lines; eauto with lf.
  - destruct Hp as [H1 [H2 [H3 [H4 [H5 H6]]]]]. apply lf_of in H1, H2.
    unfold rust_complex_type, rust_unique_name. rewrite Hn, Hd in *. cbn [negb items_of rust_items].
    destruct (uniq_name (g_count g) (rust_struct_name n)) as [id counts]. cbn [fst snd] in *.
    cbn [emit g_field g_ast g_count]. emitted.
    apply rust_decl_text; [exact Hid|]. rmembers.
  - destruct Hp as [H1 H2]. apply lf_of in H1, H2.
    unfold rust_element. rewrite Hn, Hd in *. cbn [negb items_of rust_items]. rewrite Hn.
    cbn [emit g_field g_ast g_count]. emitted. apply rust_decl_text; [exact Hid|].
    change (if el_plural v then rust_vec (rust_member_type pt (el_type v)) else rust_member_type pt (el_type v))
      with (r_vec (el_plural v) (shown Rust pt (el_type v))).
    apply rust_field_lines; eauto with lf.
  - destruct Hp as [H1 H2]. apply lf_of in H1, H2.
    unfold rust_attribute. rewrite Hn, Hd in *. cbn [negb items_of rust_items]. rewrite Hn.
    cbn [emit g_field g_ast g_count]. emitted. apply rust_decl_text; [exact Hid|].
    change (if at_plural v then rust_vec (rust_member_type pt (at_type v)) else rust_member_type pt (at_type v))
      with (r_vec (at_plural v) (shown Rust pt (at_type v))).
    apply rust_field_lines; eauto with lf.
  - destruct Hp as [H1 [H2 H3]]. apply lf_of in H1.
    unfold rust_group, rust_unique_name. rewrite Hn, Hd in *. cbn [negb items_of rust_items].
    destruct (uniq_name (g_count g) (rust_struct_name n)) as [id counts]. cbn [fst snd] in *.
    cbn [emit g_field g_ast g_count]. emitted.
    apply rust_decl_text; [exact Hid|]. rmembers.
  - destruct Hp as [H1 H2]. apply lf_of in H1.
    unfold rust_attribute_group, rust_unique_name. rewrite Hn, Hd in *. cbn [negb items_of rust_items].
    destruct (uniq_name (g_count g) (rust_struct_name n)) as [id counts]. cbn [fst snd] in *.
    cbn [emit g_field g_ast g_count]. emitted.
    apply rust_decl_text; [exact Hid|]. rmembers.
Qed.

(** ** TypeScript *)

Lemma ts_class_text : forall id doc ext rest ms, has_char LF id = false -> has_char LF ext = false ->
  Lines rest (map (fun m => TAB ++ m) ms +++ ["}"]) ->
  Text (ts_class id doc ext (" {" ++ NL ++ rest)) (t_class id doc ext ms).
Proof.
  intros id doc ext rest ms Hid Hext Hm.
  exists ((CR :: comment id doc) +++ (("export class " ++ id ++ ext ++ " {") :: map (fun m => TAB ++ m) ms +++ ["}"])).
  split.
  - unfold ts_class. apply LA_start, LA_block; [apply Lines_comment, Hid|]. la.
  - cbn [app]. apply Reads_skip; [now right|].
    change (t_class id doc ext ms) with
      ([mkItem (comment id doc) ("export class " ++ id ++ ext ++ " {") ms] +++ [mkItem [] "}" []]).
    rewrite app_comm_cons, app_assoc. apply Reads_app.
    + apply Reads_item; [head_ok | apply comment_marked].
    + apply (Reads_item [] "}" []); [head_ok | intros x []].
Qed.

Lemma ts_enum_text : forall id doc rest ms, has_char LF id = false ->
  Lines rest (map (fun m => TAB ++ m) ms) ->
  Text (gen_field_comment id doc "//" ++ "export enum " ++ id ++ " {" ++ NL ++ rest ++ "}" ++ NL)
    [mkItem (comment id doc) ("export enum " ++ id ++ " {") ms; mkItem [] "}" []].
Proof.
  intros id doc rest ms Hid Hm.
  exists ((CR :: comment id doc) +++ (("export enum " ++ id ++ " {") :: map (fun m => TAB ++ m) ms +++ ["}"])).
  split.
  - apply LA_start, LA_block; [apply Lines_comment, Hid|]. la.
  - cbn [app]. apply Reads_skip; [now right|].
    change [mkItem (comment id doc) ("export enum " ++ id ++ " {") ms; mkItem [] "}" []] with
      ([mkItem (comment id doc) ("export enum " ++ id ++ " {") ms] +++ [mkItem [] "}" []]).
    rewrite app_comm_cons, app_assoc. apply Reads_app.
    + apply Reads_item; [head_ok | apply comment_marked].
    + apply (Reads_item [] "}" []); [head_ok | intros x []].
Qed.

Lemma ts_alias_text : forall id doc t, has_char LF id = false -> has_char LF t = false ->
  Text (gen_field_comment id doc "//" ++ "export type " ++ id ++ " = " ++ t ++ ";" ++ NL) (t_alias id doc t).
Proof.
  intros id doc t Hid Hr.
  exists ((CR :: comment id doc) +++ ["export type " ++ id ++ " = " ++ t ++ ";"]). split.
  - apply LA_start, LA_block; [apply Lines_comment, Hid|]. la.
  - cbn [app]. apply Reads_skip; [now right|].
    apply (Reads_item (comment id doc) ("export type " ++ id ++ " = " ++ t ++ ";") []); [head_ok | apply comment_marked].
Qed.

Lemma ts_field_line : forall name t, has_char LF name = false -> has_char LF t = false ->
  Lines (ts_field name t) [TAB ++ t_field name t].
Proof. intros name t H1 H2. unfold ts_field, t_field. apply LA_start. la. Qed.

Lemma ts_attrgroup_lines : forall l, Forall (fun a => one_line (ag_name a) /\ one_line (ag_ref a)) l ->
  Lines (sconcat (map (ts_attrgroup_line pt) l))
    (map (fun m => TAB ++ m) (map (fun a => t_field (ts_field_name (ag_name a)) (shown_ts pt (ag_ref a) false)) l)).
Proof. intros l Hl. rows Hl. apply ts_field_line; eauto with lf. Qed.

Lemma ts_attribute_lines : forall l, Forall attribute_ok l ->
  Lines (sconcat (map (ts_attribute_line pt) l)) (map (fun m => TAB ++ m) (map (t_attribute_row pt) l)).
Proof.
  intros l Hl. rows Hl. apply ts_field_line; [nolf|].
  change (ts_member_type pt (at_type a) (at_plural a)) with (shown_ts pt (at_type a) (at_plural a)). 
  destruct (at_optional a); nolf.
Qed.

Lemma ts_group_lines : forall l, Forall group_ref_ok l ->
  Lines (sconcat (map (ts_group_line pt) l)) (map (fun m => TAB ++ m) (map (t_group_row pt) l)).
Proof. intros l Hl. rows Hl. apply ts_field_line; eauto with lf. Qed.

Lemma ts_element_lines : forall l, Forall element_ok l ->
  Lines (sconcat (map (ts_element_line pt) l)) (map (fun m => TAB ++ m) (map (t_element_row pt) l)).
Proof. intros l Hl. rows Hl. apply ts_field_line; eauto with lf. Qed.

Lemma ts_union_lines : forall m, members_ok m ->
  Lines (sconcat (map (ts_union_member pt) (to_sorted_pairs m)))
    (map (fun m => TAB ++ m)
       (map (fun m => t_field (ts_field_name (fst m)) (ts_field_type (member_type pt m) false)) (to_sorted_pairs m))).
Proof.
  intros m Hm. apply members_sorted in Hm. rows Hm. unfold ts_union_member. rewrite snd_eqb.
  change (match snd a with "" => get_base (fst a) pt | _ => snd a end) with (member_type pt a).
  apply ts_field_line; eauto with lf.
Qed.

Lemma ts_value_lines : forall b, has_char LF b = false ->
  Lines (ts_value_line pt b)
    (map (fun m => TAB ++ m)
       (if (if in_dec string_dec b ts_buildin_type then true else false)
        then [t_field "Value" (shown_ts pt b false)] else [])).
Proof.
  intros b Hb. unfold ts_value_line, is_ts_builtin.
  rewrite builtin_nonempty by (vm_compute; intuition discriminate).
  destruct (in_dec string_dec b ts_buildin_type); [|reflexivity].
  apply ts_field_line; eauto with lf.
Qed.

Lemma ts_extension_eq : forall b, ts_extension pt b =
  if (if in_dec string_dec b ts_buildin_type then true else false) then ""
  else match b with EmptyString => "" | _ => " extends " ++ shown_ts pt b false ++ " " end.
Proof.
  intros b. unfold ts_extension, is_ts_builtin. rewrite length_ltb.
  assert (Hd := in_set_dec bool b ts_buildin_type true false). rewrite <- Hd.
  destruct b as [|x b]; [now destruct (in_set "" _)|]. destruct (in_set (String x b) ts_buildin_type); reflexivity.
Qed.

Lemma lf_ts_extension : forall b, has_char LF b = false -> has_char LF (ts_extension pt b) = false.
Proof.
  intros b Hb. rewrite ts_extension_eq. destruct (if in_dec _ _ _ then true else false); [reflexivity|].
  destruct b; [reflexivity|]. nolf.
Qed.

Lemma ts_enum_lines : forall base l, Forall one_line l ->
  Lines (sconcat (map (ts_enum_member base) l)) (map (fun m => TAB ++ m) (map (t_enum_row base) l)).
Proof.
  intros base l Hl. rewrite map_map. apply Lines_map. intros x Hx.
  pose proof (lf_of _ (proj1 (Forall_forall _ _) Hl x Hx)) as H1.
  unfold ts_enum_member, t_enum_row. apply LA_start.
  destruct (String.eqb_spec base "string") as [->|H]; [destruct (string_dec "string" "string"); [|congruence]; la|].
  destruct (string_dec base "string"); [congruence|].
  destruct (String.eqb_spec base "number") as [->|H']; [destruct (string_dec "number" "number"); [|congruence]; la|].
  destruct (string_dec base "number"); [congruence|]. la.
Qed.

Ltac tline := lazymatch goal with
  | |- Lines (sconcat (map (ts_attrgroup_line _) _)) _ => apply ts_attrgroup_lines
  | |- Lines (sconcat (map (ts_attribute_line _) _)) _ => apply ts_attribute_lines
  | |- Lines (sconcat (map (ts_group_line _) _)) _ => apply ts_group_lines
  | |- Lines (sconcat (map (ts_element_line _) _)) _ => apply ts_element_lines
  | |- Lines (sconcat (map (ts_union_member _) _)) _ => apply ts_union_lines
  | |- Lines (ts_value_line _ _) _ => apply ts_value_lines
  end; assumption.
Ltac tmembers := rewrite ?map_app, <- ?app_assoc; repeat (apply Lines_app; [tline|]); reflexivity.

Lemma nonempty_len : forall A (l : list A), negb (Nat.eqb (length l) 0) = match l with [] => false | _ => true end.
Proof. now destruct l. Qed.

Lemma ts_emits : forall p g n, proto_name p = Some n -> component_ok p -> declared n g = false ->
  enumerated TypeScript p && negb (listed p) = false ->
  Emits TypeScript pt p false g (ts_entry pt g p).
Proof.
  intros p g n Hn Hp Hd He.
  destruct (ident_lf TypeScript p n Hn Hp) as [Hln [Hpl Hid]]. specialize (Hid g).
  destruct p as [|v|v|v|v|v|v]; cbn [proto_name] in Hn; [discriminate|..]; injection Hn as Hn;
    cbn [component_ok] in Hp; unfold ts_entry, Emits, count_after;
    unfold ident_now in *; unfold plain_ident in *; cbn [proto_name counting] in *.
  - destruct Hp as [H1 [H2 [H3 H4]]]. apply lf_of in H1, H2.
    unfold ts_simple_type, ts_unique_name. rewrite is_union_eq, nonempty_len, Hn, Hd.
    cbn [negb]. rewrite !andb_true_r. cbn [items_of ts_items].
    destruct (uniq_name (g_count g) (ts_field_name n)) as [id counts] eqn:Hu.
    rewrite Hn in *. rewrite Hu in *. cbn [fst snd] in *.
    cbn [enumerated listed] in He. destruct (st_list v); [|destruct (is_union v)].
    + cbn [emit g_field g_ast g_count]. emitted.
      eapply Text_eq; [|apply (ts_alias_text id (st_doc v) (shown_ts pt (st_base v) true)); eauto with lf]. reflexivity.
    + cbn [emit g_field g_ast g_count]. emitted.
      apply ts_class_text; [exact Hid | reflexivity|]. tmembers.
    + destruct (st_enum v); [|discriminate]. cbn [emit g_field g_ast g_count]. emitted.
      eapply Text_eq; [|apply (ts_alias_text id (st_doc v) (shown_ts pt (st_base v) false)); eauto with lf]. reflexivity.
  - destruct Hp as [H1 [H2 [H3 [H4 [H5 H6]]]]]. apply lf_of in H1, H2.
    unfold ts_complex_type, ts_unique_name. rewrite Hn, Hd in *. cbn [negb items_of ts_items].
    rewrite <- ts_extension_eq.
    destruct (uniq_name (g_count g) (ts_field_name n)) as [id counts]. cbn [fst snd] in *.
    cbn [emit g_field g_ast g_count]. emitted.
    apply ts_class_text; [exact Hid | now apply lf_ts_extension|]. tmembers.
  - destruct Hp as [H1 H2]. apply lf_of in H1, H2.
    unfold ts_element, ts_unique_name. rewrite Hn, Hd in *. cbn [negb items_of ts_items].
    destruct (uniq_name (g_count g) (ts_field_name n)) as [id counts]. cbn [fst snd] in *.
    cbn [emit g_field g_ast g_count]. emitted.
    eapply Text_eq; [|apply (ts_alias_text id (el_doc v) (shown_ts pt (el_type v) (el_plural v))); eauto with lf]. reflexivity.
  - destruct Hp as [H1 H2]. apply lf_of in H1, H2.
    unfold ts_attribute, ts_unique_name. rewrite Hn, Hd in *. cbn [negb items_of ts_items].
    destruct (uniq_name (g_count g) (ts_field_name n)) as [id counts]. cbn [fst snd] in *.
    cbn [emit g_field g_ast g_count]. emitted.
    eapply Text_eq; [|apply (ts_alias_text id (at_doc v) (shown_ts pt (at_type v) (at_plural v))); eauto with lf]. reflexivity.
  - destruct Hp as [H1 [H2 H3]]. apply lf_of in H1.
    unfold ts_group, ts_unique_name. rewrite Hn, Hd in *. cbn [negb items_of ts_items].
    destruct (uniq_name (g_count g) (ts_field_name n)) as [id counts]. cbn [fst snd] in *.
    cbn [emit g_field g_ast g_count]. emitted.
    apply ts_class_text; [exact Hid | reflexivity|]. tmembers.
  - destruct Hp as [H1 H2]. apply lf_of in H1.
    unfold ts_attribute_group, ts_unique_name. rewrite Hn, Hd in *. cbn [negb items_of ts_items].
    destruct (uniq_name (g_count g) (ts_field_name n)) as [id counts]. cbn [fst snd] in *.
    cbn [emit g_field g_ast g_count]. emitted.
    apply ts_class_text; [exact Hid | reflexivity|]. tmembers.
Qed.

Lemma ts_emits_enum : forall p g n, proto_name p = Some n -> component_ok p -> enumerated TypeScript p = true ->
  declared n g = true \/ listed p = false ->
  Emits TypeScript pt p true g (ts_entry pt g p).
Proof.
  intros p g n Hn Hp He Hd.
  destruct (ident_lf TypeScript p n Hn Hp) as [Hln [Hpl Hid]]. specialize (Hid g).
  destruct p as [|v|v|v|v|v|v]; try discriminate. injection Hn as Hn.
  cbn [component_ok] in Hp; unfold ts_entry, Emits, count_after;
    unfold ident_now in *; unfold plain_ident in *; cbn [proto_name counting] in *.
  destruct Hp as [H1 [H2 [H3 H4]]]. apply lf_of in H1, H2.
  unfold ts_simple_type, ts_unique_name. rewrite is_union_eq, nonempty_len, Hn in *.
  cbn [enumerated listed] in He, Hd. apply andb_true_iff in He as [Hun Hen]. apply negb_true_iff in Hun.
  assert (st_list v && negb (declared n g) = false) as ->.
  { destruct Hd as [-> | ->]; [now rewrite andb_false_r | reflexivity]. }
  rewrite Hun, Hen. cbn [items_of ts_items].
  destruct (uniq_name (g_count g) (ts_field_name n)) as [id counts] eqn:Hu.
  rewrite ?Hu in *. cbn [fst snd] in *.
  cbn [emit_anon g_field g_ast g_count].
  split; [|split; reflexivity]. eexists. split; [reflexivity|].
  apply ts_enum_text; [exact Hid|]. now apply ts_enum_lines.
Qed.

(** ** All languages *)

Lemma entry_emits : forall l p g n, proto_name p = Some n -> component_ok p -> declared n g = false ->
  enumerated l p && negb (listed p) = false -> Emits l pt p false g (entry_of l pt g p).
Proof.
  intros [] p g n Hn Hp Hd He;
    eauto using go_emits, c_emits, java_emits, rust_emits, ts_emits.
Qed.

Lemma entry_emits_enum : forall l p g n, proto_name p = Some n -> component_ok p -> enumerated l p = true ->
  declared n g = true \/ listed p = false -> Emits l pt p true g (entry_of l pt g p).
Proof. intros [] p g n Hn Hp He Hd; try discriminate. eauto using ts_emits_enum. Qed.

End Outline.

Section Run.
Context {E : Env}.

Lemma entry_nil : forall l pt p g, proto_name p = None -> entry_of l pt g p = g.
Proof. intros [] pt [] g H; try discriminate; reflexivity. Qed.

Lemma entry_skips : forall l pt p g n, proto_name p = Some n -> declared n g = true ->
  enumerated l p = false -> entry_of l pt g p = g.
Proof.
  intros l pt p g n Hn Hd He.
  destruct p as [|v|v|v|v|v|v]; cbn [proto_name] in Hn; [discriminate|..]; injection Hn as Hn;
    destruct l; cbn [entry_of];
    unfold go_entry, c_entry, java_entry, rust_entry, ts_entry, go_simple_type, go_complex_type, go_element,
      go_attribute, go_group, go_attribute_group, c_simple_type, c_complex_type, c_element, c_attribute, c_group,
      c_attribute_group, java_simple_type, java_complex_type, java_element, java_attribute, java_group,
      java_attribute_group, rust_simple_type, rust_complex_type, rust_element, rust_attribute, rust_group,
      rust_attribute_group, ts_simple_type, ts_complex_type, ts_element, ts_attribute, ts_group,
      ts_attribute_group;
    rewrite Hn, Hd; cbn [negb]; rewrite ?andb_false_r, ?is_union_eq; try reflexivity;
    try (destruct (is_union v); reflexivity).
  cbn [enumerated] in He. rewrite nonempty_len. destruct (is_union v); [reflexivity|]. cbn in He. now rewrite He.
Qed.

End Run.
