(** Proofs for C69. *)

From Coq Require Import String Ascii List NArith Bool Lia ZifyBool ZifyN ZifyNat Permutation.
From Verif Require Import GoStr Utf8 Base Utils SpecStr SpecTables SpecGen SpecOut SpecSyntax SpecMembers
  StrLemmas StrProofs TableProofs NameProofs GenLemmas GenOutline GenRun GenNames GenFacts GenRuns SyntaxProofs.
Import ListNotations.
Local Open Scope string_scope.

Local Infix "+++" := app (at level 60, right associativity).

(** * Rows *)

Definition good (s : string) : Prop :=
  has_char " " s = false /\ has_char "009" s = false /\ has_char ":" s = false /\ has_char ";" s = false /\
  has_char "[" s = false /\ has_char "*" s = false.

Lemma unstarred_same : forall s, has_char "*" s = false -> unstarred s = s.
Proof.
  intros [|a s] H; [reflexivity|]. cbn [has_char] in H. apply orb_false_iff in H as [H _].
  unfold unstarred. destruct a as [[] [] [] [] [] [] [] []]; try reflexivity. discriminate H.
Qed.

Lemma go_read : forall n x r, good n -> field Go (cols (n :: x :: r)) = [n].
Proof.
  intros n x r [_ [H [_ [_ [_ Hs]]]]]. unfold field, cols. cbn [sjoin].
  rewrite until_stop; [now rewrite unstarred_same | exact H|]. right. now eexists.
Qed.

Lemma go_read_alone : forall t, has_char "009" t = false -> field Go t = [unstarred t].
Proof. intros t H. unfold field. now rewrite until_whole. Qed.

Lemma split_on_both : forall c a b, split_on c (a ++ String c b) = split_on c a +++ split_on c b.
Proof.
  intros c a b. destruct (exists_last (split_on_nonempty c a)) as [x [y Hx]].
  rewrite (split_on_app_gen c a (String c b) x y Hx), Hx. cbn [split_on]. rewrite Ascii.eqb_refl, app_nil_r_s.
  now rewrite <- app_assoc.
Qed.

Lemma c_read : forall t n br note, good n -> br = "" \/ br = "[]" -> note = "" \/ note = " // attr" \/ note = " // attr, optional" ->
  field C (t ++ " " ++ n ++ br ++ ";" ++ note) = [n].
Proof.
  intros t n br note [H1 [_ [_ [H3 [H4 _]]]]] Hbr Hnote. unfold field. f_equal.
  assert (Hl : last (filter (has_char ";") (split_on " " (t ++ " " ++ n ++ br ++ ";" ++ note))) "" = n ++ br ++ ";").
  { change (t ++ " " ++ n ++ br ++ ";" ++ note) with (t ++ String " " (n ++ br ++ ";" ++ note)). rewrite split_on_both, filter_app.
    assert (Hw : filter (has_char ";") (split_on " " (n ++ br ++ ";" ++ note)) = [n ++ br ++ ";"]).
    { assert (Hf : has_char " " (n ++ br ++ ";") = false) by (rewrite !has_char_app, H1; destruct Hbr as [->| ->]; reflexivity).
      assert (Ht : has_char ";" (n ++ br ++ ";") = true) by (rewrite !has_char_app; cbn; now rewrite !orb_true_r).
      replace (n ++ br ++ ";" ++ note) with ((n ++ br ++ ";") ++ note) by now rewrite !app_assoc_s.
      destruct Hnote as [->|[->| ->]].
      - rewrite app_nil_r_s, split_on_no_char by exact Hf. cbn [filter]. now rewrite Ht.
      - change " // attr" with (String " " "// attr"). rewrite split_on_app_char by exact Hf. cbn [filter]. now rewrite Ht.
      - change " // attr, optional" with (String " " "// attr, optional"). rewrite split_on_app_char by exact Hf. cbn [filter]. now rewrite Ht. }
    rewrite Hw. apply last_last. }
  rewrite Hl. replace (n ++ br ++ ";") with ((n ++ br) ++ ";") by now rewrite app_assoc_s.
  rewrite until_stop.
  - destruct Hbr as [->| ->]; (rewrite until_stop; [reflexivity | exact H4 |]); [now left | right; now eexists].
  - rewrite has_char_app, H3. now destruct Hbr as [->| ->].
  - right. now eexists.
Qed.

Lemma c_read_plain : forall t n (b : bool), good n -> field C (t ++ " " ++ n ++ when b "[]" ++ ";") = [n].
Proof.
  intros t n b H. pose proof (c_read t n (when b "[]") "" H) as R. apply R; [destruct b; auto | now left].
Qed.

Lemma c_read_declarator : forall t n b note, good n -> note = "" \/ note = " // attr" \/ note = " // attr, optional" ->
  field C (c_declarator t n b ++ ";" ++ note) = [n].
Proof.
  intros t n b note H Hn. destruct (c_declarator_shape t n b) as [a [br [Hbr ->]]]. rewrite !app_assoc_s. now apply c_read.
Qed.

Lemma java_read : forall t n, good n -> field Java (j_field t n) = [n].
Proof.
  intros t n [H1 [_ [_ [H3 _]]]]. unfold field, j_field. rewrite prefix_app. f_equal.
  rewrite <- (app_assoc_s "protected " t), last_word_app by (rewrite has_char_app, H1; reflexivity).
  apply until_stop; [exact H3|]. right. now eexists.
Qed.

Lemma java_note : forall s, field Java ("@" ++ s) = [].
Proof. reflexivity. Qed.

Lemma rust_read : forall n t, good n -> field Rust ("pub " ++ n ++ ": " ++ t ++ ",") = [n].
Proof.
  intros n t [H1 [_ [H3 _]]]. unfold field. rewrite prefix_app. f_equal.
  change ("pub " ++ n ++ ": " ++ t ++ ",") with ("pub" ++ " " ++ n ++ ": " ++ t ++ ","). rewrite word_next by reflexivity.
  replace (n ++ ": " ++ t ++ ",") with ((n ++ ":") ++ " " ++ t ++ ",") by now rewrite app_assoc_s.
  rewrite word_0; [|rewrite has_char_app, H1; reflexivity | right; now eexists].
  apply until_stop; [exact H3 | right; now eexists].
Qed.

Lemma rust_note : forall s, field Rust ("#" ++ s) = [].
Proof. reflexivity. Qed.

Lemma rust_rows : forall name n t, good n -> flat_map (field Rust) (r_field name n t) = [n].
Proof.
  intros name n t H. unfold r_field. cbn [flat_map]. rewrite rust_read by exact H.
  change ("#[serde(rename = " ++ quoted name ++ ")]") with ("#" ++ "[serde(rename = " ++ quoted name ++ ")]"). reflexivity.
Qed.

Lemma ts_read : forall n t, good n -> field TypeScript (t_field n t) = [n].
Proof.
  intros n t [H1 [_ [H3 _]]]. unfold field, t_field. f_equal.
  rewrite until_stop; [now apply until_whole | exact H3 | right; now eexists].
Qed.

Lemma ts_read_value : forall b x, has_char " " x = false -> has_char ":" x = false -> field TypeScript (t_enum_row b x) = [value_name b x].
Proof.
  intros b x H1 H3. unfold field, t_enum_row, value_name. f_equal.
  assert (H : forall n r, has_char " " n = false -> has_char ":" n = false -> until " " (until ":" (n ++ " = " ++ r)) = n).
  { intros n r A B. assert (Hu : until ":" (n ++ " = " ++ r) = n ++ " = " ++ until ":" r).
    { unfold until. replace (n ++ " = " ++ r) with ((n ++ " = ") ++ r) by now rewrite app_assoc_s.
      rewrite split_on_prepend by (rewrite has_char_app, B; reflexivity). pose proof (split_on_nonempty ":" r) as Hne.
      destruct (split_on ":" r); [congruence|]. now rewrite app_assoc_s. }
    rewrite Hu. apply until_stop; [exact A | right; now eexists]. }
  destruct (string_dec b "string"); [now apply H|].
  replace ("Enum" ++ x ++ " = " ++ (if string_dec b "number" then x else "'" ++ x ++ "'") ++ ",")
    with (("Enum" ++ x) ++ " = " ++ (if string_dec b "number" then x else "'" ++ x ++ "'") ++ ",") by now rewrite app_assoc_s.
  apply H; rewrite has_char_app; [now rewrite H1 | now rewrite H3].
Qed.

Lemma read_map : forall l A (f g : A -> string) xs, (forall x, In x xs -> field l (f x) = [g x]) -> flat_map (field l) (map f xs) = map g xs.
Proof.
  intros l A f g xs H. induction xs as [|x xs IH]; [reflexivity|]. cbn [map flat_map].
  rewrite H by now left. rewrite IH by (intros; apply H; now right). reflexivity.
Qed.

Lemma read_flat : forall l A (f : A -> list string) (g : A -> string) xs, (forall x, In x xs -> flat_map (field l) (f x) = [g x]) ->
  flat_map (field l) (flat_map f xs) = map g xs.
Proof.
  intros l A f g xs H. induction xs as [|x xs IH]; [reflexivity|]. cbn [map flat_map]. rewrite flat_map_app.
  rewrite H by now left. rewrite IH by (intros; apply H; now right). reflexivity.
Qed.

(** * Names *)

Section Members.
Context {E : Env}.
Hypothesis tables : case_tables_ok.

Lemma sign_mark : forall c, In c [" "%char; "009"%char; ";"%char; "["%char; "*"%char; ":"%char] -> mark c.
Proof.
  intros c H. repeat (destruct H as [<-|H]; [vm_compute; split; [reflexivity|]; split; [intros [[A B]|[A B]]; (now apply A) || (now apply B) | discriminate]|]).
  destruct H.
Qed.

Lemma title_join_gone : forall c s, mark c -> has_char c (title_join c s) = false.
Proof.
  intros c s Hc. unfold title_join. apply sconcat_has_char. intros x Hx.
  apply in_map_iff in Hx as [y [<- Hy]]. apply (to_title_mark tables c Hc). revert y Hy.
  induction s as [|a s IH]; cbn [split_on]; [intros y [<-|[]]; reflexivity|].
  destruct (Ascii.eqb a c) eqn:Ha; [intros y [<-|Hy]; [reflexivity | now apply IH]|].
  pose proof (split_on_nonempty c s). destruct (split_on c s) as [|h t]; [congruence|].
  intros y [<-|Hy]; [|apply IH; now right]. cbn [has_char]. rewrite Ha. apply IH. now left.
Qed.

Lemma ident_colon : forall l n, has_char ":" (member_ident l n) = false /\ has_char ":" (type_ident l n) = false.
Proof.
  intros l n. pose proof (sign_mark ":" ltac:(cbn; tauto)) as Hm.
  assert (Hc : has_char ":" (camel n) = false).
  { rewrite camel_eq. apply has_char_remove_other, (title_join_mark tables _ Hm), title_join_gone, Hm. }
  assert (Hs : has_char ":" (solid n) = false) by (unfold solid; rewrite erase_remove; now apply has_char_remove_other).
  assert (Hr : has_char ":" (snake n) = false).
  { unfold snake. rewrite lowered_eq.
    assert (Hl : has_char ":" (to_lower (separated (camel n))) = false) by (apply (to_lower_mark tables _ Hm), separated_has_char; [discriminate | exact Hc]).
    destruct (in_dec string_dec (to_lower (separated (camel n))) rust_reserved); [|exact Hl]. rewrite has_char_app, Hl. reflexivity. }
  destruct l; split; assumption.
Qed.

Lemma ident_free : forall l c n, mark c -> has_char c n = false -> has_char c (member_ident l n) = false /\ has_char c (type_ident l n) = false.
Proof.
  intros l c n Hc H. rewrite member_ident_eq, type_ident_eq.
  destruct (names_mark tables c Hc n H) as [A1 [A2 [A3 [A4 [A5 A6]]]]]. destruct l; split; assumption.
Qed.

Lemma readable_has : forall n, readable n -> has_char " " n = false /\ has_char "009" n = false /\ has_char ";" n = false /\ has_char "[" n = false /\ has_char "*" n = false.
Proof. intros n [A [B [C [D F]]]]. apply free_of_has_char in A, B, C, D, F. auto. Qed.

Lemma good_idents : forall l n, readable n -> good (member_ident l n) /\ good (type_ident l n).
Proof.
  intros l n H. apply readable_has in H as [A [B [C [D F]]]]. unfold good.
  assert (Hm : forall c, In c [" "%char; "009"%char; ";"%char; "["%char; "*"%char] -> mark c) by (intros c Hc; apply sign_mark; cbn in *; tauto).
  destruct (ident_colon l n) as [G1 G2].
  destruct (ident_free l " " n (Hm " "%char ltac:(cbn; tauto)) A), (ident_free l "009" n (Hm "009"%char ltac:(cbn; tauto)) B), (ident_free l ";" n (Hm ";"%char ltac:(cbn; tauto)) C),
    (ident_free l "[" n (Hm "["%char ltac:(cbn; tauto)) D), (ident_free l "*" n (Hm "*"%char ltac:(cbn; tauto)) F). repeat split; assumption.
Qed.

Lemma good_app : forall a b, good a -> good b -> good (a ++ b).
Proof.
  intros a b [A1 [A2 [A3 [A4 [A5 A6]]]]] [B1 [B2 [B3 [B4 [B5 B6]]]]]. unfold good. rewrite !has_char_app, A1, A2, A3, A4, A5, A6, B1, B2, B3, B4, B5, B6.
  repeat split.
Qed.

Lemma good_attribute : forall l n, readable n -> good (attribute_ident l n).
Proof.
  intros l n H. destruct (good_idents l n H) as [Hm _]. destruct l; cbn [attribute_ident]; try exact Hm; apply good_app; try exact Hm; repeat split.
Qed.

Lemma good_plain : forall l p n, proto_name p = Some n -> readable n -> good (plain_ident l p).
Proof.
  intros l p n Hn H. destruct (good_idents l n H) as [Hm Ht]. unfold plain_ident. rewrite Hn.
  destruct l; try exact Ht. destruct p; assumption.
Qed.

Lemma good_numbered : forall n k, good n -> good (numbered n k).
Proof.
  intros n k H. unfold numbered. destruct (Nat.eqb k 1); [exact H|]. apply good_app; [exact H|].
  repeat split; (apply (all_bytes_free is_digit); [reflexivity | apply itoa_digits]).
Qed.

(** * Members of components *)

Definition named_well (p : proto) (id : string) : Prop :=
  match p with PElement v => readable (el_name v) -> good id | PAttribute v => readable (at_name v) -> good id | _ => True end.

Lemma go_name_read : forall id n, flat_map (field Go) (go_name_row id n) = name_member Go id n.
Proof.
  intros id n. unfold go_name_row, name_member. destruct (string_dec id n); [reflexivity|]. cbn [flat_map].
  rewrite go_read by (repeat split). reflexivity.
Qed.

Ltac forall_in H := rewrite Forall_forall in H.

Lemma sorted_readable : forall (m : smap string) x, Forall (fun m => readable (fst m)) m -> In x (to_sorted_pairs m) -> readable (fst x).
Proof. intros m x H Hx. rewrite Forall_forall in H. apply H. now apply sorted_pairs_in. Qed.

Lemma readable_in : forall A (f : A -> string) xs x, Forall readable (map f xs) -> In x xs -> readable (f x).
Proof. intros A f xs x H Hx. rewrite Forall_forall in H. apply H. now apply in_map. Qed.

Lemma good_of : forall n, readable n -> has_char ":" n = false -> good n.
Proof. intros n H Hc. apply readable_has in H as [A [B [C [D F]]]]. repeat split; assumption. Qed.

(** Take the parts of a structure one by one. *)
Ltac parts := repeat match goal with
  | H : Forall _ (_ +++ _) |- _ => apply Forall_app in H as [? H]
  | H : _ /\ _ |- _ => destruct H
  end.
Ltac open_rows := unfold fields; cbn [rows flat_map app]; rewrite ?app_nil_r, ?flat_map_app.
Ltac each := first [apply read_map | apply read_flat]; let x := fresh "x" in let Hx := fresh "Hx" in intros x Hx.
Ltac readable_now := match goal with
  | H : Forall readable (map ?f ?xs), Hx : In ?x ?xs |- readable (?f ?x) => exact (readable_in _ f xs x H Hx)
  | H : Forall _ _, Hx : In _ (to_sorted_pairs _) |- readable (fst _) => exact (sorted_readable _ _ H Hx)
  | H : readable _ |- readable _ => exact H
  end.
Ltac good_now := first [apply good_attribute; readable_now | apply good_idents; readable_now | assumption].

Lemma base_go : forall pt b, Forall readable (base_member Go pt b) -> flat_map (field Go) (go_base_row b) = base_member Go pt b.
Proof.
  intros pt b H. unfold go_base_row, base_member in *. destruct b as [|a b]; [reflexivity|].
  set (t := String a b) in *. destruct (builtin Go t); cbn [flat_map app].
  - rewrite go_read by (repeat split). reflexivity.
  - inversion H as [|? ? Hr _]; subst. apply readable_has in Hr as [_ [Hr _]]. rewrite go_read_alone; [reflexivity|].
    destruct (type_name Go t) as [|c r]; [reflexivity|]. cbn [unstarred] in Hr.
    destruct c as [[] [] [] [] [] [] [] []]; try exact Hr; cbn [has_char] in *; exact Hr.
Qed.

Lemma go_fields_read : forall pt p e id, component_readable Go pt p -> flat_map (fields Go) (go_items pt p id) = member_names Go pt p e id.
Proof.
  intros pt p e id H. destruct p as [|v|v|v|v|v|v]; try reflexivity; cbn [go_items member_names component_readable] in *; parts.
  - destruct (st_list v); [reflexivity|]. destruct (is_union v); [|reflexivity].
    cbn [negb andb]. unfold go_struct. cbn [flat_map]. open_rows. rewrite go_name_read. f_equal.
    each. apply go_read. good_now.
  - unfold go_struct. cbn [flat_map]. open_rows. rewrite go_name_read.
    repeat f_equal; try (each; apply go_read; good_now). now apply base_go.
  - unfold go_struct. cbn [flat_map]. open_rows. rewrite go_name_read.
    repeat f_equal; each; apply go_read; good_now.
  - unfold go_struct. cbn [flat_map]. open_rows. rewrite go_name_read. f_equal. each; apply go_read; good_now.
Qed.

Lemma c_fields_read : forall pt p e id, component_readable C pt p -> flat_map (fields C) (c_items pt p id) = member_names C pt p e id.
Proof.
  intros pt p e id H. destruct p as [|v|v|v|v|v|v]; try reflexivity; cbn [c_items member_names component_readable name_member base_member] in *; parts.
  - destruct (st_list v); [reflexivity|]. destruct (is_union v); [|reflexivity].
    cbn [negb andb]. unfold c_struct. cbn [flat_map]. open_rows. each.
    apply (c_read_declarator _ _ _ ""); [good_now | now left].
  - unfold c_struct. cbn [flat_map]. open_rows. repeat f_equal; each.
    + apply (c_read_plain _ _ false). good_now.
    + unfold c_attribute_row. change "; // attr" with (";" ++ " // attr"). rewrite app_assoc_s.
      apply c_read_declarator; [apply (good_attribute C); readable_now | destruct (at_optional x); auto].
    + apply c_read_plain. good_now.
    + apply (c_read_declarator _ _ _ ""); [good_now | now left].
  - unfold c_struct. cbn [flat_map]. open_rows. f_equal; each; apply c_read_plain; good_now.
  - unfold c_struct. cbn [flat_map]. open_rows. each.
    unfold c_attribute_row. change "; // attr" with (";" ++ " // attr"). rewrite app_assoc_s.
    apply c_read_declarator; [apply (good_attribute C); readable_now | destruct (at_optional x); auto].
Qed.

Lemma java_pair : forall s t n, good n -> flat_map (field Java) ["@" ++ s; j_field t n] = [n].
Proof. intros s t n H. cbn [flat_map]. rewrite java_note, java_read by exact H. reflexivity. Qed.

Lemma java_fields_read : forall pt p e id, component_readable Java pt p -> flat_map (fields Java) (java_items pt p id) = member_names Java pt p e id.
Proof.
  intros pt p e id H.
  assert (Hw : forall ns a n i t m, good m -> flat_map (fields Java) (j_wrapper ns a n i (j_field t m)) = [m]).
  { intros ns a n i t m Hm. unfold j_wrapper, j_class. cbn [flat_map]. open_rows. now rewrite java_read. }
  destruct p as [|v|v|v|v|v|v]; try reflexivity; cbn [java_items member_names component_readable name_member only_member] in *; parts.
  - destruct (st_list v); cbn [negb andb]; [apply Hw; eapply good_plain; [reflexivity | assumption]|].
    destruct (is_union v); [|apply Hw; eapply good_plain; [reflexivity | assumption]].
    unfold j_class. cbn [flat_map]. open_rows. each. apply java_pair. good_now.
  - unfold j_class. cbn [flat_map]. open_rows. repeat f_equal.
    + each. apply java_pair. good_now.
    + each. apply java_pair. apply (good_attribute Java). readable_now.
    + each. cbn [j_group_rows flat_map]. rewrite java_read by good_now. reflexivity.
    + each. apply java_pair. good_now.
    + unfold base_member. destruct (ct_base v) as [|a b]; [reflexivity|]. destruct (builtin Java (String a b)); [|reflexivity].
      apply java_pair. repeat split.
  - apply Hw. eapply good_plain; [reflexivity | assumption].
  - apply Hw. eapply good_plain; [reflexivity | assumption].
  - unfold j_class. cbn [flat_map]. open_rows. f_equal; each.
    + apply java_pair. good_now.
    + cbn [j_group_rows flat_map]. rewrite java_read by good_now. reflexivity.
  - unfold j_class. cbn [flat_map]. open_rows. each. apply java_pair. good_now.
Qed.

Lemma base_rust : forall pt b, Forall readable (base_member Rust pt b) ->
  flat_map (field Rust) (match b with
    | EmptyString => []
    | _ => if builtin Rust b then r_field "$value" "value" (shown Rust pt b)
           else ["#[serde(flatten)]"; "pub " ++ member_ident Rust (shown Rust pt b) ++ ": " ++ shown Rust pt b ++ ","]
    end) = base_member Rust pt b.
Proof.
  intros pt b H. unfold base_member in *. destruct b as [|a b]; [reflexivity|]. set (t := String a b) in *.
  generalize dependent (shown Rust pt t). intros n H. destruct (builtin Rust t).
  - apply rust_rows. repeat split.
  - pose proof (good_of _ (Forall_inv H) (proj1 (ident_colon Rust n))) as Hg. clear H.
    generalize dependent (member_ident Rust n). intros m Hg. cbn [flat_map]. rewrite rust_read by exact Hg. reflexivity.
Qed.

Lemma rust_fields_read : forall pt p e id, component_readable Rust pt p -> named_well p id ->
  flat_map (fields Rust) (rust_items pt p id) = member_names Rust pt p e id.
Proof.
  intros pt p e id H Hid.
  destruct p as [|v|v|v|v|v|v]; try reflexivity; cbn [rust_items member_names component_readable name_member only_member named_well] in *; parts;
    try (unfold r_struct; cbn [flat_map]; open_rows; apply rust_rows; auto).
  - destruct (st_list v); cbn [negb andb]; [unfold r_struct; cbn [flat_map]; open_rows; apply rust_rows; good_now|].
    destruct (is_union v); unfold r_struct; cbn [flat_map]; open_rows; [each|]; apply rust_rows; good_now.
  - unfold r_struct. cbn [flat_map]. open_rows. repeat f_equal; try (each; apply rust_rows; good_now).
    now apply base_rust.
  - unfold r_struct. cbn [flat_map]. open_rows. f_equal; each; apply rust_rows; good_now.
  - unfold r_struct. cbn [flat_map]. open_rows. each; apply rust_rows; good_now.
Qed.

Lemma ts_fields_read : forall pt p e id, component_readable TypeScript pt p -> flat_map (fields TypeScript) (ts_items pt p id e) = member_names TypeScript pt p e id.
Proof.
  intros pt p e id H.
  destruct p as [|v|v|v|v|v|v]; try reflexivity; cbn [ts_items member_names component_readable name_member only_member] in *; parts.
  - destruct e.
    + cbn [flat_map]. open_rows. each. match goal with H : Forall _ (st_enum v) |- _ => rewrite Forall_forall in H; destruct (H x Hx) end.
      apply ts_read_value; now apply free_of_has_char.
    + destruct (st_list v); [reflexivity|]. destruct (is_union v); [|reflexivity]. cbn [negb andb]. unfold t_class. cbn [flat_map]. open_rows.
      each. apply ts_read. good_now.
  - unfold t_class. cbn [flat_map]. open_rows. repeat f_equal.
    + each. apply ts_read. good_now.
    + each. apply ts_read. apply (good_attribute TypeScript). readable_now.
    + each. apply ts_read. good_now.
    + each. apply ts_read. good_now.
    + unfold base_member. destruct (ct_base v) as [|a b]; [reflexivity|]. destruct (builtin TypeScript (String a b)); [|reflexivity].
      cbn [flat_map]. rewrite ts_read by (repeat split). reflexivity.
  - unfold t_class. cbn [flat_map]. open_rows. f_equal; each; apply ts_read; good_now.
  - unfold t_class. cbn [flat_map]. open_rows. each. apply ts_read. apply (good_attribute TypeScript). readable_now.
Qed.

Lemma fields_read : forall l pt p e id, component_readable l pt p -> named_well p id ->
  flat_map (fields l) (items_of l pt p e id) = member_names l pt p e id.
Proof.
  intros [] pt p e id H Hid; cbn [items_of];
    [now apply go_fields_read | now apply c_fields_read | now apply java_fields_read | now apply rust_fields_read | now apply ts_fields_read].
Qed.

Lemma identifiers_good : forall l ps used x, In x (combine ps (identifiers l used (map (@fst proto bool) ps))) ->
  In (fst x) ps /\ exists k, snd x = numbered (plain_ident l (fst (fst x))) k.
Proof.
  intros l. induction ps as [|[p e] ps IH]; intros used x Hx; [contradiction|]. cbn [map fst identifiers] in Hx.
  destruct (counting l p); cbn [combine] in Hx; destruct Hx as [<-|Hx];
    try (apply IH in Hx as [? ?]; split; [now right | assumption]); (split; [now left|]).
  - now eexists.
  - now exists 1.
Qed.

Lemma members_read : forall l pt x, Forall (component_readable l pt) pt ->
  In x (combine (rendered l [] pt) (identifiers l [] (map fst (rendered l [] pt)))) ->
  flat_map (fields l) (items_of l pt (fst (fst x)) (snd (fst x)) (snd x)) = member_names l pt (fst (fst x)) (snd (fst x)) (snd x).
Proof.
  intros l pt x H Hx. apply identifiers_good in Hx as [Hx [k Hk]]. apply rendered_named in Hx as [Hx [n Hn]].
  rewrite Forall_forall in H. specialize (H _ Hx). apply fields_read; [exact H|]. rewrite Hk.
  destruct (fst (fst x)) as [|v|v|v|v|v|v] eqn:Hp; cbn [named_well]; try exact I; intros Hr; apply good_numbered; eapply good_plain; try reflexivity; exact Hr.
Qed.

(** * Different names *)

Definition raised (n : string) : string := match n with String a r => String (ascii_upper a) r | _ => n end.

Definition alnum (c : ascii) : bool := is_lower c || is_digit c || is_upper c.

Lemma spelled_alnum : forall l n, spelled l n -> exists a r, n = String a r /\ is_lower a = true /\ every alnum r.
Proof.
  intros l n [a [r [-> [Ha Hr]]]]. exists a, r. split; [reflexivity|]. split; [exact Ha|].
  apply (every_weaken _ alnum _) in Hr; [exact Hr|]. intros c Hc. unfold alnum. destruct l; rewrite ?orb_false_r in Hc; rewrite Hc; reflexivity.
Qed.

Lemma alnum_ascii : forall c, alnum c = true -> (N_of_ascii c <? 128)%N = true.
Proof. intros c H. unfold alnum, is_lower, is_digit, is_upper in H. lia. Qed.

Lemma lower_alnum : forall c, is_lower c = true -> alnum c = true.
Proof. intros c H. unfold alnum. now rewrite H. Qed.

Lemma upper_alnum : forall c, is_lower c = true -> alnum (ascii_upper c) = true.
Proof. intros c H. destruct c as [[] [] [] [] [] [] [] []]; try discriminate H; reflexivity. Qed.

Lemma raised_alnum : forall a r, is_lower a = true -> every alnum r -> every alnum (String (ascii_upper a) r).
Proof. intros a r Ha Hr. split; [now apply upper_alnum | exact Hr]. Qed.

Lemma alnum_wf : forall r, every alnum r -> well_formed r.
Proof.
  intros r H. exists (map N_of_ascii (list_ascii_of_string r)). induction r as [|c r IH]; [split; [constructor | reflexivity]|].
  destruct H as [Hc Hr]. destruct (IH Hr) as [I1 I2]. apply alnum_ascii, N.ltb_lt in Hc. cbn [list_ascii_of_string map sconcat]. split.
  - constructor; [|exact I1]. unfold scalar. lia.
  - rewrite <- I2. rewrite encode_ascii by exact Hc. cbn. now rewrite byte_of_N_of.
Qed.

Lemma alnum_title : forall a r, alnum a = true -> every alnum r -> to_title (String a r) = String (ascii_upper a) r.
Proof.
  intros a r Ha Hr. apply to_title_bytes; [now apply N.ltb_lt, alnum_ascii | now apply alnum_wf].
Qed.

Lemma alnum_join : forall c a r, alnum c = false -> alnum a = true -> every alnum r -> title_join c (String a r) = String (ascii_upper a) r.
Proof.
  intros c a r Hc Ha Hr. unfold title_join.
  rewrite split_on_no_char by (apply (every_free alnum); [now split | exact Hc]). cbn [map sconcat]. rewrite app_nil_r_s. now apply alnum_title.
Qed.

Lemma upper_twice : forall c, is_lower c = true -> ascii_upper (ascii_upper c) = ascii_upper c.
Proof. intros c H. destruct c as [[] [] [] [] [] [] [] []]; try discriminate H; reflexivity. Qed.

Lemma upper_inj : forall a b, is_lower a = true -> is_lower b = true -> ascii_upper a = ascii_upper b -> a = b.
Proof.
  intros a b Ha Hb H. apply (f_equal N_of_ascii) in H. unfold ascii_upper in H. rewrite Ha, Hb in H.
  unfold is_lower in Ha, Hb. rewrite !N_ascii_embedding in H by lia.
  rewrite <- (ascii_N_embedding a), <- (ascii_N_embedding b). f_equal. lia.
Qed.

Lemma joined_word : forall a r, is_lower a = true -> every alnum r -> camel (String a r) = String (ascii_upper a) r /\ solid (String a r) = String (ascii_upper a) r.
Proof.
  intros a r Ha Hr. pose proof (raised_alnum a r Ha Hr) as Hu.
  assert (Hc : camel (String a r) = String (ascii_upper a) r).
  { rewrite camel_eq. rewrite (alnum_join ":" a r) by (auto using lower_alnum).
    rewrite (alnum_join "." (ascii_upper a) r) by (auto using upper_alnum). rewrite upper_twice by exact Ha.
    apply remove_char_id, (every_free alnum); [exact Hu | reflexivity]. }
  split; [exact Hc|]. unfold solid. rewrite Hc, erase_remove. apply remove_char_id, (every_free alnum); [exact Hu | reflexivity].
Qed.

Lemma raised_camel : forall a r, is_lower a = true -> every alnum r -> camel (String (ascii_upper a) r) = String (ascii_upper a) r.
Proof.
  intros a r Ha Hr. pose proof (raised_alnum a r Ha Hr) as Hu. rewrite camel_eq.
  rewrite (alnum_join ":" (ascii_upper a) r) by (auto using upper_alnum). rewrite upper_twice by exact Ha.
  rewrite (alnum_join "." (ascii_upper a) r) by (auto using upper_alnum). rewrite upper_twice by exact Ha.
  apply remove_char_id, (every_free alnum); [exact Hu | reflexivity].
Qed.

Lemma spelled_member : forall l n, l <> Rust -> spelled l n -> member_ident l n = raised n.
Proof.
  intros l n Hl H. destruct (spelled_alnum l n H) as [a [r [-> [Ha Hr]]]]. destruct (joined_word a r Ha Hr) as [Hc Hs].
  destruct l; cbn [member_ident type_ident raised]; congruence.
Qed.

(** Rust members. *)
Definition reserve (n : string) : string := if in_dec string_dec n rust_reserved then n ++ "_attr" else n.

Lemma small_separated : forall r, every (fun c => is_lower c || is_digit c || false) r -> separated r = r /\ map_bytes ascii_lower r = r.
Proof.
  induction r as [|c r IH]; [split; reflexivity|]. intros [Hc Hr]. destruct (IH Hr) as [I1 I2]. split.
  - cbn [separated]. destruct r as [|d t]; [reflexivity|]. destruct Hr as [Hd _].
    assert (Hb : is_upper d = false) by (unfold is_lower, is_digit, is_upper in *; lia).
    unfold word_boundary. rewrite Hb, !andb_false_r. cbn [orb andb]. now rewrite I1.
  - cbn [map_bytes]. rewrite I2. f_equal. unfold ascii_lower.
    assert (Hb : is_upper c = false) by (unfold is_lower, is_digit, is_upper in *; lia). now rewrite Hb.
Qed.

Lemma raised_snake : forall a r, is_lower a = true -> every (fun c => is_lower c || is_digit c || false) r ->
  lowered (separated (String (ascii_upper a) r)) = String a r.
Proof.
  intros a r Ha Hr. destruct (small_separated r Hr) as [H1 H2].
  assert (Hs : separated (String (ascii_upper a) r) = String (ascii_upper a) r).
  { cbn [separated]. destruct r as [|d t]; [reflexivity|]. destruct Hr as [Hd _].
    assert (Hb : is_upper d = false) by (unfold is_lower, is_digit, is_upper in *; lia).
    unfold word_boundary. rewrite Hb, !andb_false_r. cbn [orb andb]. now rewrite H1. }
  rewrite Hs, lowered_eq.
  assert (Hn : forall t, every alnum t -> to_lower t = map_bytes ascii_lower t).
  { induction t as [|c t IH]; [reflexivity|]. intros [Hc Ht]. rewrite to_lower_ascii by now apply N.ltb_lt, alnum_ascii. cbn. now rewrite IH. }
  rewrite Hn.
  - cbn [map_bytes]. rewrite H2. f_equal. destruct a as [[] [] [] [] [] [] [] []]; try discriminate Ha; reflexivity.
  - apply raised_alnum; [exact Ha|]. apply (every_weaken _ alnum _) in Hr; [exact Hr|]. intros c Hc. unfold alnum. rewrite orb_false_r in Hc. now rewrite Hc.
Qed.

Lemma rust_member : forall n, spelled Rust n -> member_ident Rust n = reserve n /\ member_ident Rust (raised n) = reserve n.
Proof.
  intros n H. destruct (spelled_alnum Rust n H) as [a [r [-> [Ha Hr]]]]. destruct H as [b [q [He [_ Hq]]]]. injection He as <- <-.
  cbn [member_ident raised]. unfold snake. rewrite raised_camel by assumption. destruct (joined_word a r Ha Hr) as [-> _].
  rewrite raised_snake by assumption. split; reflexivity.
Qed.

Lemma spelled_underscore : forall l n, spelled l n -> has_char "_" n = false.
Proof.
  intros l n H. destruct (spelled_alnum l n H) as [a [r [-> [Ha Hr]]]]. apply (every_free alnum); [|reflexivity]. split; [now apply lower_alnum | exact Hr].
Qed.

Lemma reserve_inj : forall n m, has_char "_" n = false -> has_char "_" m = false -> reserve n = reserve m -> n = m.
Proof.
  intros n m Hn Hm H. unfold reserve in H.
  destruct (in_dec string_dec n rust_reserved), (in_dec string_dec m rust_reserved).
  - apply (f_equal (until "_")) in H. rewrite !until_stop in H; try assumption; right; now eexists.
  - subst m. rewrite has_char_app in Hm. apply orb_false_iff in Hm as [_ Hm]. discriminate Hm.
  - subst n. rewrite has_char_app in Hn. apply orb_false_iff in Hn as [_ Hn]. discriminate Hn.
  - exact H.
Qed.

Lemma raised_inj : forall l n m, spelled l n -> spelled l m -> raised n = raised m -> n = m.
Proof.
  intros l n m Hn Hm H. destruct (spelled_alnum l n Hn) as [a [r [-> [Ha _]]]]. destruct (spelled_alnum l m Hm) as [b [q [-> [Hb _]]]].
  cbn [raised] in H. injection H as H ->. f_equal. now apply upper_inj.
Qed.

Lemma member_inj : forall l n m, spelled l n -> spelled l m -> member_ident l n = member_ident l m -> n = m.
Proof.
  intros l n m Hn Hm H. destruct l; try (rewrite !spelled_member in H by (discriminate || assumption); eapply raised_inj; eassumption).
  destruct (rust_member n Hn) as [A _], (rust_member m Hm) as [B _]. rewrite A, B in H. eapply reserve_inj; eauto using spelled_underscore.
Qed.

Lemma append_inj_l : forall c (a b : string), a ++ c = b ++ c -> a = b.
Proof.
  intros c a. induction a as [|x a IH]; intros [|y b] H; [reflexivity | | |].
  - exfalso. apply (f_equal String.length) in H. cbn [append String.length] in H. rewrite length_app_s in H. lia.
  - exfalso. apply (f_equal String.length) in H. cbn [append String.length] in H. rewrite length_app_s in H. lia.
  - cbn [append] in H. injection H as -> H. f_equal. now apply IH.
Qed.

Lemma attribute_inj : forall l n m, spelled l n -> spelled l m -> attribute_ident l n = attribute_ident l m -> n = m.
Proof.
  intros l n m Hn Hm H. apply (member_inj l); [assumption..|].
  destruct l; cbn [attribute_ident] in H; try exact H; now apply append_inj_l in H.
Qed.

Lemma raised_tail : forall n s, raised n = s ++ "Attr" -> (exists t, n = t ++ "Attr") \/ exists b, n = String b "ttr".
Proof.
  intros [|a r] s H; [destruct s as [|? []]; discriminate H|]. destruct s as [|b t]; cbn [raised append] in H; injection H as _ ->.
  - right. now exists a.
  - left. now exists (String a t).
Qed.

Lemma member_attribute : forall l n m, l <> Rust -> member_word l n -> spelled l m -> member_ident l n <> attribute_ident l m.
Proof.
  intros l n m Hl [Hn [Ha _]] Hm H.
  assert (He : raised n = raised m ++ "Attr") by (destruct l; try congruence; cbn [attribute_ident] in H; rewrite !spelled_member in H by (discriminate || assumption); exact H).
  destruct (raised_tail n _ He) as [[t Ht]|[b ->]]; [now apply (Ha t)|].
  destruct (spelled_alnum l m Hm) as [a [r [-> _]]]. cbn [raised append] in He. injection He as _ He.
  apply (f_equal String.length) in He. rewrite length_app_s in He. cbn in He. lia.
Qed.

Lemma attribute_name : forall l m, l <> Rust -> attribute_ident l m <> "XMLName".
Proof.
  intros l m Hl H. assert (He : exists s, s ++ "Attr" = "XMLName") by (destruct l; try congruence; cbn [attribute_ident] in H; eexists; exact H).
  destruct He as [s Hs]. repeat (destruct s as [|? s]; [discriminate Hs|]; cbn [append] in Hs; try discriminate Hs; injection Hs as _ Hs).
Qed.

Lemma member_name : forall l n, l <> Rust -> member_word l n -> member_ident l n <> "XMLName".
Proof.
  intros l n Hl [Hn [_ Hx]] H. rewrite spelled_member in H by assumption. destruct (spelled_alnum l n Hn) as [a [r [-> [Ha _]]]].
  cbn [raised] in H. injection H as Hu ->. apply Hx. f_equal. apply upper_inj; [exact Ha | reflexivity | exact Hu].
Qed.

Lemma nodup_parts : forall (a b : list string), NoDup a -> NoDup b -> (forall x, In x a -> ~ In x b) -> NoDup (a +++ b).
Proof.
  intros a b Ha Hb H. induction Ha as [|x a Hx Ha IH]; [exact Hb|]. cbn. constructor.
  - intros Hin. apply in_app_or in Hin as [Hin|Hin]; [contradiction | exact (H x (or_introl eq_refl) Hin)].
  - apply IH. intros y Hy. apply H. now right.
Qed.

Lemma nodup_image : forall (f : string -> string) (P : string -> Prop) xs, (forall x y, P x -> P y -> f x = f y -> x = y) ->
  Forall P xs -> NoDup xs -> NoDup (map f xs).
Proof.
  intros f P xs Hf HP Hn. induction Hn as [|x xs Hx Hn IH]; [constructor|]. inversion HP as [|? ? Px Pxs]; subst. cbn. constructor.
  - intros Hin. apply in_map_iff in Hin as [y [Hy Hin]]. rewrite Forall_forall in Pxs. apply Hf in Hy; auto. now subst y.
  - auto.
Qed.

Lemma words_spelled : forall l xs, Forall (member_word l) xs -> Forall (spelled l) xs.
Proof. intros l xs H. eapply Forall_impl; [|exact H]. intros x [Hx _]. exact Hx. Qed.

Lemma value_word : forall l, member_word l "value".
Proof.
  intros l. split; [|split; [|discriminate]].
  - exists "v"%char, "alue". split; [reflexivity|]. split; [reflexivity|]. destruct l; repeat split.
  - intros s H. repeat (destruct s as [|? s]; [discriminate H|]; cbn [append] in H; try discriminate H; injection H as _ H).
Qed.

Lemma name_members_apart : forall l id n (xs : list string), (l = Go -> ~ In "XMLName" xs) -> NoDup xs -> NoDup (name_member l id n +++ xs).
Proof.
  intros l id n xs H Hx. destruct l; cbn [name_member app]; try exact Hx. destruct (string_dec id n); [exact Hx|]. cbn. constructor; auto.
Qed.

Lemma members_not_name : forall xs, Forall (member_word Go) xs -> ~ In "XMLName" (map (member_ident Go) xs).
Proof.
  intros xs H Hin. apply in_map_iff in Hin as [x [Hx Hin]]. rewrite Forall_forall in H. apply (member_name Go x) in Hx; [contradiction | discriminate | auto].
Qed.

Lemma attributes_not_name : forall xs, ~ In "XMLName" (map (attribute_ident Go) xs).
Proof. intros xs Hin. apply in_map_iff in Hin as [x [Hx _]]. now apply attribute_name in Hx. Qed.

Lemma word_type : forall l b, spelled l b -> builtin l b = false ->
  match l with Go => unstarred (type_name Go b) = raised b | Rust => type_name Rust b = raised b | _ => True end.
Proof.
  intros l b H Hb. destruct (spelled_alnum l b H) as [a [r [-> [Ha Hr]]]]. destruct (joined_word a r Ha Hr) as [Hc Hs].
  pose proof (raised_alnum a r Ha Hr) as Hu.
  destruct l; try exact I; unfold type_name; rewrite Hb; unfold reference.
  - assert (He : capital (erase "-" (joined "." (String a r))) = String (ascii_upper a) r).
    { rewrite joined_eq, (alnum_join "." a r) by (auto using lower_alnum). rewrite erase_remove.
      rewrite remove_char_id by (apply (every_free alnum); [exact Hu | reflexivity]). rewrite capital_eq, alnum_title by (auto using upper_alnum).
      now rewrite upper_twice. }
    rewrite He, erase_remove, remove_char_id by (apply (every_free alnum); [exact Hu | reflexivity]).
    destruct (string_dec (String (ascii_upper a) r) ""); [discriminate|]. reflexivity.
  - rewrite Hs. destruct (string_dec (String (ascii_upper a) r) ""); [discriminate|]. reflexivity.
Qed.

Lemma spelled_local : forall l b, spelled l b -> local_part b = b.
Proof.
  intros l b H. destruct (spelled_alnum l b H) as [a [r [-> [Ha Hr]]]]. apply local_free, (every_free alnum); [|reflexivity].
  split; [now apply lower_alnum | exact Hr].
Qed.

Lemma base_forms : forall l pt v, told_apart l pt (PComplex v) ->
  let ats := map at_name (ct_attributes v) in
  let others := map ag_name (ct_attrgroups v) +++ map gr_name (ct_groups v) +++ map el_name (ct_elements v) in
  base_member l pt (ct_base v) = [] \/ (l = Java /\ base_member l pt (ct_base v) = ["value"]) \/
  exists b, base_member l pt (ct_base v) = [member_ident l b] /\ member_word l b /\ ~ In b others /\ (l = Rust -> ~ In b ats).
Proof.
  intros l pt v H ats others. destruct H as [_ [_ [_ [_ [_ [H|[[Hb [Ho Ha]]|[Hw [Hb [Hr [Ho Ha]]]]]]]]]]].
  - left. rewrite H. now destruct l.
  - destruct (ct_base v) as [|c r]; [left; now destruct l|]. destruct l; cbn [base_member]; rewrite ?Hb.
    + right. right. exists "value". split; [|auto using value_word]. now rewrite spelled_member by (discriminate || apply value_word).
    + now left.
    + right. now left.
    + right. right. exists "value". split; [|auto using value_word]. destruct (rust_member "value" (proj1 (value_word Rust))) as [-> _]. reflexivity.
    + right. right. exists "value". split; [|auto using value_word]. now rewrite spelled_member by (discriminate || apply value_word).
  - pose proof (word_type l (ct_base v) (proj1 Hw) Hb) as Ht.
    destruct (ct_base v) as [|c r] eqn:Hbase; [left; now destruct l|]. destruct l; cbn [base_member]; rewrite ?Hb; try now left.
    + right. right. exists (String c r). rewrite Ht. split; [|auto]. now rewrite spelled_member by (discriminate || apply Hw).
    + right. right. exists (String c r). unfold shown. rewrite (spelled_local Rust) by apply Hw. rewrite Hr, Ht.
      split; [|auto]. destruct (rust_member _ (proj1 Hw)) as [-> ->]. reflexivity.
Qed.

Lemma rust_or_not : forall l, l = Rust \/ l <> Rust.
Proof. intros []; (now left) || (right; discriminate). Qed.

Lemma complex_unique : forall l pt v e id, told_apart l pt (PComplex v) -> NoDup (member_names l pt (PComplex v) e id).
Proof.
  intros l pt v e id H. pose proof (base_forms l pt v H) as HB. cbn [told_apart] in H. cbn [member_names].
  set (ats := map at_name (ct_attributes v)) in *.
  set (others := map ag_name (ct_attrgroups v) +++ map gr_name (ct_groups v) +++ map el_name (ct_elements v)) in *. cbn zeta in HB, H.
  destruct H as [Ho [Ha [No [Na [Hr _]]]]]. set (B := base_member l pt (ct_base v)) in *.
  assert (Hp : Permutation (map (attribute_ident l) ats +++ map (member_ident l) others +++ B)
    (map (fun a => member_ident l (ag_name a)) (ct_attrgroups v) +++ map (fun a => attribute_ident l (at_name a)) (ct_attributes v) +++
     map (fun x => member_ident l (gr_name x)) (ct_groups v) +++ map (fun e => member_ident l (el_name e)) (ct_elements v) +++ B)).
  { unfold ats, others. rewrite !map_app, !map_map, <- !app_assoc. rewrite app_assoc. rewrite (app_assoc (map _ (ct_attrgroups v))).
    apply Permutation_app_tail, Permutation_app_comm. }
  assert (Hd : forall x, In x (map (member_ident l) others) -> ~ In x B).
  { intros x Hx Hin. apply in_map_iff in Hx as [n [<- Hn]]. pose proof (proj1 (Forall_forall _ _) Ho n Hn) as Hw.
    destruct HB as [HB|[[-> HB]|[b [HB [Hb [Hbo _]]]]]]; rewrite HB in Hin; [destruct Hin| |].
    - destruct Hin as [Hin|[]]. rewrite spelled_member in Hin by (discriminate || apply Hw).
      destruct (spelled_alnum Java n (proj1 Hw)) as [a [r [-> [Hl _]]]]. cbn [raised] in Hin. injection Hin as Hin _.
      destruct a as [[] [] [] [] [] [] [] []]; discriminate Hin || discriminate Hl.
    - destruct Hin as [Hin|[]]. apply (member_inj l b n (proj1 Hb) (proj1 Hw)) in Hin. now subst n. }
  assert (Hd' : forall x, In x (map (attribute_ident l) ats) -> ~ In x (map (member_ident l) others +++ B)).
  { intros x Hx Hin. apply in_map_iff in Hx as [m [<- Hm]]. pose proof (proj1 (Forall_forall _ _) Ha m Hm) as Hs.
    assert (Hne : forall n, member_word l n -> (l = Rust -> ~ In n ats) -> member_ident l n <> attribute_ident l m).
    { intros n Hn Hna. destruct (rust_or_not l) as [->|Hl].
      - cbn [attribute_ident]. intros He. apply (member_inj Rust n m (proj1 Hn) Hs) in He. subst n. now apply (Hna eq_refl).
      - now apply member_attribute. }
    apply in_app_or in Hin as [Hin|Hin].
    - apply in_map_iff in Hin as [n [He Hn]]. apply (Hne n) in He; [contradiction | now apply (proj1 (Forall_forall _ _) Ho) |].
      intros Hl. now apply (Hr Hl).
    - destruct HB as [HB|[[-> HB]|[b [HB [Hb [_ Hba]]]]]]; rewrite HB in Hin; [destruct Hin| |].
      + destruct Hin as [Hin|[]]. exact (proj1 (proj2 (value_word Java)) _ Hin).
      + destruct Hin as [Hin|[]]. now apply (Hne b Hb Hba). }
  apply name_members_apart.
  - intros ->. intros Hin. apply (Permutation_in _ (Permutation_sym Hp)) in Hin. apply in_app_or in Hin as [Hin|Hin]; [now apply attributes_not_name in Hin|].
    apply in_app_or in Hin as [Hin|Hin]; [now apply (members_not_name others)|].
    destruct HB as [HB|[[? HB]|[b [HB [Hb _]]]]]; [|discriminate|]; rewrite HB in Hin; [destruct Hin|]. destruct Hin as [Hin|[]].
    now apply (member_name Go b) in Hin.
  - apply (Permutation_NoDup Hp). apply nodup_parts; [|apply nodup_parts; [| |exact Hd]|exact Hd'].
    + apply (nodup_image _ (spelled l)); [apply attribute_inj | exact Ha | exact Na].
    + apply (nodup_image _ (spelled l)); [apply member_inj | now apply words_spelled | exact No].
    + destruct HB as [HB|[[_ HB]|[b [HB _]]]]; rewrite HB; repeat constructor; intros [].
Qed.

Lemma members_unique : forall l pt p e id, told_apart l pt p -> NoDup (member_names l pt p e id).
Proof.
  intros l pt p e id H.
  assert (H1 : forall q, NoDup (only_member l q id)) by (intros q; destruct l, q; cbn [only_member]; repeat constructor; intros []).
  destruct p as [|v|v|v|v|v|v]; cbn [member_names]; auto; [apply NoDup_nil | | exact (complex_unique l pt v e id H) | |]; cbn [told_apart] in H.
  - destruct H as [Hw [Hn He]]. destruct (match l with TypeScript => e | _ => false end) eqn:Hl.
    + assert (l = TypeScript) as -> by (destruct l; (reflexivity || discriminate Hl)). specialize (He eq_refl).
      apply (nodup_image _ (fun _ => True)); [|apply Forall_forall; auto | exact He].
      intros x y _ _ Hxy. unfold value_name in Hxy. destruct (string_dec _ "string"); [exact Hxy|]. cbn [append] in Hxy. now injection Hxy.
    + destruct (negb (st_list v) && is_union v); [|apply H1].
      assert (Hp : Permutation (map fst (st_members v)) (map fst (to_sorted_pairs (st_members v)))) by apply Permutation_map, sorted_pairs_perm.
      assert (Hw' : Forall (member_word l) (map fst (to_sorted_pairs (st_members v)))).
      { rewrite Forall_forall in *. intros x Hx. apply Hw. now apply (Permutation_in _ (Permutation_sym Hp)). }
      rewrite <- (map_map fst (member_ident l)). apply name_members_apart; [intros ->; now apply members_not_name|].
      apply (nodup_image _ (spelled l)); [apply member_inj | now apply words_spelled | now apply (Permutation_NoDup Hp)].
  - cbn zeta in H. destruct H as [Hw Hn]. rewrite <- (map_map el_name (member_ident l)), <- (map_map gr_name (member_ident l)), <- map_app.
    apply name_members_apart; [intros ->; now apply members_not_name|].
    apply (nodup_image _ (spelled l)); [apply member_inj | now apply words_spelled | exact Hn].
  - destruct H as [Hw Hn].
    assert (Hg : NoDup (map (attribute_ident l) (map at_name (ag_attributes v)))) by (apply (nodup_image _ (spelled l)); [apply attribute_inj | assumption..]).
    assert (Hm : NoDup (map (member_ident l) (map at_name (ag_attributes v)))) by (apply (nodup_image _ (spelled l)); [apply member_inj | assumption..]).
    rewrite map_map in Hg, Hm. apply name_members_apart; [|destruct l; assumption].
    intros ->. rewrite <- (map_map at_name (attribute_ident Go)). apply attributes_not_name.
Qed.

Lemma nodup_within : forall (a b : list string), NoDup (a +++ b) -> NoDup a /\ NoDup b.
Proof.
  intros a b H. induction a as [|x a IH]; [split; [constructor | exact H]|]. cbn in H. inversion H as [|? ? Hx Hr]; subst.
  destruct (IH Hr) as [I1 I2]. split; [|exact I2]. constructor; [|exact I1]. intros Hin. apply Hx, in_or_app. now left.
Qed.

Lemma nodup_each : forall A (f : A -> list string) xs x, NoDup (flat_map f xs) -> In x xs -> NoDup (f x).
Proof.
  intros A f xs x. induction xs as [|y xs IH]; intros H Hx; [destruct Hx|]. cbn [flat_map] in H. apply nodup_within in H as [H1 H2].
  destruct Hx as [->|Hx]; [exact H1 | auto].
Qed.

Theorem expected_members : forall l pt, Forall (component_readable l pt) pt ->
  let xs := combine (rendered l [] pt) (identifiers l [] (map fst (rendered l [] pt))) in
  exists blocks, expected l pt = concat blocks /\
    map (flat_map (fields l)) blocks = map (fun x => member_names l pt (fst (fst x)) (snd (fst x)) (snd x)) xs.
Proof.
  intros l pt H xs. exists (map (fun x => items_of l pt (fst (fst x)) (snd (fst x)) (snd x)) xs). split; [reflexivity|].
  rewrite map_map. apply map_ext_in. intros x Hx. now apply members_read.
Qed.

Theorem expected_unique : forall l pt, Forall (component_readable l pt) pt -> Forall (told_apart l pt) pt ->
  Forall (fun it => NoDup (fields l it)) (expected l pt).
Proof.
  intros l pt H Hd. apply Forall_forall. intros it Hit. unfold expected in Hit. apply in_concat in Hit as [its [Hits Hit]].
  apply in_map_iff in Hits as [x [<- Hx]]. refine (nodup_each _ (fields l) _ it _ Hit).
  rewrite members_read by assumption. apply members_unique.
  rewrite Forall_forall in Hd. apply Hd. apply identifiers_good in Hx as [Hx _]. now apply rendered_named in Hx as [Hx _].
Qed.
End Members.
