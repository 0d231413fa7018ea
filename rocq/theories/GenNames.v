(** The names and types of the model are those of SpecGen.v. *)

From Coq Require Import String Ascii List NArith Bool Lia.
From Verif Require Import GoStr Utf8 Base Utils GenGo GenC GenJava GenRust GenTS Parser SpecStr SpecGen
  StrLemmas StrProofs.
From Verif Require GenText.
From Verif Require Import GenLemmas GenOutline GenRun.
Import ListNotations.
Local Open Scope string_scope.

Section Names.
Context {E : Env}.

Lemma capital_eq : forall s, capital s = to_title s.
Proof.
  intros s. unfold capital, to_title, runes. destruct (segs s) as [|[r b] t]; [reflexivity|].
  cbn [map fst]. rewrite rune_upper_eq. f_equal. now rewrite map_map.
Qed.

Lemma joined_eq : forall c s, joined c s = title_join c s.
Proof. intros c s. unfold joined, title_join. f_equal. apply map_ext, capital_eq. Qed.

Lemma camel_eq : forall s, camel s = remove_char "-" (title_join "." (title_join ":" s)).
Proof. intros s. unfold camel. now rewrite erase_remove, !joined_eq. Qed.

Lemma solid_eq : forall s, solid s = remove_char "_" (remove_char "-" (title_join "." (title_join ":" s))).
Proof. intros s. unfold solid. now rewrite erase_remove, camel_eq. Qed.

Lemma lowered_eq : forall s, lowered s = to_lower s.
Proof.
  intros s. unfold lowered, to_lower, runes. rewrite map_map. f_equal. apply map_ext. intros a.
  now rewrite rune_lower_eq.
Qed.

Lemma in_set_bool : forall k l, in_set k l = if in_dec string_dec k l then true else false.
Proof. intros k l. rewrite <- (in_set_dec bool k l true false). now destruct (in_set k l). Qed.

Lemma in_set_same : forall s l m, forallb (fun x => in_set x m) l = true -> forallb (fun x => in_set x l) m = true ->
  in_set s l = in_set s m.
Proof.
  intros s l m H1 H2. rewrite forallb_forall in H1, H2.
  destruct (in_set s l) eqn:Hl; [apply in_set_In in Hl; now rewrite H1|].
  destruct (in_set s m) eqn:Hm; [apply in_set_In in Hm; apply H2 in Hm; congruence | reflexivity].
Qed.

Lemma reserved_iff : forall s, in_set s rust_keywords = if in_dec string_dec s rust_reserved then true else false.
Proof. intros s. rewrite <- in_set_bool. apply in_set_same; vm_compute; reflexivity. Qed.

Lemma snake_eq : forall s, snake s = rust_field_name s.
Proof.
  intros s. unfold snake, rust_field_name. rewrite lowered_eq, camel_eq, reserved_iff.
  rewrite snake_exact.
  rewrite (replace_char_id "-" "_"); [|apply separated_has_char; [discriminate | apply has_char_remove]].
  now destruct (in_dec string_dec _ rust_reserved).
Qed.

Definition model_builtins (l : lang) : list string :=
  match l with
  | Go => go_buildin_type
  | C => c_buildin_type
  | Java => java_buildin_type
  | Rust => rust_buildin_type
  | TypeScript => ts_buildin_type
  end.

Lemma builtin_eq : forall l t, builtin l t = in_set t (model_builtins l).
Proof.
  intros l t. transitivity (in_set t (builtins l)); [unfold builtin; symmetry; apply in_set_bool|].
  destruct l; apply in_set_same; vm_compute; reflexivity.
Qed.

Lemma local_part_eq : forall s, local_part s = trim_ns_prefix s.
Proof. reflexivity. Qed.

Lemma resolved_eq : forall tree name, resolved tree name = get_base name tree.
Proof.
  intros tree name. unfold resolved. induction tree as [|p tree IH]; [reflexivity|].
  destruct p as [|v|v|v|v|v|v]; cbn [flat_map stands_for app get_base]; try exact IH.
  - destruct (st_list v); [exact IH|]. destruct (st_union v); [exact IH|]. cbn [orb negb andb app find fst].
    destruct (string_dec (st_name v) name) as [Heq|Hne].
    + apply String.eqb_eq in Heq. now rewrite Heq.
    + apply String.eqb_neq in Hne. now rewrite Hne.
  - cbn [find fst]. destruct (string_dec (el_name v) name) as [Heq|Hne].
    + apply String.eqb_eq in Heq. now rewrite Heq.
    + apply String.eqb_neq in Hne. now rewrite Hne.
  - cbn [find fst]. destruct (string_dec (at_name v) name) as [Heq|Hne].
    + apply String.eqb_eq in Heq. now rewrite Heq.
    + apply String.eqb_neq in Hne. now rewrite Hne.
Qed.

Lemma dec_eqb : forall (A : Type) s t (a b : A), (if string_dec s t then a else b) = (if String.eqb s t then a else b).
Proof. intros A s t a b. destruct (string_dec s t) as [->|H]; [now rewrite String.eqb_refl|].
  apply String.eqb_neq in H. now rewrite H. Qed.

Lemma type_name_eq : forall l t, type_name l t = GenText.type_name l t.
Proof.
  intros l t. unfold type_name, GenText.type_name, reference.
  rewrite builtin_eq, capital_eq, !erase_remove, joined_eq, !dec_eqb.
  destruct l; cbn [model_builtins]; unfold go_field_type, c_field_type, java_field_type, rust_field_type, ts_field_type.
  - reflexivity.
  - reflexivity.
  - reflexivity.
  - rewrite solid_eq. reflexivity.
  - destruct (in_set _ _); [reflexivity|]. destruct (String.eqb _ ""); reflexivity.
Qed.

Lemma shown_eq : forall l tree t, shown l tree t = GenText.shown l tree t.
Proof. intros l tree t. unfold shown, GenText.shown. now rewrite type_name_eq, resolved_eq. Qed.

Lemma shown_ts_eq : forall tree t plural, shown_ts tree t plural = GenText.shown_ts tree t plural.
Proof.
  intros tree t plural. unfold shown_ts, GenText.shown_ts, array.
  rewrite type_name_eq, resolved_eq, builtin_eq, local_part_eq. cbn [GenText.type_name model_builtins].
  destruct plural; [|reflexivity]. unfold ts_field_type. destruct (in_set _ _); reflexivity.
Qed.

Lemma member_type_eq : forall tree m, member_type tree m = GenText.member_type tree m.
Proof.
  intros tree [n t]. unfold member_type, GenText.member_type. cbn [fst snd].
  rewrite resolved_eq. now destruct t.
Qed.

Lemma member_ident_eq : forall l n, member_ident l n =
  match l with Go => go_field_name n | C => c_field_name n | Java => java_field_name n | Rust => rust_field_name n
             | TypeScript => ts_field_name n end.
Proof. intros [] n; unfold member_ident, type_ident; first [apply solid_eq | apply camel_eq | apply snake_eq]. Qed.

Lemma type_ident_eq : forall l n, type_ident l n =
  match l with Go => go_field_name n | C => c_field_name n | Java => java_field_name n | Rust => rust_struct_name n
             | TypeScript => ts_field_name n end.
Proof. intros [] n; unfold type_ident; first [apply solid_eq | apply camel_eq]. Qed.

Lemma plain_ident_eq : forall l p, plain_ident l p = GenText.plain_ident l p.
Proof.
  intros l p. unfold plain_ident, GenText.plain_ident.
  destruct l, p; rewrite ?type_ident_eq, ?member_ident_eq; reflexivity.
Qed.

Lemma identifiers_eq : forall l ps used, identifiers l used ps = GenText.identifiers l used ps.
Proof.
  intros l. induction ps as [|p ps IH]; intros used; [reflexivity|].
  cbn [identifiers GenText.identifiers]. rewrite plain_ident_eq. destruct (counting l p); now rewrite IH.
Qed.

Hint Rewrite type_name_eq shown_eq shown_ts_eq member_type_eq member_ident_eq plain_ident_eq dec_eqb : names.

Ltac same := repeat first
  [ reflexivity
  | progress autorewrite with names
  | apply map_ext; intros
  | apply flat_map_ext; intros
  | match goal with |- context [if ?b then _ else _] => destruct b end
  | f_equal ].

Ltac open_rows := unfold
  go_name_row, go_attribute_row, go_group_row, go_base_row, c_attribute_row, c_group_row, j_group_rows, j_element_rows,
  r_group_rows, t_attribute_row, t_group_row, t_element_row,
  GenText.go_name_row, GenText.go_attribute_row, GenText.go_group_row, GenText.go_base_row, GenText.c_attribute_row,
  GenText.c_group_row, GenText.j_group_rows, GenText.j_element_rows,
  GenText.r_group_rows, GenText.t_attribute_row, GenText.t_group_row, GenText.t_element_row.

Lemma items_eq : forall l pt p e id, items_of l pt p e id = GenText.items_of l pt p e id.
Proof.
  intros l pt p e id.
  destruct l; cbn [items_of GenText.items_of]; destruct p as [|v|v|v|v|v|v]; try reflexivity;
    cbn [go_items c_items java_items rust_items ts_items GenText.go_items GenText.c_items GenText.java_items
         GenText.rust_items GenText.ts_items]; open_rows; rewrite ?builtin_eq, ?in_set_bool; cbn [model_builtins];
    repeat match goal with |- context [in_dec string_dec ?b ?l] => destruct (in_dec string_dec b l) end;
    same.
Qed.

Lemma expected_eq : forall l pt, expected l pt = GenText.expected l pt.
Proof.
  intros l pt. unfold expected, GenText.expected. rewrite identifiers_eq. f_equal.
  apply map_ext. intros a. apply items_eq.
Qed.

(** The outline of generated text. *)
Theorem outline_of_run : forall l pt, case_tables_ok -> tree_ok pt ->
  outline (g_field (run_entries (entry_of l) pt)) = Some (expected l pt).
Proof. intros l pt H1 H2. rewrite expected_eq. now apply run_outline. Qed.

End Names.
