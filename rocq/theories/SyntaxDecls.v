(** Proofs for C64: the declarations. *)

From Coq Require Import String Ascii List NArith Bool Lia.
From Verif Require Import GoStr Utf8 Base Utils GenGo GenC GenJava GenRust GenTS SpecStr SpecTables SpecGen SpecOut SpecSyntax
  StrLemmas StrProofs GenLemmas GenNames GenOutline GenFacts GenRuns SyntaxProofs.
Import ListNotations.
Local Open Scope string_scope.

Local Infix "+++" := app (at level 60, right associativity).

Section Grammar.
Context {S : Scope}.

(** * Lists of members *)

Lemma members_app : forall l a b, members l a -> members l b -> members l (a +++ b).
Proof. intros l a b Ha Hb. induction Ha; cbn [app]; [exact Hb | now constructor | now constructor]. Qed.

Lemma members_one : forall l m, member l m -> members l [m].
Proof. intros l m H. constructor; [exact H | constructor]. Qed.

Lemma members_two : forall l a m, annotation l a -> member l m -> members l [a; m].
Proof. intros l a m Ha H. apply ms_annotated; [exact Ha | exact H | constructor]. Qed.

Lemma members_map : forall A l (f : A -> string) xs, (forall x, In x xs -> member l (f x)) -> members l (map f xs).
Proof.
  intros A l f xs. induction xs as [|x xs IH]; intros H; cbn [map]; [constructor|].
  constructor; [apply H; now left | apply IH; intros y Hy; apply H; now right].
Qed.

Lemma members_flat : forall A l (f : A -> list string) xs, (forall x, In x xs -> members l (f x)) -> members l (flat_map f xs).
Proof.
  intros A l f xs. induction xs as [|x xs IH]; intros H; cbn [flat_map]; [constructor|].
  apply members_app; [apply H; now left | apply IH; intros y Hy; apply H; now right].
Qed.

(** * Literals *)

Lemma literal_chars : forall s, literal s <-> (has_char """" s = false /\ has_char "`" s = false /\ has_char "'" s = false /\
  has_char "\" s = false /\ has_char LF s = false).
Proof. intros s. unfold literal. rewrite !free_of_has_char. tauto. Qed.

Lemma literal_app : forall a b, literal a -> literal b -> literal (a ++ b).
Proof.
  intros a b Ha Hb. apply literal_chars in Ha as [? [? [? [? ?]]]]. apply literal_chars in Hb as [? [? [? [? ?]]]].
  apply literal_chars. rewrite !has_char_app. repeat (split; [apply orb_false_iff; now split|]). apply orb_false_iff; now split.
Qed.

Lemma literal_every : forall s, every name_char s -> literal s.
Proof.
  intros s H. apply literal_chars. repeat (split; [apply (every_free name_char); [exact H | reflexivity]|]).
  apply (every_free name_char); [exact H | reflexivity].
Qed.

Lemma literal_name : forall n, name_ok n -> literal n.
Proof. intros n H. now apply literal_every, name_every. Qed.

(** * Types *)

Lemma form_typing : forall l s, l <> C -> form l s -> typing l s.
Proof. intros l s Hl [H|[H _]]; [exact H | congruence]. Qed.

Lemma in_string_cases : forall s (k : list string), In s k -> existsb (String.eqb s) k = true.
Proof. intros s k H. apply existsb_exists. exists s. split; [exact H | apply String.eqb_refl]. Qed.

Lemma typing_c_bracket : forall t, typing C t -> has_char "[" t = false.
Proof.
  intros t H. inversion H as [l s Hi Hk| | | | |s Hin| | | | | | ]; subst.
  - destruct Hi as [[a [r [-> [Ha Hr]]]] _]. apply (every_free ident_char); [|reflexivity]. cbn. split; [now apply letter_ident | exact Hr].
  - cbn in Hin. repeat (destruct Hin as [<-|Hin]; [reflexivity|]). destruct Hin.
Qed.

Lemma typing_c_strip : forall t, typing C t -> strip_suffix t "[]" = None.
Proof.
  intros t H. destruct (strip_suffix t "[]") as [u|] eqn:Hs; [|reflexivity]. apply strip_suffix_some in Hs. subst t.
  apply typing_c_bracket in H. rewrite has_char_app in H. apply orb_false_iff in H as [_ H]. discriminate.
Qed.

Lemma form_c_plain : forall t, form C t -> ~ array_type t -> typing C t.
Proof. intros t [H|[_ ->]] Ha; [exact H|]. elim Ha. now exists "char". Qed.

(** A type without angle brackets is a name. *)
Lemma typing_java_name : forall t, typing Java t -> free_of "<" t -> identifier Java t.
Proof.
  intros t H Hf. inversion H; subst; try assumption. elim (Hf "List" (t0 ++ ">")). reflexivity.
Qed.

Lemma typing_rust_name : forall t, typing Rust t -> free_of "<" t -> identifier Rust t.
Proof.
  intros t H Hf. inversion H; subst; try assumption.
  - elim (Hf "Vec" (t0 ++ ">")). reflexivity.
  - elim (Hf "Option" (t0 ++ ">")). reflexivity.
Qed.

Lemma keywords_attr : forallb (fun k => match strip_suffix k "Attr" with None => true | _ => false end) (keywords Java) = true.
Proof. vm_compute. reflexivity. Qed.

Lemma identifier_attr : forall s, identifier Java s -> identifier Java (s ++ "Attr").
Proof.
  intros s [[a [r [-> [Ha Hr]]]] _]. split.
  - exists a, (r ++ "Attr"). split; [reflexivity|]. split; [exact Ha|]. apply every_app. split; [exact Hr | repeat split].
  - intros H. pose proof (proj1 (forallb_forall _ _) keywords_attr _ H) as Hk. cbv beta in Hk. now rewrite strip_suffix_app in Hk.
Qed.

End Grammar.

Section Decls.
Context {E : Env} {S : Scope} {P : Pool}.
Hypothesis tables : case_tables_ok.
Hypothesis upper : upper_idempotent E.
Hypothesis standard_known : forall l s, In s (standard l) -> known l s.
Hypothesis pooled_known : forall l t, name_ok t -> has_char ":" t = false -> ~ improper l t -> pooled l t -> builtin l t = false ->
  (l = TypeScript -> bare_id l t <> "Any") -> known l (bare_id l t).

(** Two generators treat the type of a list twice. *)
Definition kept (s : string) : string := sconcat (map (fun p => encode_rune (fst p)) (segs s)).
Definition again (s : string) : string := remove_char "_" (kept (remove_char "-" (kept s))).
Hypothesis go_twice : forall t, name_ok t -> has_char ":" t = false -> ~ improper Go t -> pooled Go t -> builtin Go t = false ->
  known Go (again (bare_id Go t)).
Hypothesis c_twice : forall t, name_ok t -> has_char ":" t = false -> ~ improper C t -> pooled C t -> builtin C t = false ->
  builtin C (bare_id C t) = false -> known C (bare_id C (bare_id C t)).

Lemma identifier_name : forall l s, identifier l s -> name_ok s.
Proof.
  intros l s [[a [r [-> [Ha Hr]]]] _]. exists a, r. split; [reflexivity|]. split; [exact Ha|].
  apply (every_weaken ident_char); [apply ident_name_char | exact Hr].
Qed.

Lemma type_identifier : forall l n, l <> Rust -> name_ok n -> identifier l (type_ident l n).
Proof.
  intros l n Hl H. rewrite <- (app_nil_r_s (type_ident l n)). apply (type_ident_more tables upper); [exact H | exact I | congruence].
Qed.

(** ** Pointers to pointers *)

Lemma kept_mark : forall c s, mark c -> has_char c s = false -> has_char c (kept s) = false.
Proof.
  intros c s Hm H. assert (Hs : has_char c (String "a" s) = false).
  { cbn [has_char]. rewrite H, orb_false_r. destruct (Ascii.eqb_spec "a" c) as [<-|]; [|reflexivity]. destruct Hm as [_ [Hm _]]. elim Hm. vm_compute. intuition discriminate. }
  apply (to_title_mark tables c Hm) in Hs. unfold to_title in Hs. rewrite segs_1 in Hs by (cbn; lia). rewrite has_char_app in Hs.
  now apply orb_false_iff in Hs as [_ Hs].
Qed.

Lemma segs_cap : forall s, cap s -> exists r b l, segs s = (r, b) :: l /\ letter_rune r /\ ~ (97 <= r <= 122)%N.
Proof.
  apply (segs_ind (fun s l => cap s -> exists r b l', l = (r, b) :: l' /\ letter_rune r /\ ~ (97 <= r <= 122)%N)).
  - intros [a [r [H _]]]. discriminate.
  - intros a s0 IH Ha [b [r [H [Hb Hl]]]]. injection H as <- <-. do 3 eexists. split; [reflexivity|].
    split; [left; now apply letter_ascii_letter|]. unfold is_lower in Hl. lia.
  - intros a s0 IH Ha _. do 3 eexists. split; [reflexivity|]. split; [right|]; unfold rune_error; lia.
  - intros r0 b0 s0 IH Hsc Hr Hb _. do 3 eexists. split; [reflexivity|]. split; [right|]; lia.
Qed.

Lemma kept_cap : forall s, cap s -> cap (kept s).
Proof.
  intros s H. destruct (segs_cap s H) as [r [b [l [Hs [Hr Hn]]]]]. unfold kept. rewrite Hs. cbn [map sconcat fst]. apply cap_app. now apply encode_cap.
Qed.

Lemma star_title : forall s, to_title (String "*" s) = String "*" (kept s).
Proof. intros s. unfold to_title. rewrite segs_1 by (cbn; lia). reflexivity. Qed.

Lemma star_typing : forall i, cap i -> every ident_char i -> known Go (again i) -> typing Go (type_name Go ("*" ++ i)).
Proof.
  intros i Hc Hi Hk. unfold type_name. destruct (builtin Go ("*" ++ i)) eqn:Hb.
  { unfold builtin in Hb. destruct (in_dec _ _ _) as [H|]; [|discriminate]. cbn in H. repeat (destruct H as [H|H]; [discriminate H|]). destruct H. }
  unfold reference. fold (bare ("*" ++ i)). cbv zeta.
  assert (bare ("*" ++ i) = String "*" (kept (remove_char "-" (kept i)))) as ->.
  { unfold bare. rewrite capital_eq, erase_remove, joined_eq. unfold title_join. change ("*" ++ i) with (String "*" i).
    rewrite split_on_no_char; [|cbn [has_char]; rewrite (every_free ident_char i "."); [reflexivity | exact Hi | reflexivity]].
    cbn [map sconcat]. rewrite star_title, app_nil_r_s. cbn [remove_char]. change (Ascii.eqb "*" "-") with false. cbn iota. apply star_title. }
  rewrite erase_remove. cbn [remove_char]. change (Ascii.eqb "*" "_") with false. cbn iota.
  destruct (string_dec _ "") as [H|_]; [discriminate|]. apply ty_pointer.
  change (String "*" ?x) with ("*" ++ x). apply ty_pointer, ty_name; [|exact Hk].
  assert (Hcap : cap (remove_char "_" (kept (remove_char "-" (kept i))))).
  { apply remove_cap; [reflexivity|]. apply kept_cap, remove_cap; [reflexivity|]. now apply kept_cap. }
  apply cap_identifier; [exact Hcap | | discriminate]. apply every_chars. intros c Hx. pose proof (ident_char_mark c Hx) as Hm.
  destruct (Ascii.eqb_spec c "_") as [->|N1]; [apply has_char_remove|]. apply has_char_remove_other. apply kept_mark; [exact Hm|].
  destruct (Ascii.eqb_spec c "-") as [->|N2]; [apply has_char_remove|]. apply has_char_remove_other. apply kept_mark; [exact Hm|].
  now apply (every_free ident_char).
Qed.

Lemma identifier_every : forall l s, identifier l s -> every ident_char s.
Proof. intros l s [[a [r [-> [Ha Hr]]]] _]. cbn. split; [now apply letter_ident | exact Hr]. Qed.

Lemma twice_go : forall t, type_ok Go t -> typing Go (type_name Go (type_name Go t)).
Proof.
  intros t Ht. pose proof Ht as [H|[Hn [Hc [Hi Hp]]]].
  - destruct (targets_form standard_known Go t H) as [He [Hf _]]. rewrite !He. now apply form_typing.
  - unfold type_name at 2. destruct (builtin Go t) eqn:Hb.
    + unfold type_name. rewrite Hb. apply form_typing; [discriminate|]. now apply (builtin_form standard_known).
    + destruct (reference_form tables upper Go t Hn (proj1 (free_of_has_char _ _) Hc) Hi) as [H1 [H2 [[H _]|[[_ ->]|[H _]]]]]; [congruence | | discriminate].
      apply star_typing; [exact H1 | now apply (identifier_every Go)|]. apply go_twice; try assumption. now apply free_of_has_char.
Qed.

Lemma twice_c : forall t, maybe_type C t -> ~ array_type (type_name C t) -> typing C (type_name C (type_name C t)).
Proof.
  intros t [[-> _]|Ht] Ha; [apply ty_words; vm_compute; tauto|].
  pose proof Ht as [H|[Hn [Hc [Hi Hp]]]].
  - destruct (targets_form standard_known C t H) as [He [Hf _]]. rewrite He in *. rewrite He. now apply form_c_plain.
  - destruct (builtin C t) eqn:Hb.
    + assert (He : type_name C t = t) by (unfold type_name; now rewrite Hb). rewrite He in *. rewrite He. apply form_c_plain; [|exact Ha].
      now apply (builtin_form standard_known).
    + unfold type_name at 2. rewrite Hb.
      destruct (reference_form tables upper C t Hn (proj1 (free_of_has_char _ _) Hc) Hi) as [H1 [H2 [[_ [_ ->]]|[[H _]|[H _]]]]]; try discriminate. set (i := bare_id C t) in *.
      pose proof (identifier_name C i H2) as Hni.
      assert (Hci : has_char ":" i = false) by (apply (every_free ident_char); [now apply (identifier_every C) | reflexivity]).
      assert (Hii : ~ improper C i) by (intros ->; destruct H1 as [a [r [[= <- <-] [_ H1]]]]; discriminate).
      unfold type_name. destruct (builtin C i) eqn:Hbi.
      * apply form_c_plain; [now apply (builtin_form standard_known)|]. intros [u Hu]. pose proof (name_every _ Hni) as Hx. rewrite Hu in Hx.
        apply every_app in Hx as [_ [Hx _]]. discriminate.
      * destruct (reference_form tables upper C i Hni Hci Hii) as [_ [H3 [[_ [_ ->]]|[[H _]|[H _]]]]]; try discriminate. apply ty_name; [exact H3|].
        apply c_twice; try assumption. now apply free_of_has_char.
Qed.

(** ** The declarations of a component *)

Variable pt : list proto.
Hypothesis attr_known : forall v a, In (PAttrGroup v) pt -> In a (ag_attributes v) -> known Java (shown Java pt (at_type a) ++ "Attr").

Ltac each H x Hx := let H' := fresh "Hone" in pose proof (proj1 (Forall_forall _ _) H x Hx) as H'; cbv beta in H'.

Lemma good_shown : forall l t, tree_fine l pt -> l <> C -> maybe_type l t -> typing l (shown l pt t).
Proof. intros l t Hf Hl H. apply form_typing; [exact Hl|]. now apply (shown_form tables upper standard_known pooled_known l pt Hf). Qed.

Lemma good_member : forall l m, tree_fine l pt -> l <> C -> member_fine l m -> typing l (type_name l (member_type pt m)).
Proof. intros l t Hf Hl H. apply form_typing; [exact Hl|]. now apply (member_type_form tables upper standard_known pooled_known l pt Hf). Qed.

Lemma slices : forall b t, typing Go t -> typing Go (when b "[]" ++ t).
Proof. intros [] t H; [now apply ty_slice | exact H]. Qed.

Lemma go_row : forall i t, identifier Go i -> typing Go t -> member Go (cols [i; t]).
Proof. intros i t Hi Ht. exact (me_go i t Hi Ht). Qed.

Lemma go_tagged : forall i t s, identifier Go i -> typing Go t -> literal s -> member Go (cols [i; t; xml_tag s]).
Proof. intros i t s Hi Ht Hs. exact (me_go_tag i t s Hi Ht Hs). Qed.

Lemma go_name : forall id n, name_ok n -> members Go (go_name_row id n).
Proof.
  intros id n H. unfold go_name_row. destruct (string_dec id n); [constructor|]. apply members_one, go_tagged.
  - apply identifier_check; [apply ident_check|]; reflexivity.
  - apply (ty_qualified "xml" "Name"); [apply identifier_check; [apply ident_check|]; reflexivity .. | apply standard_known; cbn; tauto].
  - now apply literal_name.
Qed.

Lemma go_base : forall base, base = "" \/ type_ok Go base -> members Go (go_base_row base).
Proof.
  intros base H. unfold go_base_row. destruct base as [|a r]; [constructor|]. set (base := String a r) in *. destruct H as [H|H]; [discriminate|].
  destruct (builtin Go base) eqn:Hb.
  - apply members_one, go_tagged.
    + apply identifier_check; [apply ident_check|]; reflexivity.
    + apply form_typing; [discriminate|]. pose proof (type_form tables upper standard_known pooled_known Go base H) as Hf. unfold type_name in Hf. now rewrite Hb in Hf.
    + apply literal_chars. vm_compute. tauto.
  - apply members_one. destruct H as [H|[Hn [Hc [Hi Hp]]]]; [apply targets_go_builtin in H; congruence|].
    apply free_of_has_char in Hc. unfold type_name. rewrite Hb.
    destruct (reference_form tables upper Go base Hn Hc Hi) as [H1 [H2 [[H _]|[[_ ->]|[H _]]]]]; [congruence | | discriminate].
    apply me_go_embedded; [exact H2|]. now apply pooled_known.
Qed.

Lemma go_attribute : forall a, tree_fine Go pt -> attribute_fine Go a -> member Go (go_attribute_row pt a).
Proof.
  intros a Hf [Hn Ht]. unfold go_attribute_row. apply go_tagged.
  - now apply (member_identifier_attr tables upper).
  - now apply good_shown.
  - apply literal_app; [now apply literal_name|]. destruct (at_optional a); apply literal_chars; vm_compute; tauto.
Qed.

Lemma go_group : forall x, tree_fine Go pt -> group_fine Go x -> member Go (go_group_row pt x).
Proof.
  intros x Hf [Hn Ht]. unfold go_group_row. apply go_row; [now apply (member_identifier tables upper)|]. now apply slices, good_shown.
Qed.

Lemma go_type : forall id doc gap t, identifier Go id -> typing Go t -> In gap [" "; TAB] -> declaration Go id (go_alias id doc (gap ++ t)).
Proof. intros id doc gap t Hid Ht Hg. now apply de_go_type. Qed.

Lemma go_list : forall id doc t, identifier Go id -> typing Go t -> declaration Go id (go_alias id doc (" []" ++ t)).
Proof. intros id doc t Hid Ht. apply (go_type id doc " " ("[]" ++ t)); [exact Hid | now apply ty_slice | now left]. Qed.

Lemma go_declaration : forall p id, p <> PNil -> tree_fine Go pt -> component_fine Go p -> manageable Go pt p -> identifier Go id ->
  declaration Go id (go_items pt p id).
Proof.
  intros p id Hp Hf Hc Hm Hid. destruct p as [|v|v|v|v|v|v]; [congruence| | | | | |]; cbn [go_items component_fine manageable] in *.
  - destruct Hc as [Hn [Hms Hb]]. destruct (st_list v) eqn:Hl.
    { destruct Hb as [Hb|[Hb _]]; [|discriminate].
      apply go_list; [exact Hid|]. unfold shown.
      assert (maybe_type Go (resolved pt (local_part (st_base v)))) as Hr.
      { rewrite (local_maybe standard_known Go) by exact Hb. now apply (resolved_maybe Go pt Hf). }
      destruct Hr as [[Hr _]|Hr]; [now elim (Hm eq_refl)|]. now apply twice_go. }
    destruct (is_union v) eqn:Hu.
    { apply de_go_struct; [exact Hid|]. apply members_app; [now apply go_name|]. apply members_map. intros m Hin. apply sorted_pairs_in in Hin.
      each Hms m Hin. apply go_row; [apply (member_identifier tables upper), Hone|]. now apply good_member. }
    destruct Hb as [Hb|[_ Hb]]; [|discriminate]. apply go_type; [exact Hid | now apply good_shown | now left].
  - destruct Hc as [Hn [Hb [Hag [Hat [Hgr Hel]]]]]. apply de_go_struct; [exact Hid|].
    apply members_app; [now apply go_name|].
    apply members_app; [apply members_map; intros a Ha; each Hag a Ha; destruct Hone; apply go_row; [now apply (member_identifier tables upper) | now apply good_shown]|].
    apply members_app; [apply members_map; intros a Ha; each Hat a Ha; now apply go_attribute|].
    apply members_app; [apply members_map; intros a Ha; each Hgr a Ha; now apply go_group|].
    apply members_app; [|now apply go_base].
    apply members_map; intros e He; each Hel e He; destruct Hone; apply go_tagged;
      [now apply (member_identifier tables upper) | now apply slices, good_shown | now apply literal_name].
  - destruct Hc as [Hn Ht]. apply go_type; [exact Hid | now apply slices, good_shown | right; now left].
  - destruct Hc as [Hn Ht]. apply go_type; [exact Hid | now apply slices, good_shown | right; now left].
  - destruct Hc as [Hn [Hel Hgr]]. apply de_go_struct; [exact Hid|].
    apply members_app; [now apply go_name|].
    apply members_app; [|apply members_map; intros a Ha; each Hgr a Ha; now apply go_group].
    apply members_map; intros e He; each Hel e He; destruct Hone; apply go_row; [now apply (member_identifier tables upper) | now apply slices, good_shown].
  - destruct Hc as [Hn Hat]. apply de_go_struct; [exact Hid|]. apply members_app; [now apply go_name|].
    apply members_map; intros a Ha; each Hat a Ha; now apply go_attribute.
Qed.

(** *** C *)

Lemma c_form : forall t, tree_fine C pt -> maybe_type C t -> form C (shown C pt t).
Proof. intros t Hf H. now apply (shown_form tables upper standard_known pooled_known C pt Hf). Qed.

Lemma c_row : forall t i plural rest, form C t -> identifier C i -> In rest [";"; "; // attr"; "; // attr, optional"] ->
  member C (c_declarator t i plural ++ rest).
Proof.
  intros t i plural rest Ht Hi Hr. unfold c_declarator. destruct Ht as [Ht|[_ ->]].
  - rewrite typing_c_strip by exact Ht. rewrite !app_assoc_s. destruct plural; cbn [when append]; [now apply me_c_array | now apply me_c].
  - change (strip_suffix "char[]" "[]") with (Some "char"). cbn iota. rewrite !app_assoc_s. apply me_c_array; [|exact Hi|exact Hr].
    apply ty_words. now left.
Qed.

Lemma c_typedef : forall ns t i plural, form C t -> identifier C i ->
  declaration C i [mkItem ns ("typedef " ++ c_declarator t i plural ++ ";") []].
Proof.
  intros ns t i plural Ht Hi. unfold c_declarator. destruct Ht as [Ht|[_ ->]].
  - rewrite typing_c_strip by exact Ht. rewrite !app_assoc_s. destruct plural; cbn [when append]; [now apply de_c_array | now apply de_c_type].
  - change (strip_suffix "char[]" "[]") with (Some "char"). cbn iota. rewrite !app_assoc_s. apply de_c_array; [exact Hi|].
    apply ty_words. now left.
Qed.

Lemma c_plain_row : forall t i plural, typing C t -> identifier C i -> member C (t ++ " " ++ i ++ when plural "[]" ++ ";").
Proof. intros t i [] Ht Hi; cbn [when append]; [apply me_c_array | apply me_c]; try assumption; now left. Qed.

Lemma c_attribute : forall a, tree_fine C pt -> attribute_fine C a -> member C (c_attribute_row pt a).
Proof.
  intros a Hf [Hn Ht]. unfold c_attribute_row. apply c_row; [now apply c_form | now apply (member_identifier_attr tables upper)|].
  destruct (at_optional a); cbn; tauto.
Qed.

Lemma c_group : forall x, tree_fine C pt -> group_fine C x -> ~ array_type (shown C pt (gr_ref x)) -> member C (c_group_row pt x).
Proof.
  intros x Hf [Hn Ht] Ha. unfold c_group_row. apply c_plain_row; [|now apply (member_identifier tables upper)].
  apply form_c_plain; [now apply c_form | exact Ha].
Qed.

(** What a component is declared as. *)
Definition declares (l : lang) (p : proto) (id : string) : string :=
  match l, p with
  | C, PSimple v => if st_list v then plain_ident l p else if is_union v then id else plain_ident l p
  | C, PAttribute _ => plain_ident l p
  | _, _ => id
  end.

Lemma c_declaration : forall p id, p <> PNil -> tree_fine C pt -> component_fine C p -> manageable C pt p -> identifier C id ->
  declaration C (declares C p id) (c_items pt p id).
Proof.
  intros p id Hp Hf Hc Hm Hid. destruct p as [|v|v|v|v|v|v]; [congruence| | | | | |]; cbn [c_items component_fine manageable declares] in *.
  - destruct Hc as [Hn [Hms Hb]]. assert (identifier C (plain_ident C (PSimple v))) as Hpl by (apply type_identifier; [discriminate | exact Hn]).
    destruct (st_list v) eqn:Hl.
    { destruct Hb as [Hb|[Hb _]]; [|discriminate]. apply de_c_array; [exact Hpl|].
      specialize (Hm eq_refl). unfold shown in *. apply twice_c; [|exact Hm].
      rewrite (local_maybe standard_known C) by exact Hb. now apply (resolved_maybe C pt Hf). }
    destruct (is_union v) eqn:Hu.
    { apply de_c_struct; [exact Hid|]. apply members_map. intros m Hin. apply sorted_pairs_in in Hin.
      each Hms m Hin. apply c_row; [now apply (member_type_form tables upper standard_known pooled_known C pt Hf) | apply (member_identifier tables upper), Hone | now left]. }
    destruct Hb as [Hb|[_ Hb]]; [|discriminate]. apply c_typedef; [now apply c_form | exact Hpl].
  - destruct Hc as [Hn [Hb [Hag [Hat [Hgr Hel]]]]]. destruct Hm as [Hm1 Hm2]. apply de_c_struct; [exact Hid|].
    apply members_app; [apply members_map; intros a Ha; each Hag a Ha; each Hm1 a Ha; destruct Hone; apply me_c;
      [apply form_c_plain; [now apply c_form | assumption] | now apply (member_identifier tables upper) | now left]|].
    apply members_app; [apply members_map; intros a Ha; each Hat a Ha; now apply c_attribute|].
    apply members_app; [apply members_map; intros a Ha; each Hgr a Ha; each Hm2 a Ha; now apply c_group|].
    apply members_map; intros e He; each Hel e He; destruct Hone; apply c_row; [now apply c_form | now apply (member_identifier tables upper) | now left].
  - destruct Hc as [Hn Ht]. apply c_typedef; [now apply c_form | exact Hid].
  - destruct Hc as [Hn Ht]. apply c_typedef; [now apply c_form | apply type_identifier; [discriminate | exact Hn]].
  - destruct Hc as [Hn [Hel Hgr]]. destruct Hm as [Hm1 Hm2]. apply de_c_struct; [exact Hid|].
    apply members_app; [|apply members_map; intros a Ha; each Hgr a Ha; each Hm2 a Ha; now apply c_group].
    apply members_map; intros e He; each Hel e He; each Hm1 e He; destruct Hone; apply c_plain_row;
      [apply form_c_plain; [now apply c_form | assumption] | now apply (member_identifier tables upper)].
  - destruct Hc as [Hn Hat]. apply de_c_struct; [exact Hid|]. apply members_map; intros a Ha; each Hat a Ha; now apply c_attribute.
Qed.

(** *** Java *)

Lemma j_lists : forall b t, typing Java t -> typing Java (j_list b t).
Proof. intros [] t H; [now apply ty_list | exact H]. Qed.

Lemma j_wrapped : forall ns k n id t i, In k ["XmlElement"; "XmlAttribute"] -> name_ok n -> identifier Java id -> typing Java t -> identifier Java i ->
  declaration Java id (j_wrapper ns k n id (j_field t i)).
Proof.
  intros ns k n id t i Hk Hn Hid Ht Hi. unfold j_wrapper, j_class. apply de_java_annotated; [exact Hk | now apply literal_name | | reflexivity].
  apply (de_java_class [] id); [exact Hid|]. now apply members_one, me_java.
Qed.

Lemma j_mark : forall a, name_ok (at_name a) -> annotation Java (j_attribute_mark a).
Proof.
  intros a H. unfold j_attribute_mark. destruct (at_optional a); [apply an_attribute | apply an_required]; now apply literal_name.
Qed.

Lemma j_group : forall x, tree_fine Java pt -> group_fine Java x -> members Java (j_group_rows pt x).
Proof.
  intros x Hf [Hn Ht]. apply members_one, me_java; [|now apply (member_identifier tables upper)]. now apply j_lists, good_shown.
Qed.

Lemma j_element : forall e, tree_fine Java pt -> element_fine Java e -> members Java (j_element_rows pt e).
Proof.
  intros e Hf [Hn Ht]. apply members_two; [now apply an_element_name, literal_name|]. apply me_java; [|now apply (member_identifier tables upper)].
  now apply j_lists, good_shown.
Qed.

Lemma java_declaration : forall p id, p <> PNil -> In p pt -> tree_fine Java pt -> component_fine Java p -> manageable Java pt p -> identifier Java id ->
  declaration Java id (java_items pt p id).
Proof.
  intros p id Hp Hpt Hf Hc Hm Hid. destruct p as [|v|v|v|v|v|v]; [congruence| | | | | |]; cbn [java_items component_fine manageable] in *.
  - destruct Hc as [Hn [Hms Hb]]. assert (identifier Java (plain_ident Java (PSimple v))) as Hpl by (apply type_identifier; [discriminate | exact Hn]).
    destruct (st_list v) eqn:Hl.
    { destruct Hb as [Hb|[Hb _]]; [|discriminate]. apply j_wrapped; try assumption; [right; now left|]. now apply j_lists, good_shown. }
    destruct (is_union v) eqn:Hu.
    { apply (de_java_class _ id); [exact Hid|]. apply members_flat. intros m Hin. apply sorted_pairs_in in Hin.
      each Hms m Hin. apply members_two; [constructor|]. apply me_java; [now apply good_member | apply (member_identifier tables upper), Hone]. }
    destruct Hb as [Hb|[_ Hb]]; [|discriminate]. apply j_wrapped; try assumption; [right; now left|]. now apply good_shown.
  - destruct Hc as [Hn [Hb [Hag [Hat [Hgr Hel]]]]]. cbv zeta.
    match goal with |- declaration Java _ (j_class _ _ _ ?ms) => assert (Hms : members Java ms) end.
    { apply members_app; [apply members_flat; intros a Ha; each Hag a Ha; destruct Hone; apply members_two; [constructor|];
        apply me_java; [now apply good_shown | now apply (member_identifier tables upper)]|].
      apply members_app; [apply members_flat; intros a Ha; each Hat a Ha; destruct Hone; apply members_two; [now apply j_mark|];
        apply me_java; [now apply good_shown | now apply (member_identifier_attr tables upper)]|].
      apply members_app; [apply members_flat; intros a Ha; each Hgr a Ha; now apply j_group|].
      apply members_app; [apply members_flat; intros a Ha; each Hel a Ha; now apply j_element|].
      destruct (builtin Java (ct_base v)) eqn:Hv; [|constructor]. destruct Hb as [Hb|Hb]; [rewrite Hb in Hv; discriminate|].
      apply members_two; [constructor|]. apply me_java; [apply good_shown; [exact Hf | discriminate | now right]|].
      apply identifier_check; [apply ident_check|]; reflexivity. }
    unfold j_class. destruct (builtin Java (ct_base v)) eqn:Hv; [now apply de_java_class|].
    destruct (ct_base v) as [|a r] eqn:He; [now apply de_java_class|]. rewrite <- He in *. destruct Hb as [Hb|Hb]; [congruence|].
    rewrite !app_assoc_s. apply (de_java_extends _ id); [exact Hid | apply good_shown; [exact Hf | discriminate | now right] | exact Hms].
  - destruct Hc as [Hn Ht]. apply j_wrapped; try assumption; [now left | now apply j_lists, good_shown | apply type_identifier; [discriminate | exact Hn]].
  - destruct Hc as [Hn Ht]. apply j_wrapped; try assumption; [right; now left | now apply j_lists, good_shown | apply type_identifier; [discriminate | exact Hn]].
  - destruct Hc as [Hn [Hel Hgr]]. apply (de_java_class _ id); [exact Hid|].
    apply members_app; apply members_flat; intros a Ha; [each Hel a Ha; now apply j_element | each Hgr a Ha; now apply j_group].
  - destruct Hc as [Hn Hat]. apply (de_java_class _ id); [exact Hid|]. apply members_flat; intros a Ha; each Hat a Ha; each Hm a Ha. destruct Hone.
    apply members_two; [now apply j_mark|]. apply me_java; [|now apply (member_identifier tables upper)].
    apply ty_name; [|now apply (attr_known v)]. apply identifier_attr, typing_java_name; [now apply good_shown | assumption].
Qed.

(** *** Rust *)

Lemma r_row : forall n i t, literal n -> identifier Rust i -> typing Rust t -> members Rust (r_field n i t).
Proof. intros n i t Hn Hi Ht. apply members_two; [now apply an_rename | now apply me_rust]. Qed.

Lemma r_named : forall n t, name_ok n -> typing Rust t -> members Rust (r_field n (member_ident Rust n) t).
Proof. intros n t Hn Ht. apply r_row; [now apply literal_name | now apply (member_identifier tables upper) | exact Ht]. Qed.

Lemma r_vecs : forall b t, typing Rust t -> typing Rust (r_vec b t).
Proof. intros [] t H; [now apply ty_vec | exact H]. Qed.

Lemma rust_declaration : forall p id, p <> PNil -> tree_fine Rust pt -> component_fine Rust p -> manageable Rust pt p -> identifier Rust id ->
  declaration Rust id (rust_items pt p id).
Proof.
  intros p id Hp Hf Hc Hm Hid. destruct p as [|v|v|v|v|v|v]; [congruence| | | | | |]; cbn [rust_items component_fine manageable] in *.
  - destruct Hc as [Hn [Hms Hb]]. destruct (st_list v) eqn:Hl.
    { destruct Hb as [Hb|[Hb _]]; [|discriminate]. apply de_rust; [exact Hid|]. apply r_named; [exact Hn|]. now apply r_vecs, good_shown. }
    destruct (is_union v) eqn:Hu.
    { apply de_rust; [exact Hid|]. apply members_flat. intros m Hin. apply sorted_pairs_in in Hin.
      each Hms m Hin. apply r_row; [now apply literal_name | apply (member_identifier tables upper), Hone | now apply good_member]. }
    destruct Hb as [Hb|[_ Hb]]; [|discriminate]. apply de_rust; [exact Hid|]. apply r_named; [exact Hn|]. now apply good_shown.
  - destruct Hc as [Hn [Hb [Hag [Hat [Hgr Hel]]]]]. destruct Hm as [_ Hm]. apply de_rust; [exact Hid|].
    apply members_app; [apply members_flat; intros a Ha; each Hag a Ha; destruct Hone; apply r_named; [assumption|]; now apply r_vecs, good_shown|].
    apply members_app; [apply members_flat; intros a Ha; each Hat a Ha; destruct Hone; apply r_named; [assumption|];
      destruct (at_optional a); [apply ty_option|]; now apply good_shown|].
    apply members_app; [apply members_flat; intros a Ha; each Hgr a Ha; destruct Hone; apply r_named; [assumption|]; now apply r_vecs, good_shown|].
    apply members_app; [apply members_flat; intros a Ha; each Hel a Ha; destruct Hone; apply r_named; [assumption|];
      destruct (el_plural a); [apply r_vecs | destruct (el_optional a); [apply ty_option|]]; now apply good_shown|].
    destruct (ct_base v) as [|a r] eqn:He; [constructor|]. rewrite <- He in *. destruct Hb as [Hb|Hb]; [congruence|].
    assert (Hs : typing Rust (shown Rust pt (ct_base v))) by (apply good_shown; [exact Hf | discriminate | now right]).
    destruct (builtin Rust (ct_base v)) eqn:Hv.
    + apply r_row; [apply literal_chars; vm_compute; tauto | | exact Hs]. apply identifier_check; [apply ident_check|]; reflexivity.
    + destruct Hm as [Hm|[Hm|Hm]]; [congruence | discriminate|]. apply members_two; [constructor|]. apply me_rust; [exact Hs|].
      apply (member_identifier tables upper), (identifier_name Rust). now apply typing_rust_name.
  - destruct Hc as [Hn Ht]. apply de_rust; [exact Hid|]. apply r_row; [now apply literal_name | exact Hid | now apply r_vecs, good_shown].
  - destruct Hc as [Hn Ht]. apply de_rust; [exact Hid|]. apply r_row; [now apply literal_name | exact Hid | now apply r_vecs, good_shown].
  - destruct Hc as [Hn [Hel Hgr]]. apply de_rust; [exact Hid|].
    apply members_app; apply members_flat; intros a Ha; [each Hel a Ha | each Hgr a Ha]; destruct Hone; apply r_named; try assumption; now apply r_vecs, good_shown.
  - destruct Hc as [Hn Hat]. apply de_rust; [exact Hid|]. apply members_flat; intros a Ha; each Hat a Ha; destruct Hone. apply r_named; [assumption|].
    destruct (at_optional a); [apply ty_option | apply r_vecs]; now apply good_shown.
Qed.

(** *** TypeScript *)

Lemma t_shown : forall t plural, tree_fine TypeScript pt -> maybe_type TypeScript t -> typing TypeScript (shown_ts pt t plural).
Proof.
  intros t plural Hf H. pose proof (good_shown TypeScript t Hf ltac:(discriminate) H) as Ht. unfold shown in Ht. unfold shown_ts, array.
  destruct plural; [|exact Ht]. destruct (builtin TypeScript _); [exact Ht | now apply ty_array].
Qed.

Lemma t_attribute : forall a, tree_fine TypeScript pt -> attribute_fine TypeScript a -> member TypeScript (t_attribute_row pt a).
Proof.
  intros a Hf [Hn Ht]. apply me_ts; [|now apply (member_identifier_attr tables upper)]. destruct (at_optional a); cbn [when].
  - apply ty_or_null. now apply t_shown.
  - rewrite app_nil_r_s. now apply t_shown.
Qed.

Lemma t_group : forall x, tree_fine TypeScript pt -> group_fine TypeScript x -> member TypeScript (t_group_row pt x).
Proof. intros x Hf [Hn Ht]. apply me_ts; [now apply t_shown | now apply (member_identifier tables upper)]. Qed.

Lemma t_element : forall x, tree_fine TypeScript pt -> element_fine TypeScript x -> member TypeScript (t_element_row pt x).
Proof. intros x Hf [Hn Ht]. apply me_ts; [now apply t_shown | now apply (member_identifier tables upper)]. Qed.

Lemma enum_row : forall base value, value_fine base value -> enumerator (t_enum_row base value).
Proof.
  intros base value. unfold value_fine, t_enum_row. destruct (string_dec base "string").
  - intros H. apply en_text; [exact H|]. apply literal_name. destruct H as [a [r [-> [Ha Hr]]]]. exists a, r. split; [reflexivity|]. split; [exact Ha|].
    apply (every_weaken ident_char); [apply ident_name_char | exact Hr].
  - assert (Hi : every ident_char value -> ident ("Enum" ++ value)).
    { intros H. exists "E"%char, ("num" ++ value). split; [reflexivity|]. split; [reflexivity|]. apply every_app. split; [repeat split | exact H]. }
    destruct (string_dec base "number").
    + intros [Hne Hd]. rewrite <- app_assoc_s. apply en_number; try assumption. apply Hi. apply (every_weaken is_digit); [|exact Hd].
      intros c Hc. unfold ident_char. rewrite Hc. now rewrite orb_true_r.
    + intros H. match goal with |- enumerator ?x => assert (x = ("Enum" ++ value) ++ " = '" ++ value ++ "',") as -> end.
      { rewrite !app_assoc_s. reflexivity. }
      apply (en_text ("Enum" ++ value) value); [now apply Hi|].
      apply literal_every. apply (every_weaken ident_char); [apply ident_name_char | exact H].
Qed.

Lemma ts_declaration : forall p id enum, p <> PNil -> tree_fine TypeScript pt -> component_fine TypeScript p -> manageable TypeScript pt p ->
  identifier TypeScript id -> (enum = true -> enumerated TypeScript p = true) -> declaration TypeScript id (ts_items pt p id enum).
Proof.
  intros p id enum Hp Hf Hc Hm Hid Hen. destruct p as [|v|v|v|v|v|v]; [congruence| | | | | |]; cbn [ts_items component_fine manageable] in *.
  - destruct Hc as [Hn [Hms Hb]]. destruct enum.
    { apply (de_ts_enum _ id); [exact Hid|]. apply Forall_forall. intros r Hr. apply in_map_iff in Hr as [x [<- Hx]]. apply enum_row.
      exact (proj1 (Forall_forall _ _) (Hm (Hen eq_refl)) x Hx). }
    destruct (st_list v) eqn:Hl.
    { destruct Hb as [Hb|[Hb _]]; [|discriminate]. apply de_ts_type; [exact Hid | now apply t_shown]. }
    destruct (is_union v) eqn:Hu.
    { apply (de_ts_class _ id); [exact Hid|]. apply members_map. intros m Hin. apply sorted_pairs_in in Hin.
      each Hms m Hin. apply me_ts; [now apply good_member | apply (member_identifier tables upper), Hone]. }
    destruct Hb as [Hb|[_ Hb]]; [|discriminate]. apply de_ts_type; [exact Hid | now apply t_shown].
  - destruct Hc as [Hn [Hb [Hag [Hat [Hgr Hel]]]]]. cbv zeta.
    match goal with |- declaration TypeScript _ (t_class _ _ _ ?ms) => assert (Hms : members TypeScript ms) end.
    { apply members_app; [apply members_map; intros a Ha; each Hag a Ha; destruct Hone;
        apply me_ts; [now apply t_shown | now apply (member_identifier tables upper)]|].
      apply members_app; [apply members_map; intros a Ha; each Hat a Ha; now apply t_attribute|].
      apply members_app; [apply members_map; intros a Ha; each Hgr a Ha; now apply t_group|].
      apply members_app; [apply members_map; intros a Ha; each Hel a Ha; now apply t_element|].
      destruct (builtin TypeScript (ct_base v)) eqn:Hv; [|constructor]. destruct Hb as [Hb|Hb]; [rewrite Hb in Hv; discriminate|].
      apply members_one, me_ts; [apply t_shown; [exact Hf | now right]|].
      apply identifier_check; [apply ident_check|]; reflexivity. }
    unfold t_class. destruct (builtin TypeScript (ct_base v)) eqn:Hv; [now apply de_ts_class|].
    destruct (ct_base v) as [|a r] eqn:He; [now apply de_ts_class|]. rewrite <- He in *. destruct Hb as [Hb|Hb]; [congruence|].
    rewrite !app_assoc_s. apply (de_ts_extends _ id); [exact Hid | apply t_shown; [exact Hf | now right] | exact Hms].
  - destruct Hc as [Hn Ht]. apply de_ts_type; [exact Hid | now apply t_shown].
  - destruct Hc as [Hn Ht]. apply de_ts_type; [exact Hid | now apply t_shown].
  - destruct Hc as [Hn [Hel Hgr]]. apply (de_ts_class _ id); [exact Hid|].
    apply members_app; apply members_map; intros a Ha; [each Hel a Ha; now apply t_element | each Hgr a Ha; now apply t_group].
  - destruct Hc as [Hn Hat]. apply (de_ts_class _ id); [exact Hid|]. apply members_map; intros a Ha; each Hat a Ha; now apply t_attribute.
Qed.

(** ** All of them *)

Theorem each_declaration : forall l, tree_fine l pt -> Forall (manageable l pt) pt ->
  Forall (fun x => declaration l (declares l (fst (fst x)) (snd x)) (items_of l pt (fst (fst x)) (snd (fst x)) (snd x)))
    (combine (rendered l [] pt) (identifiers l [] (map fst (rendered l [] pt)))).
Proof.
  intros l Hf Hm. apply Forall_forall. intros [[p enum] id] Hin. cbn [fst snd].
  pose proof (in_combine_l _ _ _ _ Hin) as Hr. pose proof (rendered_named l pt [] _ Hr) as [Hp [n Hn]]. cbn [fst] in Hp, Hn.
  assert (Hnil : p <> PNil) by (intros ->; discriminate).
  pose proof (proj1 (Forall_forall _ _) Hf p Hp) as Hc. pose proof (proj1 (Forall_forall _ _) Hm p Hp) as Hmp. cbv beta in Hc, Hmp.
  pose proof (component_identifier tables upper l pt Hf (p, enum) id Hin Hmp) as Hid.
  destruct l; cbn [items_of]; [change (declares _ p id) with id | | change (declares _ p id) with id | change (declares _ p id) with id | change (declares _ p id) with id].
  - now apply go_declaration.
  - now apply c_declaration.
  - now apply java_declaration.
  - now apply rust_declaration.
  - apply ts_declaration; try assumption. intros ->. now apply rendered_enum in Hr as [Hr _].
Qed.

Theorem expected_declarations : forall l, tree_fine l pt -> Forall (manageable l pt) pt ->
  let cs := combine (rendered l [] pt) (identifiers l [] (map fst (rendered l [] pt))) in
  exists ds, expected l pt = concat (map snd ds) /\ Forall (fun d => declaration l (fst d) (snd d)) ds /\
    map fst ds = map (fun c => declares l (fst (fst c)) (snd c)) cs.
Proof.
  intros l Hf Hm cs. exists (map (fun x => (declares l (fst (fst x)) (snd x), items_of l pt (fst (fst x)) (snd (fst x)) (snd x))) cs).
  split; [now rewrite map_map|]. split; [|rewrite map_map; reflexivity]. apply Forall_forall. intros d Hd.
  apply in_map_iff in Hd as [x [<- Hin]]. exact (proj1 (Forall_forall _ _) (each_declaration l Hf Hm) x Hin).
Qed.

Theorem expected_program : forall l, tree_fine l pt -> Forall (manageable l pt) pt -> program l (expected l pt).
Proof. intros l Hf Hm. destruct (expected_declarations l Hf Hm) as [ds [H1 [H2 _]]]. now exists ds. Qed.

End Decls.
