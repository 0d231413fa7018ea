(** Proofs for C64. *)

From Coq Require Import String Ascii List NArith Bool Lia ZifyBool ZifyN ZifyNat.
From Verif Require Import GoStr Utf8 Base Utils GenGo GenC GenJava GenRust GenTS SpecStr SpecTables SpecGen SpecOut SpecSyntax
  StrLemmas StrProofs GenLemmas GenNames GenFacts GenRuns.
Import ListNotations.
Local Open Scope string_scope.

Local Infix "+++" := app (at level 60, right associativity).

(** * Characters *)

Lemma every_bytes : forall P s, every P s <-> all_bytes P s = true.
Proof.
  intros P s. induction s as [|c s IH]; cbn; [tauto|]. rewrite andb_true_iff. tauto.
Qed.

Lemma every_app : forall P a b, every P (a ++ b) <-> every P a /\ every P b.
Proof. intros P a b. rewrite !every_bytes, all_bytes_app, andb_true_iff. tauto. Qed.

Lemma every_weaken : forall (P Q : ascii -> bool) s, (forall c, P c = true -> Q c = true) -> every P s -> every Q s.
Proof. intros P Q s H. induction s as [|c s IH]; cbn; [tauto|]. intros [Hc Hs]. split; auto. Qed.

Lemma every_chars : forall (P : ascii -> bool) s, (forall c, P c = false -> has_char c s = false) -> every P s.
Proof.
  intros P s. induction s as [|c s IH]; intros H; cbn; [exact I|]. split.
  - destruct (P c) eqn:Hc; [reflexivity|]. specialize (H c Hc). cbn in H. now rewrite Ascii.eqb_refl in H.
  - apply IH. intros d Hd. specialize (H d Hd). cbn in H. now apply orb_false_iff in H as [_ H].
Qed.

Lemma every_free : forall (P : ascii -> bool) s c, every P s -> P c = false -> has_char c s = false.
Proof. intros P s c H Hc. apply every_bytes in H. now apply (all_bytes_free P). Qed.

Lemma ident_char_mark : forall c, ident_char c = false -> mark c.
Proof.
  intros c H. unfold ident_char, letter in H. unfold mark, ascii_letter, is_upper, is_lower, is_digit in *.
  apply orb_false_iff in H as [H Hu]. apply Ascii.eqb_neq in Hu. split; [lia|]. split; [lia|exact Hu].
Qed.

(** * First letters *)

Definition starts (s : string) : Prop := exists a r, s = String a r /\ letter a = true.
Definition cap (s : string) : Prop := exists a r, s = String a r /\ letter a = true /\ is_lower a = false.

Lemma cap_starts : forall s, cap s -> starts s.
Proof. intros s [a [r [-> [H _]]]]. now exists a, r. Qed.

Lemma cap_app : forall s t, cap s -> cap (s ++ t).
Proof. intros s t [a [r [-> H]]]. exists a, (r ++ t). now split. Qed.

Lemma starts_app : forall s t, starts s -> starts (s ++ t).
Proof. intros s t [a [r [-> H]]]. exists a, (r ++ t). now split. Qed.

Lemma letter_ascii_letter : forall a, (N_of_ascii a < 128)%N -> letter a = true -> ascii_letter (N_of_ascii a).
Proof. intros a Ha H. unfold letter, is_upper, is_lower in H. unfold ascii_letter. lia. Qed.

(** A string that starts with a letter starts with such a rune. *)
Definition letter_rune (r : N) : Prop := ascii_letter r \/ (128 <= r)%N.

Lemma segs_starts : forall s, starts s -> exists r b l, segs s = (r, b) :: l /\ letter_rune r.
Proof.
  apply (segs_ind (fun s l => starts s -> exists r b l', l = (r, b) :: l' /\ letter_rune r)).
  - intros [a [r [H _]]]. discriminate.
  - intros a s0 IH Ha [b [r [H Hb]]]. injection H as <- <-. do 3 eexists. split; [reflexivity|]. left. now apply letter_ascii_letter.
  - intros a s0 IH Ha _. do 3 eexists. split; [reflexivity|]. right. unfold rune_error. lia.
  - intros r0 b0 s0 IH Hsc Hr Hb _. do 3 eexists. split; [reflexivity|]. right. lia.
Qed.

Lemma encode_letter : forall r, letter_rune r -> starts (encode_rune r).
Proof.
  intros r [H|H].
  - unfold ascii_letter in H. rewrite encode_ascii by lia. exists (byte r), "". split; [reflexivity|].
    unfold letter, is_upper, is_lower. rewrite byte_N by lia. lia.
  - pose proof (encode_high r H) as Hh. pose proof (encode_nonempty r) as Hn. destruct (encode_rune r) as [|a e]; [congruence|].
    exists a, e. split; [reflexivity|]. cbn in Hh. apply andb_true_iff in Hh as [Hh _]. unfold letter, high in *. rewrite Hh. apply orb_true_r.
Qed.

Lemma encode_cap : forall r, letter_rune r -> ~ (97 <= r <= 122)%N -> cap (encode_rune r).
Proof.
  intros r Hr Hn. destruct (encode_letter r Hr) as [a [e [He Ha]]]. exists a, e. split; [exact He|]. split; [exact Ha|].
  destruct Hr as [H|H].
  - unfold ascii_letter in H. rewrite encode_ascii in He by lia. injection He as <- _. unfold is_lower. rewrite byte_N by lia. lia.
  - pose proof (encode_high r H) as Hh. rewrite He in Hh. cbn in Hh. apply andb_true_iff in Hh as [Hh _]. now apply is_lower_high.
Qed.

Lemma split_first : forall d a r, Ascii.eqb a d = false -> exists h t, split_on d (String a r) = String a h :: t.
Proof.
  intros d a r H. cbn [split_on]. rewrite H. pose proof (split_on_nonempty d r). destruct (split_on d r) as [|h t]; [congruence|]. now exists h, t.
Qed.

Lemma letter_neq : forall a d, letter a = true -> letter d = false -> Ascii.eqb a d = false.
Proof. intros a d Ha Hd. apply Ascii.eqb_neq. intros ->. congruence. Qed.

Lemma remove_cap : forall d s, letter d = false -> cap s -> cap (remove_char d s).
Proof.
  intros d s Hd [a [r [-> [Ha Hl]]]]. cbn [remove_char]. rewrite letter_neq by assumption. now exists a, (remove_char d r).
Qed.

Section Names.
Context {E : Env} {S : Scope} {P : Pool}.
Hypothesis tables : case_tables_ok.
Hypothesis upper : upper_idempotent E.

Lemma upper_letter : forall r, letter_rune r -> letter_rune (to_upper_rune r) /\ ~ (97 <= to_upper_rune r <= 122)%N.
Proof.
  intros r Hr. unfold to_upper_rune. destruct (r <? 128)%N eqn:H1.
  - unfold letter_rune, ascii_letter in *. destruct ((97 <=? r) && (r <=? 122))%N eqn:H2; split; lia.
  - destruct (tables r ltac:(lia)) as [Hu _]. split; [unfold letter_rune; tauto|]. intros H.
    pose proof (upper r ltac:(lia)) as Hi. rewrite norm_rune_id in Hi by (unfold scalar; lia).
    rewrite rune_upper_eq in Hi. unfold to_upper_rune in Hi.
    assert ((env_upper r <? 128)%N = true) as He by lia. rewrite He in Hi.
    assert ((97 <=? env_upper r)%N && (env_upper r <=? 122)%N = true) as He' by lia. rewrite He' in Hi. lia.
Qed.

Lemma title_cap : forall s, starts s -> cap (to_title s).
Proof.
  intros s H. destruct (segs_starts s H) as [r [b [l [Hs Hr]]]]. unfold to_title. rewrite Hs.
  apply cap_app. destruct (upper_letter r Hr). now apply encode_cap.
Qed.

Lemma join_cap : forall d s, letter d = false -> starts s -> cap (title_join d s).
Proof.
  intros d s Hd [a [r [-> Ha]]]. unfold title_join. destruct (split_first d a r) as [h [t ->]]; [now apply letter_neq|].
  cbn [map sconcat]. apply cap_app, title_cap. now exists a, h.
Qed.

Lemma join_free : forall d s, mark d -> has_char d (title_join d s) = false.
Proof.
  intros d s Hd. unfold title_join. apply sconcat_has_char. intros x Hx. apply in_map_iff in Hx as [y [<- Hy]].
  apply (to_title_mark tables d Hd). now apply (split_on_clean d s).
Qed.

Lemma name_starts : forall n, name_ok n -> starts n.
Proof. intros n [a [r [-> [H _]]]]. now exists a, r. Qed.

Lemma letter_ident : forall c, letter c = true -> ident_char c = true.
Proof. intros c H. unfold ident_char. now rewrite H. Qed.

Lemma ident_name_char : forall c, ident_char c = true -> name_char c = true.
Proof. intros c H. unfold name_char. now rewrite H. Qed.

Lemma name_every : forall n, name_ok n -> every name_char n.
Proof. intros n [a [r [-> [H Hr]]]]. cbn. split; [now apply ident_name_char, letter_ident | exact Hr]. Qed.

Lemma camel_cap : forall n, name_ok n -> cap (camel n).
Proof.
  intros n H. rewrite camel_eq. apply remove_cap; [reflexivity|]. apply join_cap; [reflexivity|]. apply cap_starts, join_cap; [reflexivity|].
  now apply name_starts.
Qed.

Lemma camel_every : forall n, name_ok n -> every ident_char (camel n).
Proof.
  intros n H. apply every_chars. intros c Hc. rewrite camel_eq. pose proof (ident_char_mark c Hc) as Hm.
  destruct (Ascii.eqb_spec c "-") as [->|N1]; [apply has_char_remove|]. apply has_char_remove_other.
  destruct (Ascii.eqb_spec c ".") as [->|N2]; [now apply join_free|]. apply (title_join_mark tables c Hm).
  destruct (Ascii.eqb_spec c ":") as [->|N3]; [now apply join_free|]. apply (title_join_mark tables c Hm).
  apply (every_free name_char); [now apply name_every|]. unfold name_char. rewrite Hc.
  apply Ascii.eqb_neq in N1, N2, N3. now rewrite N1, N2, N3.
Qed.

Lemma remove_every : forall Q d s, every Q s -> every Q (remove_char d s).
Proof.
  intros Q d s. induction s as [|a s IH]; [trivial|]. cbn [every remove_char]. intros [Ha Hs].
  destruct (Ascii.eqb a d); [auto|]. cbn. auto.
Qed.

Lemma cap_ident : forall s, cap s -> every ident_char s -> ident s.
Proof. intros s [a [r [-> [Ha _]]]] [_ Hr]. now exists a, r. Qed.

Lemma solid_cap : forall n, name_ok n -> cap (solid n).
Proof. intros n H. unfold solid. rewrite erase_remove. apply remove_cap; [reflexivity|]. now apply camel_cap. Qed.

Lemma solid_every : forall n, name_ok n -> every ident_char (solid n).
Proof. intros n H. unfold solid. rewrite erase_remove. apply remove_every. now apply camel_every. Qed.

(** * Keywords *)

Definition small_first (s : string) : bool := match s with String a _ => is_lower a || Ascii.eqb a "_" | _ => true end.

Lemma keywords_small : forall l, forallb (fun k => small_first k || String.eqb k "Self") (keywords l) = true.
Proof. intros []; vm_compute; reflexivity. Qed.

Lemma cap_keyword : forall l s, cap s -> In s (keywords l) -> s = "Self".
Proof.
  intros l s [a [r [-> [Ha Hl]]]] Hin. pose proof (keywords_small l) as H. rewrite forallb_forall in H. specialize (H _ Hin).
  apply orb_true_iff in H as [H|H]; [|now apply String.eqb_eq]. cbn in H. rewrite Hl in H. cbn in H. apply Ascii.eqb_eq in H. subst a. discriminate.
Qed.

Lemma self_rust : forall l, In "Self" (keywords l) -> l = Rust.
Proof. intros [] H; try reflexivity; vm_compute in H; repeat (destruct H as [H|H]; [discriminate|]); destruct H. Qed.

Lemma cap_identifier : forall l s, cap s -> every ident_char s -> (l = Rust -> s <> "Self") -> identifier l s.
Proof.
  intros l s Hc He Hs. split; [now apply cap_ident|]. intros Hin. pose proof (cap_keyword l s Hc Hin) as ->.
  apply Hs; [now apply self_rust | reflexivity].
Qed.

Lemma type_ident_cap : forall l n, name_ok n -> cap (type_ident l n) /\ every ident_char (type_ident l n).
Proof.
  intros l n H. destruct l; cbn [type_ident]; (split; [first [now apply solid_cap | now apply camel_cap] | first [now apply solid_every | now apply camel_every]]).
Qed.

(** Followed by something. *)
Lemma type_ident_more : forall l n t, name_ok n -> every ident_char t -> (l = Rust -> type_ident l n ++ t <> "Self") ->
  identifier l (type_ident l n ++ t).
Proof.
  intros l n t H Ht Hs. destruct (type_ident_cap l n H) as [H1 H2]. apply cap_identifier; [now apply cap_app | now apply every_app | exact Hs].
Qed.

Lemma lower_starts : forall s, starts s -> starts (to_lower s).
Proof.
  intros s H. destruct (segs_starts s H) as [r [b [l [Hs Hr]]]]. unfold to_lower. rewrite Hs. cbn [map sconcat fst].
  apply starts_app, encode_letter. unfold to_lower_rune. destruct (r <? 128)%N eqn:H1.
  - unfold letter_rune, ascii_letter in *. destruct ((65 <=? r) && (r <=? 90))%N eqn:H2; lia.
  - destruct (tables r ltac:(lia)) as [_ Hl]. unfold letter_rune. tauto.
Qed.

Lemma separated_starts : forall s, starts s -> starts (separated s).
Proof.
  intros s [a [r [-> Ha]]]. destruct r as [|b t]; [now exists a, ""|].
  change (separated (String a (String b t))) with
    (if word_boundary a b t then String a (String "_" (separated (String b t))) else String a (separated (String b t))).
  destruct (word_boundary a b t); eexists; eexists; (split; [reflexivity|exact Ha]).
Qed.

Lemma snake_identifier : forall n, name_ok n -> identifier Rust (snake n).
Proof.
  intros n H. split; [|rewrite snake_eq; apply rust_field_not_reserved].
  assert (Hs : starts (lowered (separated (camel n)))).
  { rewrite lowered_eq. apply lower_starts, separated_starts, cap_starts. now apply camel_cap. }
  assert (He : every ident_char (lowered (separated (camel n)))).
  { apply every_chars. intros c Hc. pose proof (ident_char_mark c Hc) as Hm. rewrite lowered_eq. apply (to_lower_mark tables c Hm).
    apply separated_has_char; [apply Hm|]. apply (every_free ident_char); [now apply camel_every|exact Hc]. }
  assert (Hi : forall t, every ident_char t -> ident (lowered (separated (camel n)) ++ t)).
  { intros t Ht. destruct Hs as [a [r [Hs Ha]]]. rewrite Hs in *. exists a, (r ++ t). split; [reflexivity|]. split; [exact Ha|].
    apply every_app. split; [apply He | exact Ht]. }
  unfold snake. cbv zeta. destruct (in_dec string_dec _ rust_reserved).
  - apply Hi. repeat split.
  - rewrite <- (app_nil_r_s (lowered _)). apply Hi. exact I.
Qed.

Lemma member_identifier : forall l n, name_ok n -> identifier l (member_ident l n).
Proof.
  intros l n H. assert (l <> Rust -> identifier l (type_ident l n)) as Ht.
  { intros Hl. rewrite <- (app_nil_r_s (type_ident _ n)). apply type_ident_more; [exact H | exact I | congruence]. }
  destruct l; unfold member_ident; try (apply Ht; discriminate). now apply snake_identifier.
Qed.

Lemma member_identifier_attr : forall l n, l <> Rust -> name_ok n -> identifier l (member_ident l n ++ "Attr").
Proof.
  intros l n Hl H. destruct l; unfold member_ident; try congruence; (apply type_ident_more; [exact H | repeat split | discriminate]).
Qed.

(** * Types *)

(** The name of another type. *)
Definition bare (t : string) : string := capital (erase "-" (joined "." t)).
Definition bare_id (l : lang) (t : string) : string :=
  match l with Go => erase "_" (bare t) | Rust => solid t | _ => bare t end.

Hypothesis known_standard : forall l s, In s (standard l) -> known l s.
Hypothesis known_pooled : forall l t, name_ok t -> has_char ":" t = false -> ~ improper l t -> pooled l t -> builtin l t = false ->
  (l = TypeScript -> bare_id l t <> "Any") -> known l (bare_id l t).

Definition form (l : lang) (s : string) : Prop := typing l s \/ (l = C /\ s = "char[]").

Lemma identifier_check : forall l s, ident s -> in_set s (keywords l) = false -> identifier l s.
Proof. intros l s Hi H. split; [exact Hi|]. intros Hin. apply in_set_In in Hin. congruence. Qed.

Lemma ident_check : forall s, match s with String a r => letter a && all_bytes ident_char r | _ => false end = true -> ident s.
Proof.
  intros [|a r] H; [discriminate|]. apply andb_true_iff in H as [Ha Hr]. exists a, r. split; [reflexivity|]. split; [exact Ha|]. now apply every_bytes.
Qed.

Ltac good_name := apply ty_name; [apply identifier_check; [apply ident_check; reflexivity | reflexivity] | apply known_standard; cbn; tauto].
Ltac good_id := apply identifier_check; [apply ident_check; reflexivity | reflexivity].
Ltac good_form :=
  first
    [ right; split; reflexivity
    | left; first
       [ good_name
       | apply ty_interface
       | apply ty_words; cbn; tauto
       | apply ty_special; cbn; tauto
       | apply (ty_qualified "xml" "Name"); [good_id | good_id | apply known_standard; cbn; tauto]
       | apply (ty_qualified "time" "Time"); [good_id | good_id | apply known_standard; cbn; tauto]
       | apply (ty_slice "string"); good_name
       | apply (ty_list "Byte"); good_name
       | apply (ty_list "String"); good_name
       | apply (ty_vec "String"); good_name
       | apply (ty_array "string"); good_name ] ].

Lemma targets_form : forall l t, In t (targets l) -> type_name l t = t /\ form l t /\ has_char ":" t = false.
Proof.
  intros l t H. apply (nodup_In string_dec) in H. revert H.
  destruct l; match goal with |- In t (nodup string_dec ?x) -> _ => let y := eval vm_compute in (nodup string_dec x) in change (nodup string_dec x) with y end;
    intros H; cbn [In] in H;
    repeat (destruct H as [<-|H]; [split; [vm_compute; reflexivity|]; split; [good_form | reflexivity]|]); destruct H.
Qed.

Lemma targets_go_builtin : forall t, In t (targets Go) -> builtin Go t = true.
Proof.
  intros t H. apply (proj1 (forallb_forall (builtin Go) (targets Go))); [vm_compute; reflexivity | exact H].
Qed.

(** A type name of the language. *)
Lemma builtin_form : forall l t, builtin l t = true -> name_ok t -> ~ improper l t -> form l t.
Proof.
  intros l t Hb Hn Hi. unfold builtin in Hb. destruct (in_dec string_dec t (builtins l)) as [H|]; [|discriminate]. clear Hb.
  apply name_every in Hn.
  destruct l; cbn [builtins In improper] in *;
    repeat (destruct H as [<-|H];
            [first [ solve [cbn in Hn; decompose [and] Hn; discriminate] | now elim Hi | good_form ]|]); destruct H.
Qed.

Lemma bare_cap : forall t, starts t -> cap (bare t).
Proof.
  intros t H. unfold bare. rewrite capital_eq, erase_remove, joined_eq. apply title_cap, cap_starts, remove_cap; [reflexivity|].
  now apply join_cap.
Qed.

Lemma bare_every : forall t, every name_char t -> has_char ":" t = false -> every ident_char (bare t).
Proof.
  intros t H Hc. apply every_chars. intros c Hi. pose proof (ident_char_mark c Hi) as Hm. unfold bare. rewrite capital_eq, erase_remove, joined_eq.
  apply (to_title_mark tables c Hm).
  destruct (Ascii.eqb_spec c "-") as [->|N1]; [apply has_char_remove|]. apply has_char_remove_other.
  destruct (Ascii.eqb_spec c ".") as [->|N2]; [now apply join_free|]. apply (title_join_mark tables c Hm).
  destruct (Ascii.eqb_spec c ":") as [->|N3]; [exact Hc|].
  apply (every_free name_char); [exact H|]. unfold name_char. rewrite Hi. apply Ascii.eqb_neq in N1, N2, N3. now rewrite N1, N2, N3.
Qed.

Lemma cap_nonempty : forall s, cap s -> s <> "".
Proof. intros s [a [r [-> _]]]. discriminate. Qed.

Lemma reference_form : forall l t, name_ok t -> has_char ":" t = false -> ~ improper l t ->
  let i := bare_id l t in
  cap i /\ identifier l i /\ ((l <> Go /\ (l = TypeScript -> i <> "Any") /\ reference l t = i) \/ (l = Go /\ reference l t = "*" ++ i) \/
    (l = TypeScript /\ reference l t = "any")).
Proof.
  intros l t Hn Hc Hi. pose proof (bare_cap t (name_starts t Hn)) as H1. pose proof (bare_every t (name_every t Hn) Hc) as H2.
  unfold reference. fold (bare t). cbv zeta. destruct l; cbn [bare_id].
  - assert (cap (erase "_" (bare t))) as H3 by (rewrite erase_remove; now apply remove_cap).
    split; [exact H3|]. split.
    { apply cap_identifier; [exact H3 | rewrite erase_remove; now apply remove_every | discriminate]. }
    destruct (string_dec _ "") as [He|_]; [now apply cap_nonempty in H3|]. right; left. now split.
  - split; [exact H1|]. split; [apply cap_identifier; [exact H1|exact H2|discriminate]|].
    destruct (string_dec _ "") as [He|_]; [now apply cap_nonempty in H1|]. left. now repeat split.
  - split; [exact H1|]. split; [apply cap_identifier; [exact H1|exact H2|discriminate]|].
    destruct (string_dec _ "") as [He|_]; [now apply cap_nonempty in H1|]. left. now repeat split.
  - pose proof (solid_cap t Hn) as H3. split; [exact H3|]. split.
    { apply cap_identifier; [exact H3 | now apply solid_every | intros _; exact Hi]. }
    destruct (string_dec _ "") as [He|_]; [now apply cap_nonempty in H3|]. left. now repeat split.
  - split; [exact H1|]. split; [apply cap_identifier; [exact H1|exact H2|discriminate]|].
    destruct (string_dec _ "") as [He|_]; [now apply cap_nonempty in H1|].
    destruct (string_dec _ "Any"); [right; right; now split | left; now repeat split].
Qed.

Lemma type_form : forall l t, type_ok l t -> form l (type_name l t).
Proof.
  intros l t [H|[Hn [Hc [Hi Hp]]]]; [destruct (targets_form l t H) as [-> [H' _]]; exact H'|].
  unfold type_name. destruct (builtin l t) eqn:Hb; [now apply builtin_form|]. apply free_of_has_char in Hc.
  destruct (reference_form l t Hn Hc Hi) as [H1 [H2 [[_ [H3 ->]]|[[-> ->]|[-> ->]]]]].
  - left. apply ty_name; [assumption|]. now apply known_pooled.
  - left. apply ty_pointer, ty_name; [assumption|]. apply known_pooled; try assumption. discriminate.
  - good_form.
Qed.

Lemma empty_form : forall l, l <> Java -> form l (type_name l "").
Proof. intros [] Hl; try congruence; match goal with |- form _ ?t => let y := eval vm_compute in t in change t with y end; good_form. Qed.

Lemma maybe_form : forall l t, maybe_type l t -> form l (type_name l t).
Proof. intros l t [[-> Hl]|H]; [now apply empty_form | now apply type_form]. Qed.

(** * Types in a tree *)

Lemma type_ok_colon : forall l t, type_ok l t -> has_char ":" t = false.
Proof. intros l t [H|[_ [H _]]]; [now apply targets_form in H as [_ [_ H]] | now apply free_of_has_char]. Qed.

Lemma local_free : forall t, has_char ":" t = false -> local_part t = t.
Proof. intros t H. unfold local_part. now rewrite split_on_no_char by exact H. Qed.

Lemma local_maybe : forall l t, maybe_type l t -> local_part t = t.
Proof. intros l t [[-> _]|H]; [reflexivity|]. apply local_free. now apply (type_ok_colon l). Qed.

Variable l : lang.
Variable pt : list proto.
Hypothesis fine : tree_fine l pt.

Lemma resolved_cases : forall t, resolved pt t = t \/ maybe_type l (resolved pt t).
Proof.
  intros t. unfold resolved. destruct (find _ _) as [[n u]|] eqn:Hf; [|now left]. right.
  apply find_some in Hf as [Hin _]. apply in_flat_map in Hin as [p [Hp Hin]].
  pose proof (proj1 (Forall_forall _ _) fine p Hp) as Hc. destruct p as [|v|v|v|v|v|v]; try contradiction; cbn [stands_for] in Hin.
  - destruct (st_list v || st_union v) eqn:Hk; [contradiction|]. destruct Hin as [[= <- <-]|[]].
    destruct Hc as [_ [_ [Hc|[_ Hu]]]]; [exact Hc|]. apply orb_false_iff in Hk as [_ Hk]. unfold is_union in Hu. rewrite Hk in Hu. discriminate.
  - destruct Hin as [[= <- <-]|[]]. apply Hc.
  - destruct Hin as [[= <- <-]|[]]. apply Hc.
Qed.

Lemma resolved_maybe : forall t, maybe_type l t -> maybe_type l (resolved pt t).
Proof. intros t H. destruct (resolved_cases t) as [->|H']; assumption. Qed.

Lemma shown_form : forall t, maybe_type l t -> form l (shown l pt t).
Proof. intros t H. unfold shown. rewrite (local_maybe l) by exact H. now apply maybe_form, resolved_maybe. Qed.

Lemma member_type_form : forall m, member_fine l m -> form l (type_name l (member_type pt m)).
Proof.
  intros m [H1 [H2 [H3 [H5 H4]]]]. unfold member_type. destruct (string_dec (snd m) "") as [He|He].
  - apply maybe_form, resolved_maybe. right. right. split; [exact H1|]. split; [exact H2|]. split; [exact H3|]. now apply H5.
  - apply type_form. now destruct H4.
Qed.

(** * Identifiers of components *)

Lemma digits_ident : forall n, every ident_char (itoa n).
Proof.
  intros n. apply (every_weaken is_digit); [|apply every_bytes, itoa_digits].
  intros c H. unfold ident_char. rewrite H. now rewrite orb_true_r.
Qed.

Lemma self_digits : forall s n, s ++ itoa n <> "Self".
Proof.
  intros s n H. pose proof (itoa_digits n) as Hd. pose proof (itoa_nonempty n) as Hn. destruct (itoa n) as [|a r]; [congruence|].
  do 4 (destruct s as [|? s]; [cbn in H; injection H as H _; rewrite H in Hd; discriminate Hd | cbn in H; injection H as _ H]).
  destruct s; discriminate H.
Qed.

Lemma numbered_identifier : forall n k, name_ok n -> (l = Rust -> type_ident l n <> "Self") -> identifier l (numbered (type_ident l n) k).
Proof.
  intros n k H Hs. unfold numbered. destruct (Nat.eqb k 1).
  - rewrite <- (app_nil_r_s (type_ident l n)). apply type_ident_more; [exact H | exact I | now rewrite app_nil_r_s].
  - apply type_ident_more; [exact H | apply digits_ident | intros _; apply self_digits].
Qed.

Lemma identifiers_forall : forall ps used x id, In (x, id) (combine ps (identifiers l used (map fst ps))) ->
  (exists k, id = numbered (plain_ident l (fst x)) k /\ counting l (fst x) = true) \/
  (id = plain_ident l (fst (x : proto * bool)) /\ counting l (fst x) = false).
Proof.
  induction ps as [|y ps IH]; intros used x id H; [contradiction|]. cbn [map identifiers] in H.
  destruct (counting l (fst y)) eqn:Hc; cbn [combine In] in H; destruct H as [[= <- <-]|H]; eauto.
Qed.

Lemma component_name : forall p n, component_fine l p -> proto_name p = Some n -> name_ok n.
Proof. intros [|v|v|v|v|v|v] n H; try discriminate; cbn; intros [= <-]; apply H. Qed.

Lemma component_identifier : forall x id, In (x, id) (combine (rendered l [] pt) (identifiers l [] (map fst (rendered l [] pt)))) ->
  manageable l pt (fst x) -> identifier l id.
Proof.
  intros x id H Hm. pose proof (in_combine_l _ _ _ _ H) as Hr. apply rendered_named in Hr as [Hin [n Hn]].
  pose proof (proj1 (Forall_forall _ _) fine _ Hin) as Hc. pose proof (component_name _ _ Hc Hn) as Hok.
  destruct (identifiers_forall _ _ _ _ H) as [[k [-> Hk]]|[-> Hk]]; unfold plain_ident; rewrite Hn.
  - assert (identifier l (numbered (type_ident l n) k)) as Ht.
    { apply numbered_identifier; [exact Hok|]. intros Hl. destruct (fst x) as [|v|v|v|v|v|v]; try discriminate Hn; cbn in Hn; injection Hn as <-;
        rewrite Hl in *; cbn in Hk, Hm; try discriminate; try exact Hm; apply Hm. }
    destruct l, (fst x); try exact Ht; discriminate Hk.
  - destruct l, (fst x); try discriminate Hk; try (rewrite <- (app_nil_r_s (type_ident _ n)); apply type_ident_more; [exact Hok | exact I | discriminate]);
      now apply member_identifier.
Qed.

End Names.
