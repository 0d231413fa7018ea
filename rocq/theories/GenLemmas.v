(** Lemmas about generated text: bytes that names cannot introduce, lines. *)

From Coq Require Import String Ascii List NArith Bool Lia ZifyBool Decimal DecimalString DecimalPos DecimalN.
From Verif Require Import GoStr Base Utils GenGo GenC GenJava GenRust GenTS Utf8 StrLemmas SpecStr StrProofs
  SpecTables TableProofs SpecGen.
Import ListNotations.
Local Open Scope string_scope.

(** * Bytes that no mangling introduces *)

Definition mark (c : ascii) : Prop :=
  (N_of_ascii c < 128)%N /\ ~ ascii_letter (N_of_ascii c) /\ c <> "_"%char.

Lemma mark_LF : mark LF.
Proof. unfold mark, ascii_letter. change (N_of_ascii LF) with 10%N. split; [lia|]. split; [lia|discriminate]. Qed.

Lemma split_on_has_char : forall c d s x, has_char c s = false -> In x (split_on d s) -> has_char c x = false.
Proof.
  intros c d s. induction s as [|a s IH]; intros x Hs Hx.
  - destruct Hx as [<-|[]]. reflexivity.
  - cbn in Hs. apply orb_false_iff in Hs as [Ha Hs]. cbn [split_on] in Hx.
    destruct (Ascii.eqb a d).
    + destruct Hx as [<-|Hx]; [reflexivity | eauto].
    + pose proof (split_on_nonempty d s) as Hne. destruct (split_on d s) as [|h t]; [congruence|].
      destruct Hx as [<-|Hx]; [|apply IH; [exact Hs | now right]].
      cbn. rewrite Ha. cbn. apply IH; [exact Hs | now left].
Qed.

Lemma sconcat_has_char : forall c l, (forall x, In x l -> has_char c x = false) -> has_char c (sconcat l) = false.
Proof.
  induction l as [|x l IH]; intros H; [reflexivity|]. cbn [sconcat]. rewrite has_char_app.
  rewrite (H x) by (now left). apply IH. intros y Hy. apply H. now right.
Qed.

Lemma replace_has_char : forall c d e s, c <> e -> has_char c s = false -> has_char c (replace_char d e s) = false.
Proof.
  intros c d e s Hce. induction s as [|a s IH]; [reflexivity|]. cbn. intros H.
  apply orb_false_iff in H as [Ha Hs]. rewrite (IH Hs), orb_false_r.
  destruct (Ascii.eqb a d); [|exact Ha]. apply Ascii.eqb_neq. congruence.
Qed.

Lemma rune_has_char : forall c s r b, (N_of_ascii c < 128)%N -> has_char c s = false ->
  In (r, b) (segs s) -> r <> N_of_ascii c.
Proof.
  intros c s r b Hc. revert r b.
  apply (segs_ind (fun s l => forall r b, has_char c s = false -> In (r, b) l -> r <> N_of_ascii c)).
  - intros r b _ [].
  - intros a s0 IH Ha r b Hs [H|H].
    + injection H as <- _. cbn in Hs. apply orb_false_iff in Hs as [Hs _]. apply Ascii.eqb_neq in Hs.
      intros Heq. apply Hs. apply (f_equal ascii_of_N) in Heq. now rewrite !ascii_N_embedding in Heq.
    + cbn in Hs. apply orb_false_iff in Hs as [_ Hs]. eauto.
  - intros a s0 IH Ha r b Hs [H|H].
    + injection H as <- _. unfold rune_error. lia.
    + cbn in Hs. apply orb_false_iff in Hs as [_ Hs]. eauto.
  - intros r0 b0 s0 IH Hsc Hr Hb r b Hs [H|H].
    + injection H as <- _. lia.
    + rewrite has_char_app in Hs. apply orb_false_iff in Hs as [_ Hs]. eauto.
Qed.

Lemma separated_has_char : forall c s, c <> "_"%char -> has_char c s = false -> has_char c (separated s) = false.
Proof.
  intros c s Hc. assert (Hus : Ascii.eqb "_" c = false) by (apply Ascii.eqb_neq; congruence).
  induction s as [|a [|b t] IH]; intros H; [reflexivity | exact H|].
  cbn [has_char] in H. apply orb_false_iff in H as [Ha H].
  change (separated (String a (String b t))) with
    (if word_boundary a b t then String a (String "_" (separated (String b t))) else String a (separated (String b t))).
  specialize (IH H). destruct (word_boundary a b t); cbn [has_char]; rewrite Ha, ?Hus, IH; reflexivity.
Qed.

Section Marks.
Context {E : Env}.
Hypothesis tables : case_tables_ok.
Variable c : ascii.
Hypothesis Hc : mark c.

Lemma upper_rune_mark : forall r, r <> N_of_ascii c -> to_upper_rune r <> N_of_ascii c.
Proof.
  intros r Hr. destruct Hc as [Hlt [Hlet _]]. unfold to_upper_rune, ascii_letter in *.
  destruct (r <? 128)%N eqn:H1; [destruct ((97 <=? r) && (r <=? 122))%N eqn:H2; lia|].
  destruct (tables r ltac:(lia)) as [[H|H] _]; unfold ascii_letter in H; lia.
Qed.

Lemma lower_rune_mark : forall r, r <> N_of_ascii c -> to_lower_rune r <> N_of_ascii c.
Proof.
  intros r Hr. destruct Hc as [Hlt [Hlet _]]. unfold to_lower_rune, ascii_letter in *.
  destruct (r <? 128)%N eqn:H1; [destruct ((65 <=? r) && (r <=? 90))%N eqn:H2; lia|].
  destruct (tables r ltac:(lia)) as [_ [H|H]]; unfold ascii_letter in H; lia.
Qed.

Lemma encode_mark : forall r, r <> N_of_ascii c -> has_char c (encode_rune r) = false.
Proof. intros r H. rewrite encode_has_char by apply Hc. now apply N.eqb_neq. Qed.

Lemma to_title_mark : forall s, has_char c s = false -> has_char c (to_title s) = false.
Proof.
  intros s H. unfold to_title. pose proof (fun r b => rune_has_char c s r b (proj1 Hc) H) as Hr.
  destruct (segs s) as [|[r b] l]; [reflexivity|]. rewrite has_char_app.
  rewrite encode_mark by (apply upper_rune_mark, (Hr r b); now left).
  apply sconcat_has_char. intros x Hx. apply in_map_iff in Hx as [[r' b'] [<- Hin]].
  apply encode_mark, (Hr r' b'). now right.
Qed.

Lemma to_lower_mark : forall s, has_char c s = false -> has_char c (to_lower s) = false.
Proof.
  intros s H. unfold to_lower. apply sconcat_has_char. intros x Hx. apply in_map_iff in Hx as [[r b] [<- Hin]].
  apply encode_mark, lower_rune_mark. now apply (rune_has_char c s r b (proj1 Hc) H).
Qed.

Lemma title_join_mark : forall d s, has_char c s = false -> has_char c (title_join d s) = false.
Proof.
  intros d s H. unfold title_join. apply sconcat_has_char. intros x Hx.
  apply in_map_iff in Hx as [y [<- Hy]]. apply to_title_mark. eauto using split_on_has_char.
Qed.

Lemma snake_mark : forall s, has_char c s = false -> has_char c (to_snake_case s) = false.
Proof.
  intros s H. rewrite snake_exact. apply to_lower_mark, replace_has_char; [apply Hc|].
  apply separated_has_char; [apply Hc | exact H].
Qed.

Lemma names_mark : forall s, has_char c s = false ->
  has_char c (go_field_name s) = false /\ has_char c (c_field_name s) = false /\
  has_char c (java_field_name s) = false /\ has_char c (rust_struct_name s) = false /\
  has_char c (ts_field_name s) = false /\ has_char c (rust_field_name s) = false.
Proof.
  intros s H.
  assert (H0 : has_char c (remove_char "-" (title_join "." (title_join ":" s))) = false).
  { apply has_char_remove_other, title_join_mark, title_join_mark, H. }
  assert (H1 : has_char c (remove_char "_" (remove_char "-" (title_join "." (title_join ":" s)))) = false).
  { apply has_char_remove_other, H0. }
  repeat split; try exact H0; try exact H1.
  unfold rust_field_name. pose proof (snake_mark _ H0) as H2.
  destruct (in_set _ _); [|exact H2]. rewrite has_char_app, H2. destruct Hc as [_ [Hl Hu]].
  cbn [has_char orb]. unfold ascii_letter in Hl.
  repeat match goal with |- context [Ascii.eqb ?a c] =>
    let H := fresh in destruct (Ascii.eqb_spec a c) as [H|H];
    [exfalso; subst c; first [now apply Hu | apply Hl; cbn; lia] | clear H] end.
  reflexivity.
Qed.

End Marks.

(** * Decimal numbers *)

Lemma string_of_uint_digits : forall d, all_bytes is_digit (DecimalString.NilEmpty.string_of_uint d) = true.
Proof. induction d; cbn; auto. Qed.

Lemma itoa_digits : forall n, all_bytes is_digit (itoa n) = true.
Proof.
  intros n. unfold itoa, DecimalString.NilZero.string_of_uint.
  destruct (N.to_uint n); try reflexivity; apply string_of_uint_digits.
Qed.

Lemma itoa_nonempty : forall n, itoa n <> "".
Proof.
  intros n. unfold itoa, DecimalString.NilZero.string_of_uint. destruct (N.to_uint n); discriminate.
Qed.

Lemma itoa_inj : forall n m, itoa n = itoa m -> n = m.
Proof.
  intros n m H. unfold itoa in H.
  assert (Hu : forall k, N.to_uint k <> Decimal.Nil).
  { intros k Hk. pose proof (DecimalN.Unsigned.of_to k) as Hk0. rewrite Hk in Hk0. cbn in Hk0.
    subst k. discriminate. }
  assert (Hs : forall k, DecimalString.NilZero.uint_of_string (DecimalString.NilZero.string_of_uint (N.to_uint k)) = Some (N.to_uint k)).
  { intros k. rewrite DecimalString.NilZero.usu; [reflexivity | apply Hu]. }
  assert (He : Some (N.to_uint n) = Some (N.to_uint m)) by (now rewrite <- !Hs, H).
  injection He as He. apply (f_equal N.of_uint) in He. now rewrite !DecimalN.Unsigned.of_to in He.
Qed.

Lemma itoa_LF : forall n, has_char LF (itoa n) = false.
Proof. intros n. apply (all_bytes_free is_digit); [reflexivity | apply itoa_digits]. Qed.

(** * Texts as lists of lines *)

Definition Lines (s : string) (ls : list string) : Prop := split_on LF s = (ls ++ [""])%list.

Lemma split_on_app_gen : forall c a b x y, split_on c a = (x ++ [y])%list ->
  split_on c (a ++ b) = (x ++ match split_on c b with h :: t => (y ++ h)%string :: t | [] => [y] end)%list.
Proof.
  intros c a. induction a as [|k a IH]; intros b x y H.
  - cbn in H. destruct x as [|x0 x]; [|destruct x; discriminate].
    injection H as <-. cbn. pose proof (split_on_nonempty c b). destruct (split_on c b); [congruence|reflexivity].
  - cbn [append split_on] in *. destruct (Ascii.eqb k c).
    + destruct x as [|x0 x].
      * injection H as H1 H2. pose proof (split_on_nonempty c a). now rewrite H2 in *.
      * injection H as <- H. cbn. f_equal. now apply IH.
    + pose proof (split_on_nonempty c a) as Hne. destruct (split_on c a) as [|h t] eqn:Hs; [congruence|].
      destruct x as [|x0 x].
      * injection H as <- ->. specialize (IH b [] h eq_refl). cbn in IH. rewrite IH.
        cbn. pose proof (split_on_nonempty c b). destruct (split_on c b); [congruence|]. reflexivity.
      * injection H as <- ->. specialize (IH b (h :: x) y eq_refl). rewrite IH. reflexivity.
Qed.

Lemma Lines_nil : Lines "" [].
Proof. reflexivity. Qed.

Lemma Lines_app : forall a b la lb, Lines a la -> Lines b lb -> Lines (a ++ b) (la ++ lb)%list.
Proof.
  unfold Lines. intros a b la lb Ha Hb. rewrite (split_on_app_gen LF a b la "" Ha), Hb, <- app_assoc.
  f_equal. destruct lb; reflexivity.
Qed.

(** [LA pre s ls]: after the unfinished line [pre], the text [s] completes the
    lines [ls]. *)
Definition LA (pre s : string) (ls : list string) : Prop := Lines (pre ++ s) ls.

Lemma LA_start : forall s ls, LA "" s ls -> Lines s ls.
Proof. intros s ls H. exact H. Qed.

Lemma LA_push : forall pre a s ls, LA (pre ++ a) s ls -> LA pre (a ++ s) ls.
Proof. unfold LA. intros pre a s ls H. now rewrite <- app_assoc_s. Qed.

Lemma LA_nl : forall pre s l ls, has_char LF pre = false -> l = pre -> LA "" s ls -> LA pre (NL ++ s) (l :: ls).
Proof.
  unfold LA, Lines. intros pre s l ls Hp -> H. change (pre ++ NL ++ s) with (pre ++ String LF s).
  rewrite split_on_app_char by exact Hp. cbn in *. now rewrite H.
Qed.

Lemma LA_end : forall pre l, has_char LF pre = false -> l = pre -> LA pre NL [l].
Proof. intros pre l Hp Hl. exact (LA_nl pre "" l [] Hp Hl Lines_nil). Qed.

Lemma LA_block : forall a s la ls, Lines a la -> LA "" s ls -> LA "" (a ++ s) (la ++ ls)%list.
Proof. unfold LA. cbn. intros. now apply Lines_app. Qed.

Lemma Lines_map : forall A (f : A -> string) (g : A -> string) l,
  (forall x, In x l -> Lines (f x) [g x]) -> Lines (sconcat (map f l)) (map g l).
Proof.
  induction l as [|x l IH]; intros H; [reflexivity|]. cbn [map sconcat].
  change (g x :: map g l) with ([g x] ++ map g l)%list. apply Lines_app; [apply H; now left | apply IH].
  intros y Hy. apply H. now right.
Qed.

Lemma Lines_flat_map : forall A (f : A -> string) (g : A -> list string) l,
  (forall x, In x l -> Lines (f x) (g x)) -> Lines (sconcat (map f l)) (flat_map g l).
Proof.
  induction l as [|x l IH]; intros H; [reflexivity|]. cbn [map sconcat flat_map].
  apply Lines_app; [apply H; now left | apply IH]. intros y Hy. apply H. now right.
Qed.

Lemma Lines_comment : forall name doc, has_char LF name = false ->
  Lines (gen_field_comment name doc "//") (CR :: comment name doc).
Proof.
  intros name doc Hn. unfold Lines. rewrite comment_lines.
  - reflexivity.
  - now apply free_of_has_char.
  - now apply free_of_has_char.
Qed.

(** * Reading lines *)

Definition Reads (ls : list string) (its : list item) : Prop :=
  forall r, fst r = [] -> fold_right read_line r ls = ([], (its ++ snd r)%list).

Lemma Reads_nil : Reads [] [].
Proof. intros [f s] H. cbn in *. now subst. Qed.

Lemma Reads_app : forall a b ia ib, Reads a ia -> Reads b ib -> Reads (a ++ b) (ia ++ ib).
Proof.
  intros a b ia ib Ha Hb r Hr. rewrite fold_right_app, (Hb r Hr), Ha by reflexivity. cbn. now rewrite app_assoc.
Qed.

Lemma read_comment : forall cs r it its, (forall l, In l cs -> exists t, l = "//" ++ t) ->
  snd r = mkItem [] (head it) (rows it) :: its ->
  fold_right read_line r cs = (fst r, mkItem cs (head it) (rows it) :: its).
Proof.
  induction cs as [|l cs IH]; intros [f s] it its H Hs; cbn in Hs; subst; [reflexivity|].
  cbn [fold_right]. rewrite (IH (f, _) it its); [|intros x Hx; apply H; now right | reflexivity].
  destruct (H l (or_introl eq_refl)) as [t ->]. reflexivity.
Qed.

Lemma comment_marked : forall name doc l, In l (comment name doc) -> exists t, l = "//" ++ t.
Proof. intros name doc l H. apply in_map_iff in H as [x [<- _]]. now eexists. Qed.

Lemma read_rows : forall ms r, fold_right read_line r (map (fun m => TAB ++ m) ms) = ((ms ++ fst r)%list, snd r).
Proof. induction ms as [|m ms IH]; intros [f s]; [reflexivity|]. cbn [map fold_right]. now rewrite IH. Qed.

(** A line that starts in the first column. *)
Definition heading (l : string) : Prop := forall r, read_line l r = ([], mkItem [] l (fst r) :: snd r).

(** Comment, declaration line, members. *)
Lemma Reads_item : forall cs l ms, heading l -> (forall x, In x cs -> exists t, x = "//" ++ t) ->
  Reads (cs ++ l :: map (fun m => TAB ++ m) ms) [mkItem cs l ms].
Proof.
  intros cs l ms Hl Hcs [f s] Hr. cbn in Hr. subst. rewrite fold_right_app. cbn [fold_right].
  rewrite read_rows, Hl. cbn [fst snd]. rewrite app_nil_r.
  rewrite (read_comment cs _ (mkItem [] l ms) s Hcs) by reflexivity. reflexivity.
Qed.

Lemma Reads_skip : forall l ls its, l = "" \/ l = CR -> Reads ls its -> Reads (l :: ls) its.
Proof. intros l ls its [->| ->] H r Hr; cbn [fold_right]; rewrite (H r Hr); reflexivity. Qed.

(** Texts with their outline. *)
Definition Text (s : string) (its : list item) : Prop := exists ls, Lines s ls /\ Reads ls its.

Lemma Text_nil : Text "" [].
Proof. exists []. split; [reflexivity | apply Reads_nil]. Qed.

Lemma Text_app : forall a b ia ib, Text a ia -> Text b ib -> Text (a ++ b) (ia ++ ib).
Proof.
  intros a b ia ib [la [Ha Ra]] [lb [Hb Rb]]. exists (la ++ lb)%list.
  split; [now apply Lines_app | now apply Reads_app].
Qed.

Lemma Text_outline : forall s its, Text s its -> outline s = Some its.
Proof.
  intros s its [ls [Hl Hr]]. unfold outline, read_text. rewrite Hl, fold_right_app. cbn [fold_right read_line].
  rewrite Hr by reflexivity. cbn. now rewrite app_nil_r.
Qed.
