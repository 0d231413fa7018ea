(** Names rune by rune: words, and agreement of declared and referenced names. *)

From Coq Require Import String Ascii List NArith Bool Lia ZifyBool ZifyN.
From Verif Require Import GoStr Utf8 Base Utils StrLemmas SpecStr SpecGen StrProofs GenLemmas.
Import ListNotations.
Local Open Scope string_scope.

Local Infix "+++" := app (at level 60, right associativity).

(** * Strings of runes *)

Definition enc (rs : list N) : string := sconcat (map encode_rune rs).

Fixpoint cut (c : N) (rs : list N) : list (list N) :=
  match rs with
  | [] => [[]]
  | r :: t => if (r =? c)%N then [] :: cut c t
              else match cut c t with h :: l => (r :: h) :: l | [] => [[r]] end
  end.

Lemma cut_nonempty : forall c rs, cut c rs <> [].
Proof.
  intros c [|r t]; cbn [cut]; [discriminate|]. destruct (r =? c)%N; [discriminate|]. destruct (cut c t); discriminate.
Qed.

Lemma enc_app : forall a b, enc (a +++ b) = enc a ++ enc b.
Proof. intros a b. unfold enc. now rewrite map_app, sconcat_app. Qed.

Lemma enc_concat : forall l, enc (concat l) = sconcat (map enc l).
Proof. induction l as [|a l IH]; [reflexivity|]. cbn [concat map sconcat]. now rewrite enc_app, IH. Qed.

Lemma split_on_prepend : forall c a s, has_char c a = false ->
  split_on c (a ++ s) = match split_on c s with h :: t => (a ++ h) :: t | [] => [a] end.
Proof.
  intros c a s. induction a as [|x a IH]; intros H.
  - cbn [append]. pose proof (split_on_nonempty c s). destruct (split_on c s); [congruence | reflexivity].
  - cbn [has_char] in H. apply orb_false_iff in H as [Hx Ha]. cbn [append split_on].
    rewrite Hx, (IH Ha). pose proof (split_on_nonempty c s). destruct (split_on c s); [congruence | reflexivity].
Qed.

Lemma split_enc : forall c rs, (N_of_ascii c < 128)%N -> split_on c (enc rs) = map enc (cut (N_of_ascii c) rs).
Proof.
  intros c rs Hc. induction rs as [|r rs IH]; [reflexivity|].
  change (enc (r :: rs)) with (encode_rune r ++ enc rs). cbn [cut].
  destruct (N.eqb_spec r (N_of_ascii c)) as [->|Hne].
  - rewrite encode_ascii by exact Hc. rewrite byte_of_N_of. cbn [append split_on]. rewrite Ascii.eqb_refl.
    cbn [map]. now rewrite IH.
  - rewrite split_on_prepend by (rewrite encode_has_char by exact Hc; now apply N.eqb_neq).
    rewrite IH. pose proof (cut_nonempty (N_of_ascii c) rs). destruct (cut (N_of_ascii c) rs); [congruence|].
    reflexivity.
Qed.

Lemma remove_enc : forall c rs, (N_of_ascii c < 128)%N ->
  remove_char c (enc rs) = enc (filter (fun r => negb (r =? N_of_ascii c)%N) rs).
Proof.
  intros c rs Hc. induction rs as [|r rs IH]; [reflexivity|].
  change (enc (r :: rs)) with (encode_rune r ++ enc rs). rewrite remove_char_app, IH. cbn [filter].
  destruct (N.eqb_spec r (N_of_ascii c)) as [->|Hne]; cbn [negb].
  - rewrite encode_ascii by exact Hc. rewrite byte_of_N_of. cbn [remove_char]. now rewrite Ascii.eqb_refl.
  - rewrite remove_char_id by (rewrite encode_has_char by exact Hc; now apply N.eqb_neq). reflexivity.
Qed.

Lemma dot_small : (N_of_ascii "." < 128)%N.
Proof. reflexivity. Qed.
Lemma colon_small : (N_of_ascii ":" < 128)%N.
Proof. reflexivity. Qed.
Lemma minus_small : (N_of_ascii "-" < 128)%N.
Proof. reflexivity. Qed.
Lemma dot_sign : ~ ascii_letter (N_of_ascii ".").
Proof. unfold ascii_letter. change (N_of_ascii ".") with 46%N. lia. Qed.
Lemma minus_sign : ~ ascii_letter (N_of_ascii "-").
Proof. unfold ascii_letter. change (N_of_ascii "-") with 45%N. lia. Qed.

Section Runes.
Context {E : Env}.
Hypothesis idem : upper_idempotent E.
Hypothesis tables : case_tables_ok.

Definition ur (r : N) : N := norm_rune (rune_upper r).

Definition up (rs : list N) : list N := match rs with [] => [] | r :: t => ur r :: t end.

Lemma ur_scalar : forall r, scalar (ur r).
Proof. intros r. apply norm_rune_scalar. Qed.

Lemma ur_idem : forall r, ur (ur r) = ur r.
Proof.
  intros r. unfold ur. destruct (128 <=? r)%N eqn:Hr.
  - assert (Hu : rune_upper r = env_upper r) by (unfold rune_upper; now rewrite Hr).
    rewrite Hu, idem by lia. apply norm_rune_id, norm_rune_scalar.
  - pose proof (rune_upper_ascii_lt r ltac:(lia)) as Hlt.
    rewrite (norm_rune_id (rune_upper r)) by (unfold scalar; lia).
    rewrite rune_upper_ascii_idem by lia. apply norm_rune_id. unfold scalar. lia.
Qed.

(** Separators are neither made nor lost. *)
Lemma ur_mark : forall c r, (N_of_ascii c < 128)%N -> ~ ascii_letter (N_of_ascii c) ->
  (ur r =? N_of_ascii c)%N = (r =? N_of_ascii c)%N.
Proof.
  intros c r Hc Hl. unfold ur. destruct (128 <=? r)%N eqn:Hr.
  - unfold rune_upper. rewrite Hr. assert (Hge : (128 <= r)%N) by lia. destruct (tables r Hge) as [[H|H] _].
    + pose proof (norm_rune_ge (env_upper r) H). lia.
    + unfold ascii_letter in H, Hl. rewrite norm_rune_id by (unfold scalar; lia). lia.
  - rewrite rune_upper_eq. unfold to_upper_rune, ascii_letter in *.
    assert ((r <? 128)%N = true) as -> by lia. 
    destruct ((97 <=? r)%N && (r <=? 122)%N) eqn:H; rewrite norm_rune_id by (unfold scalar; lia); lia.
Qed.

Lemma up_idem : forall rs, up (up rs) = up rs.
Proof. intros [|r t]; [reflexivity|]. cbn [up]. now rewrite ur_idem. Qed.

Lemma up_scalar : forall rs, Forall scalar rs -> Forall scalar (up rs).
Proof. intros rs [|r t Hr Ht]; cbn [up]; constructor; [apply ur_scalar | exact Ht]. Qed.

Lemma title_enc : forall rs, Forall scalar rs -> to_title (enc rs) = enc (up rs).
Proof.
  intros rs H. rewrite to_title_runes. unfold enc at 1. rewrite runes_encode by exact H.
  destruct rs as [|r t]; [reflexivity|]. unfold enc. cbn [up map sconcat]. unfold ur. now rewrite encode_norm.
Qed.

Lemma cut_scalar : forall c rs x, Forall scalar rs -> In x (cut c rs) -> Forall scalar x.
Proof.
  intros c rs. induction rs as [|r t IH]; intros x H Hx; cbn [cut] in Hx.
  - destruct Hx as [<-|[]]. constructor.
  - inversion H as [|? ? Hr Ht]; subst. destruct (r =? c)%N.
    + destruct Hx as [<-|Hx]; [constructor | eauto].
    + pose proof (cut_nonempty c t). destruct (cut c t) as [|h l]; [congruence|].
      destruct Hx as [<-|Hx]; [constructor; [exact Hr | apply IH; [exact Ht | now left]] | apply IH; [exact Ht | now right]].
Qed.

(** Words capitalised and joined. *)
Definition cap (c : N) (rs : list N) : list N := concat (map up (cut c rs)).

Lemma concat_scalar : forall l, (forall x, In x l -> Forall scalar x) -> Forall scalar (concat l).
Proof.
  induction l as [|a l IH]; intros H; cbn [concat]; [constructor|].
  apply Forall_app. split; [apply H; now left | apply IH; intros x Hx; apply H; now right].
Qed.

Lemma cap_scalar : forall c rs, Forall scalar rs -> Forall scalar (cap c rs).
Proof.
  intros c rs H. apply concat_scalar. intros x Hx. apply in_map_iff in Hx as [y [<- Hy]].
  apply up_scalar. eauto using cut_scalar.
Qed.

Lemma title_join_enc : forall c rs, (N_of_ascii c < 128)%N -> Forall scalar rs ->
  title_join c (enc rs) = enc (cap (N_of_ascii c) rs).
Proof.
  intros c rs Hc H. unfold title_join, cap. rewrite split_enc by exact Hc. rewrite enc_concat, !map_map. f_equal.
  apply map_ext_in. intros x Hx. apply title_enc. eauto using cut_scalar.
Qed.

(** ** Cutting at two separators at once *)

Definition sep_ok (c : N) : Prop := forall r, (ur r =? c)%N = (r =? c)%N.

(** Like [cap], but the first word as it is. *)
Definition cap' (c : N) (rs : list N) : list N :=
  match cut c rs with h :: t => h +++ concat (map up t) | [] => [] end.

Lemma cap_cons_sep : forall c t, cap c (c :: t) = cap c t.
Proof. intros c t. unfold cap. cbn [cut]. now rewrite N.eqb_refl. Qed.

Lemma cap_cons : forall c r t, r <> c -> cap c (r :: t) = ur r :: cap' c t.
Proof.
  intros c r t H. unfold cap, cap'. cbn [cut]. apply N.eqb_neq in H. rewrite H.
  pose proof (cut_nonempty c t). destruct (cut c t); [congruence|]. reflexivity.
Qed.

Lemma cap'_cons_sep : forall c t, cap' c (c :: t) = cap c t.
Proof. intros c t. unfold cap, cap'. cbn [cut]. now rewrite N.eqb_refl. Qed.

Lemma cap'_cons : forall c r t, r <> c -> cap' c (r :: t) = r :: cap' c t.
Proof.
  intros c r t H. unfold cap'. cbn [cut]. apply N.eqb_neq in H. rewrite H.
  pose proof (cut_nonempty c t). destruct (cut c t); [congruence|]. reflexivity.
Qed.

Lemma cap_app : forall c q, cap' c q = cap c q ->
  forall a, cap' c (a +++ q) = cap' c a +++ cap' c q /\ cap c (a +++ q) = cap c a +++ cap c q.
Proof.
  intros c q Hq. induction a as [|r a [IH1 IH2]]; [split; reflexivity|]. cbn [app].
  destruct (N.eq_dec r c) as [->|Hne].
  - rewrite !cap'_cons_sep, !cap_cons_sep, IH2, Hq. split; reflexivity.
  - rewrite !cap'_cons, !cap_cons, IH1 by exact Hne. split; [reflexivity|]. cbn [app]. now rewrite Hq.
Qed.

Lemma cap_up : forall c rs, sep_ok c -> cap c (up rs) = cap c rs.
Proof.
  intros c [|r t] Hc; [reflexivity|]. cbn [up]. destruct (N.eq_dec r c) as [->|Hne].
  - assert (ur c = c) as -> by (apply N.eqb_eq; rewrite Hc; apply N.eqb_refl). reflexivity.
  - rewrite !cap_cons; [now rewrite ur_idem | exact Hne|].
    apply N.eqb_neq. rewrite Hc. now apply N.eqb_neq.
Qed.

Lemma stable_words : forall c l, sep_ok c -> cap' c (concat (map up l)) = cap c (concat (map up l)).
Proof.
  intros c l Hc. induction l as [|x l IH]; [reflexivity|]. cbn [map concat].
  destruct x as [|r t]; cbn [up app]; [exact IH|].
  destruct (N.eq_dec (ur r) c) as [->|Hne].
  - now rewrite cap'_cons_sep, cap_cons_sep.
  - rewrite cap'_cons, cap_cons by exact Hne. now rewrite ur_idem.
Qed.

Lemma cap_cap : forall c d rs, sep_ok c ->
  cap c (cap d rs) = concat (map up (flat_map (cut c) (cut d rs))).
Proof.
  intros c d rs Hc. unfold cap at 2. generalize (cut d rs). induction l as [|x l IH]; [reflexivity|].
  cbn [map concat flat_map].
  rewrite (proj2 (cap_app c _ (stable_words c l Hc) (up x))), cap_up, IH by exact Hc.
  unfold cap. now rewrite map_app, concat_app.
Qed.

Lemma sep_ok_char : forall c, (N_of_ascii c < 128)%N -> ~ ascii_letter (N_of_ascii c) -> sep_ok (N_of_ascii c).
Proof. intros c Hc Hl r. now apply ur_mark. Qed.

Lemma words_of : forall s, well_formed s ->
  title_join "." (title_join ":" s) = sconcat (map to_title (flat_map (split_on ".") (split_on ":" s))).
Proof.
  intros s [rs [Hrs ->]]. fold (enc rs).
  rewrite !title_join_enc by auto using cap_scalar, dot_small, colon_small.
  rewrite cap_cap by exact (sep_ok_char "." dot_small dot_sign).
  rewrite split_enc by exact colon_small.
  rewrite enc_concat, map_map. f_equal.
  assert (Hflat : flat_map (split_on ".") (map enc (cut (N_of_ascii ":") rs)) =
                  map enc (flat_map (cut (N_of_ascii ".")) (cut (N_of_ascii ":") rs))).
  { generalize (cut (N_of_ascii ":") rs). induction l as [|x l IH]; [reflexivity|].
    cbn [map flat_map]. rewrite map_app, <- IH, split_enc by exact dot_small. reflexivity. }
  rewrite Hflat, map_map. apply map_ext_in. intros x Hx. symmetry. apply title_enc.
  apply in_flat_map in Hx as [y [Hy Hx]]. eauto using cut_scalar.
Qed.

(** ** Declared and referenced names *)

Lemma declared_referenced : forall s, well_formed s -> free_of ":" s ->
  ~ starts_with s "-" -> ~ starts_with s "." ->
  to_title (remove_char "-" (title_join "." s)) = remove_char "-" (title_join "." (title_join ":" s)).
Proof.
  intros s [rs [Hrs ->]] Hcol Hm Hd. fold (enc rs) in *.
  apply free_of_has_char in Hcol.
  assert (Hsep : sep_ok (N_of_ascii ".")).
  { exact (sep_ok_char "." dot_small dot_sign). }
  assert (Hj : title_join ":" (enc rs) = enc (up rs)).
  { unfold title_join. rewrite split_on_no_char by exact Hcol. cbn [map sconcat].
    rewrite app_nil_r_s. now apply title_enc. }
  rewrite Hj, !title_join_enc by auto using up_scalar, dot_small.
  rewrite cap_up by exact Hsep.
  rewrite remove_enc by exact minus_small.
  assert (Hf : Forall scalar (filter (fun r => negb (r =? N_of_ascii "-")%N) (cap (N_of_ascii ".") rs))).
  { apply Forall_forall. intros x Hx. apply filter_In in Hx as [Hx _].
    revert x Hx. now apply Forall_forall, cap_scalar. }
  rewrite title_enc by exact Hf. f_equal. clear Hf Hj.
  destruct rs as [|r t]; [reflexivity|].
  assert (Hr1 : r <> N_of_ascii ".").
  { intros ->. apply Hd. exists (enc t). change (enc (N_of_ascii "." :: t)) with (encode_rune (N_of_ascii ".") ++ enc t).
    now rewrite encode_ascii by reflexivity. }
  assert (Hr2 : r <> N_of_ascii "-").
  { intros ->. apply Hm. exists (enc t). change (enc (N_of_ascii "-" :: t)) with (encode_rune (N_of_ascii "-") ++ enc t).
    now rewrite encode_ascii by reflexivity. }
  rewrite cap_cons by exact Hr1. cbn [filter].
  rewrite (ur_mark "-") by auto using minus_small, minus_sign.
  apply N.eqb_neq in Hr2. rewrite Hr2. cbn [negb up]. now rewrite ur_idem.
Qed.

End Runes.
