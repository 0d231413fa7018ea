(** Basic facts about the string functions of GoStr.v. *)

From Coq Require Import String Ascii List NArith ZArith Bool Lia ZifyBool ZifyN ZifyNat.
From Verif Require Import GoStr.
Import ListNotations.
Local Open Scope string_scope.
Ltac Zify.zify_post_hook ::= Z.div_mod_to_equations.

Lemma app_nil_r_s : forall s, s ++ "" = s.
Proof. induction s as [|a s IH]; cbn; [reflexivity | now rewrite IH]. Qed.

Lemma app_assoc_s : forall a b c, (a ++ b) ++ c = a ++ (b ++ c).
Proof. induction a as [|x a IH]; intros b c; cbn; [reflexivity | now rewrite IH]. Qed.

Lemma length_app_s : forall a b, String.length (a ++ b) = String.length a + String.length b.
Proof. induction a as [|x a IH]; intros b; cbn; [reflexivity | now rewrite IH]. Qed.

Lemma app_inj_l : forall a b c, a ++ b = a ++ c -> b = c.
Proof. induction a as [|x a IH]; intros b c H; cbn in H; [exact H | injection H as H; now apply IH]. Qed.

Lemma app_inj_r : forall a b c, a ++ c = b ++ c -> a = b.
Proof.
  induction a as [|x a IH]; intros [|y b] c H; cbn in H.
  - reflexivity.
  - exfalso. apply (f_equal String.length) in H. cbn in H. rewrite length_app_s in H. lia.
  - exfalso. apply (f_equal String.length) in H. cbn in H. rewrite length_app_s in H. lia.
  - injection H as H1 H2. subst y. f_equal. eapply IH. exact H2.
Qed.

Lemma app_eq_nil_s : forall a b, a ++ b = "" -> a = "" /\ b = "".
Proof. intros [|x a] b H; cbn in H; [now split | discriminate]. Qed.

Lemma app_self_nil : forall a b, a ++ b = a -> b = "".
Proof.
  intros a b H. apply (f_equal String.length) in H. rewrite length_app_s in H.
  destruct b; [reflexivity | cbn in H; lia].
Qed.

Lemma sconcat_app : forall l m, sconcat (l ++ m) = sconcat l ++ sconcat m.
Proof. induction l as [|s l IH]; intros m; cbn; [reflexivity | now rewrite IH, app_assoc_s]. Qed.

(** ** Prefixes and suffixes *)

Lemma strip_prefix_spec : forall p s r, strip_prefix p s = Some r <-> s = p ++ r.
Proof.
  induction p as [|a p IH]; intros s r; cbn.
  - split; intros H; [now injection H | now rewrite H].
  - destruct s as [|b s]; [split; discriminate|].
    destruct (Ascii.eqb_spec a b) as [->|Hne].
    + rewrite IH. split; intros H; [now rewrite H | now injection H].
    + split; [discriminate | intros H; injection H as H1 _; congruence].
Qed.

Lemma has_prefix_spec : forall s p, has_prefix s p = true <-> exists r, s = p ++ r.
Proof.
  intros s p. unfold has_prefix. destruct (strip_prefix p s) as [r|] eqn:H.
  - apply strip_prefix_spec in H. split; [intros _; now exists r | reflexivity].
  - split; [discriminate|]. intros [r Hr]. apply strip_prefix_spec in Hr. congruence.
Qed.

Lemma trim_prefix_app : forall p r, trim_prefix (p ++ r) p = r.
Proof.
  intros p r. unfold trim_prefix. destruct (strip_prefix p (p ++ r)) as [r'|] eqn:H.
  - apply strip_prefix_spec in H. now apply app_inj_l in H.
  - assert (Hs : strip_prefix p (p ++ r) = Some r) by now apply strip_prefix_spec. congruence.
Qed.

Lemma trim_prefix_none : forall p s, has_prefix s p = false -> trim_prefix s p = s.
Proof. intros p s. unfold has_prefix, trim_prefix. now destruct (strip_prefix p s). Qed.

Lemma has_suffix_spec : forall s suf, has_suffix s suf = true <-> exists p, s = p ++ suf.
Proof.
  induction s as [|a s IH]; intros suf; cbn [has_suffix].
  - rewrite orb_false_r, String.eqb_eq. split.
    + intros <-. now exists "".
    + intros [p H]. symmetry in H. apply app_eq_nil_s in H. now destruct H as [_ ->].
  - rewrite orb_true_iff, String.eqb_eq, IH. split.
    + intros [<-|[p ->]]; [now exists "" | now exists (String a p)].
    + intros [[|b p] H]; cbn in H; [now left | right].
      injection H as _ H. now exists p.
Qed.

Lemma trim_suffix_app : forall p suf, trim_suffix (p ++ suf) suf = p.
Proof.
  assert (Hlong : forall p suf, p <> "" -> String.eqb (p ++ suf) suf = false).
  { intros p suf Hp. apply String.eqb_neq. intros H.
    apply (f_equal String.length) in H. rewrite length_app_s in H.
    destruct p; [congruence | cbn in H; lia]. }
  induction p as [|a p IH]; intros suf.
  - cbn. destruct suf as [|b suf]; [reflexivity|]. cbn [trim_suffix]. now rewrite String.eqb_refl.
  - change (String a p ++ suf) with (String a (p ++ suf)). cbn [trim_suffix].
    pose proof (Hlong (String a p) suf ltac:(discriminate)) as H. cbn [append] in H. rewrite H.
    now rewrite IH.
Qed.

(** ** Characters *)

Lemma has_char_app : forall c a b, has_char c (a ++ b) = has_char c a || has_char c b.
Proof. induction a as [|x a IH]; intros b; cbn; [reflexivity | now rewrite IH, orb_assoc]. Qed.

Lemma has_char_remove : forall c s, has_char c (remove_char c s) = false.
Proof.
  induction s as [|a s IH]; cbn; [reflexivity|].
  destruct (Ascii.eqb a c) eqn:H; [exact IH | cbn; now rewrite H, IH].
Qed.

Lemma remove_char_id : forall c s, has_char c s = false -> remove_char c s = s.
Proof.
  induction s as [|a s IH]; cbn; [reflexivity|]. intros H.
  apply orb_false_iff in H as [H1 H2]. rewrite H1. now rewrite IH.
Qed.

Lemma remove_char_app : forall c a b, remove_char c (a ++ b) = remove_char c a ++ remove_char c b.
Proof.
  induction a as [|x a IH]; intros b; cbn; [reflexivity|].
  destruct (Ascii.eqb x c); cbn; now rewrite IH.
Qed.

Lemma remove_char_comm : forall c d s, remove_char c (remove_char d s) = remove_char d (remove_char c s).
Proof.
  induction s as [|a s IH]; cbn; [reflexivity|].
  destruct (Ascii.eqb a d) eqn:Hd; destruct (Ascii.eqb a c) eqn:Hc; cbn; rewrite ?Hd, ?Hc, IH; reflexivity.
Qed.

Lemma has_char_remove_other : forall c d s, has_char c s = false -> has_char c (remove_char d s) = false.
Proof.
  induction s as [|a s IH]; cbn; [reflexivity|]. intros H.
  apply orb_false_iff in H as [H1 H2].
  destruct (Ascii.eqb a d); cbn; rewrite ?H1; auto.
Qed.

Lemma has_char_replace : forall c d s, c <> d -> has_char c (replace_char c d s) = false.
Proof.
  intros c d s Hne. induction s as [|a s IH]; cbn; [reflexivity|]. rewrite IH, orb_false_r.
  destruct (Ascii.eqb_spec a c) as [->|Ha]; apply Ascii.eqb_neq; congruence.
Qed.

Lemma replace_char_id : forall c d s, has_char c s = false -> replace_char c d s = s.
Proof.
  induction s as [|a s IH]; cbn; [reflexivity|]. intros H.
  apply orb_false_iff in H as [H1 H2]. rewrite H1. now rewrite IH.
Qed.

(** ** Split *)

Lemma split_on_nonempty : forall c s, split_on c s <> [].
Proof.
  induction s as [|a s IH]; cbn; [discriminate|].
  destruct (Ascii.eqb a c); [discriminate|]. destruct (split_on c s); discriminate.
Qed.

Lemma split_on_join : forall c s, sjoin (String c "") (split_on c s) = s.
Proof.
  induction s as [|a s IH]; cbn [split_on]; [reflexivity|].
  pose proof (split_on_nonempty c s) as Hne.
  destruct (Ascii.eqb_spec a c) as [->|Ha].
  - destruct (split_on c s) as [|h t]; [congruence|].
    change (sjoin (String c "") ("" :: h :: t)) with (String c (sjoin (String c "") (h :: t))).
    now rewrite IH.
  - destruct (split_on c s) as [|h t]; [congruence|].
    destruct t as [|h2 t]; cbn in IH |- *; now rewrite IH.
Qed.

Lemma split_on_clean : forall c s x, In x (split_on c s) -> has_char c x = false.
Proof.
  induction s as [|a s IH]; cbn [split_on]; intros x Hx.
  - destruct Hx as [<-|[]]. reflexivity.
  - destruct (Ascii.eqb a c) eqn:Ha.
    + destruct Hx as [<-|Hx]; [reflexivity | now apply IH].
    + destruct (split_on c s) as [|h t].
      * destruct Hx as [<-|[]]. cbn. now rewrite Ha.
      * destruct Hx as [<-|Hx]; [|apply IH; now right].
        cbn. rewrite Ha. cbn. apply IH. now left.
Qed.

Lemma split_on_no_char : forall c s, has_char c s = false -> split_on c s = [s].
Proof.
  induction s as [|a s IH]; cbn; [reflexivity|]. intros H.
  apply orb_false_iff in H as [H1 H2]. now rewrite H1, (IH H2).
Qed.

Lemma split_on_app_char : forall c a b, has_char c a = false ->
  split_on c (a ++ String c b) = a :: split_on c b.
Proof.
  induction a as [|x a IH]; intros b H; cbn.
  - now rewrite Ascii.eqb_refl.
  - cbn in H. apply orb_false_iff in H as [H1 H2]. rewrite H1. now rewrite (IH b H2).
Qed.

(** ** Bytes and numbers *)

Lemma N_of_ascii_lt : forall a, (N_of_ascii a < 256)%N.
Proof. intros a. apply N_ascii_bounded. Qed.

Lemma byte_N : forall n, (n < 256)%N -> N_of_ascii (byte n) = n.
Proof. intros n H. unfold byte. now apply N_ascii_embedding. Qed.

Lemma byte_of_N_of : forall a, byte (N_of_ascii a) = a.
Proof. intros a. unfold byte. apply ascii_N_embedding. Qed.
