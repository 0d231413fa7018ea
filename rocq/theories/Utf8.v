(** UTF-8 facts: decoding inverts encoding, and what the bytes of an encoding
    look like. *)

From Coq Require Import String Ascii List NArith ZArith Bool Lia ZifyBool ZifyN ZifyNat.
From Verif Require Import GoStr StrLemmas.
Import ListNotations.
Local Open Scope string_scope.
Ltac Zify.zify_post_hook ::= Z.div_mod_to_equations.
Local Open Scope N_scope.

(** The rune that actually gets written for [r]. *)
Definition norm_rune (r : N) : N :=
  if ((55296 <=? r) && (r <=? 57343)) || (1114111 <? r) then rune_error else r.

Definition scalar (r : N) : Prop := r < 55296 \/ (57343 < r /\ r <= 1114111).

Lemma norm_rune_scalar : forall r, scalar (norm_rune r).
Proof.
  intros r. unfold norm_rune, scalar, rune_error.
  destruct (((55296 <=? r) && (r <=? 57343)) || (1114111 <? r)) eqn:H; lia.
Qed.

Lemma norm_rune_id : forall r, scalar r -> norm_rune r = r.
Proof.
  intros r H. unfold norm_rune, scalar in *.
  destruct (((55296 <=? r) && (r <=? 57343)) || (1114111 <? r)) eqn:E; lia.
Qed.

Ltac kill_if :=
  repeat match goal with
  | |- context [if ?b then _ else _] =>
      let H := fresh "Hb" in
      first [ assert (H : b = true) by (unfold utf8_lo2, utf8_hi2, is_cont in *; lia); rewrite H; clear H
            | assert (H : b = false) by (unfold utf8_lo2, utf8_hi2, is_cont in *; lia); rewrite H; clear H ]
  end.

Lemma segs_1 : forall c0 s, N_of_ascii c0 < 128 ->
  segs (String c0 s) = (N_of_ascii c0, String c0 "") :: segs s.
Proof. intros c0 s H. cbn [segs]. kill_if. reflexivity. Qed.

Lemma segs_2 : forall c0 c1 s,
  194 <= N_of_ascii c0 < 224 -> 128 <= N_of_ascii c1 <= 191 ->
  segs (String c0 (String c1 s)) =
  ((N_of_ascii c0 - 192) * 64 + (N_of_ascii c1 - 128), String c0 (String c1 "")) :: segs s.
Proof.
  intros c0 c1 s H0 H1. cbn [segs].
  assert (Hlo : utf8_lo2 (N_of_ascii c0) = 128) by (unfold utf8_lo2; kill_if; reflexivity).
  assert (Hhi : utf8_hi2 (N_of_ascii c0) = 191) by (unfold utf8_hi2; kill_if; reflexivity).
  rewrite Hlo, Hhi. kill_if. reflexivity.
Qed.

Lemma segs_3 : forall c0 c1 c2 s,
  224 <= N_of_ascii c0 < 240 ->
  utf8_lo2 (N_of_ascii c0) <= N_of_ascii c1 <= utf8_hi2 (N_of_ascii c0) ->
  128 <= N_of_ascii c2 <= 191 ->
  segs (String c0 (String c1 (String c2 s))) =
  (((N_of_ascii c0 - 224) * 64 + (N_of_ascii c1 - 128)) * 64 + (N_of_ascii c2 - 128),
   String c0 (String c1 (String c2 ""))) :: segs s.
Proof.
  intros c0 c1 c2 s H0 H1 H2. cbn [segs].
  set (lo := utf8_lo2 (N_of_ascii c0)) in *. set (hi := utf8_hi2 (N_of_ascii c0)) in *.
  clearbody lo hi. unfold is_cont. kill_if. reflexivity.
Qed.

Lemma segs_4 : forall c0 c1 c2 c3 s,
  240 <= N_of_ascii c0 <= 244 ->
  utf8_lo2 (N_of_ascii c0) <= N_of_ascii c1 <= utf8_hi2 (N_of_ascii c0) ->
  128 <= N_of_ascii c2 <= 191 -> 128 <= N_of_ascii c3 <= 191 ->
  segs (String c0 (String c1 (String c2 (String c3 s)))) =
  ((((N_of_ascii c0 - 240) * 64 + (N_of_ascii c1 - 128)) * 64 + (N_of_ascii c2 - 128)) * 64 + (N_of_ascii c3 - 128),
   String c0 (String c1 (String c2 (String c3 "")))) :: segs s.
Proof.
  intros c0 c1 c2 c3 s H0 H1 H2 H3. cbn [segs].
  set (lo := utf8_lo2 (N_of_ascii c0)) in *. set (hi := utf8_hi2 (N_of_ascii c0)) in *.
  clearbody lo hi. unfold is_cont. kill_if. reflexivity.
Qed.

Lemma segs_encode : forall r s,
  segs (encode_rune r ++ s) = (norm_rune r, encode_rune r) :: segs s.
Proof.
  intros r s. unfold encode_rune.
  destruct (r <? 128) eqn:H1.
  { assert (norm_rune r = r) as -> by (apply norm_rune_id; unfold scalar; lia).
    cbn [append]. rewrite segs_1; rewrite byte_N by lia; [reflexivity | lia]. }
  destruct (r <? 2048) eqn:H2.
  { assert (norm_rune r = r) as -> by (apply norm_rune_id; unfold scalar; lia).
    cbn [append]. rewrite segs_2; rewrite ?byte_N by lia; try lia.
    f_equal. f_equal. lia. }
  unfold norm_rune.
  destruct (((55296 <=? r) && (r <=? 57343)) || (1114111 <? r)) eqn:Hs.
  { cbn [append]. rewrite segs_3; rewrite ?byte_N by lia; unfold utf8_lo2, utf8_hi2; cbn; try lia. reflexivity. }
  destruct (r <? 65536) eqn:H3.
  { cbn [append]. rewrite segs_3; rewrite ?byte_N by lia; try lia.
    - f_equal. f_equal. lia.
    - unfold utf8_lo2, utf8_hi2.
      destruct (224 + r / 4096 =? 224) eqn:E1; destruct (224 + r / 4096 =? 240) eqn:E2;
      destruct (224 + r / 4096 =? 237) eqn:E3; destruct (224 + r / 4096 =? 244) eqn:E4; lia. }
  cbn [append]. rewrite segs_4; rewrite ?byte_N by lia; try lia.
  - f_equal. f_equal. lia.
  - unfold utf8_lo2, utf8_hi2.
    destruct (240 + r / 262144 =? 224) eqn:E1; destruct (240 + r / 262144 =? 240) eqn:E2;
    destruct (240 + r / 262144 =? 237) eqn:E3; destruct (240 + r / 262144 =? 244) eqn:E4; lia.
Qed.

Lemma segs_encode_all : forall rs,
  segs (sconcat (map encode_rune rs)) = map (fun r => (norm_rune r, encode_rune r)) rs.
Proof.
  induction rs as [|r rs IH]; [reflexivity|].
  cbn [map sconcat]. now rewrite segs_encode, IH.
Qed.

(** Every decoded rune is a scalar value, and the consumed bytes rebuild the
    string. *)
Lemma segs_ind : forall (P : string -> list (N * string) -> Prop),
  P "" [] ->
  (forall c s, P s (segs s) -> N_of_ascii c < 128 ->
     P (String c s) ((N_of_ascii c, String c "") :: segs s)) ->
  (forall c s, P s (segs s) -> 128 <= N_of_ascii c ->
     P (String c s) ((rune_error, String c "") :: segs s)) ->
  (forall r b s, P s (segs s) -> scalar r -> 128 <= r -> encode_rune r = b ->
     P (b ++ s)%string ((r, b) :: segs s)) ->
  forall s, P s (segs s).
Proof.
  intros P H0 Hasc Herr Henc.
  assert (Hall : forall n s, (String.length s <= n)%nat -> P s (segs s)).
  { induction n as [|n IHn]; intros s Hlen.
    { destruct s; [exact H0 | cbn in Hlen; lia]. }
    destruct s as [|c0 r0]; [exact H0|]. cbn [String.length] in Hlen.
    assert (IH0 : P r0 (segs r0)) by (apply IHn; lia).
    pose proof (N_of_ascii_lt c0) as B0.
    cbn [segs].
    destruct (N_of_ascii c0 <? 128) eqn:E1; [apply Hasc; [exact IH0 | lia]|].
    destruct ((N_of_ascii c0 <? 194) || (244 <? N_of_ascii c0)) eqn:E2; [apply Herr; [exact IH0 | lia]|].
    destruct r0 as [|c1 r1]; [apply (Herr c0 ""); [exact IH0 | lia]|].
    pose proof (N_of_ascii_lt c1) as B1.
    set (lo := utf8_lo2 (N_of_ascii c0)) in *. set (hi := utf8_hi2 (N_of_ascii c0)) in *.
    destruct (negb ((lo <=? N_of_ascii c1) && (N_of_ascii c1 <=? hi))) eqn:E3; [apply Herr; [exact IH0 | lia]|].
    assert (Hlo : 128 <= lo) by (subst lo; unfold utf8_lo2; repeat destruct (_ =? _); lia).
    assert (Hhi : hi <= 191) by (subst hi; unfold utf8_hi2; repeat destruct (_ =? _); lia).
    destruct (N_of_ascii c0 <? 224) eqn:E4.
    { apply (Henc ((N_of_ascii c0 - 192) * 64 + (N_of_ascii c1 - 128)) (String c0 (String c1 "")) r1).
      - apply IHn. cbn in Hlen. lia.
      - unfold scalar. lia.
      - lia.
      - unfold encode_rune. kill_if.
        replace (192 + ((N_of_ascii c0 - 192) * 64 + (N_of_ascii c1 - 128)) / 64) with (N_of_ascii c0) by lia.
        replace (128 + ((N_of_ascii c0 - 192) * 64 + (N_of_ascii c1 - 128)) mod 64) with (N_of_ascii c1) by lia.
        now rewrite !byte_of_N_of. }
    destruct r1 as [|c2 r2]; [apply Herr; [exact IH0 | lia]|].
    pose proof (N_of_ascii_lt c2) as B2.
    destruct (negb (is_cont (N_of_ascii c2))) eqn:E5; [apply Herr; [exact IH0 | lia]|].
    unfold is_cont in E5.
    destruct (N_of_ascii c0 <? 240) eqn:E6.
    { assert (Hlo2 : N_of_ascii c0 = 224 -> 160 <= N_of_ascii c1).
      { intros Hc. subst lo. rewrite Hc in E3. cbn in E3. lia. }
      assert (Hhi2 : N_of_ascii c0 = 237 -> N_of_ascii c1 <= 159).
      { intros Hc. subst hi. rewrite Hc in E3. cbn in E3. lia. }
      apply (Henc (((N_of_ascii c0 - 224) * 64 + (N_of_ascii c1 - 128)) * 64 + (N_of_ascii c2 - 128))
                  (String c0 (String c1 (String c2 ""))) r2).
      - apply IHn. cbn in Hlen. lia.
      - unfold scalar. lia.
      - lia.
      - set (v := ((N_of_ascii c0 - 224) * 64 + (N_of_ascii c1 - 128)) * 64 + (N_of_ascii c2 - 128)).
        assert (Hv : v = ((N_of_ascii c0 - 224) * 64 + (N_of_ascii c1 - 128)) * 64 + (N_of_ascii c2 - 128)) by reflexivity.
        clearbody v. unfold encode_rune. kill_if.
        replace (224 + v / 4096) with (N_of_ascii c0) by lia.
        replace (128 + (v / 64) mod 64) with (N_of_ascii c1) by lia.
        replace (128 + v mod 64) with (N_of_ascii c2) by lia.
        now rewrite !byte_of_N_of. }
    destruct r2 as [|c3 r3]; [apply Herr; [exact IH0 | lia]|].
    pose proof (N_of_ascii_lt c3) as B3.
    destruct (negb (is_cont (N_of_ascii c3))) eqn:E7; [apply Herr; [exact IH0 | lia]|].
    unfold is_cont in E7.
    assert (Hlo2 : N_of_ascii c0 = 240 -> 144 <= N_of_ascii c1).
    { intros Hc. subst lo. rewrite Hc in E3. cbn in E3. lia. }
    assert (Hhi2 : N_of_ascii c0 = 244 -> N_of_ascii c1 <= 143).
    { intros Hc. subst hi. rewrite Hc in E3. cbn in E3. lia. }
    apply (Henc ((((N_of_ascii c0 - 240) * 64 + (N_of_ascii c1 - 128)) * 64 + (N_of_ascii c2 - 128)) * 64 + (N_of_ascii c3 - 128))
                (String c0 (String c1 (String c2 (String c3 "")))) r3).
    - apply IHn. cbn in Hlen. lia.
    - unfold scalar. lia.
    - lia.
    - set (v := (((N_of_ascii c0 - 240) * 64 + (N_of_ascii c1 - 128)) * 64 + (N_of_ascii c2 - 128)) * 64 + (N_of_ascii c3 - 128)).
      assert (Hv : v = (((N_of_ascii c0 - 240) * 64 + (N_of_ascii c1 - 128)) * 64 + (N_of_ascii c2 - 128)) * 64 + (N_of_ascii c3 - 128)) by reflexivity.
      clearbody v. unfold encode_rune. kill_if.
      replace (240 + v / 262144) with (N_of_ascii c0) by lia.
      replace (128 + (v / 4096) mod 64) with (N_of_ascii c1) by lia.
      replace (128 + (v / 64) mod 64) with (N_of_ascii c2) by lia.
      replace (128 + v mod 64) with (N_of_ascii c3) by lia.
      now rewrite !byte_of_N_of. }
  intros s. exact (Hall (String.length s) s (le_n _)).
Qed.

Lemma segs_bytes : forall s, sconcat (map snd (segs s)) = s.
Proof.
  intros s. apply (segs_ind (fun s l => sconcat (map snd l) = s)); intros; cbn; try reflexivity; congruence.
Qed.

Lemma segs_scalar : forall s r b, In (r, b) (segs s) -> scalar r.
Proof.
  intros s. apply (segs_ind (fun _ l => forall r b, In (r, b) l -> scalar r)); cbn.
  - contradiction.
  - intros c s0 IH Hc r b [H|H]; [|eauto]. injection H as <- _. unfold scalar. lia.
  - intros c s0 IH Hc r b [H|H]; [|eauto]. injection H as <- _. unfold scalar, rune_error. lia.
  - intros r0 b0 s0 IH Hs _ _ r b [H|H]; [|eauto]. now injection H as <- _.
Qed.

(** Bytes of an encoding: one ASCII byte, or bytes all at least 128. *)
Fixpoint all_bytes (P : ascii -> bool) (s : string) : bool :=
  match s with
  | EmptyString => true
  | String a r => P a && all_bytes P r
  end.

Definition high (a : ascii) : bool := 128 <=? N_of_ascii a.

Lemma all_bytes_app : forall P a b, all_bytes P (a ++ b) = all_bytes P a && all_bytes P b.
Proof. induction a as [|x a IH]; intros b; cbn; [reflexivity | now rewrite IH, andb_assoc]. Qed.

Lemma encode_ascii : forall r, r < 128 -> encode_rune r = String (byte r) "".
Proof. intros r H. unfold encode_rune. kill_if. reflexivity. Qed.

Lemma encode_high : forall r, 128 <= r -> all_bytes high (encode_rune r) = true.
Proof.
  intros r H. unfold encode_rune, high.
  destruct (r <? 128) eqn:E1; [lia|].
  destruct (r <? 2048) eqn:E2; [cbn [all_bytes]; rewrite !byte_N by lia; lia|].
  destruct (((55296 <=? r) && (r <=? 57343)) || (1114111 <? r)) eqn:E3; [reflexivity|].
  destruct (r <? 65536) eqn:E4; cbn [all_bytes];
    rewrite ?byte_N by lia; repeat (apply andb_true_iff; split); try reflexivity; lia.
Qed.

Lemma high_has_char : forall c s, N_of_ascii c < 128 -> all_bytes high s = true -> has_char c s = false.
Proof.
  intros c s Hc. induction s as [|a s IH]; cbn; [reflexivity|]. unfold high at 1. intros H.
  apply andb_true_iff in H as [H1 H2]. rewrite (IH H2), orb_false_r.
  apply Ascii.eqb_neq. intros ->. lia.
Qed.

Lemma encode_has_char : forall c r, N_of_ascii c < 128 ->
  has_char c (encode_rune r) = (r =? N_of_ascii c).
Proof.
  intros c r Hc. destruct (r <? 128) eqn:E.
  - rewrite encode_ascii by lia. cbn. rewrite orb_false_r.
    destruct (r =? N_of_ascii c) eqn:E2.
    + assert (r = N_of_ascii c) as -> by lia. rewrite byte_of_N_of. apply Ascii.eqb_refl.
    + apply Ascii.eqb_neq. intros <-. rewrite byte_N in E2 by lia. lia.
  - rewrite high_has_char; [lia | exact Hc | apply encode_high; lia].
Qed.

Lemma encode_nonempty : forall r, encode_rune r <> "".
Proof.
  intros r. unfold encode_rune.
  repeat match goal with |- context [if ?b then _ else _] => destruct b end; discriminate.
Qed.
