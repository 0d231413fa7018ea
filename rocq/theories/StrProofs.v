(** Proofs of the string-level properties: C01, C02, C03, C05, C10, C36. *)

From Coq Require Import String Ascii List NArith ZArith Bool Lia ZifyBool ZifyN ZifyNat.
From Verif Require Import GoStr Utf8 Base Utils GenRust StrLemmas SpecStr.
Import ListNotations.
Local Open Scope string_scope.
Ltac Zify.zify_post_hook ::= Z.div_mod_to_equations.

Lemma free_of_has_char : forall c s, free_of c s <-> has_char c s = false.
Proof.
  intros c s. split.
  - intros H. induction s as [|a s IH]; [reflexivity|]. cbn.
    destruct (Ascii.eqb_spec a c) as [->|Ha].
    + exfalso. apply (H "" s). reflexivity.
    + cbn. apply IH. intros x y ->. apply (H (String a x) y). reflexivity.
  - intros H a b ->. rewrite has_char_app in H. cbn in H. rewrite Ascii.eqb_refl in H.
    apply orb_false_iff in H as [_ H]. discriminate.
Qed.

Lemma erase_remove : forall c s, erase c s = remove_char c s.
Proof.
  unfold erase. induction s as [|a s IH]; [reflexivity|]. cbn.
  destruct (Ascii.eqb a c); cbn; [exact IH|].
  destruct (split_on c s); cbn in *; now rewrite IH.
Qed.

(** * C01 *)

Lemma dotted_has_prefix : forall ext,
  (if has_prefix ext "." then ext else "." ++ ext) = dotted ext.
Proof.
  intros [|a ext]; [reflexivity|]. unfold has_prefix. cbn [strip_prefix].
  destruct (Ascii.eqb_spec "." a) as [<-|Hne]; [reflexivity|].
  destruct a as [[] [] [] [] [] [] [] []]; try reflexivity. now exfalso; apply Hne.
Qed.

Lemma dotted_idem : forall ext, dotted (dotted ext) = dotted ext.
Proof.
  intros [|a ext]; [reflexivity|]. destruct a as [[] [] [] [] [] [] [] []]; reflexivity.
Qed.

Lemma file_with_extension_eq : forall f e,
  file_with_extension f e = if has_suffix f (dotted e) then f else f ++ dotted e.
Proof. intros f e. unfold file_with_extension. now rewrite dotted_has_prefix. Qed.

Lemma fwe_spec : forall file ext,
  starts_with (file_with_extension file ext) file /\
  ends_with (file_with_extension file ext) (dotted ext) /\
  (file_with_extension file ext = file <-> ends_with file (dotted ext)) /\
  file_with_extension file (dotted ext) = file_with_extension file ext /\
  file_with_extension (file_with_extension file ext) ext = file_with_extension file ext.
Proof.
  intros file ext.
  assert (Hends : ends_with (file_with_extension file ext) (dotted ext)).
  { rewrite file_with_extension_eq. destruct (has_suffix file (dotted ext)) eqn:Hs.
    - now apply has_suffix_spec in Hs.
    - now exists file. }
  repeat split.
  - rewrite file_with_extension_eq. destruct (has_suffix file (dotted ext)).
    + exists "". now rewrite app_nil_r_s.
    + now exists (dotted ext).
  - exact Hends.
  - rewrite file_with_extension_eq. destruct (has_suffix file (dotted ext)) eqn:Hs.
    + intros _. now apply has_suffix_spec.
    + intros H. apply app_self_nil in H. destruct ext as [|a ext]; [discriminate|].
      destruct a as [[] [] [] [] [] [] [] []]; discriminate.
  - intros H. apply has_suffix_spec in H. now rewrite file_with_extension_eq, H.
  - now rewrite !file_with_extension_eq, dotted_idem.
  - apply has_suffix_spec in Hends. rewrite file_with_extension_eq at 1. now rewrite Hends.
Qed.

(** * Case mapping *)

Section Env.
Context {E : Env}.

Lemma rune_upper_eq : forall r, rune_upper r = to_upper_rune r.
Proof.
  intros r. unfold rune_upper, to_upper_rune, ascii_upper, is_lower.
  destruct (128 <=? r)%N eqn:H.
  - assert ((r <? 128)%N = false) as -> by lia. reflexivity.
  - assert ((r <? 128)%N = true) as -> by lia. rewrite N_ascii_embedding by lia.
    destruct ((97 <=? r)%N && (r <=? 122)%N) eqn:H2; rewrite N_ascii_embedding by lia; reflexivity.
Qed.

Lemma rune_lower_eq : forall r, rune_lower r = to_lower_rune r.
Proof.
  intros r. unfold rune_lower, to_lower_rune, ascii_lower, is_upper.
  destruct (128 <=? r)%N eqn:H.
  - assert ((r <? 128)%N = false) as -> by lia. reflexivity.
  - assert ((r <? 128)%N = true) as -> by lia. rewrite N_ascii_embedding by lia.
    destruct ((65 <=? r)%N && (r <=? 90)%N) eqn:H2; rewrite N_ascii_embedding by lia; reflexivity.
Qed.

Lemma runes_encode : forall rs, Forall scalar rs -> runes (sconcat (map encode_rune rs)) = rs.
Proof.
  intros rs H. unfold runes. rewrite segs_encode_all, map_map. cbn.
  induction H as [|r rs Hr _ IH]; cbn; [reflexivity|]. now rewrite (norm_rune_id r Hr), IH.
Qed.

Lemma runes_scalar : forall s, Forall scalar (runes s).
Proof.
  intros s. apply Forall_forall. intros r Hr. unfold runes in Hr.
  apply in_map_iff in Hr as [[r' b] [<- Hb]]. now apply segs_scalar in Hb.
Qed.

Lemma encode_norm : forall r, encode_rune (norm_rune r) = encode_rune r.
Proof.
  intros r. unfold norm_rune.
  destruct (((55296 <=? r) && (r <=? 57343)) || (1114111 <? r))%N eqn:H; [|reflexivity].
  unfold encode_rune at 2.
  assert ((r <? 128)%N = false) as -> by lia. assert ((r <? 2048)%N = false) as -> by lia.
  rewrite H. reflexivity.
Qed.

Lemma to_title_runes : forall s,
  to_title s = match runes s with
               | [] => ""
               | r :: t => sconcat (map encode_rune (rune_upper r :: t))
               end.
Proof.
  intros s. unfold to_title, runes. destruct (segs s) as [|[r b] t]; [reflexivity|].
  cbn [map fst sconcat]. now rewrite rune_upper_eq, map_map.
Qed.

Lemma to_title_spec : forall s,
  runes (to_title s) = match runes s with
                       | [] => []
                       | r :: t => norm_rune (rune_upper r) :: t
                       end.
Proof.
  intros s. rewrite to_title_runes. pose proof (runes_scalar s) as Hs.
  destruct (runes s) as [|r t]; [reflexivity|]. inversion_clear Hs as [|? ? Hr Ht].
  cbn [map sconcat]. rewrite <- encode_norm.
  change (encode_rune (norm_rune (rune_upper r)) ++ sconcat (map encode_rune t))
    with (sconcat (map encode_rune (norm_rune (rune_upper r) :: t))).
  apply runes_encode. constructor; [apply norm_rune_scalar | exact Ht].
Qed.

Lemma to_title_well_formed : forall s, well_formed (to_title s).
Proof.
  intros s. rewrite to_title_runes. pose proof (runes_scalar s) as Hs.
  destruct (runes s) as [|r t]; [exists []; split; [constructor | reflexivity]|].
  inversion_clear Hs as [|? ? Hr Ht].
  exists (norm_rune (rune_upper r) :: t). split; [constructor; [apply norm_rune_scalar | exact Ht]|].
  cbn [map sconcat]. now rewrite encode_norm.
Qed.

Lemma well_formed_segs : forall s, well_formed s -> sconcat (map encode_rune (runes s)) = s.
Proof. intros s [rs [Hrs ->]]. now rewrite runes_encode. Qed.

Lemma to_title_bytes : forall c rest,
  (N_of_ascii c < 128)%N -> well_formed rest ->
  to_title (String c rest) = String (ascii_upper c) rest.
Proof.
  intros c rest Hc Hw. rewrite to_title_runes. unfold runes. rewrite segs_1 by exact Hc.
  cbn [map fst sconcat]. fold (runes rest). rewrite (well_formed_segs rest Hw).
  unfold rune_upper. assert ((128 <=? N_of_ascii c)%N = false) as -> by lia.
  rewrite ascii_N_embedding.
  assert (Hu : (N_of_ascii (ascii_upper c) < 128)%N).
  { unfold ascii_upper, is_lower.
    destruct ((97 <=? N_of_ascii c)%N && (N_of_ascii c <=? 122)%N) eqn:H; [|exact Hc].
    rewrite N_ascii_embedding by lia. lia. }
  rewrite encode_ascii by exact Hu. cbn. now rewrite byte_of_N_of.
Qed.

Lemma rune_upper_ascii_idem : forall r, (r < 128)%N -> rune_upper (rune_upper r) = rune_upper r.
Proof.
  intros r H. rewrite !rune_upper_eq. unfold to_upper_rune.
  assert ((r <? 128)%N = true) as -> by lia.
  destruct ((97 <=? r)%N && (r <=? 122)%N) eqn:H2.
  - assert ((r - 32 <? 128)%N = true) as -> by lia.
    assert ((97 <=? r - 32)%N && (r - 32 <=? 122)%N = false) as -> by lia. reflexivity.
  - assert ((r <? 128)%N = true) as -> by lia. now rewrite H2.
Qed.

Lemma rune_upper_ascii_lt : forall r, (r < 128)%N -> (rune_upper r < 128)%N.
Proof.
  intros r H. rewrite rune_upper_eq. unfold to_upper_rune.
  assert ((r <? 128)%N = true) as -> by lia. destruct ((97 <=? r)%N && (r <=? 122)%N); lia.
Qed.

Lemma to_title_idem : upper_idempotent E -> forall s, to_title (to_title s) = to_title s.
Proof.
  intros Hidem s. rewrite (to_title_runes (to_title s)), to_title_spec.
  rewrite (to_title_runes s). destruct (runes s) as [|r t]; [reflexivity|].
  cbn [map sconcat]. f_equal.
  destruct (128 <=? r)%N eqn:Hr.
  - assert (Hu : rune_upper r = env_upper r) by (unfold rune_upper; now rewrite Hr).
    rewrite Hu, Hidem by lia. now rewrite encode_norm.
  - pose proof (rune_upper_ascii_lt r ltac:(lia)) as Hlt.
    rewrite norm_rune_id by (unfold scalar; lia). now rewrite rune_upper_ascii_idem by lia.
Qed.

(** * C03 *)

Lemma is_upper_high : forall a, high a = true -> is_upper a = false.
Proof. unfold high, is_upper. intros a. lia. Qed.
Lemma is_lower_high : forall a, high a = true -> is_lower a = false.
Proof. unfold high, is_lower. intros a. lia. Qed.
Lemma is_digit_high : forall a, high a = true -> is_digit a = false.
Proof. unfold high, is_digit. intros a. lia. Qed.

(** Strings built from ASCII bytes and encodings of larger runes. *)
Inductive wf8 : string -> Prop :=
| wf8_nil : wf8 ""
| wf8_ascii : forall a s, (N_of_ascii a < 128)%N -> wf8 s -> wf8 (String a s)
| wf8_high : forall r s, (128 <= r)%N -> wf8 s -> wf8 (encode_rune r ++ s).

Lemma well_formed_wf8 : forall s, well_formed s -> wf8 s.
Proof.
  intros s [rs [H ->]]. induction H as [|r rs Hr _ IH]; cbn [map sconcat]; [constructor|].
  destruct (r <? 128)%N eqn:E1.
  - rewrite encode_ascii by lia. cbn. constructor; [rewrite byte_N by lia; lia | exact IH].
  - constructor; [lia | exact IH].
Qed.

Lemma wf8_tail : forall a s, (N_of_ascii a < 128)%N -> wf8 (String a s) -> wf8 s.
Proof.
  intros a s Ha H. inversion H as [|b s' Hb Hs|r s' Hr Hs Heq]; [exact Hs|].
  pose proof (encode_high r Hr) as Hh. destruct (encode_rune r) as [|b e] eqn:He.
  - now apply encode_nonempty in He.
  - cbn in Heq. injection Heq as -> _. cbn in Hh. unfold high in Hh. lia.
Qed.

Lemma first_cap_cons : forall a r, is_upper a = false ->
  snake_first_cap (String a r) = String a (snake_first_cap r).
Proof.
  intros a r H. cbn [snake_first_cap]. destruct r as [|b [|c t]]; try reflexivity. now rewrite H.
Qed.

Lemma first_cap_high : forall e s, all_bytes high e = true ->
  snake_first_cap (e ++ s) = e ++ snake_first_cap s.
Proof.
  induction e as [|a e IH]; intros s H; [reflexivity|]. cbn in H.
  apply andb_true_iff in H as [Ha He]. cbn [append].
  rewrite first_cap_cons by now apply is_upper_high. now rewrite IH.
Qed.

Lemma all_cap_cons : forall a r, is_lower a || is_digit a = false ->
  snake_all_cap (String a r) = String a (snake_all_cap r).
Proof. intros a r H. cbn [snake_all_cap]. destruct r as [|b t]; [reflexivity|]. now rewrite H. Qed.

Lemma all_cap_high : forall e s, all_bytes high e = true ->
  snake_all_cap (e ++ s) = e ++ snake_all_cap s.
Proof.
  induction e as [|a e IH]; intros s H; [reflexivity|]. cbn in H.
  apply andb_true_iff in H as [Ha He]. cbn [append].
  rewrite all_cap_cons by (rewrite is_lower_high, is_digit_high by exact Ha; reflexivity). now rewrite IH.
Qed.

Lemma replace_app : forall c d a b, replace_char c d (a ++ b) = replace_char c d a ++ replace_char c d b.
Proof. induction a as [|x a IH]; intros b; cbn; [reflexivity | now rewrite IH]. Qed.

Lemma wf8_first_cap : forall s, wf8 s -> wf8 (snake_first_cap s).
Proof.
  assert (Hall : forall n s, (String.length s <= n)%nat -> wf8 s -> wf8 (snake_first_cap s)).
  { induction n as [|n IH]; intros s Hn Hs.
    - destruct s; [constructor | cbn in Hn; lia].
    - inversion Hs as [|a s' Ha Hs'|r s' Hr Hs' Heq].
      + constructor.
      + subst s. cbn [snake_first_cap]. cbn in Hn.
        assert (Hrec : wf8 (String a (snake_first_cap s'))) by (constructor; [exact Ha | apply IH; [lia | exact Hs']]).
        destruct s' as [|b [|c t]]; try exact Hrec.
        destruct (is_upper a && is_upper b && is_lower c) eqn:Hm; [|exact Hrec].
        apply andb_true_iff in Hm as [Hm Hc]. apply andb_true_iff in Hm as [_ Hb].
        unfold is_upper in Hb. unfold is_lower in Hc.
        apply wf8_tail in Hs'; [|lia]. apply wf8_tail in Hs'; [|lia].
        constructor; [exact Ha|]. constructor; [reflexivity|]. constructor; [lia|].
        constructor; [lia|]. apply IH; [cbn in Hn; lia | exact Hs'].
      + subst s. rewrite first_cap_high by now apply encode_high.
        constructor; [exact Hr|]. apply IH; [|exact Hs'].
        rewrite length_app_s in Hn. pose proof (encode_nonempty r) as Hne.
        destruct (encode_rune r); [congruence | cbn in Hn; lia]. }
  intros s. exact (Hall _ s (le_n _)).
Qed.

Lemma wf8_all_cap : forall s, wf8 s -> wf8 (snake_all_cap s).
Proof.
  assert (Hall : forall n s, (String.length s <= n)%nat -> wf8 s -> wf8 (snake_all_cap s)).
  { induction n as [|n IH]; intros s Hn Hs.
    - destruct s; [constructor | cbn in Hn; lia].
    - inversion Hs as [|a s' Ha Hs'|r s' Hr Hs' Heq].
      + constructor.
      + subst s. cbn [snake_all_cap]. cbn in Hn.
        destruct s' as [|b t]; [constructor; [exact Ha | constructor]|].
        assert (Hrec : wf8 (String a (snake_all_cap (String b t)))) by (constructor; [exact Ha | apply IH; [lia | exact Hs']]).
        destruct ((is_lower a || is_digit a) && is_upper b) eqn:Hm; [|exact Hrec].
        apply andb_true_iff in Hm as [_ Hb]. unfold is_upper in Hb.
        apply wf8_tail in Hs'; [|lia].
        constructor; [exact Ha|]. constructor; [reflexivity|]. constructor; [lia|].
        apply IH; [cbn in Hn; lia | exact Hs'].
      + subst s. rewrite all_cap_high by now apply encode_high.
        constructor; [exact Hr|]. apply IH; [|exact Hs'].
        rewrite length_app_s in Hn. pose proof (encode_nonempty r) as Hne.
        destruct (encode_rune r); [congruence | cbn in Hn; lia]. }
  intros s. exact (Hall _ s (le_n _)).
Qed.

Lemma wf8_replace : forall c d s, (N_of_ascii c < 128)%N -> (N_of_ascii d < 128)%N ->
  wf8 s -> wf8 (replace_char c d s).
Proof.
  intros c d s Hc Hd H. induction H as [|a s Ha _ IH|r s Hr _ IH]; cbn [replace_char].
  - constructor.
  - constructor; [destruct (Ascii.eqb a c); assumption | exact IH].
  - rewrite replace_app, replace_char_id by (apply high_has_char; [exact Hc | now apply encode_high]).
    now constructor.
Qed.

Lemma to_lower_ascii : forall a s, (N_of_ascii a < 128)%N ->
  to_lower (String a s) = String (ascii_lower a) (to_lower s).
Proof.
  intros a s Ha. unfold to_lower. rewrite segs_1 by exact Ha. cbn [map fst sconcat].
  rewrite <- rune_lower_eq. unfold rune_lower. assert ((128 <=? N_of_ascii a)%N = false) as -> by lia.
  rewrite ascii_N_embedding. rewrite encode_ascii.
  - cbn. now rewrite byte_of_N_of.
  - unfold ascii_lower, is_upper.
    destruct ((65 <=? N_of_ascii a)%N && (N_of_ascii a <=? 90)%N) eqn:H; [|exact Ha].
    rewrite N_ascii_embedding by lia. lia.
Qed.

Lemma to_lower_high : forall r s, (128 <= r)%N ->
  to_lower (encode_rune r ++ s) = encode_rune (rune_lower (norm_rune r)) ++ to_lower s.
Proof. intros r s Hr. unfold to_lower. rewrite segs_encode. cbn [map fst sconcat]. now rewrite rune_lower_eq. Qed.

Lemma norm_rune_ge : forall r, (128 <= r)%N -> (128 <= norm_rune r)%N.
Proof. intros r H. unfold norm_rune, rune_error. destruct (_ || _); lia. Qed.

Lemma ascii_lower_eqb_us : forall a, Ascii.eqb (ascii_lower a) "_" = Ascii.eqb a "_".
Proof.
  intros a. unfold ascii_lower, is_upper.
  destruct ((65 <=? N_of_ascii a)%N && (N_of_ascii a <=? 90)%N) eqn:H; [|reflexivity].
  assert (Ha : a <> "_"%char) by (intros ->; cbn in H; lia).
  apply Ascii.eqb_neq in Ha. rewrite Ha. apply Ascii.eqb_neq. intros Heq.
  apply (f_equal N_of_ascii) in Heq. rewrite N_ascii_embedding in Heq by lia.
  change (N_of_ascii "_") with 95%N in Heq. lia.
Qed.

Lemma remove_lower : lower_no_capital E -> forall s, wf8 s ->
  remove_char "_" (to_lower s) = to_lower (remove_char "_" s).
Proof.
  intros Hsane s H. induction H as [|a s Ha _ IH|r s Hr _ IH].
  - reflexivity.
  - rewrite to_lower_ascii by exact Ha. cbn [remove_char]. rewrite ascii_lower_eqb_us.
    destruct (Ascii.eqb a "_"); [exact IH|]. now rewrite to_lower_ascii, IH by exact Ha.
  - rewrite remove_char_app, (remove_char_id _ (encode_rune r)).
    2: { apply high_has_char; [reflexivity | now apply encode_high]. }
    rewrite !to_lower_high by exact Hr. rewrite remove_char_app, IH. f_equal.
    apply remove_char_id. rewrite encode_has_char by reflexivity.
    pose proof (norm_rune_ge r Hr) as Hn. unfold rune_lower.
    assert ((128 <=? norm_rune r)%N = true) as -> by lia.
    destruct (Hsane (norm_rune r) Hn) as [_ [_ Hu]]. change (N_of_ascii "_") with 95%N. lia.
Qed.

Lemma remove_first_cap : forall s, remove_char "_" (snake_first_cap s) = remove_char "_" s.
Proof.
  assert (Hall : forall n s, (String.length s <= n)%nat -> remove_char "_" (snake_first_cap s) = remove_char "_" s).
  { induction n as [|n IH]; intros s Hn.
    - destruct s; [reflexivity | cbn in Hn; lia].
    - destruct s as [|a r]; [reflexivity|]. cbn in Hn.
      assert (Hrec : remove_char "_" (String a (snake_first_cap r)) = remove_char "_" (String a r)).
      { cbn [remove_char]. now rewrite IH by lia. }
      cbn [snake_first_cap]. destruct r as [|b [|c t]]; try exact Hrec.
      destruct (is_upper a && is_upper b && is_lower c); [|exact Hrec].
      cbn in Hn. cbn [remove_char Ascii.eqb Bool.eqb]. now rewrite IH by lia. }
  intros s. exact (Hall _ s (le_n _)).
Qed.

Lemma remove_all_cap : forall s, remove_char "_" (snake_all_cap s) = remove_char "_" s.
Proof.
  assert (Hall : forall n s, (String.length s <= n)%nat -> remove_char "_" (snake_all_cap s) = remove_char "_" s).
  { induction n as [|n IH]; intros s Hn.
    - destruct s; [reflexivity | cbn in Hn; lia].
    - destruct s as [|a r]; [reflexivity|]. cbn in Hn.
      cbn [snake_all_cap]. destruct r as [|b t]; [reflexivity|].
      assert (Hrec : remove_char "_" (String a (snake_all_cap (String b t))) = remove_char "_" (String a (String b t))).
      { cbn [remove_char]. now rewrite IH by lia. }
      destruct ((is_lower a || is_digit a) && is_upper b); [|exact Hrec].
      cbn in Hn. cbn [remove_char Ascii.eqb Bool.eqb]. now rewrite IH by lia. }
  intros s. exact (Hall _ s (le_n _)).
Qed.

Lemma remove_replace : forall s, remove_char "_" (replace_char "-" "_" s) = remove_char "_" (remove_char "-" s).
Proof.
  induction s as [|a s IH]; [reflexivity|]. cbn.
  destruct (Ascii.eqb a "-"); [exact IH|]. cbn. now rewrite IH.
Qed.

Lemma snake_erase : lower_no_capital E -> forall s, well_formed s ->
  erase "_" (to_snake_case s) = to_lower (erase "_" (erase "-" s)).
Proof.
  intros Hsane s Hw. apply well_formed_wf8 in Hw. rewrite !erase_remove. unfold to_snake_case.
  rewrite remove_lower; [|exact Hsane|].
  - rewrite remove_replace, remove_char_comm, remove_all_cap, remove_first_cap. now rewrite remove_char_comm.
  - apply wf8_replace; [reflexivity | reflexivity|]. now apply wf8_all_cap, wf8_first_cap.
Qed.

(** ** No capitals, no hyphens *)

Definition snake_byte (a : ascii) : bool := negb (is_upper a) && negb (Ascii.eqb a "-").

Lemma lower_bytes : lower_no_capital E -> forall s, has_char "-" s = false ->
  all_bytes snake_byte (to_lower s) = true.
Proof.
  intros Hsane s. unfold to_lower.
  apply (segs_ind (fun s l => has_char "-" s = false ->
     all_bytes snake_byte (sconcat (map (fun p => encode_rune (to_lower_rune (fst p))) l)) = true)).
  - reflexivity.
  - intros c s0 IH Hc Hd. cbn in Hd. apply orb_false_iff in Hd as [Hd1 Hd2].
    cbn [map fst sconcat]. rewrite all_bytes_app, (IH Hd2), andb_true_r.
    rewrite <- rune_lower_eq. unfold rune_lower.
    assert ((128 <=? N_of_ascii c)%N = false) as -> by lia. rewrite ascii_N_embedding.
    unfold ascii_lower. unfold is_upper. destruct ((65 <=? N_of_ascii c)%N && (N_of_ascii c <=? 90)%N) eqn:Hu.
    + rewrite N_ascii_embedding by lia. rewrite encode_ascii by lia. cbn [all_bytes]. rewrite andb_true_r.
      unfold snake_byte, is_upper. rewrite byte_N by lia.
      assert (Hne : Ascii.eqb (byte (N_of_ascii c + 32)) "-" = false).
      { apply Ascii.eqb_neq. intros Heq. apply (f_equal N_of_ascii) in Heq.
        rewrite byte_N in Heq by lia. change (N_of_ascii "-") with 45%N in Heq. lia. }
      rewrite Hne. lia.
    + rewrite encode_ascii by lia. rewrite byte_of_N_of. cbn [all_bytes]. unfold snake_byte, is_upper.
      rewrite Hu, Hd1. reflexivity.
  - intros c s0 IH Hc Hd. cbn in Hd. apply orb_false_iff in Hd as [Hd1 Hd2].
    cbn [map fst sconcat]. rewrite all_bytes_app, (IH Hd2), andb_true_r.
    rewrite <- rune_lower_eq. change (rune_lower rune_error) with (env_lower rune_error).
    destruct (Hsane rune_error ltac:(discriminate)) as [H1 [H2 _]].
    destruct (env_lower rune_error <? 128)%N eqn:Hlt.
    + rewrite encode_ascii by lia. cbn [all_bytes]. unfold snake_byte, is_upper. rewrite byte_N by lia.
      assert (Hne : Ascii.eqb (byte (env_lower rune_error)) "-" = false).
      { apply Ascii.eqb_neq. intros Heq. apply (f_equal N_of_ascii) in Heq.
        rewrite byte_N in Heq by lia. change (N_of_ascii "-") with 45%N in Heq. lia. }
      rewrite Hne. lia.
    + pose proof (encode_high (env_lower rune_error) ltac:(lia)) as Hh.
      revert Hh. generalize (encode_rune (env_lower rune_error)) as e.
      induction e as [|a e IHe]; [reflexivity|]. cbn. intros Hh. apply andb_true_iff in Hh as [Ha He].
      rewrite (IHe He), andb_true_r. unfold snake_byte. rewrite is_upper_high by exact Ha. cbn.
      apply negb_true_iff, Ascii.eqb_neq. intros ->. discriminate.
  - intros r b s0 IH Hs Hr Hb Hd. rewrite has_char_app in Hd. apply orb_false_iff in Hd as [_ Hd2].
    cbn [map fst sconcat]. rewrite all_bytes_app, (IH Hd2), andb_true_r.
    rewrite <- rune_lower_eq. unfold rune_lower. assert ((128 <=? r)%N = true) as -> by lia.
    destruct (Hsane r Hr) as [H1 [H2 _]].
    destruct (env_lower r <? 128)%N eqn:Hlt.
    + rewrite encode_ascii by lia. cbn [all_bytes]. unfold snake_byte, is_upper. rewrite byte_N by lia.
      assert (Hne : Ascii.eqb (byte (env_lower r)) "-" = false).
      { apply Ascii.eqb_neq. intros Heq. apply (f_equal N_of_ascii) in Heq.
        rewrite byte_N in Heq by lia. change (N_of_ascii "-") with 45%N in Heq. lia. }
      rewrite Hne. lia.
    + pose proof (encode_high (env_lower r) ltac:(lia)) as Hh.
      revert Hh. generalize (encode_rune (env_lower r)) as e.
      induction e as [|a e IHe]; [reflexivity|]. cbn. intros Hh. apply andb_true_iff in Hh as [Ha He].
      rewrite (IHe He), andb_true_r. unfold snake_byte. rewrite is_upper_high by exact Ha. cbn.
      apply negb_true_iff, Ascii.eqb_neq. intros ->. discriminate.
Qed.

Lemma all_bytes_free : forall (P : ascii -> bool) c s, P c = false -> all_bytes P s = true -> has_char c s = false.
Proof.
  intros P c s Hc. induction s as [|a s IH]; cbn; [reflexivity|]. intros H.
  apply andb_true_iff in H as [Ha Hs]. rewrite (IH Hs), orb_false_r.
  apply Ascii.eqb_neq. intros ->. congruence.
Qed.

Lemma snake_bytes : lower_no_capital E -> forall s, all_bytes snake_byte (to_snake_case s) = true.
Proof. intros Hsane s. unfold to_snake_case. apply lower_bytes; [exact Hsane|]. now apply has_char_replace. Qed.

Lemma snake_clean : lower_no_capital E -> forall s,
  no_capital (to_snake_case s) /\ free_of "-" (to_snake_case s).
Proof.
  intros Hsane s. pose proof (snake_bytes Hsane s) as H. split.
  - intros c Hc. apply free_of_has_char. apply (all_bytes_free snake_byte); [|exact H].
    unfold snake_byte, is_upper. destruct (negb (Ascii.eqb c "-")); lia.
  - apply free_of_has_char. apply (all_bytes_free snake_byte); [reflexivity | exact H].
Qed.

(** ** Idempotence *)

Lemma first_cap_id : forall s, all_bytes snake_byte s = true -> snake_first_cap s = s.
Proof.
  induction s as [|a s IH]; [reflexivity|]. intros H. cbn in H. apply andb_true_iff in H as [Ha Hs].
  rewrite first_cap_cons; [now rewrite IH|]. unfold snake_byte in Ha. destruct (is_upper a); [discriminate | reflexivity].
Qed.

Lemma all_cap_id : forall s, all_bytes snake_byte s = true -> snake_all_cap s = s.
Proof.
  induction s as [|a s IH]; [reflexivity|]. intros H. cbn in H. apply andb_true_iff in H as [Ha Hs].
  specialize (IH Hs). cbn [snake_all_cap]. destruct s as [|b t]; [reflexivity|].
  cbn in Hs. apply andb_true_iff in Hs as [Hb _]. unfold snake_byte in Hb.
  destruct (is_upper b); [discriminate|]. rewrite andb_false_r. now rewrite IH.
Qed.

Lemma lower_idem_rune : lower_idempotent E -> forall r, scalar r ->
  rune_lower (norm_rune (rune_lower r)) = norm_rune (rune_lower r).
Proof.
  intros Hid r Hr. destruct (128 <=? r)%N eqn:H.
  - assert (Hu : rune_lower r = env_lower r) by (unfold rune_lower; now rewrite H).
    rewrite Hu. apply Hid. lia.
  - rewrite !rune_lower_eq. unfold to_lower_rune at 2 3.
    assert ((r <? 128)%N = true) as -> by lia.
    destruct ((65 <=? r)%N && (r <=? 90)%N) eqn:Hc.
    + rewrite norm_rune_id by (unfold scalar; lia). unfold to_lower_rune.
      assert ((r + 32 <? 128)%N = true) as -> by lia.
      assert ((65 <=? r + 32)%N && (r + 32 <=? 90)%N = false) as -> by lia. reflexivity.
    + rewrite norm_rune_id by (unfold scalar; lia). unfold to_lower_rune.
      assert ((r <? 128)%N = true) as -> by lia. now rewrite Hc.
Qed.

Lemma to_lower_runes : forall s, to_lower s = sconcat (map encode_rune (map rune_lower (runes s))).
Proof.
  intros s. unfold to_lower, runes. rewrite !map_map. f_equal. apply map_ext. intros p. now rewrite rune_lower_eq.
Qed.

Lemma to_lower_idem : lower_idempotent E -> forall s, to_lower (to_lower s) = to_lower s.
Proof.
  intros Hid s. rewrite (to_lower_runes s). pose proof (runes_scalar s) as Hs.
  rewrite to_lower_runes. unfold runes at 1. rewrite segs_encode_all, !map_map. cbn.
  induction Hs as [|r rs Hr _ IH]; [reflexivity|]. cbn [map sconcat]. rewrite IH. f_equal.
  rewrite lower_idem_rune by assumption. apply encode_norm.
Qed.

Lemma snake_idem : lower_no_capital E -> lower_idempotent E -> forall s,
  to_snake_case (to_snake_case s) = to_snake_case s.
Proof.
  intros Hsane Hid s. pose proof (snake_bytes Hsane s) as H.
  unfold to_snake_case at 1. rewrite first_cap_id by exact H. rewrite all_cap_id by exact H.
  rewrite replace_char_id.
  - unfold to_snake_case. now apply to_lower_idem.
  - apply (all_bytes_free snake_byte); [reflexivity | exact H].
Qed.

(** * C36 *)

Lemma in_set_In : forall n l, in_set n l = true <-> In n l.
Proof.
  intros n l. unfold in_set. rewrite existsb_exists. split.
  - intros [x [Hx Heq]]. apply String.eqb_eq in Heq. now subst x.
  - intros H. exists n. split; [exact H | apply String.eqb_refl].
Qed.

Lemma keywords_cover : forallb (fun n => in_set n rust_keywords) rust_reserved = true.
Proof. vm_compute. reflexivity. Qed.

Lemma attr_names_free : forallb (fun n => negb (in_set (n ++ "_attr") rust_reserved)) rust_keywords = true.
Proof. vm_compute. reflexivity. Qed.

Lemma rust_field_not_reserved : forall name, ~ In (rust_field_name name) rust_reserved.
Proof.
  intros name. unfold rust_field_name.
  set (n := to_snake_case (remove_char "-" (title_join "." (title_join ":" name)))). clearbody n.
  destruct (in_set n rust_keywords) eqn:H; intros Hin.
  - pose proof attr_names_free as Hf. rewrite forallb_forall in Hf.
    apply in_set_In in H. specialize (Hf n H). apply in_set_In in Hin. now rewrite Hin in Hf.
  - pose proof keywords_cover as Hf. rewrite forallb_forall in Hf. specialize (Hf n Hin). congruence.
Qed.

End Env.

(** * C05 *)

Lemma ns_split_one : forall p n, free_of ":" p -> free_of ":" n ->
  get_ns_prefix (p ++ ":" ++ n) = p /\ trim_ns_prefix (p ++ ":" ++ n) = n.
Proof.
  intros p n Hp Hn. apply free_of_has_char in Hp, Hn. unfold get_ns_prefix, trim_ns_prefix.
  change (p ++ ":" ++ n) with (p ++ String ":" n).
  rewrite split_on_app_char by exact Hp. rewrite split_on_no_char by exact Hn. now split.
Qed.

Lemma ns_split_other : forall s,
  (forall p n, free_of ":" p -> free_of ":" n -> s <> p ++ ":" ++ n) ->
  get_ns_prefix s = "" /\ trim_ns_prefix s = s.
Proof.
  intros s H. unfold get_ns_prefix, trim_ns_prefix.
  pose proof (split_on_join ":" s) as Hj. pose proof (split_on_clean ":" s) as Hc.
  destruct (split_on ":" s) as [|p [|n [|x t]]]; try (now split).
  exfalso. apply (H p n).
  - apply free_of_has_char, Hc. now left.
  - apply free_of_has_char, Hc. right. now left.
  - symmetry. exact Hj.
Qed.

(** * C10 *)

Lemma comment_replace_lines : forall prefix doc, has_char LF prefix = false ->
  comment_replace prefix doc = sjoin (CRNL ++ prefix ++ " ") (map (erase "009") (split_on LF doc)).
Proof.
  intros prefix doc Hp. induction doc as [|a doc IH]; [reflexivity|].
  cbn [comment_replace split_on]. change (Ascii.eqb a LF) with (Ascii.eqb a "010").
  pose proof (split_on_nonempty LF doc) as Hne.
  destruct (Ascii.eqb a "010") eqn:Ha.
  - rewrite IH. destruct (split_on LF doc) as [|h t]; [congruence|]. cbn [map].
    change (erase "009" "") with "". cbn [sjoin]. rewrite !app_assoc_s. reflexivity.
  - destruct (split_on LF doc) as [|h t]; [congruence|].
    cbn [map] in IH |- *. rewrite !erase_remove in *. cbn [remove_char].
    destruct (Ascii.eqb a "009"); rewrite IH; destruct t as [|h2 t]; reflexivity.
Qed.

(** Lines of a joined text. *)
Lemma split_lines : forall ls, ls <> [] -> (forall l, In l ls -> has_char LF l = false) ->
  split_on LF (sjoin CRNL ls ++ CRNL) = (map (fun l => l ++ CR)%string ls ++ [""])%list.
Proof.
  induction ls as [|l ls IH]; intros Hne Hl; [congruence|].
  assert (Hl0 : has_char LF (l ++ CR) = false) by (rewrite has_char_app, Hl by (now left); reflexivity).
  destruct ls as [|l2 ls].
  - cbn [sjoin]. change (l ++ CRNL) with (l ++ (CR ++ String LF "")). rewrite <- app_assoc_s.
    now rewrite split_on_app_char.
  - cbn [sjoin map app].
    assert (Hrw : (l ++ CRNL ++ sjoin CRNL (l2 :: ls)) ++ CRNL = (l ++ CR) ++ String LF (sjoin CRNL (l2 :: ls) ++ CRNL)).
    { rewrite !app_assoc_s. reflexivity. }
    cbn [sjoin] in Hrw. rewrite Hrw. rewrite split_on_app_char by exact Hl0. f_equal.
    apply IH; [discriminate | intros x Hx; apply Hl; now right].
Qed.

Lemma sjoin_prefix : forall p ls, ls <> [] ->
  p ++ sjoin (CRNL ++ p) ls = sjoin CRNL (map (fun l => p ++ l) ls).
Proof.
  induction ls as [|l ls IH]; intros Hne; [congruence|]. destruct ls as [|l2 ls]; [reflexivity|].
  cbn [sjoin map] in *. rewrite <- IH by discriminate. now rewrite !app_assoc_s.
Qed.

Lemma erase_no_char : forall c d s, has_char c s = false -> has_char c (erase d s) = false.
Proof. intros c d s H. rewrite erase_remove. now apply has_char_remove_other. Qed.

Lemma comment_lines : forall name doc prefix,
  free_of LF name -> free_of LF prefix ->
  split_on LF (gen_field_comment name doc prefix) =
  ([CR] ++ map (fun l => prefix ++ " " ++ l ++ CR)%string (comment_text name doc) ++ [""])%list.
Proof.
  intros name doc prefix Hn Hp. apply free_of_has_char in Hn, Hp.
  assert (Hsp : forall l, has_char LF l = false -> has_char LF ((prefix ++ " ") ++ l) = false).
  { intros l Hl. now rewrite !has_char_app, Hp, Hl. }
  unfold gen_field_comment. destruct doc as [|a doc'].
  - cbn [comment_text map app]. change (String.eqb "" "") with true. cbv iota.
    change (CRNL ++ prefix ++ " " ++ name ++ " ..." ++ CRNL)
      with (CR ++ String LF (prefix ++ " " ++ name ++ " ..." ++ CRNL)).
    rewrite split_on_app_char by reflexivity. f_equal.
    assert (Hrw : prefix ++ " " ++ name ++ " ..." ++ CRNL = sjoin CRNL [(prefix ++ " ") ++ name ++ " ..."] ++ CRNL).
    { cbn [sjoin]. now rewrite !app_assoc_s. }
    rewrite Hrw, split_lines; [|discriminate|].
    + cbn [map app]. now rewrite !app_assoc_s.
    + intros l [<-|[]]. apply Hsp. now rewrite has_char_app, Hn.
  - assert (String.eqb (String a doc') "" = false) as -> by reflexivity.
    set (doc := String a doc') in *.
    assert (Hct : comment_text name doc = match map (erase "009") (split_on LF doc) with
         | h :: t => (name ++ " is " ++ h) :: t
         | [] => []
         end) by reflexivity.
    rewrite Hct, comment_replace_lines by exact Hp.
    pose proof (split_on_nonempty LF doc) as Hne. pose proof (split_on_clean LF doc) as Hcl.
    destruct (split_on LF doc) as [|h t]; [congruence|]. cbn [map]. clear Hct Hne. clearbody doc.
    set (h' := erase "009" h). set (t' := map (erase "009") t).
    assert (Hh' : has_char LF h' = false) by (apply erase_no_char, Hcl; now left).
    assert (Ht' : forall x, In x t' -> has_char LF x = false).
    { intros x Hx. apply in_map_iff in Hx as [y [<- Hy]]. apply erase_no_char, Hcl. now right. }
    clearbody h' t'.
    assert (Hrw : CRNL ++ prefix ++ " " ++ name ++ " is " ++ sjoin (CRNL ++ prefix ++ " ") (h' :: t') ++ CRNL
                  = CR ++ String LF (sjoin CRNL (map (fun l => (prefix ++ " ") ++ l) ((name ++ " is " ++ h') :: t')) ++ CRNL)).
    { rewrite <- sjoin_prefix by discriminate.
      assert (Hj : sjoin (CRNL ++ prefix ++ " ") ((name ++ " is " ++ h') :: t') = name ++ " is " ++ sjoin (CRNL ++ prefix ++ " ") (h' :: t')).
      { destruct t'; cbn [sjoin]; now rewrite ?app_assoc_s. }
      rewrite Hj, !app_assoc_s. reflexivity. }
    rewrite Hrw, split_on_app_char by reflexivity. cbn [app map]. f_equal.
    rewrite split_lines; [|discriminate|].
    + cbn [map app]. rewrite map_map, !app_assoc_s. f_equal. f_equal.
      apply map_ext. intros l. now rewrite !app_assoc_s.
    + intros l [<-|Hl].
      * apply Hsp. rewrite !has_char_app, Hn, Hh'. reflexivity.
      * apply in_map_iff in Hl as [x [<- Hx]]. now apply Hsp, Ht'.
Qed.

Lemma comment_text_free : forall name doc, free_of LF name -> Forall (free_of LF) (comment_text name doc).
Proof.
  intros name doc Hn. apply free_of_has_char in Hn. apply Forall_forall. intros l Hl. apply free_of_has_char.
  unfold comment_text in Hl. destruct doc as [|a doc].
  - destruct Hl as [<-|[]]. now rewrite has_char_app, Hn.
  - pose proof (split_on_clean LF (String a doc)) as Hcl.
    destruct (split_on LF (String a doc)) as [|h t]; [destruct Hl|]. cbn [map] in Hl.
    destruct Hl as [<-|Hl].
    + rewrite !has_char_app, Hn, (erase_no_char LF "009" h) by (apply Hcl; now left). reflexivity.
    + apply in_map_iff in Hl as [y [<- Hy]]. apply erase_no_char, Hcl. now right.
Qed.

Lemma comment_stays : forall name doc prefix,
  free_of LF name -> free_of LF prefix ->
  exists body, split_on LF (gen_field_comment name doc prefix) = ([CR] ++ body ++ [""])%list /\
               body <> [] /\
               Forall (fun line => starts_with line prefix) body.
Proof.
  intros name doc prefix Hn Hp. eexists. split; [apply comment_lines; assumption|]. split.
  - unfold comment_text. destruct doc as [|a doc]; [discriminate|].
    pose proof (split_on_nonempty LF (String a doc)) as Hne.
    destruct (split_on LF (String a doc)); [congruence | discriminate].
  - apply Forall_forall. intros l Hl. apply in_map_iff in Hl as [x [<- _]]. now eexists.
Qed.

Lemma comment_cr_escapes : exists doc line,
  In line (split_on "013" (gen_field_comment "T" doc "//")) /\ line = "int x;".
Proof.
  exists ("text" ++ CR ++ "int x;"), "int x;". split; [|reflexivity]. vm_compute. tauto.
Qed.

(** * C03: exact characterisation *)

Definition cap_low (r : string) : bool :=
  match r with String b (String c _) => is_upper b && is_lower c | _ => false end.

Fixpoint sep_upper (s : string) : string :=
  match s with
  | EmptyString => EmptyString
  | String a r => if is_upper a && cap_low r then String a (String "_" (sep_upper r)) else String a (sep_upper r)
  end.

Lemma is_lower_not_upper : forall c, is_lower c = true -> is_upper c = false.
Proof. intros c. unfold is_lower, is_upper. lia. Qed.
Lemma is_upper_not_low : forall c, is_upper c = true -> is_lower c || is_digit c = false.
Proof. intros c. unfold is_lower, is_upper, is_digit. lia. Qed.

Lemma sep_upper_cons : forall a r, is_upper a && cap_low r = false -> sep_upper (String a r) = String a (sep_upper r).
Proof. intros a r H. cbn [sep_upper]. now rewrite H. Qed.

Lemma first_cap_sep : forall s, snake_first_cap s = sep_upper s.
Proof.
  assert (Hall : forall n s, (String.length s <= n)%nat -> snake_first_cap s = sep_upper s).
  { induction n as [|n IH]; intros s Hn.
    - destruct s; [reflexivity | cbn in Hn; lia].
    - destruct s as [|a r]; [reflexivity|]. cbn in Hn.
      assert (Hr : String a (snake_first_cap r) = String a (sep_upper r)) by (now rewrite IH by lia).
      cbn [snake_first_cap].
      destruct r as [|b [|c t]].
      + cbn. now rewrite andb_false_r.
      + rewrite Hr. symmetry. apply sep_upper_cons. cbn [cap_low]. apply andb_false_r.
      + cbn [cap_low]. destruct (is_upper a && is_upper b && is_lower c) eqn:Hm.
        * apply andb_true_iff in Hm as [Hm Hc]. apply andb_true_iff in Hm as [Ha Hb].
          cbn in Hn. rewrite IH by lia.
          change (sep_upper (String a (String b (String c t)))) with
            (if is_upper a && cap_low (String b (String c t)) then String a (String "_" (sep_upper (String b (String c t)))) else String a (sep_upper (String b (String c t)))).
          cbn [cap_low]. rewrite Ha, Hb, Hc. cbn [andb].
          assert (Hcu : is_upper c = false) by now apply is_lower_not_upper.
          rewrite (sep_upper_cons b), (sep_upper_cons c); [reflexivity | now rewrite Hcu|].
          destruct t as [|d t]; cbn [cap_low]; [apply andb_false_r | rewrite Hcu; apply andb_false_r].
        * rewrite Hr. symmetry. apply sep_upper_cons. cbn [cap_low]. now rewrite andb_assoc. }
  intros s. exact (Hall _ s (le_n _)).
Qed.

Definition starts_cap (r : string) : bool := match r with String b _ => is_upper b | _ => false end.

Fixpoint sep_lower (s : string) : string :=
  match s with
  | EmptyString => EmptyString
  | String a r => if (is_lower a || is_digit a) && starts_cap r then String a (String "_" (sep_lower r)) else String a (sep_lower r)
  end.

Lemma all_cap_sep : forall s, snake_all_cap s = sep_lower s.
Proof.
  assert (Hall : forall n s, (String.length s <= n)%nat -> snake_all_cap s = sep_lower s).
  { induction n as [|n IH]; intros s Hn.
    - destruct s; [reflexivity | cbn in Hn; lia].
    - destruct s as [|a r]; [reflexivity|]. cbn in Hn. cbn [snake_all_cap].
      destruct r as [|b t].
      + cbn. now rewrite andb_false_r.
      + cbn [sep_lower starts_cap].
        destruct ((is_lower a || is_digit a) && is_upper b) eqn:Hm.
        * apply andb_true_iff in Hm as [_ Hb]. cbn in Hn. rewrite IH by lia.
          rewrite (is_upper_not_low b Hb). reflexivity.
        * rewrite IH by lia. reflexivity. }
  intros s. exact (Hall _ s (le_n _)).
Qed.

Lemma sep_both : forall s, sep_lower (sep_upper s) = separated s.
Proof.
  induction s as [|a r IH]; [reflexivity|].
  destruct r as [|b t].
  - cbn. rewrite andb_false_r. cbn. now rewrite andb_false_r.
  - change (separated (String a (String b t))) with
      (if word_boundary a b t then String a (String "_" (separated (String b t))) else String a (separated (String b t))).
    rewrite <- IH. unfold word_boundary.
    assert (Hhd : exists u, sep_upper (String b t) = String b u).
    { cbn [sep_upper]. destruct (is_upper b && cap_low t); eexists; reflexivity. }
    destruct Hhd as [u Hu].
    change (sep_upper (String a (String b t))) with
      (if is_upper a && cap_low (String b t) then String a (String "_" (sep_upper (String b t))) else String a (sep_upper (String b t))).
    assert (Hcl : cap_low (String b t) = is_upper b && match t with String c _ => is_lower c | _ => false end).
    { cbn. destruct t; [now rewrite andb_false_r | reflexivity]. }
    rewrite Hcl, andb_assoc.
    destruct (is_upper a && is_upper b && match t with String c _ => is_lower c | _ => false end) eqn:Hm.
    + rewrite orb_true_r. apply andb_true_iff in Hm as [Hm _]. apply andb_true_iff in Hm as [Ha _].
      cbn [sep_lower]. rewrite (is_upper_not_low a Ha). reflexivity.
    + rewrite orb_false_r. rewrite Hu. cbn [sep_lower starts_cap]. reflexivity.
Qed.

Lemma snake_exact : forall (E : Env) s, to_snake_case s = to_lower (replace_char "-" "_" (separated s)).
Proof. intros E s. unfold to_snake_case. now rewrite first_cap_sep, all_cap_sep, sep_both. Qed.

Lemma ascii_snake : forall (E : Env) s, ascii_only s ->
  to_snake_case s = map_bytes ascii_lower (replace_char "-" "_" (separated s)).
Proof.
  intros E s Hs. rewrite snake_exact.
  assert (Hlow : forall t, ascii_only t -> to_lower t = map_bytes ascii_lower t).
  { induction t as [|a t IH]; [reflexivity|]. intros Ht. unfold ascii_only in Ht. cbn in Ht.
    apply andb_true_iff in Ht as [Ha Ht]. rewrite to_lower_ascii by lia. cbn. now rewrite IH. }
  apply Hlow. unfold ascii_only in *.
  assert (Hrep : forall t, all_bytes (fun a => (N_of_ascii a <? 128)%N) t = true ->
    all_bytes (fun a => (N_of_ascii a <? 128)%N) (replace_char "-" "_" t) = true).
  { induction t as [|a t IH]; [reflexivity|]. cbn. intros H. apply andb_true_iff in H as [Ha Ht].
    rewrite (IH Ht), andb_true_r. destruct (Ascii.eqb a "-"); [reflexivity | exact Ha]. }
  apply Hrep. clear Hrep Hlow.
  induction s as [|a s IH]; [reflexivity|]. cbn [all_bytes] in Hs. apply andb_true_iff in Hs as [Ha Ht].
  specialize (IH Ht). destruct s as [|b t]; [cbn; now rewrite Ha|].
  change (separated (String a (String b t))) with
    (if word_boundary a b t then String a (String "_" (separated (String b t))) else String a (separated (String b t))).
  destruct (word_boundary a b t); cbn [all_bytes]; rewrite Ha, IH; reflexivity.
Qed.
