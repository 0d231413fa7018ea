(** Basic facts about tags, decimal literals, white space and token runs. *)

From Coq Require Import String Ascii List NArith ZArith Bool Lia.
From Verif Require Import GoStr Utf8 StrLemmas Base Utils SpecStr StrProofs World Handlers SpecDoc.
Import ListNotations.
Local Open Scope string_scope.

Section Doc.
Context {E : Env}.

(** * Tags *)

Lemma ascii_well_formed : forall s, all_bytes (fun a => (N_of_ascii a <? 128)%N) s = true -> well_formed s.
Proof.
  intros s. induction s as [|a s IH]; [exists []; split; [constructor|reflexivity]|].
  cbn [all_bytes]. intros H. apply andb_prop in H as [Ha Hs]. destruct (IH Hs) as [rs [Hrs ->]].
  exists (N_of_ascii a :: rs). split.
  - constructor; [|exact Hrs]. unfold scalar. lia.
  - cbn [map sconcat]. rewrite encode_ascii by lia. unfold byte. now rewrite ascii_N_embedding.
Qed.

Lemma title_runes_eq : forall s, title_runes s = runes (to_title s).
Proof. intros s. rewrite to_title_spec. reflexivity. Qed.

Lemma tag_wf : forall h local, well_formed h -> tag h local = String.eqb (to_title local) h.
Proof.
  intros h local Hh. unfold tag. rewrite title_runes_eq.
  destruct (list_eq_dec N.eq_dec (runes (to_title local)) (runes h)) as [e|e];
    destruct (String.eqb_spec (to_title local) h) as [Heq|Heq]; try reflexivity.
  - exfalso. apply Heq. rewrite <- (well_formed_segs _ (to_title_well_formed local)).
    rewrite e. now apply well_formed_segs.
  - exfalso. apply e. now rewrite Heq.
Qed.

Definition all_tags : list string := (start_tags ++ end_tags)%list.

Lemma tag_known : forall h local, In h all_tags -> tag h local = String.eqb (to_title local) h.
Proof.
  intros h local Hh. apply tag_wf, ascii_well_formed.
  assert (F : forallb (all_bytes (fun a => (N_of_ascii a <? 128)%N)) all_tags = true)
    by (vm_compute; reflexivity).
  rewrite forallb_forall in F. now apply F.
Qed.

Lemma tag_true : forall h local, In h all_tags -> (tag h local = true <-> to_title local = h).
Proof. intros h local Hh. rewrite tag_known by exact Hh. apply String.eqb_eq. Qed.

Lemma tag_false : forall h local, In h all_tags -> (tag h local = false <-> to_title local <> h).
Proof. intros h local Hh. rewrite tag_known by exact Hh. apply String.eqb_neq. Qed.

Lemma to_title_empty : to_title "" = "".
Proof. reflexivity. Qed.

(** * Decimal literals *)

Lemma digits_value_app : forall s acc t,
  digits_value acc (s ++ t) = match digits_value acc s with Some z => digits_value z t | None => None end.
Proof.
  intros s. induction s as [|a s IH]; intros acc t; [reflexivity|].
  cbn [digits_value append]. destruct (is_digit a); [apply IH|reflexivity].
Qed.

Lemma digit_is_digit : forall d n, digit d n -> is_digit d = true /\ (Z.of_N (N_of_ascii d) - 48 = n)%Z.
Proof. intros d n [Hr Hd]. split; [|lia]. unfold is_digit. lia. Qed.

Lemma is_digit_digit : forall d, is_digit d = true -> digit d (Z.of_N (N_of_ascii d) - 48).
Proof. intros d H. unfold is_digit in H. unfold digit. lia. Qed.

Lemma decimal_nonempty : forall s z, decimal s z -> s <> "".
Proof.
  intros s z H. destruct H as [d n _|s z d n _ _]; [discriminate|].
  intros H. apply app_eq_nil_s in H as [_ H]. discriminate.
Qed.

Lemma decimal_value : forall s z, decimal s z -> digits_value 0 s = Some z.
Proof.
  intros s z H. induction H as [d n Hd|s z d n Hs IH Hd].
  - cbn [digits_value]. destruct (digit_is_digit d n Hd) as [-> Hv]. f_equal. lia.
  - rewrite digits_value_app, IH. cbn [digits_value]. destruct (digit_is_digit d n Hd) as [-> Hv].
    f_equal. lia.
Qed.

Lemma string_snoc : forall s, s = "" \/ exists t a, s = t ++ String a "".
Proof.
  intros s. induction s as [|a s IH]; [now left|]. right. destruct IH as [->|[t [b ->]]].
  - exists "", a. reflexivity.
  - exists (String a t), b. reflexivity.
Qed.

Lemma value_decimal : forall n s z, String.length s <= n -> s <> "" -> digits_value 0 s = Some z -> decimal s z.
Proof.
  intros n. induction n as [|n IH]; intros s z Hn Hs H.
  - destruct s; [congruence|cbn in Hn; lia].
  - destruct (string_snoc s) as [->|[t [a ->]]]; [congruence|].
    rewrite digits_value_app in H. destruct (digits_value 0 t) as [z'|] eqn:Ht; [|discriminate].
    cbn [digits_value] in H. destruct (is_digit a) eqn:Ha; [|discriminate].
    apply is_digit_digit in Ha. injection H as <-.
    rewrite length_app_s in Hn. cbn in Hn.
    destruct (String.eqb_spec t "") as [->|Hne].
    + cbn in Ht. injection Ht as <-. cbn [append]. constructor.
      replace (0 * 10 + (Z.of_N (N_of_ascii a) - 48))%Z with (Z.of_N (N_of_ascii a) - 48)%Z by lia. exact Ha.
    + replace (z' * 10 + (Z.of_N (N_of_ascii a) - 48))%Z with (10 * z' + (Z.of_N (N_of_ascii a) - 48))%Z by lia.
      constructor; [|exact Ha]. apply IH; [lia|exact Hne|exact Ht].
Qed.

Lemma unsigned_value_spec : forall s z, unsigned_value s = Some z <-> decimal s z.
Proof.
  intros s z. split.
  - destruct s as [|a s]; [discriminate|]. intros H. apply (value_decimal (String.length (String a s))); [lia|discriminate|exact H].
  - intros H. pose proof (decimal_nonempty s z H) as Hne. apply decimal_value in H.
    destruct s; [congruence|exact H].
Qed.

Lemma decimal_first : forall s z, decimal s z -> exists a r, s = String a r /\ is_digit a = true.
Proof.
  intros s z H. induction H as [d n Hd|s z d n Hs [a [r [-> Ha]]] Hd].
  - exists d, "". split; [reflexivity|]. now destruct (digit_is_digit d n Hd).
  - exists a, (r ++ String d ""). split; [reflexivity|exact Ha].
Qed.

Lemma int64_check_spec : forall z y, int64_check z = Some y <-> z = y /\ (- 2 ^ 63 <= z < 2 ^ 63)%Z.
Proof.
  intros z y. unfold int64_check.
  destruct ((-9223372036854775808 <=? z)%Z && (z <=? 9223372036854775807)%Z) eqn:H.
  - split; [intros [= ->]; split; [reflexivity|lia]|intros [-> _]; reflexivity].
  - split; [discriminate|]. intros [-> H2]. exfalso. lia.
Qed.

Lemma atoi_spec : forall v z, atoi v = Some z <-> int64_literal v z.
Proof.
  intros v z. unfold int64_literal. split.
  - intros H. destruct v as [|a r]; [discriminate|]. cbn [atoi] in H.
    destruct (Ascii.eqb_spec a "-") as [->|Hm].
    { destruct (unsigned_value r) as [y|] eqn:Hy; [|discriminate]. apply unsigned_value_spec in Hy.
      apply int64_check_spec in H as [<- H]. split; [exact H|]. right; right. exists r.
      split; [reflexivity|]. now rewrite Z.opp_involutive. }
    destruct (Ascii.eqb_spec a "+") as [->|Hp].
    { destruct (unsigned_value r) as [y|] eqn:Hy; [|discriminate]. apply unsigned_value_spec in Hy.
      apply int64_check_spec in H as [<- H]. split; [exact H|]. right; left. now exists r. }
    destruct (unsigned_value (String a r)) as [y|] eqn:Hy; [|discriminate]. apply unsigned_value_spec in Hy.
    apply int64_check_spec in H as [<- H]. split; [exact H|]. now left.
  - intros [Hr [H|[[s [-> H]]|[s [-> H]]]]].
    + destruct (decimal_first _ _ H) as [a [r [-> Ha]]]. cbn [atoi].
      destruct (Ascii.eqb_spec a "-") as [->|Hm]; [discriminate|].
      destruct (Ascii.eqb_spec a "+") as [->|Hp]; [discriminate|].
      apply unsigned_value_spec in H as ->. apply int64_check_spec. now split.
    + cbn. apply unsigned_value_spec in H as ->. apply int64_check_spec. now split.
    + cbn. apply unsigned_value_spec in H as ->. apply int64_check_spec. split; lia.
Qed.

Lemma int64_literal_unique : forall v y z, int64_literal v y -> int64_literal v z -> y = z.
Proof.
  intros v y z Hy Hz. apply atoi_spec in Hy. apply atoi_spec in Hz. congruence.
Qed.

Lemma unbounded_no_literal : forall z, ~ int64_literal "unbounded" z.
Proof. intros z H. apply atoi_spec in H. discriminate. Qed.

Lemma max_occurs_some : forall v b, max_occurs v = Some b -> occurs_ok v /\ (b = true <-> occurs_many v).
Proof.
  intros v b. unfold max_occurs. destruct (String.eqb_spec v "unbounded") as [->|Hn].
  - intros [= <-]. split; [now left|]. split; [now left|reflexivity].
  - destruct (atoi v) as [z|] eqn:Hz; [|discriminate]. intros [= <-]. apply atoi_spec in Hz.
    split; [right; now exists z|]. unfold occurs_many. split.
    + intros H. right. exists z. split; [exact Hz|lia].
    + intros [->|[y [Hy Hl]]]; [congruence|]. rewrite (int64_literal_unique _ _ _ Hz Hy). lia.
Qed.

Lemma max_occurs_none : forall v, max_occurs v = None <-> ~ occurs_ok v.
Proof.
  intros v. split.
  - unfold max_occurs. destruct (String.eqb_spec v "unbounded") as [->|Hn]; [discriminate|].
    destruct (atoi v) as [z|] eqn:Hz; [discriminate|]. intros _ [H|[z H]]; [congruence|].
    apply atoi_spec in H. congruence.
  - intros H. destruct (max_occurs v) as [b|] eqn:Hb; [|reflexivity].
    apply max_occurs_some in Hb as [Hb _]. contradiction.
Qed.

(** * White space *)

Lemma drop_space_nil : forall l, drop_space l = [] <-> Forall (fun p => rune_is_space (fst p) = true) l.
Proof.
  intros l. induction l as [|[r b] l IH]; cbn [drop_space]; [split; [constructor|reflexivity]|].
  destruct (rune_is_space r) eqn:Hr.
  - rewrite IH. split; [intros H; constructor; [exact Hr|exact H]|intros H; now inversion H].
  - split; [discriminate|]. intros H. inversion_clear H as [|? ? Hp _]. cbn in Hp. congruence.
Qed.

Lemma segs_nonempty : forall s r b, In (r, b) (segs s) -> b <> "".
Proof.
  intros s. apply (segs_ind (fun _ l => forall r b, In (r, b) l -> b <> "")); cbn.
  - contradiction.
  - intros c s0 IH Hc r b [H|H]; [|eauto]. injection H as _ <-. discriminate.
  - intros c s0 IH Hc r b [H|H]; [|eauto]. injection H as _ <-. discriminate.
  - intros r0 b0 s0 IH Hs _ He r b [H|H]; [|eauto]. injection H as _ <-. subst b0. apply encode_nonempty.
Qed.

Lemma drop_space_incl : forall l p, In p (drop_space l) -> In p l.
Proof.
  intros l. induction l as [|[r b] l IH]; cbn [drop_space]; intros p H; [contradiction|].
  destruct (rune_is_space r); [right; now apply IH|exact H].
Qed.

Lemma drop_space_head : forall r b t l, drop_space l = (r, b) :: t -> rune_is_space r = false.
Proof.
  intros r b t l. induction l as [|[r' b'] l IH]; cbn [drop_space]; intros H; [discriminate|].
  destruct (rune_is_space r') eqn:Hr; [now apply IH|]. now injection H as -> _ _.
Qed.

Lemma blank_trim : forall s, trim_space s = "" <-> blank s.
Proof.
  intros s. unfold blank, runes. rewrite Forall_map. split.
  - intros H. apply drop_space_nil. destruct (drop_space (segs s)) as [|[r b] l] eqn:Hd; [reflexivity|].
    exfalso. unfold trim_space in H. rewrite Hd in H.
    destruct (rev (drop_space (rev ((r, b) :: l)))) as [|[r' b'] l'] eqn:Hr.
    + apply (f_equal (@rev _)) in Hr. rewrite rev_involutive in Hr. cbn [rev] in Hr.
      apply drop_space_nil in Hr. rewrite Forall_forall in Hr.
      specialize (Hr (r, b)). cbn in Hr. rewrite (drop_space_head _ _ _ _ Hd) in Hr.
      discriminate Hr. apply in_or_app. right. now left.
    + cbn [map sconcat snd] in H. apply app_eq_nil_s in H as [H _].
      apply (segs_nonempty s r' b'); [|exact H]. apply drop_space_incl. rewrite Hd.
      apply in_rev. apply drop_space_incl. apply in_rev. rewrite Hr. now left.
  - intros H. unfold trim_space. apply drop_space_nil in H. rewrite H. reflexivity.
Qed.

(** * Token runs *)

Lemma bind_assoc : forall A B C (m : out A) (f : A -> World -> out B) (g : B -> World -> out C),
  bind (bind m f) g = bind m (fun a w => bind (f a w) g).
Proof. intros A B C [a w|e w|c w] f g; reflexivity. Qed.

Lemma bind_ext : forall A B (m : out A) (f g : A -> World -> out B),
  (forall a w, f a w = g a w) -> bind m f = bind m g.
Proof. intros A B [a w|e w|c w] f g H; cbn; [apply H|reflexivity|reflexivity]. Qed.

Lemma bind_ret : forall A B (m : out A) (f : A -> World -> out B) b w',
  bind m f = Ret b w' -> exists a w, m = Ret a w /\ f a w = Ret b w'.
Proof. intros A B [a w|e w|c w] f b w' H; cbn in H; try discriminate. now exists a, w. Qed.

Variable gvt : string -> list proto -> World -> out string.

Lemma run_tokens_app : forall a b p w,
  run_tokens gvt (a ++ b) p w = bind (run_tokens gvt a p w) (run_tokens gvt b).
Proof.
  intros a. induction a as [|t a IH]; intros b p w; [reflexivity|].
  cbn [run_tokens app]. rewrite bind_assoc. apply bind_ext. intros p' w'. apply IH.
Qed.

Lemma run_tokens_one : forall t p w, run_tokens gvt [t] p w = on_token gvt t p w.
Proof. intros t p w. cbn [run_tokens]. destruct (on_token gvt t p w); reflexivity. Qed.

(** An invariant of the state that every single token preserves. *)
Lemma run_tokens_inv : forall P : PState -> Prop,
  (forall t p w p' w', P p -> on_token gvt t p w = Ret p' w' -> P p') ->
  forall ts p w p' w', P p -> run_tokens gvt ts p w = Ret p' w' -> P p'.
Proof.
  intros P Hstep ts. induction ts as [|t ts IH]; intros p w p' w' Hp H.
  - cbn in H. now injection H as <- _.
  - cbn [run_tokens] in H. apply bind_ret in H as [q [v [Hq H]]]. eauto.
Qed.

End Doc.
