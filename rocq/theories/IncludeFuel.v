(** The loop over included schemas ends within its budget. *)

From Coq Require Import String List Arith Bool Lia.
From Verif Require Import GoStr GoPath Base Utils World Handlers Parser SpecStr StrProofs SpecDoc DocLemmas PathProofs Reify SpecTables TableProofs SpecParse ParserProofs Termination ParseFacts IncludeProofs SpecIncludes.
Import ListNotations.
Local Open Scope string_scope.

Lemma loop_returns : forall (E : Env) rec o name K fs,
  (forall k w1, In k K -> w_fs w1 = fs -> exists p w2, rec (nested o (join2 (o_dir o) k) true) w1 = Ret p w2 /\ w_fs w2 = fs /\
     (forall x, In x (w_inc w2) -> In x (w_inc w1) \/ In x K)) ->
  forall n initial visited vt w, w_fs w = fs -> incl (w_inc w) K -> NoDup visited -> incl visited K -> length K < n + length visited ->
  exists r w', include_loop rec n o name initial visited vt w = Ret r w'.
Proof.
  intros E rec o name K fs Hrec. induction n as [|n IH]; intros initial visited vt w Hfs Hinc Hnd Hv Hn.
  - pose proof (NoDup_incl_length Hnd Hv). cbn in Hn. lia.
  - cbn [include_loop]. cbv zeta.
    destruct (nth_error (filter (fun k => negb (in_set k visited)) (w_inc w)) _) as [k|] eqn:Hk; [|eauto].
    apply nth_error_In, filter_In in Hk as [Hk1 Hk2]. apply negb_true_iff in Hk2.
    destruct (Hrec k (set_tick (S (w_tick w)) w) (Hinc k Hk1) Hfs) as [p [w2 [-> [Hfs2 Hi]]]].
    apply IH.
    + exact Hfs2.
    + intros x Hx. destruct (Hi x Hx) as [H|H]; [now apply Hinc|exact H].
    + constructor; [|exact Hnd]. intros H. apply in_set_In in H. rewrite H in Hk2. discriminate.
    + intros x [<-|Hx]; [now apply Hinc|now apply Hv].
    + cbn [length]. lia.
Qed.

Theorem include_nested : forall (E : Env) d fuel o v tree w loc K T found,
  o_extract o = false -> representation (o_lang o) (local_part v) = None -> none_gives (local_part v) tree ->
  location v w loc -> ~ is_url loc -> stat (join2 (dir (o_file o)) loc) w = SDir ->
  included_schemas d fuel o w K (local_part v) T found -> incl (w_inc w) K -> T <> local_part v -> T <> "" -> length K < fuel ->
  let value ch := get_value_type (E := with_choose E ch) (parse (E := with_choose E ch) d fuel) fuel o v tree w in
  ((exists k, In k (w_inc w) /\ found k = true) -> forall ch, exists w', value ch = Ret T w') /\
  ((forall k, In k K -> found k = false) -> forall ch, exists w', value ch = Ret (local_part v) w').
Proof.
  intros E d fuel o v tree w loc K T found He Hb Hg Hloc Hu Hs Hk Hinc HT HT2 Hfuel value.
  change (local_part v) with (trim_ns_prefix v) in *. set (name := trim_ns_prefix v) in *. rewrite <- representation_eq in Hb.
  assert (H : forall ch, exists vt w', value ch = Ret (if String.eqb vt "" then name else vt) w' /\
    (forall k, In k (w_inc w) -> found k = true -> vt = T) /\ ((forall k, In k K -> found k = false) -> vt = "")).
  { intros ch. unfold value, get_value_type. cbv zeta. fold name.
    rewrite Hb, (get_base_none _ _ Hg), String.eqb_refl. cbn [negb andb]. rewrite He.
    rewrite (location_get0 _ _ _ Hloc). change (@is_valid_url (with_choose E ch)) with (@is_valid_url E).
    destruct (is_valid_url loc) eqn:Hv; [now apply url_spec in Hv|].
    change (stat (E := with_choose E ch) (join2 (o_dir o) loc) w) with (stat (join2 (dir (o_file o)) loc) w). rewrite Hs.
    assert (Hrec : forall k w1, In k K -> w_fs w1 = w_fs w -> exists p w2,
      parse (E := with_choose E ch) d fuel (nested o (join2 (o_dir o) k) true) w1 = Ret p w2 /\ w_fs w2 = w_fs w /\
      incl (w_inc w1) (w_inc w2) /\ (forall x, In x (w_inc w2) -> In x (w_inc w1) \/ In x K) /\
      get_base name (freeze p) = (if found k then T else name)).
    { intros k w1 Hk1 Hfs. destruct (Hk k w1 Hk1 Hfs) as [p [w2 [Hp [Hi Hbase]]]]. exists p, w2.
      rewrite parse_choose by reflexivity. unfold o_dir. rewrite Hp. split; [reflexivity|].
      pose proof (parse_locations d fuel (nested o (join2 (dir (o_file o)) k) true) w1) as Hgrow. rewrite Hp in Hgrow. cbn in Hgrow.
      destruct Hgrow as [_ [_ Hgrow]]. split; [|split; [exact Hgrow|split; [exact Hi|]]].
      2:{ destruct (found k); [now apply get_base_first|now apply get_base_none]. }
      destruct d as [|d]; [discriminate|]. cbn [parse] in Hp.
      destruct (body_extract_effect (parse d fuel) fuel (nested o (join2 (dir (o_file o)) k) true) w1 eq_refl) as [Hsf _].
      rewrite Hp in Hsf. cbn in Hsf. rewrite <- Hfs. apply Hsf. }
    pose proof (@include_agree (with_choose E ch) _ o name T K found (w_fs w) Hrec HT fuel (w_inc w) [] "" w eq_refl Hinc (incl_refl _)) as H.
    destruct (@loop_returns (with_choose E ch) (parse (E := with_choose E ch) d fuel) o name K (w_fs w)) with
      (n := fuel) (initial := w_inc w) (visited := @nil string) (vt := "") (w := w) as [r [w' Hr]].
    - intros k w1 Hk1 Hfs. destruct (Hrec k w1 Hk1 Hfs) as [p [w2 [Hp [H1 [_ [H2 _]]]]]]. eauto.
    - reflexivity.
    - exact Hinc.
    - constructor.
    - intros x [].
    - cbn [length]. lia.
    - rewrite Hr in *. cbn [bind]. destruct H as [vt [-> [_ [H2 H3]]]]. exists vt, w'. split; [reflexivity|].
      split; [|exact H3]. intros k Hk1 Hk2. exact (H2 k Hk1 (fun x => x) Hk2). }
  split.
  - intros [k [Hk1 Hk2]] ch. destruct (H ch) as [vt [w' [Hw [H1 _]]]]. exists w'. rewrite Hw, (H1 k Hk1 Hk2).
    apply String.eqb_neq in HT2. now rewrite HT2.
  - intros Hn ch. destruct (H ch) as [vt [w' [Hw [_ H2]]]]. exists w'. rewrite Hw, (H2 Hn). reflexivity.
Qed.

(** What the loop can return: a type that some schema of [K] gives; nothing only
    if none of the schemas present at the start gives one. *)
Lemma loop_sound : forall (E : Env) rec o name K fs (gives : string -> option string),
  (forall k w1, In k K -> w_fs w1 = fs -> exists p w2, rec (nested o (join2 (o_dir o) k) true) w1 = Ret p w2 /\ w_fs w2 = fs /\
     incl (w_inc w1) (w_inc w2) /\ (forall x, In x (w_inc w2) -> In x (w_inc w1) \/ In x K) /\
     match gives k with Some t => get_base name (freeze p) = t /\ t <> name /\ t <> "" | None => get_base name (freeze p) = name end) ->
  forall n initial visited vt w r w', w_fs w = fs -> incl (w_inc w) K -> incl initial (w_inc w) ->
  ((exists k, In k K /\ gives k = Some vt) \/ vt = "" /\ forall k, In k initial -> In k visited -> gives k = None) ->
  include_loop rec n o name initial visited vt w = Ret r w' ->
  exists vt', r = inl vt' /\ ((exists k, In k K /\ gives k = Some vt') \/ vt' = "" /\ forall k, In k initial -> gives k = None).
Proof.
  intros E rec o name K fs gives Hrec. induction n as [|n IH]; intros initial visited vt w r w' Hfs Hinc Hini Hvt H; [discriminate|].
  cbn [include_loop] in H. cbv zeta in H.
  destruct (nth_error (filter (fun k => negb (in_set k visited)) (w_inc w)) _) as [k|] eqn:Hk.
  - apply nth_error_In, filter_In in Hk as [Hk1 Hk2].
    destruct (Hrec k (set_tick (S (w_tick w)) w) (Hinc k Hk1) Hfs) as [p [w2 [Hp [H1 [H2 [H3 H4]]]]]]. rewrite Hp in H.
    apply IH in H; [exact H|exact H1| | |].
    + intros x Hx. destruct (H3 x Hx) as [Hy|Hy]; [now apply Hinc|exact Hy].
    + intros x Hx. apply H2. now apply Hini.
    + destruct (gives k) as [t|] eqn:Hgk.
      * destruct H4 as [-> [Hn Hne]]. apply String.eqb_neq in Hn. rewrite Hn. left. exists k. split; [now apply Hinc|exact Hgk].
      * rewrite H4, String.eqb_refl. destruct Hvt as [Hvt|[-> Hvt]]; [now left|]. right. split; [reflexivity|].
        intros x Hx [<-|Hy]; [exact Hgk|now apply Hvt].
  - injection H as <- <-. exists vt. split; [reflexivity|]. destruct Hvt as [Hvt|[-> Hvt]]; [now left|]. right. split; [reflexivity|].
    intros k Hi. apply Hvt; [exact Hi|]. destruct (in_set k visited) eqn:Hv; [now apply in_set_In|]. exfalso.
    assert (Hm : existsb (fun k => negb (in_set k visited)) initial = true) by (apply existsb_exists; exists k; now rewrite Hv).
    rewrite Hm in Hk. apply nth_error_None in Hk.
    assert (Hc : In k (filter (fun k => negb (in_set k visited)) (w_inc w))) by (apply filter_In; split; [now apply Hini|now rewrite Hv]).
    set (c := filter (fun k => negb (in_set k visited)) (w_inc w)) in *. rewrite Nat.add_0_r in Hk. destruct c as [|x c]; [destruct Hc|].
    pose proof (Nat.mod_upper_bound (env_choose (w_tick w)) (length (x :: c))) as Hb. cbn [length] in *. lia.
Qed.

Theorem include_sound : forall (E : Env) d fuel o v tree w loc K gives,
  o_extract o = false -> representation (o_lang o) (local_part v) = None -> none_gives (local_part v) tree ->
  location v w loc -> ~ is_url loc -> stat (join2 (dir (o_file o)) loc) w = SDir ->
  included_within d fuel o w K (local_part v) gives -> incl (w_inc w) K -> length K < fuel ->
  exists t w', get_value_type (parse d fuel) fuel o v tree w = Ret t w' /\
    ((exists k, In k K /\ gives k = Some t) \/ t = local_part v /\ forall k, In k (w_inc w) -> gives k = None).
Proof.
  intros E d fuel o v tree w loc K gives He Hb Hg Hloc Hu Hs Hk Hinc Hfuel.
  change (local_part v) with (trim_ns_prefix v) in *. set (name := trim_ns_prefix v) in *. rewrite <- representation_eq in Hb.
  unfold get_value_type. cbv zeta. fold name.
  rewrite Hb, (get_base_none _ _ Hg), String.eqb_refl. cbn [negb andb]. rewrite He.
  rewrite (location_get0 _ _ _ Hloc). destruct (is_valid_url loc) eqn:Hv; [now apply url_spec in Hv|]. unfold o_dir at 1. rewrite Hs.
  assert (Hrec : forall k w1, In k K -> w_fs w1 = w_fs w -> exists p w2, parse d fuel (nested o (join2 (o_dir o) k) true) w1 = Ret p w2 /\ w_fs w2 = w_fs w /\
     incl (w_inc w1) (w_inc w2) /\ (forall x, In x (w_inc w2) -> In x (w_inc w1) \/ In x K) /\
     match gives k with Some t => get_base name (freeze p) = t /\ t <> name /\ t <> "" | None => get_base name (freeze p) = name end).
  { intros k w1 Hk1 Hfs. destruct (Hk k w1 Hk1 Hfs) as [p [w2 [Hp [Hi Hbase]]]]. exists p, w2. unfold o_dir. rewrite Hp. split; [reflexivity|].
    pose proof (parse_locations d fuel (nested o (join2 (dir (o_file o)) k) true) w1) as Hgrow. rewrite Hp in Hgrow. cbn in Hgrow.
    destruct Hgrow as [_ [_ Hgrow]]. split; [|split; [exact Hgrow|split; [exact Hi|]]].
    2:{ destruct (gives k) as [t|]; [destruct Hbase as [B1 B2]; split; [now apply get_base_first|exact B2]|now apply get_base_none]. }
    destruct d as [|d]; [discriminate|]. cbn [parse] in Hp.
    destruct (body_extract_effect (parse d fuel) fuel (nested o (join2 (dir (o_file o)) k) true) w1 eq_refl) as [Hsf _].
    rewrite Hp in Hsf. cbn in Hsf. rewrite <- Hfs. apply Hsf. }
  destruct (loop_returns E (parse d fuel) o name K (w_fs w)) with
      (n := fuel) (initial := w_inc w) (visited := @nil string) (vt := "") (w := w) as [r [w' Hr]].
  - intros k w1 Hk1 Hfs. destruct (Hrec k w1 Hk1 Hfs) as [p [w2 [Hp [H1 [_ [H2 _]]]]]]. eauto.
  - reflexivity.
  - exact Hinc.
  - constructor.
  - intros x [].
  - cbn [length]. lia.
  - rewrite Hr. cbn [bind].
    destruct (loop_sound E _ o name K (w_fs w) gives Hrec _ _ _ _ _ _ _ eq_refl Hinc (incl_refl _) (or_intror (conj eq_refl (fun k _ (F : In k []) => match F with end))) Hr) as [vt [-> H]].
    eexists. exists w'. split; [reflexivity|]. destruct H as [[k [H1 H2]]|[-> H]].
    + left. exists k. split; [exact H1|]. destruct (Hrec k w H1 eq_refl) as [p [w2 [_ [_ [_ [_ H3]]]]]]. rewrite H2 in H3.
      destruct H3 as [_ [_ H3]]. apply String.eqb_neq in H3. now rewrite H3.
    + right. split; [reflexivity|exact H].
Qed.

Lemma position_nth : forall k l, In k l -> nth_error l (pos k l) = Some k /\ pos k l < length l.
Proof.
  intros k l. induction l as [|x r IH]; intros H; [destruct H|]. cbn [pos]. destruct (string_dec x k) as [->|Hne].
  - split; [reflexivity|cbn; lia].
  - destruct H as [H|H]; [contradiction|]. destruct (IH H) as [A B]. split; [exact A|cbn; lia].
Qed.

(** Every order of the schemas present at the start can happen, with no other
    schema visited. *)
Lemma loop_reach : forall (E : Env) (rec : (nat -> nat) -> Options -> World -> out PState) R o name K fs (gives : string -> option string),
  (forall ch k w, rec ch (nested o (join2 (o_dir o) k) true) w = R (nested o (join2 (o_dir o) k) true) w) ->
  (forall k w1, In k K -> w_fs w1 = fs -> exists p w2, R (nested o (join2 (o_dir o) k) true) w1 = Ret p w2 /\ w_fs w2 = fs /\
     incl (w_inc w1) (w_inc w2) /\ (forall x, In x (w_inc w2) -> In x (w_inc w1) \/ In x K) /\ w_tick w2 = w_tick w1 /\
     match gives k with Some t => get_base name (freeze p) = t /\ t <> name /\ t <> "" | None => get_base name (freeze p) = name end) ->
  forall initial rest n visited vt w, w_fs w = fs -> incl (w_inc w) K -> incl rest (w_inc w) -> NoDup rest ->
  (forall k, In k initial -> In k visited \/ In k rest) -> (forall k, In k rest -> ~ In k visited) -> length rest < n ->
  exists sel, forall ch, (forall t, w_tick w <= t -> ch t = sel t) ->
    exists w', include_loop (E := with_choose E ch) (rec ch) n o name initial visited vt w = Ret (inl (fold_left (learn gives) rest vt)) w'.
Proof.
  intros E rec R o name K fs gives Heq HR initial. induction rest as [|k rest IH]; intros n visited vt w Hfs Hinc Hin Hnd Hcov Hnv Hn;
    (destruct n as [|n]; [cbn in Hn; lia|]); cbn [include_loop fold_left]; cbv zeta;
    set (cands := filter (fun k => negb (in_set k visited)) (w_inc w)).
  - exists (fun _ => length cands). intros ch Hch. exists w.
    assert (Hm : existsb (fun k => negb (in_set k visited)) initial = false).
    { apply not_true_is_false. intros H. apply existsb_exists in H as [k [H1 H2]]. destruct (Hcov k H1) as [H|[]].
      apply in_set_In in H. rewrite H in H2. discriminate. }
    rewrite Hm. cbn [env_choose with_choose]. rewrite (Hch _ (le_n _)), Nat.mod_small by lia.
    now rewrite (proj2 (nth_error_None cands (length cands)) (le_n _)).
  - assert (Hk : In k (w_inc w)) by (apply Hin; now left).
    assert (Hc : In k cands).
    { apply filter_In. split; [exact Hk|]. apply negb_true_iff, not_true_is_false. intros H. apply in_set_In in H.
      exact (Hnv k (or_introl eq_refl) H). }
    destruct (position_nth k cands Hc) as [Hp Hl].
    destruct (HR k (set_tick (S (w_tick w)) w) (Hinc k Hk) Hfs) as [p [w2 [H0 [H1 [H2 [H3 [H4 H5]]]]]]].
    inversion Hnd as [|x l Hx Hl2]; subst x l.
    destruct (IH n (k :: visited) (learn gives vt k) w2) as [sel Hsel].
    + exact H1.
    + intros x Hy. destruct (H3 x Hy) as [Hz|Hz]; [now apply Hinc|exact Hz].
    + intros x Hy. apply H2, Hin. now right.
    + exact Hl2.
    + intros x Hy. destruct (Hcov x Hy) as [Hz|[Hz|Hz]]; [left; now right|left; now left|now right].
    + intros x Hy [<-|Hz]; [now apply Hx|]. exact (Hnv x (or_intror Hy) Hz).
    + cbn in Hn. lia.
    + exists (fun t => if Nat.eqb t (w_tick w) then pos k cands else sel t). intros ch Hch. cbn [env_choose with_choose].
      rewrite (Hch _ (le_n _)), Nat.eqb_refl, Nat.mod_small by (destruct (existsb _ initial); lia). rewrite Hp, Heq, H0.
      assert (Hv : (if String.eqb (get_base name (freeze p)) name then vt else get_base name (freeze p)) = learn gives vt k).
      { unfold learn. destruct (gives k) as [t|]; [|now rewrite H5, String.eqb_refl].
        destruct H5 as [-> [H6 _]]. apply String.eqb_neq in H6. now rewrite H6. }
      rewrite Hv. apply Hsel. intros t Ht. rewrite H4 in Ht. cbn in Ht. rewrite (Hch t) by lia.
      destruct (Nat.eqb_spec t (w_tick w)); [lia|reflexivity].
Qed.

Theorem include_direct : forall (E : Env) d fuel o v tree w loc K gives,
  o_extract o = false -> representation (o_lang o) (local_part v) = None -> none_gives (local_part v) tree ->
  location v w loc -> ~ is_url loc -> stat (join2 (dir (o_file o)) loc) w = SDir ->
  included_within d fuel o w K (local_part v) gives -> incl (w_inc w) K -> NoDup (w_inc w) -> length (w_inc w) < fuel ->
  forall t, (exists k, In k (w_inc w) /\ gives k = Some t) \/ t = local_part v /\ (forall k, In k (w_inc w) -> gives k = None) ->
  exists ch w', get_value_type (E := with_choose E ch) (parse (E := with_choose E ch) d fuel) fuel o v tree w = Ret t w'.
Proof.
  intros E d fuel o v tree w loc K gives He Hb Hg Hloc Hu Hs Hk Hinc Hnd Hfuel t Ht.
  change (local_part v) with (trim_ns_prefix v) in *. set (name := trim_ns_prefix v) in *. rewrite <- representation_eq in Hb.
  assert (HR : forall k w1, In k K -> w_fs w1 = w_fs w -> exists p w2, parse d fuel (nested o (join2 (o_dir o) k) true) w1 = Ret p w2 /\ w_fs w2 = w_fs w /\
     incl (w_inc w1) (w_inc w2) /\ (forall x, In x (w_inc w2) -> In x (w_inc w1) \/ In x K) /\ w_tick w2 = w_tick w1 /\
     match gives k with Some t => get_base name (freeze p) = t /\ t <> name /\ t <> "" | None => get_base name (freeze p) = name end).
  { intros k w1 Hk1 Hfs. destruct (Hk k w1 Hk1 Hfs) as [p [w2 [Hp [Hi Hbase]]]]. exists p, w2. unfold o_dir. rewrite Hp. split; [reflexivity|].
    pose proof (parse_locations d fuel (nested o (join2 (dir (o_file o)) k) true) w1) as Hgrow. rewrite Hp in Hgrow. cbn in Hgrow.
    destruct Hgrow as [_ [_ Hgrow]]. destruct d as [|d0]; [discriminate|]. cbn [parse] in Hp.
    destruct (body_extract_effect (parse d0 fuel) fuel (nested o (join2 (dir (o_file o)) k) true) w1 eq_refl) as [Hsf _].
    rewrite Hp in Hsf. cbn in Hsf. destruct Hsf as [S1 [S2 [S3 [S4 S5]]]].
    split; [congruence|]. split; [exact Hgrow|]. split; [exact Hi|]. split; [assumption|].
    destruct (gives k) as [u|]; [destruct Hbase as [B1 B2]; split; [now apply get_base_first|exact B2]|now apply get_base_none]. }
  assert (Hval : forall ch ks, (exists w', include_loop (E := with_choose E ch) (parse (E := with_choose E ch) d fuel) fuel o name (w_inc w) [] "" w =
      Ret (inl (fold_left (learn gives) ks "")) w') ->
    exists w', get_value_type (E := with_choose E ch) (parse (E := with_choose E ch) d fuel) fuel o v tree w =
      Ret (let vt := fold_left (learn gives) ks "" in if String.eqb vt "" then name else vt) w').
  { intros ch ks [w' Hw]. exists w'. unfold get_value_type. cbv zeta. fold name.
    rewrite Hb, (get_base_none _ _ Hg), String.eqb_refl. cbn [negb andb]. rewrite He.
    rewrite (location_get0 _ _ _ Hloc). change (@is_valid_url (with_choose E ch)) with (@is_valid_url E).
    destruct (is_valid_url loc) eqn:Hv; [now apply url_spec in Hv|].
    change (stat (E := with_choose E ch) (join2 (o_dir o) loc) w) with (stat (join2 (dir (o_file o)) loc) w). rewrite Hs, Hw. reflexivity. }
  assert (Hreach : forall ks, NoDup ks -> (forall x, In x ks <-> In x (w_inc w)) -> length ks < fuel ->
    exists ch w', get_value_type (E := with_choose E ch) (parse (E := with_choose E ch) d fuel) fuel o v tree w =
      Ret (let vt := fold_left (learn gives) ks "" in if String.eqb vt "" then name else vt) w').
  { intros ks Hks Hsame Hlen.
    destruct (loop_reach E (fun ch => parse (E := with_choose E ch) d fuel) (parse d fuel) o name K (w_fs w) gives
      (fun ch k w1 => parse_choose ch d fuel (nested o (join2 (o_dir o) k) true) w1 eq_refl) HR (w_inc w) ks fuel [] "" w) as [sel Hsel]; try reflexivity.
    - exact Hinc.
    - intros x Hx. now apply Hsame.
    - exact Hks.
    - intros x Hx. right. now apply Hsame.
    - intros x _ [].
    - exact Hlen.
    - exists sel. apply Hval. apply Hsel. reflexivity. }
  destruct Ht as [[k [Hk1 Hgv]]|[-> Hn]].
  - set (ks := (remove string_dec k (w_inc w) ++ [k])%list).
    destruct (Hreach ks) as [ch [w' Hw]].
    + unfold ks. apply NoDup_Add with (a := k) (l := remove string_dec k (w_inc w)).
      * pose proof (Add_app k (remove string_dec k (w_inc w)) []) as Ha. rewrite app_nil_r in Ha. exact Ha.
      * split; [|intros Hin; now apply in_remove in Hin].
        clear -Hnd. induction Hnd as [|x l Hx Hl IH]; cbn [remove]; [constructor|]. destruct (string_dec k x); [exact IH|].
        constructor; [|exact IH]. intros H. apply in_remove in H. tauto.
    + intros x. unfold ks. rewrite in_app_iff. cbn [In]. split.
      * intros [Hx|[<-|[]]]; [apply in_remove in Hx; tauto|exact Hk1].
      * intros Hx. destruct (string_dec x k) as [->|Hne]; [right; now left|left; now apply in_in_remove].
    + unfold ks. rewrite app_length. cbn [length]. pose proof (remove_length_lt string_dec (w_inc w) k Hk1). lia.
    + exists ch, w'. rewrite Hw. cbv zeta. unfold ks. rewrite fold_left_app. cbn [fold_left]. unfold learn at 1 3. rewrite Hgv.
      destruct (HR k w (Hinc k Hk1) eq_refl) as [p [w2 [_ [_ [_ [_ [_ H3]]]]]]]. rewrite Hgv in H3.
      destruct H3 as [_ [_ H3]]. apply String.eqb_neq in H3. now rewrite H3.
  - destruct (Hreach (w_inc w) Hnd (fun x => iff_refl _) Hfuel) as [ch [w' Hw]]. exists ch, w'. rewrite Hw. cbv zeta.
    assert (Hf : fold_left (learn gives) (w_inc w) "" = "").
    { clear -Hn. induction (w_inc w) as [|k l IH]; [reflexivity|]. cbn [fold_left]. unfold learn at 2. rewrite (Hn k (or_introl eq_refl)).
      apply IH. intros x Hx. apply Hn. now right. }
    now rewrite Hf.
Qed.
