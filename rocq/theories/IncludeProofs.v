(** The order in which included schemas are visited (C38). *)

From Coq Require Import String Ascii List Arith NArith ZArith Bool Lia.
From Verif Require Import GoStr GoPath Utf8 Base Utils SpecStr GenGo GenC GenJava GenRust GenTS World Handlers Parser
  StrLemmas StrProofs SpecDoc DocLemmas PathProofs Reify SpecTables TableProofs SpecParse ParserProofs Termination ParseFacts.
Import ListNotations.
Local Open Scope string_scope.

Section Loop.
Context {E : Env}.
Variable rec : Options -> World -> out PState.
Variables (o : Options) (name T : string) (K : list string) (found : string -> bool) (fs : smap node).
Hypothesis Hrec : forall k w1, In k K -> w_fs w1 = fs -> exists p w2,
  rec (nested o (join2 (o_dir o) k) true) w1 = Ret p w2 /\ w_fs w2 = fs /\
  incl (w_inc w1) (w_inc w2) /\ (forall x, In x (w_inc w2) -> In x (w_inc w1) \/ In x K) /\
  get_base name (freeze p) = (if found k then T else name).

Lemma include_agree : T <> name -> forall n initial visited vt w, w_fs w = fs -> incl (w_inc w) K -> incl initial (w_inc w) ->
  match include_loop rec n o name initial visited vt w with
  | Ret r w' => exists vt', r = inl vt' /\ (vt = T -> vt' = T) /\
      (forall k, In k initial -> ~ In k visited -> found k = true -> vt' = T) /\
      ((forall k, In k K -> found k = false) -> vt' = vt)
  | Fail _ _ => False
  | Crash c _ => c = NoFuel
  end.
Proof.
  intros HT n. induction n as [|n IH]; intros initial visited vt w Hfs Hinc Hini; [reflexivity|].
  cbn [include_loop]. cbv zeta.
  set (cands := filter (fun k => negb (in_set k visited)) (w_inc w)).
  destruct (nth_error cands _) as [k|] eqn:Hk.
  - apply nth_error_In in Hk. apply filter_In in Hk as [Hk Hv].
    destruct (Hrec k (set_tick (S (w_tick w)) w) (Hinc _ Hk) Hfs) as [p [w2 [-> [H1 [H0 [H2 H3]]]]]]. rewrite H3.
    assert (Hinc2 : incl (w_inc w2) K) by (intros x Hx; apply H2 in Hx as [Hx|Hx]; [now apply Hinc|exact Hx]).
    assert (Hini2 : incl initial (w_inc w2)) by (intros x Hx; apply H0; now apply Hini).
    specialize (IH initial (k :: visited) (if String.eqb (if found k then T else name) name then vt else if found k then T else name) w2 H1 Hinc2 Hini2).
    destruct (include_loop _ _ _ _ _ _ _ w2) as [r w'|e w'|c w']; [|exact IH|exact IH].
    destruct IH as [vt' [-> [I2 [I3 I4]]]]. exists vt'. split; [reflexivity|].
    destruct (found k) eqn:Hf.
    + apply String.eqb_neq in HT. rewrite HT in *.
      assert (vt' = T) by (now apply I2). split; [auto|]. split; [auto|].
      intros Hnone. rewrite (Hnone k (Hinc _ Hk)) in Hf. discriminate.
    + rewrite String.eqb_refl in *. split; [exact I2|]. split; [|exact I4].
      intros k' Hk' Hv' Hf'. destruct (string_dec k k') as [<-|Hne]; [congruence|]. apply (I3 k'); [exact Hk'| |exact Hf'].
      intros [Hx|Hx]; contradiction.
  - exists vt. split; [reflexivity|]. split; [auto|]. split; [|auto].
    intros k Hi Hv Hf. exfalso. apply nth_error_None in Hk.
    assert (Hc : In k cands).
    { apply filter_In. split; [now apply Hini|]. apply negb_true_iff. apply not_true_is_false. intros Hin.
      now apply in_set_In in Hin. }
    assert (Hm : existsb (fun k => negb (in_set k visited)) initial = true).
    { apply existsb_exists. exists k. split; [exact Hi|]. apply filter_In in Hc. apply Hc. }
    rewrite Hm, Nat.add_0_r in Hk. destruct cands as [|c0 cands0]; [contradiction|].
    pose proof (Nat.mod_upper_bound (env_choose (w_tick w)) (length (c0 :: cands0))) as Hb. cbn [length] in Hk, Hb. lia.
Qed.

End Loop.

Section Orders.
Context {E : Env}.
Variable rec : Options -> World -> out PState.
Variables (o : Options) (name : string) (inc : list string) (gives : string -> option string) (fs : smap node).
Hypothesis Hrec : forall k w1, In k inc -> w_fs w1 = fs -> w_inc w1 = inc -> exists p w2,
  rec (nested o (join2 (o_dir o) k) true) w1 = Ret p w2 /\ w_fs w2 = fs /\ w_inc w2 = inc /\ w_tick w2 = w_tick w1 /\
  get_base name (freeze p) = match gives k with Some t => t | None => name end.
Hypothesis Hname : forall k t, In k inc -> gives k = Some t -> t <> name.

Definition learn (vt k : string) : string := match gives k with Some t => t | None => vt end.

Lemma learn_eq : forall vt k, In k inc ->
  (if String.eqb (match gives k with Some t => t | None => name end) name then vt else match gives k with Some t => t | None => name end) = learn vt k.
Proof.
  intros vt k Hk. unfold learn. destruct (gives k) as [t|] eqn:Hg; [|now rewrite String.eqb_refl].
  destruct (String.eqb_spec t name) as [->|_]; [|reflexivity]. now elim (Hname k name Hk Hg).
Qed.

Lemma loop_any : forall n visited vt w, w_fs w = fs -> w_inc w = inc ->
  length (filter (fun k => negb (in_set k visited)) inc) < n ->
  match include_loop rec n o name inc visited vt w with
  | Ret r _ => exists vt', r = inl vt' /\
      (vt' = vt /\ (forall k, In k inc -> ~ In k visited -> gives k = None) \/ exists k, In k inc /\ gives k = Some vt')
  | Fail _ _ => False
  | Crash _ _ => False
  end.
Proof.
  induction n as [|n IH]; intros visited vt w Hfs Hinc Hn; [lia|].
  cbn [include_loop]. cbv zeta. rewrite Hinc.
  set (cands := filter (fun k => negb (in_set k visited)) inc).
  destruct (nth_error cands _) as [k|] eqn:Hk.
  - apply nth_error_In in Hk. apply filter_In in Hk as [Hk Hv].
    destruct (Hrec k (set_tick (S (w_tick w)) w) Hk Hfs Hinc) as [p [w2 [-> [H1 [H2 [_ ->]]]]]]. rewrite (learn_eq vt k Hk).
    assert (Hs : length (filter (fun x => negb (in_set x (k :: visited))) inc) < n).
    { enough (length (filter (fun x => negb (in_set x (k :: visited))) inc) < length cands) by (fold cands in Hn; lia).
      apply (filter_shrinks _ _ _ k); [|exact Hk|exact Hv|cbn [in_set existsb]; now rewrite String.eqb_refl].
      intros x Hx. cbn [in_set existsb] in Hx. apply negb_true_iff, orb_false_iff in Hx as [_ Hx]. unfold in_set. now rewrite Hx. }
    specialize (IH (k :: visited) (learn vt k) w2 H1 H2 Hs).
    destruct (include_loop _ _ _ _ _ _ _ w2) as [r w'|e w'|c w']; [|exact IH|exact IH].
    destruct IH as [vt' [-> [[-> Hnone]|H]]]; (eexists; split; [reflexivity|]); [|now right].
    unfold learn. destruct (gives k) as [t|] eqn:Hg; [right; exists k; now split|]. left. split; [reflexivity|].
    intros k' Hk' Hv'. destruct (string_dec k k') as [<-|Hne]; [exact Hg|]. apply Hnone; [exact Hk'|]. intros [Hx|Hx]; contradiction.
  - exists vt. split; [reflexivity|]. left. split; [reflexivity|]. intros k Hi Hv. exfalso. apply nth_error_None in Hk.
    assert (Hc : In k cands).
    { apply filter_In. split; [exact Hi|]. apply negb_true_iff. apply not_true_is_false. intros Hin. now apply in_set_In in Hin. }
    assert (Hm : existsb (fun k => negb (in_set k visited)) inc = true).
    { apply existsb_exists. exists k. split; [exact Hi|]. apply filter_In in Hc. apply Hc. }
    rewrite Hm, Nat.add_0_r in Hk. destruct cands as [|c0 cands0]; [contradiction|].
    pose proof (Nat.mod_upper_bound (env_choose (w_tick w)) (length (c0 :: cands0))) as Hb. cbn [length] in Hk, Hb. lia.
Qed.

Fixpoint pos (k : string) (l : list string) : nat :=
  match l with [] => 0 | x :: r => if string_dec x k then 0 else S (pos k r) end.

Lemma pos_nth : forall k l, In k l -> nth_error l (pos k l) = Some k /\ pos k l < length l.
Proof.
  intros k l. induction l as [|x r IH]; intros H; [destruct H|]. cbn [pos]. destruct (string_dec x k) as [->|Hne].
  - split; [reflexivity|cbn; lia].
  - destruct H as [H|H]; [contradiction|]. destruct (IH H) as [A B]. split; [exact A|cbn; lia].
Qed.

Lemma loop_order : forall t0 ks, (forall done k rest, ks = (done ++ k :: rest)%list ->
    env_choose (t0 + length done) = pos k (filter (fun x => negb (in_set x (rev done))) inc)) ->
  NoDup ks -> incl ks inc -> incl inc ks ->
  forall rest done n vt w, ks = (done ++ rest)%list -> w_fs w = fs -> w_inc w = inc -> w_tick w = t0 + length done -> length rest < n ->
  exists w', include_loop rec n o name inc (rev done) vt w = Ret (inl (fold_left learn rest vt)) w'.
Proof.
  intros t0 ks Hch Hnd Hin Hall. induction rest as [|k rest IH]; intros done n vt w Hks Hfs Hinc Ht Hn;
    (destruct n as [|n]; [lia|]); cbn [include_loop fold_left]; cbv zeta; rewrite Hinc.
  - rewrite app_nil_r in Hks. subst ks. exists w.
    assert (Hc : filter (fun k => negb (in_set k (rev done))) inc = []).
    { destruct (filter _ inc) as [|x r] eqn:Hf; [reflexivity|]. exfalso.
      assert (Hx : In x (x :: r)) by now left. rewrite <- Hf in Hx. apply filter_In in Hx as [Hx Hv]. apply negb_true_iff in Hv.
      enough (in_set x (rev done) = true) by congruence. apply in_set_In. rewrite <- in_rev. now apply Hall. }
    rewrite Hc. destruct (Nat.modulo _ _); reflexivity.
  - set (cands := filter (fun k => negb (in_set k (rev done))) inc).
    assert (Hk : In k inc) by (apply Hin; rewrite Hks; apply in_or_app; right; now left).
    assert (Hkv : in_set k (rev done) = false).
    { apply not_true_is_false. intros H. apply in_set_In in H. rewrite <- in_rev in H. rewrite Hks in Hnd.
      apply NoDup_remove_2 in Hnd. apply Hnd, in_or_app. now left. }
    assert (Hkc : In k cands) by (apply filter_In; split; [exact Hk|now rewrite Hkv]).
    assert (Hm : existsb (fun k => negb (in_set k (rev done))) inc = true).
    { apply existsb_exists. exists k. split; [exact Hk|now rewrite Hkv]. }
    rewrite Hm, Nat.add_0_r, Ht, (Hch _ _ _ Hks). fold cands. destruct (pos_nth k cands Hkc) as [Hp Hl].
    rewrite Nat.mod_small by exact Hl. rewrite Hp. rewrite <- Ht.
    destruct (Hrec k (set_tick (S (w_tick w)) w) Hk Hfs Hinc) as [p [w2 [-> [H1 [H2 [H3 ->]]]]]]. rewrite (learn_eq vt k Hk).
    destruct (IH (done ++ [k])%list n (learn vt k) w2) as [w' Hw].
    + rewrite <- app_assoc. exact Hks.
    + exact H1.
    + exact H2.
    + rewrite H3, app_length. cbn [set_tick w_tick length]. lia.
    + cbn [length] in Hn. lia.
    + rewrite rev_app_distr in Hw. cbn [rev app] in Hw. exists w'. exact Hw.
Qed.

End Orders.

(** The order that visits [ks]. *)
Definition visiting (t0 : nat) (ks inc : list string) (t : nat) : nat :=
  let j := t - t0 in pos (nth j ks "") (filter (fun x => negb (in_set x (rev (firstn j ks)))) inc).

Lemma visiting_order : forall t0 ks inc done k rest, ks = (done ++ k :: rest)%list ->
  visiting t0 ks inc (t0 + length done) = pos k (filter (fun x => negb (in_set x (rev done))) inc).
Proof.
  intros t0 ks inc done k rest ->. unfold visiting. replace (t0 + length done - t0) with (length done) by lia.
  rewrite app_nth2, Nat.sub_diag by lia. rewrite firstn_app, Nat.sub_diag, firstn_all. cbn [firstn nth]. now rewrite app_nil_r.
Qed.

Section Choose.
Context {E : Env}.

Lemma gvt_choose : forall ch rec rec' fuel o v t w, o_extract o = true ->
  get_value_type (E := with_choose E ch) rec' fuel o v t w = get_value_type rec fuel o v t w.
Proof.
  intros ch rec rec' fuel o v t w He. unfold get_value_type. cbv zeta.
  destruct (get_build_in_type _ _); [reflexivity|]. destruct (negb _ && negb _); [reflexivity|]. now rewrite He.
Qed.

Lemma parse_choose : forall ch d fuel o w, o_extract o = true ->
  parse (E := with_choose E ch) d fuel o w = parse d fuel o w.
Proof.
  intros ch [|d] fuel o w He; [reflexivity|]. cbn [parse]. unfold parse_body. rewrite He.
  change (stat (E := with_choose E ch) (o_file o) w) with (stat (o_file o) w).
  destruct (stat (o_file o) w) as [|bytes| |]; [reflexivity| |reflexivity|reflexivity].
  change (@env_open_fail (with_choose E ch)) with (@env_open_fail E).
  destruct (env_open_fail (o_file o)); [reflexivity|]. cbv zeta.
  change (@env_tokens (with_choose E ch)) with (@env_tokens E).
  change (@run_tokens (with_choose E ch)) with (@run_tokens E).
  rewrite (run_ext (get_value_type (E := with_choose E ch) (parse (E := with_choose E ch) d fuel) fuel o) (get_value_type (parse d fuel) fuel o)).
  2:{ intros v t w1. now apply gvt_choose. }
  destruct (run_tokens _ _ _ _); cbn [bind]; [|reflexivity|reflexivity].
  rewrite !finish_extract by exact He. reflexivity.
Qed.

Theorem include_order : forall d fuel o v tree w loc K T found,
  o_extract o = false -> representation (o_lang o) (local_part v) = None -> none_gives (local_part v) tree ->
  location v w loc -> ~ is_url loc -> stat (join2 (dir (o_file o)) loc) w = SDir ->
  included_schemas d fuel o w K (local_part v) T found -> incl (w_inc w) K -> T <> local_part v ->
  ((exists k, In k (w_inc w) /\ found k = true) \/ (forall k, In k K -> found k = false)) ->
  exists R, (R = T \/ R = local_part v) /\
    forall ch, match get_value_type (E := with_choose E ch) (parse (E := with_choose E ch) d fuel) fuel o v tree w with
    | Ret t _ => t = R
    | Fail _ _ => False
    | Crash c _ => c = NoFuel
    end.
Proof.
  intros d fuel o v tree w loc K T found He Hb Hg Hloc Hu Hs Hk Hinc HT Hcase.
  change (local_part v) with (trim_ns_prefix v) in *. set (name := trim_ns_prefix v) in *. rewrite <- representation_eq in Hb.
  set (R := if existsb found (w_inc w) then (if String.eqb T "" then name else T) else name).
  exists R. split. { unfold R. destruct (existsb _ _); [destruct (String.eqb T "")|]; auto. }
  intros ch. unfold get_value_type. cbv zeta. fold name.
  rewrite Hb, (get_base_none _ _ Hg), String.eqb_refl. cbn [negb andb]. rewrite He.
  rewrite (location_get0 _ _ _ Hloc). change (@is_valid_url (with_choose E ch)) with (@is_valid_url E).
  destruct (is_valid_url loc) eqn:Hv; [now apply url_spec in Hv|].
  change (stat (E := with_choose E ch) (join2 (o_dir o) loc) w) with (stat (join2 (dir (o_file o)) loc) w). rewrite Hs.
  pose proof (@include_agree (with_choose E ch) (parse (E := with_choose E ch) d fuel) o name T K found (w_fs w)) as H.
  lapply H; clear H.
  - intros H. specialize (H HT fuel (w_inc w) [] "" w eq_refl Hinc (incl_refl _)).
    destruct (include_loop _ _ _ _ _ _ _) as [r w'|e w'|c w']; cbn [bind]; [|exact H|exact H].
    destruct H as [vt [-> [H1 [H2 H3]]]]. unfold R. destruct (existsb found (w_inc w)) eqn:He2.
    + apply existsb_exists in He2 as [k [Hk1 Hk2]]. rewrite (H2 k Hk1 (fun x => x) Hk2). reflexivity.
    + destruct Hcase as [[k [Hk1 Hk2]]|Hc].
      * assert (existsb found (w_inc w) = true) by (apply existsb_exists; eauto). congruence.
      * rewrite (H3 Hc). reflexivity.
  - intros k w1 Hk1 Hfs. destruct (Hk k w1 Hk1 Hfs) as [p [w2 [Hp [Hi Hbase]]]]. exists p, w2.
    rewrite parse_choose by reflexivity. unfold o_dir. rewrite Hp. split; [reflexivity|].
    pose proof (parse_locations d fuel (nested o (join2 (dir (o_file o)) k) true) w1) as Hgrow. rewrite Hp in Hgrow. cbn in Hgrow.
    destruct Hgrow as [_ [_ Hgrow]]. split; [|split; [exact Hgrow|split; [exact Hi|]]].
    2:{ destruct (found k); [now apply get_base_first|now apply get_base_none]. }
    destruct d as [|d]; [discriminate|]. cbn [parse] in Hp.
    destruct (body_extract_effect (parse d fuel) fuel (nested o (join2 (dir (o_file o)) k) true) w1 eq_refl) as [Hsf _].
    rewrite Hp in Hsf. cbn in Hsf. rewrite <- Hfs. apply Hsf.
Qed.

Theorem include_exact : forall d fuel o v tree w loc gives,
  o_extract o = false -> representation (o_lang o) (local_part v) = None -> none_gives (local_part v) tree ->
  location v w loc -> ~ is_url loc -> stat (join2 (dir (o_file o)) loc) w = SDir ->
  included_exactly d fuel o w (local_part v) gives -> NoDup (w_inc w) -> length (w_inc w) < fuel ->
  let value ch := get_value_type (E := with_choose E ch) (parse (E := with_choose E ch) d fuel) fuel o v tree w in
  (forall ch, exists t w', value ch = Ret t w') /\
  forall t, (exists ch w', value ch = Ret t w') <->
    (exists k, In k (w_inc w) /\ gives k = Some t) \/
    t = local_part v /\ forall k, In k (w_inc w) -> gives k = None.
Proof.
  intros d fuel o v tree w loc gives He Hb Hg Hloc Hu Hs Hk Hnd Hfuel value.
  change (local_part v) with (trim_ns_prefix v) in *. set (name := trim_ns_prefix v) in *. rewrite <- representation_eq in Hb.
  assert (Hval : forall ch, value ch = bind (include_loop (E := with_choose E ch) (parse (E := with_choose E ch) d fuel) fuel o name (w_inc w) [] "" w)
      (fun r w1 => match r with inr t => Ret t w1 | inl vt => Ret (if String.eqb vt "" then name else vt) w1 end)).
  { intros ch. unfold value, get_value_type. cbv zeta. fold name.
    rewrite Hb, (get_base_none _ _ Hg), String.eqb_refl. cbn [negb andb]. rewrite He.
    rewrite (location_get0 _ _ _ Hloc). change (@is_valid_url (with_choose E ch)) with (@is_valid_url E).
    destruct (is_valid_url loc) eqn:Hv; [now apply url_spec in Hv|].
    change (stat (E := with_choose E ch) (join2 (o_dir o) loc) w) with (stat (join2 (dir (o_file o)) loc) w). rewrite Hs.
    destruct (include_loop _ _ _ _ _ _ _ _); reflexivity. }
  assert (Hrec : forall ch k w1, In k (w_inc w) -> w_fs w1 = w_fs w -> w_inc w1 = w_inc w -> exists p w2,
      parse (E := with_choose E ch) d fuel (nested o (join2 (o_dir o) k) true) w1 = Ret p w2 /\ w_fs w2 = w_fs w /\
      w_inc w2 = w_inc w /\ w_tick w2 = w_tick w1 /\
      get_base name (freeze p) = match gives k with Some t => t | None => name end).
  { intros ch k w1 Hk1 Hfs Hinc. destruct (Hk k w1 Hk1 Hfs Hinc) as [p [w2 [Hp [Hi Hbase]]]]. exists p, w2.
    rewrite parse_choose by reflexivity. unfold o_dir. rewrite Hp. split; [reflexivity|].
    destruct d as [|d0]; [discriminate|]. cbn [parse] in Hp.
    destruct (body_extract_effect (parse d0 fuel) fuel (nested o (join2 (dir (o_file o)) k) true) w1 eq_refl) as [Hsf _].
    rewrite Hp in Hsf. cbn in Hsf. destruct Hsf as [S1 [S2 [S3 [S4 S5]]]].
    split; [congruence|]. split; [exact Hi|]. split; [assumption|].
    destruct (gives k); [apply get_base_first, Hbase|now apply get_base_none]. }
  assert (Hname : forall k t, In k (w_inc w) -> gives k = Some t -> t <> name /\ t <> "").
  { intros k t Hk1 Hgv. destruct (Hk k w Hk1 eq_refl eq_refl) as [p [w2 [_ [_ Hbase]]]]. rewrite Hgv in Hbase. tauto. }
  assert (Hlen : length (filter (fun k => negb (in_set k [])) (w_inc w)) < fuel).
  { enough (length (filter (fun k => negb (in_set k [])) (w_inc w)) <= length (w_inc w)) by lia.
    clear. induction (w_inc w) as [|k l IH]; cbn [filter length]; [lia|]. destruct (negb _); cbn [length]; lia. }
  assert (Hany : forall ch, exists vt w', value ch = Ret (if String.eqb vt "" then name else vt) w' /\
    (vt = "" /\ (forall k, In k (w_inc w) -> gives k = None) \/ exists k, In k (w_inc w) /\ gives k = Some vt)).
  { intros ch. rewrite Hval.
    pose proof (@loop_any (with_choose E ch) (parse (E := with_choose E ch) d fuel) o name (w_inc w) gives (w_fs w) (Hrec ch)
      (fun k t Hk1 Hgv => proj1 (Hname k t Hk1 Hgv)) fuel [] "" w eq_refl eq_refl Hlen) as H.
    destruct (include_loop _ _ _ _ _ _ _ _) as [r w'|e w'|c w']; [|destruct H|destruct H].
    destruct H as [vt [-> H]]. exists vt, w'. split; [reflexivity|]. destruct H as [[-> H]|H]; [left|right; exact H].
    split; [reflexivity|]. intros k Hk1. now apply H. }
  split.
  { intros ch. destruct (Hany ch) as [vt [w' [H _]]]. eauto. }
  intros t. split.
  - intros [ch [w' Hv]]. destruct (Hany ch) as [vt [w2 [Hv2 H]]]. rewrite Hv in Hv2. injection Hv2 as -> _.
    destruct H as [[-> H]|[k [Hk1 Hgv]]]; [right; now split|]. left. exists k. split; [exact Hk1|].
    destruct (Hname k vt Hk1 Hgv) as [_ Hne]. apply String.eqb_neq in Hne. now rewrite Hne.
  - intros [[k [Hk1 Hgv]]|[-> Hnone]].
    + set (ks := (remove string_dec k (w_inc w) ++ [k])%list). exists (visiting (w_tick w) ks (w_inc w)).
      set (ch := visiting (w_tick w) ks (w_inc w)). rewrite Hval.
      destruct (@loop_order (with_choose E ch) (parse (E := with_choose E ch) d fuel) o name (w_inc w) gives (w_fs w) (Hrec ch)
        (fun k t Hk1 Hgv => proj1 (Hname k t Hk1 Hgv)) (w_tick w) ks) with (rest := ks) (done := @nil string) (n := fuel) (vt := "") (w := w)
        as [w' Hw]; try reflexivity.
      * intros done k' rest Hks. now apply visiting_order with (rest := rest).
      * unfold ks. apply NoDup_Add with (a := k) (l := remove string_dec k (w_inc w)).
        -- pose proof (Add_app k (remove string_dec k (w_inc w)) []) as Ha. rewrite app_nil_r in Ha. exact Ha.
        -- split; [|intros Hin; now apply in_remove in Hin].
           clear -Hnd. induction Hnd as [|x l Hx Hl IH]; cbn [remove]; [constructor|]. destruct (string_dec k x); [exact IH|].
           constructor; [|exact IH]. intros H. apply in_remove in H. tauto.
      * intros x Hx. unfold ks in Hx. apply in_app_or in Hx as [Hx|[<-|[]]]; [apply in_remove in Hx; tauto|exact Hk1].
      * intros x Hx. unfold ks. apply in_or_app. destruct (string_dec x k) as [->|Hne]; [right; now left|left; now apply in_in_remove].
      * cbn [length]. lia.
      * unfold ks. rewrite app_length. cbn [length]. pose proof (remove_length_lt string_dec (w_inc w) k Hk1). lia.
      * cbn [rev] in Hw. rewrite Hw. exists w'. cbn [bind]. 
        assert (Hlast : fold_left (learn gives) ks "" = t) by (unfold ks; rewrite fold_left_app; cbn [fold_left]; unfold learn at 1; now rewrite Hgv).
        rewrite Hlast. destruct (Hname k t Hk1 Hgv) as [_ Hne]. apply String.eqb_neq in Hne. now rewrite Hne.
    + exists (fun _ => 0). destruct (Hany (fun _ => 0)) as [vt [w' [Hv [[-> _]|[k [Hk1 Hgv]]]]]]; [exists w'; exact Hv|].
      rewrite (Hnone k Hk1) in Hgv. discriminate.
Qed.

End Choose.
