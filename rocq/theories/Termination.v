(** Termination of Parse (C16). *)

From Coq Require Import String Ascii List Arith NArith ZArith Bool Lia.
From Verif Require Import GoStr GoPath Base Utils World Handlers Parser
  StrLemmas StrProofs PathProofs Reify ParserProofs.
Import ListNotations.
Local Open Scope string_scope.

Section Termination.
Context {E : Env}.

(** * Invariants of the world through GetValueType *)

Section Inv.
Variable I : World -> Prop.
Variable C : crash -> Prop.
Hypothesis I_tick : forall n w, I w -> I (set_tick n w).

Lemma include_inv : forall rec o name n initial visited vt w,
  C NoFuel -> (forall f w, I w -> good I C (rec (nested o f true) w)) -> I w ->
  good I C (include_loop rec n o name initial visited vt w).
Proof.
  intros rec o name n. induction n as [|n IH]; intros initial visited vt w HC Hr Hi; [now split|].
  cbn [include_loop]. cbv zeta. destruct (nth_error _ _) as [k|]; [|now split].
  set (w1 := set_tick _ w). assert (H1 : I w1) by now apply I_tick.
  destruct (Hr (join2 (o_dir o) k) w1 H1) as [H2 H3].
  destruct (rec _ w1) as [p w2|e w2|c w2]; cbn [out_world] in H2; [|now split|now split].
  now apply IH.
Qed.

Lemma gvt_inv : forall rec fuel o v t w,
  C NoFuel -> (forall f w, I w -> good I C (rec (nested o f true) w)) ->
  (forall f w, I w -> clean f = f -> get f (w_pmap w) = None -> good I C (rec (nested o f false) w)) ->
  I w -> good I C (get_value_type rec fuel o v t w).
Proof.
  intros rec fuel o v t w HC Hx Hn Hi.
  assert (HR : forall s, good I C (Ret s w : out string)) by (now split).
  assert (HF : forall e, good I C (Fail e w : out string)) by (now split).
  unfold get_value_type. cbv zeta.
  destruct (get_build_in_type _ _); [apply HR|].
  destruct (negb _ && negb _); [apply HR|]. destruct (o_extract o); [apply HR|].
  destruct (is_valid_url _); [apply HR|].
  destruct (stat _ w); [|
    match goal with |- good I C match get ?f _ with _ => _ end => set (file := f) end|apply HF|apply HF].
  - destruct (include_inv rec o (trim_ns_prefix v) fuel (w_inc w) [] "" w HC Hx Hi) as [H1 H2].
    destruct (include_loop _ _ _ _ _ _ _ _) as [[vt|vt] w1|e w1|c w1]; now split.
  - assert (Ha : forall t w1, I w1 ->
      good I C (match rec (nested o file true) w1 with
                | Crash c w => Crash c w
                | Fail _ w => Ret t w
                | Ret p w => Ret (get_base (trim_ns_prefix v) (freeze p)) w
                end)).
    { intros t1 w1 H. destruct (Hx file w1 H) as [H2 H3].
      destruct (rec _ w1); cbn [out_world] in H2; now split. }
    destruct (get file (w_pmap w)) as [dep|] eqn:Hg.
    + destruct (negb _ && negb _); [apply HR|now apply Ha].
    + destruct (Hn file w Hi (join2_dir _ _) Hg) as [H2 H3].
      destruct (rec _ w) as [p w1|e w1|c w1]; cbn [out_world] in H2; [|now split|now split].
      destruct (negb _ && negb _); [now split|now apply Ha].
Qed.

End Inv.

(** * The number of files that can still be parsed *)

Definition budget (n : nat) (w : World) : Prop :=
  exists L, length L <= n /\
    forall c b, get c (w_fs w) = Some (NFile b) -> get c (w_pmap w) = None -> In c L.

Definition fresh (o : Options) (w : World) : Prop :=
  clean (o_file o) = o_file o /\ get (o_file o) (w_pmap w) = None.

Lemma budget_same : forall n w w', w_fs w' = w_fs w -> w_pmap w' = w_pmap w -> budget n w -> budget n w'.
Proof. intros n w w' H1 H2 [L [HL H]]. exists L. rewrite H1, H2. now split. Qed.

Lemma budget_op : forall n op w, budget n w -> budget n (do_wop op w).
Proof. intros n op w. apply budget_same; now destruct op. Qed.

Lemma budget_register : forall n o tree w, budget n w -> budget n (register o tree w).
Proof.
  intros n o tree w [L [HL H]]. exists L. split; [exact HL|]. intros c b H1 H2. apply (H c b H1).
  cbn in H2. destruct (string_dec (o_file o) c) as [<-|Hne]; [now rewrite get_put_same in H2|].
  now rewrite get_put_other in H2.
Qed.

Lemma remove_length : forall (x : string) L, In x L -> length (remove string_dec x L) < length L.
Proof. intros x L H. now apply remove_length_lt. Qed.

(** Registering an existing file that was not registered yet. *)
Lemma budget_fresh : forall n o tree w b, fresh o w -> get (o_file o) (w_fs w) = Some (NFile b) ->
  budget n w -> 1 <= n /\ budget (n - 1) (register o tree w).
Proof.
  intros n o tree w b [_ Hf] Hb [L [HL H]]. pose proof (H _ _ Hb Hf) as Hin.
  pose proof (remove_length _ _ Hin) as Hl. split; [destruct L; [destruct Hin|cbn in *; lia]|].
  exists (remove string_dec (o_file o) L). split; [lia|].
  intros c b' H1 H2. cbn in H1, H2. destruct (string_dec (o_file o) c) as [<-|Hne]; [now rewrite get_put_same in H2|].
  rewrite get_put_other in H2 by exact Hne. apply in_in_remove; [congruence|]. now apply (H c b').
Qed.

Lemma budget_finish : forall n o p w, o_extract o = false -> budget n w -> budget (S n) (out_world (finish o p w)).
Proof.
  intros n o p w He [L [HL H]]. destruct (finish_effect o p w He) as [_ [_ [_ [_ [_ [_ [_ [Hp _]]]]]]]]. destruct (finish_one_file o p w He) as [t Ht].
  exists (t :: L). split; [cbn; lia|]. intros c b H1 H2. destruct (string_dec t c) as [->|Hne]; [now left|right].
  apply (H c b); [apply Ht; [exact H1|congruence]|].
  rewrite Hp in H2. destruct (string_dec (o_file o) c) as [<-|Hne']; [now rewrite get_put_same in H2|].
  now rewrite get_put_other in H2.
Qed.

Definition any_crash (c : crash) : Prop := True.

Lemma good_any : forall A (I : World -> Prop) (m : out A), I (out_world m) -> good I any_crash m.
Proof. intros A I m H. split; [exact H|]. now destruct m. Qed.

Lemma stat_file : forall p w b, stat p w = SFile b -> get (clean p) (w_fs w) = Some (NFile b).
Proof.
  intros p w b H. unfold stat in H. destruct (env_stat_fail p); [discriminate|].
  destruct (String.eqb p ""); [discriminate|]. unfold lookup in H.
  destruct (implicit_dir _); [discriminate|]. destruct (get _ _) as [[|b']|]; try discriminate.
  - now injection H as ->.
  - destruct (existsb _ _); discriminate.
Qed.

(** A nested parse leaves the number as it was, or smaller. *)
Lemma parse_budget : forall d fuel o w n, o_extract o = true \/ fresh o w -> budget n w ->
  budget n (out_world (parse d fuel o w)).
Proof.
  induction d as [|d IH]; intros fuel o w n Ho Hb; [exact Hb|].
  destruct (o_extract o) eqn:He.
  - destruct (body_extract_effect (parse d fuel) fuel o w He) as [[H1 [_ [H2 _]]] _].
    cbn [parse]. now apply (budget_same n w).
  - destruct Ho as [Ho|Ho]; [discriminate|]. cbn [parse]. unfold parse_body. rewrite He.
    destruct (stat (o_file o) w) as [|bytes| |] eqn:Hs; [exact Hb| |exact Hb|exact Hb].
    destruct (env_open_fail (o_file o)); [exact Hb|]. cbv zeta.
    apply stat_file in Hs. rewrite (proj1 Ho) in Hs.
    destruct (budget_fresh n o (freeze (o_ps o)) w bytes Ho Hs Hb) as [Hn Hb1].
    set (w1 := register o (freeze (o_ps o)) w) in *.
    destruct (run_inv (budget (n - 1)) any_crash (get_value_type (parse d fuel) fuel o) (env_tokens bytes))
      with (p := p_init) (w := w1) as [H1 _]; [intros op w2 _; apply budget_op| |exact Logic.I|exact Hb1|].
    + intros v t w2 H2. apply gvt_inv; [|exact Logic.I| | |exact H2].
      * intros k w3. now apply budget_same.
      * intros f w3 H3. apply good_any. apply IH; [now left|exact H3].
      * intros f w3 H3 Hc Hg. apply good_any. apply IH; [right; now split|exact H3].
    + assert (Hle : forall w, budget (n - 1) w -> budget n w).
      { intros w2 [L [HL H]]. exists L. split; [lia|exact H]. }
      destruct (run_tokens _ _ _ w1) as [p w2|e w2|c w2]; cbn [bind out_world] in *; [|now apply Hle|now apply Hle].
      replace n with (S (n - 1)) by lia. now apply budget_finish.
Qed.

(** * Finitely many include keys *)

Definition inc_keys (bytes : string) : list string :=
  flat_map (fun t => match t with
                     | TStart _ l => map a_value (filter (fun x => String.eqb (a_local x) "schemaLocation") l)
                     | _ => []
                     end) (env_tokens bytes).

Definition includes_in (K : list string) (w : World) : Prop :=
  (forall k, In k (w_inc w) -> In k K) /\
  (forall c b k, get c (w_fs w) = Some (NFile b) -> In k (inc_keys b) -> In k K).

Lemma get_In : forall A k (m : smap A) v, get k m = Some v -> In (k, v) m.
Proof.
  intros A k m v. induction m as [|[k' v'] m IH]; cbn; [discriminate|].
  destruct (String.eqb_spec k' k) as [->|Hk]; intros H; [injection H as ->; now left|right; now apply IH].
Qed.

Lemma includes_exist : forall w, exists K, includes_in K w.
Proof.
  intros w. exists (w_inc w ++ flat_map (fun kv => match snd kv with NFile b => inc_keys b | NDir => [] end) (w_fs w))%list.
  split; intros; apply in_app_iff; [now left|right].
  apply in_flat_map. exists (c, NFile b). split; [now apply get_In|exact H0].
Qed.

Lemma fold_add_keys : forall l m k,
  In k (fold_left (fun m x => if String.eqb (a_local x) "schemaLocation" then add_key (a_value x) m else m) l m) ->
  In k m \/ In k (map a_value (filter (fun x => String.eqb (a_local x) "schemaLocation") l)).
Proof.
  induction l as [|x l IH]; intros m k H; [now left|]. cbn in H |- *. apply IH in H.
  destruct (String.eqb (a_local x) "schemaLocation"); [|exact H].
  cbn. destruct H as [H|H]; [|now right; right]. apply add_key_In in H as [H| ->]; [now left|now right; left].
Qed.

Lemma extract_includes : forall K rec fuel o w, o_extract o = true -> includes_in K w ->
  includes_in K (out_world (parse_body rec fuel o w)).
Proof.
  intros K rec fuel o w He Hi. unfold parse_body. rewrite He.
  destruct (stat (o_file o) w) as [|bytes| |] eqn:Hs; [exact Hi| |exact Hi|exact Hi].
  destruct (env_open_fail (o_file o)); [exact Hi|]. cbv zeta. apply stat_file in Hs.
  destruct (run_inv (fun w' => w_fs w' = w_fs w /\ includes_in K w') any_crash (get_value_type rec fuel o) (env_tokens bytes))
    with (p := p_init) (w := w) as [[_ H1] _]; [| |exact Logic.I|now split|].
  - intros op w1 [t [Ht Hop]] [Hfs [H1 H2]]. destruct t as [local l| | |]; try (now destruct Hop).
    destruct Hop as [[_ ->]|[[_ ->]|[_ ->]]]; (split; [exact Hfs|]); (split; [|exact H2]); try exact H1.
    intros k Hk. cbn in Hk. apply fold_add_keys in Hk as [Hk|Hk]; [now apply H1|].
    apply (H2 (clean (o_file o)) bytes k); [rewrite Hfs; exact Hs|]. unfold inc_keys. apply in_flat_map.
    exists (TStart local l). now split.
  - intros v t w1 H. destruct (gvt_extract rec fuel o v t w1 He) as [s H'].
    destruct (H' rec fuel o w1 He eq_refl) as [-> _]. now split.
  - destruct (run_tokens _ _ _ w); cbn [bind out_world] in *; [now rewrite finish_extract|exact H1|exact H1].
Qed.

Lemma filter_shrinks : forall (f g : string -> bool) l k, (forall x, g x = true -> f x = true) ->
  In k l -> f k = true -> g k = false -> length (filter g l) < length (filter f l).
Proof.
  intros f g l k Hgf. induction l as [|x l IH]; intros Hin Hf Hg; [destruct Hin|].
  assert (Hle : forall m, length (filter g m) <= length (filter f m)).
  { intros m. induction m as [|y m IHm]; cbn; [lia|].
    specialize (Hgf y). destruct (g y), (f y); cbn; lia. }
  cbn. destruct Hin as [->|Hin].
  - rewrite Hf, Hg. cbn. specialize (Hle l). lia.
  - specialize (IH Hin Hf Hg). pose proof (Hgf x) as Hx. destruct (g x), (f x); cbn; lia.
Qed.

(** A parse in Extract mode. *)
Definition xparse (o : Options) (f : string) (w : World) : out PState :=
  parse_body (fun _ w => Crash NoFuel w) 0 (nested o f true) w.

Lemma xparse_parse : forall d fuel o f w, parse (S d) fuel (nested o f true) w = xparse o f w.
Proof. intros d fuel o f w. cbn [parse]. now apply body_extract. Qed.

Lemma xparse_finished : forall o f w, finished (xparse o f w).
Proof.
  intros o f w w1 H. destruct (body_extract_effect (fun _ w => Crash NoFuel w) 0 (nested o f true) w eq_refl) as [_ Hc].
  discriminate (Hc _ _ H).
Qed.

Lemma loop_settles : forall K o name m initial visited vt w,
  includes_in K w -> length (filter (fun k => negb (in_set k visited)) K) <= m ->
  exists r, finished r /\
    forall rec n, (forall f w, rec (nested o f true) w = xparse o f w) -> m < n ->
    include_loop rec n o name initial visited vt w = r.
Proof.
  intros K o name m. induction m as [|m IH]; intros initial visited vt w Hi Hm.
  - exists (Ret (inl vt) w). split; [intros w1; discriminate|]. intros rec n _ Hn. destruct n as [|n]; [lia|].
    cbn [include_loop]. cbv zeta. destruct (nth_error _ _) as [k|] eqn:Hk; [|reflexivity].
    apply nth_error_In, filter_In in Hk as [Hk1 Hk2].
    assert (Hin : In k (filter (fun k => negb (in_set k visited)) K)) by (apply filter_In; split; [now apply Hi|exact Hk2]).
    destruct (filter _ K); [destruct Hin|cbn in Hm; lia].
  - set (cands := filter (fun k => negb (in_set k visited)) (w_inc w)).
    set (must := existsb (fun k => negb (in_set k visited)) initial).
    destruct (nth_error cands (Nat.modulo (env_choose (w_tick w)) (length cands + (if must then 0 else 1)))) as [k|] eqn:Hk.
    2: { exists (Ret (inl vt) w). split; [intros w1; discriminate|]. intros rec n _ Hn. destruct n as [|n]; [lia|].
         cbn [include_loop]. cbv zeta. fold cands. fold must. now rewrite Hk. }
    set (w1 := set_tick (S (w_tick w)) w). set (f := join2 (o_dir o) k).
    assert (Hi1 : includes_in K w1) by exact Hi.
    pose proof (extract_includes K (fun _ w => Crash NoFuel w) 0 (nested o f true) w1 eq_refl Hi1) as Hi2.
    pose proof (xparse_finished o f w1) as Hfin. change (parse_body _ _ _ _) with (xparse o f w1) in Hi2.
    destruct (xparse o f w1) as [p w2|e w2|c w2] eqn:Hp; cbn [out_world] in Hi2.
    + pose proof Hk as Hk0. apply nth_error_In in Hk0. apply filter_In in Hk0 as [Hk1 Hk2].
      destruct (IH initial (k :: visited) (if String.eqb (get_base name (freeze p)) name then vt else get_base name (freeze p)) w2 Hi2)
        as [r [Hr Hn]].
      { apply Nat.lt_succ_r. eapply Nat.lt_le_trans; [|exact Hm].
        apply (filter_shrinks _ _ _ k); [|now apply Hi|exact Hk2|].
        - intros x. cbn. unfold in_set. cbn. now destruct (String.eqb x k).
        - cbn. unfold in_set. cbn. now rewrite String.eqb_refl. }
      exists r. split; [exact Hr|]. intros rec n Hrec Hlt. destruct n as [|n]; [lia|].
      cbn [include_loop]. cbv zeta. fold cands. fold must. fold w1. rewrite Hk. fold f. rewrite Hrec, Hp.
      apply Hn; [exact Hrec|lia].
    + exists (Ret (inr vt) w2). split; [intros w3; discriminate|].
      intros rec n Hrec Hlt. destruct n as [|n]; [lia|].
      cbn [include_loop]. cbv zeta. fold cands. fold must. fold w1. rewrite Hk. fold f. now rewrite Hrec, Hp.
    + exists (Crash c w2). split; [intros w3 H3; injection H3 as -> ->; now apply (Hfin w3)|].
      intros rec n Hrec Hlt. destruct n as [|n]; [lia|].
      cbn [include_loop]. cbv zeta. fold cands. fold must. fold w1. rewrite Hk. fold f. now rewrite Hrec, Hp.
Qed.

(** * Termination *)

Lemma gvt_settles : forall d o v t w,
  (forall f w', w' = w -> clean f = f -> get f (w_pmap w) = None ->
    (exists b, get f (w_fs w) = Some (NFile b)) -> settles (fun fuel => parse (S d) fuel (nested o f false) w')) ->
  settles (fun fuel => get_value_type (parse (S d) fuel) fuel o v t w).
Proof.
  intros d o v t w Hn. unfold get_value_type. cbv zeta.
  assert (HR : forall s, settles (fun _ : nat => (Ret s w : out string))) by (intros s; apply settles_const; discriminate).
  assert (HF : forall e, settles (fun _ : nat => (Fail e w : out string))) by (intros e; apply settles_const; discriminate).
  destruct (get_build_in_type _ _); [apply HR|].
  destruct (negb _ && negb _); [apply HR|]. destruct (o_extract o); [apply HR|].
  destruct (is_valid_url _); [apply HR|].
  match goal with |- settles (fun _ => match stat ?f _ with _ => _ end) => set (file := f) end.
  destruct (stat file w) as [|bytes| |] eqn:Hs; [| |apply HF|apply HF].
  - destruct (includes_exist w) as [K HK].
    destruct (loop_settles K o (trim_ns_prefix v) (length K) (w_inc w) [] "" w HK) as [r [Hr Hl]].
    { clear. induction K as [|k K IH]; [cbn; lia|]. cbn [filter length]. destruct (negb _); cbn [length]; lia. }
    apply (settles_bind _ _ (fun fuel => include_loop (parse (S d) fuel) fuel o (trim_ns_prefix v) (w_inc w) [] "" w)
             (fun _ r w => match r with inr vt => Ret vt w | inl vt => Ret (if String.eqb vt "" then trim_ns_prefix v else vt) w end)).
    + exists (S (length K)), r. split; [exact Hr|]. intros fuel Hle. apply Hl; [|lia].
      intros f w1. apply xparse_parse.
    + intros n [vt|vt] w1 _; apply settles_const; discriminate.
  - apply stat_file in Hs. rewrite (join2_dir _ _ : clean file = file) in Hs.
    assert (Ha : forall t1 w1,
      settles (fun fuel => match parse (S d) fuel (nested o file true) w1 with
                | Crash c w => Crash c w
                | Fail _ w => Ret t1 w
                | Ret p w => Ret (get_base (trim_ns_prefix v) (freeze p)) w
                end)).
    { intros t1 w1. exists 0, (match xparse o file w1 with
                | Crash c w => Crash c w
                | Fail _ w => Ret t1 w
                | Ret p w => Ret (get_base (trim_ns_prefix v) (freeze p)) w
                end).
      split; [|intros fuel _; now rewrite xparse_parse].
      pose proof (xparse_finished o file w1) as Hx. destruct (xparse o file w1) as [p w2|e w2|c w2]; [discriminate|discriminate|].
      intros w3 H3. injection H3 as -> ->. now apply (Hx w3). }
    destruct (get file (w_pmap w)) as [dep|] eqn:Hg.
    + destruct (negb _ && negb _); [apply HR|apply Ha].
    + destruct (Hn file w eq_refl (join2_dir _ _) Hg (ex_intro _ bytes Hs)) as [n [r [Hr Hl]]].
      destruct r as [p w1|e w1|c w1].
      * set (t1 := get_base (trim_ns_prefix v) (freeze p)).
        destruct (Ha t1 w1) as [n2 [r2 [Hr2 Hl2]]].
        destruct (negb (String.eqb t1 (trim_ns_prefix v)) && negb (String.eqb t1 "")) eqn:Ht.
        -- exists n, (Ret t1 w1). split; [discriminate|]. intros fuel Hle. rewrite Hl by exact Hle. fold t1. now rewrite Ht.
        -- exists (Nat.max n n2), r2. split; [exact Hr2|]. intros fuel Hle. rewrite Hl by lia. fold t1. rewrite Ht.
           apply Hl2. lia.
      * exists n, (Ret (get_base (trim_ns_prefix v) t) w1). split; [discriminate|]. intros fuel Hle. now rewrite Hl by exact Hle.
      * exists n, (Crash c w1). split; [intros w3 H3; injection H3 as -> ->; now apply (Hr w3)|].
        intros fuel Hle. now rewrite Hl by exact Hle.
Qed.

Lemma run_parse_settles : forall d o m ts p w,
  (forall f w', clean f = f -> get f (w_pmap w') = None -> (exists b, get f (w_fs w') = Some (NFile b)) ->
     budget m w' -> settles (fun fuel => parse (S d) fuel (nested o f false) w')) ->
  budget m w -> settles (fun fuel => run_tokens (get_value_type (parse (S d) fuel) fuel o) ts p w).
Proof.
  intros d o m ts p w Hn Hb.
  apply (run_settles (budget m) (fun fuel => get_value_type (parse (S d) fuel) fuel o)); [| | |exact Hb].
  - intros op w1. apply budget_op.
  - intros v t w1 H1. apply gvt_settles. intros f w' -> Hc Hg Hex. now apply Hn.
  - intros fuel v t w1 s w2 H1 H2.
    pose proof (gvt_inv (budget m) any_crash) as HI.
    assert (Hg : good (budget m) any_crash (get_value_type (parse (S d) fuel) fuel o v t w1)).
    { apply HI; [intros k w3; now apply budget_same|exact Logic.I| | |exact H1].
      - intros f w3 H3. apply good_any, parse_budget; [now left|exact H3].
      - intros f w3 H3 Hc Hx. apply good_any, parse_budget; [right; now split|exact H3]. }
    rewrite H2 in Hg. apply Hg.
Qed.

Lemma body_settles : forall d o m w,
  (forall f w', clean f = f -> get f (w_pmap w') = None -> (exists b, get f (w_fs w') = Some (NFile b)) ->
     budget m w' -> settles (fun fuel => parse (S d) fuel (nested o f false) w')) ->
  (o_extract o = false -> budget m (register o (freeze (o_ps o)) w)) ->
  settles (fun fuel => parse (S (S d)) fuel o w).
Proof.
  intros d o m w Hn Hb. destruct (o_extract o) eqn:He.
  - exists 0, (parse_body (fun _ w => Crash NoFuel w) 0 o w). split.
    + intros w1 H. destruct (body_extract_effect (fun _ w => Crash NoFuel w) 0 o w He) as [_ Hc]. discriminate (Hc _ _ H).
    + intros fuel _. cbn [parse]. now apply body_extract.
  - change (settles (fun fuel => parse_body (parse (S d) fuel) fuel o w)). unfold parse_body. rewrite He.
    destruct (stat (o_file o) w) as [|bytes| |]; try (apply settles_const; discriminate).
    destruct (env_open_fail (o_file o)); [apply settles_const; discriminate|]. cbv zeta.
    apply (settles_bind _ _ (fun fuel => run_tokens (get_value_type (parse (S d) fuel) fuel o) (env_tokens bytes) p_init
             (register o (freeze (o_ps o)) w)) (fun _ => finish o)).
    + apply (run_parse_settles d o m); [exact Hn|now apply Hb].
    + intros n p w1 _. apply settles_const. intros w2. apply (finish_effect o p w1 He).
Qed.

Lemma nested_settles : forall d m o w, m <= d -> fresh o w -> (exists b, get (o_file o) (w_fs w) = Some (NFile b)) ->
  budget m w -> settles (fun fuel => parse (S d) fuel o w).
Proof.
  induction d as [|d IH]; intros m o w Hm Hf [b Hb] Hbud.
  - destruct (budget_fresh m o [] w b Hf Hb Hbud) as [H _]. lia.
  - destruct (budget_fresh m o (freeze (o_ps o)) w b Hf Hb Hbud) as [H1 H2].
    apply (body_settles d o (m - 1)); [|intros _; exact H2].
    intros f w' Hc Hg Hex Hb'. apply (IH (m - 1)); [lia|now split|exact Hex|exact Hb'].
Qed.

Lemma parse_settles : forall m o w, budget m w -> settles (fun fuel => parse (S (S m)) fuel o w).
Proof.
  intros m o w Hb. apply (body_settles m o m); [|intros _; now apply budget_register].
  intros f w' Hc Hg Hex Hb'. apply (nested_settles m m); [lia|now split|exact Hex|exact Hb'].
Qed.

Theorem parse_terminates : forall o w L,
  (forall c b, get c (w_fs w) = Some (NFile b) -> get c (w_pmap w) = None -> In c L) ->
  exists fuel r, finished r /\
    forall d f, length L + 2 <= d -> fuel <= f -> parse d f o w = r.
Proof.
  intros o w L HL. destruct (parse_settles (length L) o w) as [n [r [Hr Hn]]].
  { exists L. split; [apply le_n|exact HL]. }
  exists n, r. split; [exact Hr|]. intros d f Hd Hf. rewrite <- (Hn n (le_n n)).
  apply parse_mono; [lia|exact Hf|]. rewrite (Hn n (le_n n)). exact Hr.
Qed.

End Termination.
