(** Lemmas about the text of single components. *)

From Coq Require Import String Ascii List Arith NArith ZArith Bool Lia Permutation.
From Verif Require Import GoStr GoPath Utf8 Base SpecStr Utils GenGo GenC GenJava GenRust GenTS World Handlers Parser StrLemmas SpecDoc SpecParse SpecGen SpecOut
  SpecTables GenFacts GenText GenLemmas GenRuns GenOutline GenRun GenNames Concurrent ConcurrentProofs SpecLocal.
Import ListNotations.
Local Open Scope string_scope.

Local Infix "+++" := app (at level 60, right associativity).

Lemma fold_extends : forall (E : Env) l types tree g, exists rest,
  g_field (fold_left (entry_of l types) tree g) = g_field g ++ rest.
Proof.
  intros E l types tree. induction tree as [|p tree IH]; intros g; cbn [fold_left].
  - exists "". now rewrite app_nil_r_s.
  - destruct (IH (entry_of l types g p)) as [rest Hr]. rewrite Hr, entry_appends, app_assoc_s. eauto.
Qed.

(** A name means what it meant before. *)
Lemma base_kept : forall extra pt n, (forall m t, In (m, t) (flat_map stands_for extra) -> exists t', In (m, t') (flat_map stands_for pt)) ->
  get_base n (pt +++ extra) = get_base n pt.
Proof.
  intros extra pt n H.
  assert (Hpt : forall r, (exists t, In (n, t) (flat_map stands_for pt)) -> get_base n (pt +++ r) = get_base n pt).
  { clear H. intros r. induction pt as [|[|v|v|v|v|v|v] pt IH]; cbn; intros [t Hin]; try (apply IH; now exists t); [destruct Hin| | |].
    - destruct (st_list v), (st_union v); cbn in *; try (apply IH; now exists t).
      destruct (String.eqb_spec (st_name v) n); [reflexivity|]. apply IH. destruct Hin as [Hin|Hin]; [congruence|now exists t].
    - destruct (String.eqb_spec (el_name v) n); [reflexivity|]. apply IH. destruct Hin as [Hin|Hin]; [congruence|now exists t].
    - destruct (String.eqb_spec (at_name v) n); [reflexivity|]. apply IH. destruct Hin as [Hin|Hin]; [congruence|now exists t]. }
  assert (Hno : forall q, (forall t, ~ In (n, t) (flat_map stands_for q)) -> get_base n q = n).
  { clear. intros q. induction q as [|[|v|v|v|v|v|v] q IH]; cbn; intros H; try reflexivity; try (apply IH; exact H).
    - destruct (st_list v), (st_union v); cbn in *; try (apply IH; exact H).
      destruct (String.eqb_spec (st_name v) n) as [<-|]; [now elim (H (st_base v)); left|]. apply IH. intros t Ht. apply (H t). now right.
    - destruct (String.eqb_spec (el_name v) n) as [<-|]; [now elim (H (el_type v)); left|]. apply IH. intros t Ht. apply (H t). now right.
    - destruct (String.eqb_spec (at_name v) n) as [<-|]; [now elim (H (at_type v)); left|]. apply IH. intros t Ht. apply (H t). now right. }
  destruct (in_dec string_dec n (map fst (flat_map stands_for pt))) as [Hin|Hin].
  - apply Hpt. apply in_map_iff in Hin as [[m t] [Hm Hin]]. cbn in Hm. subst m. now exists t.
  - assert (Hn : forall t, ~ In (n, t) (flat_map stands_for pt)).
    { intros t Ht. apply Hin. apply in_map_iff. now exists (n, t). }
    rewrite !Hno; [reflexivity|exact Hn|]. intros t. rewrite flat_map_app, in_app_iff. intros [Ht|Ht]; [now apply (Hn t)|].
    destruct (H n t Ht) as [t' Ht']. now apply (Hn t').
Qed.

Section Order.
Context {E : Env}.
Lemma entry_alone : forall l pt p g n, proto_name p = Some n -> declared n g = false ->
  (counting l p = true -> get (GenText.plain_ident l p) (g_count g) = None) ->
  g_field (entry_of l pt (no_text g) p) = g_field (entry_of l pt g_init p).
Proof.
  intros l pt p [f a t x m] n Hn Hd Hc. unfold no_text, declared in *. cbn [g_ast g_count g_time g_xml] in *.
  assert (Hu : counting l p = true -> fst (uniq_name m (GenText.plain_ident l p)) = fst (uniq_name [] (GenText.plain_ident l p))).
  { intros H. rewrite !uniq_fresh; [reflexivity|reflexivity|now apply Hc]. }
  clear Hc.
  destruct (entry_agree l pt p "" a t x m [] Hu) as [Ha _].
  apply (f_equal g_field) in Ha. unfold with_count in Ha. cbn [g_field] in Ha. rewrite Ha. clear Ha Hu. unfold g_init.
  destruct p as [|v|v|v|v|v|v]; [discriminate|..]; cbn [proto_name] in Hn; injection Hn as <-;
    destruct l; cbn [entry_of]; unfold_entries; unfold declared; cbn [g_ast has_key]; rewrite Hd; cbn [negb andb];
    change (has_key _ []) with false; cbn [negb andb]; rewrite ?andb_true_r; 
    repeat match goal with
    | |- context [if ?b then _ else _] => match b with context [has_key] => destruct b | context [st_list] => destruct b
        | context [st_union] => destruct b | context [st_enum] => destruct b | context [inner_array _] => destruct b end
    end; 
    cbn [set_time set_xml g_field g_ast g_time g_xml g_count]; repeat match goal with |- context [let '(_, _) := ?u in _] => destruct u end;
    reflexivity.
Qed.
End Order.

Lemma perm_flat : forall A B (f : A -> list B) l l', Permutation l l' -> Permutation (flat_map f l) (flat_map f l').
Proof.
  intros A B f l l' H. induction H; cbn; auto using Permutation_app_head.
  - rewrite !app_assoc. apply Permutation_app_tail, Permutation_app_comm.
  - eapply perm_trans; eassumption.
Qed.

Lemma base_perm : forall pt pt', Permutation pt pt' -> NoDup (names_of pt) -> forall n, get_base n pt = get_base n pt'.
Proof.
  intros pt pt' H. induction H as [|p r r' H IH|p q r|a b c H1 IH1 H2 IH2]; intros Hd n.
  - reflexivity.
  - assert (Hr : NoDup (names_of r)) by (unfold names_of in *; cbn in Hd; destruct (proto_name p); [now inversion Hd|exact Hd]).
    cbn [get_base]. destruct p; rewrite (IH Hr); reflexivity.
  - unfold names_of in Hd. cbn [flat_map] in Hd.
    destruct p as [|v|v|v|v|v|v], q as [|u|u|u|u|u|u]; cbn [get_base proto_name app] in *; try reflexivity;
      match type of Hd with NoDup (?a :: ?b :: _) => assert (a <> b) by (intros Heq; inversion_clear Hd as [|? ? Hin _]; apply Hin; rewrite Heq; now left) end;
      repeat match goal with
      | |- context [String.eqb ?x n] => destruct (String.eqb_spec x n)
      end; rewrite ?andb_false_r, ?andb_true_r; try reflexivity; try congruence;
      repeat match goal with |- context [if ?b then _ else _] => destruct b end; try reflexivity; congruence.
  - rewrite IH1 by exact Hd. apply IH2. eapply Permutation_NoDup; [|exact Hd]. now apply perm_flat.
Qed.

Lemma entry_declares : forall (E : Env) l pt p g k, declared k (entry_of l pt g p) = true -> declared k g = true \/ proto_name p = Some k.
Proof.
  intros E l pt p g k H. destruct (proto_name p) as [n|] eqn:Hn; [|rewrite entry_nil in H by exact Hn; now left].
  destruct (declared n g) eqn:Hd.
  - destruct (enumerated l p) eqn:He; [|rewrite (entry_skips l pt p g n Hn Hd He) in H; now left].
    unfold declared in *. rewrite (entry_anon l pt p g n Hn He (or_introl Hd)) in H. now left.
  - destruct (enumerated l p && negb (listed p)) eqn:He.
    + apply andb_true_iff in He as [He Hl]. apply negb_true_iff in Hl.
      unfold declared in *. rewrite (entry_anon l pt p g n Hn He (or_intror Hl)) in H. now left.
    + destruct (entry_records l pt p g n Hn Hd He) as [c Hc]. rewrite (put_declared _ _ _ _ _ Hc) in H.
      destruct (string_dec n k) as [->|Hne]; [now right|left]. intuition congruence.
Qed.

Lemma texts_alone : forall (E : Env) l types tree g, NoDup (names_of tree) ->
  NoDup (flat_map (fun p => match proto_name p with Some n => if counting l p then [GenText.plain_ident l p] else [] | None => [] end) tree) ->
  (forall n, In n (names_of tree) -> declared n g = false) ->
  (forall p n, In p tree -> proto_name p = Some n -> counting l p = true -> get (GenText.plain_ident l p) (g_count g) = None) ->
  g_field (fold_left (entry_of l types) tree g) =
    g_field g ++ sconcat (map (fun p => g_field (entry_of l types g_init p)) tree).
Proof.
  intros E l types tree. induction tree as [|p tree IH]; intros g Hn Hi Hd Hc; cbn [fold_left map].
  - cbn. now rewrite app_nil_r_s.
  - unfold names_of in *. cbn [flat_map] in *. rewrite sconcat_cons. destruct (proto_name p) as [n|] eqn:Hp.
    2: { rewrite !entry_nil by exact Hp. cbn [app] in *. change (g_field g_init) with "". cbn [append].
         apply IH; auto. intros q m Hq. apply Hc. now right. }
    cbn [app] in Hn, Hd. inversion_clear Hn as [|? ? Hnp Hnt].
    rewrite IH; [|exact Hnt| | |].
    + rewrite entry_appends, (entry_alone l types p g n Hp); [now rewrite app_assoc_s|apply Hd; now left|].
      intros Hcp. apply (Hc p n); [now left|exact Hp|exact Hcp].
    + destruct (counting l p); cbn [app] in Hi; [now inversion Hi|exact Hi].
    + intros k Hk. destruct (declared k (entry_of l types g p)) eqn:Hde; [|reflexivity].
      apply entry_declares in Hde as [Hde|Hde]; [rewrite (Hd k (or_intror Hk)) in Hde; discriminate|].
      assert (k = n) by congruence. subst k. contradiction.
    + intros q m Hq Hqm Hcq. destruct g as [f a t x mm].
      destruct (entry_agree l types p f a t x mm mm (fun _ => eq_refl)) as [_ [Hg|[Hcp Hg]]]; rewrite Hg.
      * apply (Hc q m); auto. now right.
      * destruct (get (GenText.plain_ident l q) (snd (uniq_name mm (GenText.plain_ident l p)))) eqn:Hget; [|reflexivity].
        destruct (uniq_keys mm (GenText.plain_ident l p) (GenText.plain_ident l q)) as [Hk|Hk]; [congruence| |].
        -- elim Hk. apply (Hc q m); auto. now right.
        -- rewrite Hcp in Hi. cbn [app] in Hi. inversion_clear Hi as [|? ? Hx Hy]. elim Hx. rewrite <- Hk.
           apply in_flat_map. exists q. split; [exact Hq|]. rewrite Hqm, Hcq. now left.
Qed.

Lemma alone_same : forall (E : Env) l pt pt', (forall n, get_base n pt = get_base n pt') -> forall p,
  g_field (entry_of l pt g_init p) = g_field (entry_of l pt' g_init p).
Proof. intros E l pt pt' H p. now rewrite (entry_same pt pt' H l). Qed.
