(** Lemmas about cmd/xgen and GetFileList. *)

From Coq Require Import String Ascii List Arith NArith Bool Lia Sorted Permutation.
From Verif Require Import GoStr GoPath Base Utils GenGo GenC GenJava GenRust GenTS World Handlers Parser Cli StrLemmas StrProofs PathProofs SpecTables TableProofs
  SpecGen SpecOut SpecFile SpecParse ParserProofs Termination ParseFacts FileProofs SpecCli.
Import ListNotations.
Local Open Scope string_scope.

Local Infix "+++" := app (at level 60, right associativity).

(** * Order of paths *)

Lemma parts_irrefl : forall a, ~ parts_before a a.
Proof. induction a as [|x a IH]; intros H; inversion H; subst; [now apply (byte_lt_irrefl x) | now apply IH]. Qed.

Lemma parts_app : forall p a b, parts_before (p +++ a) (p +++ b) <-> parts_before a b.
Proof.
  induction p as [|x p IH]; intros a b; [reflexivity|]. cbn. split; [|intros H; constructor; now apply IH].
  intros H. inversion H; subst; [elim (byte_lt_irrefl x); assumption|now apply IH].
Qed.

Lemma sorted_nodup : forall l, StronglySorted path_before l -> NoDup l.
Proof.
  induction 1 as [|a l _ IH Ha]; constructor; [|exact IH].
  intros Hin. rewrite Forall_forall in Ha. apply Ha in Hin. now apply parts_irrefl in Hin.
Qed.

Lemma sorted_app : forall A (R : A -> A -> Prop) a b, StronglySorted R a -> StronglySorted R b ->
  (forall x y, In x a -> In y b -> R x y) -> StronglySorted R (a +++ b).
Proof.
  intros A R a b Ha Hb H. induction Ha as [|x a Ha IH Hx]; [exact Hb|]. cbn. constructor.
  - apply IH. intros y z Hy. apply H. now right.
  - apply Forall_app. split; [exact Hx|]. apply Forall_forall. intros y Hy. apply H; [now left|exact Hy].
Qed.

Lemma sorted_flat : forall A B (R : B -> B -> Prop) (S : A -> A -> Prop) (f : A -> list B) l,
  StronglySorted S l -> (forall x, In x l -> StronglySorted R (f x)) ->
  (forall x y a b, In x l -> In y l -> S x y -> In a (f x) -> In b (f y) -> R a b) -> StronglySorted R (flat_map f l).
Proof.
  intros A B R S f l Hl. induction Hl as [|x l Hl IH Hx]; intros Hf H; [constructor|]. cbn.
  apply sorted_app; [apply Hf; now left|apply IH|].
  - intros y Hy. apply Hf. now right.
  - intros y z a b Hy Hz. apply H; now right.
  - intros a b Ha Hb. apply in_flat_map in Hb as [y [Hy Hb]]. rewrite Forall_forall in Hx.
    apply (H x y); [now left|now right|now apply Hx|exact Ha|exact Hb].
Qed.

(** * Sorting names *)

Lemma str_insert_In : forall k l x, In x (str_insert k l) <-> x = k \/ In x l.
Proof.
  intros k l x. induction l as [|y l IH]; cbn; [intuition|]. destruct (str_ltb y k); cbn; rewrite ?IH; intuition.
Qed.

Lemma str_sort_In : forall l x, In x (str_sort l) <-> In x l.
Proof. intros l x. induction l as [|y l IH]; [reflexivity|]. cbn. rewrite str_insert_In, IH. intuition. Qed.

Lemma str_insert_sorted : forall k l, ~ In k l -> StronglySorted byte_lt l -> StronglySorted byte_lt (str_insert k l).
Proof.
  intros k l Hk Hl. induction Hl as [|y l Hl IH Hy]; cbn; [repeat constructor|].
  destruct (str_ltb y k) eqn:Hlt.
  - constructor; [apply IH; intros H; apply Hk; now right|]. apply str_ltb_spec in Hlt. apply Forall_forall.
    intros x Hx. apply str_insert_In in Hx as [->|Hx]; [exact Hlt|]. rewrite Forall_forall in Hy. now apply Hy.
  - assert (Hky : byte_lt k y).
    { destruct (byte_lt_total k y) as [H|[->|H]]; [exact H| elim Hk; now left |].
      apply str_ltb_spec in H. congruence. }
    constructor; [now constructor|]. constructor; [exact Hky|].
    eapply Forall_impl; [|exact Hy]. intros a Ha. cbn in Ha. now apply byte_lt_trans with y.
Qed.

Lemma str_sort_sorted : forall l, NoDup l -> StronglySorted byte_lt (str_sort l).
Proof.
  induction 1 as [|x l Hx Hl IH]; [constructor|]. cbn. apply str_insert_sorted; [|exact IH].
  now rewrite str_sort_In.
Qed.

(** * Entries of a directory *)

Lemma strip_comps_spec : forall a b r, strip_comps a b = Some r <-> b = a +++ r.
Proof.
  induction a as [|x a IH]; intros b r; cbn; [split; congruence|]. destruct b as [|y b]; [split; discriminate|].
  destruct (String.eqb_spec x y) as [->|H].
  - rewrite IH. split; [now intros ->|]. now intros [= ->].
  - split; [discriminate|]. intros [= -> _]. congruence.
Qed.

Lemma entry_name_spec : forall p k x, entry_name p k = Some x <->
  is_rooted p = is_rooted k /\ pcomps k = pcomps p +++ [x] /\ x <> "..".
Proof.
  intros p k x. unfold entry_name. change (comps p) with (pcomps p). change (comps k) with (pcomps k).
  destruct (Bool.eqb (is_rooted p) (is_rooted k)) eqn:Hr; [apply eqb_prop in Hr|apply eqb_false_iff in Hr; intuition discriminate].
  destruct (strip_comps (pcomps p) (pcomps k)) as [[|y [|z r]]|] eqn:Hs.
  - apply strip_comps_spec in Hs. rewrite Hs. split; [discriminate|]. intros [_ [H _]].
    rewrite app_nil_r in H. apply (f_equal (@length _)) in H. rewrite app_length in H. cbn in H. lia.
  - apply strip_comps_spec in Hs. rewrite Hs. destruct (String.eqb_spec y "..") as [->|Hy].
    + split; [discriminate|]. intros [_ [H H2]]. apply app_inv_head in H. congruence.
    + split; [intros [= <-]; auto|]. intros [_ [H _]]. apply app_inv_head in H. congruence.
  - apply strip_comps_spec in Hs. rewrite Hs. split; [discriminate|]. intros [_ [H _]]. apply app_inv_head in H. discriminate.
  - split; [discriminate|]. intros [_ [H _]]. apply strip_comps_spec in H. congruence.
Qed.

Section Cli.
Context {E : Env}.

Lemma lineage_of_prefix : forall p m r, m <> [] -> pcomps p = m +++ r -> In (unparse (is_rooted p) m) (lineage p).
Proof. intros p m r Hm Hp. apply lineage_spec. eauto. Qed.

Lemma join_entry : forall p x, p <> "" -> real_comp x -> x <> ".." ->
  join2 p x = unparse (is_rooted p) (pcomps p +++ [x]) /\ normal (is_rooted p) (pcomps p +++ [x]).
Proof.
  intros p x Hp Hx Hd. rewrite <- (path_comps_one x Hx). apply join_comps; [exact Hp|].
  rewrite path_comps_one by exact Hx. now repeat constructor.
Qed.

Lemma clean_eq_unparse : forall k, clean k = k -> k = unparse (is_rooted k) (pcomps k).
Proof. intros k H. now rewrite <- clean_unparse. Qed.

Variable w : World.
Let fs := w_fs w.
Hypothesis shaped : tree_shaped fs.

Lemma keys_get : forall A k (m : smap A), In k (keys m) <-> get k m <> None.
Proof.
  intros A k m. induction m as [|[a v] m IH]; cbn; [intuition|].
  destruct (String.eqb_spec a k) as [->|H]; [split; [discriminate|now left]|]. rewrite <- IH. intuition.
Qed.

Lemma dir_names_In : forall p x, p <> "" ->
  In x (dir_names fs p) <-> real_comp x /\ x <> ".." /\ In (join2 p x) (keys fs).
Proof.
  intros p x Hp. unfold dir_names. rewrite str_sort_In, in_flat_map. destruct shaped as [_ Hk]. split.
  - intros [k [Hin H]]. destruct (entry_name p k) as [y|] eqn:He; [|destruct H]. destruct H as [->|[]].
    apply entry_name_spec in He as [Hr [Hc Hd]].
    assert (Hx : real_comp x).
    { pose proof (pcomps_normal k) as [Hf _]. rewrite Hc in Hf. apply Forall_app in Hf as [_ Hf]. now inversion Hf. }
    split; [exact Hx|]. split; [exact Hd|]. destruct (join_entry p x Hp Hx Hd) as [-> _].
    destruct (Hk k Hin) as [Hcl _]. rewrite Hr, <- Hc, <- clean_eq_unparse by exact Hcl. exact Hin.
  - intros [Hx [Hd Hin]]. exists (join2 p x). split; [exact Hin|]. destruct (join_entry p x Hp Hx Hd) as [-> Hn].
    replace (entry_name p (unparse (is_rooted p) (pcomps p +++ [x]))) with (Some x); [now left|].
    symmetry. apply entry_name_spec. rewrite unparse_rooted, unparse_comps by exact Hn. auto.
Qed.

Lemma dir_names_sorted : forall p, p <> "" -> StronglySorted byte_lt (dir_names fs p).
Proof.
  intros p Hp. unfold dir_names. apply str_sort_sorted. destruct shaped as [Hnd Hk].
  induction (keys fs) as [|k ks IH]; [constructor|]. cbn. inversion Hnd as [|? ? Hnot Hks]; subst.
  assert (Hk' : forall k0, In k0 ks -> clean k0 = k0) by (intros k0 H0; apply (Hk k0); now right).
  assert (Hck : clean k = k) by (apply (Hk k); now left).
  specialize (IH Hks (fun k0 H0 => Hk k0 (or_intror H0))).
  destruct (entry_name p k) as [x|] eqn:He; [|exact IH]. cbn. constructor; [|exact IH].
  intros H. apply in_flat_map in H as [k' [Hin H]]. destruct (entry_name p k') as [y|] eqn:He'; [|destruct H].
  destruct H as [->|[]]. apply entry_name_spec in He as [H1 [H2 _]]. apply entry_name_spec in He' as [H3 [H4 _]].
  apply Hnot. replace k with k'; [exact Hin|].
  rewrite (clean_eq_unparse k' (Hk' k' Hin)), (clean_eq_unparse k Hck). congruence.
Qed.

(** [k] is below [p]. *)
Definition under (p k : string) (r : list string) : Prop :=
  is_rooted k = is_rooted p /\ pcomps k = pcomps p +++ r /\ Forall (fun c => c <> "..") r.

Lemma under_join : forall p x k r, p <> "" -> real_comp x -> x <> ".." -> under (join2 p x) k r -> under p k (x :: r).
Proof.
  intros p x k r Hp Hx Hd [H1 [H2 H3]]. destruct (join_entry p x Hp Hx Hd) as [Hj Hn]. rewrite Hj in H1, H2.
  rewrite unparse_rooted in H1 by exact Hn. rewrite unparse_comps in H2 by exact Hn.
  split; [exact H1|]. split; [now rewrite H2, <- app_assoc|]. now constructor.
Qed.

Lemma join_not_empty : forall p x, p <> "" -> join2 p x <> "".
Proof.
  intros p x Hp. unfold join2. apply String.eqb_neq in Hp. rewrite Hp. apply clean_not_empty.
Qed.

(** What a walk finds. *)
Lemma walk_sound : forall fuel p k, p <> "" -> In k (walk fuel w p) ->
  k = p \/ In k (keys fs) /\ exists r, r <> [] /\ under p k r.
Proof.
  induction fuel as [|fuel IH]; intros p k Hp H; cbn [walk] in H; [destruct H as [->|[]]; now left|].
  destruct H as [->|H]; [now left|]. right.
  destruct (stat p w); try destruct H. destruct (env_open_fail p); [destruct H|].
  apply in_flat_map in H as [x [Hx H]]. apply (dir_names_In p x Hp) in Hx as [Hx [Hd Hk]].
  destruct (IH _ _ (join_not_empty p x Hp) H) as [->|[Hin [r [_ Hu]]]].
  - split; [exact Hk|]. exists [x]. split; [discriminate|]. apply under_join; [assumption..|].
    split; [reflexivity|]. split; [now rewrite app_nil_r|constructor].
  - split; [exact Hin|]. exists (x :: r). split; [discriminate|]. now apply under_join.
Qed.

Lemma under_split : forall p k r, clean k = k -> under p k r -> clean p <> "." -> clean p <> "/" -> 
  split_on "/" k = split_on "/" (clean p) +++ r.
Proof.
  intros p k r Hk [H1 [H2 H3]] Hd Hs.
  rewrite (clean_eq_unparse k Hk), clean_unparse, H1, H2.
  pose proof (pcomps_normal k) as [Hf _]. rewrite H2 in Hf.
  assert (Hsl : Forall (fun c => has_char "/" c = false) (pcomps p +++ r)).
  { eapply Forall_impl; [|exact Hf]. now intros a [Ha _]. }
  assert (Hslp : Forall (fun c => has_char "/" c = false) (pcomps p)) by now apply Forall_app in Hsl as [Hsl _].
  rewrite clean_unparse in Hd, Hs. unfold unparse in *.
  destruct (pcomps p) as [|c cs] eqn:Hp; [destruct (is_rooted p); [now elim Hs|now elim Hd]|].
  destruct (is_rooted p).
  - change ("/" ++ sjoin "/" ((c :: cs) +++ r)) with (String "/" (sjoin "/" ((c :: cs) +++ r))).
    change ("/" ++ sjoin "/" (c :: cs)) with (String "/" (sjoin "/" (c :: cs))).
    pose proof (split_on_app_char "/" "" (sjoin "/" ((c :: cs) +++ r)) eq_refl) as E1.
    pose proof (split_on_app_char "/" "" (sjoin "/" (c :: cs)) eq_refl) as E2. cbn [append] in E1, E2.
    rewrite E1, E2. rewrite !split_on_sjoin by (discriminate || assumption). reflexivity.
  - cbn [app] in *. rewrite !split_on_sjoin by (discriminate || assumption). reflexivity.
Qed.

(** Relative position of two paths below the same directory. *)
Lemma under_before : forall p a b ra rb, clean a = a -> clean b = b -> under p a ra -> under p b rb -> ra <> [] -> rb <> [] ->
  parts_before ra rb -> path_before a b.
Proof.
  intros p a b ra rb Ha Hb Hua Hub Hra Hrb H. unfold path_before.
  destruct (string_dec (clean p) "/") as [Hs|Hs]; [|destruct (string_dec (clean p) ".") as [Hd|Hd]].
  - assert (Hr : is_rooted p = true /\ pcomps p = []).
    { rewrite <- clean_rooted, <- clean_comps_id, Hs. now split. }
    destruct Hr as [Hr Hc]. destruct Hua as [A1 [A2 A3]]. destruct Hub as [B1 [B2 B3]].
    rewrite Hc in A2, B2. cbn [app] in A2, B2. rewrite Hr in A1, B1.
    rewrite (clean_eq_unparse a Ha), (clean_eq_unparse b Hb), A1, B1, A2, B2. unfold unparse.
    pose proof (split_on_app_char "/" "" (sjoin "/" ra) eq_refl) as E1.
    pose proof (split_on_app_char "/" "" (sjoin "/" rb) eq_refl) as E2. cbn [append] in E1, E2 |- *. rewrite E1, E2.
    pose proof (pcomps_normal a) as [Fa _]. pose proof (pcomps_normal b) as [Fb _]. rewrite A2 in Fa. rewrite B2 in Fb.
    rewrite !split_on_sjoin; try assumption; try (eapply Forall_impl; [|eassumption]; now intros c [Hx _]).
    now constructor.
  - assert (Hr : is_rooted p = false /\ pcomps p = []).
    { rewrite <- clean_rooted, <- clean_comps_id, Hd. now split. }
    destruct Hr as [Hr Hc]. destruct Hua as [A1 [A2 A3]]. destruct Hub as [B1 [B2 B3]].
    rewrite Hc in A2, B2. cbn [app] in A2, B2. rewrite Hr in A1, B1.
    rewrite (clean_eq_unparse a Ha), (clean_eq_unparse b Hb), A1, B1, A2, B2. unfold unparse.
    pose proof (pcomps_normal a) as [Fa _]. pose proof (pcomps_normal b) as [Fb _]. rewrite A2 in Fa. rewrite B2 in Fb.
    destruct ra as [|x ra]; [now elim Hra|]. destruct rb as [|y rb]; [now elim Hrb|].
    rewrite !split_on_sjoin; try assumption; try discriminate; try (eapply Forall_impl; [|eassumption]; now intros c [Hx _]).
  - rewrite (under_split p a ra), (under_split p b rb) by assumption. now apply parts_app.
Qed.

Lemma key_clean : forall k, In k (keys fs) -> clean k = k.
Proof. intros k H. now destruct shaped as [_ Hk]; apply Hk. Qed.

(** Contents of the walk behind the root. *)
Definition walk_rest (fuel : nat) (p : string) : list string :=
  match stat p w with
  | SDir => if env_open_fail p then [] else flat_map (fun x => walk fuel w (join2 p x)) (dir_names fs p)
  | _ => []
  end.

Lemma walk_eq : forall fuel p, walk (S fuel) w p = p :: walk_rest fuel p.
Proof. reflexivity. Qed.

Lemma rest_sound : forall fuel p k, p <> "" -> In k (walk_rest fuel p) -> In k (keys fs) /\ exists r, r <> [] /\ under p k r.
Proof.
  intros fuel p k Hp H. assert (Hw : In k (walk (S fuel) w p)) by (now right).
  destruct (walk_sound (S fuel) p k Hp Hw) as [->|Hk]; [|exact Hk].
  unfold walk_rest in H. destruct (stat p w); try destruct H. destruct (env_open_fail p); [destruct H|].
  apply in_flat_map in H as [x [Hx H]]. apply (dir_names_In p x Hp) in Hx as [Hx [Hd Hk]].
  destruct (walk_sound fuel _ _ (join_not_empty p x Hp) H) as [He|[Hin [r [_ Hu]]]].
  - rewrite <- He in Hk. split; [exact Hk|]. exists [x]. split; [discriminate|].
    rewrite He at 2. apply under_join; [assumption..|]. split; [reflexivity|]. split; [now rewrite app_nil_r|constructor].
  - split; [exact Hin|]. exists (x :: r). split; [discriminate|]. now apply under_join.
Qed.

Lemma under_nil : forall p, under p p [].
Proof. intros p. split; [reflexivity|]. split; [now rewrite app_nil_r|constructor]. Qed.

Lemma walk_under : forall fuel p x k, p <> "" -> real_comp x -> x <> ".." -> In k (walk fuel w (join2 p x)) ->
  exists r, under p k (x :: r).
Proof.
  intros fuel p x k Hp Hx Hd H. destruct (walk_sound fuel _ _ (join_not_empty p x Hp) H) as [->|[_ [r [_ Hu]]]].
  - exists []. apply under_join; [assumption..|apply under_nil].
  - exists r. now apply under_join.
Qed.

Lemma walk_clean : forall fuel p x k, p <> "" -> real_comp x -> x <> ".." -> In k (walk fuel w (join2 p x)) -> clean k = k.
Proof.
  intros fuel p x k Hp Hx Hd H. destruct (walk_sound fuel _ _ (join_not_empty p x Hp) H) as [->|[Hk _]].
  - destruct (join_entry p x Hp Hx Hd) as [-> Hn]. rewrite clean_unparse, unparse_rooted, unparse_comps by exact Hn. reflexivity.
  - now apply key_clean.
Qed.

Lemma rest_sorted : forall fuel p, p <> "" -> StronglySorted path_before (walk_rest fuel p).
Proof.
  induction fuel as [|fuel IH]; intros p Hp; unfold walk_rest; (destruct (stat p w); try constructor);
    (destruct (env_open_fail p); [constructor|]);
    (apply (sorted_flat _ _ _ byte_lt); [now apply dir_names_sorted| |]);
    try (intros x y a b Hx Hy Hlt Ha Hb; apply (dir_names_In p _ Hp) in Hx as [Hx [Hxd _]];
         apply (dir_names_In p _ Hp) in Hy as [Hy [Hyd _]];
         destruct (walk_under _ p x a Hp Hx Hxd Ha) as [ra Hua]; destruct (walk_under _ p y b Hp Hy Hyd Hb) as [rb Hub];
         apply (under_before p a b (x :: ra) (y :: rb)); [now apply (walk_clean _ p x a Hp) in Ha | now apply (walk_clean _ p y b Hp) in Hb
           | exact Hua | exact Hub | discriminate | discriminate | now constructor]).
  - intros x Hx. cbn [walk]. repeat constructor.
  - intros x Hx. rewrite walk_eq. constructor; [apply IH; now apply join_not_empty|].
    apply Forall_forall. intros k Hk. apply (dir_names_In p _ Hp) in Hx as [Hx [Hxd Hxk]].
    assert (Hkw : In k (walk (S fuel) w (join2 p x))) by now right.
    apply rest_sound in Hk; [|now apply join_not_empty]. destruct Hk as [Hk [r [Hr Hu]]].
    apply (under_before p _ _ [x] (x :: r)).
    + now apply key_clean.
    + now apply key_clean.
    + apply under_join; [assumption..|apply under_nil].
    + now apply under_join.
    + discriminate.
    + discriminate.
    + apply pb_deeper. destruct r; [now elim Hr|constructor].
Qed.

(** Everything is found. *)
Lemma name_not_implicit : forall r cs x, normal r (cs +++ [x]) -> x <> ".." -> implicit_dir (unparse r (cs +++ [x])) = false.
Proof.
  intros r cs x Hn Hx. unfold implicit_dir.
  assert (Hne : forall y, pcomps y = [] -> unparse r (cs +++ [x]) <> y).
  { intros y Hy He. apply (f_equal pcomps) in He. rewrite unparse_comps, Hy in He by exact Hn. now destruct cs. }
  assert (Hd : unparse r (cs +++ [x]) <> ".") by now apply Hne.
  assert (Hs : unparse r (cs +++ [x]) <> "/") by now apply Hne.
  apply String.eqb_neq in Hd, Hs. rewrite Hd, Hs. cbn [orb]. apply not_true_iff_false. intros H.
  rewrite forallb_forall in H. destruct Hn as [Hf _].
  assert (Hin : In x (split_on "/" (unparse r (cs +++ [x])))).
  { assert (Hsp : split_on "/" (sjoin "/" (cs +++ [x])) = cs +++ [x]).
    { apply split_on_sjoin; [now destruct cs|]. eapply Forall_impl; [|exact Hf]. now intros a [Ha _]. }
    assert (Hx2 : In x (split_on "/" (sjoin "/" (cs +++ [x])))) by (rewrite Hsp; apply in_or_app; right; now left).
    unfold unparse. destruct r; [|destruct (cs +++ [x]) eqn:Hc; [now destruct cs|exact Hx2]].
    pose proof (split_on_app_char "/" "" (sjoin "/" (cs +++ [x])) eq_refl) as E1. cbn [append] in E1 |- *. rewrite E1. now right. }
  specialize (H x Hin). apply String.eqb_eq in H. congruence.
Qed.

Lemma dir_key : forall k, implicit_dir (clean k) = false -> lookup fs k = SDir -> In (clean k) (keys fs).
Proof.
  intros k Hi H. unfold lookup in H. rewrite Hi in H. apply keys_get. destruct (get (clean k) fs); [discriminate|].
  destruct (existsb (is_file fs) (lineage k)); discriminate.
Qed.

Variable root : string.
Hypothesis can_read : forall p, p = root \/ (exists r, r <> [] /\ under root p r /\ clean p = p) ->
  env_stat_fail p = false /\ env_open_fail p = false.

Lemma rest_complete : forall r p k fuel, p <> "" -> (p = root \/ exists q, q <> [] /\ under root p q /\ clean p = p) ->
  lookup fs p = SDir -> In k (keys fs) -> r <> [] -> under p k r -> length r <= S fuel -> In k (walk_rest fuel p).
Proof.
  induction r as [|x r IH]; intros p k fuel Hp Hroot Hdir Hk Hr Hu Hfuel; [now elim Hr|].
  destruct (can_read p Hroot) as [Hs Ho]. unfold walk_rest, stat. rewrite Hs, Ho.
  rewrite (proj2 (String.eqb_neq p "") Hp). fold fs. rewrite Hdir. apply in_flat_map. exists x.
  destruct Hu as [U1 [U2 U3]]. apply Forall_cons_iff in U3 as [Hx U3].
  assert (Hreal : real_comp x).
  { pose proof (pcomps_normal k) as [Hf _]. rewrite U2 in Hf. apply Forall_app in Hf as [_ Hf]. now inversion Hf. }
  destruct (join_entry p x Hp Hreal Hx) as [Hj Hn].
  assert (Hju : pcomps (join2 p x) = pcomps p +++ [x] /\ is_rooted (join2 p x) = is_rooted p).
  { rewrite Hj, unparse_comps, unparse_rooted by exact Hn. auto. }
  destruct Hju as [J1 J2].
  assert (Hjc : clean (join2 p x) = join2 p x).
  { rewrite clean_unparse, J1, J2, Hj. reflexivity. }
  assert (Hkj : r <> [] -> lookup fs (join2 p x) = SDir).
  { intros Hr'. destruct shaped as [_ Hsh]. destruct (Hsh k Hk) as [K1 [_ K3]]. apply K3.
    - rewrite Hj, <- U1. apply (lineage_of_prefix k (pcomps p +++ [x]) r); [now destruct (pcomps p)|].
      now rewrite <- app_assoc.
    - intros He. apply (f_equal pcomps) in He. rewrite J1, U2 in He. apply app_inv_head in He. injection He as He. congruence. }
  assert (Hjkey : In (join2 p x) (keys fs)).
  { destruct r as [|y r].
    - replace (join2 p x) with k; [exact Hk|]. rewrite Hj, <- U1, <- U2. apply clean_eq_unparse. now apply key_clean.
    - rewrite <- Hjc. apply dir_key; [|apply Hkj; discriminate]. rewrite Hjc, Hj. now apply name_not_implicit. }
  split; [now apply (dir_names_In p x Hp)|].
  destruct r as [|y r].
  - replace k with (join2 p x); [destruct fuel; now left|]. rewrite Hj, <- U1, <- U2. symmetry. apply clean_eq_unparse. now apply key_clean.
  - cbn [length] in Hfuel. destruct fuel as [|fuel]; [lia|]. rewrite walk_eq. right. apply IH.
    + now apply join_not_empty.
    + right. destruct Hroot as [->|[q [Hq [[Q1 [Q2 Q3]] _]]]].
      * exists [x]. split; [discriminate|]. split; [|exact Hjc]. split; [exact J2|]. split; [exact J1|]. now repeat constructor.
      * exists (q +++ [x]). split; [now destruct q|]. split; [|exact Hjc]. split; [congruence|].
        split; [rewrite J1, Q2; now rewrite <- app_assoc|]. apply Forall_app. split; [exact Q3|now repeat constructor].
    + apply Hkj. discriminate.
    + exact Hk.
    + discriminate.
    + split; [congruence|]. split; [rewrite J1, U2; now rewrite <- app_assoc|exact U3].
    + cbn [length]. lia.
Qed.

End Cli.

Lemma depth_bound : forall (fs : smap node) k, In k (keys fs) -> length (pcomps k) < fs_depth fs.
Proof.
  intros fs k Hk. unfold fs_depth. induction (keys fs) as [|a ks IH]; [destruct Hk|]. cbn.
  destruct Hk as [->|Hk]; [unfold comps, pcomps; lia|]. specialize (IH Hk). lia.
Qed.

(** * Inside a directory *)

Lemma inside_under : forall d k, d <> "" -> clean k = k -> inside d k <-> exists r, r <> [] /\ under d k r.
Proof.
  intros d k Hd Hk. unfold inside, under. rewrite Hk.
  pose proof (clean_unparse d) as Hcd. pose proof (pcomps_normal d) as Hnd. split.
  - intros [rest [Hne [Hpre [Hdots He]]]].
    assert (Hsp : path_comps (if String.eqb (clean d) "." then rest else if String.eqb (clean d) "/" then "/" ++ rest
                   else clean d ++ "/" ++ rest) = path_comps (clean d) +++ path_comps rest).
    { destruct (String.eqb_spec (clean d) ".") as [->|_]; [reflexivity|].
      destruct (String.eqb_spec (clean d) "/") as [->|_]; [apply path_comps_slash|]. apply path_comps_app. }
    rewrite <- He in Hsp. exists (path_comps rest).
    assert (Hd2 : Forall (fun c => c <> "..") (path_comps rest)).
    { apply Forall_forall. intros c Hc. apply filter_In in Hc as [Hc _]. now apply (Hdots c). }
    assert (Hroot : is_rooted k = is_rooted d).
    { rewrite He, <- (clean_rooted d). destruct (String.eqb_spec (clean d) ".") as [->|Hx].
      - unfold is_rooted in *. rewrite Hpre. reflexivity.
      - destruct (String.eqb_spec (clean d) "/") as [->|_]; [reflexivity|].
        apply rooted_app, clean_not_empty. }
    assert (Hcomps : pcomps k = pcomps d +++ path_comps rest).
    { unfold pcomps at 1. rewrite Hsp, Hroot. unfold clean_comps. rewrite fold_left_app, clean_names by exact Hd2.
      rewrite rev_app_distr, rev_involutive. f_equal. change (pcomps d) with (pcomps d). rewrite <- (clean_comps_id d).
      unfold pcomps, clean_comps. now rewrite clean_rooted. }
    split; [|auto]. intros Hnil. rewrite Hnil, app_nil_r in Hcomps.
    assert (Hkd : k = clean d) by (rewrite Hcd, <- Hcomps, <- Hroot; now apply clean_eq_unparse).
    rewrite Hkd in He. destruct (String.eqb_spec (clean d) ".") as [Hx|Hx].
    + rewrite Hx in He. subst rest. destruct (Hdots "." (or_introl eq_refl)) as [Hc _]. now elim Hc.
    + destruct (String.eqb_spec (clean d) "/") as [Hy|Hy].
      * rewrite Hy in He. cbn in He. injection He as He. now elim Hne.
      * apply (f_equal String.length) in He. rewrite length_app_s in He. cbn in He. lia.
  - intros [r [Hr [H1 [H2 H3]]]]. exists (sjoin "/" r).
    pose proof (pcomps_normal k) as [Hf _]. rewrite H2 in Hf. apply Forall_app in Hf as [_ Hf].
    assert (Hsl : Forall (fun c => has_char "/" c = false) r) by (eapply Forall_impl; [|exact Hf]; now intros a [Ha _]).
    split; [|split; [|split]].
    + intros He. apply (f_equal path_comps) in He. rewrite path_comps_join in He by exact Hf. now elim Hr.
    + apply (rooted_join r Hf).
    + rewrite split_on_sjoin by assumption. rewrite Forall_forall in H3, Hf. intros y Hy. split; [now apply (Hf y)|now apply (H3 y)].
    + rewrite (clean_eq_unparse k Hk), H1, H2, Hcd. unfold unparse. destruct (is_rooted d) eqn:Hrd.
      * destruct (pcomps d) as [|c cs] eqn:Hc; [reflexivity|].
        replace (String.eqb ("/" ++ sjoin "/" (c :: cs)) ".") with false by reflexivity.
        replace (String.eqb ("/" ++ sjoin "/" (c :: cs)) "/") with false.
        -- rewrite sjoin_app by (discriminate || assumption). reflexivity.
        -- symmetry. apply String.eqb_neq. intros He. apply (f_equal path_comps) in He. rewrite path_comps_slash in He.
           rewrite path_comps_join in He by (apply Hnd). discriminate.
      * destruct (pcomps d) as [|c cs] eqn:Hc; [destruct r; [now elim Hr|reflexivity]|].
        cbn [app]. change (c :: cs +++ r) with ((c :: cs) +++ r).
        replace (String.eqb (sjoin "/" (c :: cs)) ".") with false.
        -- replace (String.eqb (sjoin "/" (c :: cs)) "/") with false; [now rewrite sjoin_app by (discriminate || assumption)|].
           symmetry. apply String.eqb_neq. intros He. apply (f_equal is_rooted) in He.
           rewrite rooted_join in He by apply Hnd. discriminate.
        -- symmetry. apply String.eqb_neq. intros He. apply (f_equal path_comps) in He.
           rewrite path_comps_join in He by (apply Hnd). discriminate.
Qed.

(** * Lists of files *)

Section Lists.
Context {E : Env}.

Theorem file_list_dir : forall path w, tree_shaped (w_fs w) -> stat path w = SDir ->
  exists rest, get_file_list path w = Some (path :: rest +++ [path]) /\
    StronglySorted path_before rest /\ NoDup rest /\
    (forall k, In k rest -> get k (w_fs w) <> None /\ inside path k) /\
    (readable path -> forall k, get k (w_fs w) <> None -> inside path k -> In k rest).
Proof.
  intros path w Hsh Hst.
  assert (Hp : path <> "").
  { intros ->. unfold stat in Hst. destruct (env_stat_fail ""); discriminate. }
  assert (Hl : lookup (w_fs w) path = SDir).
  { unfold stat in Hst. destruct (env_stat_fail path); [discriminate|].
    now rewrite (proj2 (String.eqb_neq path "") Hp) in Hst. }
  exists (walk_rest w (Nat.pred (fs_depth (w_fs w))) path). unfold get_file_list. rewrite Hst.
  split; [reflexivity|]. pose proof (rest_sorted w Hsh (Nat.pred (fs_depth (w_fs w))) path Hp) as Hs.
  split; [exact Hs|]. split; [now apply sorted_nodup|]. split.
  - intros k Hk. apply (rest_sound w Hsh) in Hk as [Hk Hu]; [|exact Hp]. split; [now apply keys_get|].
    apply inside_under; [exact Hp|now apply (key_clean w Hsh)|exact Hu].
  - intros Hread k Hk Hin. apply keys_get in Hk. pose proof (key_clean w Hsh k Hk) as Hc.
    apply inside_under in Hin as [r [Hr Hu]]; [|exact Hp|exact Hc].
    apply (rest_complete w Hsh path) with r; try assumption.
    + intros p [->|[q [Hq [Huq Hcq]]]]; apply Hread; [now left|]. right. apply inside_under; [exact Hp|exact Hcq|now exists q].
    + now left.
    + pose proof (depth_bound (w_fs w) k Hk) as Hb. destruct Hu as [_ [Hu _]]. rewrite Hu, app_length in Hb.
      unfold fs_depth in *. cbn [Nat.pred]. lia.
Qed.

(** * Processing *)

Lemma parse_flags_spec : forall f,
  parse_flags f =
    if fl_h f || fl_v f then inr 0
    else if String.eqb (fl_i f) "" || negb (in_set (fl_l f) support_lang) then inr 1
    else inl (mkCfg (fl_i f) (fl_o f) (if string_dec (fl_p f) "" then "schema" else fl_p f) (fl_l f)).
Proof.
  intros f. unfold parse_flags. destruct (fl_h f), (fl_v f); try reflexivity. cbn [orb].
  destruct (String.eqb (fl_i f) ""); [reflexivity|]. destruct (String.eqb_spec (fl_l f) "") as [->|_]; [reflexivity|].
  destruct (negb (in_set (fl_l f) support_lang)); [reflexivity|]. cbn [orb].
  destruct (String.eqb_spec (fl_p f) "") as [->|Hp]; [reflexivity|]. now destruct (string_dec (fl_p f) "").
Qed.

Definition tool_config (f : flags) : config :=
  mkCfg (fl_i f) (fl_o f) (if string_dec (fl_p f) "" then "schema" else fl_p f) (fl_l f).

Lemma in_set_In : forall k l, in_set k l = true <-> In k l.
Proof.
  intros k l. unfold in_set. rewrite existsb_exists. split.
  - intros [x [Hx H]]. apply String.eqb_eq in H. now subst x.
  - intros H. exists k. split; [exact H|apply String.eqb_refl].
Qed.

Lemma main_accepted : forall d fuel f w, fl_h f = false -> fl_v f = false -> fl_i f <> "" -> In (fl_l f) support_lang ->
  main d fuel f w = match get_file_list (fl_i f) w with
                    | None => CExit 1 false w
                    | Some files => process d fuel (tool_config f) files w
                    end.
Proof.
  intros d fuel f w Hh Hv Hi Hl. unfold main. rewrite parse_flags_spec, Hh, Hv. cbn [orb].
  rewrite (proj2 (String.eqb_neq _ _) Hi). apply in_set_In in Hl. rewrite Hl. reflexivity.
Qed.

(** How the run over the files ends. *)
Lemma process_ends : forall d fuel f files w,
  match process d fuel (tool_config f) files w with
  | CExit 0 true w' => all_parsed d fuel f files w w'
  | CExit 1 false w' => stopped_at d fuel f files w (fun r => (exists e, r = Fail e w') \/ r = Crash Exit1 w')
  | CExit 2 false w' => stopped_at d fuel f files w (fun r => r = Crash Panic w')
  | CNoFuel w' => stopped_at d fuel f files w (fun r => r = Crash NoFuel w')
  | _ => False
  end.
Proof.
  intros d fuel f. induction files as [|file files IH]; intros w; cbn [process]; [constructor|].
  change (file_options (tool_config f) file) with (tool_options f file).
  change (fresh_maps w) with (with_new_maps w).
  assert (Here : forall (bad : out PState -> Prop), bad (parse d fuel (tool_options f file) (with_new_maps w)) ->
    stopped_at d fuel f (file :: files) w bad).
  { intros bad H. exists [], file, files, w. split; [reflexivity|]. split; [constructor|exact H]. }
  destruct (parse d fuel (tool_options f file) (with_new_maps w)) as [p w1|e w1|[] w1] eqn:Hp.
  - assert (Later : forall bad, stopped_at d fuel f files w1 bad -> stopped_at d fuel f (file :: files) w bad).
    { intros bad [before [x [after [w2 [-> [H1 H2]]]]]]. exists (file :: before), x, after, w2. split; [reflexivity|].
      split; [econstructor; eassumption|exact H2]. }
    specialize (IH w1). destruct (process d fuel (tool_config f) files w1) as [[|[|[|n]]] [] w2|w2]; try contradiction; try (now apply Later).
    + econstructor; eassumption.
  - apply Here. left. now exists e.
  - now apply Here.
  - apply Here. now right.
  - now apply Here.
Qed.

(** There is always enough fuel. *)
Theorem process_terminates : forall f files w,
  exists D F r, (forall w', r <> CNoFuel w') /\ forall d fuel, D <= d -> F <= fuel -> process d fuel (tool_config f) files w = r.
Proof.
  intros f. induction files as [|file files IH]; intros w; [exists 0, 0, (CExit 0 true w); split; [discriminate|reflexivity]|].
  cbn [process].
  set (o := file_options (tool_config f) file).
  destruct (parse_terminates o (fresh_maps w) (keys (w_fs w))) as [F1 [r1 [Hr1 H1]]].
  { intros c b Hc _. apply keys_get. cbn in Hc. rewrite Hc. discriminate. }
  destruct r1 as [p w1|e w1|[] w1].
  - destruct (IH w1) as [D2 [F2 [r2 [Hr2 H2]]]]. exists (length (keys (w_fs w)) + 2 + D2), (F1 + F2), r2. split; [exact Hr2|].
    intros d fuel Hd Hf. rewrite H1 by lia. apply H2; lia.
  - exists (length (keys (w_fs w)) + 2), F1, (CExit 1 false w1). split; [discriminate|]. intros d fuel Hd Hf. now rewrite H1 by lia.
  - exists (length (keys (w_fs w)) + 2), F1, (CExit 2 false w1). split; [discriminate|]. intros d fuel Hd Hf. now rewrite H1 by lia.
  - exists (length (keys (w_fs w)) + 2), F1, (CExit 1 false w1). split; [discriminate|]. intros d fuel Hd Hf. now rewrite H1 by lia.
  - now elim (Hr1 w1).
Qed.

(** * Arguments *)

Lemma cut_eq_none : forall s, has_char "=" s = false -> cut_eq s = (s, None).
Proof.
  induction s as [|a s IH]; cbn; [reflexivity|]. intros H. apply orb_false_iff in H as [H1 H2].
  rewrite H1, IH by exact H2. reflexivity.
Qed.

Lemma parse_written : forall s a, written_flag s a -> forall args f, parse_args (a +++ args) f = parse_args args (s f).
Proof.
  intros s a H. induction H; intros args f; try reflexivity.
  rewrite <- IHwritten_flag. cbn [app append]. destruct t as [|c t]; [inversion H|].
  assert (Hc : Ascii.eqb c "-" = false).
  { cbn in H0. destruct (Ascii.eqb_spec c "-") as [->|Hne]; [discriminate|reflexivity]. }
  cbn [parse_args]. change (Ascii.eqb "-" "-") with true. cbn [andb]. 
  rewrite Hc. cbn [andb String.eqb]. rewrite Hc. reflexivity.
Qed.

Theorem parse_written_flags : forall ss args f, written_flags ss args -> parse_args args f = inl (ss f).
Proof.
  intros ss args f H. revert f. induction H as [|s ss a args Ha H IH]; intros f; [reflexivity|].
  rewrite (parse_written s a Ha). apply IH.
Qed.

(** * Effects *)

Lemma change_kind : forall o pt c n n', output_change o pt c n n' ->
  (n = Some NDir -> n' = Some NDir) /\ (forall b, n = Some (NFile b) -> exists b', n' = Some (NFile b')).
Proof.
  intros o pt c n n' [->|[[p [_ [_ [-> ->]]]]|[l [f [text [ok [_ [_ [_ [_ [Hn ->]]]]]]]]]]]; split; eauto; try discriminate.
  now intros ->.
Qed.

Lemma parse_kind : forall d fuel o w c, o_extract o = false ->
  let w' := out_world (parse d fuel o w) in
  (get c (w_fs w) = Some NDir -> get c (w_fs w') = Some NDir) /\
  (forall b, get c (w_fs w) = Some (NFile b) -> exists b', get c (w_fs w') = Some (NFile b')).
Proof.
  intros d fuel o w c He w'. pose proof (parse_changes d fuel o w He c) as H.
  destruct H as [Heq|[[pt [_ Hn]]|[g [pt [_ [_ [_ Hn]]]]]]].
  - subst w'. rewrite Heq. eauto.
  - exact (change_kind _ _ _ _ _ Hn).
  - exact (change_kind _ _ _ _ _ Hn).
Qed.

Lemma all_parsed_kind : forall d fuel f files w w' c, all_parsed d fuel f files w w' ->
  (get c (w_fs w) = Some NDir -> get c (w_fs w') = Some NDir) /\
  (forall b, get c (w_fs w) = Some (NFile b) -> exists b', get c (w_fs w') = Some (NFile b')).
Proof.
  intros d fuel f files w w' c H. induction H as [w|file files w p w1 w2 Hp H IH]; [eauto|].
  destruct (parse_kind d fuel (tool_options f file) (with_new_maps w) c eq_refl) as [K1 K2].
  rewrite Hp in K1, K2. cbn [out_world with_new_maps w_fs] in K1, K2. destruct IH as [I1 I2]. split; [auto|].
  intros b Hb. destruct (K2 b Hb) as [b' Hb']. eauto.
Qed.

Lemma supported : forall name, In name support_lang -> exists l, lname l = name.
Proof.
  intros name H. cbn in H. destruct H as [<-|[<-|[<-|[<-|[<-|[]]]]]].
  - now exists Go.
  - now exists C.
  - now exists Java.
  - now exists Rust.
  - now exists TypeScript.
Qed.

Lemma selects_self : forall l, selects (lname l) l.
Proof. intros l. now destruct l. Qed.

Lemma stat_kind : forall path w w' b, stat path w = SFile b ->
  (forall b, get (clean path) (w_fs w) = Some (NFile b) -> exists b', get (clean path) (w_fs w') = Some (NFile b')) ->
  exists b', stat path w' = SFile b'.
Proof.
  intros path w w' b H Hk. pose proof (stat_file path w b H) as Hg. destruct (Hk b Hg) as [b' Hb']. exists b'.
  revert H. unfold stat, lookup. destruct (env_stat_fail path); [discriminate|]. destruct (String.eqb path ""); [discriminate|].
  destruct (implicit_dir (clean path)); [discriminate|]. intros _. now rewrite Hb'.
Qed.

(** Every schema file of the list has its output at the end. *)
Theorem all_parsed_outputs : forall d fuel f files w w', In (fl_l f) support_lang -> all_parsed d fuel f files w w' ->
  exists l, lname l = fl_l f /\ forall file b, In file files -> stat file w = SFile b ->
  exists name text, output_file (tool_options f file) l name /\ get (clean name) (w_fs w') = Some (NFile text).
Proof.
  intros d fuel f files w w' Hl H. destruct (supported (fl_l f) Hl) as [l Hn]. exists l. split; [exact Hn|].
  induction H as [w|file files w p w1 w2 Hp H IH]; intros x b Hin Hx; [destruct Hin|].
  destruct Hin as [->|Hin].
  - destruct (parse_writes d fuel (tool_options f x) (with_new_maps w) b p w1 l eq_refl Hx Hp) as [name [text [Hf [_ Hg]]]].
    { cbn [tool_options o_lang]. rewrite <- Hn. apply selects_self. }
    destruct (all_parsed_kind d fuel f files w1 w2 (clean name) H) as [_ K].
    destruct (K _ Hg) as [b' Hb]. now exists name, b'.
  - destruct (stat_kind x w w1 b Hx) as [b' Hb'].
    + destruct (parse_kind d fuel (tool_options f file) (with_new_maps w) (clean x) eq_refl) as [_ K]. rewrite Hp in K. exact K.
    + exact (IH x b' Hin Hb').
Qed.

Lemma parse_where : forall d fuel f file files w c, In file files ->
  get c (w_fs (out_world (parse d fuel (tool_options f file) (with_new_maps w)))) <> get c (w_fs w) ->
  tool_output f files c.
Proof.
  intros d fuel f file files w c Hin Hne.
  destruct (parse_changes d fuel (tool_options f file) (with_new_maps w) eq_refl c) as [Heq|[[pt [_ Hn]]|[g [pt [_ [_ [_ Hn]]]]]]].
  - now elim Hne.
  - exists (tool_options f file), file. split; [exact Hin|]. split; [now left|]. now apply (change_where _ _ _ _ _ Hn).
  - exists (for_schema (tool_options f file) g), file. split; [exact Hin|]. split; [right; now exists g|].
    now apply (change_where _ _ _ _ _ Hn).
Qed.

Lemma node_dec : forall a b : option node, {a = b} + {a <> b}.
Proof. decide equality. decide equality. apply string_dec. Qed.

Theorem process_where : forall d fuel f all files w c, incl files all ->
  match process d fuel (tool_config f) files w with CExit _ _ w' | CNoFuel w' =>
    get c (w_fs w') <> get c (w_fs w) -> tool_output f all c end.
Proof.
  intros d fuel f all. induction files as [|file files IH]; intros w c Hincl; cbn [process]; [congruence|].
  change (file_options (tool_config f) file) with (tool_options f file). change (fresh_maps w) with (with_new_maps w).
  assert (Hin : In file all) by (apply Hincl; now left).
  pose proof (parse_where d fuel f file all w c Hin) as Hw.
  destruct (parse d fuel (tool_options f file) (with_new_maps w)) as [p w1|e w1|[] w1]; try exact Hw.
  cbn [out_world] in Hw. specialize (IH w1 c (fun x Hx => Hincl x (or_intror Hx))).
  destruct (node_dec (get c (w_fs w1)) (get c (w_fs w))) as [He|Hne].
  - rewrite He in IH. exact IH.
  - specialize (Hw Hne). now destruct (process d fuel (tool_config f) files w1).
Qed.

(** No panic on well-formed schema files. *)
Theorem process_no_panic : (forall path s, SpecDoc.fits 0 false (env_tokens (env_write path s))) ->
  forall d fuel f files w, schemas_fit w -> forall done w', process d fuel (tool_config f) files w <> CExit 2 done w'.
Proof.
  intros Hwr d fuel f. induction files as [|file files IH]; intros w Hw done w'; cbn [process]; [discriminate|].
  destruct (parse_no_panic Hwr d fuel (file_options (tool_config f) file) (fresh_maps w) Hw) as [H1 H2].
  destruct (parse d fuel (file_options (tool_config f) file) (fresh_maps w)) as [p w1|e w1|[] w1]; try discriminate.
  - now apply IH.
  - now elim H2.
Qed.

(** Where the output of a file of a directory goes. *)
Lemma location_path : forall f rest, fl_o f <> "" ->
  output_path (tool_options f (fl_i f ++ "/" ++ rest)) = clean (fl_o f ++ "/" ++ rest).
Proof.
  intros f rest Ho. unfold output_path, tool_options. cbn [o_output o_file o_input].
  assert (Ht : trim_prefix (fl_i f ++ "/" ++ rest) (fl_i f) = "/" ++ rest).
  { unfold trim_prefix. rewrite (proj2 (strip_prefix_spec (fl_i f) _ ("/" ++ rest)) eq_refl). reflexivity. }
  rewrite Ht. unfold join2. rewrite (proj2 (String.eqb_neq _ _) Ho).
  rewrite !clean_unparse. unfold pcomps. rewrite !rooted_app by exact Ho.
  now rewrite !path_comps_app, path_comps_slash.
Qed.

Theorem output_location : forall f l rest name, fl_o f <> "" ->
  (output_file (tool_options f (fl_i f ++ "/" ++ rest)) l name <->
   with_extension (clean (fl_o f ++ "/" ++ rest)) (extension l) name).
Proof.
  intros f l rest name Ho. rewrite output_file_spec, with_extension_spec, location_path by exact Ho. reflexivity.
Qed.

(** The output of a file of an input directory in clean form, with or without
    a final slash, is below the output directory. *)
Theorem tool_inside : forall f w files file b l name, tree_shaped (w_fs w) -> stat (fl_i f) w = SDir -> fl_o f <> "" ->
  fl_i f <> "." -> fl_i f = clean (fl_i f) \/ fl_i f = clean (fl_i f) ++ "/" ->
  get_file_list (fl_i f) w = Some files -> In file files -> stat file w = SFile b -> lname l = fl_l f ->
  output_file (tool_options f file) l name -> inside (fl_o f) (clean name).
Proof.
  intros f w files file b l name Ht Hd Ho Hdot Hcl Hl Hin Hs Hn Hname.
  destruct (file_list_dir (fl_i f) w Ht Hd) as [rest [Hf [_ [_ [Hr _]]]]]. rewrite Hl in Hf. injection Hf as ->.
  assert (Hne : file <> fl_i f) by congruence.
  assert (Hi : In file rest).
  { destruct Hin as [H|H]; [now elim Hne|]. apply in_app_iff in H as [H|[H|[]]]; [exact H|now elim Hne]. }
  destruct (Hr file Hi) as [Hk [r [H1 [H2 [H3 H4]]]]]. apply keys_get in Hk. destruct (proj2 Ht file Hk) as [Hc _]. rewrite Hc in H4.
  assert (Hx : exists x y, split_on "/" r = x :: y /\ x <> "").
  { destruct r as [|a r]; [now elim H1|]. cbn in H2. cbn [split_on]. destruct (Ascii.eqb_spec a "/") as [->|Ha]; [discriminate|].
    destruct (split_on "/" r); eexists; eexists; (split; [reflexivity|discriminate]). }
  destruct Hx as [x [y [Hx Hx0]]].
  assert (Hrel : exists rel, relative (fl_i f) file rel /\ (rel = r \/ rel = "/" ++ r)).
  { set (p := clean (fl_i f)) in *. clearbody p. destruct (String.eqb_spec p ".") as [Hp|Hp].
    - destruct Hcl as [Hcl|Hcl]; rewrite Hp in Hcl; [now elim Hdot|]. rewrite Hcl. exists r. split; [|now left]. right. split; [now symmetry|].
      intros [t H]. rewrite H4 in H. rewrite H in Hx. cbn in Hx. injection Hx as <- _. destruct (H3 ".") as [H5 _]; [|now elim H5].
      rewrite H. now left.
    - destruct (String.eqb_spec p "/") as [Hq|Hq]; rewrite H4; destruct Hcl as [Hcl|Hcl]; rewrite Hcl, ?Hq.
      + exists r. split; [now left|now left].
      + exists ("/" ++ r). split; [|now right]. right. split; [reflexivity|]. intros [t H]. cbn in H. injection H as H. rewrite H in H2. discriminate.
      + exists ("/" ++ r). split; [now left|now right].
      + exists r. split; [left|now left]. now rewrite app_assoc_s. }
  destruct Hrel as [rel [Hrel Hform]].
  apply (file_inside (tool_options f file) rel l name); [exact Ho|exact Hrel| | |cbn; rewrite <- Hn; apply selects_self|exact Hname].
  - intros z Hz. destruct Hform as [->| ->]; [now apply H3|]. cbn in Hz. destruct Hz as [<-|Hz]; [discriminate|now apply H3].
  - exists x. split.
    + destruct Hform as [->| ->]; [rewrite Hx; now left|]. cbn. right. rewrite Hx. now left.
    + split; [exact Hx0|]. apply (H3 x). rewrite Hx. now left.
Qed.

End Lists.
