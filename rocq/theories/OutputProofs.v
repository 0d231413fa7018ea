(** Lemmas about the names of the output files of a directory. *)

From Coq Require Import String Ascii List Arith NArith Bool Lia.
From Verif Require Import GoStr GoPath Base World Handlers Parser Cli StrLemmas PathProofs SpecStr SpecGen SpecOut SpecFile SpecParse SpecCli
  ParseFacts ParserProofs FileProofs CliProofs SpecWhole WholeProofs SpecLocal.
Import ListNotations.
Local Open Scope string_scope.

Local Infix "+++" := app (at level 60, right associativity).

Lemma ext_facts : forall l, has_char "/" (extension l) = false /\ 2 <= String.length (extension l).
Proof. intros []; cbn; split; auto; lia. Qed.

(** A suffix without slash of a path whose last part is [b]. *)
Lemma ends_part : forall a b e, has_char "/" e = false -> a = "" \/ (exists q, a = q ++ "/") -> ends_with (a ++ b) e -> ends_with b e.
Proof.
  intros a b e He Ha [p Hp].
  assert (H : forall a b p e : string, a ++ b = p ++ e -> (exists t, b = t ++ e) \/ exists t, t <> "" /\ e = t ++ b /\ a = p ++ t).
  { clear. induction a as [|x a IH]; intros b p e H.
    - left. now exists p.
    - destruct p as [|y p].
      + right. exists (String x a). split; [discriminate|]. now split.
      + cbn in H. injection H as -> H. destruct (IH _ _ _ H) as [H'|[t [Ht [He Hp]]]]; [now left|right]. exists t. cbn. now rewrite Hp. }
  destruct (H _ _ _ _ Hp) as [[t Ht]|[t [Ht [Het Hat]]]]; [now exists t|exfalso].
  destruct Ha as [->|[q ->]].
  - symmetry in Hat. now apply app_eq_nil_s in Hat as [_ Hat].
  - assert (Hs : has_char "/" t = true).
    { clear - Hat Ht. revert p Hat. induction t as [|c t IH]; intros p H; [now elim Ht|]. destruct t as [|d t].
      - apply last_byte in H. subst c. reflexivity.
      - cbn [has_char]. apply orb_true_iff. right. apply (IH ltac:(discriminate) (p ++ String c "")). rewrite app_assoc_s. exact H. }
    rewrite Het, has_char_app, Hs in He. discriminate.
Qed.

Lemma unparse_last : forall r cs x, exists a, (a = "" \/ exists q, a = q ++ "/") /\ forall y, unparse r (cs +++ [x ++ y]) = a ++ x ++ y.
Proof.
  intros r cs x. destruct cs as [|c cs].
  - destruct r; [exists "/"|exists ""]; (split; [|reflexivity]); [right; now exists ""|now left].
  - set (q := sjoin "/" (c :: cs)). exists ((if r then "/" else "") ++ q ++ "/"). split.
    + right. exists ((if r then "/" else "") ++ q). now rewrite app_assoc_s.
    + intros y. unfold unparse. assert (Hs : sjoin "/" ((c :: cs) +++ [x ++ y]) = q ++ "/" ++ x ++ y).
      { rewrite sjoin_app by discriminate. reflexivity. }
      destruct r; [rewrite Hs; now rewrite !app_assoc_s|]. cbn [app] in *. rewrite Hs. cbn [append]. now rewrite app_assoc_s.
Qed.

(** The name of an output with its extension. *)
Lemma extended : forall r cs x l n, ~ ends_with x (extension l) ->
  with_extension (unparse r (cs +++ [x])) (extension l) n -> n = unparse r (cs +++ [x ++ extension l]).
Proof.
  intros r cs x l n Hx Hn. destruct (unparse_last r cs x) as [a [Ha Hu]]. rewrite Hu.
  pose proof (Hu "") as H0. rewrite !app_nil_r_s in H0. rewrite H0 in Hn. destruct Hn as [[He _]|[_ ->]].
  - elim Hx. apply (ends_part a); [apply ext_facts|exact Ha|exact He].
  - now rewrite app_assoc_s.
Qed.

Lemma real_extended : forall x l, real_comp x -> real_comp (x ++ extension l) /\ x ++ extension l <> "..".
Proof.
  intros x l [H1 [H2 H3]]. destruct (ext_facts l) as [E1 E2].
  assert (Hlen : 3 <= String.length (x ++ extension l)).
  { rewrite length_app_s. destruct x; [now elim H2|]. cbn. lia. }
  split; [split; [|split]|].
  - now rewrite has_char_app, H1.
  - intros H. rewrite H in Hlen. cbn in Hlen. lia.
  - intros H. rewrite H in Hlen. cbn in Hlen. lia.
  - intros H. rewrite H in Hlen. cbn in Hlen. lia.
Qed.

(** The directory of a path that ends with a name. *)
Lemma dir_of_names : forall r cs x, normal r (cs +++ [x]) -> x <> ".." -> pcomps (dir (unparse r (cs +++ [x]))) = cs.
Proof.
  intros r cs x Hn Hx. assert (Hr : real_comp x) by (destruct Hn as [Hf _]; apply Forall_app in Hf as [_ Hf]; now inversion Hf).
  unfold dir. rewrite clean_comps_id. set (p := unparse r (cs +++ [x])).
  pose proof (unparse_comps _ _ Hn) as Hp. fold p in Hp.
  destruct (dir_comps p) as [[y Hy]|[_ [b [Hb Hc]]]].
  - rewrite Hp in Hy. apply app_inj_tail in Hy as [Hy _]. now symmetry.
  - exfalso. destruct (unparse_last r cs x) as [a [Ha Hu]]. specialize (Hu ""). rewrite !app_nil_r_s in Hu. fold p in Hu.
    destruct (dir_part_spec p) as [b' [Hb' [Hp' Hd]]]. rewrite Hp' in Hb at 1. apply app_inj_l in Hb. subst b'.
    assert (b = x).
    { pose proof (proj1 Hr) as Hxs. clear - Hp' Hu Hd Ha Hb' Hxs. rewrite Hu in Hp' at 1.
      assert (Hs : split_on "/" (a ++ x) = split_on "/" (dir_part p ++ b)) by now f_equal.
      assert (Hl : forall a x, (a = "" \/ exists q, a = q ++ "/") -> has_char "/" x = false -> exists s, split_on "/" (a ++ x) = s +++ [x]).
      { clear. intros a x Ha Hx. destruct Ha as [->|[q ->]].
        - exists []. now apply split_on_no_char.
        - exists (split_on "/" q). rewrite app_assoc_s. change ("/" ++ x) with (String "/" x). rewrite split_on_app. now rewrite (split_on_no_char _ _ Hx). }
      destruct (Hl a x Ha Hxs) as [s1 E1]. destruct (Hl (dir_part p) b Hd Hb') as [s2 E2]. rewrite E1, E2 in Hs.
      now apply app_inj_tail in Hs as [_ ->]. }
    subst b. destruct Hr as [_ [R1 R2]]. intuition congruence.
Qed.

(** The position of a path inside a directory. *)
Lemma inside_comps : forall d k rest, clean k = k -> has_prefix rest "/" = false ->
  (forall x, In x (split_on "/" rest) -> x <> "." /\ x <> "..") ->
  k = (if String.eqb (clean d) "." then rest else if String.eqb (clean d) "/" then "/" ++ rest else clean d ++ "/" ++ rest) ->
  is_rooted k = is_rooted d /\ pcomps k = pcomps d +++ path_comps rest /\ Forall (fun c => c <> "..") (path_comps rest) /\
  (forall c, In c (path_comps rest) -> In c (split_on "/" k)).
Proof.
  intros d k rest Hk Hpre Hdots He.
  assert (Hsp : path_comps (if String.eqb (clean d) "." then rest else if String.eqb (clean d) "/" then "/" ++ rest
                 else clean d ++ "/" ++ rest) = path_comps (clean d) +++ path_comps rest).
  { destruct (String.eqb_spec (clean d) ".") as [->|_]; [reflexivity|].
    destruct (String.eqb_spec (clean d) "/") as [->|_]; [apply path_comps_slash|]. apply path_comps_app. }
  rewrite <- He in Hsp.
  assert (Hd2 : Forall (fun c => c <> "..") (path_comps rest)).
  { apply Forall_forall. intros c Hc. apply filter_In in Hc as [Hc _]. now apply (Hdots c). }
  assert (Hroot : is_rooted k = is_rooted d).
  { rewrite He, <- (clean_rooted d). destruct (String.eqb_spec (clean d) ".") as [->|Hx].
    - unfold is_rooted in *. rewrite Hpre. reflexivity.
    - destruct (String.eqb_spec (clean d) "/") as [->|_]; [reflexivity|].
      apply rooted_app, clean_not_empty. }
  split; [exact Hroot|]. split; [|split; [exact Hd2|]].
  - unfold pcomps at 1. rewrite Hsp, Hroot. unfold clean_comps. rewrite fold_left_app, clean_names by exact Hd2.
    rewrite rev_app_distr, rev_involutive. f_equal. rewrite <- (clean_comps_id d).
    unfold pcomps, clean_comps. now rewrite clean_rooted.
  - intros c Hc. assert (H : In c (path_comps k)) by (rewrite Hsp; apply in_app_iff; now right).
    now apply filter_In in H as [H _].
Qed.

Section Outputs.
Context {E : Env}.

(** A file of the input directory: its parts below the directory, and where
    its output goes. *)
Lemma placed : forall f w files file b, tree_shaped (w_fs w) -> stat (fl_i f) w = SDir -> fl_o f <> "" ->
  fl_i f <> "." -> fl_i f = clean (fl_i f) \/ fl_i f = clean (fl_i f) ++ "/" ->
  get_file_list (fl_i f) w = Some files -> In file files -> stat file w = SFile b ->
  exists init last, clean file = file /\ is_rooted file = is_rooted (fl_i f) /\ pcomps file = pcomps (fl_i f) +++ (init +++ [last]) /\
    Forall real_comp (init +++ [last]) /\ Forall (fun c => c <> "..") (init +++ [last]) /\
    (forall c, In c (init +++ [last]) -> In c (split_on "/" file)) /\
    (forall p, output_place (tool_options f file) p -> p = unparse (is_rooted (fl_o f)) (pcomps (fl_o f) +++ (init +++ [last]))).
Proof.
  intros f w files file b Ht Hd Ho Hdot Hcl Hl Hin Hs.
  destruct (file_list_dir (fl_i f) w Ht Hd) as [rest [Hf [_ [_ [Hr _]]]]]. rewrite Hl in Hf. injection Hf as ->.
  assert (Hne : file <> fl_i f) by congruence.
  assert (Hi : In file rest).
  { destruct Hin as [H|H]; [now elim Hne|]. apply in_app_iff in H as [H|[H|[]]]; [exact H|now elim Hne]. }
  destruct (Hr file Hi) as [Hk [r [H1 [H2 [H3 H4]]]]]. apply keys_get in Hk. destruct (proj2 Ht file Hk) as [Hc _]. rewrite Hc in H4.
  destruct (inside_comps (fl_i f) file r Hc H2 H3 H4) as [I1 [I2 [I3 I4]]].
  assert (Hx : exists x y, split_on "/" r = x :: y /\ x <> "").
  { destruct r as [|a r]; [now elim H1|]. cbn in H2. cbn [split_on]. destruct (Ascii.eqb_spec a "/") as [->|Ha]; [discriminate|].
    destruct (split_on "/" r); eexists; eexists; (split; [reflexivity|discriminate]). }
  destruct Hx as [x [y [Hx Hx0]]].
  assert (Hnil : path_comps r <> []).
  { intros He. assert (Hin' : In x (path_comps r)); [|now rewrite He in Hin'].
    apply filter_In. split; [rewrite Hx; now left|]. destruct (H3 x) as [X1 _]; [rewrite Hx; now left|].
    apply String.eqb_neq in Hx0, X1. now rewrite Hx0, X1. }
  assert (Hrel : exists rel, relative (fl_i f) file rel /\ (rel = r \/ rel = "/" ++ r)).
  { set (p := clean (fl_i f)) in *. clearbody p. destruct (String.eqb_spec p ".") as [Hp|Hp].
    - destruct Hcl as [Hcl|Hcl]; rewrite Hp in Hcl; [now elim Hdot|]. rewrite Hcl. exists r. split; [|now left]. right. split; [now symmetry|].
      intros [t H]. rewrite H4 in H. rewrite H in Hx. cbn in Hx. injection Hx as <- _. destruct (H3 ".") as [H5 _]; [|now elim H5].
      rewrite H. now left.
    - destruct (String.eqb_spec p "/") as [Hq|Hq]; rewrite H4; destruct Hcl as [Hcl|Hcl]; rewrite Hcl, ?Hq.
      + exists r. split; [now left|now left].
      + exists ("/" ++ r). split; [|now right]. right. split; [reflexivity|]. intros [t H]. cbn in H. injection H as H. rewrite H in H2. discriminate.
      + exists ("/" ++ r). split; [now left|now right].
      + exists r. split; [left|now left]. now rewrite app_assoc_s. }
  destruct Hrel as [rel [Hrel Hform]].
  assert (Hpc : path_comps rel = path_comps r) by (destruct Hform as [->| ->]; [reflexivity|apply path_comps_slash]).
  destruct (exists_last Hnil) as [init [last Hlast]]. exists init, last. rewrite <- Hlast.
  split; [exact Hc|]. split; [exact I1|]. split; [exact I2|]. split; [apply path_comps_real|]. split; [exact I3|]. split; [exact I4|].
  intros p [rel' [Hr' ->]]. cbn [tool_options o_input o_file o_output] in *.
  assert (rel' = rel) as ->.
  { destruct Hrel as [Ha|[-> Ha]], Hr' as [Hb|[-> Hb]].
    - rewrite Ha in Hb. now apply app_inj_l in Hb.
    - elim Hb. now exists rel.
    - elim Ha. now exists rel'.
    - reflexivity. }
  rewrite <- Hpc. apply join_comps; [exact Ho|]. now rewrite Hpc.
Qed.

Theorem outputs_separate : forall f w files l, tree_shaped (w_fs w) -> stat (fl_i f) w = SDir -> fl_o f <> "" ->
  fl_i f <> "." -> fl_i f = clean (fl_i f) \/ fl_i f = clean (fl_i f) ++ "/" ->
  get_file_list (fl_i f) w = Some files ->
  (forall x, In x files /\ (exists b, stat x w = SFile b) -> no_part_ends (extension l) x) ->
  separate_outputs f l (fun x => In x files /\ exists b, stat x w = SFile b).
Proof.
  intros f w files l Ht Hd Ho Hdot Hcl Hl Hext a b n Ha Hb [p [Hp Hn]].
  pose proof (Hext a Ha) as Xa. pose proof (Hext b Hb) as Xb. destruct Ha as [Ha [ba Hsa]]. destruct Hb as [Hb [bb Hsb]].
  destruct (placed f w files a ba Ht Hd Ho Hdot Hcl Hl Ha Hsa) as [ia [la [A1 [A2 [A3 [A4 [A5 [A6 A7]]]]]]]].
  destruct (placed f w files b bb Ht Hd Ho Hdot Hcl Hl Hb Hsb) as [ib [lb [B1 [B2 [B3 [B4 [B5 [B6 B7]]]]]]]].
  set (r := is_rooted (fl_o f)) in *. set (cs := pcomps (fl_o f)) in *.
  assert (Hcs : normal r cs) by apply pcomps_normal.
  assert (Hla : forall i x m q, (forall c, In c (i +++ [x]) -> ~ ends_with c (extension l)) -> Forall real_comp (i +++ [x]) ->
    Forall (fun c => c <> "..") (i +++ [x]) -> q = unparse r (cs +++ (i +++ [x])) -> with_extension q (extension l) m ->
    clean m = unparse r (cs +++ (i +++ [x ++ extension l])) /\ normal r (cs +++ (i +++ [x ++ extension l]))).
  { intros i x m q H1 H2 H3 -> H4. rewrite app_assoc in H4. apply extended in H4; [|apply H1; apply in_app_iff; right; now left].
    rewrite <- app_assoc in H4.
    assert (Hnn : normal r (cs +++ (i +++ [x ++ extension l]))).
    { apply Forall_app in H2 as [H2 H2']. apply Forall_app in H3 as [H3 _]. inversion_clear H2' as [|? ? Hx _].
      destruct (real_extended x l Hx) as [R1 R2]. apply normal_app_names; [exact Hcs|apply Forall_app; split; [exact H2|now constructor]
        |apply Forall_app; split; [exact H3|now constructor]]. }
    split; [|exact Hnn]. rewrite H4, clean_unparse, unparse_rooted, unparse_comps by exact Hnn. reflexivity. }
  assert (Ya : forall c, In c (ia +++ [la]) -> ~ ends_with c (extension l)) by (intros c Hc; apply Xa; now apply A6).
  assert (Yb : forall c, In c (ib +++ [lb]) -> ~ ends_with c (extension l)) by (intros c Hc; apply Xb; now apply B6).
  destruct (Hla ia la n p Ya A4 A5 (A7 p Hp) Hn) as [Cn Nn].
  split; [|split].
  - intros He. rewrite B1 in He. apply (f_equal pcomps) in He. rewrite Cn, unparse_comps, B3 in He by exact Nn.
    rewrite !app_assoc in He. apply app_inj_tail in He as [_ He]. apply (Yb lb); [apply in_app_iff; right; now left|].
    exists la. now symmetry.
  - intros m [q [Hq Hm]] He. destruct (Hla ib lb m q Yb B4 B5 (B7 q Hq) Hm) as [Cm Nm].
    rewrite Cn, Cm in He. apply unparse_inj in He as [_ He]; [|exact Nn|exact Nm].
    apply app_inv_head in He. apply app_inj_tail in He as [-> He]. apply app_inj_r in He. subst lb.
    rewrite <- A1, <- B1, !clean_unparse. now rewrite A2, B2, A3, B3.
  - intros q Hq Hin. rewrite (B7 q Hq) in Hin. rewrite app_assoc in Hin. apply lineage_spec in Hin as [m [s [Hm [Hs He]]]].
    assert (Nb : normal r ((cs +++ ib) +++ [lb])) by (rewrite <- app_assoc; now apply normal_app_names).
    rewrite dir_of_names in Hs; [|exact Nb|apply Forall_app in B5 as [_ B5]; now inversion B5].
    assert (Nm : normal r m).
    { apply (normal_prefix _ m s). rewrite <- Hs. now apply (normal_prefix _ _ [lb]). }
    rewrite Cn in He. unfold dir in He. rewrite clean_rooted, dir_rooted, unparse_rooted in He by exact Nb.
    apply unparse_inj in He as [_ He]; [|exact Nn|exact Nm]. rewrite <- He in Hs. rewrite <- app_assoc in Hs. apply app_inv_head in Hs.
    apply (Yb (la ++ extension l)); [|now exists la]. apply in_app_iff. left. rewrite Hs. apply in_app_iff. left. apply in_app_iff. right. now left.
Qed.

(** Outputs can be written into a directory that is empty or not there. *)
Theorem fresh_can_write : forall f w files l, tree_shaped (w_fs w) -> stat (fl_i f) w = SDir -> fl_o f <> "" ->
  fl_i f <> "." -> fl_i f = clean (fl_i f) \/ fl_i f = clean (fl_i f) ++ "/" ->
  get_file_list (fl_i f) w = Some files ->
  (forall x, In x files /\ (exists b, stat x w = SFile b) -> no_part_ends (extension l) x) ->
  no_faults -> fresh_directory (fl_o f) w ->
  forall x, In x files /\ (exists b, stat x w = SFile b) -> can_write (tool_options f x) l w.
Proof.
  intros f w files l Ht Hd Ho Hdot Hcl Hl Hext Hnf [F1 F2] x Hx. pose proof (Hext x Hx) as Xa. destruct Hx as [Hx [b Hs]].
  destruct (placed f w files x b Ht Hd Ho Hdot Hcl Hl Hx Hs) as [i [last [A1 [A2 [A3 [A4 [A5 [A6 A7]]]]]]]].
  set (r := is_rooted (fl_o f)) in *. set (cs := pcomps (fl_o f)) in *.
  assert (Hcs : normal r cs) by apply pcomps_normal.
  assert (Hin : forall m, m <> [] -> Forall real_comp m -> Forall (fun c => c <> "..") m -> inside (fl_o f) (unparse r (cs +++ m))).
  { intros m Hm H1 H2. assert (Hnm : normal r (cs +++ m)) by now apply normal_app_names.
    apply inside_under; [exact Ho| |].
    - rewrite clean_unparse, unparse_rooted, unparse_comps by exact Hnm. reflexivity.
    - exists m. split; [exact Hm|]. split; [now apply unparse_rooted|]. split; [now apply unparse_comps|exact H2]. }
  apply Forall_app in A4 as [R1 R2]. apply Forall_app in A5 as [D1 D2]. inversion_clear R2 as [|? ? Rl _]. inversion_clear D2 as [|? ? Dl _].
  assert (Nb : normal r ((cs +++ i) +++ [last])).
  { rewrite <- app_assoc. apply normal_app_names; [exact Hcs|apply Forall_app; split; [exact R1|now constructor]|apply Forall_app; split; [exact D1|now constructor]]. }
  split.
  - intros p Hp. rewrite (A7 p Hp), app_assoc. split; [apply (Hnf (dir _))|]. intros a Ha. split; [apply Hnf|].
    apply lineage_spec in Ha as [m [s [Hm [Hs' He]]]]. rewrite dir_of_names in Hs' by assumption.
    unfold dir in He. rewrite clean_rooted, dir_rooted, unparse_rooted in He by exact Nb. subst a.
    assert (Hcase : (exists t, cs = m +++ t) \/ exists t, t <> [] /\ m = cs +++ t /\ exists u, i = t +++ u).
    { clear - Hs'. revert m Hs'. induction cs as [|c cs IH]; intros m H.
      - destruct m as [|y m]; [left; now exists []|]. right. exists (y :: m). split; [discriminate|]. split; [reflexivity|]. now exists s.
      - destruct m as [|y m]; [left; now exists (c :: cs)|]. cbn in H. injection H as -> H. destruct (IH m H) as [[t Ht]|[t [H1 [H2 H3]]]].
        + left. exists t. now rewrite Ht.
        + right. exists t. now rewrite H2. }
    destruct Hcase as [[t Ht']|[t [Ht1 [Ht2 [u Hu]]]]].
    + intros b' Hb'. apply (F1 (unparse r m)) with (b := b'); [|exact Hb']. apply lineage_spec. exists m, t. auto.
    + intros b'. rewrite Ht2. rewrite F2; [discriminate|]. rewrite Hu in R1, D1. apply Forall_app in R1 as [R1 _]. apply Forall_app in D1 as [D1 _].
      now apply Hin.
  - intros n [p [Hp Hn]]. rewrite (A7 p Hp), app_assoc in Hn.
    apply extended in Hn; [|apply Xa, A6; apply in_app_iff; right; now left]. subst n.
    destruct (real_extended last l Rl) as [E1 E2].
    assert (Ne : normal r ((cs +++ i) +++ [last ++ extension l])).
    { rewrite <- app_assoc. apply normal_app_names; [exact Hcs|apply Forall_app; split; [exact R1|now constructor]|apply Forall_app; split; [exact D1|now constructor]]. }
    split; [apply Hnf|]. rewrite clean_unparse, unparse_rooted, unparse_comps by exact Ne.
    split; [now apply name_not_implicit|]. rewrite <- app_assoc. rewrite F2; [discriminate|].
    apply Hin; [now destruct i|apply Forall_app; split; [exact R1|now constructor]|apply Forall_app; split; [exact D1|now constructor]].
Qed.

End Outputs.
