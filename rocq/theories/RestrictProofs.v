(** Proofs for C63. *)

From Coq Require Import String Ascii List NArith Bool Lia.
From Verif Require Import GoStr GoPath Base Utils World Handlers Parser StrLemmas SpecStr SpecTables SpecDoc SpecRestrict StrProofs TableProofs DocLemmas.
Import ListNotations.
Local Open Scope string_scope.

Section Env.
Context {E : Env}.

Lemma values_cons : forall k x l, values k (x :: l) = ((if String.eqb (a_local x) k then [a_value x] else []) ++ values k l)%list.
Proof. intros k x l. unfold values. cbn [filter]. now destruct (String.eqb (a_local x) k). Qed.

Lemma restriction_none : forall gvt tree l p w, values "base" l = [] -> restriction_attrs gvt tree l p w = Ret p w.
Proof.
  intros gvt tree l. induction l as [|x l IH]; intros p w H; [reflexivity|]. rewrite values_cons in H. cbn [restriction_attrs].
  destruct (String.eqb (a_local x) "base"); [discriminate|]. now apply IH.
Qed.

Lemma extension_none : forall gvt tree l p w, values "base" l = [] -> extension_attrs gvt tree l p w = Ret p w.
Proof.
  intros gvt tree l. induction l as [|x l IH]; intros p w H; [reflexivity|]. rewrite values_cons in H. cbn [extension_attrs].
  destruct (String.eqb (a_local x) "base"); [discriminate|]. now apply IH.
Qed.

Lemma restriction_base : forall gvt l v t u p w, values "base" l = [v] ->
  gvt v (freeze p) w = Ret t w -> (p_simple p <> [] -> gvt t (freeze p) w = Ret u w) ->
  on_restriction gvt l p w = Ret (restricted v u p) w.
Proof.
  intros gvt l v t u p w Hl H1 H2. unfold on_restriction. revert Hl. generalize (freeze p) H1 H2. intros tree G1 G2. clear H1 H2.
  induction l as [|x l IH]; intros Hl; [discriminate|]. rewrite values_cons in Hl. cbn [restriction_attrs].
  destruct (String.eqb (a_local x) "base") eqn:Hb; [|now apply IH].
  injection Hl as Hv Hl. rewrite Hv, G1. cbn [bind]. destruct p as [a b c d e f g si k m n q y z]. unfold restricted.
  cbn [p_simple p_tree p_heap p_in_element p_current p_in_group p_in_union p_in_ag p_complex p_element p_attribute p_group p_attrgroup p_choice] in *.
  destruct si as [|s r]; cbn [nonempty]; [now apply restriction_none|]. rewrite G2 by discriminate. cbn [bind on_top].
  rewrite restriction_none by exact Hl. unfold set_simple, based. destruct s as [s1 [|ch s2] s3 s4 s5 s6 s7]; reflexivity.
Qed.

Lemma extension_base : forall gvt l v t u p w, values "base" l = [v] ->
  gvt v (freeze p) w = Ret t w -> (p_complex p <> [] -> gvt t (freeze p) w = Ret u w) ->
  on_extension gvt l p w = Ret (extended v u p) w.
Proof.
  intros gvt l v t u p w Hl H1 H2. unfold on_extension. revert Hl. generalize (freeze p) H1 H2. intros tree G1 G2. clear H1 H2.
  induction l as [|x l IH]; intros Hl; [discriminate|]. rewrite values_cons in Hl. cbn [extension_attrs].
  destruct (String.eqb (a_local x) "base") eqn:Hb; [|now apply IH].
  injection Hl as Hv Hl. rewrite Hv, G1. cbn [bind]. destruct p as [a b c d e f g si k m n q y z]. unfold extended.
  cbn [p_simple p_tree p_heap p_in_element p_current p_in_group p_in_union p_in_ag p_complex p_element p_attribute p_group p_attrgroup p_choice] in *.
  destruct k as [|s r]; cbn [nonempty]; [now apply extension_none|]. rewrite G2 by discriminate. cbn [bind on_top].
  rewrite extension_none by exact Hl. unfold set_complex, based_complex. destruct s as [s1 [|ch s2] s3 s4 s5 s6 s7]; reflexivity.
Qed.

Definition table_ok (lang name : string) : bool :=
  match representation lang name with
  | Some t =>
      negb (has_char ":" t) && negb (String.eqb t "") &&
      match representation lang t with
      | Some u => if in_dec string_dec t (settled lang) then String.eqb u t
                  else String.eqb lang "Java" && String.eqb name "anyURI" && String.eqb t "QName" && String.eqb u "String"
      | None => if in_dec string_dec t (settled lang) then false else true
      end
  | None => false
  end.

Lemma table_checked : forallb (fun l => forallb (table_ok l) xsd_builtin) languages = true.
Proof. vm_compute. reflexivity. Qed.

Lemma table_row : forall lang name t, In lang languages -> In name xsd_builtin -> representation lang name = Some t ->
  has_char ":" t = false /\ t <> "" /\
  ((In t (settled lang) /\ representation lang t = Some t) \/
   (~ In t (settled lang) /\ representation lang t = None) \/
   (~ In t (settled lang) /\ lang = "Java" /\ name = "anyURI" /\ t = "QName" /\ representation lang t = Some "String")).
Proof.
  intros lang name t Hl Hn Ht. pose proof table_checked as H. rewrite forallb_forall in H. specialize (H lang Hl).
  rewrite forallb_forall in H. specialize (H name Hn). unfold table_ok in H. rewrite Ht in H.
  apply andb_true_iff in H as [H H3]. apply andb_true_iff in H as [H1 H2]. apply negb_true_iff in H1, H2. apply String.eqb_neq in H2.
  split; [exact H1|]. split; [exact H2|]. destruct (representation lang t) as [u|] eqn:Hu.
  - destruct (in_dec string_dec t (settled lang)) as [Hi|Hi].
    + left. apply String.eqb_eq in H3. subst u. now split.
    + right. right. apply andb_true_iff in H3 as [H3 H4]. apply andb_true_iff in H3 as [H3 H5]. apply andb_true_iff in H3 as [H3 H6].
      apply String.eqb_eq in H3, H4, H5, H6. subst. repeat split; [exact Hi].
  - destruct (in_dec string_dec t (settled lang)) as [Hi|Hi]; [discriminate|]. right. left. now split.
Qed.

Lemma settled_table : forall lang name t, In lang languages -> In name xsd_builtin -> representation lang name = Some t ->
  (representation lang t = Some t <-> In t (settled lang)) /\
  (forall u, representation lang t = Some u -> u <> t -> lang = "Java" /\ name = "anyURI" /\ t = "QName" /\ u = "String").
Proof.
  intros lang name t Hl Hn Ht. destruct (table_row lang name t Hl Hn Ht) as [_ [_ [[Hi Hr]|[[Hi Hr]|[Hi [-> [-> [-> Hr]]]]]]]].
  - split; [tauto|]. intros u Hu Hne. rewrite Hr in Hu. now injection Hu as <-.
  - split; [|intros u Hu; rewrite Hr in Hu; discriminate]. split; [|tauto]. rewrite Hr. discriminate.
  - split; [|intros u Hu _; rewrite Hr in Hu; injection Hu as <-; tauto]. split; [|tauto]. rewrite Hr. discriminate.
Qed.

Lemma calls_builtin : forall rec fuel o name t v tree w, In name xsd_builtin -> representation (o_lang o) name = Some t -> calls v name ->
  get_value_type rec fuel o v tree w = Ret t w.
Proof.
  intros rec fuel o name t v tree w Hn Ht Hv. pose proof xsd_no_colon as Hc. rewrite forallb_forall in Hc. specialize (Hc name Hn).
  apply negb_true_iff in Hc. apply (gvt_builtin rec fuel o v name t); [|now rewrite representation_eq].
  destruct Hv as [->|[pre [Hp ->]]]; [now apply trim_plain | now apply trim_prefixed].
Qed.

(** Both handlers at once. *)
Lemma derived : forall rec fuel o l v name t u p w, In name xsd_builtin -> representation (o_lang o) name = Some t -> calls v name ->
  values "base" l = [v] -> get_value_type rec fuel o t (freeze p) w = Ret u w ->
  on_restriction (get_value_type rec fuel o) l p w = Ret (restricted v u p) w /\
  on_extension (get_value_type rec fuel o) l p w = Ret (extended v u p) w.
Proof.
  intros rec fuel o l v name t u p w Hn Ht Hv Hl Hu.
  split; [apply restriction_base with t | apply extension_base with t]; try exact Hl; try (now apply calls_builtin with name); intros _; exact Hu.
Qed.

Lemma settled_base : forall lang name t, In lang languages -> In name xsd_builtin -> representation lang name = Some t -> In t (settled lang) ->
  forall rec fuel o l v p w, o_lang o = lang -> calls v name -> values "base" l = [v] ->
  on_restriction (get_value_type rec fuel o) l p w = Ret (restricted v t p) w /\
  on_extension (get_value_type rec fuel o) l p w = Ret (extended v t p) w.
Proof.
  intros lang name t Hl Hn Ht Hs rec fuel o l v p w <- Hv Hb. apply derived with name t; try assumption.
  destruct (table_row _ _ _ Hl Hn Ht) as [Hc [_ _]]. apply (gvt_builtin rec fuel o t t t); [now apply trim_plain|].
  rewrite representation_eq. apply (proj1 (settled_table _ _ _ Hl Hn Ht)). exact Hs.
Qed.

Lemma extract_base : forall lang name t, In lang languages -> In name xsd_builtin -> representation lang name = Some t ->
  forall rec fuel o l v p w, o_lang o = lang -> o_extract o = true -> calls v name -> values "base" l = [v] ->
  exists u, second_look lang t (freeze p) u /\
    on_restriction (get_value_type rec fuel o) l p w = Ret (restricted v u p) w /\
    on_extension (get_value_type rec fuel o) l p w = Ret (extended v u p) w.
Proof.
  intros lang name t Hl Hn Ht rec fuel o l v p w <- Hx Hv Hb. destruct (table_row _ _ _ Hl Hn Ht) as [Hc [_ _]].
  destruct (representation (o_lang o) t) as [u|] eqn:Hu.
  - exists u. split; [now left|]. apply derived with name t; try assumption.
    apply (gvt_builtin rec fuel o t t u); [now apply trim_plain|]. now rewrite representation_eq.
  - exists (get_base t (freeze p)). split.
    + right. split; [exact Hu|]. destruct (get_base_spec t (freeze p)) as [H1 [H2 [[u [H|[H ->]]] _]]].
      * left. rewrite (H1 u H). exact H.
      * right. split; [exact H|]. now apply H2.
    + apply derived with name t; try assumption. unfold get_value_type. cbv zeta. rewrite (trim_plain t Hc), representation_eq, Hu, Hx.
      now destruct (_ && _).
Qed.

(** Outside extract mode, if no location is known for the default namespace and
    nothing is included. *)
Lemma ordinary_base : forall lang name t, In lang languages -> In name xsd_builtin -> representation lang name = Some t ->
  representation lang t = None ->
  forall rec fuel o l v p w, o_lang o = lang -> calls v name -> values "base" l = [v] -> none_gives t (freeze p) ->
  get "" (w_lns w) = None -> get "" (w_nsl w) = None -> w_inc w = [] -> stat (join2 (dir (o_file o)) "") w = SDir -> fuel <> 0 ->
  on_restriction (get_value_type rec fuel o) l p w = Ret (restricted v t p) w /\
  on_extension (get_value_type rec fuel o) l p w = Ret (extended v t p) w.
Proof.
  intros lang name t Hl Hn Ht Hu rec fuel o l v p w <- Hv Hb Hg Hp Hs Hi Hd Hf. destruct (table_row _ _ _ Hl Hn Ht) as [Hc [H0 _]].
  apply derived with name t; try assumption. unfold get_value_type. cbv zeta.
  rewrite (trim_plain t Hc), representation_eq, Hu, (get_base_none _ _ Hg), String.eqb_refl. cbn [negb andb].
  destruct (o_extract o); [reflexivity|].
  replace (get_ns_prefix t) with "" by (unfold get_ns_prefix; now rewrite split_on_no_char).
  replace (get0 (get0 "" (w_lns w)) (w_nsl w)) with "" by (unfold get0 at 2; rewrite Hp; unfold get0; now rewrite Hs).
  change (is_valid_url "") with false. cbv iota. change (o_dir o) with (dir (o_file o)). rewrite Hd.
  destruct fuel as [|n]; [now elim Hf|]. cbn [include_loop]. rewrite Hi. cbn [filter existsb length].
  destruct (nth_error _ _) eqn:Hz; [now destruct (Nat.modulo _ _) in Hz|]. reflexivity.
Qed.

(** A declaration of that name before it, in any mode. *)
Lemma captured_base : forall lang name t, In lang languages -> In name xsd_builtin -> representation lang name = Some t ->
  representation lang t = None ->
  forall rec fuel o l v p w u, o_lang o = lang -> calls v name -> values "base" l = [v] -> first_gives t (freeze p) u -> u <> t -> u <> "" ->
  on_restriction (get_value_type rec fuel o) l p w = Ret (restricted v u p) w /\
  on_extension (get_value_type rec fuel o) l p w = Ret (extended v u p) w.
Proof.
  intros lang name t Hl Hn Ht Hu rec fuel o l v p w u <- Hv Hb Hg Hne H0. destruct (table_row _ _ _ Hl Hn Ht) as [Hc [_ _]].
  apply derived with name t; try assumption. unfold get_value_type. cbv zeta.
  rewrite (trim_plain t Hc), representation_eq, Hu, (get_base_first _ _ _ Hg).
  apply String.eqb_neq in Hne, H0. rewrite Hne, H0. reflexivity.
Qed.

Lemma uri_base : forall rec fuel o l v p w, o_lang o = "Java" -> calls v "anyURI" -> values "base" l = [v] ->
  get_value_type rec fuel o v (freeze p) w = Ret "QName" w /\
  on_restriction (get_value_type rec fuel o) l p w = Ret (restricted v "String" p) w /\
  on_extension (get_value_type rec fuel o) l p w = Ret (extended v "String" p) w.
Proof.
  intros rec fuel o l v p w Ho Hv Hb. assert (Hn : In "anyURI" xsd_builtin) by (cbn; tauto).
  assert (Hr : representation (o_lang o) "anyURI" = Some "QName") by (rewrite Ho; reflexivity).
  split; [now apply calls_builtin with "anyURI"|]. apply derived with "anyURI" "QName"; try assumption.
  apply (gvt_builtin rec fuel o "QName" "QName" "String"); [reflexivity|]. rewrite Ho. reflexivity.
Qed.

End Env.
