(** Deciding the conditions of C69 on concrete component lists. *)

From Coq Require Import String Ascii List NArith Bool.
From Verif Require Import GoStr Base Utils SpecStr SpecGen SpecOut SpecSyntax SpecMembers Utf8 StrLemmas StrProofs SyntaxProofs.
Import ListNotations.
Local Open Scope string_scope.

Local Infix "+++" := app (at level 60, right associativity).

Fixpoint distinct (xs : list string) : bool :=
  match xs with [] => true | x :: r => negb (if in_dec string_dec x r then true else false) && distinct r end.

Lemma distinct_ok : forall xs, distinct xs = true -> NoDup xs.
Proof.
  induction xs as [|x r IH]; intros H; constructor; cbn [distinct] in H; apply andb_true_iff in H as [H1 H2]; [|auto].
  destruct (in_dec string_dec x r); [discriminate | assumption].
Qed.

Definition lacks (c : ascii) (s : string) : bool := negb (has_char c s).
Lemma lacks_ok : forall c s, lacks c s = true -> free_of c s.
Proof. intros c s H. apply free_of_has_char. now apply negb_true_iff in H. Qed.

Definition not_in (n : string) (xs : list string) : bool := negb (if in_dec string_dec n xs then true else false).
Lemma not_in_ok : forall n xs, not_in n xs = true -> ~ In n xs.
Proof. intros n xs H. unfold not_in in H. now destruct (in_dec string_dec n xs). Qed.

Definition readable_b (n : string) : bool := lacks " " n && lacks "009" n && lacks ";" n && lacks "[" n && lacks "*" n.
Lemma readable_ok : forall n, readable_b n = true -> readable n.
Proof. intros n H. unfold readable_b in H. rewrite !andb_true_iff in H. destruct H as [[[[A B] C] D] F]. repeat split; now apply lacks_ok. Qed.

Lemma all_ok : forall A (f : A -> bool) (P : A -> Prop) xs, (forall x, f x = true -> P x) -> forallb f xs = true -> Forall P xs.
Proof. intros A f P xs H Hb. apply Forall_forall. intros x Hx. apply H. now apply (proj1 (forallb_forall f xs) Hb). Qed.

Section Check.
Context {E : Env}.

Definition component_readable_b (l : lang) (pt : list proto) (p : proto) : bool :=
  match p with
  | PNil => true
  | PSimple v => readable_b (st_name v) && forallb (fun m => readable_b (fst m)) (st_members v) && forallb (fun x => lacks " " x && lacks ":" x) (st_enum v)
  | PComplex v => forallb readable_b (map ag_name (ct_attrgroups v) +++ map at_name (ct_attributes v) +++ map gr_name (ct_groups v) +++ map el_name (ct_elements v)) &&
      forallb readable_b (base_member l pt (ct_base v))
  | PElement v => readable_b (el_name v)
  | PAttribute v => readable_b (at_name v)
  | PGroup v => forallb readable_b (map el_name (gr_elements v) +++ map gr_name (gr_groups v))
  | PAttrGroup v => forallb readable_b (map at_name (ag_attributes v))
  end.

Lemma component_readable_ok : forall l pt p, component_readable_b l pt p = true -> component_readable l pt p.
Proof.
  intros l pt p H. destruct p as [|v|v|v|v|v|v]; cbn [component_readable component_readable_b] in *; rewrite ?andb_true_iff in H; [exact I | | | | | |].
  - destruct H as [[H1 H2] H3]. split; [now apply readable_ok|]. split; [revert H2; apply all_ok; intros x; apply readable_ok|].
    revert H3. apply all_ok. intros x Hx. apply andb_true_iff in Hx as [? ?]. split; now apply lacks_ok.
  - destruct H as [H1 H2]. split; [revert H1 | revert H2]; apply all_ok; exact readable_ok.
  - now apply readable_ok.
  - now apply readable_ok.
  - revert H. apply all_ok. exact readable_ok.
  - revert H. apply all_ok. exact readable_ok.
Qed.

Definition is_rust (l : lang) : bool := match l with Rust => true | _ => false end.

Definition spelled_b (l : lang) (n : string) : bool :=
  match n with
  | String a r => is_lower a && all_bytes (fun c => is_lower c || is_digit c || match l with Rust => false | _ => is_upper c end) r
  | _ => false
  end.
Lemma spelled_ok : forall l n, spelled_b l n = true -> spelled l n.
Proof.
  intros l [|a r] H; [discriminate|]. cbn in H. apply andb_true_iff in H as [H1 H2]. exists a, r. split; [reflexivity|]. split; [exact H1|].
  now apply every_bytes.
Qed.

Definition member_word_b (l : lang) (n : string) : bool := spelled_b l n && negb (has_suffix n "Attr") && negb (String.eqb n "xMLName").
Lemma member_word_ok : forall l n, member_word_b l n = true -> member_word l n.
Proof.
  intros l n H. unfold member_word_b in H. rewrite !andb_true_iff, !negb_true_iff in H. destruct H as [[H1 H2] H3].
  split; [now apply spelled_ok|]. split; [|now apply String.eqb_neq].
  intros s ->. assert (T : has_suffix (s ++ "Attr") "Attr" = true) by (apply has_suffix_spec; now exists s). congruence.
Qed.

Definition told_apart_b (l : lang) (pt : list proto) (p : proto) : bool :=
  match p with
  | PNil | PElement _ | PAttribute _ => true
  | PSimple v => forallb (member_word_b l) (map fst (st_members v)) && distinct (map fst (st_members v)) && distinct (st_enum v)
  | PComplex v =>
      let ats := map at_name (ct_attributes v) in
      let others := map ag_name (ct_attrgroups v) +++ map gr_name (ct_groups v) +++ map el_name (ct_elements v) in
      forallb (member_word_b l) others && forallb (spelled_b l) ats && distinct others && distinct ats &&
      (negb (is_rust l) || forallb (fun n => not_in n ats) others) &&
      (String.eqb (ct_base v) "" ||
       builtin l (ct_base v) && not_in "value" others && (negb (is_rust l) || not_in "value" ats) ||
       member_word_b l (ct_base v) && negb (builtin l (ct_base v)) && String.eqb (resolved pt (ct_base v)) (ct_base v) &&
         not_in (ct_base v) others && (negb (is_rust l) || not_in (ct_base v) ats))
  | PGroup v => let names := map el_name (gr_elements v) +++ map gr_name (gr_groups v) in forallb (member_word_b l) names && distinct names
  | PAttrGroup v => forallb (spelled_b l) (map at_name (ag_attributes v)) && distinct (map at_name (ag_attributes v))
  end.

Lemma told_apart_ok : forall l pt p, told_apart_b l pt p = true -> told_apart l pt p.
Proof.
  intros l pt p H. destruct p as [|v|v|v|v|v|v]; cbn [told_apart told_apart_b] in *; cbn zeta in *; try exact I.
  - rewrite !andb_true_iff in H. destruct H as [[H1 H2] H3]. split; [revert H1; apply all_ok, member_word_ok|].
    split; [now apply distinct_ok | intros _; now apply distinct_ok].
  - set (ats := map at_name (ct_attributes v)) in *.
    set (others := map ag_name (ct_attrgroups v) +++ map gr_name (ct_groups v) +++ map el_name (ct_elements v)) in *.
    assert (R : forall n b, negb (is_rust l) || b = true -> (b = true -> ~ In n ats) -> l = Rust -> ~ In n ats).
    { intros n b Hb Hn ->. apply Hn. exact Hb. }
    rewrite !andb_true_iff, !orb_true_iff, !andb_true_iff in H. destruct H as [[[[[H1 H2] H3] H4] H5] H6].
    split; [revert H1; apply all_ok, member_word_ok|]. split; [revert H2; apply all_ok, spelled_ok|].
    split; [now apply distinct_ok|]. split; [now apply distinct_ok|]. split.
    + intros -> n Hn. destruct H5 as [H5|H5]; [discriminate|]. apply not_in_ok. now apply (proj1 (forallb_forall _ _) H5).
    + destruct H6 as [[H6|[[A B] C]]|[[[[A B] C] D] F]].
      * left. now apply String.eqb_eq.
      * right. left. split; [exact A|]. split; [now apply not_in_ok|]. eapply R; [exact C | apply not_in_ok].
      * right. right. split; [now apply member_word_ok|]. split; [now apply negb_true_iff|]. split; [now apply String.eqb_eq|].
        split; [now apply not_in_ok|]. eapply R; [exact F | apply not_in_ok].
  - rewrite andb_true_iff in H. destruct H as [H1 H2]. split; [revert H1; apply all_ok, member_word_ok | now apply distinct_ok].
  - rewrite andb_true_iff in H. destruct H as [H1 H2]. split; [revert H1; apply all_ok, spelled_ok | now apply distinct_ok].
Qed.

Lemma members_check : forall l pt, forallb (fun p => component_readable_b l pt p && told_apart_b l pt p) pt = true ->
  Forall (component_readable l pt) pt /\ Forall (told_apart l pt) pt.
Proof.
  intros l pt H. split; revert H; apply all_ok; intros p Hp; apply andb_true_iff in Hp as [? ?]; [now apply component_readable_ok | now apply told_apart_ok].
Qed.

End Check.
