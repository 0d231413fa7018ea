(** Ordinary names and types have no marks (C71). *)

From Coq Require Import String Ascii List NArith ZArith Bool.
From Verif Require Import GoStr Base World SpecStr SpecDoc SpecTables SpecParse SpecDecl SpecGen SpecOut SpecSyntax SpecProject SpecFine SpecBinding
  StrProofs FineProofs FineProject.
Import ListNotations.
Local Open Scope string_scope.

Section Marks.
Context {E : Env} {P : Pool}.
Variable lg : lang.
Variable c : ascii.
Hypothesis mark : In c ["009"; """"; ","]%char.

Lemma mark_no_name_char : name_char c = false.
Proof. destruct mark as [<-|[<-|[<-|[]]]]; reflexivity. Qed.

Lemma name_unmarked : forall n, name_ok n -> free_of c n.
Proof.
  intros n [a [r [-> [Ha Hr]]]]. apply free_of_has_char. apply (every_free name_char); [exact mark_no_name_char|].
  split; [|exact Hr]. unfold name_char, ident_char. now rewrite Ha.
Qed.

Lemma target_unmarked : forall t, In t (targets lg) -> free_of c t.
Proof.
  intros t Ht.
  assert (H : forallb (fun l => forallb (fun t => forallb (fun c => negb (has_char c t)) ["009"; """"; ","]%char) (targets l)) [Go; C; Java; Rust; TypeScript] = true)
    by (vm_compute; reflexivity).
  pose proof (proj1 (forallb_forall _ _) H lg) as H1. assert (Hl : In lg [Go; C; Java; Rust; TypeScript]) by (destruct lg; cbn [In]; tauto).
  pose proof (proj1 (forallb_forall _ _) (proj1 (forallb_forall _ _) (H1 Hl) t Ht) c mark) as H2. cbv beta in H2.
  apply free_of_has_char. now destruct (has_char c t).
Qed.

Lemma type_unmarked : forall t, type_ok lg t -> free_of c t.
Proof. intros t [H|[H _]]; [now apply target_unmarked | now apply name_unmarked]. Qed.

Lemma none_unmarked : free_of c "".
Proof. now apply free_of_has_char. Qed.

Lemma maybe_unmarked : forall t, maybe_type lg t -> free_of c t.
Proof. intros t [[-> _]|H]; [exact none_unmarked | now apply type_unmarked]. Qed.

Lemma good_unmarked : forall strict p, good lg strict p -> component_free c p.
Proof.
  assert (Ho : forall t, t = "" \/ type_ok lg t -> free_of c t) by (intros t [->|H]; [exact none_unmarked | now apply type_unmarked]).
  intros strict p [H G]. destruct p as [|v|v|v|v|v|v]; cbn [component_fine component_free] in *.
  - exact I.
  - destruct H as [Hn [Hs _]]. destruct G as [_ [G _]]. split; [now apply name_unmarked|]. split; [now apply Ho|].
    eapply Forall_impl; [|exact Hs]. intros m [H1 [_ [_ [_ H2]]]]. split; [now apply name_unmarked | now apply Ho].
  - destruct H as [Hn [Hb [H1 [H2 [H3 H4]]]]]. split; [now apply name_unmarked|]. split; [now apply Ho|].
    split; [|split; [|split]]; (eapply Forall_impl; [|eassumption]); intros x [Hx Hx']; (split; [now apply name_unmarked | now apply maybe_unmarked]).
  - destruct H as [H1 H2]. split; [now apply name_unmarked | now apply maybe_unmarked].
  - destruct H as [H1 H2]. split; [now apply name_unmarked | now apply maybe_unmarked].
  - destruct H as [Hn [H1 H2]]. split; [now apply name_unmarked|].
    split; (eapply Forall_impl; [|eassumption]); intros x [Hx Hx']; (split; [now apply name_unmarked | now apply maybe_unmarked]).
  - destruct H as [Hn H1]. split; [now apply name_unmarked|].
    eapply Forall_impl; [|eassumption]. intros x [Hx Hx']. split; [now apply name_unmarked | now apply maybe_unmarked].
Qed.

End Marks.

Lemma tree_unmarked : forall {E : Env} {P : Pool} l strict pt, Forall (good l strict) pt -> unmarked pt.
Proof.
  intros E P l strict pt H. split; [|split]; (eapply Forall_impl; [|exact H]); intros p; apply good_unmarked; cbn [In]; tauto.
Qed.

Lemma ordinary_unmarked : forall {E : Env} {P : Pool} l w file tree, ordinary_file l w file tree -> unmarked tree.
Proof.
  intros E P l w file tree [bytes [res [many [x [ds [_ [_ [_ [_ [_ [H6 [_ [H8 H9]]]]]]]]]]]]]. apply (tree_unmarked l false).
  apply (schema_in_good l false res many (resolution_fine l res H6) ds); try assumption. discriminate.
Qed.
