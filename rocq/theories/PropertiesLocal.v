(** C54: what is generated for a component does not depend on later ones. *)

From Coq Require Import String Ascii List Arith NArith ZArith Bool Lia Permutation.
From Verif Require Import GoStr GoPath Utf8 Base SpecStr Utils GenGo GenC GenJava GenRust GenTS World Handlers Parser StrLemmas SpecDoc SpecParse SpecGen SpecOut
  SpecTables GenFacts GenText GenLemmas GenRuns GenNames SpecLocal LocalProofs Fixture Demo.
Import ListNotations.
Local Open Scope string_scope.

Local Infix "+++" := app (at level 60, right associativity).

Notation body l pt := (g_field (run_entries (entry_of l) pt)) (only parsing).

(** Components that are added at the end and give no new name a type (complex
    types, groups, attribute groups, lists, unions, and whatever has the name of
    something that has a type already) leave the text as it is and add theirs. *)
Theorem C54_text_kept : forall (E : Env) l pt extra,
  (forall n t, In (n, t) (flat_map stands_for extra) -> exists t', In (n, t') (flat_map stands_for pt)) ->
  exists rest, body l (pt +++ extra) = body l pt ++ rest.
Proof.
  intros E l pt extra H. unfold run_entries. rewrite (fold_same (pt +++ extra) pt); [|intros n; now apply base_kept].
  rewrite fold_left_app. apply fold_extends.
Qed.
Print Assumptions C54_text_kept.

(** ** Order *)

(** When the identifiers differ, every component has a text of its own, and
    another order of the components only gives another order of these texts. *)
Theorem C54_any_order : forall (E : Env) l pt, separate l pt ->
  exists text : proto -> string, forall pt', Permutation pt pt' -> body l pt' = sconcat (map text pt').
Proof.
  intros E l pt [Hn Hi]. exists (fun p => g_field (entry_of l pt g_init p)). intros pt' Hp.
  assert (Hn' : NoDup (names_of pt')) by (eapply Permutation_NoDup; [|exact Hn]; now apply perm_flat).
  assert (Hi' : NoDup (idents_of l pt')) by (eapply Permutation_NoDup; [|exact Hi]; now apply perm_flat).
  unfold run_entries. rewrite texts_alone; [|exact Hn'| |reflexivity|reflexivity].
  - change (g_field g_init) with "". cbn [append]. f_equal. apply map_ext. intros p. symmetry.
    apply alone_same. now apply base_perm.
  - revert Hi'. unfold idents_of. erewrite flat_map_ext; [intros H; exact H|].
    intros p. cbn beta. now rewrite plain_ident_eq.
Qed.
Print Assumptions C54_any_order.

Definition loc_T := PComplex (mkComplex "" "T" "" [mkElement "" "X" "Code" false false] [] [] []).
Definition loc_code := PSimple (mkSimple "" "Code" "int" false false [] []).
Definition loc_U := PComplex (mkComplex "" "U" "" [] [] [] []).
Definition text_T (t : string) : string :=
  CRNL ++ "// T ..." ++ CRNL ++ "type T struct {" ++ NL ++ TAB ++ "X" ++ TAB ++ t ++ TAB ++ "`xml:" ++ DQ ++ "X" ++ DQ ++ "`" ++ NL ++ "}" ++ NL.
Definition text_code : string := CRNL ++ "// Code ..." ++ CRNL ++ "type Code int" ++ NL.
Definition text_U : string := CRNL ++ "// U ..." ++ CRNL ++ "type U struct {" ++ NL ++ "}" ++ NL.

Example C54_example : let E := demo [] first_choice in
  body Go [loc_code; loc_T] = text_code ++ text_T "int" /\
  body Go [loc_T; loc_code] = text_T "int" ++ text_code /\
  body Go ([loc_T; loc_code] +++ [loc_U]) = body Go [loc_T; loc_code] ++ text_U /\
  separate Go [loc_T; loc_code; loc_U].
Proof.
  cbv zeta. split; [vm_compute; reflexivity|]. split; [vm_compute; reflexivity|]. split; [vm_compute; reflexivity|].
  split; vm_compute; repeat constructor; cbn; intuition discriminate.
Qed.

(** A simple type that is added changes what is written before it. *)
Theorem C54_new_name_refuted : exists (E : Env) l pt p, ~ exists rest, body l (pt +++ [p]) = body l pt ++ rest.
Proof.
  exists (demo [] first_choice), Go, [loc_T], loc_code. intros [rest H].
  change (body Go ([loc_T] +++ [loc_code])) with (text_T "int" ++ text_code) in H.
  change (body Go [loc_T]) with (text_T "*Code") in H. vm_compute in H. discriminate.
Qed.
Print Assumptions C54_new_name_refuted.

(** Two names that become one identifier: the text of each depends on the order. *)
Theorem C54_same_identifier_refuted : exists (E : Env) l pt pt', Permutation pt pt' /\ NoDup (names_of pt) /\
  ~ exists text : proto -> string, body l pt = sconcat (map text pt) /\ body l pt' = sconcat (map text pt').
Proof.
  set (a := PComplex (mkComplex "" "A-B" "" [] [] [] [])). set (b := PComplex (mkComplex "" "AB" "" [] [] [] [])).
  exists (demo [] first_choice), Go, [a; b], [b; a]. split; [constructor|].
  split; [vm_compute; repeat constructor; cbn; intuition discriminate|].
  intros [text [H1 H2]]. rewrite !map_cons, !sconcat_cons in H1, H2. cbn [map sconcat] in H1, H2. rewrite !app_nil_r_s in H1, H2.
  apply (f_equal String.length) in H1. apply (f_equal String.length) in H2. rewrite length_app_s in H1, H2.
  rewrite Nat.add_comm, <- H1 in H2. vm_compute in H2. discriminate.
Qed.
Print Assumptions C54_same_identifier_refuted.
