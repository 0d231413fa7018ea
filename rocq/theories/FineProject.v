(** Projects of ordinary schemas (C68). *)

From Coq Require Import String Ascii List NArith Bool Lia.
From Verif Require Import GoStr GoPath Base World SpecStr SpecDoc SpecTables SpecParse SpecDecl SpecGen SpecOut SpecSyntax SpecClosed SpecProject SpecFine
  StrProofs GenNames SyntaxProofs SyntaxDecls ClosedProofs FineProofs.
Import ListNotations.
Local Open Scope string_scope.

Section Project.
Context {E : Env} {Q : Pool}.
Variable lg : lang.
Variable P : project.
Variable ext full : string -> list proto.
Hypothesis Hc : coherent P.
Hypothesis Hd : SpecProject.declares (lname lg) P ext full.
Hypothesis Hp : ordinary_project lg P.

Lemma ext_good : forall file s, pr_schema P file = Some s -> Forall (good lg true) (ext file).
Proof.
  intros file s Hs. destruct (de_ext _ _ _ _ Hd file s Hs) as [res [many [Hr [_ H]]]]. destruct (Hp file s Hs) as [H1 H2].
  now apply (schema_in_good lg true res many (resolution_typed lg true res Hr) (s_decls s)).
Qed.

Lemma stands_good : forall file v tree t, Forall (good lg true) tree -> reference_fine lg v ->
  (forall g s, pr_rank P g < pr_rank P file -> separate_file P g -> pr_schema P g = Some s -> Forall (good lg true) (full g)) ->
  stands_for (lname lg) P ext full file v tree t -> type_ok lg t.
Proof.
  intros file v tree t Ht Hv IH H.
  assert (Hg : forall g, belongs P v g -> separate_file P g /\ exists s, pr_schema P g = Some s).
  { intros g [x [Hx ->]]. split; [right; now exists (pr_ns P (prefix_part v)), x|].
    destruct (co_locations P Hc _ _ Hx) as [_ [_ Hs]]. destruct (pr_schema P (at_location P x)) as [s|]; [now exists s|contradiction]. }
  assert (Hn : representation (lname lg) (local_part v) = None -> type_ok lg (local_part v)).
  { intros Hr. destruct Hv as [Hv|Hv]; [contradiction|exact Hv]. }
  assert (Hs : forall tr b, representation (lname lg) (local_part v) = None -> Forall (good lg true) tr -> says (local_part v) tr b -> type_ok lg b).
  { intros tr b Hr Htr [H1|[_ ->]]; [now apply (given_typed lg (local_part v) tr) | now apply Hn]. }
  destruct H as [t Hr|b Hr Hb _|c g b Hr _ _ Hb Hlt H1 _|c g b Hr _ _ Hb _ H1|c x b Hr _ _ _ Hi H1 _|c Hr _ _ _ _].
  - left. now apply (representation_target lg (local_part v)).
  - now apply (Hs tree).
  - destruct (Hg g Hb) as [H2 [s H3]]. now apply (Hs (full g) b Hr (IH g s Hlt H2 H3)).
  - destruct (Hg g Hb) as [_ [s H3]]. now apply (Hs (ext g) b Hr (ext_good g s H3)).
  - destruct Hi as [s [l [H2 [H3 H4]]]]. destruct (co_includes P Hc _ _ _ _ H2 H3 H4) as [_ H5].
    destruct (pr_schema P (at_location P x)) as [s'|] eqn:H6; [|contradiction]. now apply (given_typed lg (local_part v) (ext (at_location P x)) b (ext_good _ s' H6)).
  - now apply Hn.
Qed.

Lemma full_good : forall n file s, pr_rank P file < n -> separate_file P file -> pr_schema P file = Some s -> Forall (good lg true) (full file).
Proof.
  induction n as [|n IH]; intros file s Hlt Hf Hs; [lia|].
  destruct (de_full _ _ _ _ Hd file s Hf Hs) as [res [many [Hr [_ H]]]]. destruct (Hp file s Hs) as [H1 H2].
  apply (schema_in_good lg true res many) with (ds := s_decls s); try assumption; [|now intros _].
  intros tree v Ht Hv. apply (stands_good file v tree _ Ht Hv); [|apply Hr]. intros g s' Hg. apply (IH g s'). lia.
Qed.

Theorem project_good : forall file, separate_file P file -> Forall (good lg true) (full file).
Proof.
  intros file Hf.
  assert (Hs : exists s, pr_schema P file = Some s).
  { destruct Hf as [->|[n [x [Hx ->]]]].
    - pose proof (co_root P Hc) as H. destruct (pr_schema P (pr_root P)) as [s|]; [now exists s|contradiction].
    - destruct (co_locations P Hc _ _ Hx) as [_ [_ H]]. destruct (pr_schema P (at_location P x)) as [s|]; [now exists s|contradiction]. }
  destruct Hs as [s Hs]. apply (full_good (S (pr_rank P file)) file s); [lia | exact Hf | exact Hs].
Qed.

Theorem project_fine : forall file, separate_file P file -> tree_fine lg (full file) /\ tree_ok (full file).
Proof. intros file Hf. now apply (good_fine lg true), project_good. Qed.

End Project.

Lemma needed_separate : forall lang P ext full g, needed lang P ext full g -> separate_file P g.
Proof.
  intros lang P ext full g [|file h _ [s [res [res' [many [v [tree [other [_ [[_ [_ [[x [Hx ->]] _]]] _]]]]]]]]]]; [now left|].
  right. now exists (pr_ns P (prefix_part v)), x.
Qed.
