(** Ordinary schemas: a check, and the way to C64 and C66 (C68). *)

From Coq Require Import String Ascii List NArith ZArith Bool.
From Verif Require Import GoStr Base World SpecStr SpecDoc SpecTables SpecParse SpecDecl SpecGen SpecOut SpecSyntax SpecFile SpecWhole SpecFine
  StrProofs GenNames SyntaxProofs SyntaxDecls SyntaxCheck FineProofs.
Import ListNotations.
Local Open Scope string_scope.

Section Check.
Context {E : Env} {P : Pool}.
Variable pb : lang -> string -> bool.
Hypothesis pb_ok : forall l t, pb l t = true -> pooled l t.
Variable lg : lang.

Definition referenceb (v : string) : bool :=
  match representation (lname lg) (local_part v) with Some _ => true | None => typeb pb lg (local_part v) end.
Definition tag_named (l : list xattr) : bool := nameb (name_in l).
Definition typedb (keys : list string) (l : list xattr) : bool :=
  match last_of keys l with Some v => referenceb v | None => negb (java lg) end.
Definition baseb (l : list xattr) : bool := match last_of ["base"] l with Some v => referenceb v | None => false end.
Definition lineb (s : string) : bool := negb (has_char LF s).
Definition derivationb (d : derivation) : bool :=
  match d with Restricted l _ fs => baseb l && forallb lineb (facet_values fs) | ListOf l _ => typedb ["itemType"] l end.
Definition inlineb (i : inline_type) : bool := let 'Inline _ _ d := i in derivationb d.
Definition attribute_declb (a : attribute_decl) : bool :=
  let 'AttributeDecl l _ inline := a in tag_named l && match inline with None => typedb ["type"; "ref"] l | Some i => inlineb i end.
Definition element_declb (l : list xattr) : bool := tag_named l && referenceb (otherwise (name_in l) (last_of ["type"; "ref"] l)).
Definition wordb (v : string) : bool :=
  referenceb v && (nameb (local_part v) && (negb (has_char ":" (local_part v)) && negb (improperb lg (local_part v)))).
Definition simple_bodyb (s : simple_body) : bool :=
  match s with
  | Derived d => derivationb d
  | UnionOf l _ ms =>
      let words := flat_map (split_on " ") (values "memberTypes" l) in
      forallb wordb words && (forallb inlineb ms && match words, ms with [], [] => negb (java lg) | _, _ => true end)
  end.
Fixpoint bodyb (b : body) : bool :=
  match b with
  | BEnd => true
  | BText _ r => bodyb r
  | BAttribute a r => attribute_declb a && bodyb r
  | BAttributeGroup l _ r | BGroup l _ r => tag_named l && (typedb ["ref"] l && bodyb r)
  | BElement l _ r => element_declb l && bodyb r
  | BAnonymous l _ _ i r => tag_named l && (referenceb (name_in l) && (bodyb i && bodyb r))
  | BInline l _ i r => tag_named l && (inlineb i && bodyb r)
  | BChoice _ i r | BRestriction _ i r => bodyb i && bodyb r
  | BExtension l i r => match last_of ["base"] l with Some v => referenceb v | None => true end && (bodyb i && bodyb r)
  | BFacet _ r => bodyb r
  end.
Fixpoint partb (g : part) : bool :=
  match g with
  | GEnd => true
  | GText _ r => partb r
  | GElement l _ r => element_declb l && partb r
  | GGroup l _ r => tag_named l && (typedb ["ref"] l && partb r)
  | GChoice _ i r => partb i && partb r
  end.
Definition own_nameb (l : list xattr) : bool := nameb (otherwise "" (last_of ["name"] l)).
Definition declaredb (d : component) : bool :=
  match d with
  | DText _ => true
  | DSimple l _ s => own_nameb l && simple_bodyb s
  | DComplex l b => own_nameb l && bodyb b
  | DElement l _ => element_declb l
  | DAnonymous l _ _ b => tag_named l && (referenceb (name_in l) && bodyb b)
  | DInline l _ i => tag_named l && inlineb i
  | DAttribute a => attribute_declb a
  | DGroup l g => tag_named l && partb g
  | DAttributeGroup l _ ats => tag_named l && forallb attribute_declb ats
  end.

Ltac parts := repeat match goal with H : _ && _ = true |- _ => apply andb_true_iff in H as [? H] end.

Lemma referenceb_ok : forall v, referenceb v = true -> reference_fine lg v.
Proof.
  intros v H. unfold referenceb in H. destruct (representation (lname lg) (local_part v)) eqn:Hr; [left; congruence|].
  right. now apply (typeb_ok pb).
Qed.
Lemma javab_ok : negb (java lg) = true -> lg <> Java.
Proof. intros H ->. discriminate. Qed.
Lemma typedb_ok : forall ks l, typedb ks l = true -> typed lg ks l.
Proof. intros ks l H. unfold typedb, typed in *. destruct (last_of ks l); [now apply referenceb_ok | now apply javab_ok]. Qed.
Lemma tag_named_ok : forall l, tag_named l = true -> named l.
Proof. intros l H. now apply nameb_ok. Qed.
Lemma derivationb_ok : forall d, derivationb d = true -> derivation_fine lg d.
Proof.
  intros [l docs fs|l docs] H; cbn [derivationb derivation_fine] in *; [|now apply typedb_ok]. parts. split.
  - unfold baseb in *. destruct (last_of ["base"] l) as [v|]; [|discriminate]. exists v. split; [reflexivity | now apply referenceb_ok].
  - eapply forallb_Forall; [|eassumption]. intros x Hx. now apply no_char.
Qed.
Lemma inlineb_ok : forall i, inlineb i = true -> inline_fine lg i.
Proof. intros [l docs d] H. now apply derivationb_ok. Qed.
Lemma attribute_declb_ok : forall a, attribute_declb a = true -> attribute_decl_fine lg a.
Proof.
  intros [l docs [i|]] H; cbn [attribute_declb attribute_decl_fine] in *; parts; (split; [now apply tag_named_ok|]); [now apply inlineb_ok | now apply typedb_ok].
Qed.
Lemma element_declb_ok : forall l, element_declb l = true -> element_decl_fine lg l.
Proof. intros l H. unfold element_declb in H. parts. split; [now apply tag_named_ok | now apply referenceb_ok]. Qed.
Lemma wordb_ok : forall v, wordb v = true -> word_fine lg v.
Proof.
  intros v H. unfold wordb in H. parts. split; [now apply referenceb_ok|]. split; [now apply nameb_ok|]. split; [now apply no_char | now apply improperb_ok].
Qed.
Lemma simple_bodyb_ok : forall s, simple_bodyb s = true -> simple_body_fine lg s.
Proof.
  intros [d|l docs ms] H; cbn [simple_bodyb simple_body_fine] in *; [now apply derivationb_ok|]. parts.
  split; [eapply forallb_Forall; [exact wordb_ok|eassumption]|]. split; [eapply forallb_Forall; [exact inlineb_ok|eassumption]|].
  destruct (flat_map (split_on " ") (values "memberTypes" l)); [|now left]. destruct ms; [|right; now left]. right. right. now apply javab_ok.
Qed.
Lemma bodyb_ok : forall b, bodyb b = true -> body_fine lg b.
Proof.
  induction b as [|d r IH|a r IH|l docs r IH|l docs r IH|l docs r IH|l docs ct i IHi r IH|l docs i r IH|l i IHi r IH|l i IHi r IH|l i IHi r IH|f r IH];
    intros H; cbn [bodyb body_fine] in *; parts.
  - exact I.
  - now apply IH.
  - split; [now apply attribute_declb_ok | now apply IH].
  - split; [now apply tag_named_ok|]. split; [now apply typedb_ok | now apply IH].
  - split; [now apply tag_named_ok|]. split; [now apply typedb_ok | now apply IH].
  - split; [now apply element_declb_ok | now apply IH].
  - split; [now apply tag_named_ok|]. split; [now apply referenceb_ok|]. split; [now apply IHi | now apply IH].
  - split; [now apply tag_named_ok|]. split; [now apply inlineb_ok | now apply IH].
  - split; [now apply IHi | now apply IH].
  - split; [destruct (last_of ["base"] l); [now apply referenceb_ok|exact I]|]. split; [now apply IHi | now apply IH].
  - split; [now apply IHi | now apply IH].
  - now apply IH.
Qed.
Lemma partb_ok : forall g, partb g = true -> part_fine lg g.
Proof.
  induction g as [|d r IH|l docs r IH|l docs r IH|l i IHi r IH]; intros H; cbn [partb part_fine] in *; parts.
  - exact I.
  - now apply IH.
  - split; [now apply element_declb_ok | now apply IH].
  - split; [now apply tag_named_ok|]. split; [now apply typedb_ok | now apply IH].
  - split; [now apply IHi | now apply IH].
Qed.
Lemma declaredb_ok : forall d, declaredb d = true -> declared_fine lg d.
Proof.
  intros [d|l docs s|l b|l docs|l docs ct b|l docs i|a|l g|l docs ats] H; cbn [declaredb declared_fine] in *; parts.
  - exact I.
  - split; [now apply nameb_ok | now apply simple_bodyb_ok].
  - split; [now apply nameb_ok | now apply bodyb_ok].
  - now apply element_declb_ok.
  - split; [now apply tag_named_ok|]. split; [now apply referenceb_ok | now apply bodyb_ok].
  - split; [now apply tag_named_ok | now apply inlineb_ok].
  - now apply attribute_declb_ok.
  - split; [now apply tag_named_ok | now apply partb_ok].
  - split; [now apply tag_named_ok|]. eapply forallb_Forall; [exact attribute_declb_ok|eassumption].
Qed.
Lemma schema_check : forall ds, forallb declaredb ds = true -> schema_fine lg ds.
Proof. intros ds. apply forallb_Forall. exact declaredb_ok. Qed.

Lemma ordinary_schema : forall w file tree, ordinary_file lg w file tree -> schema_file (lname lg) w file tree /\ tree_fine lg tree /\ tree_ok tree.
Proof.
  intros w file tree [bytes [res [many [l [ds [H1 [H2 [H3 [H4 [H5 [H6 [H7 [H8 H9]]]]]]]]]]]]]. split; [|now apply (schema_in_fine lg res many H6 ds)].
  exists bytes, res, many, l, ds. repeat (split; [assumption|]). exact H8.
Qed.

End Check.

Lemma text_program : forall {E : Env} l pkg tree text, case_tables_ok -> tree_ok tree -> file_text l pkg tree text true ->
  holds_program l pkg tree (expected l tree) text.
Proof.
  intros E l pkg tree text Ht Hok [s [[decls [-> Hd]] H]]. exists decls. split; [now apply Hd|]. destruct l; exact H.
Qed.
