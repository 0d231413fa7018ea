(** Schemas with ordinary names and types (C68): what makes the components of a
    schema of SpecDecl.v fine in the sense of SpecSyntax.v. *)

From Coq Require Import String Ascii List NArith ZArith Bool.
From Verif Require Import GoStr GoPath Base World SpecStr SpecDoc SpecTables SpecParse SpecDecl SpecGen SpecOut SpecSyntax SpecClosed SpecProject.
Import ListNotations.
Local Open Scope string_scope.

Section Fine.
Context {E : Env} {P : Pool}.
Variable lg : lang.

(** A reference to a built-in type or to a type with an ordinary name. *)
Definition reference_fine (v : string) : Prop :=
  representation (lname lg) (local_part v) <> None \/ type_ok lg (local_part v).

(** The name that a tag gives. *)
Definition named (l : list xattr) : Prop := name_ok (name_in l).

(** The type that a tag gives; Java always needs one. *)
Definition typed (keys : list string) (l : list xattr) : Prop :=
  match last_of keys l with Some v => reference_fine v | None => lg <> Java end.

Definition derivation_fine (d : derivation) : Prop :=
  match d with
  | Restricted l _ fs => (exists v, last_of ["base"] l = Some v /\ reference_fine v) /\ Forall one_line (facet_values fs)
  | ListOf l _ => typed ["itemType"] l
  end.
Definition inline_fine (i : inline_type) : Prop := let 'Inline _ _ d := i in derivation_fine d.

Definition attribute_decl_fine (a : attribute_decl) : Prop :=
  let 'AttributeDecl l _ inline := a in
  named l /\ match inline with None => typed ["type"; "ref"] l | Some i => inline_fine i end.

(** Without type, the name of an element is taken for its type. *)
Definition element_decl_fine (l : list xattr) : Prop :=
  named l /\ reference_fine (otherwise (name_in l) (last_of ["type"; "ref"] l)).

(** A member of a union gives its name to a field. *)
Definition word_fine (v : string) : Prop :=
  reference_fine v /\ name_ok (local_part v) /\ free_of ":" (local_part v) /\ ~ improper lg (local_part v).

Definition simple_body_fine (s : simple_body) : Prop :=
  match s with
  | Derived d => derivation_fine d
  | UnionOf l _ ms =>
      let words := flat_map (split_on " ") (values "memberTypes" l) in
      Forall word_fine words /\ Forall inline_fine ms /\ (words <> [] \/ ms <> [] \/ lg <> Java)
  end.

Fixpoint body_fine (b : body) : Prop :=
  match b with
  | BEnd => True
  | BText _ r => body_fine r
  | BAttribute a r => attribute_decl_fine a /\ body_fine r
  | BAttributeGroup l _ r => named l /\ typed ["ref"] l /\ body_fine r
  | BGroup l _ r => named l /\ typed ["ref"] l /\ body_fine r
  | BElement l _ r => element_decl_fine l /\ body_fine r
  | BAnonymous l _ _ i r => named l /\ reference_fine (name_in l) /\ body_fine i /\ body_fine r
  | BInline l _ i r => named l /\ inline_fine i /\ body_fine r
  | BChoice _ i r => body_fine i /\ body_fine r
  | BExtension l i r => match last_of ["base"] l with Some v => reference_fine v | None => True end /\ body_fine i /\ body_fine r
  | BRestriction _ i r => body_fine i /\ body_fine r
  | BFacet _ r => body_fine r
  end.

Fixpoint part_fine (g : part) : Prop :=
  match g with
  | GEnd => True
  | GText _ r => part_fine r
  | GElement l _ r => element_decl_fine l /\ part_fine r
  | GGroup l _ r => named l /\ typed ["ref"] l /\ part_fine r
  | GChoice _ i r => part_fine i /\ part_fine r
  end.

Definition own_name (l : list xattr) : Prop := name_ok (otherwise "" (last_of ["name"] l)).

Definition declared_fine (d : component) : Prop :=
  match d with
  | DText _ => True
  | DSimple l _ s => own_name l /\ simple_body_fine s
  | DComplex l b => own_name l /\ body_fine b
  | DElement l _ => element_decl_fine l
  | DAnonymous l _ _ b => named l /\ reference_fine (name_in l) /\ body_fine b
  | DInline l _ i => named l /\ inline_fine i
  | DAttribute a => attribute_decl_fine a
  | DGroup l g => named l /\ part_fine g
  | DAttributeGroup l _ ats => named l /\ Forall attribute_decl_fine ats
  end.

Definition schema_fine (ds : list component) : Prop := Forall declared_fine ds.

(** The attributes that it declares have types. *)
Definition attribute_typed (d : component) : Prop :=
  match d with
  | DAttribute (AttributeDecl l _ None) => last_of ["type"; "ref"] l <> None
  | DAttribute (AttributeDecl _ _ (Some (Inline _ _ (ListOf l _)))) => last_of ["itemType"] l <> None
  | _ => True
  end.

(** The file is such a schema that declares the components [tree] (compare
    [schema_file]). *)
Definition ordinary_file (w : World) (file : string) (tree : list proto) : Prop :=
  exists bytes res many l ds,
    stat file w = SFile bytes /\ env_open_fail file = false /\ stat (join2 (dir file) "") w = SDir /\
    written_as (schema_tokens l ds) (env_tokens bytes) /\ named_tags (env_tokens bytes) /\
    resolution false (lname lg) res /\ counts many /\ schema_in res many ds [] = Some tree /\ schema_fine ds.

(** A project of such schemas. *)
Definition ordinary_project (P : project) : Prop := forall file s, pr_schema P file = Some s ->
  schema_fine (s_decls s) /\ Forall attribute_typed (s_decls s).

End Fine.

(** The names of components of some tree of a project. *)
Definition project_components (P : project) (full : string -> list proto) : Pool :=
  fun l t => exists g, separate_file P g /\ components (full g) l t.

(** The text of a program, after the preamble; Go programs are as gofmt writes
    them. *)
Definition holds_program {E : Env} (l : lang) (pkg : string) (tree : list proto) (its : list item) (text : string) : Prop :=
  exists decls, outline decls = Some its /\
    let s := preamble l pkg (imports tree) ++ decls in
    match l with Go => env_gofmt s = Some text | _ => text = s end.
