(** Documents that are the same but for the namespace prefixes of references. *)

From Coq Require Import String Ascii List NArith ZArith Bool.
From Verif Require Import GoStr GoPath Base SpecStr World SpecDoc SpecParse SpecLang.
Import ListNotations.
Local Open Scope string_scope.

(** Two values of the attribute [k] in a tag [local].  [named]: the last simple
    type that was opened has a name; a restriction in a simple type without a
    name makes its base the name. *)
Definition same_value {E : Env} (named : bool) (local k v v' : string) : Prop :=
  if existsb (String.eqb k) ["type"; "itemType"] then local_part v = local_part v'
  else if String.eqb k "base" && (named || negb (tag "Restriction" local)) then local_part v = local_part v'
  else if String.eqb k "memberTypes" then Forall2 (fun m m' => local_part m = local_part m') (split_on " " v) (split_on " " v')
  else v = v'.
Definition same_attr {E : Env} (named : bool) (local : string) (x y : xattr) : Prop :=
  a_local x = a_local y /\ same_value named local (a_local x) (a_value x) (a_value y).

(** Is there a name that is not empty? *)
Definition has_name (l : list xattr) : bool :=
  match last_of ["name"] l with Some n => negb (String.eqb n "") | None => false end.

(** Two documents; the attributes of schema tags, where the prefixes are bound,
    may be anything. *)
Fixpoint same_document {E : Env} (named : bool) (ts ts' : list token) : Prop :=
  match ts, ts' with
  | [], [] => True
  | TStart local l :: r, TStart local' l' :: r' =>
      local = local' /\ (tag "Schema" local = true \/ Forall2 (same_attr named local) l l') /\
      same_document (if tag "SimpleType" local then has_name l else named) r r'
  | TEnd local :: r, TEnd local' :: r' => local = local' /\ same_document named r r'
  | TChar data :: r, TChar data' :: r' => data = data' /\ same_document named r r'
  | TOther :: r, TOther :: r' => same_document named r r'
  | _, _ => False
  end.

(** Elements have a name or refer to something. *)
Definition elements_named {E : Env} (ts : list token) : Prop :=
  forall local l, In (TStart local l) ts -> tag "Element" local = true -> element_name l <> "".

(** A schema file that needs no other. *)
Definition lone_file {E : Env} (w : World) (file bytes : string) : Prop :=
  stat file w = SFile bytes /\ self_contained (env_tokens bytes) /\ stat (join2 (dir file) "") w = SDir.
