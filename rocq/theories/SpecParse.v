(** Specification vocabulary for whole parses. *)

From Coq Require Import String Ascii List NArith ZArith Bool.
From Verif Require Import GoStr GoPath Utf8 Base Utils SpecStr World Handlers Parser SpecDoc SpecTables.
Import ListNotations.
Local Open Scope string_scope.

(** * Documents that differ in ignorable tokens *)

(** White space, comments, processing instructions and directives. *)
Inductive spacing : token -> Prop :=
| sp_char data : blank data -> spacing (TChar data)
| sp_other : spacing TOther.

(** Tags of elements that xgen has no handler for. *)
Inductive foreign {E : Env} : token -> Prop :=
| fo_start local l : unknown local -> local <> "" -> foreign (TStart local l)
| fo_end local : unknown local -> foreign (TEnd local).

(** [padded P a b]: [b] is [a] with tokens satisfying [P] inserted anywhere. *)
Inductive padded (P : token -> Prop) : list token -> list token -> Prop :=
| pad_nil : padded P [] []
| pad_keep t a b : padded P a b -> padded P (t :: a) (t :: b)
| pad_add t a b : P t -> padded P a b -> padded P a (t :: b).

(** Both come from the same document by inserting such tokens. *)
Definition same_core (P : token -> Prop) (a b : list token) : Prop :=
  exists c, padded P c a /\ padded P c b.

(** Names of tags are not empty (guaranteed by XML). *)
Definition named_tags (ts : list token) : Prop := forall local l, In (TStart local l) ts -> local <> "".

(** * Worlds that differ in such documents only, at the paths [S] *)

Definition same_node {E : Env} (TE : list token -> list token -> Prop) (S : string -> Prop) (c : string)
    (n n' : option node) : Prop :=
  n = n' \/
  S c /\ exists b b', n = Some (NFile b) /\ n' = Some (NFile b') /\ TE (env_tokens b) (env_tokens b').

(** Everything but the contents of some documents and the global identifier
    counter agrees. *)
Definition same_world {E : Env} (TE : list token -> list token -> Prop) (S : string -> Prop) (w w' : World) : Prop :=
  w_inc w = w_inc w' /\ w_lns w = w_lns w' /\ w_nsl w = w_nsl w' /\ w_plist w = w_plist w' /\
  w_pmap w = w_pmap w' /\ w_tick w = w_tick w' /\
  forall c, same_node TE S c (get c (w_fs w)) (get c (w_fs w')).

(** Same components, same error, same crash; worlds related by [RW]. *)
Inductive same_outcome (RW : World -> World -> Prop) : out PState -> out PState -> Prop :=
| so_ret p p' w w' : freeze p = freeze p' -> RW w w' -> same_outcome RW (Ret p w) (Ret p' w')
| so_fail e w w' : RW w w' -> same_outcome RW (Fail e w) (Fail e w')
| so_crash c w w' : RW w w' -> same_outcome RW (Crash c w) (Crash c w').

(** The same Options but for the parser's own fields. *)
Definition with_ps (ps : PState) (o : Options) : Options :=
  mkO (o_file o) (o_input o) (o_output o) (o_extract o) (o_lang o) (o_package o) ps.

(** * URLs *)

Definition is_url {E : Env} (v : string) : Prop := (exists a b, v = a ++ ":" ++ b) /\ env_valid_url v = true.

(** * Output *)

(** [f] is strictly below the directory [d], lexically. *)
Definition inside (d f : string) : Prop :=
  exists rest, rest <> "" /\ has_prefix rest "/" = false /\ (forall x, In x (split_on "/" rest) -> x <> "." /\ x <> "..") /\
    clean f = (if String.eqb (clean d) "." then rest
               else if String.eqb (clean d) "/" then "/" ++ rest
               else clean d ++ "/" ++ rest).

(** No import and no include tags. *)
Definition self_contained {E : Env} (ts : list token) : Prop :=
  forall local l, In (TStart local l) ts -> tag "Import" local = false /\ tag "Include" local = false.

(** * Schema locations *)

(** Recorded locations are kept; new ones are not URLs; includes are kept. *)
Definition locations_grow {E : Env} (w w' : World) : Prop :=
  (forall ns loc, get ns (w_nsl w) = Some loc -> get ns (w_nsl w') = Some loc) /\
  (forall ns loc, get ns (w_nsl w') = Some loc -> get ns (w_nsl w) = Some loc \/ ~ is_url loc) /\
  (forall k, In k (w_inc w) -> In k (w_inc w')).

(** The schemaLocation known for the prefix of a name; missing entries of the
    two maps read as "". *)
Definition location (v : string) (w : World) (loc : string) : Prop :=
  exists ns, (get (prefix_part v) (w_lns w) = Some ns \/ get (prefix_part v) (w_lns w) = None /\ ns = "") /\
    (get ns (w_nsl w) = Some loc \/ get ns (w_nsl w) = None /\ loc = "").

(** The declarations so far say nothing about a name: none gives it a type, or
    the first that does gives it itself or nothing. *)
Definition undecided (name : string) (tree : list proto) : Prop :=
  forall t, first_gives name tree t -> t = name \/ t = "".

(** A reference to a type that is neither built in nor declared so far, whose
    namespace is bound to a local file that does not exist or cannot be
    examined. *)
Definition missing_reference {E : Env} (o : Options) (v : string) (tree : list proto) (w : World) (file : string) : Prop :=
  representation (o_lang o) (local_part v) = None /\ undecided (local_part v) tree /\
  exists loc, location v w loc /\ ~ is_url loc /\ file = join2 (dir (o_file o)) loc /\ (stat file w = SNotExist \/ stat file w = SErr).

(** The XML attributes of a tag that refer to types. *)
Definition reference_attributes : list (string * list string) :=
  [("Element", ["type"; "ref"]); ("Attribute", ["type"; "ref"]); ("AttributeGroup", ["ref"]); ("Group", ["ref"]);
   ("Extension", ["base"]); ("Restriction", ["base"]); ("List", ["itemType"]); ("Union", ["memberTypes"])].

(** The first reference of the tag [TStart local l] is [v].  Unions refer to
    several types, separated by spaces. *)
Definition first_reference {E : Env} (local : string) (l : list xattr) (v : string) : Prop :=
  exists h keys l1 sp k value l2, In (h, keys) reference_attributes /\ tag h local = true /\
    l = (l1 ++ mkAttr sp k value :: l2)%list /\ In k keys /\ (forall k', In k' keys -> lacks k' l1) /\
    (h = "Element" -> no_occurs l1) /\ (h <> "Union" -> value = v) /\
    (h = "Union" -> (value = v \/ exists rest, value = (v ++ " " ++ rest)%string) /\ ~ (exists a b, v = (a ++ " " ++ b)%string)).

(** List and union tags stand in a simple type. *)
Definition in_place {E : Env} (before : list token) (local : string) : Prop :=
  tag "List" local = true \/ tag "Union" local = true ->
  exists b st l sp, before = (b ++ TStart st l :: sp)%list /\ tag "SimpleType" st = true /\ Forall spacing sp.

(** All regular files are documents on which Parse does not panic. *)
Definition schemas_fit {E : Env} (w : World) : Prop :=
  forall path b, get path (w_fs w) = Some (NFile b) -> SpecDoc.fits 0 false (env_tokens b).

(** An element or choice with a maxOccurs that is no number. *)
Definition bad_occurs {E : Env} (t : token) : Prop :=
  exists local l v, t = TStart local l /\ (tag "Element" local = true \/ tag "Choice" local = true) /\
    In v (values "maxOccurs" l) /\ ~ occurs_ok v.

(** * Iteration order *)

(** The same environment with another iteration order of maps. *)
Definition with_choose (E : Env) (ch : nat -> nat) : Env := {|
  env_upper := env_upper; env_lower := env_lower; env_valid_url := env_valid_url; env_tokens := env_tokens;
  env_gofmt := env_gofmt; env_choose := ch; env_stat_fail := env_stat_fail; env_open_fail := env_open_fail;
  env_create_fail := env_create_fail; env_mkdir_fail := env_mkdir_fail; env_write := env_write |}.

(** Every schema included under a name of [K] can be parsed, includes only
    schemas of [K], and resolves [name] to [T] if [found] and not at all
    otherwise. *)
Definition included_schemas {E : Env} (d fuel : nat) (o : Options) (w : World) (K : list string) (name T : string)
    (found : string -> bool) : Prop :=
  forall k w1, In k K -> w_fs w1 = w_fs w ->
    exists p w2, parse d fuel (nested o (join2 (dir (o_file o)) k) true) w1 = Ret p w2 /\
      (forall x, In x (w_inc w2) -> In x (w_inc w1) \/ In x K) /\
      (if found k then first_gives name (freeze p) T else none_gives name (freeze p)).

(** Every included schema can be parsed, includes no further schema, and
    resolves [name] to what [gives] says. *)
Definition included_exactly {E : Env} (d fuel : nat) (o : Options) (w : World) (name : string) (gives : string -> option string) : Prop :=
  forall k w1, In k (w_inc w) -> w_fs w1 = w_fs w -> w_inc w1 = w_inc w ->
    exists p w2, parse d fuel (nested o (join2 (dir (o_file o)) k) true) w1 = Ret p w2 /\ w_inc w2 = w_inc w /\
      match gives k with
      | Some t => first_gives name (freeze p) t /\ t <> name /\ t <> ""
      | None => none_gives name (freeze p)
      end.
