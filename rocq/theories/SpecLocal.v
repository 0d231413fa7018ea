(** Names and identifiers of a tree of components. *)

From Coq Require Import String Ascii List Bool.
From Verif Require Import GoStr GoPath Base World SpecStr SpecGen SpecParse.
Import ListNotations.
Local Open Scope string_scope.

Definition names_of (pt : list proto) : list string :=
  flat_map (fun p => match proto_name p with Some n => [n] | None => [] end) pt.

Definition idents_of {E : Env} (l : lang) (pt : list proto) : list string :=
  flat_map (fun p => match proto_name p with Some n => if counting l p then [SpecGen.plain_ident l p] else [] | None => [] end) pt.

(** No two components have one name, or names that become one identifier. *)
Definition separate {E : Env} (l : lang) (pt : list proto) : Prop := NoDup (names_of pt) /\ NoDup (idents_of l pt).

(** No directory of the path and not its file name ends with the extension. *)
Definition no_part_ends (ext file : string) : Prop := forall c, In c (split_on "/" file) -> ~ ends_with c ext.

(** No operation of the file system fails for a reason of its own. *)
Definition no_faults {E : Env} : Prop := forall p,
  env_stat_fail p = false /\ env_open_fail p = false /\ env_create_fail p = false /\ env_mkdir_fail p = false.

(** A directory that is empty or can be made. *)
Definition fresh_directory {E : Env} (d : string) (w : World) : Prop :=
  (forall a b, In a (lineage d) -> get a (w_fs w) <> Some (NFile b)) /\
  (forall c, inside d c -> get c (w_fs w) = None).

(** No path is inside the first directory and inside or above the second, or
    the second itself. *)
Definition apart (i o : string) : Prop := forall k, inside i k -> ~ inside o k /\ ~ In k (lineage o).
