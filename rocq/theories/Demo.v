(** Small environments and documents for the examples and refutations. *)

From Coq Require Import String Ascii List NArith Bool.
From Verif Require Import GoStr GoPath Base World Handlers Parser.
Import ListNotations.
Local Open Scope string_scope.

(** The bytes of a file are the name of a document in [docs]; [ch] gives the
    iteration order of maps; nothing fails; gofmt and writing change nothing. *)
Definition demo (docs : smap (list token)) (ch : nat -> nat) : Env := {|
  env_upper := fun r => r; env_lower := fun r => r; env_valid_url := fun s => has_prefix s "http";
  env_tokens := fun b => match get b docs with Some ts => ts | None => [] end;
  env_gofmt := fun s => Some s; env_choose := ch;
  env_stat_fail := fun _ => false; env_open_fail := fun _ => false;
  env_create_fail := fun _ => false; env_mkdir_fail := fun _ => false;
  env_write := fun _ b => b |}.

Definition first_choice (n : nat) : nat := 0.

(** A world with the given files in the directory "in". *)
Definition demo_world (files : list (string * string)) : World :=
  mkW (("in", NDir) :: map (fun x => ("in/" ++ fst x, NFile (snd x))) files) [] [] [] [] [] 0 [].

Definition demo_opts (file lang : string) (extract : bool) : Options :=
  mkO ("in/" ++ file) "in" "out" extract lang "" p_init.

Definition att (k v : string) : xattr := mkAttr "" k v.
Definition xmlns (prefix uri : string) : xattr := mkAttr "xmlns" prefix uri.

Definition d_schema (l : list xattr) (body : list token) : list token :=
  (TStart "schema" l :: body ++ [TEnd "schema"])%list.
Definition d_element (name type : string) : list token :=
  [TStart "element" [att "name" name; att "type" type]; TEnd "element"].
Definition d_simple (name base : string) : list token :=
  [TStart "simpleType" [att "name" name]; TStart "restriction" [att "base" base]; TEnd "restriction"; TEnd "simpleType"].
Definition d_import (ns loc : string) : list token :=
  [TStart "import" [att "namespace" ns; att "schemaLocation" loc]; TEnd "import"].
Definition d_include (loc : string) : list token :=
  [TStart "include" [att "schemaLocation" loc]; TEnd "include"].

(** The components or the failure. *)
Inductive seen : Type := Comps (l : list proto) | Error (e : goerr) | Crashed (c : crash).
Definition see (m : out PState) : seen :=
  match m with Ret p _ => Comps (freeze p) | Fail e _ => Error e | Crash c _ => Crashed c end.
