(** The file system, the maps shared by nested parsers, and outcomes. *)

From Coq Require Import String Ascii List NArith ZArith Bool.
From Verif Require Import GoStr GoPath Base.
Import ListNotations.
Local Open Scope string_scope.

(** * File system: cleaned path to node.  No links; a path is looked up after
    lexical cleaning; "." , "/" and chains of ".." are always directories. *)

Inductive node : Type := NDir | NFile (bytes : string).

Record World : Type := mkW {
  w_fs : smap node;
  w_inc : list string;              (* keys of IncludeMap (values are always true) *)
  w_lns : smap string;              (* LocalNameNSMap *)
  w_nsl : smap string;              (* NSSchemaLocationMap *)
  w_plist : list string;            (* keys of ParseFileList (values are always true) *)
  w_pmap : smap (list proto);       (* ParseFileMap *)
  w_tick : nat;                     (* map iteration steps taken so far *)
  w_count : smap Z                  (* the global fieldNameCount, utils.go:30 *)
}.

Definition set_fs (v : smap node) (w : World) : World :=
  mkW v (w_inc w) (w_lns w) (w_nsl w) (w_plist w) (w_pmap w) (w_tick w) (w_count w).
Definition set_inc (v : list string) (w : World) : World :=
  mkW (w_fs w) v (w_lns w) (w_nsl w) (w_plist w) (w_pmap w) (w_tick w) (w_count w).
Definition set_lns (v : smap string) (w : World) : World :=
  mkW (w_fs w) (w_inc w) v (w_nsl w) (w_plist w) (w_pmap w) (w_tick w) (w_count w).
Definition set_nsl (v : smap string) (w : World) : World :=
  mkW (w_fs w) (w_inc w) (w_lns w) v (w_plist w) (w_pmap w) (w_tick w) (w_count w).
Definition set_parsed (l : list string) (m : smap (list proto)) (w : World) : World :=
  mkW (w_fs w) (w_inc w) (w_lns w) (w_nsl w) l m (w_tick w) (w_count w).
Definition set_tick (n : nat) (w : World) : World :=
  mkW (w_fs w) (w_inc w) (w_lns w) (w_nsl w) (w_plist w) (w_pmap w) n (w_count w).
Definition set_count (c : smap Z) (w : World) : World :=
  mkW (w_fs w) (w_inc w) (w_lns w) (w_nsl w) (w_plist w) (w_pmap w) (w_tick w) c.

(** [m[k] = true] on the key list of a map used as a set. *)
Definition add_key (k : string) (l : list string) : list string :=
  if in_set k l then l else l ++ [k].

(** * Outcomes.  Effects on the world persist when a Go error is returned. *)

Inductive goerr : Type :=
| EStat (path : string) | EOpen (path : string) | EAtoi (text : string)
| ECreate (path : string) | EGofmt.

Inductive crash : Type :=
| Panic       (* Go run-time panic *)
| Exit1       (* os.Exit(1) *)
| NoFuel.     (* the model's recursion budget ran out: not a behaviour of the code *)

Inductive out (A : Type) : Type :=
| Ret (a : A) (w : World)
| Fail (e : goerr) (w : World)
| Crash (c : crash) (w : World).
Arguments Ret {A}. Arguments Fail {A}. Arguments Crash {A}.

Definition bind {A B} (m : out A) (f : A -> World -> out B) : out B :=
  match m with
  | Ret a w => f a w
  | Fail e w => Fail e w
  | Crash c w => Crash c w
  end.

Definition out_world {A} (m : out A) : World :=
  match m with Ret _ w => w | Fail _ w => w | Crash _ w => w end.

(** * Path helpers *)

(** Chains of "..": directories above the working directory. *)
Definition implicit_dir (c : string) : bool :=
  String.eqb c "." || String.eqb c "/" || forallb (String.eqb "..") (split_on "/" c).

(** Non-empty prefixes of a list, shortest first. *)
Fixpoint prefixes {A} (l : list A) : list (list A) :=
  match l with
  | [] => []
  | x :: r => [x] :: map (cons x) (prefixes r)
  end.

(** The cleaned path itself and its ancestors, outermost first. *)
Definition lineage (p : string) : list string :=
  map (fun cs => (if is_rooted p then "/" else "") ++ sjoin "/" cs)
      (prefixes (clean_comps (is_rooted p) (path_comps p))).

Section World.
Context {E : Env}.

Inductive stat_res : Type := SDir | SFile (bytes : string) | SNotExist | SErr.

Definition is_file (fs : smap node) (c : string) : bool :=
  match get c fs with Some (NFile _) => true | _ => false end.

(** What exists at a path, given the cleaned path. *)
Definition lookup (fs : smap node) (p : string) : stat_res :=
  let c := clean p in
  if implicit_dir c then SDir
  else match get c fs with
       | Some NDir => SDir
       | Some (NFile b) => SFile b
       | None => if existsb (is_file fs) (lineage p) then SErr (* ENOTDIR *) else SNotExist
       end.

(** os.Stat *)
Definition stat (p : string) (w : World) : stat_res :=
  if env_stat_fail p then SErr
  else if String.eqb p "" then SNotExist
  else lookup (w_fs w) p.

(** One os.Mkdir step of os.MkdirAll; false is an error. *)
Definition mkdir1 (fs : smap node) (c : string) : smap node * bool :=
  match lookup fs c with
  | SDir => (fs, true)
  | SNotExist => if env_mkdir_fail c then (fs, false) else (put c NDir fs, true)
  | _ => (fs, false)
  end.

(** os.MkdirAll: the missing ancestors, outermost first; stops at a failure. *)
Fixpoint mkdirs (fs : smap node) (cs : list string) : smap node * bool :=
  match cs with
  | [] => (fs, true)
  | c :: r => let '(fs', ok) := mkdir1 fs c in
              if ok then mkdirs fs' r else (fs', false)
  end.

(** utils.go:63-74 PrepareOutputDir; false is an error *)
Definition prepare_output_dir (path : string) (w : World) : World * bool :=
  if String.eqb path "" then (w, true)
  else match stat path w with
       | SNotExist => let '(fs, ok) := mkdirs (w_fs w) (lineage path) in (set_fs fs w, ok)
       | _ => (w, true)
       end.

(** os.Create followed by one write whose error is ignored (genGo.go:70-94,
    genC.go:48-54, ...).  [None]: os.Create failed. *)
Definition create_write (path bytes : string) (w : World) : option World :=
  if env_create_fail path || String.eqb path "" then None
  else match lookup (w_fs w) path with
       | SDir | SErr => None
       | _ => match lookup (w_fs w) (dir path) with
              | SDir => Some (set_fs (put (clean path) (NFile (env_write path bytes)) (w_fs w)) w)
              | _ => None
              end
       end.

End World.
