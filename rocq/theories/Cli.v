(** cmd/xgen/xgen.go and GetFileList (utils.go:41-59). *)

From Coq Require Import String Ascii List NArith ZArith Bool.
From Verif Require Import GoStr GoPath Base Utils World Handlers Parser.
Import ListNotations.
Local Open Scope string_scope.

(** * Directories of the flat file system *)

Definition comps (p : string) : list string := clean_comps (is_rooted p) (path_comps p).

Fixpoint strip_comps (a b : list string) : option (list string) :=
  match a, b with
  | [], _ => Some b
  | x :: a', y :: b' => if String.eqb x y then strip_comps a' b' else None
  | _ :: _, [] => None
  end.

(** The name of [k] if it is an entry of the directory [p]. *)
Definition entry_name (p k : string) : option string :=
  if Bool.eqb (is_rooted p) (is_rooted k) then
    match strip_comps (comps p) (comps k) with
    | Some [x] => if String.eqb x ".." then None else Some x
    | _ => None
    end
  else None.

(** sort.Strings *)
Fixpoint str_insert (k : string) (l : list string) : list string :=
  match l with
  | [] => [k]
  | x :: r => if str_ltb x k then x :: str_insert k r else k :: l
  end.
Definition str_sort (l : list string) : list string := fold_right str_insert [] l.

(** readDirNames of path/filepath: the sorted names of the entries. *)
Definition dir_names (fs : smap node) (p : string) : list string :=
  str_sort (flat_map (fun k => match entry_name p k with Some x => [x] | None => [] end) (keys fs)).

(** Deeper than any path of the file system. *)
Definition fs_depth (fs : smap node) : nat :=
  S (fold_right Nat.max 0 (map (fun k => length (comps k)) (keys fs))).

(** The command line flags after flag.Parse: xgen.go:63-69 *)
Record flags : Type := mkFlags {
  fl_i : string; fl_o : string; fl_p : string; fl_l : string; fl_v : bool; fl_h : bool
}.

(** xgen.go:63-68: the defaults *)
Definition default_flags : flags := mkFlags "" "xgen_out" "" "" false false.

(** strconv.ParseBool *)
Definition parse_bool (s : string) : option bool :=
  if in_set s ["1"; "t"; "T"; "true"; "TRUE"; "True"] then Some true
  else if in_set s ["0"; "f"; "F"; "false"; "FALSE"; "False"] then Some false
  else None.

(** The first '=' that is not at the start (flag.go, parseOne). *)
Fixpoint cut_eq (s : string) : string * option string :=
  match s with
  | EmptyString => (EmptyString, None)
  | String a r => if Ascii.eqb a "=" then (EmptyString, Some r)
                  else let '(n, v) := cut_eq r in (String a n, v)
  end.

Definition flag_string (name v : string) (f : flags) : option flags :=
  if String.eqb name "i" then Some (mkFlags v (fl_o f) (fl_p f) (fl_l f) (fl_v f) (fl_h f))
  else if String.eqb name "o" then Some (mkFlags (fl_i f) v (fl_p f) (fl_l f) (fl_v f) (fl_h f))
  else if String.eqb name "p" then Some (mkFlags (fl_i f) (fl_o f) v (fl_l f) (fl_v f) (fl_h f))
  else if String.eqb name "l" then Some (mkFlags (fl_i f) (fl_o f) (fl_p f) v (fl_v f) (fl_h f))
  else None.

Definition flag_bool (name : string) (b : bool) (f : flags) : option flags :=
  if String.eqb name "v" then Some (mkFlags (fl_i f) (fl_o f) (fl_p f) (fl_l f) b (fl_h f))
  else if String.eqb name "h" then Some (mkFlags (fl_i f) (fl_o f) (fl_p f) (fl_l f) (fl_v f) b)
  else None.

(** flag.Parse of the standard library with the flags of xgen.go:62-68: the
    flags, or the exit code (0 for -help, 2 for any error). *)
Fixpoint parse_args (args : list string) (f : flags) : flags + nat :=
  match args with
  | [] => inl f
  | s :: rest =>
      match s with
      | String "-" (String b r) =>
          let name := if Ascii.eqb b "-" then r else String b r in
          if Ascii.eqb b "-" && String.eqb r "" then inl f
          else match name with
          | String c tail =>
              if Ascii.eqb c "-" || Ascii.eqb c "=" then inr 2
              else
                let '(n, v) := cut_eq tail in
                let name := String c n in
                if in_set name ["v"; "h"] then
                  match (match v with None => Some true | Some t => parse_bool t end) with
                  | Some t => match flag_bool name t f with Some f => parse_args rest f | None => inr 2 end
                  | None => inr 2
                  end
                else if in_set name ["i"; "o"; "p"; "l"] then
                  match v with
                  | Some t => match flag_string name t f with Some f => parse_args rest f | None => inr 2 end
                  | None => match rest with
                            | [] => inr 2
                            | t :: rest => match flag_string name t f with Some f => parse_args rest f | None => inr 2 end
                            end
                  end
                else if String.eqb name "help" then inr 0
                else inr 2
          | EmptyString => inr 2
          end
      | _ => inl f
      end
  end.

(** xgen.go:53-59 SupportLang *)
Definition support_lang : list string := ["Go"; "C"; "Java"; "Rust"; "TypeScript"].

(** How the process ends; [done]: the final "done" was printed. *)
Inductive cli_end : Type :=
| CExit (code : nat) (done : bool) (w : World)
| CNoFuel (w : World).

Record config : Type := mkCfg { cf_i : string; cf_o : string; cf_pkg : string; cf_lang : string }.

(** xgen.go:61-99 parseFlags: the configuration or an exit code.  Cfg starts
    with Pkg "schema" and O "" (xgen.go:47-50). *)
Definition parse_flags (f : flags) : config + nat :=
  if fl_h f then inr 0
  else if fl_v f then inr 0
  else if String.eqb (fl_i f) "" then inr 1
  else if String.eqb (fl_l f) "" then inr 1
  else if negb (in_set (fl_l f) support_lang) then inr 1
  else inl (mkCfg (fl_i f) (fl_o f) (if String.eqb (fl_p f) "" then "schema" else fl_p f) (fl_l f)).

Section Cli.
Context {E : Env}.

(** filepath.Walk with a callback that only collects paths and never returns an
    error (utils.go:49-52): a directory that cannot be read contributes itself,
    an entry that cannot be examined is not entered.  [fuel] bounds the depth. *)
Fixpoint walk (fuel : nat) (w : World) (p : string) : list string :=
  match fuel with
  | O => [p]
  | S fuel =>
      p :: match stat p w with
           | SDir => if env_open_fail p then []
                     else flat_map (fun x => walk fuel w (join2 p x)) (dir_names (w_fs w) p)
           | _ => []
           end
  end.

(** utils.go:42-59 GetFileList; None is the os.Stat error.  The directory
    itself is listed first by Walk and again at the end. *)
Definition get_file_list (path : string) (w : World) : option (list string) :=
  match stat path w with
  | SNotExist | SErr => None
  | SDir => Some (walk (fs_depth (w_fs w)) w path ++ [path])%list
  | SFile _ => Some [path]
  end.

(** xgen.go:109-122: new maps for every file; the file system, the global
    counter and the run-time's randomness persist *)
Definition fresh_maps (w : World) : World :=
  mkW (w_fs w) [] [] [] [] [] (w_tick w) (w_count w).

Definition file_options (c : config) (file : string) : Options :=
  mkO file (cf_i c) (cf_o c) false (cf_lang c) (cf_pkg c) p_init.

(** xgen.go:108-127; a Go panic ends the process with exit code 2 *)
Fixpoint process (d fuel : nat) (c : config) (files : list string) (w : World) : cli_end :=
  match files with
  | [] => CExit 0 true w
  | f :: r =>
      match parse d fuel (file_options c f) (fresh_maps w) with
      | Ret _ w => process d fuel c r w
      | Fail _ w => CExit 1 false w
      | Crash Exit1 w => CExit 1 false w
      | Crash Panic w => CExit 2 false w
      | Crash NoFuel w => CNoFuel w
      end
  end.

(** xgen.go:101-128 main *)
Definition main (d fuel : nat) (f : flags) (w : World) : cli_end :=
  match parse_flags f with
  | inr code => CExit code false w
  | inl c =>
      match get_file_list (cf_i c) w with
      | None => CExit 1 false w
      | Some files => process d fuel c files w
      end
  end.

(** The program with its command line arguments. *)
Definition run (d fuel : nat) (args : list string) (w : World) : cli_end :=
  match parse_args args default_flags with
  | inr code => CExit code false w
  | inl f => main d fuel f w
  end.

End Cli.
