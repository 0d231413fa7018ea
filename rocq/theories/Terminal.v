(** What cmd/xgen prints on its standard output.  The texts of the errors of the
    standard library are parameters.  Errors of the flag package and panics go to
    the standard error. *)

From Coq Require Import String Ascii List Arith Bool.
From Verif Require Import GoStr Base World Handlers Parser Cli.
Import ListNotations.
Local Open Scope string_scope.

Definition TAB : string := String "009" EmptyString.

(** xgen.go:49 *)
Definition version : string := "0.1.0".

(** xgen.go:71 *)
Definition usage : string :=
  "xgen version: " ++ version ++ CRNL ++ "Copyright (c) 2020 - 2022 Ri Xu https://xuri.me All rights reserved." ++ CRNL ++ CRNL ++
  "Usage:" ++ CRNL ++ "$ xgen [<flag> ...] <XSD file or directory> ..." ++ NL ++
  "  -i <path>" ++ TAB ++ "Input file path or directory for the XML schema definition" ++ CRNL ++
  "  -o <path>" ++ TAB ++ "Output file path or directory for the generated code" ++ CRNL ++
  "  -p     " ++ TAB ++ "Specify the package name" ++ CRNL ++
  "  -l      " ++ TAB ++ "Specify the language of generated code (Go/C/Java/Rust/TypeScript)" ++ CRNL ++
  "  -h     " ++ TAB ++ "Output this help and exit" ++ CRNL ++
  "  -v     " ++ TAB ++ "Output version and exit" ++ CRNL.

(** err.Error() of os.Stat in GetFileList, of os.MkdirAll in PrepareOutputDir,
    and of the errors that Parse returns *)
Record texts : Type := mkTexts { t_list : string; t_dir : string; t_parse : goerr -> string }.

(** xgen.go:70-96 *)
Definition flags_output (f : flags) : string :=
  if fl_h f then usage
  else if fl_v f then "xgen version: " ++ version ++ CRNL
  else if String.eqb (fl_i f) "" then "must specify input file path or directory for the XML schema definition" ++ NL
  else if String.eqb (fl_l f) "" then "must specify the language of generated code (Go/C/Java/Rust/TypeScript)" ++ NL
  else "unsupport language " ++ fl_l f ++ NL.

Section Terminal.
Context {E : Env}.
Variable t : texts.

(** xgen.go:108-127, parser.go:135-138; None if the budget is used up *)
Fixpoint process_output (d fuel : nat) (c : config) (files : list string) (w : World) : option string :=
  match files with
  | [] => Some ("done" ++ NL)
  | f :: r =>
      match parse d fuel (file_options c f) (fresh_maps w) with
      | Ret _ w => process_output d fuel c r w
      | Fail e _ => Some ("process error on " ++ f ++ ": " ++ t_parse t e ++ CRNL)
      | Crash Exit1 _ => Some (t_dir t ++ NL)
      | Crash Panic _ => Some ""
      | Crash NoFuel _ => None
      end
  end.

(** xgen.go:101-107 *)
Definition main_output (d fuel : nat) (f : flags) (w : World) : option string :=
  match parse_flags f with
  | inr _ => Some (flags_output f)
  | inl c =>
      match get_file_list (cf_i c) w with
      | None => Some (t_list t ++ NL)
      | Some files => process_output d fuel c files w
      end
  end.

(** flag.Parse prints to the standard error *)
Definition run_output (d fuel : nat) (args : list string) (w : World) : option string :=
  match parse_args args default_flags with
  | inr _ => Some ""
  | inl f => main_output d fuel f w
  end.

End Terminal.
