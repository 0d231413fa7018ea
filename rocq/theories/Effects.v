(** The effect of a parse on the file system in terms of the model's own
    functions; an intermediate step between the model and SpecFile.v. *)

From Coq Require Import String Ascii List NArith Bool.
From Verif Require Import GoStr GoPath Base Utils GenGo GenC GenJava GenRust GenTS World Handlers Parser.
Import ListNotations.
Local Open Scope string_scope.

(** What Parse writes for a component list: the extension and the bytes handed
    to the file.  [ok]: whether the code generator reports success. *)
Definition written {E : Env} (lang pkg : string) (pt : list proto) (ext text : string) (ok : bool) : Prop :=
  (to_title lang = "Go" /\ ext = ".go" /\
     (if ok then env_gofmt (go_source pkg (run_entries go_entry pt)) = Some text
      else env_gofmt (go_source pkg (run_entries go_entry pt)) = None /\
           text = go_fallback pkg (run_entries go_entry pt))) \/
  (ok = true /\
   ((to_title lang = "C" /\ ext = ".h" /\ text = c_source (run_entries c_entry pt)) \/
    (to_title lang = "Java" /\ ext = ".java" /\ text = java_source pkg (run_entries java_entry pt)) \/
    (to_title lang = "Rust" /\ ext = ".rs" /\ text = rust_source (run_entries rust_entry pt)) \/
    (to_title lang = "TypeScript" /\ ext = ".ts" /\ text = ts_source (run_entries ts_entry pt)))).

(** [c] is the file that Parse writes for the Options [o]. *)
Definition target {E : Env} (o : Options) (c : string) : Prop :=
  exists pt ext text ok, written (o_lang o) (o_package o) pt ext text ok /\
    c = clean (file_with_extension (output_path o) ext).

(** What happens to one path when the output of Parse is written: nothing, a directory is made, or the
    generated text is written. *)
Definition node_effect {E : Env} (o : Options) (pt : list proto) (c : string) (n n' : option node) : Prop :=
  n' = n \/
  (In c (lineage (dir (output_path o))) /\ n = None /\ n' = Some NDir) \/
  (exists ext text ok, written (o_lang o) (o_package o) pt ext text ok /\
     let f := file_with_extension (output_path o) ext in
     c = clean f /\ n <> Some NDir /\ n' = Some (NFile (env_write f text))).
