(** What a parse leaves in the file system.  Of the model only the data types
    and the file system vocabulary are used. *)

From Coq Require Import String Ascii List NArith Bool.
From Verif Require Import GoStr GoPath Base SpecStr World Handlers Parser SpecDoc SpecGen SpecOut.
Import ListNotations.
Local Open Scope string_scope.

Section Files.
Context {E : Env}.

(** The language named by Lang: "Go" and "go" are both Go. *)
Definition selects (name : string) (l : lang) : Prop := tag (lname l) name = true.

(** [rel] is FilePath without a leading InputDir. *)
Definition relative (input file rel : string) : Prop :=
  file = input ++ rel \/ (rel = file /\ ~ starts_with file input).

(** The path of the output without its extension. *)
Definition output_place (o : Options) (p : string) : Prop :=
  exists rel, relative (o_input o) (o_file o) rel /\ p = join2 (o_output o) rel.

(** [f] is [p] with the extension, which is not repeated. *)
Definition with_extension (p ext f : string) : Prop :=
  (ends_with p ext /\ f = p) \/ (~ ends_with p ext /\ f = p ++ ext).

(** The name of the output file. *)
Definition output_file (o : Options) (l : lang) (f : string) : Prop :=
  exists p, output_place o p /\ with_extension p (extension l) f.

(** A source text for the components [pt]: the preamble, and declarations that
    read as expected. *)
Definition source_of (l : lang) (pkg : string) (pt : list proto) (s : string) : Prop :=
  exists decls, s = preamble l pkg (imports pt) ++ decls /\
    (case_tables_ok -> tree_ok pt -> outline decls = Some (expected l pt)).

(** The text of the output file.  Go sources pass through gofmt; when it
    rejects the source ([ok] is false), the source is written without marker. *)
Definition file_text (l : lang) (pkg : string) (pt : list proto) (text : string) (ok : bool) : Prop :=
  exists s, source_of l pkg pt s /\
    match ok, l with
    | true, Go => env_gofmt s = Some text
    | true, _ => text = s
    | false, Go => env_gofmt s = None /\ s = text_lines [marker; ""] ++ text
    | false, _ => False
    end.

(** What happens to one path when the output of a parse is written: nothing, or
    a directory of the output path is made, or it is the output file. *)
Definition output_change (o : Options) (pt : list proto) (c : string) (n n' : option node) : Prop :=
  n' = n \/
  (exists p, output_place o p /\ In c (lineage (dir p)) /\ n = None /\ n' = Some NDir) \/
  (exists l f text ok, selects (o_lang o) l /\ output_file o l f /\ file_text l (o_package o) pt text ok /\
     c = clean f /\ n <> Some NDir /\ n' = Some (NFile (env_write f text))).

(** Options of the parse of another schema that a schema refers to. *)
Definition for_schema (o : Options) (file : string) : Options :=
  mkO file "" (o_output o) false (o_lang o) "" p_init.

End Files.
