(** Specification vocabulary for runs from schema files to output files. *)

From Coq Require Import String Ascii List NArith Bool.
From Verif Require Import GoStr GoPath Base World Handlers Parser Cli SpecTables SpecGen SpecOut SpecFile SpecParse SpecCli SpecDecl.
Import ListNotations.
Local Open Scope string_scope.

Section Whole.
Context {E : Env}.

(** The file is a schema of the grammar of SpecDecl.v (with tags unknown to
    xgen and spacing anywhere) that declares the components [tree]. *)
Definition schema_file (lang : string) (w : World) (file : string) (tree : list proto) : Prop :=
  exists bytes res many l ds,
    stat file w = SFile bytes /\ env_open_fail file = false /\ stat (join2 (dir file) "") w = SDir /\
    written_as (schema_tokens l ds) (env_tokens bytes) /\ named_tags (env_tokens bytes) /\
    resolution false lang res /\ counts many /\ schema_in res many ds [] = Some tree.

(** The output file can be made: no file is in the way of a directory, no
    directory in the way of the file. *)
Definition can_write (o : Options) (l : lang) (w : World) : Prop :=
  (forall p, output_place o p -> env_stat_fail (dir p) = false /\
     forall a, In a (lineage (dir p)) -> env_mkdir_fail a = false /\ forall b, get a (w_fs w) <> Some (NFile b)) /\
  (forall f, output_file o l f ->
     env_create_fail f = false /\ implicit_dir (clean f) = false /\ get (clean f) (w_fs w) <> Some NDir).

(** gofmt rejects the program for the components. *)
Definition unformatted (l : lang) (pkg : string) (tree : list proto) : Prop :=
  l = Go /\ exists s, source_of Go pkg tree s /\ env_gofmt s = None.

(** No output is an input, the output of another file or a directory above the
    output of a file. *)
Definition separate_outputs (f : flags) (l : lang) (schemas : string -> Prop) : Prop :=
  forall a b n, schemas a -> schemas b -> output_file (tool_options f a) l n ->
    clean n <> clean b /\
    (forall m, output_file (tool_options f b) l m -> clean n = clean m -> a = b) /\
    (forall p, output_place (tool_options f b) p -> ~ In (clean n) (lineage (dir p))).

End Whole.
