(** Specification vocabulary for the command line tool. *)

From Coq Require Import String Ascii List NArith Bool.
From Verif Require Import GoStr GoPath Base World Handlers Parser Cli SpecTables SpecOut SpecFile SpecParse.
Import ListNotations.
Local Open Scope string_scope.

(** Paths are unique and clean, and all ancestors of a path are directories. *)
Definition tree_shaped {E : Env} (fs : smap node) : Prop :=
  NoDup (keys fs) /\
  forall k, In k (keys fs) -> clean k = k /\ implicit_dir k = false /\
    forall a, In a (lineage k) -> a <> k -> lookup fs a = SDir.

(** A directory comes before what is in it; entries are ordered by name. *)
Inductive parts_before : list string -> list string -> Prop :=
| pb_parent x b : parts_before [] (x :: b)
| pb_name x y a b : byte_lt x y -> parts_before (x :: a) (y :: b)
| pb_deeper x a b : parts_before a b -> parts_before (x :: a) (x :: b).
Definition path_before (a b : string) : Prop := parts_before (split_on "/" a) (split_on "/" b).

(** The directory and everything below it can be examined and read. *)
Definition readable {E : Env} (d : string) : Prop :=
  forall p, p = d \/ inside d p -> env_stat_fail p = false /\ env_open_fail p = false.

(** * Processing a list of files *)

(** Options that the tool makes for a file. *)
Definition tool_options (f : flags) (file : string) : Options :=
  mkO file (fl_i f) (fl_o f) false (fl_l f) (if string_dec (fl_p f) "" then "schema" else fl_p f) p_init.

(** World with empty maps for the next file. *)
Definition with_new_maps (w : World) : World :=
  mkW (w_fs w) [] [] [] [] [] (w_tick w) (w_count w).

(** All files of the list are parsed without error, one after the other. *)
Inductive all_parsed {E : Env} (d fuel : nat) (f : flags) : list string -> World -> World -> Prop :=
| ap_nil w : all_parsed d fuel f [] w w
| ap_cons file files w p w1 w2 : parse d fuel (tool_options f file) (with_new_maps w) = Ret p w1 ->
    all_parsed d fuel f files w1 w2 -> all_parsed d fuel f (file :: files) w w2.

(** The files before [file] are parsed without error, and parsing [file] ends as
    in [bad]; the files after it are not looked at. *)
Definition stopped_at {E : Env} (d fuel : nat) (f : flags) (files : list string) (w : World)
    (bad : out PState -> Prop) : Prop :=
  exists before file after w1, files = (before ++ file :: after)%list /\ all_parsed d fuel f before w w1 /\
    bad (parse d fuel (tool_options f file) (with_new_maps w1)).

(** [c] is the output, or a directory above the output, of a file of the list
    or of a schema file that it refers to. *)
Definition tool_output {E : Env} (f : flags) (files : list string) (c : string) : Prop :=
  exists o file, In file files /\ (o = tool_options f file \/ exists g, o = for_schema (tool_options f file) g) /\
    ((exists p, output_place o p /\ In c (lineage (dir p))) \/
     exists l name, selects (o_lang o) l /\ output_file o l name /\ c = clean name).

(** * Arguments *)

(** Ways to write flags down. *)
Inductive written_flag : (flags -> flags) -> list string -> Prop :=
| wf_i v : written_flag (fun f => mkFlags v (fl_o f) (fl_p f) (fl_l f) (fl_v f) (fl_h f)) ["-i"; v]
| wf_o v : written_flag (fun f => mkFlags (fl_i f) v (fl_p f) (fl_l f) (fl_v f) (fl_h f)) ["-o"; v]
| wf_p v : written_flag (fun f => mkFlags (fl_i f) (fl_o f) v (fl_l f) (fl_v f) (fl_h f)) ["-p"; v]
| wf_l v : written_flag (fun f => mkFlags (fl_i f) (fl_o f) (fl_p f) v (fl_v f) (fl_h f)) ["-l"; v]
| wf_v : written_flag (fun f => mkFlags (fl_i f) (fl_o f) (fl_p f) (fl_l f) true (fl_h f)) ["-v"]
| wf_h : written_flag (fun f => mkFlags (fl_i f) (fl_o f) (fl_p f) (fl_l f) (fl_v f) true) ["-h"]
| wf_ie v : written_flag (fun f => mkFlags v (fl_o f) (fl_p f) (fl_l f) (fl_v f) (fl_h f)) ["-i=" ++ v]
| wf_oe v : written_flag (fun f => mkFlags (fl_i f) v (fl_p f) (fl_l f) (fl_v f) (fl_h f)) ["-o=" ++ v]
| wf_pe v : written_flag (fun f => mkFlags (fl_i f) (fl_o f) v (fl_l f) (fl_v f) (fl_h f)) ["-p=" ++ v]
| wf_le v : written_flag (fun f => mkFlags (fl_i f) (fl_o f) (fl_p f) v (fl_v f) (fl_h f)) ["-l=" ++ v]
| wf_double s t r : written_flag s (("-" ++ t) :: r) -> has_prefix t "-" = false -> written_flag s (("--" ++ t) :: r).

Inductive written_flags : (flags -> flags) -> list string -> Prop :=
| wfs_nil : written_flags (fun f => f) []
| wfs_cons s ss a args : written_flag s a -> written_flags ss args ->
    written_flags (fun f => ss (s f)) (a ++ args)%list.
