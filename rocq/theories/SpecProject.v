(** Schemas that import and include other schemas: the components a whole
    project of schema files declares, by equations between the files.  Model
    functions are not used. *)

From Coq Require Import String Ascii List NArith Bool.
From Verif Require Import GoStr GoPath Base World Handlers Parser Cli SpecStr SpecDoc SpecTables SpecGen SpecOut SpecFile SpecParse SpecCli SpecDecl SpecWhole.
Import ListNotations.
Local Open Scope string_scope.

Local Infix "+++" := app (at level 60, right associativity).

(** * Schemas with links to other schemas *)

Inductive link : Type := Import (l : list xattr) | Include (l : list xattr).

Record schema : Type := mkSchema {
  s_tag : list xattr;            (* of the <schema> tag *)
  s_links : list link;
  s_decls : list component
}.

Definition link_tokens (k : link) : list token :=
  match k with
  | Import l => [TStart "import" l; TEnd "import"]
  | Include l => [TStart "include" l; TEnd "include"]
  end.

Definition document (s : schema) : list token :=
  TStart "schema" (s_tag s) :: flat_map link_tokens (s_links s) +++ flat_map component_tokens (s_decls s) +++ [TEnd "schema"].

(** The namespace and the location of an <import>; the namespace comes first. *)
Definition import_of (l : list xattr) (n x : string) : Prop :=
  exists l1 l2 l3 sp sp', l = (l1 +++ mkAttr sp "namespace" n :: l2 +++ mkAttr sp' "schemaLocation" x :: l3) /\
    forall k, In k ["namespace"; "schemaLocation"] -> lacks k l1 /\ lacks k l2 /\ lacks k l3.

(** The XML attribute [x] has the name [v] for a type, an element, ... *)
Definition names_in (x : xattr) (v : string) : Prop :=
  In (a_local x) ["type"; "ref"; "name"; "base"; "itemType"] /\ v = a_value x \/
  a_local x = "memberTypes" /\ In v (split_on " " (a_value x)).

(** The name occurs in the components of the schema. *)
Definition mentions (s : schema) (v : string) : Prop :=
  exists local l x, In (TStart local l) (flat_map component_tokens (s_decls s)) /\ In x l /\ names_in x v.

(** * Projects: schema files in one directory *)

Record project : Type := mkProject {
  pr_dir : string;
  pr_root : string;                       (* the file that is parsed *)
  pr_schema : string -> option schema;    (* the files *)
  pr_ns : string -> string;               (* the namespace of a prefix, "" for none *)
  pr_loc : string -> option string;       (* the location of a namespace *)
  pr_rank : string -> nat                 (* an order of the files *)
}.

Definition at_location (P : project) (x : string) : string := join2 (pr_dir P) x.

(** The name [v] belongs to the file [g]. *)
Definition belongs (P : project) (v g : string) : Prop :=
  exists x, pr_loc P (pr_ns P (prefix_part v)) = Some x /\ g = at_location P x.
Definition nowhere (P : project) (v : string) : Prop := pr_loc P (pr_ns P (prefix_part v)) = None.

(** The schemas that the root includes. *)
Definition included (P : project) (x : string) : Prop :=
  exists s l, pr_schema P (pr_root P) = Some s /\ In (Include l) (s_links s) /\ In x (values "schemaLocation" l).

Definition include_locations (s : schema) : list string :=
  flat_map (fun k => match k with Include l => values "schemaLocation" l | _ => [] end) (s_links s).

(** The root and the files with a namespace. *)
Definition separate_file (P : project) (file : string) : Prop :=
  file = pr_root P \/ exists n x, pr_loc P n = Some x /\ file = at_location P x.

(** There are references from the root to [file] that do not pass [g]. *)
Inductive bypasses (P : project) (g : string) : string -> Prop :=
| bypass_root : pr_root P <> g -> bypasses P g (pr_root P)
| bypass_next file s v h : bypasses P g file -> pr_schema P file = Some s -> mentions s v -> belongs P v h -> h <> g -> bypasses P g h.

(** All references from the root to [file] pass [g]: when [file] is parsed, [g]
    is still being parsed. *)
Definition within (P : project) (g file : string) : Prop := ~ bypasses P g file.

(** All files use the prefixes, and give the locations of namespaces, in the
    same way. *)
Record coherent {E : Env} (P : project) : Prop := {
  co_root : pr_schema P (pr_root P) <> None;
  co_dir : forall file s, pr_schema P file = Some s -> dir file = pr_dir P;
  co_plain : pr_ns P "" = "";
  co_prefixes : forall file s x, pr_schema P file = Some s -> In x (s_tag s) -> a_space x = "xmlns" ->
    a_value x = pr_ns P (a_local x);
  co_imports : forall file s l, pr_schema P file = Some s -> In (Import l) (s_links s) ->
    lacks "schemaLocation" l \/ exists n x, import_of l n x /\ (pr_loc P n = Some x \/ is_url x);
  co_locations : forall n x, pr_loc P n = Some x ->
    n <> "" /\ ~ is_url x /\ pr_schema P (at_location P x) <> None;
  co_namespace : forall n m x y, pr_loc P n = Some x -> pr_loc P m = Some y -> at_location P x = at_location P y -> n = m;
  co_includes : forall file s l x, pr_schema P file = Some s -> In (Include l) (s_links s) ->
    In x (values "schemaLocation" l) -> included P x /\ pr_schema P (at_location P x) <> None;
  (** prefixes are declared, and other files imported, where they are used;
      references go down, or back to a file that all references come through *)
  co_known : forall file s v g, separate_file P file -> pr_schema P file = Some s -> mentions s v -> belongs P v g ->
    (exists x, In x (s_tag s) /\ a_space x = "xmlns" /\ a_local x = prefix_part v) /\
    (g = file /\ file <> pr_root P \/
     (pr_rank P g < pr_rank P file \/ pr_rank P file <= pr_rank P g /\ within P g file) /\
     exists l x, In (Import l) (s_links s) /\ import_of l (pr_ns P (prefix_part v)) x /\ pr_loc P (pr_ns P (prefix_part v)) = Some x)
}.

(** * What they declare *)

(** What the components [tree] say about a name. *)
Definition says (n : string) (tree : list proto) (b : string) : Prop :=
  first_gives n tree b \/ none_gives n tree /\ b = n.
(** ... something new. *)
Definition settles (n b : string) : Prop := b <> n /\ b <> "".

(** What the name [v] stands for in [file] when the components [tree] have been
    declared before.  [full g] are the components of the file [g]; [ext g] are
    its components as far as they can be known from [g] alone.  Of a file that is
    still being parsed, only the latter are known. *)
Inductive stands_for (lang : string) (P : project) (ext full : string -> list proto) (file v : string) (tree : list proto)
  : string -> Prop :=
| st_builtin t :
    representation lang (local_part v) = Some t -> stands_for lang P ext full file v tree t
| st_here b :
    representation lang (local_part v) = None -> says (local_part v) tree b -> settles (local_part v) b ->
    stands_for lang P ext full file v tree b
| st_there c g b :
    representation lang (local_part v) = None -> says (local_part v) tree c -> ~ settles (local_part v) c ->
    belongs P v g -> pr_rank P g < pr_rank P file -> says (local_part v) (full g) b -> settles (local_part v) b ->
    stands_for lang P ext full file v tree b
| st_alone c g b :
    representation lang (local_part v) = None -> says (local_part v) tree c -> ~ settles (local_part v) c ->
    belongs P v g -> (pr_rank P file <= pr_rank P g \/ exists c', says (local_part v) (full g) c' /\ ~ settles (local_part v) c') ->
    says (local_part v) (ext g) b ->
    stands_for lang P ext full file v tree b
| st_included c x b :
    representation lang (local_part v) = None -> says (local_part v) tree c -> ~ settles (local_part v) c ->
    nowhere P v -> included P x -> first_gives (local_part v) (ext (at_location P x)) b -> b <> "" ->
    stands_for lang P ext full file v tree b
| st_unknown c :
    representation lang (local_part v) = None -> says (local_part v) tree c -> ~ settles (local_part v) c ->
    nowhere P v -> (forall x b, included P x -> first_gives (local_part v) (ext (at_location P x)) b -> b = "") ->
    stands_for lang P ext full file v tree (local_part v).

Record declares (lang : string) (P : project) (ext full : string -> list proto) : Prop := {
  de_ext : forall file s, pr_schema P file = Some s -> exists res many, resolution true lang res /\ counts many /\
    schema_in res many (s_decls s) [] = Some (ext file);
  de_full : forall file s, separate_file P file -> pr_schema P file = Some s -> exists res many,
    (forall v tree, stands_for lang P ext full file v tree (res v tree)) /\ counts many /\
    schema_in res many (s_decls s) [] = Some (full file);
  (** included schemas do not contradict each other *)
  de_agree : forall n x y b c, included P x -> included P y ->
    first_gives n (ext (at_location P x)) b -> first_gives n (ext (at_location P y)) c -> b = c
}.

(** The file [g] is looked into for the name [v]. *)
Definition consulted (lang : string) (P : project) (file v : string) (tree : list proto) (g : string) : Prop :=
  representation lang (local_part v) = None /\ (exists c, says (local_part v) tree c /\ ~ settles (local_part v) c) /\ belongs P v g /\ g <> file.

(** The components of [file] depend on what a name of the file [g] stands for. *)
Definition requires (lang : string) (P : project) (ext full : string -> list proto) (file g : string) : Prop :=
  exists s res res' many v tree other, pr_schema P file = Some s /\ consulted lang P file v tree g /\
    (forall v tree, stands_for lang P ext full file v tree (res v tree)) /\ counts many /\
    schema_in res many (s_decls s) [] = Some (full file) /\
    (forall v' tree', v' <> v \/ tree' <> tree -> res' v' tree' = res v' tree') /\
    schema_in res' many (s_decls s) [] = Some other /\ other <> full file.

Inductive needed (lang : string) (P : project) (ext full : string -> list proto) : string -> Prop :=
| needed_root : needed lang P ext full (pr_root P)
| needed_import file g : needed lang P ext full file -> requires lang P ext full file g -> needed lang P ext full g.

(** * On disk *)

Section Disk.
Context {E : Env}.

Definition project_files (P : project) (w : World) : Prop :=
  stat (join2 (pr_dir P) "") w = SDir /\
  forall file s, pr_schema P file = Some s -> exists bytes, stat file w = SFile bytes /\ env_open_fail file = false /\
    written_as (document s) (env_tokens bytes) /\ named_tags (env_tokens bytes).

(** The options for a file: those given for the root. *)
Definition options_for (o : Options) (P : project) (file : string) : Options :=
  if string_dec file (pr_root P) then o else for_schema o file.

(** No output is a schema, the output of another file or a directory above the
    output of a file. *)
Definition project_outputs (o : Options) (l : lang) (P : project) : Prop :=
  forall a b n, separate_file P a -> output_file (options_for o P a) l n ->
    (pr_schema P b <> None -> clean n <> clean b) /\
    (separate_file P b ->
       (forall m, output_file (options_for o P b) l m -> clean n = clean m -> a = b) /\
       (forall p, output_place (options_for o P b) p -> ~ In (clean n) (lineage (dir p)))).

(** The output of a file is there. *)
Definition output_present (o : Options) (l : lang) (P : project) (file : string) (tree : list proto) (w : World) : Prop :=
  exists f text, output_file (options_for o P file) l f /\
    file_text l (o_package (options_for o P file)) tree text true /\ get (clean f) (w_fs w) = Some (NFile (env_write f text)).

(** The same for the runs of the tool on the roots: no output is a schema of a
    project, a directory above an output, or the output of another file.  Files
    that several projects import have one output. *)
Definition run_outputs (f : flags) (l : lang) (roots : string -> Prop) (P : string -> project) : Prop :=
  forall x y a b n, roots x -> roots y -> separate_file (P x) a -> output_file (options_for (tool_options f x) (P x) a) l n ->
    (pr_schema (P y) b <> None -> clean n <> clean b) /\
    (separate_file (P y) b ->
       (forall m, output_file (options_for (tool_options f y) (P y) b) l m -> clean n = clean m -> a = b /\ (a = x <-> b = y)) /\
       (forall p, output_place (options_for (tool_options f y) (P y) b) p -> ~ In (clean n) (lineage (dir p)))).

(** [x] is the root of a coherent project that a parse within the budgets can
    finish. *)
Definition root_of (d fuel : nat) (lang : string) (P : project) (ext full : string -> list proto) (x : string) : Prop :=
  pr_root P = x /\ coherent P /\ declares lang P ext full /\
  exists s, pr_schema P x = Some s /\ length (include_locations s) < fuel /\ S (pr_rank P x) < d.

End Disk.
