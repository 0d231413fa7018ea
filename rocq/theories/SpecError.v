(** Why Parse returns an error or ends the process. *)

From Coq Require Import String Ascii List NArith ZArith Bool.
From Verif Require Import GoStr GoPath Base SpecStr World Handlers Parser SpecDoc SpecTables SpecGen SpecOut SpecFile SpecParse SpecProject.
Import ListNotations.
Local Open Scope string_scope.

Section Errors.
Context {E : Env}.

(** os.Stat reports an error. *)
Definition gone (path : string) (w : World) : Prop := stat path w = SNotExist \/ stat path w = SErr.

(** os.Create reports an error. *)
Definition uncreatable (path : string) (w : World) : Prop :=
  env_create_fail path = true \/ lookup (w_fs w) path = SDir \/ lookup (w_fs w) path = SErr \/
  lookup (w_fs w) (dir path) <> SDir.

(** The token asks for the type of [v] in the state [q]: a start tag has the
    name [v], or a name for which [v] was the answer just before (an element
    without type asks for its name, "" if it has none); an end tag asks for the
    base of an open simple type. *)
Definition asks (answer : string -> list proto -> World -> out string) (q : PState) (t : token) (v : string) : Prop :=
  match t with
  | TStart local l =>
      v = "" /\ tag "Element" local = true \/
      exists x u, In x l /\ names_in x u /\ (v = u \/ exists wa wb, answer u (freeze q) wa = Ret v wb)
  | TEnd _ => exists s, In s (p_simple q) /\ v = st_base s
  | _ => False
  end.

(** The causes of errors of a parse with Options [o] that starts in the world
    [w]; [d] and [fuel] are budgets of nested parses. *)
Inductive cause (d fuel : nat) (o : Options) (w : World) : goerr -> World -> Prop :=
| ca_stat : gone (o_file o) w -> cause d fuel o w (EStat (o_file o)) w
| ca_open b : stat (o_file o) w = SFile b -> env_open_fail (o_file o) = true -> cause d fuel o w (EOpen (o_file o)) w
(** A maxOccurs of the document is no number. *)
| ca_occurs b local l v w' : stat (o_file o) w = SFile b -> In (TStart local l) (env_tokens b) ->
    tag "Element" local = true \/ tag "Choice" local = true -> In v (values "maxOccurs" l) -> ~ occurs_ok v ->
    cause d fuel o w (EAtoi v) w'
(** A reference in the document needs a schema file that is not there; [q]: the
    state reached before the token. *)
| ca_missing b before t after q w1 v file w' : stat (o_file o) w = SFile b -> o_extract o = false ->
    env_tokens b = (before ++ t :: after)%list ->
    run_tokens (get_value_type (parse d fuel) fuel o) before p_init (register o (freeze (o_ps o)) w) = Ret q w1 ->
    asks (get_value_type (parse d fuel) fuel o) q t v -> missing_reference o v (freeze q) w' file ->
    cause d fuel o w (EStat file) w'
(** The output file cannot be made. *)
| ca_create b l f w' : stat (o_file o) w = SFile b -> o_extract o = false -> selects (o_lang o) l -> output_file o l f ->
    uncreatable f w' -> cause d fuel o w (ECreate f) w'
(** gofmt rejects the program for the components; it was written nevertheless. *)
| ca_gofmt b pt f text w' : stat (o_file o) w = SFile b -> o_extract o = false -> selects (o_lang o) Go -> output_file o Go f ->
    get (o_file o) (w_pmap w') = Some pt -> file_text Go (o_package o) pt text false ->
    get (clean f) (w_fs w') = Some (NFile (env_write f text)) -> cause d fuel o w EGofmt w'.

(** Parse ends the process: a directory for its output or for the output of a
    schema that it refers to cannot be made. *)
Definition exit_cause (o : Options) : Prop :=
  o_extract o = false /\
  exists o' p c, (o' = o \/ exists file, o' = for_schema o file) /\ output_place o' p /\ In c (lineage (dir p)) /\
    env_mkdir_fail c = true.

End Errors.
