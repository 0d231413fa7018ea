(** Property theorems about references to schema files that do not exist: C24. *)

From Coq Require Import String Ascii List Arith NArith ZArith Bool.
From Verif Require Import GoStr GoPath Base Utils World Handlers Parser SpecStr SpecDoc SpecTables SpecParse SpecMissing ParserProofs ParseFacts MissingUnion Demo.
Import ListNotations.
Local Open Scope string_scope.

(** C24.  A member of a union behind others: if they are resolved, reaching
    [w2], and the schema file of the member [v] does not exist, Parse fails. *)
Theorem C24_member_partial : forall (E : Env) d fuel o w bytes before local l1 sp l2 ms v rest after q w1 w2 file,
  o_extract o = false -> stat (o_file o) w = SFile bytes -> env_open_fail (o_file o) = false ->
  env_tokens bytes = (before ++ TStart local (l1 ++ mkAttr sp "memberTypes" (String.concat " " (ms ++ v :: rest)) :: l2) :: after)%list ->
  tag "Union" local = true -> in_place before local -> lacks "memberTypes" l1 -> Forall (fun x => ~ exists a b, x = a ++ " " ++ b) (ms ++ v :: rest)%list ->
  run_tokens (get_value_type (parse d fuel) fuel o) before p_init (register o (freeze (o_ps o)) w) = Ret q w1 ->
  references_resolved d fuel o (freeze q) ms w1 w2 -> missing_reference o v (freeze q) w2 file ->
  parse (S d) fuel o w = Fail (EStat file) w2.
Proof. exact @missing_member. Qed.
Print Assumptions C24_member_partial.

(** The first two members are a built-in type and a type of an imported schema
    that exists, so it is parsed and gets its output file; the third is missing. *)
Definition member_docs : smap (list token) :=
  [("M", d_schema [xmlns "a" "urn:a"; xmlns "b" "urn:b"] (d_import "urn:a" "a.xsd" ++ d_import "urn:b" "b.xsd" ++
      [TStart "simpleType" [att "name" "u"]; TStart "union" [att "memberTypes" "xs:int a:T b:T xs:string"]; TEnd "union"; TEnd "simpleType"])%list);
   ("A", d_schema [] (d_simple "T" "xs:int"))].

Example C24_member_example : let E := demo member_docs first_choice in
  let o := demo_opts "m.xsd" "Go" false in let w := demo_world [("m.xsd", "M"); ("a.xsd", "A")] in
  let before := firstn 6 (env_tokens "M") in
  env_tokens "M" = (before ++ TStart "union" [att "memberTypes" (String.concat " " (["xs:int"; "a:T"] ++ "b:T" :: ["xs:string"]))] :: [TEnd "union"; TEnd "simpleType"; TEnd "schema"])%list /\
  exists q w1 w2, run_tokens (get_value_type (parse 3 3) 3 o) before p_init (register o (freeze (o_ps o)) w) = Ret q w1 /\
    references_resolved 3 3 o (freeze q) ["xs:int"; "a:T"] w1 w2 /\ get "in/a.xsd" (w_pmap w1) = None /\ get "in/a.xsd" (w_pmap w2) <> None /\
    parse 4 3 o w = Fail (EStat "in/b.xsd") w2.
Proof.
  intros E o w before. split; [vm_compute; reflexivity|]. do 3 eexists. split; [vm_compute; reflexivity|]. split.
  - econstructor; [vm_compute; reflexivity|]. econstructor; [vm_compute; reflexivity|]. constructor.
  - split; [vm_compute; reflexivity|]. split; [vm_compute; discriminate|vm_compute; reflexivity].
Qed.
