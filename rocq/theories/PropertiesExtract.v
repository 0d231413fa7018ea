(** Property theorems about reading a document for its types only: C75. *)

From Coq Require Import String Ascii List Arith NArith ZArith Bool Lia.
From Verif Require Import GoStr GoPath Base Utils World Handlers Parser SpecStr SpecDoc SpecTables SpecParse SpecLang SpecExtract ParserProofs ParseFacts LangParse ExtractLocal Demo.
Import ListNotations.
Local Open Scope string_scope.

(** C75.  A document without imports and includes in which no component has an
    empty type: reading it for its types only ([types]), in any other world with
    the same file, finds the components that parsing it ([full]) finds, and
    refuses what parsing refuses.  Parsing can also fail to write its output. *)
Theorem C75_same_partial : forall (E : Env) d fuel d' fuel' o w w' bytes, o_extract o = false -> fuel <> 0 ->
  stat (o_file o) w = SFile bytes -> stat (o_file o) w' = SFile bytes -> env_open_fail (o_file o) = false ->
  self_contained (env_tokens bytes) -> typed_throughout o (env_tokens bytes) ->
  w_nsl w = [] -> w_inc w = [] -> stat (join2 (dir (o_file o)) "") w = SDir ->
  let full := parse (S d) fuel o w in let types := parse (S d') fuel' (extracting o) w' in
  (forall q v, full = Ret q v -> exists v', types = Ret q v') /\
  (forall q v', types = Ret q v' -> get (o_file o) (w_pmap (out_world full)) = Some (freeze q)) /\
  (forall x, (exists v, full = Fail (EAtoi x) v) <-> exists v', types = Fail (EAtoi x) v') /\
  ((exists v, full = Crash Panic v) <-> exists v', types = Crash Panic v').
Proof. exact @extract_exact. Qed.
Print Assumptions C75_same_partial.

(** References to earlier and to later types, an inner simple type, a union and
    a list. *)
Definition extract_docs : smap (list token) :=
  [("D", d_schema [] (d_simple "T" "integer" ++ d_element "x" "T" ++ d_element "y" "Later" ++
     [TStart "complexType" [att "name" "C"]; TStart "sequence" []; TStart "element" [att "ref" "x"]; TEnd "element";
      TStart "element" [att "name" "z"; att "type" "T"; att "maxOccurs" "unbounded"]; TEnd "element"; TEnd "sequence";
      TStart "attribute" [att "name" "a"; att "type" "T"]; TEnd "attribute"; TEnd "complexType";
      TStart "simpleType" [att "name" "U"]; TStart "union" [att "memberTypes" "T Later string"]; TEnd "union"; TEnd "simpleType";
      TStart "simpleType" [att "name" "L"]; TStart "list" [att "itemType" "T"]; TEnd "list"; TEnd "simpleType"] ++
     d_simple "Later" "T")%list)].

Example C75_example : let E := demo extract_docs first_choice in let o := demo_opts "d.xsd" "Go" false in
  let w := demo_world [("d.xsd", "D")] in let w' := set_inc ["gone.xsd"] (demo_world [("d.xsd", "D")]) in
  typed_throughout o (env_tokens "D") /\ self_contained (env_tokens "D") /\
  exists q v v', parse 2 2 o w = Ret q v /\ parse 1 0 (extracting o) w' = Ret q v' /\ length (freeze q) = 7 /\
    get_base "Later" (freeze q) = "int" /\ w_fs v <> w_fs w /\ w_fs v' = w_fs w'.
Proof.
  intros E o w w'. split; [apply (typed_check o _ w); vm_compute; reflexivity|]. split.
  - intros local l H. cbn in H. repeat (destruct H as [H|H]; [first [discriminate|injection H as <- <-; vm_compute; split; reflexivity]|]). destruct H.
  - do 3 eexists. split; [vm_compute; reflexivity|]. split; [vm_compute; reflexivity|]. split; [vm_compute; reflexivity|].
    split; [vm_compute; reflexivity|]. split; [vm_compute; discriminate|vm_compute; reflexivity].
Qed.

(** An attribute without a type that is referred to: parsing takes its name for
    its type. *)
Definition untyped_docs : smap (list token) :=
  [("D", d_schema [] [TStart "attribute" [att "name" "a"]; TEnd "attribute";
      TStart "complexType" [att "name" "C"]; TStart "attribute" [att "ref" "a"]; TEnd "attribute"; TEnd "complexType"])].

Theorem C75_untyped_refuted : exists (E : Env) o w q v q' v', self_contained (env_tokens "D") /\ stat (o_file o) w = SFile "D" /\
  parse 2 2 o w = Ret q v /\ parse 2 2 (extracting o) w = Ret q' v' /\ freeze q <> freeze q'.
Proof.
  exists (demo untyped_docs first_choice), (demo_opts "d.xsd" "Go" false), (demo_world [("d.xsd", "D")]). do 4 eexists. split.
  - intros local l H. cbn in H. repeat (destruct H as [H|H]; [first [discriminate|injection H as <- <-; vm_compute; split; reflexivity]|]). destruct H.
  - split; [reflexivity|]. split; [vm_compute; reflexivity|]. split; [vm_compute; reflexivity|vm_compute; discriminate].
Qed.
Print Assumptions C75_untyped_refuted.

(** Types of included schemas are only found by parsing. *)
Definition extract_include_docs : smap (list token) :=
  [("D", d_schema [] (d_include "k.xsd" ++ d_element "x" "T")); ("K", d_schema [] (d_simple "T" "integer"))].

Theorem C75_include_refuted : exists (E : Env) o w q v q' v', stat (o_file o) w = SFile "D" /\ typed_throughout o (env_tokens "D") /\
  parse 3 3 o w = Ret q v /\ parse 3 3 (extracting o) w = Ret q' v' /\
  freeze q = [PElement (mkElement "" "x" "int" false false)] /\ freeze q' = [PElement (mkElement "" "x" "T" false false)].
Proof.
  exists (demo extract_include_docs first_choice), (demo_opts "d.xsd" "Go" false), (demo_world [("d.xsd", "D"); ("k.xsd", "K")]). do 4 eexists.
  split; [reflexivity|]. split; [apply (typed_check _ _ (demo_world [])); vm_compute; reflexivity|].
  split; [vm_compute; reflexivity|]. split; [vm_compute; reflexivity|split; vm_compute; reflexivity].
Qed.
Print Assumptions C75_include_refuted.
