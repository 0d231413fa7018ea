(** Property theorems: C26 for paths with "..". *)

From Coq Require Import String Ascii List NArith Bool.
From Verif Require Import GoStr GoPath Base Utils World Handlers Parser SpecStr SpecParse SpecGen SpecOut SpecFile SpecInside PathProofs FileProofs InsideProofs Demo.
Import ListNotations.
Local Open Scope string_scope.

(** The output is inside OutputDir if the part of FilePath after InputDir, walked
    along, never leaves the place where it begins and ends below it.  (A
    generalisation of C26_output_inside_partial.)  Missing: relative parts that
    leave the directory, of which C26_return_example comes back. *)
Theorem C26_walk_partial : forall (E : Env) o rel l f n, o_output o <> "" -> relative (o_input o) (o_file o) rel ->
  walk 0 (split_on "/" rel) = Some (S n) -> output_file o l f -> inside (o_output o) (clean f).
Proof. exact @walk_inside. Qed.
Print Assumptions C26_walk_partial.

Example C26_walk_example :
  let o := mkO "in/a/../b/./e.xsd" "in" "out/x" false "Go" "" p_init in
  relative (o_input o) (o_file o) "/a/../b/./e.xsd" /\ walk 0 (split_on "/" "/a/../b/./e.xsd") = Some 2 /\
  output_file o Go "out/x/b/e.xsd.go".
Proof.
  split; [now left|]. split; [reflexivity|]. apply output_file_spec. vm_compute. reflexivity.
Qed.

(** If it ends where it begins, the output is outside, next to OutputDir; but not
    for the current directory and the root directory. *)
Theorem C26_end_refuted : forall o rel l f, o_output o <> "" -> clean (o_output o) <> "." -> clean (o_output o) <> "/" ->
  relative (o_input o) (o_file o) rel -> walk 0 (split_on "/" rel) = Some 0 -> output_file o l f -> ~ inside (o_output o) (clean f).
Proof. exact walk_end. Qed.
Print Assumptions C26_end_refuted.

Example C26_end_example :
  let o := mkO "in/a/.." "in" "out/x" false "Go" "" p_init in
  let o' := mkO "in/a/.." "in" "." false "Go" "" p_init in
  walk 0 (split_on "/" "/a/..") = Some 0 /\ output_file o Go "out/x.go" /\ output_file o' Go "..go" /\ inside "." (clean "..go").
Proof.
  split; [reflexivity|]. split; [apply output_file_spec; vm_compute; reflexivity|]. split; [apply output_file_spec; vm_compute; reflexivity|].
  exists "..go". split; [discriminate|]. split; [reflexivity|]. split; [|reflexivity]. intros x [<-|[]]. split; discriminate.
Qed.

(** A path that leaves OutputDir may come back, since the directory above has it
    under the same name. *)
Example C26_return_example :
  let o := mkO "in/../x/e.xsd" "in" "out/x" false "Go" "" p_init in
  walk 0 (split_on "/" "/../x/e.xsd") = None /\ output_file o Go "out/x/e.xsd.go" /\ inside "out/x" (clean "out/x/e.xsd.go").
Proof.
  split; [reflexivity|]. split; [apply output_file_spec; vm_compute; reflexivity|].
  exists "e.xsd.go". split; [discriminate|]. split; [reflexivity|]. split; [|reflexivity]. intros x [<-|[]]. split; discriminate.
Qed.
