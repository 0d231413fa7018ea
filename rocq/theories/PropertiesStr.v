(** Property theorems C01, C02, C03, C05, C10, C36 (strings). *)

From Coq Require Import String Ascii List NArith Bool.
From Verif Require Import GoStr Utf8 Base Utils GenRust SpecStr StrProofs Fixture.
Import ListNotations.
Local Open Scope string_scope.

(** C01 *)
Theorem C01_file_with_extension : forall file ext,
  starts_with (file_with_extension file ext) file /\
  ends_with (file_with_extension file ext) (dotted ext) /\
  (file_with_extension file ext = file <-> ends_with file (dotted ext)) /\
  file_with_extension file (dotted ext) = file_with_extension file ext /\
  file_with_extension (file_with_extension file ext) ext = file_with_extension file ext.
Proof. exact fwe_spec. Qed.
Print Assumptions C01_file_with_extension.

Example C01_example :
  file_with_extension "a/b" "go" = "a/b.go" /\ file_with_extension "a/b.go" ".go" = "a/b.go" /\
  file_with_extension "bgo" "go" = "bgo.go".
Proof. vm_compute. repeat split. Qed.

(** C02 *)
Theorem C02_to_title_runes : forall (E : Env) s,
  runes (to_title s) = match runes s with
                       | [] => []
                       | r :: t => norm_rune (rune_upper r) :: t
                       end.
Proof. exact @to_title_spec. Qed.
Print Assumptions C02_to_title_runes.

Theorem C02_to_title_bytes : forall (E : Env) c rest,
  (N_of_ascii c < 128)%N -> well_formed rest ->
  to_title (String c rest) = String (ascii_upper c) rest.
Proof. exact @to_title_bytes. Qed.
Print Assumptions C02_to_title_bytes.

Theorem C02_to_title_idempotent : forall E : Env, upper_idempotent E ->
  forall s, to_title (to_title s) = to_title s.
Proof. exact @to_title_idem. Qed.
Print Assumptions C02_to_title_idempotent.

Theorem C02_to_title_well_formed : forall (E : Env) s, well_formed (to_title s).
Proof. exact @to_title_well_formed. Qed.
Print Assumptions C02_to_title_well_formed.

Example C02_example : @to_title fixture_env "element" = "Element" /\ @to_title fixture_env "" = "" /\
  @to_title fixture_env "x-y.z" = "X-y.z" /\ upper_idempotent fixture_env /\ well_formed "lement".
Proof.
  repeat split; try (vm_compute; reflexivity).
  - intros r Hr. unfold rune_upper. cbn [env_upper fixture_env].
    destruct (N.leb 128 (norm_rune r)) eqn:H; [reflexivity|].
    pose proof (norm_rune_ge r Hr). apply N.leb_gt in H. now apply N.lt_nge in H.
  - exists (map N_of_ascii (list_ascii_of_string "lement")). split; [|vm_compute; reflexivity].
    repeat constructor.
Qed.

(** C03 *)
Theorem C03_no_capitals_no_hyphens : forall E : Env, lower_no_capital E -> forall s,
  no_capital (to_snake_case s) /\ free_of "-" (to_snake_case s).
Proof. exact @snake_clean. Qed.
Print Assumptions C03_no_capitals_no_hyphens.

Theorem C03_only_separators : forall E : Env, lower_no_capital E -> forall s, well_formed s ->
  erase "_" (to_snake_case s) = to_lower (erase "_" (erase "-" s)).
Proof. exact @snake_erase. Qed.
Print Assumptions C03_only_separators.

(** Where the separators go, exactly. *)
Theorem C03_exact : forall (E : Env) s,
  to_snake_case s = to_lower (replace_char "-" "_" (separated s)).
Proof. exact snake_exact. Qed.
Print Assumptions C03_exact.

Theorem C03_exact_ascii : forall (E : Env) s, ascii_only s ->
  to_snake_case s = map_bytes ascii_lower (replace_char "-" "_" (separated s)).
Proof. exact ascii_snake. Qed.
Print Assumptions C03_exact_ascii.

Theorem C03_idempotent : forall E : Env, lower_no_capital E -> lower_idempotent E -> forall s,
  to_snake_case (to_snake_case s) = to_snake_case s.
Proof. exact @snake_idem. Qed.
Print Assumptions C03_idempotent.

Example C03_example : @to_snake_case fixture_env "HTTPServer-nameX2Y" = "http_server_name_x2_y" /\
  lower_no_capital fixture_env /\ lower_idempotent fixture_env.
Proof.
  split; [vm_compute; reflexivity|]. split.
  - intros r Hr. cbn [env_lower fixture_env]. repeat split.
    + intros [_ H]. apply (N.le_trans _ _ _ Hr) in H. now apply H.
    + intros ->. now apply Hr.
    + intros ->. now apply Hr.
  - intros r Hr. unfold rune_lower. cbn [env_lower fixture_env].
    destruct (N.leb 128 (norm_rune r)) eqn:H; [reflexivity|].
    pose proof (norm_rune_ge r Hr). apply N.leb_gt in H. now apply N.lt_nge in H.
Qed.

(** C05 *)
Theorem C05_qualified : forall p n, free_of ":" p -> free_of ":" n ->
  get_ns_prefix (p ++ ":" ++ n) = p /\ trim_ns_prefix (p ++ ":" ++ n) = n.
Proof. exact ns_split_one. Qed.
Print Assumptions C05_qualified.

Theorem C05_other : forall s,
  (forall p n, free_of ":" p -> free_of ":" n -> s <> p ++ ":" ++ n) ->
  get_ns_prefix s = "" /\ trim_ns_prefix s = s.
Proof. exact ns_split_other. Qed.
Print Assumptions C05_other.

Example C05_example : get_ns_prefix "xs:string" = "xs" /\ trim_ns_prefix "xs:string" = "string" /\
  get_ns_prefix "a:b:c" = "" /\ trim_ns_prefix "a:b:c" = "a:b:c" /\ free_of ":" "xs".
Proof. repeat split. apply free_of_has_char. reflexivity. Qed.

(** C10: a comment consists of the end of the line before it, one line per
    documentation line (LF-separated), each starting with the prefix and
    holding the text, and the start of the next line. *)
Theorem C10_comment_lines : forall name doc prefix,
  free_of LF name -> free_of LF prefix ->
  split_on LF (gen_field_comment name doc prefix) =
  ([CR] ++ map (fun l => prefix ++ " " ++ l ++ CR)%string (comment_text name doc) ++ [""])%list.
Proof. exact comment_lines. Qed.
Print Assumptions C10_comment_lines.

Theorem C10_comment_stays : forall name doc prefix,
  free_of LF name -> free_of LF prefix ->
  exists body, split_on LF (gen_field_comment name doc prefix) = ([CR] ++ body ++ [""])%list /\
               body <> [] /\
               Forall (fun line => starts_with line prefix) body.
Proof. exact comment_stays. Qed.
Print Assumptions C10_comment_stays.

(** A carriage return in the documentation (written as a character reference)
    ends the comment for Java and TypeScript, whose lines also end at CR. *)
Theorem C10_carriage_return_refuted : exists doc line,
  In line (split_on "013" (gen_field_comment "T" doc "//")) /\ line = "int x;".
Proof. exact comment_cr_escapes. Qed.
Print Assumptions C10_carriage_return_refuted.

Example C10_example : gen_field_comment "T" ("a" ++ NL ++ "b") "//" =
  CRNL ++ "// T is a" ++ CRNL ++ "// b" ++ CRNL.
Proof. vm_compute. reflexivity. Qed.

(** C36 *)
Theorem C36_rust_field_not_reserved : forall (E : Env) name, ~ In (rust_field_name name) rust_reserved.
Proof. exact @rust_field_not_reserved. Qed.
Print Assumptions C36_rust_field_not_reserved.

Example C36_example : @rust_field_name fixture_env "type" = "type_attr" /\
  @rust_field_name fixture_env "Self" = "self_attr" /\ @rust_field_name fixture_env "fooBar" = "foo_bar".
Proof. vm_compute. repeat split. Qed.
