(** Property theorems C04, C06, C07, C08, C09, C44, C45, C46. *)

From Coq Require Import String Ascii List NArith ZArith Bool Lia Sorting.Permutation Sorting.Sorted.
From Verif Require Import GoStr GoPath Base Utils GenGo World Handlers Parser Stack SpecStr SpecTables
  TableProofs Fixture Demo.
Import ListNotations.
Local Open Scope string_scope.

(** C04 *)
Theorem C04_stack_is_lifo : forall (A : Type) (os : list (op A)), run new_stack os = lifo [] os.
Proof. exact @stack_lifo. Qed.
Print Assumptions C04_stack_is_lifo.

Example C04_example : run new_stack [Pop; Push 1; Push 2; Peek; Len; Pop; Pop; Empty; Pop] =
  [RValue None; RNone; RNone; RValue (Some 2); RLen 2; RValue (Some 2); RValue (Some 1); RBool true; RValue None].
Proof. vm_compute. reflexivity. Qed.

(** C06 *)
Theorem C06_builtin_resolves : forall (E : Env) name lang, In name xsd_builtin -> In lang languages ->
  exists t : string, t <> "" /\
    forall rec fuel o value tree w, o_lang o = lang ->
      (value = name \/ exists pre, free_of ":" pre /\ value = pre ++ ":" ++ name) ->
      get_value_type rec fuel o value tree w = Ret t w.
Proof. exact @builtin_resolves. Qed.
Print Assumptions C06_builtin_resolves.

(** Which type exactly: by kind of value, see SpecTables.v. *)
Theorem C06_representation : forall (E : Env) rec fuel o value tree w,
  match representation (o_lang o) (local_part value) with
  | Some t => get_value_type rec fuel o value tree w = Ret t w
  | None => forall lang, get_build_in_type (local_part value) lang = None
  end.
Proof.
  intros E rec fuel o value tree w. pose proof (representation_eq (local_part value) (o_lang o)) as H.
  destruct (representation (o_lang o) (local_part value)) as [t|] eqn:Ht; [now apply (gvt_builtin rec fuel o value (local_part value))|].
  intros lang. rewrite representation_eq. unfold representation in *. now destruct (kind_of (local_part value)).
Qed.
Print Assumptions C06_representation.

(** anySimpleType is an XSD built-in too, but the table has no row for it. *)
Theorem C06_any_simple_type_refuted : forall lang, get_build_in_type "anySimpleType" lang = None.
Proof. exact any_simple_type_missing. Qed.
Print Assumptions C06_any_simple_type_refuted.

Example C06_example : In "unsignedByte" xsd_builtin /\ In "Rust" languages /\
  get_build_in_type "unsignedByte" "Rust" = Some "u8" /\ free_of ":" "xs".
Proof. repeat split; try (cbn; tauto). intros a b. destruct a as [|x [|y [|z a]]]; discriminate. Qed.

(** C07 *)
Theorem C07_builtin_verbatim : forall (E : Env) name lang, In name xsd_builtin -> In lang languages ->
  forall rec fuel o tree w, o_lang o = lang ->
  exists t, get_value_type rec fuel o name tree w = Ret t w /\ render lang t = t.
Proof. exact @builtin_verbatim. Qed.
Print Assumptions C07_builtin_verbatim.

(** The generators resolve every member type once more against the tree, so a
    component that is called like a target type captures it. *)
Theorem C07_captured_refuted : forall E : Env,
  go_member_type [PElement (mkElement "" "string" "Color" false false)] "string" = "*Color".
Proof. exact @builtin_captured. Qed.
Print Assumptions C07_captured_refuted.

Example C07_example : @render fixture_env "Java" "List<Byte>" = "List<Byte>" /\
  @render fixture_env "Go" "foo" = "*Foo".
Proof. vm_compute. split; reflexivity. Qed.

(** C08 *)
Theorem C08_go_fits : forall x r, xsd_range x = Some r ->
  exists t, get_build_in_type x "Go" = Some t /\ fits "Go" x t.
Proof. exact go_fits. Qed.
Print Assumptions C08_go_fits.

Theorem C08_rust_fits_partial : forall x r, xsd_range x = Some r -> x <> "byte" ->
  exists t, get_build_in_type x "Rust" = Some t /\ fits "Rust" x t.
Proof. exact rust_fits. Qed.
Print Assumptions C08_rust_fits_partial.

Theorem C08_rust_byte_refuted : get_build_in_type "byte" "Rust" = Some "u8" /\ ~ fits "Rust" "byte" "u8".
Proof. exact rust_byte_unfit. Qed.
Print Assumptions C08_rust_byte_refuted.

Theorem C08_java_signed_fits : forall x, In x ["byte"; "short"; "int"; "long"] ->
  exists t, get_build_in_type x "Java" = Some t /\ fits "Java" x t.
Proof. exact java_fits. Qed.
Print Assumptions C08_java_signed_fits.

Theorem C08_java_unsigned_refuted : forall x, In x ["unsignedByte"; "unsignedShort"; "unsignedInt"; "unsignedLong"] ->
  exists t, get_build_in_type x "Java" = Some t /\ ~ fits "Java" x t.
Proof. exact java_unfit. Qed.
Print Assumptions C08_java_unsigned_refuted.

Theorem C08_c_long_refuted : get_build_in_type "long" "C" = Some "int" /\ ~ fits "C" "long" "int".
Proof. exact c_long_unfit. Qed.
Print Assumptions C08_c_long_refuted.

(** Exactly: for every language the types that fit. *)
Theorem C08_exact_partial : forall lang x r, In lang languages -> xsd_range x = Some r ->
  exists t, get_build_in_type x lang = Some t /\ (fits lang x t <-> ~ In (lang, x) misfits).
Proof. exact fits_exactly. Qed.
Print Assumptions C08_exact_partial.

Example C08_exact_example : fits "C" "unsignedShort" "unsigned int" /\ ~ fits "TypeScript" "unsignedLong" "number" /\
  fits "TypeScript" "unsignedInt" "number" /\ get_build_in_type "unsignedLong" "TypeScript" = Some "number".
Proof.
  split; [fit|]. split; [|split; [fit|reflexivity]]. intros [lo [hi [lo' [hi' [H1 [H2 H]]]]]].
  cbn in H1, H2. injection H1 as <- <-. injection H2 as <- <-. specialize (H (2^60)%Z). lia.
Qed.

Example C08_example : exists r, xsd_range "unsignedInt" = Some r.
Proof. eexists. reflexivity. Qed.

(** C09 *)
Theorem C09_union_order : forall (m : smap string), NoDup (keys m) ->
  Permutation m (to_sorted_pairs m) /\ StronglySorted member_before (to_sorted_pairs m) /\
  (forall order, Permutation m order -> to_sorted_pairs order = to_sorted_pairs m) /\
  (forall sorted, Permutation m sorted -> StronglySorted member_before sorted -> sorted = to_sorted_pairs m).
Proof. exact sorted_pairs_spec. Qed.
Print Assumptions C09_union_order.

Example C09_example :
  to_sorted_pairs [("a", "string"); ("c", "int"); ("b", "string"); ("d", "int")] =
  [("d", "int"); ("c", "int"); ("b", "string"); ("a", "string")] /\
  NoDup (keys [("a", "string"); ("c", "int"); ("b", "string"); ("d", "int")]).
Proof.
  split; [vm_compute; reflexivity|]. cbn.
  repeat constructor; cbn; intuition discriminate.
Qed.

(** C44 *)
Theorem C44_first_declaration : forall name tree,
  (forall t, first_gives name tree t -> get_base name tree = t) /\
  (none_gives name tree -> get_base name tree = name) /\
  (exists t, first_gives name tree t \/ (none_gives name tree /\ t = name)) /\
  (forall more, (exists t, first_gives name tree t) -> get_base name (tree ++ more)%list = get_base name tree).
Proof. exact get_base_spec. Qed.
Print Assumptions C44_first_declaration.

Example C44_example :
  get_base "a" [PNil; PComplex (mkComplex "" "a" "z" [] [] [] []); PSimple (mkSimple "" "a" "x" true false [] []);
                PElement (mkElement "" "a" "t" false false); PAttribute (mkAttribute "a" "" "u" false false)] = "t".
Proof. vm_compute. reflexivity. Qed.

(** C45: false; the prefix is cut off before the table is consulted. *)
Theorem C45_xml_attributes_refuted : forall (E : Env) rec fuel o w name,
  In name xml_attributes -> o_extract o = true ->
  exists local, name = "xml:" ++ local /\ get_value_type rec fuel o name [] w = Ret local w.
Proof. exact @xml_lang_not_string. Qed.
Print Assumptions C45_xml_attributes_refuted.

(** Nor is it a string type in an ordinary parse. *)
Theorem C45_ordinary_parse_refuted : forall (E : Env) rec fuel o w name tree,
  In name xml_attributes -> none_gives (trim_ns_prefix name) tree ->
  get "xml" (w_lns w) = None -> get "" (w_nsl w) = None -> w_inc w = [] -> stat (join2 (dir (o_file o)) "") w = SDir -> fuel <> 0 ->
  exists local, name = "xml:" ++ local /\ get_value_type rec fuel o name tree w = Ret local w.
Proof. exact @xml_lang_unlocated. Qed.
Print Assumptions C45_ordinary_parse_refuted.

Example C45_example : In "xml:lang" xml_attributes /\ get_build_in_type "xml:lang" "Go" = Some "string" /\
  trim_ns_prefix "xml:lang" = "lang".
Proof. repeat split. cbn. tauto. Qed.

(** A document whose attribute refers to xml:lang. *)
Definition lang_ref : list token :=
  [TStart "schema" []; TStart "complexType" [att "name" "T"]; TStart "attribute" [att "ref" "xml:lang"]; TEnd "attribute"; TEnd "complexType";
   TEnd "schema"].

Example C45_ordinary_example :
  let E := demo [("L", lang_ref)] first_choice in
  let w := demo_world [("l.xsd", "L")] in let o := demo_opts "l.xsd" "Go" false in
  get_value_type (E := E) (parse (E := E) 2 2) 2 o "xml:lang" [] w = Ret "lang" w /\
  see (parse (E := E) 3 3 o w) = Comps [PComplex (mkComplex "" "T" "" [] [mkAttribute "xml:lang" "" "lang" false true] [] [])].
Proof. split; vm_compute; reflexivity. Qed.

(** C46 *)
Theorem C46_text_types_partial : forall name lang, In name xsd_text -> In lang languages ->
  ~ (lang = "Rust" /\ (name = "date" \/ name = "dateTime")) -> ~ (lang = "Java" /\ name = "anyURI") ->
  get_build_in_type name lang = Some (string_type lang).
Proof. exact text_types. Qed.
Print Assumptions C46_text_types_partial.

(** Exactly. *)
Theorem C46_exact_partial : forall name lang, In name xsd_text -> In lang languages ->
  (get_build_in_type name lang = Some (string_type lang) <-> ~ In (lang, name) not_strings).
Proof. exact text_exactly. Qed.
Print Assumptions C46_exact_partial.

Theorem C46_text_types_refuted :
  get_build_in_type "date" "Rust" = Some "u8" /\ get_build_in_type "dateTime" "Rust" = Some "u8" /\
  get_build_in_type "anyURI" "Java" = Some "QName".
Proof. exact text_types_wrong. Qed.
Print Assumptions C46_text_types_refuted.

Example C46_example : In "token" xsd_text /\ In "Rust" languages.
Proof. cbn. tauto. Qed.
