(** Property theorems C11, C12, C13, C14, C15, C21 and the one-document form of
    C20.  They hold for every type resolver [gvt], in particular for the
    resolver [get_value_type] that Parse uses. *)

From Coq Require Import String Ascii List NArith ZArith Bool Sorting.Permutation.
From Verif Require Import GoStr Base World Handlers SpecStr SpecDoc DocProofs DocProofs2 Fixture.
Import ListNotations.
Local Open Scope string_scope.

(** For the examples: a resolver that knows every type, and an empty world. *)
Definition gvt0 (v : string) (_ : list proto) (w : World) : out string := Ret v w.
Definition world0 : World := mkW [] [] [] [] [] [] 0 [].
Definition attr0 (k v : string) : xattr := mkAttr "" k v.

(** C11 *)
Theorem C11_element_occurs : forall (E : Env) gvt local l1 sp v l2 p w,
  resolves gvt -> tag "Element" local = true -> no_occurs l1 -> no_occurs l2 ->
  let r := on_token gvt (TStart local (l1 ++ mkAttr sp "maxOccurs" v :: l2)) p w in
  (~ occurs_ok v -> exists w', r = Fail (EAtoi v) w') /\
  (occurs_ok v -> exists p' w' e, r = Ret p' w' /\ p_heap p' = (p_heap p ++ [e])%list /\
    (el_plural e = true <-> occurs_many v \/ hd false (p_choice p) = true)).
Proof. exact @element_occurs. Qed.
Print Assumptions C11_element_occurs.

Theorem C11_choice_occurs : forall (E : Env) gvt local l1 sp v l2 p w,
  tag "Choice" local = true -> lacks "maxOccurs" l1 -> lacks "maxOccurs" l2 ->
  let r := on_token gvt (TStart local (l1 ++ mkAttr sp "maxOccurs" v :: l2)) p w in
  (~ occurs_ok v -> r = Fail (EAtoi v) w) /\
  (occurs_ok v -> exists b, r = Ret (set_choice (b :: p_choice p) (set_in_element local p)) w /\
    (b = true <-> occurs_many v \/ hd false (p_choice p) = true)).
Proof. exact @choice_occurs. Qed.
Print Assumptions C11_choice_occurs.

Example C11_example :
  @tag fixture_env "Element" "element" = true /\ resolves gvt0 /\
  occurs_many "2" /\ occurs_ok "1" /\ ~ occurs_many "1" /\ ~ occurs_ok "2.5" /\
  map el_plural (match on_token (E := fixture_env) gvt0
    (TStart "element" [attr0 "name" "a"; attr0 "maxOccurs" "2"; attr0 "type" "t"]) p_init world0 with
    | Ret p _ => p_heap p | _ => [] end) = [true].
Proof.
  assert (D : forall z s, int64_literal s z -> max_occurs s = Some (1 <? z)%Z \/ s = "unbounded").
  { intros z s H. unfold max_occurs. destruct (String.eqb_spec s "unbounded"); [now right|left].
    apply DocLemmas.atoi_spec in H. now rewrite H. }
  assert (L : forall d n, digit d n -> int64_literal (String d "") n).
  { intros d n H. split; [|left; now constructor].
    destruct H as [[H1 H2] _]. split; [apply Z.le_trans with 0%Z; [discriminate|exact H1]|].
    apply Z.le_lt_trans with 9%Z; [exact H2|reflexivity]. }
  split; [vm_compute; reflexivity|]. split; [now intros v t w; exists v, w|].
  split. { right. exists 2%Z. split; [apply L; split; [now split|reflexivity]|reflexivity]. }
  split. { right. exists 1%Z. apply L. split; [now split|reflexivity]. }
  split. { intros [H|[z [H Hz]]]; [discriminate|]. destruct (D _ _ H) as [H'|H']; [|discriminate].
           vm_compute in H'. injection H' as H'. destruct z as [|p|p]; try discriminate.
           destruct p; discriminate. }
  split. { intros [H|[z H]]; [discriminate|]. destruct (D _ _ H) as [H'|H']; [vm_compute in H'; discriminate|discriminate]. }
  vm_compute. reflexivity.
Qed.

(** C12 *)
Theorem C12_choices_inherit : forall (E : Env) gvt ts bs w p w',
  open_choices ts bs -> run_tokens gvt ts p_init w = Ret p w' ->
  length (p_choice p) = length bs /\
  (hd false (p_choice p) = true <-> In true bs) /\
  forall local l p2 w2, tag "Element" local = true -> on_token gvt (TStart local l) p w' = Ret p2 w2 ->
    exists e, p_heap p2 = (p_heap p ++ [e])%list /\
      (In true bs -> el_plural e = true) /\
      (no_occurs l -> (el_plural e = true <-> In true bs)).
Proof. exact @choices_inherit. Qed.
Print Assumptions C12_choices_inherit.

(** Three choices deep, the outermost is unbounded, one inner choice closed. *)
Definition choices0 : list token :=
  [TStart "complexType" [attr0 "name" "T"]; TStart "choice" [attr0 "maxOccurs" "unbounded"];
   TStart "choice" []; TEnd "choice"; TStart "choice" [attr0 "maxOccurs" "1"]].
Example C12_example : @open_choices fixture_env choices0 [false; true] /\
  exists p, run_tokens (E := fixture_env) gvt0 choices0 p_init world0 = Ret p world0 /\ p_choice p = [true; true].
Proof.
  split.
  - unfold choices0.
    apply (@oc_start fixture_env [_; _; _; _] "choice" [attr0 "maxOccurs" "1"] [true] false); [|vm_compute; reflexivity|].
    2: { split; [discriminate|]. intros [v [Hv Hm]]. vm_compute in Hv. injection Hv as <-.
         destruct Hm as [H|[z [H Hz]]]; [discriminate|].
         apply DocLemmas.atoi_spec in H. vm_compute in H. injection H as <-. discriminate. }
    apply (@oc_end fixture_env [_; _; _] "choice" [true] false); [|vm_compute; reflexivity].
    apply (@oc_start fixture_env [_; _] "choice" [] [true] false); [|vm_compute; reflexivity|].
    2: { split; [discriminate|]. intros [v [Hv Hm]]. vm_compute in Hv. discriminate. }
    apply (@oc_start fixture_env [_] "choice" [attr0 "maxOccurs" "unbounded"] [] true); [|vm_compute; reflexivity|].
    2: { split; [|reflexivity]. intros _. exists "unbounded". split; [reflexivity|now left]. }
    apply (@oc_other fixture_env []); [constructor|vm_compute; reflexivity].
  - eexists. split; [vm_compute; reflexivity|reflexivity].
Qed.

(** C13 *)
Theorem C13_element_in_complex : forall (E : Env) gvt local l p w p' w' c cs,
  tag "Element" local = true -> p_complex p = c :: cs ->
  on_token gvt (TStart local l) p w = Ret p' w' ->
  exists e els, p_heap p' = (p_heap p ++ [e])%list /\
    el_name e = match last_of ["name"; "ref"] l with Some v => v | None => "" end /\
    (exists v w1 w2, gvt v (freeze p) w1 = Ret (el_type e) w2 /\
       (last_of ["type"; "ref"] l = Some v \/
        v = el_name e /\ (last_of ["type"; "ref"] l = None \/
           exists u w3 w4, last_of ["type"; "ref"] l = Some u /\ gvt u (freeze p) w3 = Ret "" w4))) /\
    p_complex p' = mkComplex (ct_doc c) (ct_name c) (ct_base c) els (ct_attributes c) (ct_groups c) (ct_attrgroups c) :: cs /\
    joined e (ct_elements c) els /\
    p_tree p' = p_tree p /\ p_simple p' = p_simple p /\ p_attribute p' = p_attribute p /\
    p_group p' = p_group p /\ p_attrgroup p' = p_attrgroup p /\ p_choice p' = p_choice p.
Proof. exact @element_in_complex. Qed.
Print Assumptions C13_element_in_complex.

Theorem C13_joined_keeps : forall e l l', joined e l l' ->
  (forall i x, nth_error l i = Some x -> exists b, nth_error l' i = Some (with_plural b x) /\
     (el_plural x = true -> b = true) /\
     (b <> el_plural x -> el_name x = el_name e /\ el_type x = el_type e /\ b = el_plural e)) /\
  (exists x, In x l' /\ el_name x = el_name e /\ el_type x = el_type e /\ (el_plural e = true -> el_plural x = true)).
Proof. exact joined_keeps. Qed.
Print Assumptions C13_joined_keeps.

Definition repeat0 : list token :=
  [TStart "complexType" [attr0 "name" "T"]; TStart "element" [attr0 "name" "a"; attr0 "type" "s"];
   TEnd "element"; TStart "element" [attr0 "name" "b"; attr0 "type" "s"]; TEnd "element";
   TStart "element" [attr0 "name" "a"; attr0 "type" "s"; attr0 "maxOccurs" "unbounded"]; TEnd "element";
   TStart "element" [attr0 "name" "b"; attr0 "type" "u"]; TEnd "element"].
Example C13_example :
  match run_tokens (E := fixture_env) gvt0 repeat0 p_init world0 with
  | Ret p _ => flat_map ct_elements (p_complex p) | _ => [] end =
  [mkElement "" "a" "s" true false; mkElement "" "b" "s" false false; mkElement "" "b" "u" false false].
Proof. vm_compute. reflexivity. Qed.

(** C14 *)
Theorem C14_attribute_start : forall (E : Env) gvt local l p w p' w', tag "Attribute" local = true ->
  on_token gvt (TStart local l) p w = Ret p' w' ->
  exists a, p' = set_attribute (a :: p_attribute p) (set_in_element local p) /\
    (at_optional a = true <-> ~ has_value "use" "required" l) /\
    at_name a = match last_of ["name"; "ref"] l with Some v => v | None => "" end /\
    match last_of ["type"; "ref"] l with
    | Some v => exists w1 w2, gvt v (freeze p) w1 = Ret (at_type a) w2
    | None => at_type a = ""
    end /\ at_plural a = false /\ at_doc a = "".
Proof. exact @attribute_start. Qed.
Print Assumptions C14_attribute_start.

Theorem C14_attribute_start_total : forall (E : Env) gvt, resolves gvt ->
  forall local l p w, tag "Attribute" local = true ->
  exists p' w', on_token gvt (TStart local l) p w = Ret p' w'.
Proof. exact @attribute_start_total. Qed.
Print Assumptions C14_attribute_start_total.

Theorem C14_attribute_order : forall (E : Env) gvt local l l' p w, tag "Attribute" local = true ->
  Permutation l l' -> ForallOrdPairs exclusive l ->
  on_token gvt (TStart local l) p w = on_token gvt (TStart local l') p w.
Proof. exact @attribute_order. Qed.
Print Assumptions C14_attribute_order.

Example C14_example :
  let run l := match on_token (E := fixture_env) gvt0 (TStart "attribute" l) p_init world0 with
               | Ret p _ => p_attribute p | _ => [] end in
  run [attr0 "use" "required"; attr0 "type" "int"; attr0 "name" "id"] = [mkAttribute "id" "" "int" false false] /\
  run [attr0 "name" "id"; attr0 "type" "int"; attr0 "use" "optional"] = [mkAttribute "id" "" "int" false true] /\
  ForallOrdPairs exclusive [attr0 "use" "required"; attr0 "type" "int"; attr0 "name" "id"].
Proof.
  split; [vm_compute; reflexivity|]. split; [vm_compute; reflexivity|].
  repeat constructor; cbn; intuition discriminate.
Qed.

(** C15 *)
Theorem C15_enumeration : forall (E : Env) gvt ts p w p' w' s r,
  Forall enum_token ts -> p_simple p = s :: r -> run_tokens gvt ts p w = Ret p' w' ->
  exists d, p_simple p' = enum_of s d (enum_values ts) :: r /\
    (Forall (fun t => match t with TChar c => blank c | _ => True end) ts -> d = st_doc s).
Proof. exact @enum_run. Qed.
Print Assumptions C15_enumeration.

Theorem C15_enumeration_total : forall (E : Env) gvt, resolves gvt ->
  forall ts p w, Forall enum_token ts -> exists p' w', run_tokens gvt ts p w = Ret p' w'.
Proof. exact @enum_run_total. Qed.
Print Assumptions C15_enumeration_total.

Definition enum0 : list token :=
  [TStart "enumeration" [attr0 "value" "b"]; TEnd "enumeration"; TChar " "; TOther;
   TStart "enumeration" [attr0 "id" "x"; attr0 "value" "a"]; TEnd "enumeration";
   TStart "enumeration" [attr0 "value" "b"]; TEnd "enumeration"].
Example C15_example : Forall (@enum_token fixture_env) enum0 /\ @enum_values fixture_env enum0 = ["b"; "a"; "b"] /\
  match run_tokens (E := fixture_env) gvt0 (TStart "simpleType" [attr0 "name" "S"] :: enum0) p_init world0 with
  | Ret p _ => p_simple p | _ => [] end = [mkSimple "" "S" "" false false [] ["b"; "a"; "b"]].
Proof.
  split. { unfold enum0. repeat (constructor; [now (left; vm_compute; reflexivity) || exact I|]). constructor. }
  split; vm_compute; reflexivity.
Qed.

(** C21 *)
Theorem C21_groups : forall (E : Env) gvt ts w p w', run_tokens gvt ts p_init w = Ret p w' ->
  (0 <= p_in_group p)%Z /\ ((0 < p_in_group p)%Z <-> length (p_group p) = 1) /\
  (p_in_group p = 0%Z <-> p_group p = []).
Proof. exact @group_bookkeeping. Qed.
Print Assumptions C21_groups.

Example C21_example :
  match run_tokens (E := fixture_env) gvt0
    [TStart "group" [attr0 "name" "g"]; TStart "sequence" []; TStart "group" [attr0 "ref" "h"]; TEnd "group";
     TStart "group" [attr0 "ref" "i"]] p_init world0 with
  | Ret p _ => Some (p_in_group p, map gr_name (p_group p), map gr_name (flat_map gr_groups (p_group p)))
  | _ => None end = Some (2%Z, ["g"], ["h"; "i"]).
Proof. vm_compute. reflexivity. Qed.

(** C20, one document *)
Theorem C20_document_no_panic : forall (E : Env) gvt, (forall v t w, no_panic (gvt v t w)) ->
  forall ts w, fits 0 false ts -> no_panic (run_tokens gvt ts p_init w).
Proof. exact @document_no_panic. Qed.
Print Assumptions C20_document_no_panic.

Definition fits0 : list token :=
  [TStart "element" [attr0 "name" "e"]; TStart "annotation" []; TChar "text"; TEnd "annotation";
   TStart "complexType" []; TStart "sequence" []; TStart "element" [attr0 "name" "f"];
   TStart "complexType" []; TEnd "complexType"; TEnd "element"; TEnd "sequence"; TEnd "complexType"; TEnd "element";
   TStart "complexType" [attr0 "name" "T"]; TEnd "complexType"].
Example C20_document_example : @fits fixture_env 0 false fits0 /\
  (exists p, run_tokens (E := fixture_env) gvt0 fits0 p_init world0 = Ret p world0 /\ length (freeze p) = 4) /\
  (* a top-level complex type without a name *)
  run_tokens (E := fixture_env) gvt0 [TStart "complexType" []] p_init world0 = Crash Panic world0.
Proof.
  split.
  - vm_compute. left. split; [repeat constructor; discriminate|]. split; [repeat constructor; discriminate|].
    split; [now left|]. left. split; [repeat constructor; discriminate|]. split; [repeat constructor; discriminate|].
    split; [now left|]. split; [|exact I]. right. split; [reflexivity|]. exists "T". split; [reflexivity|discriminate].
  - split; [eexists; split; [vm_compute; reflexivity|vm_compute; reflexivity]|vm_compute; reflexivity].
Qed.
