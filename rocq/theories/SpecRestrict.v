(** Specification vocabulary for C63: what a type derived from a built-in type
    is based on. *)

From Coq Require Import String Ascii List NArith Bool.
From Verif Require Import GoStr Base World Handlers SpecStr SpecTables.
Import ListNotations.
Local Open Scope string_scope.

(** The value names the built-in type, with or without a prefix. *)
Definition calls (v name : string) : Prop := v = name \/ exists pre, free_of ":" pre /\ v = pre ++ ":" ++ name.

(** The simple or complex type has got the base [t]; without a name of its own
    it is called as the base is written, [v]. *)
Definition based (v t : string) (s : SimpleType) : SimpleType :=
  mkSimple (st_doc s) (if string_dec (st_name s) "" then v else st_name s) t (st_list s) (st_union s) (st_members s) (st_enum s).
Definition based_complex (v t : string) (c : ComplexType) : ComplexType :=
  mkComplex (ct_doc c) (if string_dec (ct_name c) "" then v else ct_name c) t (ct_elements c) (ct_attributes c) (ct_groups c) (ct_attrgroups c).

(** Target types that are names of built-in types with the same target type. *)
Definition settled (lang : string) : list string :=
  if string_dec lang "Go" then ["string"; "int"]
  else if string_dec lang "TypeScript" then ["string"; "boolean"]
  else if string_dec lang "C" then ["int"; "float"]
  else [].

(** The state after the start of a restriction, or of an extension: the
    innermost open simple (complex) type, if any, has got its base. *)
Definition restricted (v t : string) (p : PState) : PState :=
  mkP (p_tree p) (p_heap p) (p_in_element p) (p_current p) (p_in_group p) (p_in_union p) (p_in_ag p)
    (match p_simple p with [] => [] | s :: r => based v t s :: r end)
    (p_complex p) (p_element p) (p_attribute p) (p_group p) (p_attrgroup p) (p_choice p).
Definition extended (v t : string) (p : PState) : PState :=
  mkP (p_tree p) (p_heap p) (p_in_element p) (p_current p) (p_in_group p) (p_in_union p) (p_in_ag p) (p_simple p)
    (match p_complex p with [] => [] | c :: r => based_complex v t c :: r end)
    (p_element p) (p_attribute p) (p_group p) (p_attrgroup p) (p_choice p).

(** What the target type [t] of a built-in type counts as among the components
    declared so far. *)
Definition second_look (lang t : string) (tree : list proto) (u : string) : Prop :=
  representation lang t = Some u \/
  (representation lang t = None /\ (first_gives t tree u \/ (none_gives t tree /\ u = t))).
