(** Specification vocabulary for C69: the names of the members of generated
    structures. *)

From Coq Require Import String Ascii List NArith Bool.
From Verif Require Import GoStr Base Utils SpecStr SpecGen SpecOut SpecSyntax.
Import ListNotations.
Local Open Scope string_scope.

Local Infix "+++" := app (at level 60, right associativity).

(** * Reading *)

Definition unstarred (s : string) : string := match s with String "*" r => r | _ => s end.

(** The name that a row of a structure or an enumeration declares.  An embedded
    Go structure has the name of its type. *)
Definition field (l : lang) (row : string) : list string :=
  match l with
  | Go => [unstarred (until "009" row)]
  | C => [until "[" (until ";" (last (filter (has_char ";") (split_on " " row)) ""))]
  | Java => if prefix "protected " row then [until ";" (last_word row)] else []
  | Rust => if prefix "pub " row then [until ":" (word 1 row)] else []
  | TypeScript => [until " " (until ":" row)]
  end.
Definition fields (l : lang) (it : item) : list string := flat_map (field l) (rows it).

Section Members.
Context {E : Env}.

(** * The members of a component *)

Definition attribute_ident (l : lang) (n : string) : string :=
  match l with Rust => member_ident l n | _ => member_ident l n ++ "Attr" end.

(** Go structures keep the name of the component if it is not the identifier. *)
Definition name_member (l : lang) (id name : string) : list string :=
  match l with Go => if string_dec id name then [] else ["XMLName"] | _ => [] end.

(** What stands for the type that a complex type extends. *)
Definition base_member (l : lang) (pt : list proto) (base : string) : list string :=
  match l, base with
  | C, _ | _, EmptyString => []
  | Go, _ => [if builtin Go base then "Value" else unstarred (type_name Go base)]
  | Java, _ => if builtin Java base then ["value"] else []
  | TypeScript, _ => if builtin TypeScript base then ["Value"] else []
  | Rust, _ => [if builtin Rust base then "value" else member_ident Rust (shown Rust pt base)]
  end.

Definition only_member (l : lang) (p : proto) (id : string) : list string :=
  match l, p with
  | Java, _ => [plain_ident Java p]
  | Rust, PSimple v => [member_ident Rust (st_name v)]
  | Rust, _ => [id]
  | _, _ => []
  end.

Definition value_name (base value : string) : string := if string_dec base "string" then value else "Enum" ++ value.

Definition member_names (l : lang) (pt : list proto) (p : proto) (enum : bool) (id : string) : list string :=
  match p with
  | PNil => []
  | PSimple v =>
      if match l with TypeScript => enum | _ => false end then map (value_name (shown_ts pt (st_base v) false)) (st_enum v)
      else if negb (st_list v) && is_union v
      then name_member l id (st_name v) +++ map (fun m => member_ident l (fst m)) (to_sorted_pairs (st_members v))
      else only_member l p id
  | PComplex v =>
      name_member l id (ct_name v) +++ map (fun a => member_ident l (ag_name a)) (ct_attrgroups v)
      +++ map (fun a => attribute_ident l (at_name a)) (ct_attributes v) +++ map (fun x => member_ident l (gr_name x)) (ct_groups v)
      +++ map (fun e => member_ident l (el_name e)) (ct_elements v) +++ base_member l pt (ct_base v)
  | PElement _ | PAttribute _ => only_member l p id
  | PGroup v => name_member l id (gr_name v) +++ map (fun e => member_ident l (el_name e)) (gr_elements v)
      +++ map (fun x => member_ident l (gr_name x)) (gr_groups v)
  | PAttrGroup v => name_member l id (ag_name v) +++
      map (fun a => match l with Java => member_ident Java (at_name a) | _ => attribute_ident l (at_name a) end) (ag_attributes v)
  end.

(** Names that can be read back. *)
Definition readable (n : string) : Prop :=
  free_of " " n /\ free_of "009" n /\ free_of ";" n /\ free_of "[" n /\ free_of "*" n.
Definition component_readable (l : lang) (pt : list proto) (p : proto) : Prop :=
  match p with
  | PNil => True
  | PSimple v => readable (st_name v) /\ Forall (fun m => readable (fst m)) (st_members v) /\ Forall (fun x => free_of " " x /\ free_of ":" x) (st_enum v)
  | PComplex v => Forall readable (map ag_name (ct_attrgroups v) +++ map at_name (ct_attributes v) +++ map gr_name (ct_groups v) +++ map el_name (ct_elements v)) /\
      Forall readable (base_member l pt (ct_base v))
  | PElement v => readable (el_name v)
  | PAttribute v => readable (at_name v)
  | PGroup v => Forall readable (map el_name (gr_elements v) +++ map gr_name (gr_groups v))
  | PAttrGroup v => Forall readable (map at_name (ag_attributes v))
  end.

(** * Members with different names *)

(** Letters and digits, a small letter first; in Rust, small letters only. *)
Definition spelled (l : lang) (n : string) : Prop :=
  exists a r, n = String a r /\ is_lower a = true /\
    every (fun c => is_lower c || is_digit c || match l with Rust => false | _ => is_upper c end) r.
(** Not the name of an attribute member or of the Go name member. *)
Definition member_word (l : lang) (n : string) : Prop := spelled l n /\ (forall s, n <> s ++ "Attr") /\ n <> "xMLName".

(** Elements and groups have different names, and attributes have; what a
    complex type extends has another name as well. *)
Definition told_apart (l : lang) (pt : list proto) (p : proto) : Prop :=
  match p with
  | PNil | PElement _ | PAttribute _ => True
  | PSimple v => Forall (member_word l) (map fst (st_members v)) /\ NoDup (map fst (st_members v)) /\ (l = TypeScript -> NoDup (st_enum v))
  | PComplex v =>
      let ats := map at_name (ct_attributes v) in
      let others := map ag_name (ct_attrgroups v) +++ map gr_name (ct_groups v) +++ map el_name (ct_elements v) in
      Forall (member_word l) others /\ Forall (spelled l) ats /\ NoDup others /\ NoDup ats /\
      (l = Rust -> forall n, In n others -> ~ In n ats) /\
      (ct_base v = "" \/
       builtin l (ct_base v) = true /\ ~ In "value" others /\ (l = Rust -> ~ In "value" ats) \/
       member_word l (ct_base v) /\ builtin l (ct_base v) = false /\ resolved pt (ct_base v) = ct_base v /\
         ~ In (ct_base v) others /\ (l = Rust -> ~ In (ct_base v) ats))
  | PGroup v => let names := map el_name (gr_elements v) +++ map gr_name (gr_groups v) in Forall (member_word l) names /\ NoDup names
  | PAttrGroup v => Forall (spelled l) (map at_name (ag_attributes v)) /\ NoDup (map at_name (ag_attributes v))
  end.

End Members.
