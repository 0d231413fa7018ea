(** Maps, oracles, XML tokens and the proto-tree data types (proto.go). *)

From Coq Require Import String List NArith Bool.
From Verif Require Import GoStr.
Import ListNotations.
Local Open Scope string_scope.

(** * Go maps with string keys: association lists, first match counts. *)

Definition smap (A : Type) : Type := list (string * A).

Fixpoint get {A} (k : string) (m : smap A) : option A :=
  match m with
  | [] => None
  | (k', v) :: r => if String.eqb k' k then Some v else get k r
  end.

(** [m[k] = v] *)
Fixpoint put {A} (k : string) (v : A) (m : smap A) : smap A :=
  match m with
  | [] => [(k, v)]
  | (k', v') :: r => if String.eqb k' k then (k, v) :: r else (k', v') :: put k v r
  end.

Definition keys {A} (m : smap A) : list string := map fst m.

(** [_, ok := m[k]] *)
Definition has_key {A} (k : string) (m : smap A) : bool :=
  match get k m with Some _ => true | None => false end.

(** [m[k]] for a string-valued map: the zero value is the empty string. *)
Definition get0 (k : string) (m : smap string) : string :=
  match get k m with Some v => v | None => "" end.

(** Membership in a Go [map[string]bool] used as a set of literals. *)
Definition in_set (k : string) (l : list string) : bool := existsb (String.eqb k) l.

(** * XML tokens as delivered by [encoding/xml] ([Decoder.Token]).
    Of a name only what xgen reads is kept: the local part of element names,
    the name space and local part of attribute names. *)

Record xattr : Type := mkAttr { a_space : string; a_local : string; a_value : string }.

Inductive token : Type :=
| TStart (local : string) (attrs : list xattr)   (* xml.StartElement *)
| TEnd (local : string)                          (* xml.EndElement *)
| TChar (data : string)                          (* xml.CharData *)
| TOther.                                        (* comment, directive, processing instruction *)

(** * Everything the code relies on but that is not code of the repository.
    Every theorem holds for all values of this record unless it states a
    hypothesis about it. *)

Class Env : Type := {
  (* unicode.ToUpper / unicode.ToLower on runes >= 0x80 *)
  env_upper : N -> N;
  env_lower : N -> N;
  (* url.ParseRequestURI and url.Parse succeed with non-empty scheme and host,
     for strings containing ':' *)
  env_valid_url : string -> bool;
  (* the tokens encoding/xml yields for a file before its first nil token *)
  env_tokens : string -> list token;
  (* go/format.Source; None is an error *)
  env_gofmt : string -> option string;
  (* the next key chosen by the runtime when ranging over a map, per step *)
  env_choose : nat -> nat;
  (* I/O that can fail for reasons outside the model (permissions, ...) *)
  env_stat_fail : string -> bool;
  env_open_fail : string -> bool;
  env_create_fail : string -> bool;
  env_mkdir_fail : string -> bool;
  (* the bytes that really land in the file when these bytes are written *)
  env_write : string -> string -> string
}.

(** * proto.go *)

(** proto.go:16-25.  Left out because no code reads or writes them: Anonymous
    and all of Restriction except Enum (proto.go:129-136). *)
Record SimpleType : Type := mkSimple {
  st_doc : string;
  st_name : string;
  st_base : string;
  st_list : bool;
  st_union : bool;
  st_members : smap string;      (* MemberTypes *)
  st_enum : list string          (* Restriction.Enum *)
}.

(** proto.go:34-44.  Left out: Wildcard, Abstract, Nillable, Default. *)
Record Element : Type := mkElement {
  el_doc : string;
  el_name : string;
  el_type : string;
  el_plural : bool;
  el_optional : bool
}.

(** proto.go:50-57.  Left out: Default. *)
Record Attribute : Type := mkAttribute {
  at_name : string;
  at_doc : string;
  at_type : string;
  at_plural : bool;
  at_optional : bool
}.

(** proto.go:88-95.  A group holds nested groups. *)
Inductive Group : Type := mkGroup {
  gr_doc : string;
  gr_name : string;
  gr_elements : list Element;
  gr_groups : list Group;
  gr_plural : bool;
  gr_ref : string
}.

(** proto.go:119-124 *)
Record AttributeGroup : Type := mkAttrGroup {
  ag_doc : string;
  ag_name : string;
  ag_ref : string;
  ag_attributes : list Attribute
}.

(** proto.go:70-81.  Left out: Anonymous, Choice, Mixed. *)
Record ComplexType : Type := mkComplex {
  ct_doc : string;
  ct_name : string;
  ct_base : string;
  ct_elements : list Element;
  ct_attributes : list Attribute;
  ct_groups : list Group;
  ct_attrgroups : list AttributeGroup
}.

(** An entry of ProtoTree ([]interface{} holding pointers or nil). *)
Inductive proto : Type :=
| PNil
| PSimple (v : SimpleType)
| PComplex (v : ComplexType)
| PElement (v : Element)
| PAttribute (v : Attribute)
| PGroup (v : Group)
| PAttrGroup (v : AttributeGroup).

Definition proto_name (p : proto) : option string :=
  match p with
  | PNil => None
  | PSimple v => Some (st_name v)
  | PComplex v => Some (ct_name v)
  | PElement v => Some (el_name v)
  | PAttribute v => Some (at_name v)
  | PGroup v => Some (gr_name v)
  | PAttrGroup v => Some (ag_name v)
  end.
