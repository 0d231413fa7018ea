(** Specification vocabulary for documents (token streams) and for the parser
    handlers.  Model functions are not used; of the parser state only its
    fields are. *)

From Coq Require Import String Ascii List NArith ZArith Bool.
From Verif Require Import GoStr Utf8 Base SpecStr World.
Import ListNotations.
Local Open Scope string_scope.

(** * Tags *)

(** The name of a tag with its first rune in upper case, as runes. *)
Definition title_runes {E : Env} (local : string) : list N :=
  match runes local with
  | [] => []
  | r :: t => norm_rune (rune_upper r) :: t
  end.

(** The tag is called [h], up to the case of the first letter: "choice" and
    "Choice" are both [tag "Choice"]. *)
Definition tag {E : Env} (h local : string) : bool :=
  if list_eq_dec N.eq_dec (title_runes local) (runes h) then true else false.

(** The tags xgen reacts to. *)
Definition start_tags : list string :=
  ["Attribute"; "AttributeGroup"; "CharData"; "Choice"; "ComplexType"; "Element"; "Enumeration";
   "Extension"; "Group"; "Import"; "Include"; "List"; "Restriction"; "Schema"; "SimpleType"; "Union"].
Definition end_tags : list string :=
  ["Attribute"; "AttributeGroup"; "Choice"; "ComplexType"; "Element"; "Enumeration"; "Extension";
   "FractionDigits"; "Group"; "Length"; "MaxExclusive"; "MaxInclusive"; "MaxLength"; "MinExclusive";
   "MinInclusive"; "MinLength"; "Pattern"; "Restriction"; "SimpleType"; "TotalDigits"; "Union";
   "WhiteSpace"].

(** No handler at all: sequence, all, annotation, documentation, any, ... *)
Definition unknown {E : Env} (local : string) : Prop :=
  forall h, In h start_tags \/ In h end_tags -> tag h local = false.

(** Character data that consists of white space only. *)
Definition blank (data : string) : Prop := Forall (fun r => rune_is_space r = true) (runes data).

(** * maxOccurs *)

Definition digit (d : ascii) (n : Z) : Prop := (0 <= n <= 9)%Z /\ Z.of_N (N_of_ascii d) = (48 + n)%Z.

Inductive decimal : string -> Z -> Prop :=
| decimal_one d n : digit d n -> decimal (String d "") n
| decimal_more s z d n : decimal s z -> digit d n -> decimal (s ++ String d "") (10 * z + n).

(** A decimal integer, with an optional sign, that fits into 64 bits. *)
Definition int64_literal (v : string) (z : Z) : Prop :=
  (- 2 ^ 63 <= z < 2 ^ 63)%Z /\
  (decimal v z \/ (exists s, v = "+" ++ s /\ decimal s z) \/ (exists s, v = "-" ++ s /\ decimal s (- z))).

(** Permitted values, and those that mean "more than one". *)
Definition occurs_ok (v : string) : Prop := v = "unbounded" \/ exists z, int64_literal v z.
Definition occurs_many (v : string) : Prop := v = "unbounded" \/ exists z, int64_literal v z /\ (1 < z)%Z.

(** * XML attributes *)

(** Values of the attributes with a given local name, in order. *)
Definition values (k : string) (l : list xattr) : list string :=
  map a_value (filter (fun x => String.eqb (a_local x) k) l).

Definition lacks (k : string) (l : list xattr) : Prop := Forall (fun x => a_local x <> k) l.

(** * Elements of a complex type *)

Definition with_plural (b : bool) (e : Element) : Element :=
  mkElement (el_doc e) (el_name e) (el_type e) b (el_optional e).

(** [joined e l l']: the element [e] has been recorded in the list [l]. *)
Inductive joined (e : Element) : list Element -> list Element -> Prop :=
| joined_merge l1 x l2 :
    Forall (fun y => el_name y <> el_name e) l1 -> el_name x = el_name e -> el_type x = el_type e ->
    joined e (l1 ++ x :: l2) (l1 ++ with_plural (el_plural x || el_plural e) x :: l2)
| joined_other l1 x l2 :
    Forall (fun y => el_name y <> el_name e) l1 -> el_name x = el_name e -> el_type x <> el_type e ->
    joined e (l1 ++ x :: l2) (l1 ++ x :: l2 ++ [e])
| joined_new l :
    Forall (fun y => el_name y <> el_name e) l -> joined e l (l ++ [e]).

(** * Choices *)

(** One entry per choice that is still open after the tokens [ts]: whether its
    own start tag says "more than one". *)
Inductive open_choices {E : Env} : list token -> list bool -> Prop :=
| oc_nil : open_choices [] []
| oc_start ts local l bs b :
    open_choices ts bs -> tag "Choice" local = true ->
    (b = true <-> exists v, last (map Some (values "maxOccurs" l)) None = Some v /\ occurs_many v) ->
    open_choices (ts ++ [TStart local l]) (b :: bs)
| oc_end ts local bs b :
    open_choices ts (b :: bs) -> tag "Choice" local = true -> open_choices (ts ++ [TEnd local]) bs
| oc_other ts t bs :
    open_choices ts bs ->
    match t with
    | TStart local _ | TEnd local => tag "Choice" local = false
    | _ => True
    end -> open_choices (ts ++ [t]) bs.

(** * Documents that never make the parser panic *)

(** [fits d fresh ts]: [d] complexType tags are open; [fresh] says that nothing
    but text, comments and tags unknown to xgen (annotations) has come since
    the start of an element that has neither type nor ref. *)
Fixpoint fits {E : Env} (d : nat) (fresh : bool) (ts : list token) : Prop :=
  match ts with
  | [] => True
  | TChar _ :: r | TOther :: r => fits d fresh r
  | TStart local l :: r =>
      if tag "CharData" local then False
      else if tag "Element" local then
        (lacks "type" l /\ lacks "ref" l /\ fits d true r) \/ fits d false r
      else if tag "ComplexType" local then
        (fresh = true \/ (d = 0 /\ exists n, last (map Some (values "name" l)) None = Some n /\ n <> "")) /\
        fits (S d) false r
      else if existsb (fun h => tag h local) (start_tags ++ end_tags) then fits d false r
      else fits d fresh r
  | TEnd local :: r =>
      if tag "ComplexType" local then fits (pred d) false r
      else if existsb (fun h => tag h local) (start_tags ++ end_tags) then fits d false r
      else fits d fresh r
  end.

(** * Enumerations *)

(** Tokens between the start and the end of a restriction that lists
    enumeration values. *)
Definition enum_token {E : Env} (t : token) : Prop :=
  match t with
  | TStart local _ | TEnd local => tag "Enumeration" local = true \/ unknown local
  | TChar _ | TOther => True
  end.

Definition enum_values {E : Env} (ts : list token) : list string :=
  flat_map (fun t => match t with
                     | TStart local l => if tag "Enumeration" local then values "value" l else []
                     | _ => []
                     end) ts.

(** * Attributes *)

(** The value of the attribute with local name [k]. *)
Definition has_value (k v : string) (l : list xattr) : Prop := exists sp, In (mkAttr sp k v) l.

(** Values of the attributes whose local name is one of [ks], in order; the
    last one counts. *)
Definition values_of (ks : list string) (l : list xattr) : list string :=
  map a_value (filter (fun x => existsb (String.eqb (a_local x)) ks) l).
Definition last_of (ks : list string) (l : list xattr) : option string :=
  last (map Some (values_of ks l)) None.

(** No attribute that bears on plurality. *)
Definition no_occurs (l : list xattr) : Prop := lacks "maxOccurs" l /\ lacks "unbounded" l.

(** At most one of the two gives the name, at most one gives the type. *)
Definition exclusive (x y : xattr) : Prop :=
  ~ (In (a_local x) ["name"; "ref"] /\ In (a_local y) ["name"; "ref"]) /\
  ~ (In (a_local x) ["type"; "ref"] /\ In (a_local y) ["type"; "ref"]).

(** The simple type [s] with another documentation and more values. *)
Definition enum_of (s : SimpleType) (d : string) (vs : list string) : SimpleType :=
  mkSimple d (st_name s) (st_base s) (st_list s) (st_union s) (st_members s) (st_enum s ++ vs).

(** * Outcomes *)

(** Every type name can be resolved (to something) without an error. *)
Definition resolves (gvt : string -> list proto -> World -> out string) : Prop :=
  forall value tree w, exists t w', gvt value tree w = Ret t w'.

Definition no_panic {A} (m : out A) : Prop := forall w, m <> Crash Panic w.
