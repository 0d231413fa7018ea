(** Specification vocabulary for stacks, orders, tables and lookups. *)

From Coq Require Import String Ascii List NArith ZArith Bool.
From Verif Require Import Base Stack.
Import ListNotations.
Local Open Scope string_scope.

(** * LIFO sequence (C04): the top is the head. *)
Section Lifo.
Context {A : Type}.
Fixpoint lifo (s : list A) (os : list (op A)) : list (result A) :=
  match os with
  | [] => []
  | Push v :: r => RNone :: lifo (v :: s) r
  | Pop :: r => match s with
                | [] => RValue None :: lifo [] r
                | x :: t => RValue (Some x) :: lifo t r
                end
  | Peek :: r => RValue (match s with [] => None | x :: _ => Some x end) :: lifo s r
  | Len :: r => RLen (length s) :: lifo s r
  | Empty :: r => RBool (match s with [] => true | _ => false end) :: lifo s r
  end.
End Lifo.

(** * Byte order of strings and the order of union members (C09) *)

Inductive byte_lt : string -> string -> Prop :=
| bl_nil : forall a s, byte_lt "" (String a s)
| bl_head : forall a b s t, (N_of_ascii a < N_of_ascii b)%N -> byte_lt (String a s) (String b t)
| bl_tail : forall a s t, byte_lt s t -> byte_lt (String a s) (String a t).

(** [x] has to come before [y]: smaller type, or same type and larger name. *)
Definition member_before (x y : string * string) : Prop :=
  byte_lt (snd x) (snd y) \/ (snd x = snd y /\ byte_lt (fst y) (fst x)).

(** * XSD built-in types (XML Schema 1.0 part 2, and anyType). *)
Definition xsd_builtin : list string :=
  ["anyType"; "string"; "boolean"; "decimal"; "float"; "double"; "duration"; "dateTime"; "time"; "date";
   "gYearMonth"; "gYear"; "gMonthDay"; "gDay"; "gMonth"; "hexBinary"; "base64Binary"; "anyURI"; "QName";
   "NOTATION"; "normalizedString"; "token"; "language"; "NMTOKEN"; "NMTOKENS"; "Name"; "NCName"; "ID";
   "IDREF"; "IDREFS"; "ENTITY"; "ENTITIES"; "integer"; "nonPositiveInteger"; "negativeInteger"; "long";
   "int"; "short"; "byte"; "nonNegativeInteger"; "unsignedLong"; "unsignedInt"; "unsignedShort";
   "unsignedByte"; "positiveInteger"].

(** What kind of values a type has, and how each language represents it.  An
    unknown language is treated as Go. *)
Inductive kind : Type :=
| Text | Texts | Name | Uri | Binary | Truth | Day | Clock | Real | SmallReal
| Whole | Natural | Bits8 | Bits16 | Bits64 | Unsigned8 | Unsigned16 | Unsigned32 | Unsigned64.

Definition kinds : list (kind * list string) :=
  [(Text, ["anyType"; "string"; "normalizedString"; "token"; "language"; "Name"; "NCName"; "NMTOKEN"; "ID"; "IDREF"; "ENTITY";
           "duration"; "gYear"; "gYearMonth"; "gMonth"; "gMonthDay"; "gDay"; "xml:lang"; "xml:space"; "xml:base"; "xml:id"]);
   (Texts, ["NMTOKENS"; "IDREFS"; "ENTITIES"; "NOTATION"]); (Name, ["QName"]); (Uri, ["anyURI"]);
   (Binary, ["base64Binary"; "hexBinary"]); (Truth, ["boolean"]); (Day, ["date"; "dateTime"]); (Clock, ["time"]);
   (Real, ["decimal"; "double"]); (SmallReal, ["float"]);
   (Whole, ["int"; "integer"; "negativeInteger"; "nonPositiveInteger"]); (Natural, ["nonNegativeInteger"; "positiveInteger"]);
   (Bits8, ["byte"]); (Bits16, ["short"]); (Bits64, ["long"]);
   (Unsigned8, ["unsignedByte"]); (Unsigned16, ["unsignedShort"]); (Unsigned32, ["unsignedInt"]); (Unsigned64, ["unsignedLong"])].
Definition kind_of (name : string) : option kind :=
  option_map fst (find (fun x => if in_dec string_dec name (snd x) then true else false) kinds).

Definition typescript_type (k : kind) : string :=
  match k with
  | Text | Uri | Day | Clock => "string" | Texts => "Array<string>" | Name | Bits8 | Unsigned8 => "any" | Binary => "Uint8Array"
  | Truth => "boolean" | _ => "number"
  end.
Definition c_type (k : kind) : string :=
  match k with
  | Text | Name | Uri | Day | Clock | Unsigned8 => "char" | Texts | Binary | Bits8 => "char[]" | Truth => "bool"
  | Real | SmallReal => "float" | Whole | Natural | Bits16 | Bits64 => "int" | Unsigned16 | Unsigned32 | Unsigned64 => "unsigned int"
  end.
Definition java_type (k : kind) : string :=
  match k with
  | Text | Name | Day | Clock => "String" | Texts => "List<String>" | Uri => "QName" | Binary => "List<Byte>" | Truth => "Boolean"
  | Real | SmallReal => "Float" | Whole | Natural | Bits16 | Unsigned32 => "Integer" | Bits64 | Unsigned64 => "Long"
  | Bits8 | Unsigned8 => "Byte" | Unsigned16 => "Short"
  end.
Definition rust_type (k : kind) : string :=
  match k with
  | Text | Name | Uri | Binary | Clock => "String" | Texts => "Vec<String>" | Truth => "bool" | Real | SmallReal => "f64"
  | Whole => "i32" | Natural | Unsigned32 => "u32" | Bits16 => "i16" | Bits64 => "i64"
  | Day | Bits8 | Unsigned8 => "u8" | Unsigned16 => "u16" | Unsigned64 => "u64"
  end.
Definition go_type (k : kind) : string :=
  match k with
  | Text | Uri | Binary | Day => "string" | Texts => "[]string" | Name => "xml.Name" | Truth => "bool" | Clock => "time.Time"
  | Real => "float64" | SmallReal => "float32" | Whole | Natural => "int" | Bits8 => "int8" | Bits16 => "int16" | Bits64 => "int64"
  | Unsigned8 => "uint8" | Unsigned16 => "uint16" | Unsigned32 => "uint32" | Unsigned64 => "uint64"
  end.
Definition representation (lang name : string) : option string :=
  option_map (if string_dec lang "TypeScript" then typescript_type else if string_dec lang "C" then c_type
              else if string_dec lang "Java" then java_type else if string_dec lang "Rust" then rust_type else go_type) (kind_of name).

Definition languages : list string := ["Go"; "TypeScript"; "C"; "Java"; "Rust"].

(** Finite ranges of XSD integer types. *)
Definition xsd_range (t : string) : option (Z * Z) :=
  if String.eqb t "byte" then Some (- 2 ^ 7, 2 ^ 7 - 1)%Z
  else if String.eqb t "short" then Some (- 2 ^ 15, 2 ^ 15 - 1)%Z
  else if String.eqb t "int" then Some (- 2 ^ 31, 2 ^ 31 - 1)%Z
  else if String.eqb t "long" then Some (- 2 ^ 63, 2 ^ 63 - 1)%Z
  else if String.eqb t "unsignedByte" then Some (0, 2 ^ 8 - 1)%Z
  else if String.eqb t "unsignedShort" then Some (0, 2 ^ 16 - 1)%Z
  else if String.eqb t "unsignedInt" then Some (0, 2 ^ 32 - 1)%Z
  else if String.eqb t "unsignedLong" then Some (0, 2 ^ 64 - 1)%Z
  else None.

(** Values every conforming implementation can store in a target type (Go's
    int has at least 32 bits; C as on ILP32/LP64; Java's boxed types; the safe
    integers of JavaScript). *)
Definition target_range (lang t : string) : option (Z * Z) :=
  if String.eqb lang "Go" then
    if String.eqb t "int8" then Some (- 2 ^ 7, 2 ^ 7 - 1)%Z
    else if String.eqb t "int16" then Some (- 2 ^ 15, 2 ^ 15 - 1)%Z
    else if String.eqb t "int" then Some (- 2 ^ 31, 2 ^ 31 - 1)%Z
    else if String.eqb t "int32" then Some (- 2 ^ 31, 2 ^ 31 - 1)%Z
    else if String.eqb t "int64" then Some (- 2 ^ 63, 2 ^ 63 - 1)%Z
    else if String.eqb t "uint8" then Some (0, 2 ^ 8 - 1)%Z
    else if String.eqb t "uint16" then Some (0, 2 ^ 16 - 1)%Z
    else if String.eqb t "uint32" then Some (0, 2 ^ 32 - 1)%Z
    else if String.eqb t "uint64" then Some (0, 2 ^ 64 - 1)%Z
    else None
  else if String.eqb lang "Rust" then
    if String.eqb t "i8" then Some (- 2 ^ 7, 2 ^ 7 - 1)%Z
    else if String.eqb t "i16" then Some (- 2 ^ 15, 2 ^ 15 - 1)%Z
    else if String.eqb t "i32" then Some (- 2 ^ 31, 2 ^ 31 - 1)%Z
    else if String.eqb t "i64" then Some (- 2 ^ 63, 2 ^ 63 - 1)%Z
    else if String.eqb t "u8" then Some (0, 2 ^ 8 - 1)%Z
    else if String.eqb t "u16" then Some (0, 2 ^ 16 - 1)%Z
    else if String.eqb t "u32" then Some (0, 2 ^ 32 - 1)%Z
    else if String.eqb t "u64" then Some (0, 2 ^ 64 - 1)%Z
    else None
  else if String.eqb lang "Java" then
    if String.eqb t "Byte" then Some (- 2 ^ 7, 2 ^ 7 - 1)%Z
    else if String.eqb t "Short" then Some (- 2 ^ 15, 2 ^ 15 - 1)%Z
    else if String.eqb t "Integer" then Some (- 2 ^ 31, 2 ^ 31 - 1)%Z
    else if String.eqb t "Long" then Some (- 2 ^ 63, 2 ^ 63 - 1)%Z
    else None
  else if String.eqb lang "C" then
    if String.eqb t "int" then Some (- 2 ^ 31, 2 ^ 31 - 1)%Z
    else if String.eqb t "unsigned int" then Some (0, 2 ^ 32 - 1)%Z
    else if String.eqb t "char" then Some (0, 2 ^ 7 - 1)%Z
    else None
  else if String.eqb lang "TypeScript" then
    if String.eqb t "number" || String.eqb t "any" then Some (- (2 ^ 53 - 1), 2 ^ 53 - 1)%Z
    else None
  else None.

(** Every value of XSD type [x] can be stored in [t]. *)
Definition fits (lang x t : string) : Prop :=
  exists lo hi lo' hi', xsd_range x = Some (lo, hi) /\ target_range lang t = Some (lo', hi') /\
    forall v, (lo <= v <= hi)%Z -> (lo' <= v <= hi')%Z.

(** The bounded integer types whose target type is too small or no number. *)
Definition misfits : list (string * string) :=
  [("Rust", "byte");
   ("Java", "unsignedByte"); ("Java", "unsignedShort"); ("Java", "unsignedInt"); ("Java", "unsignedLong");
   ("C", "byte"); ("C", "long"); ("C", "unsignedByte"); ("C", "unsignedLong");
   ("TypeScript", "long"); ("TypeScript", "unsignedLong")].

(** Text-valued XSD types and the string type of each language. *)
Definition xsd_text : list string :=
  ["anyType"; "string"; "duration"; "dateTime"; "date"; "gYearMonth"; "gYear"; "gMonthDay"; "gDay"; "gMonth";
   "anyURI"; "normalizedString"; "token"; "language"; "NMTOKEN"; "Name"; "NCName"; "ID"; "IDREF"; "ENTITY"].
Definition string_type (lang : string) : string :=
  if String.eqb lang "Go" then "string"
  else if String.eqb lang "TypeScript" then "string"
  else if String.eqb lang "C" then "char"
  else if String.eqb lang "Java" then "String"
  else if String.eqb lang "Rust" then "String"
  else "".

(** The text-valued types that have another target type. *)
Definition not_strings : list (string * string) := [("Rust", "date"); ("Rust", "dateTime"); ("Java", "anyURI")].

(** * Declarations that give a name a base type (C44) *)
Inductive gives (name : string) : proto -> string -> Prop :=
| gives_simple : forall v, st_list v = false -> st_union v = false -> st_name v = name ->
    gives name (PSimple v) (st_base v)
| gives_attribute : forall v, at_name v = name -> gives name (PAttribute v) (at_type v)
| gives_element : forall v, el_name v = name -> gives name (PElement v) (el_type v).

(** [t] is given by the first declaration of [tree] that gives [name] one. *)
Definition first_gives (name : string) (tree : list proto) (t : string) : Prop :=
  exists before p after, tree = (before ++ p :: after)%list /\ gives name p t /\
    forall q u, In q before -> ~ gives name q u.
Definition none_gives (name : string) (tree : list proto) : Prop :=
  forall q u, In q tree -> ~ gives name q u.
