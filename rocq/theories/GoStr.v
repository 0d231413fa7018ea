(** Go's [strings], [strconv], [unicode/utf8] and [fmt] primitives used by
    xgen, on byte strings.  Nothing here is xgen code; each definition states
    the Go standard library behaviour it stands for. *)

From Coq Require Import String Ascii List NArith ZArith Bool DecimalString.
Import ListNotations.
Local Open Scope string_scope.

(** Byte constants that cannot be written conveniently inside a literal. *)
Definition NL : string := String "010" EmptyString.
Definition CR : string := String "013" EmptyString.
Definition TAB : string := String "009" EmptyString.
Definition DQ : string := String "034" EmptyString.
Definition CRNL : string := CR ++ NL.

(** Concatenation of a list of strings ([+=] in a loop, [strings.Builder]). *)
Fixpoint sconcat (l : list string) : string :=
  match l with
  | [] => EmptyString
  | s :: r => s ++ sconcat r
  end.

(** [strings.Join(l, sep)]. *)
Fixpoint sjoin (sep : string) (l : list string) : string :=
  match l with
  | [] => EmptyString
  | [s] => s
  | s :: r => s ++ sep ++ sjoin sep r
  end.

(** [strings.Split(s, sep)] for a one-byte separator: never empty. *)
Fixpoint split_on (c : ascii) (s : string) : list string :=
  match s with
  | EmptyString => [EmptyString]
  | String a r =>
      if Ascii.eqb a c then EmptyString :: split_on c r
      else match split_on c r with
           | h :: t => String a h :: t
           | [] => [String a EmptyString]
           end
  end.

(** [strings.Replace(s, c, "", -1)] for a one-byte pattern. *)
Fixpoint remove_char (c : ascii) (s : string) : string :=
  match s with
  | EmptyString => EmptyString
  | String a r => if Ascii.eqb a c then remove_char c r else String a (remove_char c r)
  end.

(** [strings.ReplaceAll(s, c, d)] for one-byte pattern and replacement. *)
Fixpoint replace_char (c d : ascii) (s : string) : string :=
  match s with
  | EmptyString => EmptyString
  | String a r => String (if Ascii.eqb a c then d else a) (replace_char c d r)
  end.

(** Does the byte occur in the string. *)
Fixpoint has_char (c : ascii) (s : string) : bool :=
  match s with
  | EmptyString => false
  | String a r => Ascii.eqb a c || has_char c r
  end.

(** [strings.HasPrefix(s, p)] and [strings.TrimPrefix(s, p)]. *)
Fixpoint strip_prefix (p s : string) : option string :=
  match p with
  | EmptyString => Some s
  | String a p' =>
      match s with
      | EmptyString => None
      | String b s' => if Ascii.eqb a b then strip_prefix p' s' else None
      end
  end.

Definition has_prefix (s p : string) : bool :=
  match strip_prefix p s with Some _ => true | None => false end.

Definition trim_prefix (s p : string) : string :=
  match strip_prefix p s with Some r => r | None => s end.

(** [strings.HasSuffix(s, suf)]. *)
Fixpoint has_suffix (s suf : string) : bool :=
  String.eqb s suf ||
  match s with
  | EmptyString => false
  | String _ r => has_suffix r suf
  end.

(** [strings.TrimSuffix(s, suf)]. *)
Fixpoint trim_suffix (s suf : string) : string :=
  if String.eqb s suf then EmptyString
  else match s with
       | EmptyString => EmptyString
       | String a r => String a (trim_suffix r suf)
       end.

(** Is [sub] a substring of [s] ([strings.Contains]). *)
Fixpoint contains (s sub : string) : bool :=
  has_prefix s sub ||
  match s with
  | EmptyString => false
  | String _ r => contains r sub
  end.

(** * UTF-8: [utf8.DecodeRuneInString], [range] over a string, and
      [strings.Builder.WriteRune] / [utf8.EncodeRune]. *)

Local Open Scope N_scope.

(** [utf8.RuneError], U+FFFD. *)
Definition rune_error : N := 65533.

(** Accepted range of the second byte, from Go's [utf8.acceptRanges]. *)
Definition utf8_lo2 (b0 : N) : N :=
  if b0 =? 224 then 160 else if b0 =? 240 then 144 else 128.
Definition utf8_hi2 (b0 : N) : N :=
  if b0 =? 237 then 159 else if b0 =? 244 then 143 else 191.

Definition is_cont (n : N) : bool := (128 <=? n) && (n <=? 191).

(** The sequence of (rune, bytes consumed) that [range s] visits; every byte
    that does not start a valid encoding yields (U+FFFD, that byte). *)
Fixpoint segs (s : string) : list (N * string) :=
  match s with
  | EmptyString => []
  | String c0 r0 =>
      let n0 := N_of_ascii c0 in
      if n0 <? 128 then (n0, String c0 EmptyString) :: segs r0
      else if (n0 <? 194) || (244 <? n0) then (rune_error, String c0 EmptyString) :: segs r0
      else
        match r0 with
        | EmptyString => (rune_error, String c0 EmptyString) :: segs r0
        | String c1 r1 =>
            let n1 := N_of_ascii c1 in
            if negb ((utf8_lo2 n0 <=? n1) && (n1 <=? utf8_hi2 n0))
            then (rune_error, String c0 EmptyString) :: segs r0
            else if n0 <? 224
            then ((n0 - 192) * 64 + (n1 - 128), String c0 (String c1 EmptyString)) :: segs r1
            else
              match r1 with
              | EmptyString => (rune_error, String c0 EmptyString) :: segs r0
              | String c2 r2 =>
                  let n2 := N_of_ascii c2 in
                  if negb (is_cont n2)
                  then (rune_error, String c0 EmptyString) :: segs r0
                  else if n0 <? 240
                  then (((n0 - 224) * 64 + (n1 - 128)) * 64 + (n2 - 128),
                        String c0 (String c1 (String c2 EmptyString))) :: segs r2
                  else
                    match r2 with
                    | EmptyString => (rune_error, String c0 EmptyString) :: segs r0
                    | String c3 r3 =>
                        let n3 := N_of_ascii c3 in
                        if negb (is_cont n3)
                        then (rune_error, String c0 EmptyString) :: segs r0
                        else ((((n0 - 240) * 64 + (n1 - 128)) * 64 + (n2 - 128)) * 64 + (n3 - 128),
                              String c0 (String c1 (String c2 (String c3 EmptyString)))) :: segs r3
                    end
              end
        end
  end.

Definition byte (n : N) : ascii := ascii_of_N n.

(** [utf8.EncodeRune]; surrogates and values above U+10FFFF become U+FFFD. *)
Definition encode_rune (r : N) : string :=
  if r <? 128 then String (byte r) EmptyString
  else if r <? 2048 then
    String (byte (192 + r / 64)) (String (byte (128 + r mod 64)) EmptyString)
  else if ((55296 <=? r) && (r <=? 57343)) || (1114111 <? r) then
    String (byte 239) (String (byte 191) (String (byte 189) EmptyString))
  else if r <? 65536 then
    String (byte (224 + r / 4096))
      (String (byte (128 + (r / 64) mod 64)) (String (byte (128 + r mod 64)) EmptyString))
  else
    String (byte (240 + r / 262144))
      (String (byte (128 + (r / 4096) mod 64))
         (String (byte (128 + (r / 64) mod 64)) (String (byte (128 + r mod 64)) EmptyString))).

(** [unicode.IsSpace] (the White_Space property). *)
Definition rune_is_space (r : N) : bool :=
  ((9 <=? r) && (r <=? 13)) || (r =? 32) || (r =? 133) || (r =? 160) || (r =? 5760)
  || ((8192 <=? r) && (r <=? 8202)) || (r =? 8232) || (r =? 8233) || (r =? 8239)
  || (r =? 8287) || (r =? 12288).

Fixpoint drop_space (l : list (N * string)) : list (N * string) :=
  match l with
  | [] => []
  | (r, b) :: t => if rune_is_space r then drop_space t else l
  end.

(** [strings.TrimSpace]. *)
Definition trim_space (s : string) : string :=
  sconcat (map snd (rev (drop_space (rev (drop_space (segs s)))))).

(** * Character classes of the regular expressions in utils.go:28-29. *)
Definition is_upper (a : ascii) : bool :=
  let n := N_of_ascii a in (65 <=? n) && (n <=? 90).
Definition is_lower (a : ascii) : bool :=
  let n := N_of_ascii a in (97 <=? n) && (n <=? 122).
Definition is_digit (a : ascii) : bool :=
  let n := N_of_ascii a in (48 <=? n) && (n <=? 57).

Local Close Scope N_scope.

(** [fmt.Sprintf("%d", n)] for a non-negative int. *)
Definition itoa (n : N) : string := NilZero.string_of_uint (N.to_uint n).

(** ... and for any int. *)
Definition itoa_int (z : Z) : string :=
  if (z <? 0)%Z then "-" ++ itoa (Z.to_N (- z)) else itoa (Z.to_N z).

(** [strconv.Atoi]: optional sign, at least one decimal digit, nothing else,
    and the value must fit into int64 ([None] is the error case). *)
Local Open Scope Z_scope.

Fixpoint digits_value (acc : Z) (s : string) : option Z :=
  match s with
  | EmptyString => Some acc
  | String a r =>
      if is_digit a then digits_value (acc * 10 + (Z.of_N (N_of_ascii a) - 48)) r else None
  end.

Definition unsigned_value (s : string) : option Z :=
  match s with
  | EmptyString => None
  | _ => digits_value 0 s
  end.

Definition int64_check (z : Z) : option Z :=
  if (- 9223372036854775808 <=? z) && (z <=? 9223372036854775807) then Some z else None.

Definition atoi (s : string) : option Z :=
  match s with
  | EmptyString => None
  | String a r =>
      if Ascii.eqb a "-" then
        match unsigned_value r with Some z => int64_check (- z) | None => None end
      else if Ascii.eqb a "+" then
        match unsigned_value r with Some z => int64_check z | None => None end
      else
        match unsigned_value s with Some z => int64_check z | None => None end
  end.

Local Close Scope Z_scope.
