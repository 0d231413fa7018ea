(** Specification vocabulary for the string-level properties.  Nothing here
    mentions the model functions of Utils.v or of the generators. *)

From Coq Require Import String Ascii List NArith Bool.
From Verif Require Import GoStr Utf8 Base.
Import ListNotations.
Local Open Scope string_scope.

Definition starts_with (s p : string) : Prop := exists r, s = p ++ r.
Definition ends_with (s e : string) : Prop := exists p, s = p ++ e.

(** An extension with its leading dot. *)
Definition dotted (ext : string) : string :=
  match ext with
  | String "."%char _ => ext
  | _ => String "." ext
  end.

Definition ascii_only (s : string) : Prop := all_bytes (fun a => (N_of_ascii a <? 128)%N) s = true.

(** Byte strings that are the UTF-8 encoding of some rune sequence. *)
Definition well_formed (s : string) : Prop :=
  exists rs, Forall scalar rs /\ s = sconcat (map encode_rune rs).

(** The runes a Go [range] loop visits. *)
Definition runes (s : string) : list N := map fst (segs s).

Definition ascii_upper (a : ascii) : ascii :=
  if is_lower a then ascii_of_N (N_of_ascii a - 32) else a.
Definition ascii_lower (a : ascii) : ascii :=
  if is_upper a then ascii_of_N (N_of_ascii a + 32) else a.

Fixpoint map_bytes (f : ascii -> ascii) (s : string) : string :=
  match s with
  | EmptyString => EmptyString
  | String a r => String (f a) (map_bytes f r)
  end.

(** Case mapping of one rune: ASCII by definition, the rest by the Unicode
    tables of the environment. *)
Definition rune_upper {E : Env} (r : N) : N :=
  if (128 <=? r)%N then env_upper r else N_of_ascii (ascii_upper (ascii_of_N r)).
Definition rune_lower {E : Env} (r : N) : N :=
  if (128 <=? r)%N then env_lower r else N_of_ascii (ascii_lower (ascii_of_N r)).

(** What the code needs from the Unicode tables.  All three hold for the
    tables shipped with Go. *)
Definition upper_idempotent (E : Env) : Prop :=
  forall r, (128 <= r)%N -> rune_upper (norm_rune (env_upper r)) = norm_rune (env_upper r).
Definition lower_idempotent (E : Env) : Prop :=
  forall r, (128 <= r)%N -> rune_lower (norm_rune (env_lower r)) = norm_rune (env_lower r).
Definition lower_no_capital (E : Env) : Prop :=
  forall r, (128 <= r)%N -> ~ (65 <= env_lower r <= 90)%N /\ env_lower r <> 45%N /\ env_lower r <> 95%N.

(** Byte [c] does not occur in [s]. *)
Definition free_of (c : ascii) (s : string) : Prop := forall a b, s <> a ++ String c b.

(** No ASCII capital occurs in [s]. *)
Definition no_capital (s : string) : Prop :=
  forall c, (65 <= N_of_ascii c <= 90)%N -> free_of c s.

Definition erase (c : ascii) (s : string) : string := sconcat (split_on c s).

Definition LF : ascii := "010".

(** The text lines of a doc comment: the lines of the documentation without
    tabs, the first one introduced by the name. *)
Definition comment_text (name doc : string) : list string :=
  match doc with
  | EmptyString => [name ++ " ..."]
  | _ => match map (erase "009") (split_on LF doc) with
         | h :: t => (name ++ " is " ++ h) :: t
         | [] => []
         end
  end.

(** The reserved words of Rust 2021 (strict, 2018+ strict and reserved
    keywords of the Rust reference). *)
Definition rust_reserved : list string :=
  ["as"; "break"; "const"; "continue"; "crate"; "else"; "enum"; "extern"; "false"; "fn"; "for"; "if";
   "impl"; "in"; "let"; "loop"; "match"; "mod"; "move"; "mut"; "pub"; "ref"; "return"; "self"; "Self";
   "static"; "struct"; "super"; "trait"; "true"; "type"; "unsafe"; "use"; "where"; "while";
   "async"; "await"; "dyn";
   "abstract"; "become"; "box"; "do"; "final"; "macro"; "override"; "priv"; "typeof"; "unsized";
   "virtual"; "yield"; "try"].

(** Where snake case separates words: between a lower-case letter or digit and
    a capital, and before the last capital of a run of capitals that is
    followed by a lower-case letter. *)
Definition word_boundary (a b : ascii) (rest : string) : bool :=
  ((is_lower a || is_digit a) && is_upper b)
  || (is_upper a && is_upper b && match rest with String c _ => is_lower c | _ => false end).

Fixpoint separated (s : string) : string :=
  match s with
  | EmptyString => EmptyString
  | String a r =>
      match r with
      | EmptyString => s
      | String b t => if word_boundary a b t then String a (String "_" (separated r)) else String a (separated r)
      end
  end.

(** The two parts of a name with exactly one colon; other names have no prefix. *)
Definition prefix_part (v : string) : string := match split_on ":" v with [p; _] => p | _ => "" end.
Definition local_part (v : string) : string := match split_on ":" v with [_; n] => n | _ => v end.
