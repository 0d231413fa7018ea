(** [path/filepath] on Unix: [Clean], [Join] of two elements, [Dir]. *)

From Coq Require Import String Ascii List Bool.
From Verif Require Import GoStr.
Import ListNotations.
Local Open Scope string_scope.

(** Path components that [Clean] looks at: empty ones and "." are skipped. *)
Definition path_comps (p : string) : list string :=
  filter (fun c => negb (String.eqb c "" || String.eqb c ".")) (split_on "/" p).

(** One component pushed on the (reversed) output of [Clean]; ".." removes the
    previous real component, is dropped at the root, and is kept otherwise. *)
Definition clean_step (rooted : bool) (out : list string) (c : string) : list string :=
  if String.eqb c ".." then
    match out with
    | [] => if rooted then [] else [".."]
    | top :: rest => if String.eqb top ".." then ".." :: out else rest
    end
  else c :: out.

Definition clean_comps (rooted : bool) (cs : list string) : list string :=
  rev (fold_left (clean_step rooted) cs []).

Definition is_rooted (p : string) : bool := has_prefix p "/".

(** [filepath.Clean]. *)
Definition clean (p : string) : string :=
  let out := clean_comps (is_rooted p) (path_comps p) in
  if is_rooted p then "/" ++ sjoin "/" out
  else match out with [] => "." | _ => sjoin "/" out end.

(** [filepath.Join(a, b)]. *)
Definition join2 (a b : string) : string :=
  if String.eqb a "" then (if String.eqb b "" then "" else clean b)
  else clean (a ++ "/" ++ b).

(** The path up to and including its last separator. *)
Fixpoint dir_part (p : string) : string :=
  match p with
  | EmptyString => EmptyString
  | String a r => if has_char "/" p then String a (dir_part r) else EmptyString
  end.

(** [filepath.Dir]. *)
Definition dir (p : string) : string := clean (dir_part p).
