(** stack.go on top of Go's container/list. *)

From Coq Require Import List Arith.
Import ListNotations.

Section Stack.
Context {A : Type}.

(** container/list.List: the values from front to back. *)
Definition golist : Type := list A.
Definition list_push_back (v : A) (l : golist) : golist := l ++ [v].
(** Back returns the last element or nil; an element is identified by its
    position. *)
Definition list_back (l : golist) : option nat :=
  match length l with O => None | S n => Some n end.
(** e.Value *)
Definition list_value (i : nat) (l : golist) : option A := nth_error l i.
(** Remove(e): unlink the element at that position. *)
Definition list_remove (i : nat) (l : golist) : golist := firstn i l ++ skipn (S i) l.
Definition list_len (l : golist) : nat := length l.

(** stack.go:14-16 *)
Definition stack : Type := golist.
(** stack.go:19-22 NewStack *)
Definition new_stack : stack := [].
(** stack.go:25-27 Push *)
Definition push (v : A) (s : stack) : stack := list_push_back v s.
(** stack.go:30-37 Pop: nil is [None] *)
Definition pop (s : stack) : option A * stack :=
  match list_back s with
  | Some e => (list_value e s, list_remove e s)
  | None => (None, s)
  end.
(** stack.go:40-46 Peek *)
Definition peek (s : stack) : option A :=
  match list_back s with
  | Some e => list_value e s
  | None => None
  end.
(** stack.go:49-51 Len *)
Definition len (s : stack) : nat := list_len s.
(** stack.go:54-56 Empty *)
Definition empty (s : stack) : bool := Nat.eqb (list_len s) 0.

(** A history of calls and the results they return. *)
Inductive op : Type := Push (v : A) | Pop | Peek | Len | Empty.
Inductive result : Type := RNone | RValue (v : option A) | RLen (n : nat) | RBool (b : bool).

Definition step (s : stack) (o : op) : stack * result :=
  match o with
  | Push v => (push v s, RNone)
  | Pop => let '(v, s') := pop s in (s', RValue v)
  | Peek => (s, RValue (peek s))
  | Len => (s, RLen (len s))
  | Empty => (s, RBool (empty s))
  end.

Fixpoint run (s : stack) (os : list op) : list result :=
  match os with
  | [] => []
  | o :: r => let '(s', x) := step s o in x :: run s' r
  end.

End Stack.
Arguments op : clear implicits.
Arguments result : clear implicits.
Arguments stack : clear implicits.
