(** Two generator runs that share the global fieldNameCount (utils.go:30).  A run
    first replaces the map by an empty one (e.g. genGo.go:62) and then processes
    its entries; in between the other run may take steps.  All other state of a
    run is its own.  Twice: with whole entries as steps, and with single accesses
    to the variable and to the map as steps. *)

From Coq Require Import String Ascii List NArith ZArith Bool.
From Verif Require Import GoStr Base Utils GenGo GenC GenJava GenRust GenTS GenText.
Import ListNotations.
Local Open Scope string_scope.

Section Concurrent.
Context {E : Env}.

(** * Steps that are entries *)

Definition with_count (m : smap Z) (g : GState) : GState :=
  mkG (g_field g) (g_ast g) (g_time g) (g_xml g) m.

(** A run: nothing done yet, or entries left to do and the state reached. *)
Inductive run_state : Type := Waiting | Working (todo : list proto) (g : GState).

Definition advance (entry : list proto -> GState -> proto -> GState) (pt : list proto) (m : smap Z) (r : run_state)
  : smap Z * run_state :=
  match r with
  | Waiting => ([], Working pt g_init)
  | Working [] g => (m, r)
  | Working (p :: rest) g => let g' := entry pt (with_count m g) p in (g_count g', Working rest g')
  end.

(** [true]: the first run takes the next step. *)
Fixpoint interleave (e1 : list proto -> GState -> proto -> GState) (pt1 : list proto)
    (e2 : list proto -> GState -> proto -> GState) (pt2 : list proto)
    (schedule : list bool) (m : smap Z) (r1 r2 : run_state) : smap Z * run_state * run_state :=
  match schedule with
  | [] => (m, r1, r2)
  | true :: s => let '(m', r1') := advance e1 pt1 m r1 in interleave e1 pt1 e2 pt2 s m' r1' r2
  | false :: s => let '(m', r2') := advance e2 pt2 m r2 in interleave e1 pt1 e2 pt2 s m' r1 r2'
  end.

(** * Steps that are accesses

    The variable fieldNameCount holds a reference to a map.  A run starts with
    storing a reference to a new map.  An entry that numbers an identifier does
      fieldNameCount[name]++         load the reference, read the number, store it
      count := fieldNameCount[name]  load the reference again, read the number
    (genGo.go:109-110, genC.go:76-77, genJava.go:77-78, genRust.go:152-153,
    genTypeScript.go:61-62), five steps between each of which the other run may
    take steps.  Accesses are atomic and happen in the order of the program; the
    check of the Go runtime that may end a program with overlapping accesses to
    a map is left out. *)

(** All maps made so far, and the one the variable refers to. *)
Record memory : Type := mkMem { maps : list (smap Z); here : nat }.

Definition map_at (a : nat) (h : memory) : smap Z := nth a (maps h) [].
Definition number (x : string) (m : smap Z) : Z := match get x m with Some c => c | None => 0%Z end.

Fixpoint change {A} (a : nat) (f : A -> A) (l : list A) : list A :=
  match l, a with
  | [], _ => []
  | x :: r, O => f x :: r
  | x :: r, S a => x :: change a f r
  end.

Definition new_map (h : memory) : memory := mkMem (maps h ++ [[]]) (length (maps h)).
Definition store (a : nat) (x : string) (c : Z) (h : memory) : memory :=
  mkMem (change a (put x c) (maps h)) (here h).

(** Where a run is within an entry. *)
Inductive place : Type :=
| Outside                           (* no access of the entry done *)
| Loaded (a : nat)                  (* reference loaded for the increment *)
| Got (a : nat) (c : Z)             (* number read for the increment *)
| Stored                            (* number stored *)
| Reloaded (a : nat).               (* reference loaded for the second line *)

Inductive frun : Type := FWaiting | FWorking (todo : list proto) (g : GState) (at_ : place).

(** The identifier an entry numbers, if any: what it leaves in an empty map. *)
Definition asked (entry : list proto -> GState -> proto -> GState) (pt : list proto) (g : GState) (p : proto)
  : list string := map fst (g_count (entry pt (with_count [] g) p)).

(** The entry when the last access gives [c]: what it does on a map that makes
    it arrive at [c]. *)
Definition given (entry : list proto -> GState -> proto -> GState) (pt : list proto) (g : GState) (p : proto)
    (x : string) (c : Z) : GState :=
  with_count [] (entry pt (with_count [(x, (c - 1)%Z)] g) p).

Definition fadvance (entry : list proto -> GState -> proto -> GState) (pt : list proto) (h : memory) (r : frun)
  : memory * frun :=
  match r with
  | FWaiting => (new_map h, FWorking pt g_init Outside)
  | FWorking [] g _ => (h, r)
  | FWorking (p :: rest) g at_ =>
      match asked entry pt g p with
      | [] => (h, FWorking rest (with_count [] (entry pt (with_count [] g) p)) Outside)
      | x :: _ =>
          match at_ with
          | Outside => (h, FWorking (p :: rest) g (Loaded (here h)))
          | Loaded a => (h, FWorking (p :: rest) g (Got a (number x (map_at a h))))
          | Got a c => (store a x (c + 1) h, FWorking (p :: rest) g Stored)
          | Stored => (h, FWorking (p :: rest) g (Reloaded (here h)))
          | Reloaded a => (h, FWorking rest (given entry pt g p x (number x (map_at a h))) Outside)
          end
      end
  end.

Fixpoint finterleave (e1 : list proto -> GState -> proto -> GState) (pt1 : list proto)
    (e2 : list proto -> GState -> proto -> GState) (pt2 : list proto)
    (schedule : list bool) (h : memory) (r1 r2 : frun) : memory * frun * frun :=
  match schedule with
  | [] => (h, r1, r2)
  | true :: s => let '(h', r1') := fadvance e1 pt1 h r1 in finterleave e1 pt1 e2 pt2 s h' r1' r2
  | false :: s => let '(h', r2') := fadvance e2 pt2 h r2 in finterleave e1 pt1 e2 pt2 s h' r1 r2'
  end.

End Concurrent.
