(** Vocabulary for two generator runs at the same time. *)

From Coq Require Import String List ZArith Bool.
From Verif Require Import GoStr Base Utils SpecGen Concurrent.
Import ListNotations.
Local Open Scope string_scope.

(** The identifiers, without numbers, that a run takes from the shared counter. *)
Definition taken {E : Env} (l : lang) (pt : list proto) : list string :=
  map (SpecGen.plain_ident l) (filter (counting l) (map fst (rendered l [] pt))).

(** The parts of a run that go into the file: declarations and imports. *)
Definition same_text (g g' : GState) : Prop := g_field g = g_field g' /\ g_time g = g_time g' /\ g_xml g = g_xml g'.

(** A run is in the middle of an entry from its first access to its last. *)
Definition midway (r : frun) : bool :=
  match r with FWaiting | FWorking _ _ Outside => false | _ => true end.

(** No run starts while the other one is in the middle of an entry. *)
Fixpoint calm (e1 : list proto -> GState -> proto -> GState) (pt1 : list proto)
    (e2 : list proto -> GState -> proto -> GState) (pt2 : list proto)
    (schedule : list bool) (h : memory) (r1 r2 : frun) : Prop :=
  match schedule with
  | [] => True
  | true :: s =>
      (r1 = FWaiting -> midway r2 = false) /\
      let '(h', r1') := fadvance e1 pt1 h r1 in calm e1 pt1 e2 pt2 s h' r1' r2
  | false :: s =>
      (r2 = FWaiting -> midway r1 = false) /\
      let '(h', r2') := fadvance e2 pt2 h r2 in calm e1 pt1 e2 pt2 s h' r1 r2'
  end.

(** The next access of a run to the shared variable or to one of the maps. *)
Inductive access : Type := StoresVariable | LoadsVariable | ReadsMap (a : nat) | StoresMap (a : nat) | NoAccess.

Definition next_access (entry : list proto -> GState -> proto -> GState) (pt : list proto) (r : frun) : access :=
  match r with
  | FWaiting => StoresVariable
  | FWorking [] _ _ => NoAccess
  | FWorking (p :: _) g at_ =>
      match asked entry pt g p, at_ with
      | [], _ => NoAccess
      | _, Outside | _, Stored => LoadsVariable
      | _, Loaded a | _, Reloaded a => ReadsMap a
      | _, Got a _ => StoresMap a
      end
  end.

(** Two accesses to the same place, one of them a store, with nothing that puts
    them in an order: a data race; for a map, the Go runtime may end the program. *)
Definition race (a b : access) : Prop :=
  match a, b with
  | StoresVariable, StoresVariable | StoresVariable, LoadsVariable | LoadsVariable, StoresVariable => True
  | StoresMap x, StoresMap y | StoresMap x, ReadsMap y | ReadsMap x, StoresMap y => x = y
  | _, _ => False
  end.
