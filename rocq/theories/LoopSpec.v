(** What C07-C09 say about the event loop, in terms of the events of a history. *)

From Coq Require Import List ZArith Bool Permutation.
From Verif Require Import LoopModel.
Import ListNotations.
Open Scope Z_scope.

(** What is used of [heapq]: [scheduled[0]] / [heappop] give one of the smallest elements and leave the others. *)
Definition heap_pick (pick : list timer -> option (timer * list timer)) : Prop :=
  (forall l, pick l = None -> l = []) /\
  (forall l x r, pick l = Some (x, r) -> Permutation l (x :: r) /\ forall y, In y l -> fst x <= fst y).

(** Handles made by [call_soon], in the order of the calls. *)
Definition created_soon (evs : list event) : list nat :=
  flat_map (fun e => match e with EvCreated (ISoon h) => [h] | _ => [] end) evs.
(** Handles of [call_soon] that had their turn (ran or were skipped since cancelled), in order. *)
Definition turns_soon (evs : list event) : list nat :=
  flat_map (fun e => match e with EvRan (ISoon h) => [h] | EvSkipped (ISoon h) => [h] | _ => [] end) evs.
Definition waiting_soon (l : list item) : list nat :=
  flat_map (fun i => match i with ISoon h => [h] | _ => [] end) l.

(** Handles made by [call_soon], [call_at]. *)
Definition created (evs : list event) : list nat :=
  flat_map (fun e => match e with EvCreated (ISoon h) => [h] | EvCreated (ITimer _ h) => [h] | _ => [] end) evs.
(** Handles whose callback ran. *)
Definition ran (evs : list event) : list nat :=
  flat_map (fun e => match e with EvRan (ISoon h) => [h] | EvRan (ITimer _ h) => [h] | _ => [] end) evs.
(** Handles that were disposed of without running. *)
Definition discarded (evs : list event) : list nat :=
  flat_map (fun e => match e with
                     | EvSkipped (ISoon h) => [h] | EvSkipped (ITimer _ h) => [h] | EvDropped h => [h]
                     | _ => [] end) evs.
Definition handles (l : list item) : list nat :=
  flat_map (fun i => match i with ISoon h => [h] | ITimer _ h => [h] | IReader _ => [] end) l.

(** Deadlines of the timers moved by one cycle. *)
Definition moved_deadlines (evs : list event) : list Z :=
  flat_map (fun e => match e with EvMoved w _ => [w] | _ => [] end) evs.

Fixpoint nondecreasing (l : list Z) : Prop :=
  match l with
  | [] => True
  | x :: l' => (forall y, In y l' -> x <= y) /\ nondecreasing l'
  end.
