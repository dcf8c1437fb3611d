(** What a task which moves a block into an executor relies on. *)

From Coq Require Import List Arith Bool.
From Verif Require Import SwitchModel.
Import ListNotations.

Definition undisturbed (m : list op) : Prop := ~ In Cancel m.

(** Nothing happens any more by itself. *)
Definition stuck (l : list item) (w : world) : Prop := forall a, a <> Cancel -> step l w a = w.

(** Everyone gets their turn, [k] times. *)
Fixpoint rounds (k : nat) : list op := match k with 0 => [] | S k => [Enter; Start; Exec; InnerDone; InLoop] ++ rounds k end.

(** The work of the block, in the executor; [n] items of the rest, in the thread of the loop. *)
Definition block_part (l : list item) : list (bool * thread) := flat_map (fun i => match i with Work => [(true, Executor)] | Await => [] end) l.
Definition rest_part (n : nat) : list (bool * thread) := repeat (false, TheLoop) n.

(** The task awaits something in the block. *)
Definition awaiting (w : world) : Prop := at_ w = Waiting /\ inner w = Pending.
