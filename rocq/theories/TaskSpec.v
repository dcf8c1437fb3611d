(** What C04-C06 say about tasks. *)

From Coq Require Import List Arith Bool.
From Verif Require Import TaskModel.
Import ListNotations.

(** Number of things that are going to run the coroutine of [t]: queued handles and registrations on futures. *)
Definition reasons (w : world) (t : nat) : nat :=
  count_occ Nat.eq_dec (map htask (w_ready w)) t + count_occ Nat.eq_dec (map snd (w_regs w)) t.

Definition live (w : world) (t : nat) : bool :=
  (t <? w_next w) && x_task (w_ent w t) && negb (is_done (w_ent w t)).

Definition running (w : world) (t : nat) : bool :=
  match w_running w with Some u => Nat.eqb u t | None => false end.

(** The coroutine notices the cancellation: [CancelledError] is thrown into it, or the future it awaits ended cancelled;
    or it awaited another task, to which the cancellation was handed on. *)
Definition interrupting (k : kind) : Prop :=
  match k with
  | KThrow => True
  | KSend => False
  | KAwaited f task o => task = true \/ exists e, o = Some (OutCancelled e)
  end.

(** The next resumption of [t], if any. *)
Fixpoint next_resume (t : nat) (evs : list event) : option kind :=
  match evs with
  | [] => None
  | EvResume u k :: evs' => if Nat.eqb u t then Some k else next_resume t evs'
  | _ :: evs' => next_resume t evs'
  end.

(** [t] is a pending task that waits, through a chain of pending tasks, for the pending task [g]. *)
Inductive chain (w : world) : nat -> nat -> Prop :=
  | chain_self : forall t, x_task (w_ent w t) = true -> x_done (w_ent w t) = None -> chain w t t
  | chain_next : forall t f g, x_task (w_ent w t) = true -> x_done (w_ent w t) = None ->
      x_waited (w_ent w t) = Some f -> x_done (w_ent w f) = None -> chain w f g -> chain w t g.

(** Things that may happen while a coroutine executes. *)
Definition inner (o : op) : Prop := match o with OBegin | OEnd _ => False | _ => True end.
