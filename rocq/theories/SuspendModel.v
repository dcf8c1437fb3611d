(** Model of [ThreadSuspenderContext] (scarletio/core/event_loop/event_thread_suspender.py 8-76), by which another thread makes an
    event loop stand still for the time of a [with] block.

    The loop has a queue of handles; a context is a number, and is used by one thread at a time. An event is a flag which stays set.
    Simplified: the loop is woken up ([wake_up] is not modelled); a loop which stops leaves its handles where they are. *)

From Coq Require Import List Arith Bool.
Import ListNotations.

Inductive handle := Give (c : nat) | Other.

(** The thread which uses a context. *)
Inductive user := Outside | Entering | Inside.

Record world := mk_world {
  running : bool;
  ready : list handle;
  held : option nat;           (* the context in whose [_give_control_cb] the loop is, 71-76 *)
  enter_event : nat -> bool;
  exit_event : nat -> bool;
  user_of : nat -> user;
  others : nat                 (* how many other handles the loop has run *)
}.

Definition init : world := mk_world false [] None (fun _ => false) (fun _ => false) (fun _ => Outside) 0.

Definition change {A} (f : nat -> A) (c : nat) (v : A) : nat -> A := fun d => if d =? c then v else f d.

Inductive op :=
| Enter (c : nat)   (* __enter__, 57-61 *)
| Entered (c : nat) (* 62-64, if the event is set *)
| Exit (c : nat)    (* __exit__, 66-69 *)
| Schedule          (* somebody adds another handle *)
| Turn              (* the loop runs its next handle *)
| Released          (* 76, if the event is set *)
| StartLoop | StopLoop.

Definition step (w : world) (a : op) : world :=
  match a with
  | Enter c =>
      match user_of w c with
      | Outside =>
          if running w then mk_world true (ready w ++ [Give c]) (held w) (enter_event w) (exit_event w) (change (user_of w) c Entering) (others w)
          else mk_world false (ready w) (held w) (enter_event w) (exit_event w) (change (user_of w) c Inside) (others w)
      | _ => w
      end
  | Entered c =>
      match user_of w c with
      | Entering => if enter_event w c then mk_world (running w) (ready w) (held w) (enter_event w) (exit_event w) (change (user_of w) c Inside) (others w) else w
      | _ => w
      end
  | Exit c =>
      match user_of w c with
      | Inside => mk_world (running w) (ready w) (held w) (enter_event w) (change (exit_event w) c true) (change (user_of w) c Outside) (others w)
      | _ => w
      end
  | Schedule => mk_world (running w) (ready w ++ [Other]) (held w) (enter_event w) (exit_event w) (user_of w) (others w)
  | Turn =>
      match running w, held w, ready w with
      | true, None, Give c :: l => mk_world true l (Some c) (change (enter_event w) c true) (exit_event w) (user_of w) (others w)
      | true, None, Other :: l => mk_world true l None (enter_event w) (exit_event w) (user_of w) (S (others w))
      | _, _, _ => w
      end
  | Released =>
      match held w with
      | Some c => if exit_event w c then mk_world (running w) (ready w) None (enter_event w) (exit_event w) (user_of w) (others w) else w
      | None => w
      end
  | StartLoop => mk_world true (ready w) (held w) (enter_event w) (exit_event w) (user_of w) (others w)
  | StopLoop =>
      match held w with
      | None => mk_world false (ready w) (held w) (enter_event w) (exit_event w) (user_of w) (others w)
      | Some _ => w
      end
  end.

Definition run (w : world) (l : list op) : world := fold_left step l w.
