(** Model of the flow control of a protocol: /repo/scarletio/core/protocols_and_transports/protocol.py:534-556 (_pause_reading, _resume_reading),
    :1233-1285 (pause_writing, resume_writing, _drain_helper, connection_lost), :1324-1336 (drain), with
    transport_layer.py:660-678 (pause_reading, resume_reading).

    [told]: the transport's last word about writing. It calls [pause_writing] and [resume_writing] by turns and nothing after
    [connection_lost] (C43_flow), so the other calls do nothing here. [waiters] are the futures on which [drain] waits, in order of creation.
    The size of the received data comes with each arrival. Not here: the payload reader, transports which cannot be paused. *)

From Coq Require Import List Arith Bool.
Import ListNotations.

Inductive wait := Pending | Woken | Failed | Cancelled.

Record state := {
  paused : bool;           (* _paused *)
  waiter : option nat;     (* _drain_waiter *)
  waiters : list wait;
  exception : bool;        (* _exception is not None *)
  reading : bool;          (* not transport._paused *)
  told : bool;
  lost : bool
}.

Definition initial : state :=
  {| paused := false; waiter := None; waiters := []; exception := false; reading := true; told := false; lost := false |}.

Fixpoint update (l : list wait) (i : nat) (w : wait) : list wait :=
  match l, i with [], _ => [] | _ :: l', 0 => w :: l' | x :: l', S i' => x :: update l' i' w end.

(** set_result_if_pending and its likes *)
Definition finish (l : list wait) (i : nat) (w : wait) : list wait :=
  match nth_error l i with Some Pending => update l i w | _ => l end.

(** pause_writing, :1233-1234 *)
Definition pause_writing (s : state) : state :=
  {| paused := true; waiter := waiter s; waiters := waiters s; exception := exception s; reading := reading s; told := true; lost := lost s |}.

(** resume_writing, :1238-1246 *)
Definition resume_writing (s : state) : state :=
  {| paused := false; waiter := None; waiters := match waiter s with None => waiters s | Some i => finish (waiters s) i Woken end;
     exception := exception s; reading := reading s; told := false; lost := lost s |}.

(** connection_lost, :1266-1285; the [eof_received] / [set_exception] part only as far as [_exception] *)
Definition connection_lost (s : state) (error : bool) : state :=
  {| paused := paused s; waiter := if paused s then None else waiter s;
     waiters := if paused s then match waiter s with None => waiters s | Some i => finish (waiters s) i (if error then Failed else Woken) end
                else waiters s;
     exception := exception s || error; reading := reading s; told := told s; lost := true |}.

Inductive out := Returns | Raises | Waits (i : nat) | Nothing.

(** _drain_helper, :1249-1260 *)
Definition drain_helper (s : state) : state * out :=
  if negb (paused s) then (s, Returns)
  else ({| paused := paused s; waiter := Some (length (waiters s)); waiters := waiters s ++ [Pending]; exception := exception s;
           reading := reading s; told := told s; lost := lost s |}, Waits (length (waiters s))).

(** drain, :1325-1336, up to the optional skipped cycle; the rest is [drain_helper] *)
Definition drain (s : state) : state * out := if exception s then (s, Raises) else drain_helper s.

(** _pause_reading, :534-548; [big]: get_size() > BUFFER_SIZE_MAX *)
Definition pause_reading (s : state) (big : bool) : state :=
  if big && negb (paused s)
  then {| paused := true; waiter := waiter s; waiters := waiters s; exception := exception s; reading := false; told := told s; lost := lost s |}
  else s.

(** _resume_reading, :550-556 *)
Definition resume_reading (s : state) : state :=
  if paused s
  then {| paused := false; waiter := waiter s; waiters := waiters s; exception := exception s; reading := true; told := told s; lost := lost s |}
  else s.

Inductive op := Pause_writing | Resume_writing | Lost (error : bool) | Drain | Drain_helper | Cancel (i : nat) | Received (big : bool) | Want_data.

Definition step (s : state) (o : op) : state * out :=
  match o with
  | Pause_writing => (if told s || lost s then s else pause_writing s, Nothing)
  | Resume_writing => (if negb (told s) || lost s then s else resume_writing s, Nothing)
  | Lost error => (if lost s then s else connection_lost s error, Nothing)
  | Drain => drain s
  | Drain_helper => drain_helper s
  | Cancel i => ({| paused := paused s; waiter := waiter s; waiters := finish (waiters s) i Cancelled; exception := exception s;
                    reading := reading s; told := told s; lost := lost s |}, Nothing)
  | Received big => (if reading s && negb (lost s) then pause_reading s big else s, Nothing)
  | Want_data => (resume_reading s, Nothing)
  end.

Fixpoint run (s : state) (os : list op) : state :=
  match os with [] => s | o :: os' => run (fst (step s o)) os' end.
