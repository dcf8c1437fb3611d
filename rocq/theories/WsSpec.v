(** What C115-C122 say about web socket connections. *)

From Coq Require Import List Arith Bool.
From Verif Require QueueModel QueueSpec.
From Verif Require Import WsModel.
Import ListNotations.

(** The close frames which were written. *)
Definition closes (w : list (option nat * frame)) : list frame :=
  filter (fun f => match f with CloseFrame _ => true | Message _ => false end) (map snd w).

(** The calls whose frames were written, in the order of their frames. *)
Definition written (w : list (option nat * frame)) : list nat :=
  flat_map (fun x => match fst x with Some t => [t] | None => [] end) w.

(** The frame an operation asks for. *)
Inductive asks : w_op -> frame -> Prop :=
  | asks_send : forall n, asks (WSend n) (Message n)
  | asks_close : forall c, asks (WClose c) (CloseFrame c).

(** The call number [t] asked for [f]. *)
Definition issued (ops : list w_op) (t : nat) (f : frame) : Prop :=
  exists i o, nth_error ops i = Some o /\ nth_error (w_outs w_init ops) i = Some (Started t) /\ asks o f.

(** The messages which arrived, and those which were given to callers of [receive]. *)
Definition arrived (os : list m_op) : list nat := flat_map (fun o => match o with MArrives v => [v] | _ => [] end) os.
Definition received (evs : list QueueModel.event) : list nat :=
  flat_map (fun e => match e with QueueModel.EvTook v => [v] | _ => [] end) evs.

(** One task receives at a time, and is not cancelled. *)
Definition one_receiver (max_queue : option nat) (os : list m_op) : Prop :=
  QueueSpec.one_consumer (messages max_queue) (map queue_op os) /\ forall c, ~ In (MCancel c) os.

(** Nothing arrives after the end. *)
Definition ends (os : list m_op) : Prop := forall a b v, os = a ++ MEnds :: b -> ~ In (MArrives v) b.

(** The code of a close frame which may be empty (RFC 6455, 7.1.5). *)
Definition payload_code (p : option (nat * nat)) : nat := match p with Some (c, _) => c | None => 1005 end.
