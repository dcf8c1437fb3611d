(** Model of an open web socket connection: /repo/scarletio/web_socket/web_socket_common_protocol.py without extensions.

    Three parts: the writers ([send], [ping], [pong], [write_close_frame], [fail_connection]) on the lock of LockModel.v, the end of
    the connection ([transfer_data] from the point where reading ends, [close_connection], [connection_lost]) with the transport
    (core/protocols_and_transports/transport_layer.py; for [ssl] the SSL layer is taken to close like it), and the queue of received
    messages (QueueModel.v). Every part between two suspensions is one operation; any operation may come next. Frames are labels; how
    they are written and read is FrameModel.v. Not here: the opening handshake, extensions, destroyed generators, [ping] waiters. *)

From Coq Require Import List Arith Bool.
From Verif Require LockModel QueueModel.
Import ListNotations.

Inductive ws_state := Connecting | Open | Closing | Closed.
Definition is_open (x : ws_state) : bool := match x with Open => true | _ => false end.

(** * Writing *)

(** [Message]: text, binary, ping and pong frames. *)
Inductive frame := Message (n : nat) | CloseFrame (code : nat).

Record writer := mk_writer {
  w_state : ws_state;
  w_reading : bool;                      (* transfer_data_task is not done *)
  w_lock : LockModel.lock;               (* _drain_lock *)
  w_frame : nat -> frame;                (* the frame of a call which has got to the lock *)
  w_dead : bool;                         (* the transport does not write anymore *)
  w_wire : list (option nat * frame)     (* what was written, with the call; None: by fail_connection *)
}.

(** [connection_open], 216-225 *)
Definition w_init : writer := mk_writer Open true (LockModel.lock_init 1) (fun _ => Message 0) false [].

Inductive w_op :=
  | WSend (n : nat)       (* send, ping or pong is called *)
  | WClose (code : nat)   (* write_close_frame is called: by close, or since the peer has sent a close frame *)
  | WFail (code : nat)    (* fail_connection *)
  | WResume (t : nat)     (* the event loop resumes the call, which waits for the lock *)
  | WRelease (t : nat)    (* drain is over or raised: the call leaves the lock *)
  | WCancel (t : nat)     (* the task of the call, which waits for the lock, is cancelled *)
  | WTransferDone         (* transfer_data ends *)
  | WDead                 (* the transport is closed, lost or at eof *)
  | WLost.                (* connection_lost *)

Inductive w_out := Refused | Started (t : nat) | Left (t : nat) | Raised (t : nat) | Nothing.

Definition with_lock (s : writer) (l : LockModel.lock) : writer :=
  mk_writer (w_state s) (w_reading s) l (w_frame s) (w_dead s) (w_wire s).

(** [write_web_socket_frame]; http_protocol.py:785-811, transport_layer.py:596-605 *)
Definition emit (s : writer) (t : option nat) (f : frame) : writer :=
  if w_dead s then s else mk_writer (w_state s) (w_reading s) (w_lock s) (w_frame s) (w_dead s) (w_wire s ++ [(t, f)]).

(** 897-908: the call [t] got the lock. *)
Definition entered (s : writer) (t : nat) : writer := emit s (Some t) (w_frame s t).

(** [write_frame], 892-908, in the expected state. *)
Definition write_frame (s : writer) (f : frame) : writer * w_out :=
  let t := LockModel.l_next (w_lock s) in
  let '(l, e) := LockModel.acquire (w_lock s) in
  let s := mk_writer (w_state s) (w_reading s) l (fun x => if x =? t then f else w_frame s x) (w_dead s) (w_wire s) in
  match e with
  | LockModel.EvAcquired _ => (entered s t, Started t)
  | LockModel.EvWaits _ => (s, Started t)
  | _ => (s, Raised t)
  end.

Definition set_state (s : writer) (x : ws_state) : writer :=
  mk_writer x (w_reading s) (w_lock s) (w_frame s) (w_dead s) (w_wire s).

(** [ensure_open], 537-556: [false] when it raises, at once or after waiting. *)
Definition ensure_open (s : writer) : bool := is_open (w_state s) && w_reading s.

Definition w_step (s : writer) (o : w_op) : writer * w_out :=
  match o with
  | WSend n => (* 344-356, 463-483, 507-520 *) if ensure_open s then write_frame s (Message n) else (s, Refused)
  | WClose code => (* 943-945 *)
      if is_open (w_state s) then write_frame (set_state s Closing) (CloseFrame code) else (s, Nothing)
  | WFail code => (* 1068-1083 *)
      if negb (code =? 1006) && is_open (w_state s) then (emit (set_state s Closing) None (CloseFrame code), Nothing) else (s, Nothing)
  | WResume t =>
      let '(l, e) := LockModel.resume (w_lock s) t in
      match e with
      | LockModel.EvAcquired _ => (entered (with_lock s l) t, Nothing)
      | LockModel.EvRaised _ => (with_lock s l, Raised t)
      | _ => (with_lock s l, Nothing)
      end
  | WRelease t =>
      let '(l, e) := LockModel.release (w_lock s) t in
      (with_lock s l, match e with LockModel.EvDone => Left t | _ => Nothing end)
  | WCancel t => (with_lock s (fst (LockModel.cancel (w_lock s) t)), Nothing)
  | WTransferDone => (mk_writer (w_state s) false (w_lock s) (w_frame s) (w_dead s) (w_wire s), Nothing)
  | WDead => (mk_writer (w_state s) (w_reading s) (w_lock s) (w_frame s) true (w_wire s), Nothing)
  | WLost => (mk_writer Closed (w_reading s) (w_lock s) (w_frame s) true (w_wire s), Nothing)
  end.

Fixpoint w_run (s : writer) (os : list w_op) : writer :=
  match os with [] => s | o :: os' => w_run (fst (w_step s o)) os' end.
Fixpoint w_outs (s : writer) (os : list w_op) : list w_out :=
  match os with [] => [] | o :: os' => snd (w_step s o) :: w_outs (fst (w_step s o)) os' end.

(** * Ending *)

(** The socket transport, transport_layer.py. *)
Record transport := mk_transport {
  t_buffered : bool;    (* data waits in the buffer *)
  t_closing : bool;     (* _closing *)
  t_scheduled : bool;   (* _connection_lost: _call_connection_lost is scheduled, or was run *)
  t_gone : bool;        (* _call_connection_lost was run: the socket is closed *)
  t_reading : bool;     (* the reader is registered *)
  t_aborted : bool      (* abort was called *)
}.

(** 315-324 *)
Definition t_close (t : transport) : transport :=
  if t_closing t then t else mk_transport (t_buffered t) true (t_scheduled t || negb (t_buffered t)) (t_gone t) false (t_aborted t).
(** [_force_close], 433-461 *)
Definition t_force (t : transport) : transport :=
  if t_scheduled t then t else mk_transport false true true (t_gone t) false (t_aborted t).
(** 327-329 *)
Definition t_abort (t : transport) : transport :=
  let t := t_force t in mk_transport (t_buffered t) (t_closing t) (t_scheduled t) (t_gone t) (t_reading t) true.
(** [_write_ready] with everything sent, 769-812 *)
Definition t_flush (t : transport) : transport :=
  if t_scheduled t then t else mk_transport false (t_closing t) (t_closing t) (t_gone t) (t_reading t) (t_aborted t).

(** How [transfer_data] ended: code and reason of the [ConnectionClosed] for [receive]; whether it raises CancelledError. *)
Record ending := mk_ending { x_code : nat; x_reason : option nat; x_cancelled : bool }.

Record endpoint := mk_endpoint {
  e_client : bool;                (* is_client *)
  e_ssl : bool;                   (* is_ssl *)
  e_state : ws_state;
  e_code : nat;                   (* close_code *)
  e_reason : option nat;          (* close_reason *)
  e_waiter : bool;                (* connection_lost_waiter is done *)
  e_transfer : option ending;     (* None: transfer_data_task is not done *)
  e_closer : bool;                (* close_connection_task is done *)
  e_transport : transport;
  e_sent : list nat               (* codes of the close frames which were written *)
}.

Definition e_init (client ssl : bool) : endpoint :=
  mk_endpoint client ssl Open 0 None false None false (mk_transport false false false false true false) [].

Definition on_transport (f : transport -> transport) (e : endpoint) : endpoint :=
  mk_endpoint (e_client e) (e_ssl e) (e_state e) (e_code e) (e_reason e) (e_waiter e) (e_transfer e) (e_closer e) (f (e_transport e)) (e_sent e).

(** Whether an open connection gets closing, with a close frame. *)
Definition send_close (code : nat) (e : endpoint) : endpoint :=
  if is_open (e_state e)
  then mk_endpoint (e_client e) (e_ssl e) Closing (e_code e) (e_reason e) (e_waiter e) (e_transfer e) (e_closer e) (e_transport e) (e_sent e ++ [code])
  else e.

Definition or_default (n d : nat) : nat := if n =? 0 then d else n.

Definition end_transfer (e : endpoint) (x : ending) (waiter : bool) : endpoint :=
  mk_endpoint (e_client e) (e_ssl e) (e_state e) (e_code e) (e_reason e) (e_waiter e || waiter) (Some x) (e_closer e) (e_transport e) (e_sent e).

(** A close frame is read, 790-809 with its code and its reason, 801-802 if it is empty; then 571-573 and 622-634. *)
Definition peer_closes (e : endpoint) (payload : option (nat * nat)) : endpoint :=
  let code := match payload with Some (c, _) => c | None => 1005 end in
  let reason := match payload with Some (_, r) => Some r | None => e_reason e end in
  let e := mk_endpoint (e_client e) (e_ssl e) (e_state e) code reason (e_waiter e) (e_transfer e) (e_closer e) (e_transport e) (e_sent e) in
  let e := send_close code e in
  end_transfer e (mk_ending (or_default (e_code e) 1000) (e_reason e) false) (e_client e).

(** [fail_connection] called by the end of [transfer_data], 1067-1083 *)
Definition fail (code : nat) (e : endpoint) : endpoint := if code =? 1006 then e else send_close code e.

(** The causes, 577-620. *)
Inductive cause := Protocol | Connection | Text | TooBig | Unexpected.
Definition cause_code (c : cause) : nat :=
  match c with Protocol => 1002 | Connection => 1006 | Text => 1007 | TooBig => 1009 | Unexpected => 1011 end.

(** [wait_for_connection_lost], 1019-1032. When the waiter is done, [shield] gives the waiter itself (future_chaining.py:103-104),
    [apply_timeout] does nothing (future.py:616-621) and the await does not suspend (future.py:515). *)
Definition wait_for_connection_lost (waiter : bool) : bool := if negb waiter then true else waiter.

(** The finally block, 986-1005 *)
Definition close_finally (e : endpoint) : endpoint :=
  if e_waiter e && negb (e_ssl e) then e
  else let e := on_transport t_close e in
       if wait_for_connection_lost (e_waiter e) then e else on_transport t_abort e.

(** [close_connection], 960-1005, after [transfer_data_task] is done with [x]. [write_eof] (977-978) does not show here: it does not
    close the transport. *)
Definition close_connection (e : endpoint) (x : ending) : endpoint :=
  let e := close_finally e in
  mk_endpoint (e_client e) (e_ssl e) (e_state e) (e_code e) (e_reason e) (e_waiter e) (e_transfer e) true (e_transport e) (e_sent e).

(** 1107-1114 *)
Definition connection_lost (e : endpoint) : endpoint :=
  mk_endpoint (e_client e) (e_ssl e) Closed (or_default (e_code e) 1006) (e_reason e) true (e_transfer e) (e_closer e) (e_transport e) (e_sent e).

Inductive e_op :=
  | EClose (code : nat)                      (* close(code): the close frame *)
  | EPeerClose (payload : option (nat * nat))(* transfer_data reads a close frame with a valid code, or an empty one *)
  | EFails (c : cause)                       (* transfer_data ends with an exception; Connection also for a timeout of close *)
  | ECancelled                               (* transfer_data_task is cancelled *)
  | ECloser                                  (* close_connection_task runs *)
  | EEof                                     (* the peer has closed its side *)
  | EReset                                   (* the connection breaks *)
  | EWrite                                   (* something is written, the socket does not take it at once *)
  | EFlush                                   (* the socket takes all *)
  | ELost.                                   (* the event loop runs _call_connection_lost *)

Definition e_step (e : endpoint) (o : e_op) : endpoint :=
  match o with
  | EClose code => send_close code e
  | EPeerClose payload => match e_transfer e with None => peer_closes e payload | Some _ => e end
  | EFails c =>
      match e_transfer e with
      | None => end_transfer (fail (cause_code c) e) (mk_ending (cause_code c) None false) false
      | Some _ => e
      end
  | ECancelled =>
      match e_transfer e with
      | None => end_transfer e (mk_ending (or_default (e_code e) 1000) (e_reason e) true) false
      | Some _ => e
      end
  | ECloser => match e_transfer e, e_closer e with Some x, false => close_connection e x | _, _ => e end
  | EEof => (* transport_layer.py:716-722; 1132-1133 *)
      if t_reading (e_transport e) && negb (t_scheduled (e_transport e))
      then if e_ssl e then on_transport t_close e
           else on_transport (fun t => mk_transport (t_buffered t) (t_closing t) (t_scheduled t) (t_gone t) false (t_aborted t)) e
      else e
  | EReset => on_transport t_force e
  | EWrite => on_transport (fun t => if t_scheduled t then t else mk_transport true (t_closing t) (t_scheduled t) (t_gone t) (t_reading t) (t_aborted t)) e
  | EFlush => on_transport t_flush e
  | ELost => (* transport_layer.py:337-357 *)
      if t_scheduled (e_transport e) && negb (t_gone (e_transport e))
      then connection_lost (on_transport (fun t => mk_transport (t_buffered t) (t_closing t) true true (t_reading t) (t_aborted t)) e)
      else e
  end.
Fixpoint e_run (e : endpoint) (os : list e_op) : endpoint := match os with [] => e | o :: os' => e_run (e_step e o) os' end.

(** [close()] has returned: 395-403. *)
Definition close_returned (e : endpoint) : bool := match e_transfer e with Some _ => e_closer e | None => false end.

(** The code of the [ConnectionClosed] of [send], 537-554: [None] while it does not raise it (yet). *)
Definition send_error (e : endpoint) : option nat :=
  match e_state e with
  | Connecting => None
  | Open => match e_transfer e with Some _ => if e_closer e then Some (e_code e) else None | None => None end
  | Closing => if (e_code e =? 0) && negb (e_closer e) then None else Some (e_code e)
  | Closed => Some (e_code e)
  end.
(** The code and the reason of the [ConnectionClosed] of [receive], 632-634, when the received messages are taken. *)
Definition receive_error (e : endpoint) : option (nat * option nat) := option_map (fun x => (x_code x, x_reason x)) (e_transfer e).

(** * Received messages *)

Inductive m_op :=
  | MArrives (v : nat)     (* transfer_data reads a message, 570-575 *)
  | MEnds                  (* 632-634 *)
  | MReceive               (* receive() is awaited, 292-302 *)
  | MReceiveNoWait         (* receive_no_wait(), 305-321 *)
  | MCancel (c : nat)      (* the task which awaits is cancelled *)
  | MResume (c : nat).     (* the event loop resumes it *)

Definition queue_op (o : m_op) : QueueModel.op :=
  match o with
  | MArrives v => QueueModel.OPut v
  | MEnds => QueueModel.OSetException
  | MReceive => QueueModel.OGet
  | MReceiveNoWait => QueueModel.OGetNoWait
  | MCancel c => QueueModel.OCancelGet c
  | MResume c => QueueModel.OResumeGet c
  end.
(** 207 *)
Definition messages (max_queue : option nat) : QueueModel.queue := QueueModel.queue_init false max_queue.
Definition m_run (max_queue : option nat) (os : list m_op) : QueueModel.queue := QueueModel.run (messages max_queue) (map queue_op os).
Definition m_events (max_queue : option nat) (os : list m_op) : list QueueModel.event := QueueModel.events (messages max_queue) (map queue_op os).
