(** Model of datagram sockets: [DatagramSocketTransportLayer] (scarletio/core/protocols_and_transports/transport_layer.py 815-1067, with
    314-360 and 434-461 of its base) and [DatagramAddressedReadProtocol] (scarletio/core/protocols_and_transports/protocol.py 1339-1499).

    Data are numbers, 0 is the empty one; addresses are numbers. The socket answers each attempt to send.
    Not modelled: pausing of the protocol, the reading half of the transport (952-969 hands on what the socket gives), exceptions out
    of the protocol. Timeouts of waiting tasks are an operation. *)

From Coq Require Import List Arith Bool.
Import ListNotations.

(** * The transport *)

Inductive answer := Sent | Again | OSError | Fatal.   (* Again: BlockingIOError, InterruptedError; Fatal: other exceptions *)

Record transport := mk_transport {
  peer : bool;                        (* the peer's name is known: the socket is connected, 1014 *)
  fixed : option nat;                 (* _address *)
  buffer : list (nat * option nat);
  closing : bool;
  lost : bool;                        (* _connection_lost *)
  socket : bool;                      (* _socket is not None *)
  writer : bool;                      (* add_writer, remove_writer *)
  soon : nat;                         (* scheduled _call_connection_lost *)
  wire : list (nat * option nat);     (* what the socket has taken, and for whom *)
  errors : nat;                       (* error_received of the protocol *)
  logged : nat;                       (* exceptions written by _fatal_error *)
  told : nat                          (* connection_lost of the protocol *)
}.

Definition opened (p : bool) (f : option nat) : transport := mk_transport p f [] false false true false 0 [] 0 0 0.

(** socket.send or socket.sendto, 1014-1017, 1047-1050: without a socket, or without an address, an exception *)
Definition attempt (s : transport) (a : option nat) (x : answer) : answer :=
  if socket s then match peer s, a with false, None => Fatal | _, _ => x end else Fatal.

Definition put (s : transport) (b : list (nat * option nat)) (w : bool) : transport :=
  mk_transport (peer s) (fixed s) b (closing s) (lost s) (socket s) w (soon s) (wire s) (errors s) (logged s) (told s).
Definition took (s : transport) (d : nat * option nat) : transport :=
  mk_transport (peer s) (fixed s) (buffer s) (closing s) (lost s) (socket s) (writer s) (soon s) (wire s ++ [d]) (errors s) (logged s) (told s).
Definition error (s : transport) : transport :=
  mk_transport (peer s) (fixed s) (buffer s) (closing s) (lost s) (socket s) (writer s) (soon s) (wire s) (S (errors s)) (logged s) (told s).

(** _force_close, 434-461 *)
Definition force_close (s : transport) : transport :=
  if lost s then s
  else mk_transport (peer s) (fixed s) [] true true (socket s) (match buffer s with [] => writer s | _ => false end) (S (soon s)) (wire s) (errors s) (logged s) (told s).

(** _fatal_error, 925-939, of what is not an OSError *)
Definition fatal (s : transport) : transport :=
  force_close (mk_transport (peer s) (fixed s) (buffer s) (closing s) (lost s) (socket s) (writer s) (soon s) (wire s) (errors s) (S (logged s)) (told s)).

(** _call_connection_lost, 338-360: the protocol is there as long as the socket *)
Definition call_lost (s : transport) : transport :=
  mk_transport (peer s) (fixed s) (buffer s) (closing s) (lost s) false (writer s) (soon s) (wire s) (errors s) (logged s) (if socket s then S (told s) else told s).

Inductive out := Done | ValueError.

(** The address a datagram goes to, 998-1005 *)
Definition target (s : transport) (a : option nat) : option (option nat) :=
  match fixed s with
  | None => Some a
  | Some f => match a with None => Some (Some f) | Some g => if g =? f then Some (Some f) else None end
  end.

(** send_to, 972-1034 *)
Definition send_to (s : transport) (d : nat) (a : option nat) (x : answer) : transport * out :=
  if d =? 0 then (s, Done)
  else match target s a with
       | None => (s, ValueError)
       | Some a =>
           if lost s then (s, Done)
           else match buffer s with
                | [] => match attempt s a x with
                        | Sent => (took s (d, a), Done)
                        | Again => (put s [(d, a)] true, Done)
                        | OSError => (error s, Done)
                        | Fatal => (fatal s, Done)
                        end
                | b => (put s (b ++ [(d, a)]) (writer s), Done)
                end
       end.

(** _send_to_ready, 1037-1067; an attempt without an answer is [Again] *)
Fixpoint ready_loop (s : transport) (b : list (nat * option nat)) (l : list answer) : transport :=
  match b with
  | [] => let s := put s [] false in if closing s then call_lost s else s
  | (d, a) :: b' =>
      match attempt s a (hd Again l) with
      | Sent => ready_loop (took s (d, a)) b' (tl l)
      | Again => put s b (writer s)
      | OSError => put (error s) b' (writer s)
      | Fatal => fatal (put s b' (writer s))
      end
  end.

Inductive op :=
| SendTo (d : nat) (a : option nat) (x : answer)
| Ready (l : list answer)          (* the loop finds the socket writable *)
| Writelines (l : list nat)        (* 903-904 *)
| Close                            (* 315-324 *)
| Abort                            (* 328-329 *)
| Soon.                            (* the loop runs a scheduled _call_connection_lost *)

Definition step (s : transport) (a : op) : transport * out :=
  match a with
  | SendTo d a x => send_to s d a x
  | Ready l => (if writer s then ready_loop s (buffer s) l else s, Done)
  | Writelines _ => (s, Done)
  | Close =>
      if closing s then (s, Done)
      else match buffer s with
           | [] => (mk_transport (peer s) (fixed s) [] true true (socket s) false (S (soon s)) (wire s) (errors s) (logged s) (told s), Done)
           | b => (mk_transport (peer s) (fixed s) b true (lost s) (socket s) (writer s) (soon s) (wire s) (errors s) (logged s) (told s), Done)
           end
  | Abort => (force_close s, Done)
  | Soon =>
      match soon s with
      | 0 => (s, Done)
      | S n => (call_lost (mk_transport (peer s) (fixed s) (buffer s) (closing s) (lost s) (socket s) (writer s) n (wire s) (errors s) (logged s) (told s)), Done)
      end
  end.

Definition run (s : transport) (l : list op) : transport := fold_left (fun s a => fst (step s a)) l s.

(** * The protocol *)

(** What [wait_for_receive] gives: (address, protocol) or a protocol alone; a protocol is named by the address it was made for. *)
Inductive result := Pair (a p : nat) | Protocol (p : nat) | TimedOut.

Record readers := mk_readers {
  by_address : list (nat * list nat);        (* what each protocol has been given *)
  waiters : list (nat * option nat);         (* a waiting call and the address it is for *)
  results : list (nat * result);
  is_lost : bool
}.

Definition no_readers : readers := mk_readers [] [] [] false.

Fixpoint give (l : list (nat * list nat)) (a d : nat) : list (nat * list nat) :=
  match l with
  | [] => [(a, [d])]
  | (b, ds) :: l => if b =? a then (b, ds ++ [d]) :: l else (b, ds) :: give l a d
  end.

(** After [await waiter], 1473 and 1483-1485: [address] is overwritten, and compared with itself. *)
Definition woken (a : nat) (w : nat * option nat) : nat * result :=
  (fst w, match snd w with None => Pair a a | Some _ => Protocol a end).

Definition known (l : list (nat * list nat)) (a : nat) : bool := existsb (fun e => fst e =? a) l.

Inductive pop :=
| Receive (d a : nat)                   (* datagram_received, 1399-1415 *)
| Wait (i : nat) (a : option nat)       (* wait_for_receive, 1423-1487; the call [i] *)
| Expire (i : nat)                      (* its timeout, 1454-1463 *)
| Lose.                                 (* connection_lost, 1390-1395: the readers are told, nobody else *)

Definition pstep (r : readers) (e : pop) : readers :=
  match e with
  | Receive d a => mk_readers (give (by_address r) a d) [] (results r ++ map (woken a) (waiters r)) (is_lost r)
  | Wait i None =>
      match by_address r with
      | [] => mk_readers [] (waiters r ++ [(i, None)]) (results r) (is_lost r)
      | (a, _) :: _ => mk_readers (by_address r) (waiters r) (results r ++ [(i, Pair a a)]) (is_lost r)
      end
  | Wait i (Some a) =>
      if known (by_address r) a then mk_readers (by_address r) (waiters r) (results r ++ [(i, Protocol a)]) (is_lost r)
      else mk_readers (by_address r) (waiters r ++ [(i, Some a)]) (results r) (is_lost r)
  | Expire i =>
      if existsb (fun w => fst w =? i) (waiters r)
      then mk_readers (by_address r) (filter (fun w => negb (fst w =? i)) (waiters r)) (results r ++ [(i, TimedOut)]) (is_lost r)
      else r
  | Lose => mk_readers (by_address r) (waiters r) (results r) true
  end.

Definition prun (r : readers) (l : list pop) : readers := fold_left pstep l r.
