From Coq Require Import List Arith Bool Lia.
From Verif Require Import DgramModel DgramSpec DgramProofs.
Import ListNotations.

(** * C164: datagrams go out whole, in order, once, to where they should *)

(** Whatever the socket answers: what it was given is what was asked to be sent, with some left out. *)
Theorem C164_order : forall p f l, sub (wire (run (opened p f) l)) (requests f l).
Proof. exact in_order. Qed.
Print Assumptions C164_order.

(** A socket which takes everything, now or later: nothing is left out, and what is left is waited for. *)
Theorem C164_all_partial : forall p f l, Forall (smooth p f) l -> let t := run (opened p f) l in
  wire t ++ buffer t = requests f l /\ errors t = 0 /\ (buffer t <> [] -> writer t = true).
Proof. exact all_sent. Qed.
Print Assumptions C164_all_partial.

(** What the socket refuses is reported to the protocol. *)
Theorem C164_reported_partial : forall p f l, Forall (tame p f) l -> let t := run (opened p f) l in length (requests f l) = length (wire t) + length (buffer t) + errors t.
Proof. exact counted. Qed.
Print Assumptions C164_reported_partial.

(** Closing waits for what is left, and tells the protocol. *)
Theorem C164_flushed_partial : forall p f l n, Forall (smooth p f) l -> length (requests f l) <= n ->
  let t := run (opened p f) (l ++ [Close; Ready (repeat Sent n); Soon]) in wire t = requests f l /\ socket t = false /\ told t = 1.
Proof. exact flushed. Qed.
Print Assumptions C164_flushed_partial.

Example C164_nonvacuous :
  let l := [SendTo 1 (Some 7) Sent; SendTo 2 (Some 8) Again; SendTo 3 (Some 7) Sent; SendTo 4 (Some 9) Sent; Ready [Sent; Again]] in
  Forall (smooth false None) l /\ wire (run (opened false None) l) = [(1, Some 7); (2, Some 8)] /\ buffer (run (opened false None) l) = [(3, Some 7); (4, Some 9)] /\
  wire (run (opened false None) (l ++ [Ready [OSError]; Ready [Sent]])) = [(1, Some 7); (2, Some 8); (4, Some 9)] /\ errors (run (opened false None) (l ++ [Ready [OSError]; Ready [Sent]])) = 1 /\
  snd (step (opened false (Some 5)) (SendTo 1 (Some 6) Sent)) = ValueError.
Proof.
  cbn. split; [|auto 10]. repeat (constructor; [split; [split; [discriminate|right; right; discriminate]|discriminate]|]). constructor; [|constructor].
  split; cbn; intuition discriminate.
Qed.

(** An empty datagram is a datagram, but is never sent; nobody is told. *)
Theorem C164_empty_refuted : forall p f a x, let t := run (opened p f) [SendTo 0 a x] in wire t = [] /\ buffer t = [] /\ errors t = 0 /\ snd (step (opened p f) (SendTo 0 a x)) = Done.
Proof. intros. cbn. auto. Qed.
Print Assumptions C164_empty_refuted.

(** What is given to [writelines] is thrown away, and nobody is told. *)
Theorem C164_writelines_refuted : forall p f ls, let t := run (opened p f) [Writelines ls; Close; Soon] in wire t = [] /\ buffer t = [] /\ errors t = 0 /\ logged t = 0 /\ socket t = false.
Proof. intros. cbn. auto. Qed.
Print Assumptions C164_writelines_refuted.

(** Without an address, on a socket which is not connected, [send_to] does not raise but closes the whole transport; what waits to
    be sent to others is thrown away. *)
Theorem C164_no_address_refuted : exists l, let t := run (opened false None) (l ++ [SendTo 2 None Sent; Ready [Sent; Sent]]) in
  snd (step (run (opened false None) l) (SendTo 2 None Sent)) = Done /\ lost t = true /\ logged t = 1 /\ wire (run (opened false None) (l ++ [SendTo 2 None Sent; SendTo 3 (Some 7) Sent; Ready [Sent; Sent]])) = [(1, Some 7)] /\
  requests None [SendTo 3 (Some 7) Sent] = [(3, Some 7)].
Proof. exists [SendTo 1 (Some 7) Again]. cbn. auto 10. Qed.
Print Assumptions C164_no_address_refuted.

(** * C165: after the connection is lost *)

Theorem C165_once : forall p f l, told (run (opened p f) l) <= 1.
Proof. exact told_once. Qed.
Print Assumptions C165_once.

Theorem C165_silent : forall p f l m, 1 <= told (run (opened p f) l) -> wire (run (opened p f) (l ++ m)) = wire (run (opened p f) l).
Proof. exact silent. Qed.
Print Assumptions C165_silent.

Example C165_nonvacuous : let l := [SendTo 1 (Some 7) Sent; SendTo 2 (Some 7) Sent; Abort; Soon; Soon] in
  told (run (opened false None) l) = 1 /\ wire (run (opened false None) (l ++ [SendTo 3 (Some 7) Sent])) = [(1, Some 7); (2, Some 7)].
Proof. split; reflexivity. Qed.

(** A transport which was closed while something waited to be sent still takes data when all is over: it looks for its socket,
    does not find it and writes an exception. One which was closed with nothing waiting does nothing. *)
Theorem C165_closed_refuted : exists l, let t := run (opened false None) l in
  told t = 1 /\ logged t = 0 /\ logged (run t [SendTo 2 (Some 7) Sent]) = 1 /\
  (exists k, told (run (opened false None) k) = 1 /\ run (run (opened false None) k) [SendTo 2 (Some 7) Sent] = run (opened false None) k).
Proof.
  exists [SendTo 1 (Some 7) Again; Close; Ready [Sent]]. cbn. repeat split. exists [Close; Soon]. split; reflexivity.
Qed.
Print Assumptions C165_closed_refuted.

(** * C166: each address has its own reader *)

Theorem C166_separate : forall l a, content (prun no_readers l) a = from a l.
Proof. exact separate. Qed.
Print Assumptions C166_separate.

Example C166_nonvacuous : let l := [Receive 1 5; Receive 2 6; Wait 0 None; Receive 3 5; Lose] in
  content (prun no_readers l) 5 = [1; 3] /\ content (prun no_readers l) 6 = [2] /\ content (prun no_readers l) 7 = [].
Proof. repeat split. Qed.

(** * C167: waiting for the first datagram *)

(** A pair which is returned is of an address which has sent, with its reader. *)
Theorem C167_pair : forall l i a p, In (i, Pair a p) (results (prun no_readers l)) -> p = a /\ sender a l.
Proof. exact pairs. Qed.
Print Assumptions C167_pair.

(** Calls for an address return a reader, others a pair, and None only after the timeout. *)
Theorem C167_kind : forall l i b a, call_of i a l -> In (i, b) (results (prun no_readers l)) ->
  match b with Pair _ _ => a = None | Protocol _ => a <> None | TimedOut => In (Expire i) l end.
Proof. exact own. Qed.
Print Assumptions C167_kind.

(** When there is something already the call returns at once, and the right reader. *)
Theorem C167_at_once : forall l i a, sender a l -> In (i, Protocol a) (results (prun no_readers (l ++ [Wait i (Some a)]))).
Proof. exact at_once. Qed.
Print Assumptions C167_at_once.

Theorem C167_at_once_any : forall l i b, sender b l -> exists a, sender a l /\ In (i, Pair a a) (results (prun no_readers (l ++ [Wait i None]))).
Proof. exact at_once_any. Qed.
Print Assumptions C167_at_once_any.

(** Otherwise a call for any address returns what comes next. *)
Theorem C167_waits : forall l i, (forall a, ~ sender a l) -> In (i, None) (waiters (prun no_readers (l ++ [Wait i None]))).
Proof. exact waits_for_any. Qed.
Print Assumptions C167_waits.

Theorem C167_next_partial : forall l d a i, In (i, None) (waiters (prun no_readers l)) ->
  In (i, Pair a a) (results (prun no_readers (l ++ [Receive d a]))) /\ waiters (prun no_readers (l ++ [Receive d a])) = [].
Proof. exact next_wakes. Qed.
Print Assumptions C167_next_partial.

Example C167_nonvacuous : let l := [Wait 1 None; Wait 2 (Some 5); Expire 2; Receive 9 6; Wait 3 (Some 6); Wait 4 None] in
  results (prun no_readers l) = [(2, TimedOut); (1, Pair 6 6); (3, Protocol 6); (4, Pair 6 6)] /\ call_of 1 None l.
Proof.
  split; [reflexivity|]. intros b H. cbn in H. repeat destruct H as [H|H]; try discriminate; try contradiction. injection H as <-. reflexivity.
Qed.

(** A call which waits for an address gets the reader of whichever address sends next: the address asked for is overwritten by the
    one received, and compared with itself. *)
Theorem C167_address_refuted : exists l i a b, call_of i (Some a) l /\ a <> b /\ ~ sender a l /\ In (i, Protocol b) (results (prun no_readers l)).
Proof. exact wrong_address. Qed.
Print Assumptions C167_address_refuted.

(** Who waits when the connection is lost waits for ever. *)
Theorem C167_lost_refuted : exists l i, In (Wait i None) l /\ In Lose l /\
  (forall m, (forall e, In e m -> e = Lose \/ exists j b, e = Wait j b) -> In (i, None) (waiters (prun no_readers (l ++ m)))).
Proof. exact lost_refuted. Qed.
Print Assumptions C167_lost_refuted.
