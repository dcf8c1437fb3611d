(** Theorems about web socket connections: C115-C122. *)

From Coq Require Import List Arith Bool Lia Sorting.Sorted.
From Verif Require LockModel QueueModel QueueSpec.
From Verif Require Import WsModel WsSpec WsProofs.
Import ListNotations.

(** C115. At most one close frame is written. *)
Theorem C115_one_close : forall ops, length (closes (w_wire (w_run w_init ops))) <= 1.
Proof. exact one_close. Qed.
Print Assumptions C115_one_close.

Example C115_nonvacuous :
  let ops := [WSend 7; WClose 1000; WFail 1002; WClose 1001; WRelease 0; WResume 1; WFail 1011; WRelease 1; WClose 1000] in
  w_wire (w_run w_init ops) = [(Some 0, Message 7); (Some 1, CloseFrame 1000)] /\ closes (w_wire (w_run w_init ops)) = [CloseFrame 1000].
Proof. split; reflexivity. Qed.

(** C116, false: a message which waits for another writer when the connection fails is written after the close frame.
    [write_frame] checks the state of the connection before it waits for the lock, and [fail_connection] writes its frame without it. *)
Theorem C116_nothing_after_refuted : exists ops, w_wire (w_run w_init ops) = [(Some 0, Message 1); (None, CloseFrame 1002); (Some 1, Message 2)].
Proof. exists [WSend 1; WSend 2; WFail 1002; WRelease 0; WResume 1]. reflexivity. Qed.
Print Assumptions C116_nothing_after_refuted.

(** C116, the part that holds: nothing is written after the close frame of [close], or after the answer to the one of the peer. *)
Theorem C116_after_close_partial : forall ops l t c r, w_wire (w_run w_init ops) = l ++ (Some t, CloseFrame c) :: r -> r = [].
Proof. exact after_close. Qed.
Print Assumptions C116_after_close_partial.

(** C116. Once a close frame was written, by whomever, sending is refused. *)
Theorem C116_refused : forall ops n, closes (w_wire (w_run w_init ops)) <> [] -> w_step (w_run w_init ops) (WSend n) = (w_run w_init ops, Refused).
Proof. exact refused. Qed.
Print Assumptions C116_refused.

Example C116_nonvacuous :
  let ops := [WSend 7; WSend 8; WClose 1000; WSend 9; WRelease 0; WResume 1; WRelease 1; WResume 2] in
  w_wire (w_run w_init ops) = [(Some 0, Message 7); (Some 1, Message 8)] ++ (Some 2, CloseFrame 1000) :: [] /\
  nth 3 (w_outs w_init ops) Nothing = Refused /\ closes (w_wire (w_run w_init ops)) = [CloseFrame 1000].
Proof. repeat split; reflexivity. Qed.

(** C117. The frames of the calls are written in the order of the calls, each at most once. *)
Theorem C117_order : forall ops, StronglySorted lt (written (w_wire (w_run w_init ops))).
Proof. exact wire_order. Qed.
Print Assumptions C117_order.

(** C117. A frame written for a call is the one the call asked for. *)
Theorem C117_frames : forall ops t f, In (Some t, f) (w_wire (w_run w_init ops)) -> issued ops t f.
Proof. exact wire_frames. Qed.
Print Assumptions C117_frames.

(** C117. When a call has returned its frame was written, unless the transport does not write anymore. *)
Theorem C117_written : forall ops t, In (Left t) (w_outs w_init ops) -> w_dead (w_run w_init ops) = false ->
  exists f, issued ops t f /\ In (Some t, f) (w_wire (w_run w_init ops)).
Proof. exact left_written. Qed.
Print Assumptions C117_written.

Example C117_nonvacuous :
  let ops := [WSend 7; WSend 8; WSend 9; WSend 6; WCancel 2; WRelease 0; WResume 1; WResume 2; WRelease 1; WResume 3] in
  w_wire (w_run w_init ops) = [(Some 0, Message 7); (Some 1, Message 8); (Some 3, Message 6)] /\
  In (Left 1) (w_outs w_init ops) /\ w_dead (w_run w_init ops) = false /\ issued ops 1 (Message 8).
Proof.
  split; [reflexivity|]. split; [do 8 right; left; reflexivity|]. split; [reflexivity|].
  exists 1, (WSend 8). split; [reflexivity|]. split; [reflexivity | constructor].
Qed.

(** C118, false: a client without ssl never closes its connection after a complete closing handshake. [transfer_data] marks the
    connection as lost itself, [close_connection] then returns without closing the transport, and the transport stays open when the
    peer closes its side, since [eof_received] says so. *)
Theorem C118_close_refuted : exists before, close_returned (e_run (e_init true false) before) = true /\
  forall os, ~ In EReset os ->
    e_state (e_run (e_init true false) (before ++ os)) = Closing /\ t_closing (e_transport (e_run (e_init true false) (before ++ os))) = false.
Proof.
  exists [EClose 1000; EPeerClose None; ECloser]. split; [reflexivity|]. intros os N.
  exact (proj2 (plain_client_stays_open 1000 None os N)).
Qed.
Print Assumptions C118_close_refuted.

(** C118, the part that holds: a server, a client with ssl, and a client which got no close frame close the transport before [close]
    returns, and the connection is closed when the transport has written everything; at once, if there is nothing to write. *)
Theorem C118_close_partial : forall client ssl os, client = false \/ ssl = true \/ (forall p, ~ In (EPeerClose p) os) ->
  close_returned (e_run (e_init client ssl) os) = true ->
  t_closing (e_transport (e_run (e_init client ssl) os)) = true /\ e_state (e_run (e_init client ssl) (os ++ [EFlush; ELost])) = Closed /\
  (t_buffered (e_transport (e_run (e_init client ssl) os)) = false -> e_state (e_run (e_init client ssl) (os ++ [ELost])) = Closed).
Proof. exact close_closes. Qed.
Print Assumptions C118_close_partial.

Example C118_nonvacuous :
  let os := [EWrite; EClose 1000; EEof; EPeerClose (Some (1000, 5)); ECloser] in
  close_returned (e_run (e_init false false) os) = true /\ e_state (e_run (e_init false false) os) = Closing /\
  t_scheduled (e_transport (e_run (e_init false false) os)) = false.
Proof. repeat split; reflexivity. Qed.

(** C119, false: when the peer takes nothing anymore [close] returns at once and the connection stays forever.
    [wait_for_connection_lost] tests the wrong way around: it returns [True] while the connection is not lost, so that the transport
    is never aborted. *)
Theorem C119_abort_refuted : forall client ssl, exists before, close_returned (e_run (e_init client ssl) before) = true /\
  forall os, ~ In EReset os -> ~ In EFlush os -> e_state (e_run (e_init client ssl) (before ++ os)) <> Closed.
Proof.
  intros client ssl. exists [EWrite; EFails Connection; ECloser]. split; [reflexivity|]. intros os N1 N2.
  exact (proj2 (unresponsive client ssl os N1 N2)).
Qed.
Print Assumptions C119_abort_refuted.

(** C119, false: in fact nothing ever aborts the transport. *)
Theorem C119_never_aborted_refuted : forall client ssl os, t_aborted (e_transport (e_run (e_init client ssl) os)) = false.
Proof. exact never_aborted. Qed.
Print Assumptions C119_never_aborted_refuted.

(** C120, false: with a limit messages are lost. [transfer_data] ignores that [AsyncQueue.set_result] refused one. *)
Theorem C120_delivered_refuted : exists n os, one_receiver (Some n) os /\ ends os /\
  arrived os = [1; 2; 3] /\ received (m_events (Some n) os) = [1; 3].
Proof.
  exists 1, [MArrives 1; MArrives 2; MReceive; MArrives 3; MReceive; MEnds]. split.
  - split; [repeat split|]. intros c H. cbn in H. intuition discriminate.
  - split; [|split; reflexivity]. intros a b v E H.
    do 5 (destruct a as [|? a]; [discriminate|]; injection E as _ E).
    destruct a as [|? a]; [injection E as <-; exact H|]. injection E as _ E. destruct a; discriminate.
Qed.
Print Assumptions C120_delivered_refuted.

(** C120, the part that holds: without a limit, and while one task receives at a time and is not cancelled, every message which
    arrived is received once and in order, or is on its way to the waiting task, or is stored. *)
Theorem C120_delivered_partial : forall os, one_receiver None os ->
  received (m_events None os) ++ QueueSpec.in_flight (m_run None os) ++ QueueModel.q_results (m_run None os) = arrived os.
Proof. exact delivered. Qed.
Print Assumptions C120_delivered_partial.

(** C120. [receive] raises the exception of the end only after all messages were received. *)
Theorem C120_exception_last_partial : forall os o, one_receiver None (os ++ [o]) -> ends os ->
  snd (QueueModel.step (m_run None os) (queue_op o)) = QueueModel.EvGetRaised false -> received (m_events None os) = arrived os.
Proof. exact exception_last. Qed.
Print Assumptions C120_exception_last_partial.

Example C120_nonvacuous :
  let os := [MReceive; MArrives 4; MArrives 5; MResume 0; MReceiveNoWait; MArrives 6; MReceive; MReceive; MEnds] in
  one_receiver None (os ++ [MResume 2]) /\ ends os /\ received (m_events None os) = [4; 5; 6] /\
  snd (QueueModel.step (m_run None os) (queue_op (MResume 2))) = QueueModel.EvGetRaised false.
Proof.
  split; [split; [repeat split|]; intros c H; cbn in H; intuition discriminate|]. split; [|split; reflexivity].
  intros a b v E H. do 8 (destruct a as [|? a]; [discriminate|]; injection E as _ E).
  destruct a as [|? a]; [injection E as <-; exact H|]. injection E as _ E. destruct a; discriminate.
Qed.

(** C121, false: after a protocol error [receive] tells the close code 1002, [send] at first 0 and then 1006: [fail_connection] does
    not set the close code. *)
Theorem C121_codes_refuted : exists os, let e := e_run (e_init false false) os in
  receive_error e = Some (1002, None) /\ e_sent e = [1002] /\ send_error e = Some 0 /\ send_error (e_run e [EFlush; ELost]) = Some 1006.
Proof. exists [EFails Protocol; ECloser]. repeat split; reflexivity. Qed.
Print Assumptions C121_codes_refuted.

(** C121, the part that holds: when the close frame of the peer has ended the connection, [send] and [receive] both tell its code from
    then on, with its reason; for an empty frame 1005 and no reason. *)
Theorem C121_codes_partial : forall client ssl before payload after,
  e_transfer (e_run (e_init client ssl) before) = None -> payload_code payload <> 0 ->
  let e := e_run (e_init client ssl) (before ++ EPeerClose payload :: after) in
  receive_error e = Some (payload_code payload, option_map snd payload) /\
  send_error e = Some (payload_code payload) /\ e_reason e = option_map snd payload.
Proof. exact codes_agree. Qed.
Print Assumptions C121_codes_partial.

Example C121_nonvacuous :
  let e := e_run (e_init true true) ([EWrite; EReset] ++ EPeerClose (Some (1001, 3)) :: [ECloser; ELost]) in
  e_state e = Closed /\ receive_error e = Some (1001, Some 3) /\ send_error e = Some 1001 /\ e_sent e = [1001].
Proof. repeat split; reflexivity. Qed.

(** C122, false: after a task which waited to send was cancelled no call is in progress, the connection is open and the transport
    works, but nothing is ever written for any later call, not even the close frame of [close]. *)
Theorem C122_cancelled_send_refuted : exists before, let s := w_run w_init before in
  LockModel.l_calls (w_lock s) = [] /\ w_state s = Open /\ w_reading s = true /\ w_dead s = false /\
  forall ops, written (w_wire (w_run w_init (before ++ ops))) = [0].
Proof.
  exists blocking. repeat split. intros ops. rewrite w_run_app, lost_w_run by exact blocking_lost. reflexivity.
Qed.
Print Assumptions C122_cancelled_send_refuted.

(** C122, the part that holds: if no waiting task is cancelled, then whenever calls are in progress one of them can leave, or can
    write its frame when the event loop resumes it. *)
Theorem C122_progress_partial : forall os, (forall t, ~ In (WCancel t) os) ->
  let s := w_run w_init os in LockModel.l_calls (w_lock s) <> [] -> w_dead s = false ->
  (exists t, snd (w_step s (WRelease t)) = Left t) \/
  (exists t f, w_wire (fst (w_step s (WResume t))) = w_wire s ++ [(Some t, f)]).
Proof. exact writers_progress. Qed.
Print Assumptions C122_progress_partial.

Example C122_nonvacuous :
  let s := w_run w_init [WSend 1; WSend 2; WSend 3; WRelease 0] in
  LockModel.l_calls (w_lock s) <> [] /\ w_wire (fst (w_step s (WResume 1))) = w_wire s ++ [(Some 1, Message 2)].
Proof. split; [discriminate | reflexivity]. Qed.
