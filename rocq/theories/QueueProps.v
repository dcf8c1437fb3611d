(** C13-C17, C61, C62: queues. Model in QueueModel.v, vocabulary in QueueSpec.v. *)

From Coq Require Import List Arith Bool Permutation.
From Verif Require Import QueueModel QueueSpec QueueProofs.
Import ListNotations.

(** C13. With one consumer that is not cancelled: what was taken, what is being handed to the consumer and what is
    stored is exactly what was accepted, in the same order. *)
Theorem C13_once_in_order : forall m ops, one_consumer (queue_init false m) ops -> cancellations ops = 0 ->
  let s := run (queue_init false m) ops in let evs := events (queue_init false m) ops in
  taken evs ++ in_flight s ++ q_results s = accepted evs.
Proof. exact once_in_order. Qed.
Print Assumptions C13_once_in_order.

(** C13. ... and the consumer never waits while an element is stored. *)
Theorem C13_no_idle_element : forall lifo m ops, one_consumer (queue_init lifo m) ops ->
  let s := run (queue_init lifo m) ops in
  forall g, In g (q_gets s) -> q_fut s (g_fut g) = FPending -> q_results s = [].
Proof. exact no_idle_element. Qed.
Print Assumptions C13_no_idle_element.

Definition one_consumer_history : list op :=
  [OPut 1; OPut 2; OGet; OGetNoWait; OGet; OPut 3; OPut 4; OResumeGet 0; ONext; OPutWait 5; OGet; OGet; OSetException; OResumeGet 2].

Example C13_nonvacuous :
  one_consumer (queue_init false None) one_consumer_history /\ cancellations one_consumer_history = 0 /\
  accepted (events (queue_init false None) one_consumer_history) = [1; 2; 3; 4; 5] /\
  taken (events (queue_init false None) one_consumer_history) = [1; 2; 3; 4; 5].
Proof. repeat split. Qed.

Example C13_nonvacuous_waiting :
  let ops := [OPut 1; OGet; OGet] in
  one_consumer (queue_init false (Some 1)) ops /\
  map (fun g => q_fut (run (queue_init false (Some 1)) ops) (g_fut g)) (q_gets (run (queue_init false (Some 1)) ops)) = [FPending].
Proof. repeat split. Qed.

(** C14, false: two tasks that wait on the same queue get the same element. *)
Theorem C14_several_consumers_refuted :
  exists ops, let evs := events (queue_init false None) ops in
  cancellations ops = 0 /\ accepted evs = [7] /\ taken evs = [7; 7].
Proof. exists [OGet; OGet; OPut 7; OResumeGet 0; OResumeGet 2]. repeat split. Qed.
Print Assumptions C14_several_consumers_refuted.

(** C14, false: cancelling one of them makes the other one raise CancelledError too. *)
Theorem C14_cancellation_spreads_refuted :
  exists ops, ~ In (OCancelGet 2) ops /\
  snd (step (run (queue_init false None) [OGet]) OGet) = EvGetWaits 2 /\
  snd (step (run (queue_init false None) ([OGet; OGet] ++ ops)) (OResumeGet 2)) = EvGetRaised true.
Proof.
  exists [OCancelGet 0]. split; [|split; reflexivity]. intros [H|[]]. discriminate.
Qed.
Print Assumptions C14_cancellation_spreads_refuted.

(** C15, false: the element put after a waiting consumer was cancelled is accepted and lost. *)
Theorem C15_cancel_loses_element_refuted :
  exists ops, one_consumer (queue_init false None) ops /\
  let s := run (queue_init false None) ops in let evs := events (queue_init false None) ops in
  accepted evs = [7] /\ taken evs = [] /\ in_flight s = [] /\ q_results s = [] /\ q_gets s = [].
Proof. exists [OGet; OCancelGet 0; OResumeGet 0; OPut 7]. repeat split. Qed.
Print Assumptions C15_cancel_loses_element_refuted.

(** C15, false: until then every later consumer raises CancelledError although nobody cancelled it. *)
Theorem C15_later_consumer_raises_refuted :
  exists ops, one_consumer (queue_init false None) ops /\
  let s := run (queue_init false None) ops in q_gets s = [] /\ snd (step s OGet) = EvGetRaised true.
Proof. exists [OGet; OCancelGet 0; OResumeGet 0]. repeat split. Qed.
Print Assumptions C15_later_consumer_raises_refuted.

(** C15, the part that holds: with one consumer at a time every cancellation loses at most one element, and the others
    keep their order. *)
Theorem C15_loses_at_most_one_partial : forall m ops, one_consumer (queue_init false m) ops ->
  let s := run (queue_init false m) ops in let evs := events (queue_init false m) ops in
  sub (taken evs ++ in_flight s ++ q_results s) (accepted evs) /\
  length (accepted evs) <= length (taken evs ++ in_flight s ++ q_results s) + cancellations ops.
Proof. exact loses_at_most. Qed.
Print Assumptions C15_loses_at_most_one_partial.

Example C15_nonvacuous :
  let ops := [OGet; OCancelGet 0; OResumeGet 0; OPut 7; OPut 8; OGet; OGet; OPut 9; OCancelGet 2; OResumeGet 2; OPut 10] in
  one_consumer (queue_init false None) ops /\
  accepted (events (queue_init false None) ops) = [7; 8; 9; 10] /\ taken (events (queue_init false None) ops) = [8] /\
  q_results (run (queue_init false None) ops) = [10] /\ cancellations ops = 2.
Proof. repeat split. Qed.

(** C16, false: a producer blocked on a full queue is not woken by [await queue]; with the only consumer waiting again,
    the queue is empty and nothing can ever run. *)
Theorem C16_blocked_producer_refuted :
  exists ops, let s := run (queue_init false (Some 1)) ops in
  q_results s = [] /\ map p_elem (q_puts s) = [2] /\ length (q_gets s) = 1 /\ stuck s.
Proof.
  exists [OPut 1; OPutWait 2; OGet; OGet]. cbn. repeat split.
  - intros g [<-|[]]. reflexivity.
  - intros p [<-|[]]. reflexivity.
Qed.
Print Assumptions C16_blocked_producer_refuted.

(** C16, false: a woken producer stores its element although a consumer waits, which is not woken. *)
Theorem C16_blocked_consumer_refuted :
  exists ops, let s := run (queue_init false (Some 1)) ops in
  q_results s = [2] /\ q_puts s = [] /\ length (q_gets s) = 1 /\ stuck s.
Proof.
  exists [OPut 1; OPutWait 2; OGetNoWait; OGet; OResumePut 0]. cbn. repeat split.
  - intros g [<-|[]]. reflexivity.
  - intros p [].
Qed.
Print Assumptions C16_blocked_consumer_refuted.

(** C16, the part that holds: taking a stored element by [get_result_no_wait] or [async for] from an AsyncQueue wakes
    the producer that has waited longest, and it reports success when it runs. *)
Theorem C16_take_wakes_partial : forall m ops o v pre p post,
  let s := run (queue_init false m) ops in
  (o = OGetNoWait \/ o = ONext) -> q_results s <> [] -> snd (step s o) = EvTook v ->
  q_puts s = pre ++ p :: post -> (forall x, In x pre -> q_fut s (p_fut x) <> FPending) -> q_fut s (p_fut p) = FPending ->
  snd (step (fst (step s o)) (OResumePut (p_fut p))) = EvPut (p_elem p) 2.
Proof. exact take_wakes. Qed.
Print Assumptions C16_take_wakes_partial.

Example C16_nonvacuous :
  let s := run (queue_init false (Some 1)) [OPut 1; OPutWait 2; OPutWait 3; OCancelPut 0] in
  q_results s = [1] /\ snd (step s OGetNoWait) = EvTook 1 /\
  q_puts s = [mk_putter 0 2 false] ++ mk_putter 1 3 false :: [] /\
  q_fut s 0 = FCancelled /\ q_fut s 1 = FPending /\
  snd (step (fst (step s OGetNoWait)) (OResumePut 1)) = EvPut 3 2.
Proof. repeat split. Qed.

(** C17. Never more elements than the bound, in every history of either class. *)
Theorem C17_never_exceeds : forall lifo n ops, length (q_results (run (queue_init lifo (Some n)) ops)) <= n.
Proof. exact never_exceeds. Qed.
Print Assumptions C17_never_exceeds.

(** C17. [set_result] refuses (1) only if the queue is full and nobody waits, and then changes nothing; otherwise (0)
    the element is stored behind the others or handed to the waiting consumer. *)
Theorem C17_set_result : forall s v,
  (snd (step s (OPut v)) = EvPut v 1 /\ fst (step s (OPut v)) = s /\ q_waiter s = None /\
     exists n, q_max s = Some n /\ n <= length (q_results s)) \/
  (snd (step s (OPut v)) = EvPut v 0 /\ q_waiter s = None /\ q_results (fst (step s (OPut v))) = q_results s ++ [v]) \/
  (snd (step s (OPut v)) = EvPut v 0 /\ exists f, q_waiter s = Some f /\ q_results (fst (step s (OPut v))) = q_results s /\
     (q_fut s f = FPending -> q_fut (fst (step s (OPut v))) f = FElem v)).
Proof. exact put_code. Qed.
Print Assumptions C17_set_result.

Example C17_nonvacuous :
  let s := run (queue_init true (Some 2)) [OPut 1; OPut 2] in
  snd (step s (OPut 3)) = EvPut 3 1 /\ snd (step (fst (step s OGet)) (OPut 3)) = EvPut 3 0 /\
  q_results (fst (step (fst (step s OGet)) (OPut 3))) = [1; 3].
Proof. repeat split. Qed.

(** C61. The same for AsyncLifoQueue, up to the order. *)
Theorem C61_lifo_once : forall m ops, one_consumer (queue_init true m) ops -> cancellations ops = 0 ->
  let s := run (queue_init true m) ops in let evs := events (queue_init true m) ops in
  Permutation (taken evs ++ in_flight s ++ q_results s) (accepted evs).
Proof. exact lifo_once. Qed.
Print Assumptions C61_lifo_once.

(** C61. A take gives the newest stored element. *)
Theorem C61_lifo_newest : forall m ops o l v,
  let s := run (queue_init true m) ops in
  (o = OGetNoWait \/ o = OGet \/ o = ONext) -> q_results s = l ++ [v] ->
  snd (step s o) = EvTook v /\ q_results (fst (step s o)) = l.
Proof. exact lifo_newest. Qed.
Print Assumptions C61_lifo_newest.

Example C61_nonvacuous :
  let ops := [OPut 1; OPut 2; OGet; OPut 3; OGetNoWait; OGet; OGet; OPut 4; OResumeGet 0] in
  one_consumer (queue_init true None) ops /\ cancellations ops = 0 /\
  taken (events (queue_init true None) ops) = [2; 3; 1; 4] /\
  q_results (run (queue_init true None) [OPut 1; OPut 2]) = [1] ++ [2].
Proof. repeat split. Qed.

(** C62, false: a producer that was woken and reports success pushes an accepted element out of a bounded queue. *)
Theorem C62_no_overwrite_refuted :
  exists ops, let s := run (queue_init false (Some 1)) ops in let evs := events (queue_init false (Some 1)) ops in
  cancellations ops = 0 /\ accepted evs = [1; 3; 2] /\ taken evs = [1] /\ in_flight s = [] /\ q_results s = [2].
Proof. exists [OPut 1; OPutWait 2; OGetNoWait; OPut 3; OResumePut 0]. repeat split. Qed.
Print Assumptions C62_no_overwrite_refuted.

(** C62, the part that holds: without [set_result_wait] nothing is ever pushed out (C13 covers every bound). *)
Theorem C62_no_overwrite_partial : forall m ops, one_consumer (queue_init false m) ops -> cancellations ops = 0 ->
  let s := run (queue_init false m) ops in let evs := events (queue_init false m) ops in
  length (taken evs) + length (in_flight s) + length (q_results s) = length (accepted evs).
Proof. exact once_length. Qed.
Print Assumptions C62_no_overwrite_partial.

Example C62_nonvacuous :
  one_consumer (queue_init false (Some 1)) [OPut 1; OPut 2; OGetNoWait; OPut 3] /\
  accepted (events (queue_init false (Some 1)) [OPut 1; OPut 2; OGetNoWait; OPut 3]) = [1; 3].
Proof. repeat split. Qed.
