(** C170-C172: connections after responses, and reading the body of a response. *)

From Coq Require Import List Arith Bool.
From Verif Require Import ResponseModel ResponseSpec ResponseProofs.
Import ListNotations.

(** * C170: a connection is kept for another request only after both bodies were transferred *)

Theorem C170_response_partial : forall l, no_cancel l -> kept (run begin l) -> whole_response (run begin l).
Proof. exact kept_complete. Qed.
Print Assumptions C170_response_partial.

Theorem C170_request_partial : forall l, kept (run begin (WriteDone :: l)) -> whole_request (run begin (WriteDone :: l)).
Proof. exact written_first. Qed.
Print Assumptions C170_request_partial.

Theorem C170_close_partial : forall l m, no_cancel l -> connection (run begin l) = true -> conn (run begin (l ++ Close :: m)) = Shut.
Proof. exact close_shuts. Qed.
Print Assumptions C170_close_partial.

(** C170 fails when a task reading the body is cancelled: the aborted stream makes the protocol believe that the peer sent everything, and the
    connection, in the middle of the body, is given back to be used again. *)
Theorem C170_cancelled_refuted : exists l, kept (run begin l) /\ ~ whole_response (run begin l).
Proof. exists [WriteDone; Head true false (Later [1; 2]); Read 0; Data [4] false false; CancelRead 0; Resume 0]. unfold kept, whole_response. vm_compute. intuition discriminate. Qed.
Print Assumptions C170_cancelled_refuted.

(** C170 fails when the whole response came before the whole request was sent: the task writing the request is stopped, and the connection, in the
    middle of the request, is given back to be used again. *)
Theorem C170_early_refuted : exists l, no_cancel l /\ kept (run begin l) /\ ~ whole_request (run begin l).
Proof.
  exists [Head true false (AtOnce [1; 2] false)]. split; [intros i [H|[]]; discriminate|]. unfold kept, whole_request. vm_compute. intuition discriminate.
Qed.
Print Assumptions C170_early_refuted.

Example C170_nonvacuous :
  kept (run begin [WriteDone; Head true false (AtOnce [1; 2] false)]) /\ ~ kept (run begin [WriteDone; Head true false (Later [1; 2]); Release])
  /\ ~ kept (run begin [WriteDone; Head false false (AtOnce [1; 2] false)])
  /\ connection (run begin [WriteDone; Head true false (Later [1])]) = true /\ conn (run begin ([WriteDone; Head true false (Later [1])] ++ [Close])) = Shut.
Proof. unfold kept. vm_compute. intuition discriminate. Qed.

(** * C171: a connection which can be used again is kept *)

Theorem C171_at_once_partial : forall p, p = Nothing \/ (exists d, p = AtOnce d false) -> kept (run begin [WriteDone; Head true false p]).
Proof. exact at_once_kept. Qed.
Print Assumptions C171_at_once_partial.

(** C171 fails for each body whose end did not come together with the head: the response gives the connection back while the protocol still has the
    stream of the body, for which the connection counts as one in the middle of a response, and is closed. *)
Theorem C171_streamed_refuted : forall d e more,
  let w := run begin [WriteDone; Head true false (Later d); Data e true more] in
  whole_response w /\ whole_request w /\ transport w = true /\ ~ kept w.
Proof. exact streamed_shut. Qed.
Print Assumptions C171_streamed_refuted.

Example C171_nonvacuous :
  kept (run begin [WriteDone; Head true false Nothing]) /\ kept (run begin [WriteDone; Head true false (AtOnce [1; 2] false)])
  /\ ~ kept (run begin [WriteDone; Head true false (AtOnce [1; 2] true)]).
Proof. unfold kept. vm_compute. intuition discriminate. Qed.

(** * C172: read gives the whole body, each time *)

Theorem C172_one_partial : forall l i d,
  no_cancel l -> one_reader l -> In (i, Body d) (results (run begin l)) -> d = got (run begin l) /\ whole_response (run begin l).
Proof. exact one_reads. Qed.
Print Assumptions C172_one_partial.

Theorem C172_again : forall w i b, stream w = false -> ~ In i (reading w) -> body w = Some b ->
  results (step w (Read i)) = results w ++ [(i, Body b)] /\ body (step w (Read i)) = Some b.
Proof. exact read_again. Qed.
Print Assumptions C172_again.

(** C172 fails when two tasks read: one gets the body, the other one, and everyone who reads later, nothing. *)
Theorem C172_concurrent_refuted : exists l, no_cancel l /\ whole_response (run begin l) /\ got (run begin l) = [1; 2; 4]
  /\ results (run begin l) = [(0, Body [1; 2; 4]); (1, Body []); (2, Body [])].
Proof.
  exists [WriteDone; Head true false (Later [1; 2]); Read 0; Read 1; Data [4] true false; Resume 0; Resume 1; Read 2].
  split; [intros i H; cbn in H; intuition discriminate|]. unfold whole_response. vm_compute. auto.
Qed.
Print Assumptions C172_concurrent_refuted.

(** C172 fails after a failed read: the next one does not fail, but gives [None]. *)
Theorem C172_failed_refuted : exists l, no_cancel l /\ one_reader l /\ ~ whole_response (run begin l) /\ results (run begin l) = [(0, Raises); (0, NoBody)].
Proof.
  exists [WriteDone; Head true false (Later [1; 2]); Read 0; Eof false; Resume 0; Read 0].
  split; [intros i H; cbn in H; intuition discriminate|]. split; [exists 0; intros j H; cbn in H; intuition congruence|]. unfold whole_response. vm_compute. intuition discriminate.
Qed.
Print Assumptions C172_failed_refuted.

Example C172_nonvacuous :
  results (run begin [WriteDone; Head true false (Later [1; 2]); Read 0; Data [4] true false; Resume 0; Read 0]) = [(0, Body [1; 2; 4]); (0, Body [1; 2; 4])].
Proof. vm_compute. reflexivity. Qed.
