(** C37, C38, C39, C80, C81: the connections of the pool. *)

From Coq Require Import List Arith Bool Lia.
From Verif Require Import PoolModel PoolSpec PoolProofs.
Import ListNotations.

(** C37: a connection belongs to one request, to the pool, or to whom it was detached for. *)
Theorem C37_exclusive : forall force s, reachable force s ->
  (forall c c' p, holds s c p -> holds s c' p -> c = c') /\
  (forall c p k i, holds s c p -> idle s k i -> proto_of i <> p) /\
  (forall c p, holds s c p -> ~ In p (detached s)) /\ (forall k i, idle s k i -> ~ In (proto_of i) (detached s)).
Proof. exact exclusive. Qed.
Print Assumptions C37_exclusive.

(** C38: what a request gets from the pool waited for the same host, has a transport, did not expire, and expires first of such ones. It makes
    a new connection only when there is no such one. *)
Theorem C38_connect_partial : forall force s k now s' r, reachable force s -> step force s (Connect k now) = (s', r) ->
  match r with
  | Got p n => exists i, idle s k i /\ proto_of i = p /\ performed i = n /\ usable (stat s) now i /\
      (forall j, idle s k j -> usable (stat s) now j -> expiration i <= expiration j) /\ holds s' (length (conns s)) p
  | Creating => forall i, idle s k i -> ~ usable (stat s) now i
  | _ => False
  end.
Proof. exact connect_spec. Qed.
Print Assumptions C38_connect_partial.

(** It failed in no way, no response is read from it, and nothing arrived on it unless it also ended. *)
Theorem C38_quiet_partial : forall s now i, usable s now i ->
  exception (s (proto_of i)) = false /\ payload (s (proto_of i)) = false /\ (at_eof (s (proto_of i)) = false -> buffered (s (proto_of i)) = false).
Proof. exact usable_quiet. Qed.
Print Assumptions C38_quiet_partial.

(** It expires when as much time passed since its release as the server allowed. *)
Theorem C38_expires : forall force s c i info now k, reachable force s -> forall p, holds s c p ->
  idle (fst (step force s (Release c (Some info) now))) k i -> proto_of i = p -> expiration i = now + connection_timeout info.
Proof. exact release_expires. Qed.
Print Assumptions C38_expires.

(** False: a connection which the other side closed is given to a request. *)
Theorem C38_dead_refuted : exists os k now s' p n, let s := fst (run false initial os) in
  step false s (Connect k now) = (s', Got p n) /\ dead (stat s p).
Proof.
  exists [Created (0, false); Release 0 (Some {| max_requests := None; connection_timeout := 100 |}) 0; Happens 0 (Lost false)], (0, false), 10.
  eexists _, 0, 1. split; [vm_compute; reflexivity|]. right. vm_compute. reflexivity.
Qed.
Print Assumptions C38_dead_refuted.

(** ... and one which ended after sending data nobody asked for. *)
Theorem C38_buffered_refuted : exists os k now s' p n, let s := fst (run false initial os) in
  step false s (Connect k now) = (s', Got p n) /\ buffered (stat s p) = true.
Proof.
  exists [Created (0, true); Release 0 (Some {| max_requests := None; connection_timeout := 100 |}) 0; Happens 0 Data; Happens 0 Eof], (0, true), 10.
  eexists _, 0, 1. split; vm_compute; reflexivity.
Qed.
Print Assumptions C38_buffered_refuted.

(** C39: with secure hosts, each connection made is in use, waits, was detached, or is closed. *)
Theorem C39_no_leak_partial : forall force os p, Forall careful os ->
  let s := fst (run force initial os) in
  p < next s -> (exists c, holds s c p) \/ (closed s = false /\ exists k i, idle s k i /\ proto_of i = p) \/ In p (detached s) \/ dead (stat s p).
Proof. exact no_leak. Qed.
Print Assumptions C39_no_leak_partial.

(** False for the others: one which expired is dropped by the clean-up, yet stays open. *)
Theorem C39_plain_refuted : exists os p, let s := fst (run false initial os) in
  p < next s /\ (forall c, ~ holds s c p) /\ (forall k i, idle s k i -> proto_of i <> p) /\ ~ In p (detached s) /\ ~ dead (stat s p).
Proof.
  exists [Created (0, false); Release 0 (Some {| max_requests := None; connection_timeout := 5 |}) 0; Clean_up 10], 0.
  cbv zeta. match goal with |- context [run ?a ?b ?c] => set (r := run a b c) end. vm_compute in r. subst r. cbn. split; [lia|].
  split; [intros c (k & E & P)|split; [intros k i (b & [] & _)|split; [tauto|intros [D|D]; discriminate]]].
  destruct c as [|[|c]]; cbn in E; try discriminate. injection E as <-. discriminate.
Qed.
Print Assumptions C39_plain_refuted.

(** C80: while a connection waits, the clean-up is scheduled; it leaves none which expired, and comes again before the next one expires. *)
Theorem C80_scheduled : forall force s k i, reachable force s -> idle s k i -> handle s <> None.
Proof. exact handle_set. Qed.
Print Assumptions C80_scheduled.

Theorem C80_clean_up : forall force s now k i, idle (fst (step force s (Clean_up now))) k i ->
  now < expiration i /\ exists h, handle (fst (step force s (Clean_up now))) = Some h /\ h <= expiration i.
Proof. exact clean_up_spec. Qed.
Print Assumptions C80_clean_up.

(** False: that the clean-up always comes when the first one expires. *)
Theorem C80_late_refuted : exists os k i h, let s := fst (run false initial os) in idle s k i /\ handle s = Some h /\ expiration i < h.
Proof.
  exists [Created (0, true); Created (0, true); Release 0 (Some {| max_requests := None; connection_timeout := 100 |}) 0;
          Release 1 (Some {| max_requests := None; connection_timeout := 5 |}) 0], (0, true), {| proto_of := 1; expiration := 5; performed := 1 |}, 100.
  split; [|split; [vm_compute; reflexivity|cbn; lia]].
  eexists. split; [vm_compute; left; reflexivity|]. cbn. right. left. reflexivity.
Qed.
Print Assumptions C80_late_refuted.

(** C81: the number of requests which the pool tells of a connection is the number of times it was given out before. *)
Theorem C81_performed : forall force os a b p n, snd (run force initial os) = a ++ Got p n :: b -> n = count p a.
Proof. exact counts. Qed.
Print Assumptions C81_performed.

(** So one for which the server allows [m] requests does not wait for another after [m]. *)
Theorem C81_max_requests : forall force os c m tm now k i p, let s := fst (run force initial os) in
  holds s c p -> idle (fst (step force s (Release c (Some {| max_requests := Some m; connection_timeout := tm |}) now))) k i -> proto_of i = p ->
  count p (snd (run force initial os)) < m.
Proof. exact release_max. Qed.
Print Assumptions C81_max_requests.

Definition example_ops : list op :=
  [Connect (0, true) 0; Created (0, true); Connect (0, true) 0; Created (0, true); Connect (1, false) 0; Created (1, false);
   Release 0 (Some {| max_requests := Some 5; connection_timeout := 30 |}) 2; Release 1 (Some {| max_requests := None; connection_timeout := 10 |}) 3;
   Connect (0, true) 4; Connect (0, true) 4; Connect (0, true) 4; Detach 3; Close_conn 2;
   Release 4 (Some {| max_requests := Some 2; connection_timeout := 30 |}) 9; Connect (0, true) 10; Clean_up 50; Close true; Created (0, true)].

Example C37_nonvacuous : snd (run false initial example_ops) =
  [Creating; Got 0 0; Creating; Got 1 0; Creating; Got 2 0; Nothing; Nothing; Got 1 1; Got 0 1; Creating; Nothing; Nothing; Nothing; Creating; Nothing;
   Nothing; Connector_closed].
Proof. vm_compute. reflexivity. Qed.

Example C38_nonvacuous :
  let s := fst (run false initial (firstn 8 example_ops)) in
  map (fun kb => (fst kb, map proto_of (available (snd kb)), used (snd kb))) (hosts s) = [((0, true), [0; 1], []); ((1, false), [], [2])] /\
  handle s = Some 32 /\ snd (step false s (Connect (0, true) 13)) = Got 1 1 /\ snd (step false s (Connect (0, true) 14)) = Got 0 1 /\
  snd (step false s (Connect (0, true) 33)) = Creating.
Proof. vm_compute. repeat split. Qed.

Example C39_nonvacuous : let s := fst (run false initial example_ops) in next s = 4 /\ detached s = [1] /\
  map (fun p => closing (stat s p)) [0; 1; 2; 3] = [true; false; true; true] /\ map conn_proto (conns s) = [None; None; None; None; None].
Proof. vm_compute. repeat split. Qed.

Example C80_nonvacuous : let s := fst (run false initial (firstn 8 example_ops)) in
  handle (fst (step false s (Clean_up 20))) = Some 32 /\ closing (stat (fst (step false s (Clean_up 20))) 1) = true /\
  handle (fst (step false s (Clean_up 40))) = None.
Proof. vm_compute. repeat split. Qed.

Example C81_nonvacuous : count 0 (snd (run false initial example_ops)) = 2 /\ count 1 (snd (run false initial example_ops)) = 2 /\
  count 2 (snd (run false initial example_ops)) = 1.
Proof. vm_compute. repeat split. Qed.
