(** C07-C09: the event loop. *)

From Coq Require Import List ZArith Bool Permutation.
From Verif Require Import LoopModel LoopSpec LoopProofs.
Import ListNotations.
Open Scope Z_scope.

(** C07: the handles of [call_soon] get their turn in the order of the calls; the ones without a turn yet are still
    waiting, in the same order. *)
Theorem C07_fifo : forall pick, heap_pick pick -> forall resolution ops,
  created_soon (events pick resolution loop_init ops) =
  turns_soon (events pick resolution loop_init ops) ++ waiting_soon (e_ready (run pick resolution loop_init ops)).
Proof. exact fifo. Qed.
Print Assumptions C07_fifo.

(** C07: a callback runs at most once, and not if its handle was disposed of. *)
Theorem C07_at_most_once : forall pick, heap_pick pick -> forall resolution ops,
  NoDup (ran (events pick resolution loop_init ops)) /\
  (forall h, In h (ran (events pick resolution loop_init ops)) ->
   ~ In h (discarded (events pick resolution loop_init ops))).
Proof. exact at_most_once. Qed.
Print Assumptions C07_at_most_once.

(** C07: at its turn a callback runs only if nobody cancelled its handle before. *)
Theorem C07_cancelled_never_runs : forall pick resolution h1 i,
  In (EvRan i) (snd (step pick resolution (run pick resolution loop_init h1) ORun)) ->
  match i with ISoon h | ITimer _ h => ~ In (OCancel h) h1 | IReader _ => True end.
Proof. exact run_iff_not_cancelled. Qed.
Print Assumptions C07_cancelled_never_runs.

(** C07: a handle is disposed of without running only if it was cancelled. *)
Theorem C07_skipped_only_if_cancelled : forall pick, heap_pick pick -> forall resolution h1 o h,
  In h (discarded (snd (step pick resolution (run pick resolution loop_init h1) o))) -> In (OCancel h) h1.
Proof. exact discarded_only_cancelled. Qed.
Print Assumptions C07_skipped_only_if_cancelled.

(** C07: while the loop runs callbacks, what is queued at position [k] has its turn within [k + 1] turns, whatever is
    queued, cancelled or scheduled meanwhile. *)
Theorem C07_turn_comes : forall pick resolution ops s k i,
  e_draining s = true -> nth_error (e_ready s) k = Some i ->
  (k < length (filter (fun o => match o with ORun => true | _ => false end) ops))%nat ->
  In (EvRan i) (events pick resolution s ops) \/ In (EvSkipped i) (events pick resolution s ops).
Proof. exact turn_comes. Qed.
Print Assumptions C07_turn_comes.

Example C07_nonvacuous :
  let ops := [OCallSoon; OCallSoon; OCycle 0 []; ORun; OCallSoon; OCancel 1; ORun; OCallSoon; ORun] in
  heap_pick pick_min /\
  turns_soon (events pick_min 1 loop_init ops) = [0; 1; 2]%nat /\
  ran (events pick_min 1 loop_init ops) = [0; 2]%nat /\
  discarded (events pick_min 1 loop_init ops) = [1]%nat /\
  waiting_soon (e_ready (run pick_min 1 loop_init ops)) = [3]%nat.
Proof. split; [exact pick_min_ok | repeat split]. Qed.

(** C08: no handle is lost or duplicated: it ran, was disposed of, is queued or still scheduled. *)
Theorem C08_conservation : forall pick, heap_pick pick -> forall resolution ops,
  let evs := events pick resolution loop_init ops in
  let s := run pick resolution loop_init ops in
  Permutation (created evs) (ran evs ++ discarded evs ++ handles (e_ready s) ++ map snd (e_heap s)) /\
  NoDup (created evs).
Proof.
  intros pick Hp resolution ops evs s. destruct (conservation pick Hp resolution ops) as [_ [P [N _]]].
  split; [exact P | exact N].
Qed.
Print Assumptions C08_conservation.

(** C08: a cycle of the loop queues only timers that are due and were not cancelled, in non-decreasing order of their
    deadlines, and leaves no such timer behind. *)
Theorem C08_cycle : forall pick, heap_pick pick -> forall resolution ops now rs,
  let s := run pick resolution loop_init ops in
  let evs := snd (step pick resolution s (OCycle now rs)) in
  (forall w h, In (EvMoved w h) evs -> w < now + resolution /\ ~ In (OCancel h) ops) /\
  nondecreasing (moved_deadlines evs) /\
  (e_draining s = false ->
   forall w h, In (w, h) (e_heap (fst (step pick resolution s (OCycle now rs)))) ->
   ~ In (OCancel h) ops -> now + resolution <= w).
Proof. exact timer_cycle. Qed.
Print Assumptions C08_cycle.

(** C08: a timer that ran was queued by a cycle whose clock reading had reached its deadline. *)
Theorem C08_never_early : forall pick, heap_pick pick -> forall resolution ops w h,
  In (EvRan (ITimer w h)) (events pick resolution loop_init ops) ->
  exists h1 now rs h2, ops = h1 ++ OCycle now rs :: h2 /\ w < now + resolution.
Proof. exact never_early. Qed.
Print Assumptions C08_never_early.

Example C08_nonvacuous :
  let ops := [OCallAt 7; OCallAt 3; OCallAt 9; OCallAt 4; OCancel 3; OCycle 7 []; ORun; ORun; ORun] in
  ran (events pick_min 1 loop_init ops) = [1; 0]%nat /\
  discarded (events pick_min 1 loop_init ops) = [3]%nat /\
  e_heap (run pick_min 1 loop_init ops) = [(9, 2%nat)] /\
  In (EvRan (ITimer 7 0)) (events pick_min 1 loop_init ops).
Proof. repeat split. cbn. auto 10. Qed.

(** C09 is false: with a callback that calls [call_soon] for itself, a timer of deadline 5 stays scheduled for ever; after
    any number of turns the loop has not read the clock or polled the selector again. *)
Theorem C09_busy_callback_starves_refuted : forall pick, heap_pick pick ->
  exists cb start, In (5, 0%nat) (e_heap (run pick 1 loop_init start)) /\
  forall n,
    let s := turns pick 1 cb n (run pick 1 loop_init start) in
    In (5, 0%nat) (e_heap s) /\ ~ In 0%nat (e_cancelled s) /\
    forall now rs, step pick 1 s (OCycle now rs) = (s, []).
Proof.
  intros pick Hp. exists busy, busy_start.
  assert (G : forall n, let s := turns pick 1 busy n (run pick 1 loop_init busy_start) in
    In (5, 0%nat) (e_heap s) /\ ~ In 0%nat (e_cancelled s) /\
    forall now rs, step pick 1 s (OCycle now rs) = (s, [])).
  { intros n s. destruct (busy_forever pick Hp n) as [D [_ [H C]]]. fold s in D, H, C.
    rewrite H, C. split; [left; reflexivity|]. split; [intros []|]. intros now rs. cbn. rewrite D. reflexivity. }
  split; [exact (proj1 (G 0%nat)) | exact G].
Qed.
Print Assumptions C09_busy_callback_starves_refuted.

(** C09 where it holds: as soon as callbacks stop adding others with [call_soon], the loop gets back to its timers and
    the selector after one turn for each queued callback and one more. *)
Theorem C09_gets_back_partial : forall pick resolution ops s, e_draining s = true ->
  (forall o, In o ops ->
     o = ORun \/ (exists h, o = OCancel h) \/ (exists r, o = OCancelReader r) \/ exists w, o = OCallAt w) ->
  (length (e_ready s) < length (filter (fun o => match o with ORun => true | _ => false end) ops))%nat ->
  e_draining (run pick resolution s ops) = false /\ In EvDrained (events pick resolution s ops).
Proof. exact drain_ends. Qed.
Print Assumptions C09_gets_back_partial.

Example C09_nonvacuous :
  let s := run pick_min 1 loop_init [OCallSoon; OCallSoon; OCycle 0 []] in
  e_draining s = true /\ length (e_ready s) = 2%nat /\
  e_draining (run pick_min 1 s [ORun; OCallAt 4; ORun; OCancel 1; ORun]) = false.
Proof. repeat split. Qed.
