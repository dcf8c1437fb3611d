(** C56, C94, C95 *)

From Coq Require Import List Arith Bool.
From Verif Require Import CyclerModel CyclerSpec CyclerProofs.
Import ListNotations.

(** When a timer fires, the registered functions are called by priority, equal ones in the order of their registration. *)
Theorem C56_order fuel p fs os c logs r : history idle fuel (new_cycler p fs) os = Some (c, logs) -> registered os (map (fun f => (p, f)) fs) r ->
  length (funcs c) <= fuel -> forall t, In t (timers c) -> exists c' l, step idle fuel c (Fire t) = Some (c', map snd l) /\ in_order r l.
Proof. exact (cycle_order fuel p fs os c logs r). Qed.
Print Assumptions C56_order.

Example C56_nonvacuous : let os := [Act (Append 0 7); Act (Append 3 8); Act (Append 0 9); Act (Remove 5)] in
  option_map snd (history idle 9 (new_cycler 1 [5; 6]) (os ++ [Fire 0; Fire 1])) = Some [[]; []; []; []; [7; 9; 6; 8]; [7; 9; 6; 8]] /\
  registered os [(1, 5); (1, 6)] [(1, 6); (0, 7); (3, 8); (0, 9)].
Proof.
  split; [reflexivity|]. do 3 apply reg_append. apply (reg_remove 5 [] 1 [(1, 6); (0, 7); (3, 8); (0, 9)]); [intros x []| |apply reg_nil].
  intros x J. cbn in J. intros E. repeat (destruct J as [<-|J]; [discriminate E|]). destruct J.
Qed.

(** After cancel nothing is called, until the cycler is rescheduled or called: if the functions do not cancel or reschedule their own cycler. *)
Theorem C56_cancel_partial acts fuel p fs os c logs o c' log : (forall f, forallb untimed (acts f) = true) -> history acts fuel (new_cycler p fs) os = Some (c, logs) ->
  is_on true os = false -> o <> CallNow -> step acts fuel c o = Some (c', log) -> log = [].
Proof. intros Q H. exact (off_silent acts Q fuel _ os c logs o c' log (timed_new p fs) H). Qed.
Print Assumptions C56_cancel_partial.

(** A function which cancels its cycler is called again. *)
Theorem C56_cancel_refuted : exists acts fs, acts 0 = [Cancel] /\ option_map snd (history acts 9 (new_cycler 0 fs) [Fire 0; Fire 1; Fire 2]) = Some [[0]; [0]; [0]].
Proof. exists (fun f => [Cancel]), [0]. auto. Qed.
Print Assumptions C56_cancel_refuted.

(** C94: a cycler which is on has one timer, else none: again if the functions do not touch it. *)
Theorem C94_one_timer_partial acts fuel p fs os c logs : (forall f, forallb untimed (acts f) = true) -> history acts fuel (new_cycler p fs) os = Some (c, logs) ->
  length (timers c) = if is_on true os then 1 else 0.
Proof. intros Q. exact (one_timer acts Q fuel p fs os c logs). Qed.
Print Assumptions C94_one_timer_partial.

Example C94_nonvacuous : option_map (fun x => timers (fst x)) (history idle 9 (new_cycler 0 [1]) [Fire 0; Act Reschedule; CallNow]) = Some [3] /\
  option_map (fun x => timers (fst x)) (history idle 9 (new_cycler 0 [1]) [Fire 0; Act Cancel]) = Some [].
Proof. auto. Qed.

(** A function which reschedules its cycler is called after the cycler is cancelled from outside. *)
Theorem C94_cancel_refuted : exists acts fs, option_map snd (history acts 9 (new_cycler 0 fs) [Fire 0; Act Cancel; Fire 1]) = Some [[0]; []; [0]].
Proof. exists (fun f => [Reschedule]), [0]. auto. Qed.
Print Assumptions C94_cancel_refuted.

(** A function reschedules once and takes itself away: from then on there are two timers, and the other function is called twice as often. *)
Theorem C94_twice_refuted : exists acts fs c log, history acts 9 (new_cycler 0 fs) [Fire 0; Fire 1; Fire 2; Fire 3; Fire 4] = Some (c, log) /\
  log = [[0; 2]; [1; 2]; [1; 2]; [1; 2]; [1; 2]] /\ length (timers c) = 2.
Proof. exists (fun f => if f =? 0 then [Reschedule; Remove 0] else []), [0; 1; 2]. eexists _, _. split; [reflexivity|]. auto. Qed.
Print Assumptions C94_twice_refuted.

(** C95: a function which takes itself away makes the cycle skip the next one. *)
Theorem C95_skip_refuted : exists acts fs, option_map snd (history acts 9 (new_cycler 0 fs) [Fire 0; Fire 1]) = Some [[0]; [1]] /\ fs = [0; 1].
Proof. exists (fun f => if f =? 0 then [Remove 0] else []), [0; 1]. auto. Qed.
Print Assumptions C95_skip_refuted.

(** A function which appends a more urgent one is called again and again within the same cycle. *)
Theorem C95_endless_refuted : exists acts fs, acts 1 = [Append 0 2] /\ acts 2 = [] /\ forall fuel, step acts fuel (new_cycler 1 fs) (Fire 0) = None.
Proof.
  exists greedy, [1]. split; [reflexivity|]. split; [reflexivity|]. intros fuel. cbn [step]. unfold fire. change (existsb (Nat.eqb 0) (timers (new_cycler 1 [1]))) with true. cbn iota.
  unfold run. rewrite greedy_loop; reflexivity.
Qed.
Print Assumptions C95_endless_refuted.
