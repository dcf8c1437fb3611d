(** C40, C41 and C100: the executor. *)
From Coq Require Import List Bool Arith Lia.
From Verif Require Import ExecutorModel ExecutorSpec ExecutorProofs.
Import ListNotations.

(** ** C40 *)
Theorem C40_once : forall os j, starts os j <= 1.
Proof. exact once. Qed.
Print Assumptions C40_once.

(** A result is that of the own function, and comes after the function ended. *)
Theorem C40_own_result : forall os j f, outcome_of os j = Some (Result f) -> f = j /\ starts os j = 1 /\ ~ executing os j.
Proof. exact own. Qed.
Print Assumptions C40_own_result.

Theorem C40_stable : forall os q j x, outcome_of os j = Some x -> outcome_of (os ++ q) j = Some x.
Proof. exact stable. Qed.
Print Assumptions C40_stable.

(** What was cancelled before it started never starts. *)
Theorem C40_skipped : forall os q j x, outcome_of os j = Some x -> starts os j = 0 -> starts (os ++ q) j = 0.
Proof. exact skipped. Qed.
Print Assumptions C40_skipped.

(** When nothing can go on, every future is done; what was not cancelled was executed. *)
Theorem C40_settled : forall os j, no_stale os -> quiet os -> submitted os j -> outcome_of os j <> None.
Proof. exact settled. Qed.
Print Assumptions C40_settled.
Theorem C40_executed : forall os j, no_stale os -> quiet os -> submitted os j -> ~ In (ECancel j) os -> ~ In ECancelAll os -> starts os j = 1 /\ outcome_of os j = Some (Result j).
Proof. exact runs. Qed.
Print Assumptions C40_executed.
(** [no_stale] can fail only after all executors were released. *)
Theorem C40_fresh : forall os, ~ In EReleaseAll os -> ~ In ECancelAll os -> no_stale os.
Proof. exact fresh. Qed.
Print Assumptions C40_fresh.

(** Two functions on two threads, a third is cancelled while it waits on a claimed executor. *)
Definition ex_mixed : list e_op :=
  [ESubmit; EClaim; EExecute 0; EExecute 0; ECancel 2; EWork 0; EWork 1; EWork 0; EWork 0; EWork 1; EWork 1; EWork 1; EWork 1; EWork 0; ELoop; ELoop; ELoop; ELoop; EWork 1].
Example C40_nonvacuous :
  quiet ex_mixed /\ no_stale ex_mixed /\ map (outcome_of ex_mixed) [0; 1; 2; 3] = [Some (Result 0); Some (Result 1); Some Cancelled; None] /\ map (starts ex_mixed) [0; 1; 2] = [1; 1; 0] /\
  submitted ex_mixed 2 /\ ~ submitted ex_mixed 3.
Proof.
  split; [|split; [|split; [|split; [|split]]]].
  - split; [vm_compute; reflexivity|]. intros [|[|w]] H; [vm_compute; reflexivity|vm_compute; reflexivity|vm_compute in H; lia].
  - apply fresh; cbn; intuition discriminate.
  - vm_compute. reflexivity.
  - vm_compute. reflexivity.
  - vm_compute. auto 10.
  - vm_compute. intuition discriminate.
Qed.

(** ** C41 *)
(** Missing from the full claim: futures cancelled while their function runs, claims released too early. *)
Theorem C41_free_idle_partial : forall os w, calm os -> is_free os w -> ~ busy os w /\ forall j, waits_for os w j -> outcome_of os j <> None.
Proof. exact free_idle_user. Qed.
Print Assumptions C41_free_idle_partial.

(** A future is cancelled while its function runs: the next function waits behind it, on a "free" thread. *)
Definition ex_cancelled : list e_op := [ESubmit; EWork 0; EWork 0; ECancel 0; ELoop; ELoop].
Theorem C41_free_idle_refuted : exists os w, ~ In EClaim os /\ is_free os w /\ busy os w /\ waits_for (os ++ [ESubmit]) w 1 /\ executing (os ++ [ESubmit]) 0 /\ nw (e_after (os ++ [ESubmit])) = 1.
Proof.
  exists ex_cancelled, 0. split; [cbn; intuition discriminate|]. split; [vm_compute; auto|]. split; [exists 0, 0; reflexivity|]. split; [exists 1; left; vm_compute; auto|]. split; [exists 0, 0; vm_compute; auto|reflexivity].
Qed.
Print Assumptions C41_free_idle_refuted.
(** So does the release of a claim, without any cancellation. *)
Definition ex_released : list e_op := [EClaim; EExecute 0; EWork 0; EWork 0; ERelease 0].
Theorem C41_claim_refuted : exists os w, (forall j, ~ In (ECancel j) os) /\ is_free os w /\ busy os w /\ waits_for (os ++ [ESubmit]) w 1.
Proof.
  exists ex_released, 0. split; [intros j; cbn; intuition discriminate|]. split; [vm_compute; auto|]. split; [exists 0, 0; reflexivity|]. exists 1. left. vm_compute. auto.
Qed.
Print Assumptions C41_claim_refuted.

(** A cancellation in time, and the thread is free and idle. *)
Definition ex_calm : list e_op := [ESubmit; EWork 0; ECancel 0; ELoop; ELoop; EWork 0; EWork 0].
Example C41_nonvacuous : calm ex_calm /\ is_free ex_calm 0 /\ ~ busy ex_calm 0.
Proof.
  assert (P : forall (p q : list e_op) x l, p ++ x :: q = l -> exists n, n < length l /\ p = firstn n l /\ nth_error l n = Some x).
  { intros p q x l <-. exists (length p). rewrite app_length. cbn. split; [lia|]. split; [rewrite firstn_app, Nat.sub_diag, firstn_all; cbn; now rewrite app_nil_r|]. rewrite nth_error_app2, Nat.sub_diag by lia. reflexivity. }
  split; [|split; [vm_compute; auto|intros (f & j & X); vm_compute in X; discriminate]]. split.
  - intros p q j E. symmetry in E. apply P in E. destruct E as (n & L & -> & X). cbn in L. do 7 (destruct n as [|n]; [try discriminate; injection X as <-; intros ([|w] & f & Lw & Y); vm_compute in Y; discriminate|]). lia.
  - intros p q c w E. symmetry in E. apply P in E. destruct E as (n & L & -> & X). cbn in L. do 7 (destruct n as [|n]; [discriminate|]). lia.
Qed.

(** ** C100 *)
(** The functions of a claimed executor start in the order they were passed. *)
Theorem C100_ordered : forall os c i j, given os c i -> given os c j -> i < j -> ~ started_before os j i.
Proof. exact ordered. Qed.
Print Assumptions C100_ordered.
(** A released claim refuses functions for good. *)
Theorem C100_refused : forall os c q, claim_made os c -> snd (e_step (e_after os) (ERelease c)) = EoNone -> snd (e_step (e_after (os ++ ERelease c :: q)) (EExecute c)) = EoRuntimeError.
Proof. exact refused. Qed.
Print Assumptions C100_refused.
(** With a function waiting, release raises; the claim is kept. *)
Theorem C100_release_refuted : exists os c, claim_made os c /\ snd (e_step (e_after os) (ERelease c)) = EoAttributeError /\ fst (e_step (e_after os) (ERelease c)) = e_after os.
Proof. exists [EClaim; EExecute 0], 0. vm_compute. split; [lia|auto]. Qed.
Print Assumptions C100_release_refuted.
(** After the executors were released, execute of a claim takes a function, which never runs: its future stays pending. *)
Theorem C100_stale_refuted : exists os j, submitted os j /\ quiet os /\ outcome_of os j = None /\ starts os j = 0 /\ forall c, ~ In (ERelease c) os.
Proof.
  exists [EClaim; EReleaseAll; EWork 0; EWork 0; EWork 0; EExecute 0], 0. split; [vm_compute; auto 10|]. split; [|split; [reflexivity|split; [reflexivity|intros c; cbn; intuition discriminate]]].
  split; [vm_compute; reflexivity|]. intros [|w] H; [vm_compute; reflexivity|vm_compute in H; lia].
Qed.
Print Assumptions C100_stale_refuted.

Definition ex_claim : list e_op := [EClaim; EExecute 0; EExecute 0; EWork 0; EWork 0; EWork 0; EWork 0; EWork 0; EWork 0].
Example C100_nonvacuous : given ex_claim 0 0 /\ given ex_claim 0 1 /\ started_before ex_claim 0 1 /\ claim_made ex_claim 0 /\ snd (e_step (e_after ex_claim) (ERelease 0)) = EoNone.
Proof.
  split; [exists [EClaim], [EExecute 0; EWork 0; EWork 0; EWork 0; EWork 0; EWork 0; EWork 0]; split; reflexivity|]. split; [exists [EClaim; EExecute 0], [EWork 0; EWork 0; EWork 0; EWork 0; EWork 0; EWork 0]; split; reflexivity|].
  split; [exists [], [0]; split; [vm_compute; reflexivity|cbn; auto]|]. split; [unfold claim_made; cbn; lia|]. vm_compute. reflexivity.
Qed.
