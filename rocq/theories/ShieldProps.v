(** C60 and C99: shield. *)
From Coq Require Import List Bool Arith Lia.
From Verif Require Import ShieldModel ShieldSpec ShieldProofs.
Import ListNotations.

(** A future which is no result of shield gets only the outcomes set on itself: whatever is done to the futures shield
    gave for it. *)
Theorem C60_isolated os f x : plain os f -> outcome_of os f = Some x -> set_by_user os f x.
Proof. exact (isolated os f x). Qed.
Print Assumptions C60_isolated.

(** Any future has an outcome set on itself, or the outcome of the one it shields. *)
Theorem C60_source os f x : outcome_of os f = Some x ->
  set_by_user os f x \/ exists g, g <> f /\ made os g f /\ outcome_of os g = Some x.
Proof. exact (source os f x). Qed.
Print Assumptions C60_source.

(** A shield which nobody sets has no other outcome than the inner future. *)
Theorem C60_follows os f g x : made os f g -> (forall y, ~ set_by_user os g y) -> outcome_of os g = Some x -> outcome_of os f = Some x.
Proof. exact (follows os f g x). Qed.
Print Assumptions C60_follows.

(** Once the event loop ran everything, the outcome of the inner future was delivered. *)
Theorem C60_delivered os f g x : made os f g -> idle os -> outcome_of os f = Some x ->
  outcome_of os g = Some x \/ exists y, set_by_user os g y /\ outcome_of os g = Some y.
Proof. exact (delivered os f g x). Qed.
Print Assumptions C60_delivered.

Theorem C60_stable os os' f x : outcome_of os f = Some x -> outcome_of (os ++ os') f = Some x.
Proof. exact (stable os os' f x). Qed.
Print Assumptions C60_stable.

Example C60_nonvacuous :
  let os := [HNew; HShield 0; HShield 0; HShield 1; HFinish 2 Cancelled; HRun; HFinish 0 (Value 7); HRun; HRun] in
  plain os 0 /\ made os 0 1 /\ made os 0 2 /\ made os 1 3 /\ idle os /\
  outcome_of os 0 = Some (Value 7) /\ outcome_of os 1 = Some (Value 7) /\ outcome_of os 2 = Some Cancelled /\ outcome_of os 3 = Some (Value 7).
Proof. cbv zeta. unfold plain, made, idle. vm_compute. tauto. Qed.

(** A shield which is done leaves nothing behind on the inner future. *)
Theorem C99_no_leak os f g : made os f g -> idle os -> outcome_of os g <> None -> ~ In (CChain g) (cbs (mem (s_after os) f)).
Proof. exact (no_leak os f g). Qed.
Print Assumptions C99_no_leak.

(** The callbacks added to futures are each run once, shields or not. *)
Theorem C99_callbacks os f n : idle os -> outcome_of os f <> None -> ran os f n = registered h_init os f n.
Proof. exact (callbacks_run os f n). Qed.
Print Assumptions C99_callbacks.

Example C99_nonvacuous :
  let os := [HNew; HShield 0; HCallback 0 4; HShield 0; HCallback 1 5; HCallback 0 4; HFinish 1 Cancelled; HRun; HRun] in
  idle os /\ outcome_of os 1 = Some Cancelled /\ ran os 1 5 = 1 /\ cbs (mem (s_after os) 0) = [CUser 4; CChain 2; CUser 4] /\
  let os' := os ++ [HFinish 0 (Raised 1); HRun; HRun; HRun; HCallback 0 9; HRun] in
  idle os' /\ ran os' 0 4 = 2 /\ ran os' 0 9 = 1 /\ outcome_of os' 2 = Some (Raised 1).
Proof. cbv zeta. unfold idle. vm_compute. tauto. Qed.
