(** What the users of the executor see: the outcome of the futures, and when and how often their functions run. *)
From Coq Require Import List Bool Arith Lia.
From Verif Require Import ExecutorModel.
Import ListNotations.

(** The function [j] was passed to run_in_executor, or to execute of a claimed executor. *)
Definition submitted os j : Prop := In (EoJob j) (e_outs os).
(** How often the function [j] was started. *)
Definition starts os j : nat := count_occ Nat.eq_dec (log (e_after os)) j.
Definition outcome_of os j : option outcome := match nth_error (futs (e_after os)) j with Some f => out f | None => None end.
(** Some thread is within the function [j]. *)
Definition executing os j : Prop := exists w f, w < nw (e_after os) /\ ph (ws (e_after os) w) = PBusy j f.
(** The worker [w] is within a function. *)
Definition busy os w : Prop := exists f j, ph (ws (e_after os) w) = PBusy f j.
Definition is_free os w : Prop := In w (free (e_after os)).
(** No thread can go on, and the event loop has nothing to run. *)
Definition quiet os : Prop := loop (e_after os) = [] /\ forall w, w < nw (e_after os) -> fst (e_step (e_after os) (EWork w)) = e_after os.

(** Whenever a function is executed on a claimed executor, the executor still knows the claim. *)
Definition no_stale os : Prop := forall p q c w, os = p ++ EExecute c :: q -> nth_error (claims (e_after p)) c = Some (Some w) -> In w (claimed (e_after p)).

(** No future is cancelled while its function runs, no claim is released before its functions ended. *)
Definition calm os : Prop :=
  (forall p q j, os = p ++ ECancel j :: q -> ~ executing p j) /\
  (forall p q c w, os = p ++ ERelease c :: q -> nth_error (claims (e_after p)) c = Some (Some w) -> ph (ws (e_after p) w) = PTop \/ ph (ws (e_after p) w) = PWait).

(** The function [j] waits for the worker [w]. *)
Definition waits_for os w j : Prop := exists f, In (IPair f j) (queue (ws (e_after os) w)) \/ ph (ws (e_after os) w) = PHanded (IPair f j) \/ ph (ws (e_after os) w) = PGot (IPair f j).

(** The claim [c] was made: claim_executor was called more than [c] times. *)
Definition is_claim (o : e_op) : bool := match o with EClaim => true | _ => false end.
Definition claim_made os c : Prop := c < length (filter is_claim os).
(** The function [j] was passed to execute of the claim [c]. *)
Definition given os c j : Prop := exists p q, os = p ++ EExecute c :: q /\ snd (e_step (e_after p) (EExecute c)) = EoJob j.
(** The function [i] was started before [j]. *)
Definition started_before os i j : Prop := exists a b, log (e_after os) = a ++ j :: b /\ In i b.
