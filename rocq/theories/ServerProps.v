(** C53, C96: waiting for a server to close. *)
From Coq Require Import List ZArith Bool Arith Lia.
From Verif Require Import ServerModel ServerSpec ServerProofs.
Import ListNotations.

(** When a server is closed and has no connections, every task still waiting in [wait_closed]
    started to wait after a task whose waiting was cancelled. *)
Theorem C53_woken_partial os w : legit os -> finished os -> waiter os w WPending ->
  exists c, c < w /\ waiter os c WCancelled /\ In (SCancel c) os.
Proof. intros L F W. destruct (finished_woken os w L F W) as (c & A & B). exists c. auto using cancelled_by. Qed.
Print Assumptions C53_woken_partial.

(** So if no waiting task was cancelled, all of them continue. *)
Theorem C53_uncancelled os w x : legit os -> finished os -> (forall c, ~ In (SCancel c) os) -> waiter os w x -> x = WWoken.
Proof. exact (finished_all os w x). Qed.
Print Assumptions C53_uncancelled.

(** In general they do not: the waiters after a cancelled one are left waiting, whatever happens later. *)
Theorem C53_refuted : exists os, legit os /\ finished os /\ snd (sv_run sv_init os) = [SWaiting 0; SWaiting 1; SDone; SInvalidState] /\
  forall later, ~ In (SCancel 1) later -> waiter (os ++ later) 1 WPending.
Proof.
  exists [SWait; SWait; SCancel 0; SClose]. split; [|split; [|split]].
  - intros [|[|[|[|[|n]]]]]; cbn; lia.
  - split; [cbn; auto|reflexivity].
  - reflexivity.
  - intros later. unfold waiter.
    assert (K : forall later, ~ In (SCancel 1) later -> exists a fs, sv_after ([SWait; SWait; SCancel 0; SClose] ++ later) =
      {| sv_open := false; sv_active := a; sv_waiters := None; sv_futures := fs |} /\ nth_error fs 1 = Some WPending).
    { clear later. induction later as [|o later IH] using rev_ind; intros N.
      - exists 0%Z, [WCancelled; WPending]. split; reflexivity.
      - destruct IH as (a & fs & E & F); [intros H; apply N, in_app_iff; auto|].
        assert (No : o <> SCancel 1) by (intros ->; apply N, in_app_iff; cbn; auto).
        rewrite app_assoc, after_snoc, E. destruct o; cbn.
        + eauto.
        + destruct (negb _); cbn; eauto 8.
        + eauto.
        + eauto.
        + destruct (nth_error fs w) as [[]|] eqn:Ew; cbn [fst]; eauto. exists a, (set_nth w WCancelled fs). split; [reflexivity|].
          change (nth_error (set_nth w WCancelled fs) 1 = Some WPending). rewrite nth_set_other; [exact F|congruence]. }
    intros N. destruct (K later N) as (a & fs & -> & F). exact F.
Qed.
Print Assumptions C53_refuted.

Example C53_nonvacuous : waiter [SWait; SAttach; SWait; SClose; SDetach] 1 WWoken /\ waiter [SWait; SAttach; SWait; SClose] 1 WPending
  /\ legit [SWait; SAttach; SWait; SClose; SDetach] /\ finished [SWait; SAttach; SWait; SClose; SDetach].
Proof. split; [reflexivity|split; [reflexivity|split]]; [intros [|[|[|[|[|[|n]]]]]]; cbn; lia|split; [cbn; auto|reflexivity]]. Qed.

(** A task which had to wait continues only after a moment at which the server was closed and without connections;
    and [wait_closed] returns at once only when [close] was called. *)
Theorem C96_not_early_partial os : legit os ->
  (forall w, waiter os w WWoken -> exists n, finished (firstn n os)) /\
  (snd (sv_step (sv_after os) SWait) = SReturned -> closed os).
Proof. intros L. split; [intros w; exact (woken_finished os w L)|exact (returned_closed os L)]. Qed.
Print Assumptions C96_not_early_partial.

(** But called after [close] it returns while connections are still open. *)
Theorem C96_refuted : exists os, legit os /\ (forall n, ~ finished (firstn n os)) /\ snd (sv_step (sv_after os) SWait) = SReturned.
Proof.
  exists [SAttach; SClose]. split; [|split; [|reflexivity]].
  - intros [|[|[|n]]]; cbn; lia.
  - intros [|[|[|n]]]; cbn; intros [C N]; cbn in *; try discriminate; intuition discriminate.
Qed.
Print Assumptions C96_refuted.

Example C96_nonvacuous : snd (sv_run sv_init [SWait; SAttach; SClose; SWait; SDetach]) = [SWaiting 0; SDone; SDone; SReturned; SDone]
  /\ waiter [SWait; SAttach; SClose; SWait; SDetach] 0 WWoken.
Proof. split; reflexivity. Qed.
