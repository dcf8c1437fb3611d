From Coq Require Import List Arith Bool.
From Verif Require Import SuspendModel SuspendSpec SuspendProofs.
Import ListNotations.

Ltac is_once := let E := fresh in let H := fresh in intros before ? rest E;
  repeat (destruct before as [|? before]; [cbn in E; first [discriminate E | injection E; intros; subst; cbn; intros H; repeat (destruct H as [H|H]; [discriminate H|]); exact H]|cbn in E; injection E as <- E]);
  destruct before; discriminate.
Ltac is_running := let E := fresh in intros before ? rest E;
  repeat (destruct before as [|? before]; [cbn in E; first [discriminate E | reflexivity]|cbn in E; injection E as <- E]); destruct before; discriminate.

(** * C163: the loop stands still in the block of a thread which suspends it *)

(** Nothing is run by the loop until the block is left, whatever the loop, other threads and other contexts do. *)
Theorem C163_suspended_partial : forall l c k, once l -> while_running l -> inside (run init l) c -> stays_in c k ->
  others (run init (l ++ k)) = others (run init l) /\ held (run init (l ++ k)) = Some c.
Proof. exact suspended. Qed.
Print Assumptions C163_suspended_partial.

(** Only one thread at a time is in such a block. *)
Theorem C163_one_partial : forall l c d, once l -> while_running l -> inside (run init l) c -> inside (run init l) d -> c = d.
Proof. exact one_inside. Qed.
Print Assumptions C163_one_partial.

(** After it is left the loop goes on. *)
Theorem C163_resumes : forall l c, once l -> while_running l -> inside (run init l) c -> held (run init (l ++ [Exit c; Released])) = None.
Proof. exact resumes. Qed.
Print Assumptions C163_resumes.

Example C163_nonvacuous :
  let l := [StartLoop; Schedule; Enter 0; Enter 1; Schedule; Turn; Turn; Entered 0; Entered 1] in
  once l /\ while_running l /\ inside (run init l) 0 /\ user_of (run init l) 1 = Entering /\ others (run init l) = 1 /\
  others (run init (l ++ [Turn; Turn; Released])) = 1 /\
  inside (run init (l ++ [Exit 0; Released; Turn; Entered 1])) 1 /\ others (run init (l ++ [Exit 0; Released; Turn; Entered 1; Exit 1; Released; Turn])) = 2.
Proof.
  split; [|split].
  - is_once.
  - is_running.
  - repeat split.
Qed.

(** A context which is used again does not wait for the loop, and the loop does not wait for it. *)
Theorem C163_again_refuted : exists l c, while_running l /\ inside (run init l) c /\ held (run init l) = None /\ others (run init (l ++ [Turn])) = S (others (run init l)).
Proof.
  exists [StartLoop; Enter 0; Turn; Entered 0; Exit 0; Released; Enter 0; Entered 0; Turn; Released; Schedule], 0. split; [|repeat split].
  is_running.
Qed.
Print Assumptions C163_again_refuted.

(** A loop which is started after the block is entered runs freely in it. *)
Theorem C163_started_refuted : exists l c, once l /\ inside (run init l) c /\ others (run init (l ++ [Turn])) = S (others (run init l)).
Proof.
  exists [Enter 0; StartLoop; Schedule], 0. split; [|repeat split].
  is_once.
Qed.
Print Assumptions C163_started_refuted.

(** A loop which stops before it comes to the handle leaves the thread waiting: nothing which the thread may do, nor other
    handles, help. *)
Theorem C163_stopped_refuted : exists l c, once l /\ while_running l /\ user_of (run init l) c = Entering /\
  forall k, Forall (fun a => a = Entered c \/ a = Schedule \/ a = Turn \/ a = Released) k -> user_of (run init (l ++ k)) c = Entering.
Proof.
  exists [StartLoop; Enter 0; StopLoop], 0. split; [|split; [|split; [reflexivity|]]].
  - is_once.
  - is_running.
  - intros k F. rewrite run_app. assert (G : forall k w, running w = false -> held w = None -> enter_event w 0 = false -> user_of w 0 = Entering ->
      Forall (fun a => a = Entered 0 \/ a = Schedule \/ a = Turn \/ a = Released) k -> user_of (run w k) 0 = Entering).
    { clear. induction k as [|a k IH]; intros w R H E U F; [exact U|]. inversion F as [|? ? F1 F2]; subst. cbn. destruct F1 as [->|[->|[->| ->]]]; cbn; rewrite ?U, ?E, ?R, ?H; apply IH; auto. }
    apply G; try reflexivity. exact F.
Qed.
Print Assumptions C163_stopped_refuted.
