(** Readers, writers and socket operations of the event loop: C139-C146. *)

From Coq Require Import List NArith Arith Bool Lia.
From Verif Require Import IoModel IoSpec IoProofs.
Import ListNotations.

(** * C139 *)

Theorem C139_runs_live : forall l s tr tr1 h tr2,
  run io_init l = (s, tr) -> tr = tr1 ++ EvRan h :: tr2 -> live tr1 h.
Proof. exact runs_live. Qed.
Print Assumptions C139_runs_live.

Theorem C139_skips_dead : forall l s tr tr1 h tr2,
  run io_init l = (s, tr) -> tr = tr1 ++ EvSkipped h :: tr2 -> ~ live tr1 h.
Proof. exact skipped_dead. Qed.
Print Assumptions C139_skips_dead.

Theorem C139_report : forall l s tr reports,
  run io_init l = (s, tr) -> NoDup (map fst reports) ->
  queued (snd (step s (OPoll reports))) = flat_map (reported tr) reports.
Proof. exact report. Qed.
Print Assumptions C139_report.

Theorem C139_order : forall l s tr,
  run io_init l = (s, tr) -> queued tr = served tr ++ handles (i_ready s).
Proof. exact queue_order. Qed.
Print Assumptions C139_order.

(** Two descriptors are reported; the callback of the first one removes the reader of the second one, which is then not
    called any more; the writer of the second one is. *)
Example C139_nonvacuous :
  snd (run io_init [OAddReader 3 0; OAddReader 4 1; OAddWriter 4 2; OPoll [(3, (true, false)); (4, (true, true))];
                    ORun RBlock SBlock; ORemoveReader 4; ORun RBlock SBlock; ORun RBlock SBlock]) =
  [EvAdd 3 Rd 0; EvAdd 4 Rd 1; EvAdd 4 Wr 2; EvReady 0; EvReady 1; EvReady 2; EvRan 0; EvRemove ByUser 4 Rd true;
   EvSkipped 1; EvRan 2].
Proof. reflexivity. Qed.

(** * C140 *)

Theorem C140_tells : forall l s tr tr1 w fd sd b tr2,
  run io_init l = (s, tr) -> tr = tr1 ++ EvRemove w fd sd b :: tr2 -> (b = true <-> registered tr1 fd sd <> None).
Proof. exact remove_tells. Qed.
Print Assumptions C140_tells.

Theorem C140_fresh : forall l s tr tr1 fd sd h tr2 fd' sd',
  run io_init l = (s, tr) -> tr = tr1 ++ EvAdd fd sd h :: tr2 -> ~ In (EvAdd fd' sd' h) tr1.
Proof. exact handles_fresh. Qed.
Print Assumptions C140_fresh.

Theorem C140_never_again : forall l s tr tr1 tr2 fd sd h,
  run io_init l = (s, tr) -> tr = tr1 ++ tr2 -> In (EvAdd fd sd h) tr1 -> ~ live tr1 h -> ~ In (EvRan h) tr2.
Proof. exact never_again. Qed.
Print Assumptions C140_never_again.

(** The second reader of a descriptor replaces the first one; removing it leaves the writer; removing again finds
    nothing; a handle which the user cancelled is removed by the event loop when its descriptor is reported. *)
Example C140_nonvacuous :
  snd (run io_init [OAddReader 3 0; OPoll [(3, (true, false))]; OAddWriter 3 1; OAddReader 3 2; ORun RBlock SBlock;
                    ORemoveReader 3; ORemoveReader 3; OPoll [(3, (true, true))]; OCancelHandle 1; ORun RBlock SBlock;
                    OPoll [(3, (false, true))]; ORemoveWriter 3]) =
  [EvAdd 3 Rd 0; EvReady 0; EvAdd 3 Wr 1; EvAdd 3 Rd 2; EvSkipped 0; EvRemove ByUser 3 Rd true; EvRemove ByUser 3 Rd false;
   EvReady 1; EvCancelled 1; EvSkipped 1; EvRemove ByLoop 3 Wr true; EvRemove ByUser 3 Wr false].
Proof. reflexivity. Qed.

(** * C141 *)

Theorem C141_quiet : forall l s tr tr1 o r tr2,
  run io_init l = (s, tr) -> tr = tr1 ++ EvEnd o r :: tr2 ->
  forall d r', ~ In (EvRead o d) tr2 /\ ~ In (EvWrote o d) tr2 /\ ~ In (EvEnd o r') tr2.
Proof. exact quiet_after_end. Qed.
Print Assumptions C141_quiet.

Theorem C141_nothing_left : forall l s tr o h,
  run io_init l = (s, tr) -> i_ready s = [] -> ended tr o -> In (EvWait o h) tr ->
  forall fd sd, registered tr fd sd <> Some h.
Proof. exact nothing_left. Qed.
Print Assumptions C141_nothing_left.

Theorem C141_own : forall l s tr tr1 w fd sd b tr2,
  run io_init l = (s, tr) -> tr = tr1 ++ EvRemove w fd sd b :: tr2 -> may_remove tr1 w fd sd.
Proof. exact removes_own. Qed.
Print Assumptions C141_own.

(** A receive is cancelled after its descriptor was reported: it reads nothing and its reader goes. Another receive which
    took over the descriptor before the callback of the first one ran keeps its reader. *)
Example C141_nonvacuous :
  snd (run io_init [OReceive 3 RBlock; OPoll [(3, (true, false))]; OCancel 0; ORun (RData [5%N]) SBlock;
                    ORun RBlock SBlock]) =
  [EvAdd 3 Rd 0; EvWait 0 0; EvReady 0; EvEnd 0 Cancelled; EvRan 0; EvRemove (ByOp 0) 3 Rd true] /\
  snd (run io_init [OReceive 3 RBlock; OCancel 0; OReceive 3 RBlock; ORun RBlock SBlock; OPoll [(3, (true, false))];
                    ORun (RData [5%N]) SBlock]) =
  [EvAdd 3 Rd 0; EvWait 0 0; EvEnd 0 Cancelled; EvAdd 3 Rd 1; EvWait 1 1; EvReady 1; EvRan 1; EvRead 1 [5%N];
   EvEnd 1 (Result [5%N]); EvRemove (ByOp 1) 3 Rd true].
Proof. split; reflexivity. Qed.

(** * C142 *)

Theorem C142_sends : forall l s tr o data,
  run io_init l = (s, tr) -> In (EvSend o data) tr -> octets data ->
  (exists rest, wrote tr o ++ rest = concat data) /\ (In (EvEnd o Sent) tr <-> wrote tr o = concat data).
Proof. exact sends. Qed.
Print Assumptions C142_sends.

Theorem C142_refused : forall l s tr fd data,
  run io_init l = (s, tr) -> data <> [] -> run io_init (l ++ [OSend fd data SError]) = (s, tr ++ [EvReturned Failed]).
Proof. exact send_refused. Qed.
Print Assumptions C142_refused.

(** Three bytes which the socket takes one by one, with a refusal in between. *)
Example C142_nonvacuous :
  snd (run io_init [OSend 3 [[1%N]; [2%N]; [3%N]] (STake 1); OPoll [(3, (false, true))]; ORun RBlock SBlock;
                    OPoll [(3, (false, true))]; ORun RBlock (STake 1); OPoll [(3, (false, true))]; ORun RBlock (STake 9)]) =
  [EvSend 0 [[1%N]; [2%N]; [3%N]]; EvWrote 0 [1%N]; EvAdd 3 Wr 0; EvWait 0 0; EvReady 0; EvRan 0; EvReady 0; EvRan 0;
   EvWrote 0 [2%N]; EvReady 0; EvRan 0; EvWrote 0 [3%N]; EvEnd 0 Sent; EvRemove (ByOp 0) 3 Wr true].
Proof. reflexivity. Qed.

(** * C143 *)

(** [socket_send_all] takes any bytes-like object, but compares the number of bytes [socket.send] took with the number of
    items of the view. Of a view of two items of two bytes each, of which the socket takes two bytes, the rest is never
    sent though the call returns as if it was. *)
Theorem C143_truncated_refuted : exists l s tr o data,
  run io_init l = (s, tr) /\ In (EvSend o data) tr /\ In (EvEnd o Sent) tr /\ i_ready s = [] /\ wrote tr o <> concat data.
Proof.
  exists [OSend 3 [[1%N; 2%N]; [3%N; 4%N]] (STake 2)]. eexists. eexists. exists 0, [[1%N; 2%N]; [3%N; 4%N]].
  split; [reflexivity |]. cbn. split; [tauto |]. split; [tauto |]. split; [reflexivity | discriminate].
Qed.
Print Assumptions C143_truncated_refuted.

(** Of a view of one item of four bytes, which the socket takes at once, the call never returns, whatever happens
    afterwards: four is not one. *)
Theorem C143_hangs_refuted : exists l o data,
  In (EvSend o data) (snd (run io_init l)) /\ wrote (snd (run io_init l)) o = concat data /\
  forall l', ~ In (EvEnd o Sent) (snd (run io_init (l ++ l'))).
Proof.
  exists wide, 0, [[1%N; 2%N; 3%N; 4%N]]. split; [cbn; tauto |]. split; [reflexivity |]. exact wide_hangs.
Qed.
Print Assumptions C143_hangs_refuted.

(** * C144 *)

Theorem C144_receives : forall l s tr o h d sa,
  run io_init l = (s, tr) -> In (EvWait o h) tr -> ~ ended tr o -> (exists fd, registered tr fd Rd = Some h) ->
  let evs := snd (step s (ORun (RData d) sa)) in
  In (EvRan h) evs -> In (EvEnd o (Result d)) evs.
Proof. exact receives. Qed.
Print Assumptions C144_receives.

Theorem C144_immediate : forall l s tr fd d,
  run io_init l = (s, tr) ->
  run io_init (l ++ [OReceive fd (RData d)]) = (s, tr ++ [EvReturned (Result d)]) /\
  run io_init (l ++ [OReceive fd RError]) = (s, tr ++ [EvReturned Failed]).
Proof. exact receives_at_once. Qed.
Print Assumptions C144_immediate.

Theorem C144_superseded : forall l s tr o h l' s' tr',
  run io_init l = (s, tr) -> In (EvWait o h) tr -> ~ live tr h -> run s l' = (s', tr') ->
  forall r, In (EvEnd o r) tr' -> r = Cancelled.
Proof. exact superseded. Qed.
Print Assumptions C144_superseded.

(** When two receives wait on one socket, the second one takes the reader away from the first one, which is not told:
    whatever arrives afterwards, it ends only if it is cancelled. *)
Theorem C144_both_refuted : exists l fd,
  l = [OReceive fd RBlock; OReceive fd RBlock] /\
  forall l' r, In (EvEnd 0 r) (snd (run io_init (l ++ l'))) -> r = Cancelled.
Proof. exists twice, 7. split; [reflexivity | exact twice_starves]. Qed.
Print Assumptions C144_both_refuted.

Example C144_nonvacuous :
  snd (run io_init [OReceive 3 RBlock; OReceive 3 RBlock; OPoll [(3, (true, false))]; ORun (RData [1%N]) SBlock;
                    OPoll [(3, (true, false))]; ORun (RData [2%N]) SBlock]) =
  [EvAdd 3 Rd 0; EvWait 0 0; EvAdd 3 Rd 1; EvWait 1 1; EvReady 1; EvRan 1; EvRead 1 [1%N]; EvEnd 1 (Result [1%N]);
   EvRemove (ByOp 1) 3 Rd true].
Proof. reflexivity. Qed.

(** * C145 *)

Theorem C145_tasks : forall backlog answers,
  tasks (accept_loop backlog answers) = accepted (accept_loop backlog answers).
Proof. exact accept_tasks. Qed.
Print Assumptions C145_tasks.

Theorem C145_raises : forall backlog answers,
  In (AeAccept AError) (accept_loop backlog answers) <-> In AeRaise (accept_loop backlog answers).
Proof. exact accept_raises. Qed.
Print Assumptions C145_raises.

Theorem C145_bound : forall backlog answers, accepts (accept_loop backlog answers) <= backlog.
Proof. exact accept_bound. Qed.
Print Assumptions C145_bound.

Theorem C145_all : forall conns backlog rest,
  length conns <= backlog -> (forall x, hd_error rest = Some x -> x = AEmpty) ->
  tasks (accept_loop backlog (map AConnection conns ++ rest)) = conns.
Proof. exact accept_all. Qed.
Print Assumptions C145_all.

Example C145_nonvacuous :
  accept_loop 2 [AConnection 8; AConnection 9; AConnection 10] =
  [AeAccept (AConnection 8); AeTask 8; AeAccept (AConnection 9); AeTask 9].
Proof. reflexivity. Qed.

(** * C146 *)

(** When there are no more file descriptors the server should stop accepting for a second, but the loop over the backlog
    goes on: it accepts after it removed its reader. *)
Theorem C146_pause_refuted : exists backlog answers tr1 a tr2,
  accept_loop backlog answers = tr1 ++ AeStop :: tr2 /\ In (AeAccept a) tr2.
Proof.
  exists 2, [AExhausted; AConnection 8], [AeAccept AExhausted], (AConnection 8),
    [AeRestart; AeAccept (AConnection 8); AeTask 8]. split; [reflexivity | cbn; tauto].
Qed.
Print Assumptions C146_pause_refuted.

Theorem C146_restarts : forall n, restarts (accept_loop n (repeat AExhausted n)) = n.
Proof. induction n as [| n IH]; [reflexivity |]. unfold restarts in *. cbn. rewrite IH. reflexivity. Qed.
Print Assumptions C146_restarts.

(** It should schedule to start again once, but does it once for each failure, as many times as the backlog is long. *)
Theorem C146_restarts_refuted : exists backlog answers, 1 < restarts (accept_loop backlog answers).
Proof. exists 100, (repeat AExhausted 100). rewrite C146_restarts. lia. Qed.
Print Assumptions C146_restarts_refuted.
