From Coq Require Import List Arith Bool Lia.
From Verif Require Import FutureModel FutureSpec.
Import ListNotations.

Lemma run_app : forall a b f,
  run f (a ++ b) =
  (fst (run (fst (run f a)) b), snd (run f a) ++ snd (run (fst (run f a)) b)).
Proof.
  induction a as [|o a IH]; intros b f; cbn.
  - now destruct (run f b).
  - destruct (step f o) as [f1 r]. rewrite IH.
    destruct (run f1 a) as [f2 tr]. cbn. reflexivity.
Qed.

Lemma run_state_app : forall a b f, run_state f (a ++ b) = run_state (run_state f a) b.
Proof. intros. unfold run_state. rewrite run_app. reflexivity. Qed.

Lemma run_trace_app : forall a b f,
  run_trace f (a ++ b) = run_trace f a ++ run_trace (run_state f a) b.
Proof. intros. unfold run_trace, run_state. rewrite run_app. reflexivity. Qed.

Lemma run_state_cons : forall o b f, run_state f (o :: b) = run_state (fst (step f o)) b.
Proof.
  intros. unfold run_state. cbn. destruct (step f o). cbn. now destruct (run f0 b).
Qed.

Lemma run_trace_cons : forall o b f,
  run_trace f (o :: b) = (o, snd (step f o)) :: run_trace (fst (step f o)) b.
Proof.
  intros. unfold run_trace. cbn. destruct (step f o). cbn. now destruct (run f0 b).
Qed.

(** Reachable shapes of the bits: never destroyed, [return] excludes [raise]. *)
Definition bits_ok (b : fbits) : Prop :=
  b_destroyed b = false.

(** The outcome visible through get_result. *)
Definition obs (f : future) : output := snd (get_result f).

Ltac crush_bits :=
  repeat match goal with
  | f : future |- _ => destruct f
  | b : fbits |- _ => destruct b
  end; cbn in *.

Lemma step_done : forall f o,
  mask_done (f_bits f) = true ->
  mask_done (f_bits (fst (step f o))) = true /\
  obs (fst (step f o)) = obs f /\ wins (o, snd (step f o)) = false.
Proof.
  intros f o H. destruct f as [b r cbs al rd]. cbn in H.
  destruct o; cbn -[mask_done];
    unfold cancel, cancel_with, silence, get_result, get_exception, add_done_callback, remove_done_callback, set_result,
      set_result_if_pending, set_exception, set_exception_if_pending, obs, call_soon; cbn -[mask_done];
    try rewrite H; cbn -[mask_done].
  all: try (destruct (remove_identical c cbs); cbn -[mask_done]).
  all: try (destruct al; cbn -[mask_done]).
  all: destruct b as [x1 x2 x3 x4 x5 x6 x7]; destruct x1, x2, x3, x5, x6; cbn in *; try discriminate; auto.
Qed.

Lemma run_done : forall ops f,
  mask_done (f_bits f) = true ->
  mask_done (f_bits (run_state f ops)) = true /\
  obs (run_state f ops) = obs f /\ winners (run_trace f ops) = [].
Proof.
  induction ops as [|o ops IH]; intros f H.
  - cbn. auto.
  - destruct (step_done f o H) as (D & E & W).
    rewrite run_state_cons, run_trace_cons.
    destruct (IH _ D) as (D' & E' & W').
    unfold winners in *. cbn [filter map]. rewrite W, W', E', E. auto.
Qed.

Definition fresh (f : future) : Prop :=
  b_return (f_bits f) = false /\ b_raise (f_bits f) = false /\ b_cancelled (f_bits f) = false /\
  b_destroyed (f_bits f) = false.

Lemma step_fresh : forall f o, fresh f ->
  (wins (o, snd (step f o)) = true /\ mask_done (f_bits (fst (step f o))) = true /\
   obs (fst (step f o)) = outcome_of o) \/
  (wins (o, snd (step f o)) = false /\ fresh (fst (step f o))).
Proof.
  intros f o (A & B & C & D). destruct f as [b r cbs al rd].
  destruct b as [x1 x2 x3 x4 x5 x6 x7]. cbn in A, B, C, D. subst.
  unfold fresh.
  destruct o; cbn; try (right; auto; fail).
  - left. destruct al; cbn; auto.
  - unfold cancel_with; cbn. destruct (e_stop_iteration (instantiate a)); cbn.
    + right; auto.
    + left. destruct al; cbn; auto.
  - right. unfold remove_done_callback; cbn. destruct (remove_identical c cbs); cbn; auto.
  - left. destruct al; cbn; auto.
  - left. destruct al; cbn; auto.
  - unfold set_exception; cbn. destruct (e_stop_iteration (instantiate a)); cbn.
    + right; auto.
    + left. destruct al; cbn; auto.
  - unfold set_exception_if_pending; cbn. destruct (e_stop_iteration (instantiate a)); cbn.
    + right; auto.
    + left. destruct al; cbn; auto.
Qed.

Lemma fresh_not_done : forall f, fresh f -> mask_done (f_bits f) = false.
Proof. intros f (A & B & C & D). unfold mask_done. now rewrite A, B, C, D. Qed.

Lemma run_fresh : forall ops f, fresh f ->
  (winners (run_trace f ops) = [] /\ fresh (run_state f ops)) \/
  (exists o, winners (run_trace f ops) = [o] /\ mask_done (f_bits (run_state f ops)) = true /\
             obs (run_state f ops) = outcome_of o).
Proof.
  induction ops as [|o ops IH]; intros f H.
  - left. cbn. auto.
  - rewrite run_state_cons, run_trace_cons. unfold winners. cbn [filter map].
    destruct (step_fresh f o H) as [(W & D & E) | (W & H')]; rewrite W.
    + right. exists o. destruct (run_done ops _ D) as (D' & E' & W').
      unfold winners in W'. cbn [map]. rewrite W', E', E. auto.
    + destruct (IH _ H') as [(W' & F) | (o' & W' & D & E)]; unfold winners in W'; rewrite W'; [left | right]; eauto.
Qed.

Lemma fresh_init : forall alive, fresh (future_init alive).
Proof. intros; repeat split. Qed.

Lemma output_is_done : forall alive h,
  output_after alive h OpIsDone = OutBool (mask_done (f_bits (run_state (future_init alive) h))).
Proof. reflexivity. Qed.

Lemma output_get_result : forall alive h,
  output_after alive h OpGetResult = obs (run_state (future_init alive) h).
Proof. reflexivity. Qed.

Lemma write_once : forall alive h1 h2,
  output_after alive h1 OpIsDone = OutBool true ->
  output_after alive (h1 ++ h2) OpIsDone = OutBool true /\
  output_after alive (h1 ++ h2) OpGetResult = output_after alive h1 OpGetResult.
Proof.
  intros alive h1 h2 H. rewrite output_is_done in *. rewrite !output_get_result, run_state_app.
  injection H as H. destruct (run_done h2 _ H) as (D & E & _). now rewrite D, E.
Qed.

Lemma one_winner : forall alive h,
  (winners (run_trace (future_init alive) h) = [] /\
   output_after alive h OpIsDone = OutBool false /\
   output_after alive h OpGetResult = OutError ErrInvalidState) \/
  (exists o, winners (run_trace (future_init alive) h) = [o] /\
   output_after alive h OpIsDone = OutBool true /\
   output_after alive h OpGetResult = outcome_of o).
Proof.
  intros alive h. rewrite output_is_done, output_get_result.
  destruct (run_fresh h (future_init alive) (fresh_init alive)) as [(W & F) | (o & W & D & E)].
  - left. rewrite (fresh_not_done _ F). split; [auto|split;auto].
    destruct F as (A & B & C & D). unfold obs, get_result. now rewrite A, B, C.
  - right. exists o. now rewrite D.
Qed.

Lemma outcome_final : forall alive h1 h2,
  output_after alive h1 OpGetResult <> OutError ErrInvalidState ->
  output_after alive (h1 ++ h2) OpGetResult = output_after alive h1 OpGetResult.
Proof.
  intros alive h1 h2 H. destruct (one_winner alive h1) as [(_ & _ & E) | (o & _ & D & _)]; [contradiction|].
  exact (proj2 (write_once alive h1 h2 D)).
Qed.

(** A completing call on a pending future wins unless it passes a StopIteration. *)
Definition stop_iteration_arg (o : op) : bool :=
  match o with
  | OpSetException a | OpSetExceptionIfPending a | OpCancelWith a => e_stop_iteration (instantiate a)
  | _ => false
  end.

Lemma fresh_of_not_done : forall f, mask_done (f_bits f) = false -> fresh f.
Proof.
  intros f H. unfold mask_done in H. apply orb_false_iff in H as [H D].
  apply orb_false_iff in H as [H C]. apply orb_false_iff in H as [A B]. repeat split; auto.
Qed.

Lemma completing_wins : forall alive h o,
  output_after alive h OpIsDone = OutBool false ->
  completing o = true -> stop_iteration_arg o = false ->
  wins (o, output_after alive h o) = true.
Proof.
  intros alive h o H C S. rewrite output_is_done in H. injection H as H. unfold output_after.
  set (f := run_state _ _) in *. clearbody f.
  destruct o; cbn in C, S; try discriminate; cbn;
    unfold cancel, cancel_with, set_result, set_result_if_pending, set_exception, set_exception_if_pending;
    rewrite H; try rewrite S; reflexivity.
Qed.

(** Callbacks. *)
Lemma remove_identical_spec : forall c l,
  remove_identical c l = (filter (fun x => negb (Nat.eqb x c)) l, count_occ Nat.eq_dec l c).
Proof.
  induction l as [|x l IH]; cbn; auto.
  rewrite IH. destruct (Nat.eq_dec x c) as [->|N].
  - now rewrite Nat.eqb_refl.
  - apply Nat.eqb_neq in N. now rewrite N.
Qed.

Definition cb_of (f : future) : cb_spec := mk_cb (mask_done (f_bits f)) (f_callbacks f) (f_ready f).

Definition cb_inv (f : future) : Prop := f_alive f = true /\ (mask_done (f_bits f) = true -> f_callbacks f = []).

Lemma cb_step_ok : forall f o, cb_inv f ->
  cb_step (cb_of f) (o, snd (step f o)) = cb_of (fst (step f o)) /\ cb_inv (fst (step f o)).
Proof.
  intros f o (A & I). unfold cb_inv, cb_of.
  destruct (mask_done (f_bits f)) eqn:D.
  - destruct (step_done f o D) as (D' & _ & W).
    rewrite D'. specialize (I eq_refl).
    destruct f as [b r cbs al rd]. cbn in A, D, I. subst.
    destruct o; cbn -[mask_done] in *;
      unfold cb_step, cancel, cancel_with, silence, get_result, get_exception, add_done_callback, remove_done_callback, set_result,
        set_result_if_pending, set_exception, set_exception_if_pending, call_soon in *; cbn -[mask_done] in *;
      try rewrite D in *; cbn -[mask_done]; auto;
      try (destruct (b_return b), (b_raise b), (b_cancelled b); cbn; auto; fail).
  - destruct (step_fresh f o (fresh_of_not_done _ D)) as [(W & D' & _) | (W & F)].
    + rewrite D'. destruct f as [b r cbs al rd]. cbn in A, D. subst.
      destruct o; cbn -[mask_done] in *; try discriminate;
      unfold cb_step, cancel, cancel_with, set_result,
        set_result_if_pending, set_exception, set_exception_if_pending, call_soon in *; cbn -[mask_done] in *;
      try rewrite D in *; cbn -[mask_done] in *; auto;
      destruct (e_stop_iteration (instantiate a)); cbn in *; try discriminate; auto.
    + rewrite (fresh_not_done _ F). destruct f as [b r cbs al rd]. cbn in A, D. subst.
      destruct o; cbn -[mask_done] in *;
      unfold cb_step, cancel, cancel_with, silence, get_result, get_exception, add_done_callback, remove_done_callback, set_result,
        set_result_if_pending, set_exception, set_exception_if_pending, call_soon in *; cbn -[mask_done] in *;
      try rewrite D in *; cbn -[mask_done] in *; try discriminate; auto;
      try (destruct (e_stop_iteration (instantiate a)); cbn in *; try discriminate);
      try (destruct (b_return b), (b_raise b), (b_cancelled b); cbn in *; try discriminate);
      try (rewrite remove_identical_spec; cbn);
      (split; [auto | split; [auto | intros; discriminate]]).
Qed.

Lemma cb_run_ok : forall ops f s, cb_inv f -> s = cb_of f ->
  fold_left cb_step (run_trace f ops) s = cb_of (run_state f ops).
Proof.
  induction ops as [|o ops IH]; intros f s I E.
  - exact E.
  - rewrite run_trace_cons, run_state_cons. cbn [fold_left]. subst s.
    destruct (cb_step_ok f o I) as (E & I'). apply IH; auto.
Qed.

Lemma cb_inv_init : cb_inv (future_init true).
Proof. split; [reflexivity | discriminate]. Qed.

Lemma callbacks_refine : forall h,
  let s := cb_run (run_trace (future_init true) h) in
  f_ready (run_state (future_init true) h) = cb_sched s /\
  output_after true h OpIsDone = OutBool (cb_done s) /\
  forall c, output_after true h (OpRemoveCallback c) = OutInt (count_occ Nat.eq_dec (cb_out s) c).
Proof.
  intros h s. unfold s, cb_run.
  pose proof (cb_run_ok h (future_init true) (mk_cb false [] []) cb_inv_init eq_refl) as E.
  rewrite E. split; [reflexivity|]. split; [reflexivity|].
  intros c. unfold output_after. cbn [step]. unfold remove_done_callback.
  rewrite remove_identical_spec. reflexivity.
Qed.

(** The counting form. *)
Lemma count_filter_neq : forall c c' l,
  count_occ Nat.eq_dec (filter (fun x => negb (Nat.eqb x c')) l) c =
  if Nat.eqb c' c then 0 else count_occ Nat.eq_dec l c.
Proof.
  induction l as [|x l IH]; cbn.
  - now destruct (Nat.eqb c' c).
  - destruct (Nat.eqb x c') eqn:E; cbn.
    + rewrite IH. apply Nat.eqb_eq in E. subst. destruct (Nat.eqb c' c) eqn:F; auto.
      apply Nat.eqb_neq in F. destruct (Nat.eq_dec c' c); congruence.
    + rewrite IH. destruct (Nat.eq_dec x c) as [->|N]; cbn; auto.
      destruct (Nat.eqb c' c) eqn:F; auto. apply Nat.eqb_eq in F. subst. now rewrite Nat.eqb_refl in E.
Qed.

Lemma count_rev : forall c l, count_occ Nat.eq_dec (rev l) c = count_occ Nat.eq_dec l c.
Proof.
  induction l as [|x l IH]; cbn; auto.
  rewrite count_occ_app, IH. cbn. destruct (Nat.eq_dec x c); lia.
Qed.

Lemma due_cb : forall c tr s, (cb_done s = true -> cb_out s = []) ->
  count_occ Nat.eq_dec (cb_sched (fold_left cb_step tr s)) c =
  count_occ Nat.eq_dec (cb_sched s) c + due c (count_occ Nat.eq_dec (cb_out s) c) (cb_done s) tr.
Proof.
  induction tr as [|x tr IH]; intros s I; cbn [fold_left due].
  - lia.
  - destruct x as [o r]. cbn [fst].
    destruct o; cbn [fst]; unfold cb_step; cbn [fst].
    all: try (destruct (wins _);
         [ rewrite IH; cbn [cb_done cb_out cb_sched];
           [ rewrite count_occ_app, count_rev; cbn; lia | auto ]
         | apply IH; auto ]).
    + (* add *)
      destruct (cb_done s) eqn:D.
      * rewrite IH; cbn [cb_done cb_out cb_sched]; auto.
        rewrite count_occ_app. cbn [count_occ]. rewrite (I eq_refl). cbn [count_occ].
        destruct (Nat.eqb c0 c) eqn:E.
        -- apply Nat.eqb_eq in E. subst. destruct (Nat.eq_dec c c); [lia | congruence].
        -- apply Nat.eqb_neq in E. destruct (Nat.eq_dec c0 c); [congruence | lia].
      * rewrite IH; cbn [cb_done cb_out cb_sched]; auto; [|discriminate].
        rewrite count_occ_app. cbn [count_occ].
        destruct (Nat.eqb c0 c) eqn:E.
        -- apply Nat.eqb_eq in E. subst. destruct (Nat.eq_dec c c); [|congruence].
           now rewrite Nat.add_1_r.
        -- apply Nat.eqb_neq in E. destruct (Nat.eq_dec c0 c); [congruence|]. now rewrite Nat.add_0_r.
    + (* remove *)
      rewrite IH; cbn [cb_done cb_out cb_sched]; auto.
      * rewrite count_filter_neq. now destruct (Nat.eqb c0 c).
      * intros D. now rewrite (I D).
Qed.

Lemma callbacks_exactly_once : forall h c,
  count_occ Nat.eq_dec (f_ready (run_state (future_init true) h)) c =
  due c 0 false (run_trace (future_init true) h).
Proof.
  intros h c. destruct (callbacks_refine h) as (E & _). rewrite E. unfold cb_run.
  rewrite due_cb; cbn [cb_done cb_out cb_sched]; auto.
Qed.
