(** Proofs about the payload stream. *)

From Coq Require Import List Arith Bool Lia Permutation.
From Verif Require Import Bytes PayloadModel PayloadSpec.
Import ListNotations.

(** ** Lists *)
Lemma nth_update {A} : forall (l : list A) i x j,
  nth_error (update l i x) j = if Nat.eqb j i then (match nth_error l j with None => None | Some _ => Some x end) else nth_error l j.
Proof. induction l as [|y l IH]; intros [|i] x [|j]; cbn; auto. now destruct (Nat.eqb j i). Qed.

Lemma length_update {A} : forall (l : list A) i x, length (update l i x) = length l.
Proof. induction l as [|y l IH]; intros [|i] x; cbn; auto. Qed.

Lemma length_finish l i w : length (finish l i w) = length l.
Proof. unfold finish. destruct (nth_error l i) as [[]|]; auto. apply length_update. Qed.

Lemma nth_finish l i w j : nth_error (finish l i w) j =
  if Nat.eqb j i then (match nth_error l j with Some Pending => Some w | x => x end) else nth_error l j.
Proof.
  unfold finish. destruct (Nat.eqb j i) eqn:E.
  - apply Nat.eqb_eq in E as ->. destruct (nth_error l i) as [[]|] eqn:N; auto. rewrite nth_update, Nat.eqb_refl. now rewrite N.
  - destruct (nth_error l i) as [[]|]; auto. rewrite nth_update. now rewrite E.
Qed.

Lemma nth_update_some {A} (l : list A) i x j y : nth_error (update l i x) j = Some y -> (j = i /\ y = x) \/ (j <> i /\ nth_error l j = Some y).
Proof.
  rewrite nth_update. destruct (Nat.eqb j i) eqn:E.
  - apply Nat.eqb_eq in E. destruct (nth_error l j); [|discriminate]. intros [= ->]. now left.
  - apply Nat.eqb_neq in E. now right.
Qed.

Lemma nth_app_new {A} (l : list A) (x : A) j y : nth_error (l ++ [x]) j = Some y -> (j < length l /\ nth_error l j = Some y) \/ (j = length l /\ x = y).
Proof.
  intros H. destruct (Nat.lt_ge_cases j (length l)) as [L|L].
  - rewrite nth_error_app1 in H by lia. now left.
  - rewrite nth_error_app2 in H by lia. destruct (j - length l) as [|k] eqn:E; cbn in H.
    + injection H as ->. right. split; [lia|reflexivity].
    + now destruct k.
Qed.

Lemma nth_lt {A} (l : list A) i x : nth_error l i = Some x -> i < length l.
Proof. intros H. apply nth_error_Some. congruence. Qed.

(** ** The outcome and the callbacks *)
Definition sticky (s t : state) : Prop := (forall d, done s = Some d -> done t = Some d).
Lemma set_done_sticky s d : sticky s (fst (set_done s d)).
Proof. unfold sticky, set_done. intros x H. now rewrite H. Qed.

Lemma get_waiter_done s : done (fst (get_waiter s)) = done s.
Proof. unfold get_waiter. now destruct (waiter s). Qed.

Lemma check_wait_done s m t : check_wait s m = Some t -> done t = done s.
Proof. unfold check_wait. destruct (wait_mode s) as [[]|], m; intros [= <-]; reflexivity. Qed.

Lemma iter_loop_done s k : done (fst (iter_loop s k)) = done s.
Proof.
  unfold iter_loop. destruct (negb (check_raise s)); [reflexivity|]. destruct (chunks s); [|reflexivity].
  destruct (done s) eqn:D; [cbn; congruence|]. pose proof (get_waiter_done s) as G. destruct (get_waiter s). cbn in *. congruence.
Qed.

Lemma step_sticky s o : sticky s (fst (step s o)).
Proof.
  destruct o; cbn [step].
  - unfold add_chunk. destruct (done s) eqn:D; [intros x H; cbn; congruence|]. intros x H. congruence.
  - pose proof (set_done_sticky s d) as A. now destruct (set_done s d).
  - unfold add_callback. intros x H. now destruct (done s).
  - intros x H. unfold await_stream. destruct (check_wait _ Whole) as [t|] eqn:C; [|exact H]. apply check_wait_done in C. cbn in C.
    destruct (negb (check_raise t)); [cbn; congruence|]. destruct (done t) eqn:D; [cbn; congruence|]. congruence.
  - intros x H. destruct (check_wait _ By_chunk) as [t|] eqn:C; [|exact H]. rewrite iter_loop_done. apply check_wait_done in C. cbn in C. congruence.
  - intros x H. destruct (nth_error (consumers s) k) as [[]|]; cbn; auto. now rewrite iter_loop_done.
  - intros x H. destruct (nth_error (consumers s) k) as [[]|]; cbn; auto. now apply set_done_sticky.
  - intros x H. exact H.
  - intros x H. pose proof (set_done_sticky s Aborted x H) as F.
    destruct (nth_error (consumers s) k) as [[]|]; auto.
    all: destruct (nth_error (waiters s) w) as [[]|]; auto.
    all: destruct thrown; auto.
Qed.

Lemma done_final : forall os s d, done s = Some d -> done (fst (run s os)) = Some d.
Proof.
  induction os as [|o os IH]; intros s d H; cbn [run]; [exact H|]. pose proof (step_sticky s o d H) as H1.
  destruct (step s o) as [s1 r]. specialize (IH s1 d H1). now destruct (run s1 os).
Qed.

Lemma get_waiter_cb s : callbacks (fst (get_waiter s)) = callbacks s /\ ran (fst (get_waiter s)) = ran s.
Proof. unfold get_waiter. now destruct (waiter s). Qed.

Lemma iter_loop_cb s k : callbacks (fst (iter_loop s k)) = callbacks s /\ ran (fst (iter_loop s k)) = ran s.
Proof.
  unfold iter_loop. destruct (negb (check_raise s)); [now split|]. destruct (chunks s); [|now split].
  destruct (done s); [now split|]. pose proof (get_waiter_cb s) as G. now destruct (get_waiter s).
Qed.

Lemma check_wait_cb s m t : check_wait s m = Some t -> callbacks t = callbacks s /\ ran t = ran s.
Proof. unfold check_wait. destruct (wait_mode s) as [[]|], m; intros [= <-]; now split. Qed.

Definition cb (s : state) (R : list nat) : Prop :=
  match done s with None => ran s = [] /\ callbacks s = rev R | Some _ => callbacks s = [] /\ Permutation R (ran s) end.

Lemma set_done_cb s d R : cb s R -> cb (fst (set_done s d)) R.
Proof.
  unfold cb, set_done. destruct (done s) as [x|] eqn:D; cbn; [now rewrite D|]. intros [-> ->]. split; [reflexivity|]. apply Permutation_rev.
Qed.

Lemma cb_same s t R : done t = done s -> callbacks t = callbacks s -> ran t = ran s -> cb s R -> cb t R.
Proof. unfold cb. intros -> -> ->. auto. Qed.

Lemma step_cb s o R : cb s R -> cb (fst (step s o)) (R ++ registered [o]).
Proof.
  intros H. destruct o; cbn [step registered]; rewrite ?app_nil_r.
  - unfold add_chunk. destruct (done s) eqn:D; [exact H|]. destruct (wait_mode s) as [[]|], (waiter s); try destruct (is_pending s _); exact H.
  - pose proof (set_done_cb s d R H) as A. now destruct (set_done s d).
  - unfold cb, add_callback in *. destruct (done s) eqn:D; cbn; rewrite ?D; destruct H as [-> H].
    + split; [reflexivity|]. now apply Permutation_app_tail.
    + split; [reflexivity|]. rewrite H. now rewrite rev_app_distr.
  - unfold await_stream. destruct (check_wait _ Whole) as [t|] eqn:C; [|exact H].
    destruct (check_wait_cb _ _ _ C) as [C1 C2]. apply check_wait_done in C. cbn in C, C1, C2. assert (HT : cb t R) by (now apply (cb_same s)).
    destruct (negb (check_raise t)); [exact HT|]. destruct (done t) eqn:D; [exact HT|].
    destruct (get_waiter_cb t) as [W1 W2]. pose proof (get_waiter_done t) as W3. destruct (get_waiter t) as [u i]. cbn in *. now apply (cb_same t).
  - destruct (check_wait _ By_chunk) as [t|] eqn:C; [|exact H].
    destruct (check_wait_cb _ _ _ C) as [C1 C2]. apply check_wait_done in C. cbn in C, C1, C2. assert (HT : cb t R) by (now apply (cb_same s)).
    apply (cb_same t); auto; [apply iter_loop_done|apply iter_loop_cb|apply iter_loop_cb].
  - destruct (nth_error (consumers s) k) as [[]|]; try exact H. apply (cb_same s); auto; [apply iter_loop_done|apply iter_loop_cb|apply iter_loop_cb].
  - destruct (nth_error (consumers s) k) as [[]|]; try exact H. now apply set_done_cb.
  - exact H.
  - pose proof (set_done_cb s Aborted R H) as F. destruct (nth_error (consumers s) k) as [[]|]; try exact H.
    all: destruct (nth_error (waiters s) w) as [[]|]; try exact H; try exact F; destruct thrown; try exact H; exact F.
Qed.

Lemma registered_cons o os : registered (o :: os) = registered [o] ++ registered os.
Proof. now destruct o. Qed.

Lemma run_cb : forall os s R, cb s R -> cb (fst (run s os)) (R ++ registered os).
Proof.
  induction os as [|o os IH]; intros s R H; [now rewrite app_nil_r|]. rewrite registered_cons, app_assoc. cbn [run].
  pose proof (step_cb s o R H) as H1. destruct (step s o) as [s1 r]. specialize (IH s1 _ H1). now destruct (run s1 os).
Qed.

Lemma callbacks_once os : let s := fst (run initial os) in
  match done s with
  | None => ran s = []
  | Some _ => Permutation (registered os) (ran s)
  end.
Proof.
  cbv zeta. assert (H : cb initial []) by (now split). apply (run_cb os) in H. cbn [app] in H. unfold cb in H.
  destruct (done _); tauto.
Qed.

(** ** Who waits *)
Record inv0 (s : state) : Prop := {
  w_current : forall i, waiter s = Some i -> nth_error (waiters s) i = Some Pending \/ nth_error (waiters s) i = Some Cancelled_future;
  w_done : done s <> None -> waiter s = None;
  w_pending : forall i, nth_error (waiters s) i = Some Pending -> waiter s = Some i;
  w_chunk : forall i c, nth_error (waiters s) i = Some (Chunk c) -> wait_mode s = Some By_chunk;
  w_more : forall i, nth_error (waiters s) i = Some No_more -> done s = Some Success;
  w_cons : forall k c, nth_error (consumers s) k = Some c -> match c with
    | Awaits i => wait_mode s = Some Whole /\ i < length (waiters s)
    | Iterates i => wait_mode s = Some By_chunk /\ i < length (waiters s)
    | At_yield => wait_mode s = Some By_chunk
    | Over => True
    end
}.

Lemma inv0_initial : inv0 initial.
Proof. split; cbn; try congruence; intros i; try intros c; destruct i; discriminate. Qed.

Lemma wake_nth s w j : nth_error (wake s w) j =
  match waiter s with
  | Some i => if Nat.eqb j i then (match nth_error (waiters s) j with Some Pending => Some w | x => x end) else nth_error (waiters s) j
  | None => nth_error (waiters s) j
  end.
Proof. unfold wake. destruct (waiter s); [apply nth_finish|reflexivity]. Qed.

Lemma set_done_inv0 s d : inv0 s -> inv0 (fst (set_done s d)).
Proof.
  intros [W1 W2 W3 W4 W5 W6]. unfold set_done. destruct (done s) as [x|] eqn:D; [split; cbn; rewrite ?D; auto|].
  assert (L : length (wake s (match d with Success => No_more | _ => Error end)) = length (waiters s)).
  { unfold wake. destruct (waiter s); [apply length_finish|reflexivity]. }
  split; cbn; auto.
  - discriminate.
  - intros i. rewrite wake_nth. destruct (waiter s) as [j|] eqn:W; [|intros H; apply W3 in H; congruence].
    destruct (Nat.eqb i j) eqn:E.
    + destruct (nth_error (waiters s) i) as [[]|]; try discriminate. now destruct d.
    + intros H. apply W3 in H. apply Nat.eqb_neq in E. congruence.
  - intros i c. rewrite wake_nth. destruct (waiter s) as [j|]; [|apply W4]. destruct (Nat.eqb i j); [|apply W4].
    destruct (nth_error (waiters s) i) as [[]|] eqn:N; try discriminate; [now destruct d|]. intros [= ->]. eapply W4, N.
  - intros i. rewrite wake_nth. destruct (waiter s) as [j|]; [|intros H; apply W5 in H; congruence].
    destruct (Nat.eqb i j); [|intros H; apply W5 in H; congruence].
    destruct (nth_error (waiters s) i) as [[]|] eqn:N; try discriminate; [now destruct d|]. intros _. apply W5 in N. congruence.
  - intros k c H. specialize (W6 k c H). destruct c; auto; rewrite L; exact W6.
Qed.

(** A change of the consumers only. *)
Lemma inv0_consumers s t : inv0 s -> wait_mode t = wait_mode s -> done t = done s -> waiter t = waiter s -> waiters t = waiters s ->
  (forall k c, nth_error (consumers t) k = Some c -> (exists k', nth_error (consumers s) k' = Some c) \/ match c with
    | Awaits i => wait_mode s = Some Whole /\ i < length (waiters s)
    | Iterates i => wait_mode s = Some By_chunk /\ i < length (waiters s)
    | At_yield => wait_mode s = Some By_chunk
    | Over => True
    end) -> inv0 t.
Proof.
  intros [W1 W2 W3 W4 W5 W6] M D W WS C. split; rewrite ?M, ?D, ?W, ?WS; auto. intros k c H. destruct (C k c H) as [[k' K]|K]; [|exact K]. exact (W6 k' c K).
Qed.

Lemma inv0_mode s m : inv0 s -> wait_mode s = None \/ wait_mode s = Some m ->
  inv0 {| wait_mode := Some m; done := done s; chunks := chunks s; waiter := waiter s; waiters := waiters s; callbacks := callbacks s; ran := ran s;
          consumers := consumers s |}.
Proof.
  intros [W1 W2 W3 W4 W5 W6] M. split; cbn; auto.
  - intros i c H. destruct M as [M|M]; [apply W4 in H; congruence|]. rewrite <- M. eauto.
  - intros k c H. specialize (W6 k c H). destruct c; auto; destruct M as [M|M]; try (destruct W6; congruence); try congruence; rewrite M in W6; exact W6.
Qed.

Lemma check_wait_inv0 s m t : inv0 s -> check_wait s m = Some t -> inv0 t /\ wait_mode t = Some m /\ done t = done s /\ chunks t = chunks s /\
  waiter t = waiter s /\ waiters t = waiters s /\ consumers t = consumers s /\ (wait_mode s = None \/ wait_mode s = Some m).
Proof.
  intros V. unfold check_wait. destruct (wait_mode s) as [x|] eqn:M.
  - destruct x, m; intros [= <-]; repeat split; auto; apply V.
  - intros [= <-]. repeat split; auto; cbn; try apply V. all: apply (inv0_mode s m V); now left.
Qed.

Lemma get_waiter_inv0 s : inv0 s -> done s = None -> let '(t, i) := get_waiter s in
  inv0 t /\ i < length (waiters t) /\ waiter t = Some i /\ wait_mode t = wait_mode s /\ done t = None /\ chunks t = chunks s /\ consumers t = consumers s /\
  (forall j, j < length (waiters s) -> nth_error (waiters t) j = nth_error (waiters s) j) /\
  (nth_error (waiters t) i = Some Pending \/ nth_error (waiters t) i = Some Cancelled_future).
Proof.
  intros V D. destruct V as [W1 W2 W3 W4 W5 W6]. unfold get_waiter. destruct (waiter s) as [i|] eqn:W.
  - assert (L : i < length (waiters s)) by (destruct (W1 i eq_refl) as [H|H]; exact (nth_lt _ _ _ H)).
    repeat split; rewrite ?W; auto.
  - assert (NP : forall j, nth_error (waiters s) j <> Some Pending) by (intros j H; apply W3 in H; discriminate).
    cbn. split; [|repeat split; cbn; auto].
    + split; cbn.
      * intros i [= <-]. left. rewrite nth_error_app2 by lia. now rewrite Nat.sub_diag.
      * congruence.
      * intros i H. apply nth_app_new in H as [[_ H]|[-> _]]; [now apply NP in H|reflexivity].
      * intros i c H. apply nth_app_new in H as [[_ H]|[_ H]]; [eapply W4; exact H|discriminate].
      * intros i H. apply nth_app_new in H as [[_ H]|[_ H]]; [eapply W5; exact H|discriminate].
      * intros k c H. specialize (W6 k c H). rewrite app_length. destruct c; auto; destruct W6; split; auto; lia.
    + rewrite app_length. cbn. lia.
    + intros j J. now rewrite nth_error_app1.
    + left. rewrite nth_error_app2 by lia. now rewrite Nat.sub_diag.
Qed.

Lemma nth_set {A} (l : list A) k x j y : nth_error (update l k x) j = Some y -> (exists j', nth_error l j' = Some y) \/ y = x.
Proof. intros H. apply nth_update_some in H as [[_ H]|[_ H]]; [now right|]. left. now exists j. Qed.

Lemma over_inv0 s k : inv0 s -> inv0 (set_consumer s k Over).
Proof. intros V. apply (inv0_consumers s); auto. intros j c H. cbn in H. apply nth_set in H as [H| ->]; auto. Qed.

Lemma chunks_inv0 s l : inv0 s -> inv0 (with_chunks s l (waiter s) (waiters s)).
Proof. intros [W1 W2 W3 W4 W5 W6]. split; cbn; auto. Qed.

Lemma iter_loop_inv0 s k : inv0 s -> wait_mode s = Some By_chunk -> inv0 (fst (iter_loop s k)).
Proof.
  intros V M. unfold iter_loop. destruct (negb (check_raise s)); [now apply over_inv0|]. destruct (chunks s) as [|c l] eqn:C.
  - destruct (done s) eqn:D; [now apply over_inv0|]. pose proof (get_waiter_inv0 s V D) as G. destruct (get_waiter s) as [t i].
    destruct G as (V' & L & _ & M' & _). cbn [fst]. apply (inv0_consumers t); auto. intros j c H. cbn in H. apply nth_set in H as [H| ->]; auto.
    right. split; congruence.
  - cbn [fst]. apply (inv0_consumers (with_chunks s l (waiter s) (waiters s))); auto; [now apply chunks_inv0|]. intros j x H. cbn in H.
    apply nth_set in H as [H| ->]; auto.
Qed.

Lemma new_over_inv0 s : inv0 s -> inv0 {| wait_mode := wait_mode s; done := done s; chunks := chunks s; waiter := waiter s; waiters := waiters s;
  callbacks := callbacks s; ran := ran s; consumers := consumers s ++ [Over] |}.
Proof.
  intros V. apply (inv0_consumers s); auto. intros k c H. cbn in H. apply nth_app_new in H as [[_ H]|[_ <-]]; [|now right]. left. now exists k.
Qed.

Lemma finish_cancelled_inv0 s i : inv0 s -> inv0 (with_chunks s (chunks s) (waiter s) (finish (waiters s) i Cancelled_future)).
Proof.
  intros [W1 W2 W3 W4 W5 W6]. split; cbn; auto.
  - intros j H. specialize (W1 j H). rewrite nth_finish. destruct (Nat.eqb j i); [|exact W1]. destruct W1 as [-> | ->]; auto.
  - intros j. rewrite nth_finish. destruct (Nat.eqb j i); [|apply W3]. destruct (nth_error (waiters s) j) as [[]|] eqn:N; discriminate.
  - intros j c. rewrite nth_finish. destruct (Nat.eqb j i); [|apply W4]. destruct (nth_error (waiters s) j) as [[]|] eqn:N; try discriminate.
    intros _. eapply W4, N.
  - intros j. rewrite nth_finish. destruct (Nat.eqb j i); [|apply W5]. destruct (nth_error (waiters s) j) as [[]|] eqn:N; try discriminate.
    intros _. eapply W5, N.
  - intros k c H. specialize (W6 k c H). rewrite length_finish. exact W6.
Qed.

Lemma add_chunk_inv0 s c : inv0 s -> inv0 (fst (add_chunk s c)).
Proof.
  intros V. pose proof V as [W1 W2 W3 W4 W5 W6]. unfold add_chunk. destruct (done s) as [d|] eqn:D; [exact V|].
  assert (V' : forall l, inv0 (with_chunks s l (waiter s) (waiters s))) by (intros; now apply chunks_inv0).
  destruct (wait_mode s) as [[]|] eqn:M; [apply V'| |apply V']. destruct (waiter s) as [i|] eqn:W; [|apply V'].
  destruct (is_pending s i) eqn:P; cbn [fst].
  - unfold is_pending in P. destruct (nth_error (waiters s) i) as [[]|] eqn:N; try discriminate. split; cbn; auto; try congruence.
    + intros j. rewrite nth_finish. destruct (Nat.eqb j i) eqn:E.
      * apply Nat.eqb_eq in E as ->. rewrite N. discriminate.
      * intros H. apply W3 in H. apply Nat.eqb_neq in E. congruence.
    + intros j. rewrite nth_finish. destruct (Nat.eqb j i) eqn:E.
      * apply Nat.eqb_eq in E as ->. rewrite N. discriminate.
      * intros H. rewrite D. now apply W5 in H.
    + intros k x H. specialize (W6 k x H). rewrite length_finish. rewrite M. exact W6.
  - split; cbn; auto; try congruence.
    + intros j H. pose proof (W3 j H) as J. injection J as <-. unfold is_pending in P. now rewrite H in P.
    + intros j H. rewrite D. now apply W5 in H.
    + intros k x H. specialize (W6 k x H). rewrite M. exact W6.
Qed.

Lemma fail_inv0 s k : inv0 s -> inv0 (fst (fail s k)).
Proof. intros V. cbn. apply over_inv0. now apply set_done_inv0. Qed.

Lemma take_all_inv0 s k : inv0 s -> inv0 (fst (take_all s k)).
Proof. intros V. cbn. apply over_inv0. now apply chunks_inv0. Qed.

Lemma step_inv0 s o : inv0 s -> inv0 (fst (step s o)).
Proof.
  intros V. destruct o; cbn [step].
  - pose proof (add_chunk_inv0 s c V) as A. now destruct (add_chunk s c).
  - pose proof (set_done_inv0 s d V) as A. now destruct (set_done s d).
  - unfold add_callback. destruct V as [W1 W2 W3 W4 W5 W6]. destruct (done s) eqn:D; split; cbn; rewrite ?D; auto.
  - apply new_over_inv0 in V. unfold await_stream. destruct (check_wait _ Whole) as [t|] eqn:C; [|now apply over_inv0].
    destruct (check_wait_inv0 _ _ _ V C) as (V' & M & _). clear C.
    destruct (negb (check_raise t)); [now apply over_inv0|]. destruct (done t) eqn:D; [now apply take_all_inv0|].
    pose proof (get_waiter_inv0 t V' D) as G. destruct (get_waiter t) as [u i]. destruct G as (V2 & L & _ & M' & _). cbn [fst].
    apply (inv0_consumers u); auto. intros j x H. cbn in H. apply nth_set in H as [H| ->]; auto. right. split; congruence.
  - apply new_over_inv0 in V. destruct (check_wait _ By_chunk) as [t|] eqn:C; [|exact V].
    destruct (check_wait_inv0 _ _ _ V C) as (V' & M & _). now apply iter_loop_inv0.
  - destruct (nth_error (consumers s) k) as [[]|] eqn:N; try exact V. apply iter_loop_inv0; [exact V|]. exact (w_cons _ V _ _ N).
  - destruct (nth_error (consumers s) k) as [[]|] eqn:N; try exact V. now apply fail_inv0.
  - now apply finish_cancelled_inv0.
  - destruct (nth_error (consumers s) k) as [[]|] eqn:N; try exact V.
    + destruct (nth_error (waiters s) w) as [[]|]; try exact V; try (now apply fail_inv0); destruct thrown; first [now apply fail_inv0|now apply take_all_inv0].
    + pose proof (w_cons _ V _ _ N) as [M _]. destruct (nth_error (waiters s) w) as [[]|]; try exact V; try (now apply fail_inv0); destruct thrown; try (now apply fail_inv0).
      * cbn. apply (inv0_consumers s); auto. intros j x H. cbn in H. apply nth_set in H as [H| ->]; auto.
      * now apply over_inv0.
Qed.

Lemma run_inv0 : forall os s, inv0 s -> inv0 (fst (run s os)).
Proof.
  induction os as [|o os IH]; intros s V; cbn [run]; [exact V|]. pose proof (step_inv0 s o V) as V1. destruct (step s o) as [s1 r].
  specialize (IH s1 V1). now destruct (run s1 os).
Qed.

(** A consumer of a stream which is done is woken. *)
Lemma woken os : let s := fst (run initial os) in
  done s <> None -> forall k c, nth_error (consumers s) k = Some c -> waits c -> snd (step s (Wake k false)) <> Nothing.
Proof.
  cbv zeta. pose proof (run_inv0 os initial inv0_initial) as V. set (s := fst (run initial os)) in *. intros D k c N W.
  assert (NP : forall i, nth_error (waiters s) i <> Some Pending) by (intros i H; apply (w_pending _ V) in H; rewrite (w_done _ V D) in H; discriminate).
  pose proof (w_cons _ V _ _ N) as L. cbn [step]. rewrite N. destruct c; try contradiction; destruct L as [_ L].
  all: destruct (nth_error (waiters s) w) as [[]|] eqn:E; try discriminate; try (now apply NP in E); apply nth_error_None in E; lia.
Qed.

(** ** One consumer at a time *)
Definition flying (s : state) (c : bytes) : Prop :=
  exists k i, nth_error (consumers s) k = Some (Iterates i) /\ nth_error (waiters s) i = Some (Chunk c).
Definition cleared (s : state) : Prop := done s = Some Exception \/ done s = Some Cancelled.
Definition quiet (s : state) : Prop := forall k c, nth_error (consumers s) k = Some c -> ~ waits c.

Record inv1 (s : state) (A D : list bytes) (B : bytes) : Prop := {
  o_base : inv0 s;
  o_one : forall k c k' c', nth_error (consumers s) k = Some c -> nth_error (consumers s) k' = Some c' -> waits c -> waits c' -> k = k';
  o_cur : forall i, waiter s = Some i -> exists k c, nth_error (consumers s) k = Some c /\ (c = Awaits i \/ c = Iterates i);
  o_empty : forall k i, nth_error (consumers s) k = Some (Iterates i) ->
    nth_error (waiters s) i = Some Pending \/ nth_error (waiters s) i = Some No_more -> chunks s = [];
  o_none : wait_mode s = None -> D = [];
  o_whole : wait_mode s = Some Whole -> D = [] /\ exists rest, concat A = B ++ rest /\ (cleared s \/ rest = concat (chunks s));
  o_chunk : wait_mode s <> Some Whole -> B = concat D /\ exists f rest, A = D ++ f ++ rest /\ (cleared s \/ rest = chunks s) /\
    ((f = [] /\ forall c, ~ flying s c) \/ exists c, f = [c] /\ flying s c)
}.

Lemma quiet_flying s c : quiet s -> ~ flying s c.
Proof. intros Q (k & i & K & _). apply (Q _ _ K). exact Logic.I. Qed.

Lemma flying_one s A D B c c' : inv1 s A D B -> flying s c -> flying s c' -> c = c'.
Proof.
  intros V (k & i & K & C) (k' & i' & K' & C'). pose proof (o_one _ _ _ _ V _ _ _ _ K K' Logic.I Logic.I) as <-. congruence.
Qed.

(** Only the consumers change, and none of them begins to wait. *)
Lemma inv1_consumers s t A D B : inv1 s A D B -> inv0 t -> wait_mode t = wait_mode s -> done t = done s -> chunks t = chunks s ->
  waiter t = waiter s -> waiters t = waiters s ->
  (forall k c, nth_error (consumers t) k = Some c -> waits c -> nth_error (consumers s) k = Some c) ->
  (forall k c i, waiter s = Some i \/ (exists x, nth_error (waiters s) i = Some (Chunk x)) -> c = Awaits i \/ c = Iterates i ->
     nth_error (consumers s) k = Some c -> nth_error (consumers t) k = Some c) ->
  inv1 t A D B.
Proof.
  intros V V0 M D0 C W WS S1 S2.
  assert (F : forall c, flying t c <-> flying s c).
  { intros c. split; intros (k & i & K & N); exists k, i.
    - rewrite WS in N. split; [|exact N]. apply S1; [exact K|exact Logic.I].
    - rewrite WS. split; [|exact N]. apply (S2 k _ i); auto. right. now exists c. }
  destruct V as [V O1 O2 O3 O4 O5 O6]. split; auto.
  - intros k c k' c' K K' WC WC'. eapply O1; [apply S1; eassumption|apply S1; eassumption|assumption|assumption].
  - intros i H. rewrite W in H. destruct (O2 i H) as (k & c & K & I0). exists k, c. split; [|exact I0]. eapply S2; eauto.
  - intros k i K N. rewrite C. rewrite WS in N. eapply O3; [|exact N]. apply S1; [exact K|exact Logic.I].
  - rewrite M. exact O4.
  - rewrite M, C. unfold cleared. rewrite D0. exact O5.
  - rewrite M, C. intros H. destruct (O6 H) as (E & f & rest & A0 & R & G). split; [exact E|]. exists f, rest. repeat split; auto.
    + unfold cleared in *. rewrite D0. exact R.
    + destruct G as [[G1 G2]|(c & G1 & G2)]; [left|right; exists c]; split; auto; [|now apply F]. intros c FC. apply (G2 c). now apply F.
Qed.

Lemma inv1_drop s A D B k x : inv1 s A D B -> waiter s = None \/ (forall c, nth_error (consumers s) k = Some c -> ~ waits c) ->
  (forall i c, nth_error (consumers s) k = Some (Iterates i) -> nth_error (waiters s) i <> Some (Chunk c)) ->
  ~ waits x -> inv0 (set_consumer s k x) -> inv1 (set_consumer s k x) A D B.
Proof.
  intros V W NC X V0. apply (inv1_consumers s); auto.
  - intros j c H WC. cbn in H. apply nth_update_some in H as [[_ ->]|[_ H]]; [contradiction|exact H].
  - intros j c i H C K. cbn. rewrite nth_update. destruct (Nat.eqb j k) eqn:E; [|exact K]. apply Nat.eqb_eq in E as ->. exfalso.
    destruct H as [H|[c0 H]].
    + destruct W as [W|W]; [congruence|]. apply (W _ K). destruct C; subst; exact Logic.I.
    + destruct C as [-> | ->]; [|now apply (NC i c0 K)].
      pose proof (w_cons _ (o_base _ _ _ _ V) _ _ K) as [M _]. pose proof (w_chunk _ (o_base _ _ _ _ V) _ _ H). congruence.
Qed.

Lemma inv1_new s A D B : inv1 s A D B -> inv1 {| wait_mode := wait_mode s; done := done s; chunks := chunks s; waiter := waiter s; waiters := waiters s;
  callbacks := callbacks s; ran := ran s; consumers := consumers s ++ [Over] |} A D B.
Proof.
  intros V. apply (inv1_consumers s); auto; [apply new_over_inv0, V| |].
  - intros k c H W. cbn in H. apply nth_app_new in H as [[_ H]|[_ <-]]; [exact H|contradiction].
  - intros k c i _ _ K. cbn. rewrite nth_error_app1; [exact K|]. exact (nth_lt _ _ _ K).
Qed.

Lemma quiet_new s : quiet s -> quiet {| wait_mode := wait_mode s; done := done s; chunks := chunks s; waiter := waiter s; waiters := waiters s;
  callbacks := callbacks s; ran := ran s; consumers := consumers s ++ [Over] |}.
Proof. intros Q k c H. cbn in H. apply nth_app_new in H as [[_ H]|[_ <-]]; [exact (Q _ _ H)|exact (fun x => x)]. Qed.

Lemma set_done_flying s d c : flying (fst (set_done s d)) c <-> flying s c.
Proof.
  unfold set_done. destruct (done s); [reflexivity|]. unfold flying. cbn [fst consumers waiters].
  split; intros (k & i & K & N); exists k, i; split; auto; revert N; rewrite wake_nth; destruct (waiter s) as [j|]; auto.
  all: destruct (Nat.eqb i j); auto; destruct (nth_error (waiters s) i) as [[]|] eqn:E; auto; try discriminate. now destruct d.
Qed.

Lemma set_done_inv1 s d A D B : inv1 s A D B -> inv1 (fst (set_done s d)) A D B.
Proof.
  intros V. pose proof (set_done_inv0 s d (o_base _ _ _ _ V)) as V0. pose proof (set_done_flying s d) as F. unfold set_done in *.
  destruct (done s) as [x|] eqn:D0; [exact V|]. cbn [fst] in *. destruct V as [V O1 O2 O3 O4 O5 O6].
  assert (NC : ~ cleared s) by (unfold cleared; rewrite D0; intros [|]; discriminate).
  assert (CH : forall rest, rest = chunks s -> (Some d = Some Exception \/ Some d = Some Cancelled) \/
    rest = match d with Exception | Cancelled => [] | _ => chunks s end) by (intros rest ->; destruct d; auto).
  split; cbn; auto.
  - discriminate.
  - intros k i K N. rewrite wake_nth in N. destruct (waiter s) as [j|] eqn:W.
    + assert (chunks s = []) as ->; [|now destruct d]. destruct (Nat.eqb i j) eqn:E.
      * destruct (nth_error (waiters s) i) as [[]|] eqn:NI; try (destruct N; congruence).
        -- apply (O3 k i K). now left.
        -- apply (O3 k i K). now right.
      * apply (O3 k i K N).
    + assert (chunks s = []) as ->; [|now destruct d]. apply (O3 k i K N).
  - intros M. destruct (O5 M) as (D1 & rest & A0 & [R|R]); [contradiction|]. split; [exact D1|]. exists rest. split; [exact A0|].
    unfold cleared. cbn. subst rest. destruct d; auto.
  - intros M. destruct (O6 M) as (E & f & rest & A0 & [R|R] & G); [contradiction|]. split; [exact E|]. exists f, rest. split; [exact A0|].
    split; [unfold cleared; cbn; now apply CH|]. destruct G as [[G1 G2]|(c & G1 & G2)]; [left|right; exists c]; split; auto; [|now apply F].
    intros c FC. apply (G2 c). now apply F.
Qed.

Lemma set_done_waiter s d : inv0 s -> waiter (fst (set_done s d)) = None.
Proof. intros V. unfold set_done. destruct (done s) eqn:D; [|reflexivity]. apply (w_done _ V). congruence. Qed.

Lemma set_done_consumers s d : consumers (fst (set_done s d)) = consumers s.
Proof. unfold set_done. now destruct (done s). Qed.

Lemma fail_inv1 s k A D B : inv1 s A D B ->
  (forall i c, nth_error (consumers s) k = Some (Iterates i) -> nth_error (waiters s) i <> Some (Chunk c)) -> inv1 (fst (fail s k)) A D B.
Proof.
  intros V NC. pose proof (set_done_inv1 s Aborted A D B V) as V'. cbn. apply inv1_drop; [exact V'| | |exact (fun x => x)|].
  - left. apply set_done_waiter, V.
  - intros i c K N. rewrite set_done_consumers in K. apply (NC i c K). unfold set_done in N. destruct (done s); [exact N|]. cbn in N.
    rewrite wake_nth in N. destruct (waiter s) as [j|]; auto. destruct (Nat.eqb i j); auto. destruct (nth_error (waiters s) i) as [[]|]; auto; discriminate.
  - apply over_inv0, V'.
Qed.

(** A consumer begins to wait. *)
Lemma inv1_wait s A D B k m x : inv1 s A D B -> quiet s -> done s = None -> k < length (consumers s) -> wait_mode s = Some m ->
  let '(t, i) := get_waiter s in
  x = (match m with Whole => Awaits i | By_chunk => Iterates i end) -> (m = By_chunk -> chunks s = []) -> inv1 (set_consumer t k x) A D B.
Proof.
  intros V Q D0 K M. pose proof (get_waiter_inv0 s (o_base _ _ _ _ V) D0) as G. destruct (get_waiter s) as [t i].
  destruct G as (V0 & L & W & M' & D' & C' & CO & WS & WI). intros X CH.
  assert (WX : waits x) by (rewrite X; destruct m; exact Logic.I).
  assert (V1 : inv0 (set_consumer t k x)).
  { apply (inv0_consumers t); auto. intros j c H. cbn in H. apply nth_set in H as [H| ->]; auto. right. subst x. destruct m; split; congruence. }
  assert (ON : forall j c, nth_error (update (consumers t) k x) j = Some c -> waits c -> j = k /\ c = x).
  { intros j c H WC. apply nth_update_some in H as [H|[_ H]]; [exact H|]. rewrite CO in H. now apply Q in H. }
  assert (F : forall c, ~ flying (set_consumer t k x) c).
  { intros c (j & i' & J & N). cbn in J, N. destruct (ON _ _ J Logic.I) as [_ E]. subst x. destruct m; [discriminate|]. injection E as ->.
    destruct WI; congruence. }
  destruct V as [V O1 O2 O3 O4 O5 O6]. split; auto.
  - intros j c j' c' H H' WC WC'. cbn in H, H'. destruct (ON _ _ H WC), (ON _ _ H' WC'). congruence.
  - intros i' H. cbn in H. rewrite W in H. injection H as <-. exists k, x. split.
    + cbn. rewrite nth_update, Nat.eqb_refl, CO. destruct (nth_error (consumers s) k) eqn:E; [reflexivity|]. apply nth_error_None in E. lia.
    + subst x. destruct m; auto.
  - intros j i' H N. cbn in H. destruct (ON _ _ H Logic.I) as [_ E]. cbn. rewrite C'. apply CH. subst x. destruct m; [discriminate|reflexivity].
  - cbn. congruence.
  - cbn. rewrite M', C'. unfold cleared in *. cbn. rewrite D'. rewrite D0 in O5. exact O5.
  - cbn. rewrite M', C'. intros H. destruct (O6 H) as (E & f & rest & A0 & R & G). split; [exact E|]. exists f, rest. repeat split; auto.
    + unfold cleared in *. cbn. rewrite D'. now rewrite D0 in R.
    + left. split; [|exact F]. destruct G as [[G1 _]|(c & _ & G2)]; [exact G1|]. exfalso. now apply (quiet_flying s c).
Qed.

(** The loop of an iteration, entered while nobody waits. *)
Definition core (s : state) (r : out) (A D : list bytes) (B : bytes) : Prop :=
  inv1 s A (D ++ delivered_by r) (B ++ data_by r) /\
  (normal_end r -> done s = Some Success /\ concat A = B ++ data_by r /\ (wait_mode s <> Some Whole -> A = D ++ delivered_by r)).

Lemma core_silent s r A D B : delivered_by r = [] -> data_by r = [] -> ~ normal_end r -> inv1 s A D B -> core s r A D B.
Proof. intros H1 H2 H3 V. split; [|contradiction]. now rewrite H1, H2, !app_nil_r. Qed.

Lemma iter_loop_core s k A D B : inv1 s A D B -> quiet s -> k < length (consumers s) -> wait_mode s = Some By_chunk ->
  core (fst (iter_loop s k)) (snd (iter_loop s k)) A D B.
Proof.
  intros V Q K M. assert (NW : forall c, nth_error (consumers s) k = Some c -> ~ waits c) by (intros c; apply Q).
  assert (NI : forall i c, nth_error (consumers s) k = Some (Iterates i) -> nth_error (waiters s) i <> Some (Chunk c))
    by (intros i c H; exfalso; apply (NW _ H); exact Logic.I).
  unfold iter_loop. destruct (check_raise s) eqn:CR; cbn [negb].
  2: { cbn [fst snd]. apply core_silent; auto. apply inv1_drop; auto. apply over_inv0, V. }
  assert (NCL : ~ cleared s) by (unfold cleared; unfold check_raise in CR; destruct (done s) as [[]|]; try discriminate; intros [|]; discriminate).
  assert (NWM : wait_mode s <> Some Whole) by congruence.
  destruct (o_chunk _ _ _ _ V NWM) as (E & f & rest & A0 & [R|R] & G); [contradiction|].
  assert (f = []) as ->. { destruct G as [[G _]|(c & _ & G)]; [exact G|]. exfalso. now apply (quiet_flying s c). }
  cbn in A0. subst rest. destruct (chunks s) as [|c l] eqn:C.
  - destruct (done s) as [d|] eqn:D0; cbn [fst snd].
    + rewrite app_nil_r in A0. split.
      * cbn. rewrite !app_nil_r. apply inv1_drop; auto. apply over_inv0, V.
      * intros _. cbn. rewrite !app_nil_r. repeat split; try congruence. unfold check_raise in CR. rewrite D0 in *. destruct d; try discriminate. reflexivity.
    + pose proof (inv1_wait s A D B k By_chunk) as W. destruct (get_waiter s) as [t i]. cbn [fst snd]. apply core_silent; auto.
  - cbn [fst snd]. split; [|contradiction]. cbn.
    assert (V1 : inv1 (with_chunks s l (waiter s) (waiters s)) A (D ++ [c]) (B ++ c)).
    { destruct V as [V O1 O2 O3 O4 O5 O6]. split; cbn; auto.
      - now apply chunks_inv0.
      - intros k' i' H. exfalso. apply (Q _ _ H). exact Logic.I.
      - congruence.
      - congruence.
      - intros _. split; [rewrite concat_app, E; cbn; now rewrite app_nil_r|]. exists [], l. cbn. rewrite <- app_assoc. repeat split; auto.
        all: left; split; [reflexivity|]; intros x; now apply quiet_flying. }
    apply inv1_drop; auto. apply (inv0_consumers (with_chunks s l (waiter s) (waiters s))); auto; [apply V1|].
    intros j y H. cbn in H. apply nth_set in H as [H| ->]; auto.
Qed.

Lemma mode_inv1 s m A D B : inv1 s A D B -> quiet s -> forall t, check_wait s m = Some t -> inv1 t A D B /\ quiet t.
Proof.
  intros V Q t C. destruct (check_wait_inv0 _ _ _ (o_base _ _ _ _ V) C) as (V0 & M & D0 & CH & W & WS & CO & MM).
  assert (QT : quiet t) by (unfold quiet; now rewrite CO). split; [|exact QT]. destruct V as [V O1 O2 O3 O4 O5 O6].
  assert (F : forall c, ~ flying t c) by (intros c; now apply quiet_flying).
  split; auto.
  - intros k c k' c' K K' WC. exfalso. exact (QT _ _ K WC).
  - rewrite W, CO. exact O2.
  - intros k i K. exfalso. apply (QT _ _ K). exact Logic.I.
  - congruence.
  - intros ME. rewrite CH. unfold cleared. rewrite D0. destruct MM as [MM|MM].
    + destruct (O6 ltac:(congruence)) as (E & f & rest & A0 & R & G). split; [now apply O4|]. rewrite (O4 MM) in *. exists (concat rest). split.
      * rewrite E, A0. destruct G as [[-> _]|(c & _ & G)]; [reflexivity|]. exfalso. now apply (quiet_flying s c).
      * destruct R as [R|R]; [now left|right; now rewrite R].
    + apply O5. congruence.
  - intros ME. rewrite CH. unfold cleared. rewrite D0.
    destruct (O6 ltac:(destruct MM; congruence)) as (E & f & rest & A0 & R & G). split; [exact E|]. exists f, rest. repeat split; auto.
    left. split; [|exact F]. destruct G as [[G _]|(c & _ & G)]; [exact G|]. exfalso. now apply (quiet_flying s c).
Qed.

Lemma take_all_core s k A D B : inv1 s A D B -> done s = Some Success -> wait_mode s = Some Whole -> 
  core (fst (take_all s k)) (snd (take_all s k)) A D B.
Proof.
  intros V D0 M. pose proof (o_base _ _ _ _ V) as V0. destruct (o_whole _ _ _ _ V M) as (D1 & rest & A0 & [R|R]).
  { unfold cleared in R. rewrite D0 in R. destruct R; discriminate. }
  assert (NI : forall k i, nth_error (consumers s) k <> Some (Iterates i)) by (intros j i H; pose proof (w_cons _ V0 _ _ H) as [X _]; congruence).
  assert (W : waiter s = None) by (apply (w_done _ V0); congruence).
  subst rest. split.
  - cbn. rewrite app_nil_r. apply inv1_drop; auto; [|intros i c H; now apply NI in H|apply over_inv0; now apply chunks_inv0].
    destruct V as [V O1 O2 O3 O4 O5 O6]. split; cbn; auto; try congruence; [now apply chunks_inv0|].
    intros _. split; [exact D1|]. exists []. rewrite app_nil_r. split; auto.
  - intros _. cbn. repeat split; auto; congruence.
Qed.

Lemma add_chunk_inv1 s c A D B : inv1 s A D B ->
  inv1 (fst (add_chunk s c)) (A ++ (if snd (add_chunk s c) then [c] else [])) D B.
Proof.
  intros V. pose proof (add_chunk_inv0 s c (o_base _ _ _ _ V)) as V0. unfold add_chunk in *.
  destruct (done s) as [d|] eqn:D0; [cbn [fst snd]; now rewrite app_nil_r|].
  assert (NC : ~ cleared s) by (unfold cleared; rewrite D0; intros [|]; discriminate).
  assert (PL : forall w ws, inv0 (with_chunks s (chunks s ++ [c]) w ws) -> ws = waiters s -> (w = None \/ w = waiter s) ->
    (forall i, wait_mode s = Some By_chunk -> nth_error (waiters s) i <> Some Pending) ->
    inv1 (with_chunks s (chunks s ++ [c]) w ws) (A ++ [c]) D B).
  { intros w ws VV -> W NP. destruct V as [V O1 O2 O3 O4 O5 O6]. split; cbn; auto.
    - intros i H. apply O2. destruct W; congruence.
    - intros k i K [N|N]; [pose proof (w_cons _ V _ _ K) as [MM _]; now apply NP in N|apply (w_more _ V) in N; congruence].
    - intros M. destruct (O5 M) as (D1 & rest & A0 & [R|R]); [contradiction|]. split; [exact D1|]. exists (rest ++ c). split.
      + rewrite concat_app, A0. cbn. now rewrite app_nil_r, app_assoc.
      + right. rewrite concat_app, R. cbn. now rewrite app_nil_r.
    - intros M. destruct (O6 M) as (E & f & rest & A0 & [R|R] & G); [contradiction|]. split; [exact E|]. exists f, (rest ++ [c]). repeat split.
      + now rewrite A0, !app_assoc.
      + right. now rewrite R.
      + exact G. }
  pose proof (o_base _ _ _ _ V) as VB.
  destruct (wait_mode s) as [[]|] eqn:M; [apply PL; auto; congruence| |apply PL; auto; congruence].
  destruct (waiter s) as [i|] eqn:W.
  2: { apply PL; auto. intros i _ H. apply (w_pending _ VB) in H. congruence. }
  destruct (is_pending s i) eqn:P; cbn [fst snd] in *.
  2: { apply PL; auto. intros j _ H. pose proof (w_pending _ VB _ H) as J. rewrite W in J. injection J as <-. unfold is_pending in P. now rewrite H in P. }
  clear PL. unfold is_pending in P. destruct (nth_error (waiters s) i) as [[]|] eqn:N; try discriminate.
  destruct V as [V O1 O2 O3 O4 O5 O6]. destruct (O2 i W) as (k & x & K & X).
  assert (x = Iterates i) as ->. { destruct X as [-> | ->]; [|reflexivity]. pose proof (w_cons _ V _ _ K) as [MM _]. congruence. }
  pose proof (O3 k i K (or_introl N)) as CE.
  destruct (O6 ltac:(congruence)) as (E & f & rest & A0 & [R|R] & G); [contradiction|].
  assert (f = []) as ->.
  { destruct G as [[G _]|(y & _ & k' & i' & K' & N')]; [exact G|]. pose proof (O1 _ _ _ _ K K' Logic.I Logic.I) as <-. congruence. }
  assert (FL : nth_error (finish (waiters s) i (Chunk c)) i = Some (Chunk c)) by (rewrite nth_finish, Nat.eqb_refl; now rewrite N).
  split; cbn; auto; try congruence.
  intros _. split; [exact E|]. exists [c], []. repeat split.
  - rewrite A0, R, CE. cbn. now rewrite !app_nil_r.
  - right. now rewrite CE.
  - right. exists c. split; [reflexivity|]. exists k, i. now split.
Qed.

Lemma cancel_inv1 s i A D B : inv1 s A D B -> inv1 (with_chunks s (chunks s) (waiter s) (finish (waiters s) i Cancelled_future)) A D B.
Proof.
  intros V. pose proof (finish_cancelled_inv0 s i (o_base _ _ _ _ V)) as V0. destruct V as [V O1 O2 O3 O4 O5 O6].
  assert (F : forall c, flying (with_chunks s (chunks s) (waiter s) (finish (waiters s) i Cancelled_future)) c <-> flying s c).
  { intros c. split; intros (k & j & K & N); exists k, j; split; auto; cbn in *; revert N; rewrite nth_finish; destruct (Nat.eqb j i); auto.
    all: destruct (nth_error (waiters s) j) as [[]|]; auto; discriminate. }
  split; cbn; auto.
  - intros k j K N. apply (O3 k j K). rewrite nth_finish in N. destruct (Nat.eqb j i); [|exact N].
    destruct (nth_error (waiters s) j) as [[]|]; auto; destruct N; discriminate.
  - intros M. destruct (O6 M) as (E & f & rest & A0 & R & G). split; [exact E|]. exists f, rest. repeat split; auto.
    destruct G as [[G1 G2]|(c & G1 & G2)]; [left|right; exists c]; split; auto; [|now apply F]. intros c FC. apply (G2 c). now apply F.
Qed.

Lemma step_core s o A D B : inv1 s A D B -> orderly s [o] ->
  core (fst (step s o)) (snd (step s o)) (A ++ accepted [o] [snd (step s o)]) D B.
Proof.
  intros V OR. inversion OR as [|? ? ? P _]; subst. pose proof (o_base _ _ _ _ V) as V0.
  destruct o; cbn [step].
  - pose proof (add_chunk_inv1 s c A D B V) as G. destruct (add_chunk s c) as [t b]. cbn [fst snd] in *. apply core_silent; auto.
  - pose proof (set_done_inv1 s d A D B V) as G. destruct (set_done s d) as [t b]. cbn [fst snd accepted] in *. rewrite app_nil_r. now apply core_silent.
  - cbn. rewrite app_nil_r. apply core_silent; auto. unfold add_callback. destruct (done s) eqn:D0.
    all: apply (inv1_consumers s); auto; destruct V0 as [W1 W2 W3 W4 W5 W6]; split; cbn; rewrite <- ?D0; auto.
  - cbn [accepted]. rewrite app_nil_r. apply inv1_new in V. apply quiet_new in P. set (u := Build_state _ _ _ _ _ _ _ _) in *.
    assert (K : length (consumers s) < length (consumers u)) by (cbn; rewrite app_length; cbn; lia).
    unfold await_stream. destruct (check_wait u Whole) as [t|] eqn:C.
    2: { cbn [fst snd]. apply core_silent; auto. apply inv1_drop; auto; [right; intros c; apply P|intros i c H; exfalso; apply (P _ _ H); exact Logic.I|].
         apply over_inv0, V. }
    destruct (mode_inv1 u Whole A D B V P t C) as [V' Q]. destruct (check_wait_inv0 _ _ _ (o_base _ _ _ _ V) C) as (_ & M & _ & _ & _ & _ & CO & _).
    destruct (check_raise t) eqn:CR; cbn [negb].
    2: { cbn [fst snd]. apply core_silent; auto. apply inv1_drop; auto; [right; intros c; apply Q|intros i c H; exfalso; apply (Q _ _ H); exact Logic.I|].
         apply over_inv0, V'. }
    destruct (done t) as [d|] eqn:D0.
    + assert (d = Success) as -> by (unfold check_raise in CR; rewrite D0 in CR; destruct d; congruence). apply take_all_core; auto.
    + rewrite <- CO in K. pose proof (inv1_wait t A D B (length (consumers s)) Whole) as W. destruct (get_waiter t) as [x i]. cbn [fst snd]. apply core_silent; auto.
      apply W; auto. discriminate.
  - cbn [accepted]. rewrite app_nil_r. apply inv1_new in V. apply quiet_new in P. set (u := Build_state _ _ _ _ _ _ _ _) in *.
    destruct (check_wait u By_chunk) as [t|] eqn:C.
    2: { cbn [fst snd]. now apply core_silent. }
    destruct (mode_inv1 u By_chunk A D B V P t C) as [V' Q]. destruct (check_wait_inv0 _ _ _ (o_base _ _ _ _ V) C) as (_ & M & _ & _ & _ & _ & CO & _).
    apply iter_loop_core; auto. rewrite CO. cbn. rewrite app_length. cbn. lia.
  - cbn [accepted]. rewrite app_nil_r. destruct (nth_error (consumers s) k) as [[]|] eqn:K; try (now apply core_silent).
    apply iter_loop_core; auto; [exact (nth_lt _ _ _ K)|]. exact (w_cons _ V0 _ _ K).
  - cbn [accepted]. rewrite app_nil_r. destruct (nth_error (consumers s) k) as [[]|] eqn:K; try (now apply core_silent).
    apply core_silent; auto. apply fail_inv1; auto. congruence.
  - cbn [accepted fst snd]. rewrite app_nil_r. apply core_silent; auto. now apply cancel_inv1.
  - subst thrown. cbn [accepted]. rewrite app_nil_r. destruct (nth_error (consumers s) k) as [x|] eqn:K; [|now apply core_silent].
    destruct x; try (now apply core_silent).
    + assert (F : core (fst (fail s k)) (snd (fail s k)) A D B) by (apply core_silent; auto; apply fail_inv1; auto; congruence).
      pose proof (w_cons _ V0 _ _ K) as [M _]. destruct (nth_error (waiters s) w) as [[]|] eqn:N; try (now apply core_silent); try exact F.
      * pose proof (w_chunk _ V0 _ _ N). congruence.
      * apply take_all_core; auto. exact (w_more _ V0 _ N).
    + pose proof (w_cons _ V0 _ _ K) as [M _]. destruct (nth_error (waiters s) w) as [x|] eqn:N; [|now apply core_silent].
      assert (F : (forall c, x <> Chunk c) -> core (fst (fail s k)) (snd (fail s k)) A D B) by (intros X; apply core_silent; auto; apply fail_inv1; auto; congruence).
      destruct x; try (now apply core_silent); try (apply F; discriminate).
      * cbn [fst snd]. split; [|contradiction]. cbn. assert (FL : flying s c) by (now exists k, w).
        destruct (o_chunk _ _ _ _ V ltac:(congruence)) as (E & f & rest & A0 & R & G).
        assert (f = [c]) as ->. { destruct G as [[_ G]|(c' & -> & G)]; [now apply G in FL|]. f_equal. eapply flying_one; eauto. }
        assert (ON : forall j y, nth_error (update (consumers s) k At_yield) j = Some y -> ~ waits y).
        { intros j y H. apply nth_update_some in H as [[_ ->]|[NE H]]; [exact (fun z => z)|]. intros WY. apply NE.
          exact (o_one _ _ _ _ V _ _ _ _ H K WY Logic.I). }
        destruct V as [V O1 O2 O3 O4 O5 O6]. split; cbn; auto.
        -- apply (inv0_consumers s); auto. intros j y H. cbn in H. apply nth_set in H as [H| ->]; auto.
        -- intros j y j' y' H _ WY. exfalso. exact (ON _ _ H WY).
        -- intros i W. destruct (O2 i W) as (j & y & J & Y). exfalso. assert (WY : waits y) by (destruct Y; subst; exact Logic.I).
           pose proof (O1 _ _ _ _ K J Logic.I WY) as <-. assert (i = w) by (destruct Y; congruence). subst i.
           destruct (w_current _ V _ W); congruence.
        -- intros j i H. exfalso. apply (ON _ _ H). exact Logic.I.
        -- congruence.
        -- congruence.
        -- intros _. split; [rewrite concat_app, E; cbn; now rewrite app_nil_r|]. exists [], rest. repeat split; auto.
           ++ rewrite A0. cbn. now rewrite <- app_assoc.
           ++ left. split; [reflexivity|]. intros y (j & i & J & _). apply (ON _ _ J). exact Logic.I.
      * cbn [fst snd]. pose proof (w_more _ V0 _ N) as D0. destruct (o_chunk _ _ _ _ V ltac:(congruence)) as (E & f & rest & A0 & R & G).
        assert (NF : forall c, ~ flying s c).
        { intros c (j & i & J & NJ). pose proof (o_one _ _ _ _ V _ _ _ _ K J Logic.I Logic.I) as <-. congruence. }
        assert (f = []) as -> by (destruct G as [[G _]|(c & _ & G)]; [exact G|now apply NF in G]).
        destruct R as [R|R]; [unfold cleared in R; rewrite D0 in R; destruct R; discriminate|].
        rewrite (o_empty _ _ _ _ V _ _ K (or_intror N)) in R. subst rest. cbn in A0. rewrite app_nil_r in A0. split.
        -- cbn. rewrite !app_nil_r. apply inv1_drop; auto; [left; apply (w_done _ V0); congruence|congruence|now apply over_inv0].
        -- intros _. cbn. rewrite !app_nil_r. repeat split; congruence.
Qed.

Lemma accepted_cons o os r rs : accepted (o :: os) (r :: rs) = accepted [o] [r] ++ accepted os rs.
Proof. destruct o; try reflexivity. destruct r as [| | | | |[]|]; reflexivity. Qed.

Lemma run_inv1 : forall os s A D B, inv1 s A D B -> orderly s os -> let '(t, rs) := run s os in
  inv1 t (A ++ accepted os rs) (D ++ delivered rs) (B ++ data rs).
Proof.
  induction os as [|o os IH]; intros s A D B V OR; cbn [run]; [cbn; now rewrite !app_nil_r|].
  inversion OR; subst. assert (O1 : orderly s [o]) by (constructor; [assumption|constructor]).
  pose proof (step_core s o A D B V O1) as [G _]. destruct (step s o) as [s1 r]. cbn [fst snd] in *.
  specialize (IH s1 _ _ _ G H3). destruct (run s1 os) as [t rs]. rewrite accepted_cons. unfold delivered, data in *. cbn [flat_map].
  now rewrite <- !app_assoc in IH.
Qed.

Lemma inv1_initial : inv1 initial [] [] [].
Proof.
  split; cbn; auto; try congruence; try (intros k; destruct k; discriminate); [apply inv0_initial|].
  intros _. split; [reflexivity|]. exists [], []. repeat split; auto. left. split; [reflexivity|]. intros c (k & i & K & _). now destruct k.
Qed.

Lemma done_accepts : forall os s d, done s = Some d -> accepted os (snd (run s os)) = [].
Proof.
  induction os as [|o os IH]; intros s d H; [reflexivity|]. cbn [run]. pose proof (step_sticky s o d H) as H1.
  destruct (step s o) as [s1 r] eqn:E. cbn [fst] in H1. specialize (IH s1 d H1). destruct (run s1 os) as [t rs]. cbn [snd] in *. rewrite accepted_cons, IH, app_nil_r.
  destruct o; try reflexivity. cbn [step] in E. unfold add_chunk in E. rewrite H in E. injection E as _ <-. reflexivity.
Qed.

Lemma in_order os : orderly initial os -> let rs := snd (run initial os) in
  prefix (delivered rs) (accepted os rs) /\ prefix (data rs) (concat (accepted os rs)).
Proof.
  intros OR. pose proof (run_inv1 os initial [] [] [] inv1_initial OR) as V. destruct (run initial os) as [t rs]. cbn [snd app] in *.
  destruct V as [V O1 O2 O3 O4 O5 O6]. unfold prefix. destruct (wait_mode t) as [[]|] eqn:M.
  - destruct (O5 eq_refl) as (-> & rest & A0 & _). split; [now exists (accepted os rs)|now exists rest].
  - destruct (O6 ltac:(congruence)) as (E & f & rest & A0 & _). split; [now exists (f ++ rest)|]. exists (concat (f ++ rest)). now rewrite A0, E, concat_app.
  - destruct (O6 ltac:(congruence)) as (E & f & rest & A0 & _). split; [now exists (f ++ rest)|]. exists (concat (f ++ rest)). now rewrite A0, E, concat_app.
Qed.

Lemma run_app : forall os os' s, run s (os ++ os') = let '(t, rs) := run s os in let '(u, rs') := run t os' in (u, rs ++ rs').
Proof.
  induction os as [|o os IH]; intros os' s; cbn [run app]; [now destruct (run s os')|]. destruct (step s o) as [s1 r]. rewrite IH.
  destruct (run s1 os) as [t rs]. now destruct (run t os').
Qed.

Lemma ends_with : forall os s A D B, inv1 s A D B -> orderly s os -> let '(t, rs) := run s os in
  Exists normal_end rs -> done t = Some Success /\ concat (A ++ accepted os rs) = B ++ data rs.
Proof.
  induction os as [|o os IH]; intros s A D B V OR; cbn [run]; [intros H; inversion H|].
  inversion OR; subst. assert (O1 : orderly s [o]) by (constructor; [assumption|constructor]).
  pose proof (step_core s o A D B V O1) as [G N]. destruct (step s o) as [s1 r]. cbn [fst snd] in *.
  pose proof (IH s1 _ _ _ G H3) as IH1. pose proof (run_inv1 os s1 _ _ _ G H3) as V2. pose proof (done_accepts os s1) as DA. pose proof (done_final os s1) as DF.
  destruct (run s1 os) as [t rs]. rewrite accepted_cons. unfold data in *. cbn [flat_map fst snd] in *. rewrite <- !app_assoc in *.
  intros E. inversion E as [? ? NE|? ? NE]; subst; [|now apply IH1]. destruct (N NE) as (D0 & C0 & _). split; [now apply DF|].
  rewrite (DA _ D0) in *. rewrite app_nil_r in V2 |- *.
  assert (P : prefix (B ++ data_by r ++ flat_map data_by rs) (concat (A ++ accepted [o] [r]))).
  { destruct V2 as [VV O1' O2 O3 O4 O5 O6]. unfold prefix. destruct (wait_mode t) as [[]|] eqn:M.
    - destruct (O5 eq_refl) as (_ & rest & A0 & _). now exists rest.
    - destruct (O6 ltac:(congruence)) as (E0 & f & rest & A0 & _). exists (concat (f ++ rest)). rewrite A0, E0. now rewrite concat_app.
    - destruct (O6 ltac:(congruence)) as (E0 & f & rest & A0 & _). exists (concat (f ++ rest)). rewrite A0, E0. now rewrite concat_app. }
  destruct P as [x P]. rewrite C0 in P |- *. rewrite <- !app_assoc in P. apply app_inv_head in P.
  rewrite <- (app_nil_r (data_by r)) in P at 1. apply app_inv_head in P. destruct (flat_map data_by rs); [now rewrite !app_nil_r|discriminate].
Qed.

Lemma complete os : orderly initial os -> let '(s, rs) := run initial os in
  Exists normal_end rs -> done s = Some Success /\ data rs = concat (accepted os rs).
Proof.
  intros OR. pose proof (ends_with os initial [] [] [] inv1_initial OR) as G. destruct (run initial os) as [t rs]. cbn [app] in G.
  intros H. destruct (G H). now split.
Qed.

(** An iteration waits only when it got all which came. *)
Lemma starved os : orderly initial os -> let '(s, rs) := run initial os in
  forall k i, nth_error (consumers s) k = Some (Iterates i) -> snd (step s (Wake k false)) = Nothing -> done s = None /\ delivered rs = accepted os rs.
Proof.
  intros OR. pose proof (run_inv1 os initial [] [] [] inv1_initial OR) as V. destruct (run initial os) as [s rs]. cbn [app] in V.
  intros k i K W. pose proof (o_base _ _ _ _ V) as V0. pose proof (w_cons _ V0 _ _ K) as [M L]. cbn [step] in W. rewrite K in W.
  destruct (nth_error (waiters s) i) as [[]|] eqn:N; try discriminate; [|apply nth_error_None in N; lia].
  assert (D0 : done s = None).
  { destruct (done s) eqn:D0; [|reflexivity]. pose proof (w_pending _ V0 _ N) as P. rewrite (w_done _ V0) in P; congruence. }
  split; [exact D0|]. destruct (o_chunk _ _ _ _ V ltac:(congruence)) as (E & f & rest & A0 & [R|R] & G).
  { unfold cleared in R. rewrite D0 in R. destruct R; discriminate. }
  rewrite (o_empty _ _ _ _ V _ _ K (or_introl N)) in R. subst rest.
  destruct G as [[-> _]|(c & _ & k' & i' & K' & N')]; [now rewrite A0, !app_nil_r|].
  pose proof (o_one _ _ _ _ V _ _ _ _ K K' Logic.I Logic.I) as <-. congruence.
Qed.

(** The first setting of an outcome counts. *)
Lemma set_done_spec s d : step s (Set_done d) = (fst (step s (Set_done d)), Bool (match done s with None => true | Some _ => false end)) /\
  done (fst (step s (Set_done d))) = match done s with None => Some d | x => x end.
Proof. cbn [step]. unfold set_done. destruct (done s) eqn:D; cbn; now rewrite ?D. Qed.
