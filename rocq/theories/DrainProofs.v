(** Proofs about the flow control of a protocol. *)

From Coq Require Import List Arith Bool Lia.
From Verif Require Import DrainModel DrainSpec.
Import ListNotations.

Lemma nth_update : forall l i w j, nth_error (update l i w) j = if Nat.eqb j i then (match nth_error l j with None => None | Some _ => Some w end) else nth_error l j.
Proof.
  induction l as [|x l IH]; intros [|i] w [|j]; cbn; auto. now destruct (Nat.eqb j i).
Qed.

Lemma finish_other l i w j : j <> i -> nth_error (finish l i w) j = nth_error l j.
Proof.
  intros H. unfold finish. destruct (nth_error l i) as [[]|]; auto. rewrite nth_update. now rewrite (proj2 (Nat.eqb_neq j i) H).
Qed.

Lemma finish_same l i w : nth_error l i = Some Pending -> nth_error (finish l i w) i = Some w.
Proof. intros H. unfold finish. rewrite H, nth_update, Nat.eqb_refl. now rewrite H. Qed.

Lemma finish_pending l i w j : w <> Pending -> nth_error (finish l i w) j = Some Pending -> nth_error l j = Some Pending /\ j <> i.
Proof.
  intros W H. destruct (Nat.eq_dec j i) as [->|NE]; [|now rewrite finish_other in H].
  unfold finish in H. destruct (nth_error l i) as [[]|] eqn:E; try congruence. rewrite nth_update, Nat.eqb_refl, E in H. congruence.
Qed.

Lemma nth_app_new {A} (l : list A) (x : A) j y : nth_error (l ++ [x]) j = Some y -> nth_error l j = Some y \/ (j = length l /\ x = y).
Proof.
  intros H. destruct (Nat.lt_ge_cases j (length l)) as [L|L].
  - rewrite nth_error_app1 in H by lia. now left.
  - rewrite nth_error_app2 in H by lia. destruct (j - length l) as [|k] eqn:E; cbn in H.
    + injection H as ->. right. split; [lia|reflexivity].
    + now destruct k.
Qed.

(** The flag tells of writing only, and the one waiting task is known. *)
Record inv (s : state) : Prop := {
  i_paused : paused s = told s;
  i_waiting : forall i, waiting s i -> waiter s = Some i /\ paused s = true
}.

Lemma step_inv s o : inv s -> calm s [o] -> inv (fst (step s o)).
Proof.
  intros V C. inversion C as [|? ? ? H _]; subst. destruct V as [V1 V2]. unfold waiting in *. destruct o; cbn [step fst].
  - destruct (told s || lost s); [now split|]. split; [reflexivity|]. intros i I. cbn in *. split; [|reflexivity]. now apply V2.
  - destruct (_ || _); [now split|]. split; [reflexivity|]. intros i I. unfold waiting in I. cbn in I. exfalso.
    destruct (waiter s) as [j|] eqn:W.
    + apply finish_pending in I as [I NE]; [|discriminate]. destruct (V2 _ I). congruence.
    + destruct (V2 _ I). congruence.
  - destruct (lost s); [now split|]. split; [assumption|]. intros i I. unfold waiting in I. cbn in I |- *.
    destruct (paused s) eqn:P.
    + exfalso. destruct (waiter s) as [j|] eqn:W.
      * apply finish_pending in I as [I NE]; [|now destruct error]. destruct (V2 _ I). congruence.
      * destruct (V2 _ I). congruence.
    + destruct (V2 _ I). congruence.
  - unfold drain, drain_helper. destruct (exception s); [now split|]. destruct (paused s) eqn:P; cbn [negb]; [|split; [cbn; congruence|]; intros i I; destruct (V2 i I); discriminate].
    split; [cbn; congruence|]. intros i I. unfold waiting in I. cbn in I |- *. apply nth_app_new in I as [I|[-> _]]; [now apply H in I|now split].
  - unfold drain_helper. destruct (paused s) eqn:P; cbn [negb]; [|split; [cbn; congruence|]; intros i I; destruct (V2 i I); discriminate].
    split; [cbn; congruence|]. intros i I. unfold waiting in I. cbn in I |- *. apply nth_app_new in I as [I|[-> _]]; [now apply H in I|now split].
  - split; [assumption|]. intros j J. unfold waiting in J. cbn in *. apply finish_pending in J as [J _]; [|discriminate]. now apply V2.
  - subst big. cbn. destruct (_ && _); now split.
  - contradiction.
Qed.

Lemma run_inv : forall os s, inv s -> calm s os -> inv (run s os).
Proof.
  induction os as [|o os IH]; intros s V C; cbn [run]; [exact V|]. inversion C; subst. apply IH; [|assumption].
  apply step_inv; [exact V|]. constructor; [assumption|constructor].
Qed.

Lemma inv_initial : inv initial.
Proof. split; [reflexivity|]. intros i I. unfold waiting in I. cbn in I. now destruct i. Qed.

(** A single writer waits exactly while writing is paused, and is woken. *)
Lemma single os : calm initial os -> let s := run initial os in
  (forall i, waiting s i -> told s = true) /\
  (exception s = false -> snd (step s Drain) = Returns <-> told s = false) /\
  (forall i, waiting s i -> lost s = false -> nth_error (waiters (fst (step s Resume_writing))) i = Some Woken /\
     forall e, nth_error (waiters (fst (step s (Lost e)))) i = Some (if e then Failed else Woken)).
Proof.
  intros C. cbv zeta. destruct (run_inv os initial inv_initial C) as [V1 V2]. set (s := run initial os) in *. repeat split.
  - intros i I. destruct (V2 i I). congruence.
  - intros D. cbn [step] in D. unfold drain, drain_helper in D. rewrite H, V1 in D. destruct (told s); [discriminate|reflexivity].
  - intros D. cbn [step]. unfold drain, drain_helper. now rewrite H, V1, D.
  - destruct (V2 _ H) as [W P]. cbn [step]. rewrite <- V1, P, H0. cbn. rewrite W. now apply finish_same.
  - intros e. destruct (V2 _ H) as [W P]. cbn [step]. rewrite H0. cbn. rewrite P, W. now apply finish_same.
Qed.

(** The reader alone: reading is paused only while the flag is set, and asking for data resumes it. *)
Lemma read_alone : forall os s, (paused s = negb (reading s) /\ told s = false) -> Forall read_only os ->
  paused (run s os) = negb (reading (run s os)) /\ told (run s os) = false.
Proof.
  induction os as [|o os IH]; intros s V P; cbn [run]; [exact V|]. inversion P; subst. apply IH; [|assumption].
  destruct V as [V T]. destruct o; cbn [step fst]; try contradiction; auto.
  - destruct (lost s); auto.
  - unfold drain, drain_helper. destruct (exception s), (paused s) eqn:PS; cbn; rewrite ?PS; auto.
  - unfold drain_helper. destruct (paused s) eqn:PS; cbn; rewrite ?PS; auto.
  - destruct (reading s && negb (lost s)); [|now split]. unfold pause_reading. destruct (big && negb (paused s)); cbn; auto.
  - unfold resume_reading. destruct (paused s) eqn:PS; cbn; [auto|]. rewrite PS. auto.
Qed.

Lemma reader os : Forall read_only os -> let s := run initial os in
  reading (fst (step s Want_data)) = true /\ (reading s = true -> lost s = false -> reading (fst (step s (Received true))) = false).
Proof.
  intros P. cbv zeta. destruct (read_alone os initial (conj eq_refl eq_refl) P) as [V _]. set (s := run initial os) in *. cbn [step fst]. split.
  - unfold resume_reading. rewrite V. destruct (reading s) eqn:R; cbn; auto.
  - intros R L. rewrite R, L. cbn. unfold pause_reading. now rewrite V, R.
Qed.

(** A waiter which is not the known one is never woken unless it is cancelled. *)
Lemma forgotten_step s i o : waiting s i -> waiter s <> Some i -> o <> Cancel i ->
  waiting (fst (step s o)) i /\ waiter (fst (step s o)) <> Some i.
Proof.
  unfold waiting. intros W N C.
  assert (L : i < length (waiters s)) by (apply nth_error_Some; congruence).
  assert (A : nth_error (waiters s ++ [Pending]) i = Some Pending) by (now rewrite nth_error_app1).
  destruct o; cbn [step fst].
  - destruct (_ || _); now split.
  - destruct (_ || _); [now split|]. cbn. split; [|discriminate]. destruct (waiter s) as [j|]; [|exact W]. rewrite finish_other; congruence.
  - destruct (lost s); [now split|]. cbn. destruct (paused s); [|now split]. split; [|discriminate].
    destruct (waiter s) as [j|]; [|exact W]. rewrite finish_other; congruence.
  - unfold drain, drain_helper. destruct (exception s); [now split|]. destruct (paused s); cbn; [|now split]. split; [exact A|]. intros [= E]. lia.
  - unfold drain_helper. destruct (paused s); cbn; [|now split]. split; [exact A|]. intros [= E]. lia.
  - cbn. split; [|exact N]. rewrite finish_other; congruence.
  - destruct (_ && _); [|now split]. unfold pause_reading. destruct (_ && _); now split.
  - unfold resume_reading. destruct (paused s); now split.
Qed.

Lemma forgotten : forall os s i, waiting s i -> waiter s <> Some i -> ~ In (Cancel i) os -> waiting (run s os) i.
Proof.
  induction os as [|o os IH]; intros s i W N C; cbn [run]; [exact W|].
  destruct (forgotten_step s i o W N) as [W' N']; [intros ->; apply C; now left|]. apply IH; auto. intros J. apply C. now right.
Qed.

(** Without a connection nothing wakes anyone. *)
Lemma lost_step s i o : lost s = true -> waiting s i -> o <> Cancel i -> lost (fst (step s o)) = true /\ waiting (fst (step s o)) i.
Proof.
  unfold waiting. intros L W C. assert (LT : i < length (waiters s)) by (apply nth_error_Some; congruence).
  assert (A : nth_error (waiters s ++ [Pending]) i = Some Pending) by (now rewrite nth_error_app1).
  destruct o; cbn [step fst]; rewrite ?L, ?orb_true_r; auto.
  - unfold drain, drain_helper. destruct (exception s); [now split|]. destruct (paused s); cbn; now split.
  - unfold drain_helper. destruct (paused s); cbn; now split.
  - cbn. split; [assumption || reflexivity|]. rewrite finish_other; congruence.
  - cbn. rewrite andb_false_r. now split.
  - unfold resume_reading. destruct (paused s); now split.
Qed.

Lemma lost_forever : forall os s i, lost s = true -> waiting s i -> ~ In (Cancel i) os -> waiting (run s os) i.
Proof.
  induction os as [|o os IH]; intros s i L W C; cbn [run]; [exact W|].
  destruct (lost_step s i o L W) as [L' W']; [intros ->; apply C; now left|]. apply IH; auto. intros J. apply C. now right.
Qed.

(** Once the flag was cleared under a paused reader, asking for data does not resume it. *)
Lemma stuck_reader s : paused s = false -> reading s = false -> forall os, Forall (fun o => o <> Pause_writing) os -> reading (run s os) = false.
Proof.
  intros P R os. revert s P R. induction os as [|o os IH]; intros s P R C; cbn [run]; [exact R|]. inversion C; subst.
  assert (paused (fst (step s o)) = false /\ reading (fst (step s o)) = false) as [P' R']; [|apply IH; assumption].
  destruct o; cbn [step fst]; try congruence.
  - destruct (_ || _); [now split|]. now split.
  - destruct (lost s); now split.
  - unfold drain, drain_helper. destruct (exception s); rewrite ?P; now split.
  - unfold drain_helper. rewrite P. now split.
  - now split.
  - rewrite R. now split.
  - unfold resume_reading. now rewrite P.
Qed.

(** After a failure [drain] raises. *)
Lemma exception_step s o : exception s = true -> exception (fst (step s o)) = true.
Proof.
  intros E. destruct o; cbn [step fst].
  - now destruct (_ || _).
  - now destruct (_ || _).
  - destruct (lost s); [exact E|]. cbn. now rewrite E.
  - unfold drain. now rewrite E.
  - unfold drain_helper. now destruct (paused s).
  - exact E.
  - destruct (_ && _); [|exact E]. unfold pause_reading. now destruct (_ && _).
  - unfold resume_reading. now destruct (paused s).
Qed.

Lemma failed s : lost s = false -> forall os, snd (step (run (fst (step s (Lost true))) os) Drain) = Raises.
Proof.
  intros L os.
  assert (E : exception (fst (step s (Lost true))) = true) by (cbn [step fst]; rewrite L; cbn; apply orb_true_r).
  revert E. generalize (fst (step s (Lost true))). induction os as [|o os IH]; intros t E; cbn [run].
  - cbn [step]. unfold drain. now rewrite E.
  - apply IH. now apply exception_step.
Qed.

(** What a waiting task was told does not change. *)
Lemma finish_final l i w j x : nth_error l j = Some x -> x <> Pending -> nth_error (finish l i w) j = Some x.
Proof.
  intros H X. destruct (Nat.eq_dec j i) as [->|NE]; [|now rewrite finish_other]. unfold finish. rewrite H. destruct x; congruence.
Qed.

Lemma final : forall os s i w, nth_error (waiters s) i = Some w -> w <> Pending -> nth_error (waiters (run s os)) i = Some w.
Proof.
  induction os as [|o os IH]; intros s i w H W; cbn [run]; [exact H|]. apply IH; [|exact W].
  assert (A : nth_error (waiters s ++ [Pending]) i = Some w) by (rewrite nth_error_app1; [exact H|apply nth_error_Some; congruence]).
  destruct o; cbn [step fst].
  - now destruct (_ || _).
  - destruct (_ || _); [exact H|]. cbn. destruct (waiter s); [now apply finish_final|exact H].
  - destruct (lost s); [exact H|]. cbn. destruct (paused s); [|exact H]. destruct (waiter s); [now apply finish_final|exact H].
  - unfold drain, drain_helper. destruct (exception s); [exact H|]. now destruct (paused s).
  - unfold drain_helper. now destruct (paused s).
  - cbn. now apply finish_final.
  - destruct (_ && _); [|exact H]. unfold pause_reading. now destruct (_ && _).
  - unfold resume_reading. now destruct (paused s).
Qed.
