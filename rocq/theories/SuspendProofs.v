From Coq Require Import List Arith Bool Lia Permutation.
From Verif Require Import SuspendModel SuspendSpec.
Import ListNotations.

Lemma run_app w a b : run w (a ++ b) = run (run w a) b.
Proof. apply fold_left_app. Qed.

Definition gives (l : list handle) : list nat := flat_map (fun h => match h with Give c => [c] | Other => [] end) l.
Lemma gives_app a b : gives (a ++ b) = gives a ++ gives b.
Proof. apply flat_map_app. Qed.

(** [seen]: the contexts entered so far. *)
Record fine (seen : list nat) (w : world) : Prop := mk_fine {
  f_new : forall c, ~ In c seen -> user_of w c = Outside /\ enter_event w c = false /\ exit_event w c = false /\ ~ In c (gives (ready w));
  f_exit : forall c, exit_event w c = true -> user_of w c = Outside /\ enter_event w c = true;
  f_enter : forall c, enter_event w c = true -> (exit_event w c = true \/ held w = Some c) /\ ~ In c (gives (ready w));
  f_nodup : NoDup (gives (ready w));
  f_inside : forall c, user_of w c = Inside -> enter_event w c = true;
  f_held : forall c, held w = Some c -> enter_event w c = true
}.

Lemma change_same {A} (f : nat -> A) c v : change f c v c = v.
Proof. unfold change. rewrite Nat.eqb_refl. reflexivity. Qed.
Lemma change_other {A} (f : nat -> A) c v d : d <> c -> change f c v d = f d.
Proof. intros H. unfold change. destruct (Nat.eqb_spec d c); [contradiction|reflexivity]. Qed.

Definition seen_after (a : op) (seen : list nat) : list nat := match a with Enter c => c :: seen | _ => seen end.

Lemma fine_step seen w a : fine seen w -> (forall c, a = Enter c -> ~ In c seen /\ running w = true) -> fine (seen_after a seen) (step w a).
Proof.
  intros [N X E D U H] C. destruct a; cbn [step seen_after].
  - destruct (C c eq_refl) as [F R]. rewrite R. destruct (N c F) as (N1 & N2 & N3 & N4). rewrite N1. constructor; cbn.
    + intros d K. assert (d <> c) by (intros ->; apply K; left; reflexivity). assert (~ In d seen) by (intros Z; apply K; right; exact Z).
      rewrite change_other by assumption. destruct (N d) as (M1 & M2 & M3 & M4); [assumption|]. split; [exact M1|]. split; [exact M2|]. split; [exact M3|].
      rewrite gives_app, in_app_iff. cbn. intros [Z|[Z|[]]]; [contradiction|congruence].
    + intros d Z. destruct (Nat.eq_dec d c) as [->|K]; [congruence|]. rewrite change_other by exact K. apply X. exact Z.
    + intros d Z. destruct (Nat.eq_dec d c) as [->|K]; [congruence|]. destruct (E d Z) as [E1 E2]. split; [exact E1|]. rewrite gives_app, in_app_iff. cbn. intros [Y|[Y|[]]]; [contradiction|congruence].
    + rewrite gives_app. cbn. apply (Permutation_NoDup (Permutation_cons_append (gives (ready w)) c)). constructor; assumption.
    + intros d. destruct (Nat.eq_dec d c) as [->|K]; [rewrite change_same; discriminate|]. rewrite change_other by exact K. apply U.
    + exact H.
  - destruct (user_of w c) eqn:Q; try (constructor; assumption). destruct (enter_event w c) eqn:V; [|constructor; assumption]. constructor; cbn; auto.
    + intros d K. destruct (N d K) as (M1 & M2 & M3 & M4). rewrite change_other; [auto|]. intros ->. congruence.
    + intros d Z. destruct (X d Z) as [X1 X2]. rewrite change_other; [auto|]. intros ->. congruence.
    + intros d. destruct (Nat.eq_dec d c) as [->|K]; [intros _; exact V|]. rewrite change_other by exact K. apply U.
  - destruct (user_of w c) eqn:Q; try (constructor; assumption). constructor; cbn; auto.
    + intros d K. destruct (N d K) as (M1 & M2 & M3 & M4). rewrite !change_other; [auto| |]; intros ->; congruence.
    + intros d. destruct (Nat.eq_dec d c) as [->|K]; [rewrite !change_same; intros _; split; [reflexivity|apply U; exact Q]|]. rewrite !change_other by exact K. apply X.
    + intros d Z. destruct (E d Z) as [E1 E2]. split; [|exact E2]. destruct (Nat.eq_dec d c) as [->|K]; [left; apply change_same|]. rewrite change_other by exact K. exact E1.
    + intros d. destruct (Nat.eq_dec d c) as [->|K]; [rewrite change_same; discriminate|]. rewrite change_other by exact K. apply U.
  - constructor; cbn; auto; rewrite ?gives_app; cbn; rewrite ?app_nil_r; auto.
  - destruct (running w); [|constructor; assumption]. destruct (held w) eqn:Q; [constructor; auto; intros; rewrite ?Q in *; auto|]. destruct (ready w) as [|[c|] l] eqn:L.
    + constructor; rewrite ?L; auto; intros; rewrite ?Q in *; auto; discriminate.
    + cbn in N, E, D. assert (Z0 : forall d, enter_event w d = true -> exit_event w d = true) by (intros d Z; destruct (E d Z) as [[Y|Y] _]; [exact Y|discriminate]).
      inversion D as [|? ? D1 D2]; subst. constructor; cbn; auto.
      * intros d K. destruct (N d K) as (M1 & M2 & M3 & M4). rewrite change_other by (intros ->; apply M4; left; reflexivity). repeat split; auto.
      * intros d Z. destruct (X d Z) as [X1 X2]. destruct (Nat.eq_dec d c) as [->|K]; [rewrite change_same; auto|rewrite change_other by exact K; auto].
      * intros d. destruct (Nat.eq_dec d c) as [->|K]; [intros _; auto|]. rewrite change_other by exact K. intros Z. split; [left; apply Z0; exact Z|]. intros Y. apply (proj2 (E d Z)). right. exact Y.
      * intros d Z. destruct (Nat.eq_dec d c) as [->|K]; [apply change_same|]. rewrite change_other by exact K. apply U. exact Z.
      * intros d Z. injection Z as <-. apply change_same.
    + constructor; cbn; auto.
  - destruct (held w) as [c|] eqn:Q; [|constructor; auto; intros; rewrite ?Q in *; auto]. destruct (exit_event w c) eqn:V; [|constructor; auto; intros; rewrite ?Q in *; auto]. constructor; cbn; auto.
    + intros d Z. destruct (E d Z) as [[Y|Y] E2]; [auto|]. injection Y as <-. auto.
    + discriminate.
  - constructor; cbn; auto.
  - destruct (held w) eqn:Q; [constructor; auto; intros; rewrite ?Q in *; auto|]. constructor; cbn; auto; discriminate.
Qed.

Lemma seen_In l c : In c (fold_left (fun s a => seen_after a s) l []) <-> In (Enter c) l.
Proof.
  assert (G : forall l s, In c (fold_left (fun s a => seen_after a s) l s) <-> In (Enter c) l \/ In c s).
  { clear. induction l as [|a l IH]; intros s; cbn [fold_left]; [cbn; tauto|]. rewrite IH. destruct a; cbn; intuition (try congruence). }
  rewrite G. cbn. tauto.
Qed.

Lemma fine_run l : once l -> while_running l -> fine (fold_left (fun s a => seen_after a s) l []) (run init l).
Proof.
  induction l as [|a l IH] using rev_ind; intros O W.
  - constructor; cbn; try discriminate; auto. constructor.
  - rewrite run_app, fold_left_app. cbn. apply fine_step.
    + apply IH.
      * intros before c rest E. apply (O before c (rest ++ [a])). rewrite E, <- app_assoc. reflexivity.
      * intros before c rest E. apply (W before c (rest ++ [a])). rewrite E, <- app_assoc. reflexivity.
    + intros c ->. rewrite seen_In. split; [apply (O l c []); reflexivity|apply (W l c []); reflexivity].
Qed.

Lemma inside_held l c : once l -> while_running l -> inside (run init l) c -> held (run init l) = Some c /\ exit_event (run init l) c = false.
Proof.
  intros O W I0. pose proof (fine_run l O W) as F. unfold inside in I0. pose proof (f_inside _ _ F c I0) as E.
  assert (X : exit_event (run init l) c = false).
  { destruct (exit_event (run init l) c) eqn:V; [|reflexivity]. destruct (f_exit _ _ F c V) as [Y _]. congruence. }
  split; [|exact X]. destruct (f_enter _ _ F c E) as [[Y|Y] _]; [congruence|exact Y].
Qed.

Lemma holds c k : forall w, held w = Some c -> exit_event w c = false -> stays_in c k -> held (run w k) = Some c /\ others (run w k) = others w.
Proof.
  induction k as [|a k IH]; intros w H X N; [auto|]. cbn.
  assert (N1 : a <> Exit c) by (intros ->; apply N; left; reflexivity). assert (N2 : stays_in c k) by (intros Z; apply N; right; exact Z).
  assert (G : held (step w a) = Some c /\ exit_event (step w a) c = false /\ others (step w a) = others w).
  { destruct a; cbn.
    - destruct (user_of w c0); auto. destruct (running w); auto.
    - destruct (user_of w c0); auto. destruct (enter_event w c0); auto.
    - destruct (user_of w c0); auto. cbn. rewrite change_other by congruence. auto.
    - auto.
    - rewrite H. destruct (running w); auto.
    - rewrite H, X. auto.
    - auto.
    - rewrite H. auto. }
  destruct G as (G1 & G2 & G3). destruct (IH _ G1 G2 N2) as [I1 I2]. split; [exact I1|]. rewrite <- G3. exact I2.
Qed.

Lemma suspended l c k : once l -> while_running l -> inside (run init l) c -> stays_in c k -> others (run init (l ++ k)) = others (run init l) /\ held (run init (l ++ k)) = Some c.
Proof. intros O W I0 N. destruct (inside_held l c O W I0) as [H X]. rewrite run_app. destruct (holds c k _ H X N). auto. Qed.

Lemma one_inside l c d : once l -> while_running l -> inside (run init l) c -> inside (run init l) d -> c = d.
Proof. intros O W A B. destruct (inside_held l c O W A) as [H _], (inside_held l d O W B) as [H' _]. congruence. Qed.

Lemma resumes l c : once l -> while_running l -> inside (run init l) c -> held (run init (l ++ [Exit c; Released])) = None.
Proof.
  intros O W A. destruct (inside_held l c O W A) as [H _]. rewrite run_app. cbn. unfold inside in A. rewrite A. cbn. rewrite H, change_same. reflexivity.
Qed.
