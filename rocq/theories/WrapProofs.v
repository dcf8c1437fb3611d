From Coq Require Import List Arith Bool Lia.
From Verif Require Import WrapModel WrapSpec.
Import ListNotations.

Lemma run_app w a b : run w (a ++ b) = run (run w a) b.
Proof. apply fold_left_app. Qed.

Lemma go_at w i p j : at_ (go w i p) j = if j =? i then p else at_ w j.
Proof. reflexivity. Qed.

(** * A result only of a future which is done *)

Record sound (w : world) : Prop := mk_sound {
  s_event : forall i, event w i = true -> done w = true;
  s_ready : forall i, In i (ready w) -> done w = true;
  s_soon : forall i, at_ w i = Soon -> done w = true;
  s_returned : forall i, at_ w i = Returned -> done w = true;
  s_loop : loop w <> Idle -> done w = true
}.

Ltac places i j := unfold go in *; cbn in *; destruct (Nat.eqb_spec j i); subst.

Lemma sound_step w a : sound w -> sound (step w a).
Proof.
  intros [E R Sn Rt L]. destruct a; cbn [step].
  - destruct (at_ w i) as [| | | | |[|k]|k| | |] eqn:P; try (constructor; assumption).
    + constructor; cbn; auto; intros j; destruct (j =? i); eauto; destruct (done w) eqn:?; intros; try congruence; eauto.
    + constructor; cbn; auto; intros j; destruct (j =? i); eauto; destruct (done w) eqn:?; intros; try congruence; eauto.
    + constructor; cbn; auto; intros j; destruct (j =? i); eauto; intros; try discriminate; eauto.
    + pose proof (Sn i P) as D. constructor; cbn; auto.
    + destruct (event w i) eqn:V; [|constructor; assumption]. pose proof (E i V) as D. constructor; cbn; auto.
    + constructor; cbn; auto; intros j; destruct (j =? i); eauto; intros; try discriminate; eauto.
    + destruct (nth_error (callbacks w) k) as [q|]; [destruct (q =? i)|]; constructor; cbn; auto; intros j; destruct (j =? i); eauto; intros; try discriminate; eauto.
    + destruct (k <? length (callbacks w)); constructor; cbn; auto; intros j; destruct (j =? i); eauto; intros; try discriminate; eauto.
  - destruct (at_ w i); try (constructor; assumption). destruct (event w i); [constructor; assumption|].
    constructor; cbn; auto; intros j; destruct (j =? i); eauto; intros; try discriminate; eauto.
  - destruct (done w) eqn:D; constructor; cbn; auto.
  - destruct (loop w) eqn:P; try (constructor; first [assumption | intros; apply L; congruence]).
    assert (D : done w = true) by (apply L; congruence). destruct (rev (callbacks w)); constructor; cbn; auto.
  - destruct (ready w) as [|j l] eqn:Q; [constructor; assumption || (rewrite Q; assumption)|].
    assert (D : done w = true) by (apply (R j); left; reflexivity). constructor; cbn; auto.
Qed.

Lemma sound_run l : forall w, sound w -> sound (run w l).
Proof. induction l as [|a l IH]; intros w H; [exact H|]. cbn. apply IH. apply sound_step. exact H. Qed.
Lemma sound_init : sound init.
Proof. constructor; cbn; intros; try discriminate; try contradiction. Qed.

Lemma returned_done l i : at_ (run init l) i = Returned -> done (run init l) = true.
Proof. apply s_returned. apply sound_run. apply sound_init. Qed.

(** * Nothing is lost in coarse executions *)

Record kept (w : world) : Prop := mk_kept {
  k_append : forall i, at_ w i = Append -> done w = false;
  k_delete : forall i k, at_ w i = Deleting k -> nth_error (callbacks w) k = Some i;
  k_pop : loop w = Popping -> callbacks w <> [];
  k_blocked : forall i, blocked w i -> In i (callbacks w) \/ In i (ready w);
  k_idle : done w = true -> loop w = Idle -> callbacks w = [];
  k_broken : loop w <> Broken;
  k_loop : loop w <> Idle -> done w = true
}.

Lemma delete_keeps i j : forall l k, nth_error l k = Some i -> j <> i -> In j l -> In j (delete k l).
Proof.
  induction l as [|a l IH]; intros [|k] E D H; cbn in *; try contradiction.
  - injection E as ->. destruct H as [H|H]; [congruence|exact H].
  - destruct H as [H|H]; [left; exact H|right; apply IH; assumption].
Qed.

Lemma kept_step w a : kept w -> must_follow w a -> kept (step w a).
Proof.
  intros [A D P B I0 Br Lp] [M1 M2]. destruct a; cbn [step].
  - assert (NP : loop w <> Popping) by (intros X; specialize (M2 X); discriminate).
    assert (NA : forall j, j <> i -> at_ w j <> Append) by (intros j J X; assert (Y : Step i = Step j) by (apply M1; auto); injection Y; congruence).
    assert (ND : forall j k, j <> i -> at_ w j <> Deleting k) by (intros j k J X; assert (Y : Step i = Step j) by (apply M1; eauto); injection Y; congruence).
    destruct (at_ w i) as [| | | | |[|k]|k| | |] eqn:Q; try (constructor; assumption).
    + (* Start *) constructor; cbn; auto.
      * intros j. destruct (Nat.eqb_spec j i); [destruct (done w); discriminate|apply A].
      * intros j k. destruct (Nat.eqb_spec j i); [destruct (done w); discriminate|apply D].
      * intros j [X Y]. cbn in *. apply B. split; [|exact Y]. destruct (Nat.eqb_spec j i); [destruct (done w); discriminate|exact X].
    + (* Add *) constructor; cbn; auto.
      * intros j. destruct (Nat.eqb_spec j i); [destruct (done w); [discriminate|reflexivity]|apply A].
      * intros j k. destruct (Nat.eqb_spec j i); [destruct (done w); discriminate|apply D].
      * intros j [X Y]. cbn in *. apply B. split; [|exact Y]. destruct (Nat.eqb_spec j i); [destruct (done w); discriminate|exact X].
    + (* Append *) pose proof (A i Q) as N. constructor; cbn; auto.
      * intros j k. destruct (Nat.eqb_spec j i); [discriminate|]. intros X. exfalso. apply (ND j k); assumption.
      * intros j [X Y]. cbn in *. destruct (Nat.eqb_spec j i) as [J|J]; [subst j; left; apply in_or_app; right; left; reflexivity|].
        destruct (B j (conj X Y)) as [H|H]; [left; apply in_or_app; left; exact H|right; exact H].
      * intros X. congruence.
    + (* Soon *) constructor; cbn; auto.
      * intros j. destruct (Nat.eqb_spec j i); [discriminate|apply A].
      * intros j k. destruct (Nat.eqb_spec j i); [discriminate|apply D].
      * intros j [X Y]. cbn in *. destruct (Nat.eqb_spec j i) as [J|J]; [subst j; right; apply in_or_app; right; left; reflexivity|].
        destruct (B j (conj X Y)) as [H|H]; [left; exact H|right; apply in_or_app; left; exact H].
    + (* Waiting *) destruct (event w i) eqn:V; [|constructor; assumption]. constructor; cbn; auto.
      * intros j. destruct (Nat.eqb_spec j i); [discriminate|apply A].
      * intros j k. destruct (Nat.eqb_spec j i); [discriminate|apply D].
      * intros j [X Y]. cbn in *. apply B. split; [|exact Y]. destruct (Nat.eqb_spec j i); [discriminate|exact X].
    + (* Removing 0 *) constructor; cbn; auto.
      * intros j. destruct (Nat.eqb_spec j i); [discriminate|apply A].
      * intros j k. destruct (Nat.eqb_spec j i); [discriminate|apply D].
      * intros j [X Y]. cbn in *. apply B. split; [|exact Y]. destruct (Nat.eqb_spec j i); [discriminate|exact X].
    + (* Removing *) destruct (nth_error (callbacks w) k) as [q|] eqn:E.
      * constructor; cbn; auto.
        -- intros j. destruct (Nat.eqb_spec j i); [destruct (q =? i); discriminate|apply A].
        -- intros j k'. destruct (Nat.eqb_spec j i) as [J|J]; [subst j|apply D]. destruct (Nat.eqb_spec q i) as [->|]; [|discriminate]. intros X. injection X as <-. exact E.
        -- intros j [X Y]. cbn in *. apply B. split; [|exact Y]. destruct (Nat.eqb_spec j i); [destruct (q =? i); discriminate|exact X].
      * constructor; cbn; auto.
        -- intros j. destruct (Nat.eqb_spec j i); [discriminate|apply A].
        -- intros j k'. destruct (Nat.eqb_spec j i); [discriminate|apply D].
        -- intros j [X Y]. cbn in *. apply B. split; [|exact Y]. destruct (Nat.eqb_spec j i); [discriminate|exact X].
    + (* Deleting *) pose proof (D i k Q) as E. destruct (k <? length (callbacks w)) eqn:K.
      * constructor; cbn; auto.
        -- intros j. destruct (Nat.eqb_spec j i); [discriminate|apply A].
        -- intros j k'. destruct (Nat.eqb_spec j i); [discriminate|]. intros X. exfalso. apply (ND j k'); assumption.
        -- intros j [X Y]. cbn in *. destruct (Nat.eqb_spec j i); [discriminate|]. destruct (B j (conj X Y)) as [H|H]; [left; apply (delete_keeps i); assumption|right; exact H].
        -- intros X Y. rewrite (I0 X Y) in E. destruct k; discriminate.
      * apply Nat.ltb_ge in K. assert (H : k < length (callbacks w)) by (apply nth_error_Some; congruence). exfalso. apply (Nat.lt_irrefl k). eapply Nat.lt_le_trans; eassumption.
  - (* Timeout *) assert (NA : forall j, at_ w j <> Append) by (intros j X; assert (Y : Timeout i = Step j) by (apply M1; auto); discriminate).
    assert (ND : forall j k, at_ w j <> Deleting k) by (intros j k X; assert (Y : Timeout i = Step j) by (apply M1; eauto); discriminate).
    destruct (at_ w i) eqn:Q; try (constructor; assumption). destruct (event w i) eqn:V; [constructor; assumption|]. constructor; cbn; auto.
    + intros j. destruct (Nat.eqb_spec j i); [discriminate|apply A].
    + intros j k. destruct (Nat.eqb_spec j i); [discriminate|apply D].
    + intros j [X Y]. cbn in *. apply B. split; [|exact Y]. destruct (Nat.eqb_spec j i); [discriminate|exact X].
  - (* Complete *) assert (NA : forall j, at_ w j <> Append) by (intros j X; assert (Y : Complete = Step j) by (apply M1; auto); discriminate).
    destruct (done w) eqn:N; [constructor; auto; intros; congruence|]. constructor; cbn; auto; try discriminate.
    intros i X. exfalso. apply (NA i X).
  - (* Sched *) assert (NA : forall j, at_ w j <> Append) by (intros j X; assert (Y : Sched = Step j) by (apply M1; auto); discriminate).
    assert (ND : forall j k, at_ w j <> Deleting k) by (intros j k X; assert (Y : Sched = Step j) by (apply M1; eauto); discriminate).
    destruct (loop w) eqn:Q; try (constructor; auto; congruence).
    + assert (N : done w = true) by (apply Lp; congruence). constructor; cbn; auto.
      * destruct (callbacks w); [discriminate|]. congruence.
      * intros _. destruct (callbacks w); [reflexivity|discriminate].
      * destruct (callbacks w); discriminate.
    + assert (N : done w = true) by (apply Lp; congruence). pose proof (P eq_refl) as NE. destruct (rev (callbacks w)) as [|q r] eqn:E.
      * exfalso. apply NE. rewrite <- (rev_involutive (callbacks w)), E. reflexivity.
      * assert (C : callbacks w = rev r ++ [q]) by (rewrite <- (rev_involutive (callbacks w)), E; reflexivity).
        constructor; cbn; auto; try discriminate.
        -- intros i k X. exfalso. apply (ND i k X).
        -- intros i X. destruct (B i X) as [H|H].
           ++ rewrite C in H. apply in_app_iff in H. destruct H as [H|[H|[]]]; [left; exact H|right; apply in_or_app; right; left; exact H].
           ++ right. apply in_or_app. left. exact H.
  - (* Run *) destruct (ready w) as [|q r] eqn:E; [constructor; auto; rewrite E; exact B|]. constructor; cbn; auto.
    intros i [X Y]. cbn in *. destruct (Nat.eqb_spec i q); [discriminate|]. destruct (B i (conj X Y)) as [H|[H|H]]; [left; exact H|congruence|right; exact H].
Qed.

Lemma coarse_app a b : coarse (a ++ b) -> coarse a.
Proof. intros H before c rest E. apply (H before c (rest ++ b)). rewrite E, <- app_assoc. reflexivity. Qed.

Lemma kept_run l : coarse l -> kept (run init l).
Proof.
  induction l as [|a l IH] using rev_ind; intros C.
  - constructor; cbn; try discriminate; try (intros; congruence). intros i [X _]. discriminate.
  - rewrite run_app. cbn. apply kept_step; [apply IH; eapply coarse_app; exact C|]. apply (C l a []). reflexivity.
Qed.

Lemma not_blocked l i : coarse l -> settled (run init l) -> ~ blocked (run init l) i.
Proof.
  intros C (D & L & R) B. pose proof (kept_run l C) as K. destruct (k_blocked _ K i B) as [H|H].
  - rewrite (k_idle _ K D L) in H. exact H.
  - rewrite R in H. exact H.
Qed.

Lemma never_broken l : coarse l -> loop (run init l) <> Broken.
Proof. intros C. apply k_broken. apply kept_run. exact C. Qed.

(** * The loop gets to an end *)

Lemma drains n : forall w, length (callbacks w) <= n -> loop w = Looking ->
  let w' := run w (repeat Sched (2 * n + 1)) in
  loop w' = Idle /\ callbacks w' = [] /\ event w' = event w /\ at_ w' = at_ w /\ done w' = done w /\ ready w' = ready w ++ rev (callbacks w).
Proof.
  induction n as [|n IH]; intros w H L.
  - cbn. rewrite L. destruct (callbacks w) as [|] eqn:E; [|cbn in H; lia]. cbn. rewrite app_nil_r. repeat split; auto.
  - replace (2 * S n + 1) with (S (S (2 * n + 1))) by lia. cbn [repeat]. unfold run. cbn [fold_left].
    replace (step w Sched) with (with_loop w (match callbacks w with [] => Idle | _ => Popping end)) by (cbn [step]; rewrite L; reflexivity).
    destruct (callbacks w) as [|c l] eqn:E.
    + assert (F : forall k v, loop v = Idle -> fold_left step (repeat Sched k) v = v).
      { induction k as [|k J]; intros v V; [reflexivity|]. cbn [repeat fold_left]. cbn [step]. rewrite V. apply J. exact V. }
      change (step (with_loop w Idle) Sched) with (with_loop w Idle). rewrite F by reflexivity. cbn. rewrite app_nil_r. repeat split; auto.
    + destruct (rev (c :: l)) as [|q r] eqn:V.
      * apply (f_equal (@length nat)) in V. rewrite rev_length in V. discriminate.
      * replace (step (with_loop w Popping) Sched) with (with_loop (with_ready (with_callbacks w (rev r)) (ready w ++ [q])) Looking) by (cbn [step with_loop loop callbacks]; rewrite E, V; reflexivity).
        match goal with |- context [fold_left step (repeat Sched (2 * n + 1)) ?v] => set (w1 := v) end.
        assert (LN : length (callbacks w1) <= n).
        { cbn. rewrite rev_length. apply (f_equal (@length nat)) in V. rewrite rev_length in V. cbn [length] in *. lia. }
        destruct (IH w1 LN eq_refl) as (H1 & H2 & H3 & H4 & H5 & H6). unfold run in *. split; [exact H1|]. split; [exact H2|]. split; [exact H3|]. split; [exact H4|]. split; [exact H5|].
        rewrite H6. cbn. rewrite rev_involutive, <- app_assoc. reflexivity.
Qed.

Lemma runs n : forall w, length (ready w) <= n -> let w' := run w (repeat Run n) in
  (forall i, In i (ready w) -> event w' i = true) /\ (forall i, event w i = true -> event w' i = true) /\ at_ w' = at_ w.
Proof.
  induction n as [|n IH]; intros w H; cbn.
  - destruct (ready w); [|cbn in H; lia]. split; [intros i []|auto].
  - destruct (ready w) as [|q r] eqn:E.
    + destruct (IH w) as (H1 & H2 & H3); [rewrite E; cbn; lia|]. split; [intros i []|auto].
    + match goal with |- context [fold_left step (repeat Run n) ?v] => set (w1 := v) end.
      destruct (IH w1) as (H1 & H2 & H3); [cbn in *; lia|]. unfold run in *. split; [|split].
      * intros i [<-|X]; [apply H2; cbn; rewrite Nat.eqb_refl; reflexivity|apply H1; exact X].
      * intros i X. apply H2. cbn. destruct (i =? q); auto.
      * rewrite H3. reflexivity.
Qed.

Lemma wakes l i : coarse l -> done (run init l) = true -> at_ (run init l) i = Waiting ->
  exists n m, at_ (run init (l ++ repeat Sched n ++ repeat Run m ++ [Step i])) i = Returned.
Proof.
  intros C D W. pose proof (kept_run l C) as K. set (w := run init l) in *.
  assert (X : exists n, let v := run w (repeat Sched n) in at_ v i = Waiting /\ (event v i = true \/ In i (ready v))).
  { destruct (event w i) eqn:V; [exists 0; cbn; auto|]. pose proof (k_blocked _ K i (conj W V)) as B.
    destruct (loop w) eqn:L.
    - exists 0. cbn. rewrite (k_idle _ K D L) in B. destruct B as [[]|B]. auto.
    - exists (2 * length (callbacks w) + 1). destruct (drains (length (callbacks w)) w (le_n _) L) as (_ & _ & E & A & _ & R).
      cbv zeta. rewrite E, A, R. split; [exact W|]. right. apply in_or_app. destruct B as [B|B]; [right; apply -> in_rev; exact B|left; exact B].
    - destruct (rev (callbacks w)) as [|q r] eqn:Q.
      + exfalso. apply (k_pop _ K L). rewrite <- (rev_involutive (callbacks w)), Q. reflexivity.
      + exists (S (2 * length (rev r) + 1)). cbn [repeat]. unfold run. cbn [fold_left]. cbn [step]. rewrite L, Q.
        match goal with |- context [fold_left step _ ?v] => set (w1 := v) end.
        destruct (drains (length (rev r)) w1 (le_n _) eq_refl) as (_ & _ & E & A & _ & R). unfold run in *. cbv zeta. rewrite E, A, R. split; [exact W|].
        right. assert (CC : callbacks w = rev r ++ [q]) by (rewrite <- (rev_involutive (callbacks w)), Q; reflexivity).
        cbn. apply in_or_app. destruct B as [B|B]; [|left; apply in_or_app; left; exact B]. rewrite CC in B. apply in_app_iff in B. destruct B as [B|[B|[]]].
        * right. apply -> in_rev. exact B.
        * left. apply in_or_app. right. left. exact B.
    - exfalso. apply (k_broken _ K L). }
  destruct X as (n & X). cbv zeta in X. exists n, (length (ready (run w (repeat Sched n)))). rewrite run_app. fold w. rewrite run_app. set (v := run w (repeat Sched n)) in *. rewrite run_app.
  destruct (runs (length (ready v)) v (le_n _)) as (H1 & H2 & H3). destruct X as [XW X].
  set (u := run v (repeat Run (length (ready v)))) in *. cbn. rewrite H3, XW.
  assert (E : event u i = true) by (destruct X as [X|X]; [apply H2; exact X|apply H1; exact X]). rewrite E. cbn. rewrite Nat.eqb_refl. reflexivity.
Qed.

(** * Timeouts *)

Lemma stays i n : forall w, at_ w i = TimedOut -> run w (alone i n) = w.
Proof. induction n as [|n IH]; intros w H; [reflexivity|]. unfold alone, run in *. cbn [repeat fold_left]. cbn [step]. rewrite H. apply IH. exact H. Qed.

Lemma delete_app a : forall l b, delete (length l) (l ++ a :: b) = l ++ b.
Proof. induction l as [|c l IH]; intros b; [reflexivity|]. cbn. rewrite IH. reflexivity. Qed.

Lemma filter_none i (l : list nat) : ~ In i l -> filter (fun j => negb (j =? i)) l = l.
Proof.
  induction l as [|a l IH]; intros H; [reflexivity|]. cbn. destruct (Nat.eqb_spec a i) as [->|N]; [exfalso; apply H; left; reflexivity|]. cbn. rewrite IH; [reflexivity|]. intros X. apply H. right. exact X.
Qed.

Lemma alone_S w i n : run w (alone i (S n)) = run (step w (Step i)) (alone i n).
Proof. reflexivity. Qed.
Lemma alone_add w i n m : run w (alone i (n + m)) = run (run w (alone i n)) (alone i m).
Proof. unfold alone. rewrite repeat_app. apply run_app. Qed.

Lemma removes i : forall n l b w, length l <= n -> at_ w i = Removing (length l) -> callbacks w = l ++ b -> ~ In i b ->
  let w' := run w (alone i (2 * n + 1)) in
  at_ w' i = TimedOut /\ callbacks w' = filter (fun j => negb (j =? i)) (l ++ b) /\ (forall j, j <> i -> at_ w' j = at_ w j) /\
  ready w' = ready w /\ event w' = event w /\ done w' = done w /\ loop w' = loop w.
Proof.
  assert (Z : forall w b m, at_ w i = Removing 0 -> callbacks w = b -> ~ In i b -> let w' := run w (alone i (S m)) in
    at_ w' i = TimedOut /\ callbacks w' = filter (fun j => negb (j =? i)) b /\ (forall j, j <> i -> at_ w' j = at_ w j) /\
    ready w' = ready w /\ event w' = event w /\ done w' = done w /\ loop w' = loop w).
  { intros w b m P C N. cbv zeta. rewrite alone_S. replace (step w (Step i)) with (go w i TimedOut) by (cbn [step]; rewrite P; reflexivity).
    rewrite stays by (cbn; rewrite Nat.eqb_refl; reflexivity). cbn. rewrite Nat.eqb_refl. split; [reflexivity|]. split; [rewrite C; symmetry; apply filter_none; exact N|].
    split; [|repeat split; auto]. intros j J. destruct (Nat.eqb_spec j i); [contradiction|reflexivity]. }
  induction n as [|n IH]; intros l b w Ln P C N; cbv zeta.
  - destruct l; [|cbn in Ln; lia]. apply (Z w b 0); assumption.
  - destruct l as [|a l] using rev_ind; [|clear IHl].
    + replace (2 * S n + 1) with (S (2 * n + 2)) by lia. apply (Z w b); assumption.
    + rewrite app_length in P, Ln. cbn [length] in P, Ln. rewrite Nat.add_1_r in P. assert (Ln' : length l <= n) by lia.
      assert (X : nth_error (callbacks w) (length l) = Some a) by (rewrite C, <- app_assoc; cbn; rewrite nth_error_app2, Nat.sub_diag by apply le_n; reflexivity).
      destruct (Nat.eq_dec a i) as [Y|Y].
      * subst a. replace (2 * S n + 1) with (S (S (2 * n + 1))) by lia. rewrite !alone_S.
        replace (step w (Step i)) with (go w i (Deleting (length l))) by (cbn [step]; rewrite P, X, Nat.eqb_refl; reflexivity).
        assert (K : (length l <? length (callbacks w)) = true) by (apply Nat.ltb_lt; apply nth_error_Some; congruence).
        replace (step (go w i (Deleting (length l))) (Step i)) with (go (with_callbacks (go w i (Deleting (length l))) (delete (length l) (callbacks w))) i (Removing (length l)))
          by (cbn [step go at_ callbacks]; rewrite Nat.eqb_refl, K; reflexivity).
        match goal with |- context [run ?v (alone i (2 * n + 1))] => set (w1 := v) end.
        destruct (IH l b w1 Ln') as (H1 & H2 & H3 & H4 & H5 & H6 & H7).
        -- cbn. rewrite Nat.eqb_refl. reflexivity.
        -- cbn. rewrite C, <- app_assoc. cbn. apply delete_app.
        -- exact N.
        -- split; [exact H1|]. split; [rewrite H2, <- app_assoc; cbn; rewrite !filter_app; cbn; rewrite Nat.eqb_refl; reflexivity|].
           split; [|repeat split; auto]. intros j J. rewrite H3 by exact J. cbn. destruct (Nat.eqb_spec j i); [contradiction|reflexivity].
      * replace (2 * S n + 1) with (S ((2 * n + 1) + 1)) by lia. rewrite alone_S, alone_add.
        replace (step w (Step i)) with (go w i (Removing (length l))) by (cbn [step]; rewrite P, X; destruct (Nat.eqb_spec a i); [contradiction|reflexivity]).
        set (w1 := go w i (Removing (length l))).
        destruct (IH l (a :: b) w1 Ln') as (H1 & H2 & H3 & H4 & H5 & H6 & H7).
        -- cbn. rewrite Nat.eqb_refl. reflexivity.
        -- cbn. rewrite C, <- app_assoc. reflexivity.
        -- intros [V|V]; [congruence|contradiction].
        -- rewrite stays by exact H1. split; [exact H1|]. split; [rewrite H2, <- app_assoc; reflexivity|].
           split; [|repeat split; auto]. intros j J. rewrite H3 by exact J. cbn. destruct (Nat.eqb_spec j i); [contradiction|reflexivity].
Qed.

Lemma times_out l i : blocked (run init l) i -> let w := run init l in
  let w' := run w (Timeout i :: alone i (2 * length (callbacks w) + 1)) in
  at_ w' i = TimedOut /\ callbacks w' = filter (fun j => negb (j =? i)) (callbacks w) /\ (forall j, j <> i -> at_ w' j = at_ w j) /\
  ready w' = ready w /\ event w' = event w /\ done w' = done w /\ loop w' = loop w.
Proof.
  intros [W V]. set (w := run init l) in *. cbv zeta.
  replace (run w (Timeout i :: alone i (2 * length (callbacks w) + 1))) with (run (go w i (Removing (length (callbacks w)))) (alone i (2 * length (callbacks w) + 1)))
    by (unfold run; cbn [fold_left]; cbn [step]; rewrite W, V; reflexivity).
  destruct (removes i (length (callbacks w)) (callbacks w) [] (go w i (Removing (length (callbacks w)))) (le_n _)) as (H1 & H2 & H3 & H4 & H5 & H6 & H7).
  - cbn. rewrite Nat.eqb_refl. reflexivity.
  - rewrite app_nil_r. reflexivity.
  - intros [].
  - rewrite app_nil_r in H2. split; [exact H1|]. split; [exact H2|]. split; [|repeat split; auto]. intros j J. rewrite H3 by exact J. cbn. destruct (Nat.eqb_spec j i); [contradiction|reflexivity].
Qed.

Lemma lost_forever w i k : blocked w i -> ~ In i (callbacks w) -> ~ In i (ready w) -> Forall of_loop k -> blocked (run w k) i.
Proof.
  revert w. induction k as [|a k IH]; intros w B C R F; [exact B|]. inversion F as [|? ? F1 F2]; subst. cbn. apply IH; try exact F2; destruct F1 as [-> | ->]; cbn.
  - destruct (loop w); try exact B. destruct (rev (callbacks w)); exact B.
  - destruct (ready w) as [|q r]; [exact B|]. destruct B as [X Y]. split; [exact X|]. cbn. destruct (Nat.eqb_spec i q) as [->|]; [exfalso; apply R; left; reflexivity|exact Y].
  - destruct (loop w); try exact C. destruct (rev (callbacks w)) as [|q r] eqn:E; [exact C|]. cbn. intros X. apply C. rewrite <- (rev_involutive (callbacks w)), E. cbn. apply in_or_app. left. exact X.
  - destruct (ready w); exact C.
  - destruct (loop w); try exact R. destruct (rev (callbacks w)) as [|q r] eqn:E; [exact R|]. cbn. intros X. apply in_app_iff in X. destruct X as [X|[X|[]]]; [exact (R X)|].
    subst. apply C. rewrite <- (rev_involutive (callbacks w)), E. cbn. apply in_or_app. right. left. reflexivity.
  - destruct (ready w) as [|q r] eqn:E; [rewrite E; exact R|]. cbn. intros X. apply R. right. exact X.
Qed.

(** Concrete executions, of the threads below [n] *)
Definition is_step (a : op) (i : nat) : bool := match a with Step j => j =? i | _ => false end.
Definition below (n : nat) (a : op) : bool := match a with Step j | Timeout j => j <? n | _ => true end.
Definition may (n : nat) (w : world) (a : op) : bool :=
  forallb (fun i => match at_ w i with Append | Deleting _ => is_step a i | _ => true end) (seq 0 n) &&
  match loop w with Popping => match a with Sched => true | _ => false end | _ => true end.
Fixpoint follows (n : nat) (w : world) (l : list op) : bool :=
  match l with [] => true | a :: l => below n a && may n w a && follows n (step w a) l end.

Lemma below_step n w a : (forall i, n <= i -> at_ w i = Start) -> below n a = true -> forall i, n <= i -> at_ (step w a) i = Start.
Proof.
  intros H B i L. assert (G : forall j p v, at_ v = at_ w -> j < n -> at_ (go v j p) i = Start).
  { intros j p v E J. cbn. rewrite E. destruct (Nat.eqb_spec i j); [lia|]. apply H. exact L. }
  destruct a as [j|j| | |]; cbn in B |- *; try apply Nat.ltb_lt in B.
  - destruct (at_ w j) as [| | | | |[|k]|k| | |]; try (apply H; exact L); try (apply G; [reflexivity|exact B]).
    + destruct (event w j); [apply G; [reflexivity|exact B]|apply H; exact L].
    + destruct (nth_error (callbacks w) k); apply G; try reflexivity; exact B.
    + match goal with |- at_ (if ?c then _ else _) _ = _ => destruct c end; apply G; try reflexivity; exact B.
  - destruct (at_ w j); try (apply H; exact L). destruct (event w j); [apply H; exact L|apply G; [reflexivity|exact B]].
  - destruct (done w); apply H; exact L.
  - destruct (loop w); try (apply H; exact L). destruct (rev (callbacks w)); apply H; exact L.
  - destruct (ready w); apply H; exact L.
Qed.

Lemma may_follow n w a : (forall i, n <= i -> at_ w i = Start) -> may n w a = true -> must_follow w a.
Proof.
  intros H M. apply andb_prop in M. destruct M as [M1 M2]. split.
  - intros i P. destruct (le_lt_dec n i) as [L|L].
    + apply H in L. destruct P as [P|[k P]]; congruence.
    + rewrite forallb_forall in M1. specialize (M1 i). rewrite in_seq in M1. specialize (M1 ltac:(lia)).
      assert (X : is_step a i = true) by (destruct P as [P|[k P]]; rewrite P in M1; exact M1). destruct a; cbn in X; try discriminate. apply Nat.eqb_eq in X. congruence.
  - intros P. rewrite P in M2. destruct a; try discriminate. reflexivity.
Qed.

Lemma follows_coarse n l : follows n init l = true -> coarse l.
Proof.
  unfold coarse. assert (G : forall l w, (forall i, n <= i -> at_ w i = Start) -> follows n w l = true -> forall before a rest, l = before ++ a :: rest -> must_follow (run w before) a).
  { clear. induction l as [|b l IH]; intros w Z F before a rest E; [destruct before; discriminate|]. cbn in F. apply andb_prop in F. destruct F as [F F2]. apply andb_prop in F. destruct F as [F0 F1].
    destruct before as [|c before]; injection E as -> E; [apply (may_follow n); assumption|]. cbn. eapply IH; [apply below_step; eassumption|exact F2|exact E]. }
  apply G. reflexivity.
Qed.
