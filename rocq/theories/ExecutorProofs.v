(** Proofs for C40, C41 and C100. *)
From Coq Require Import List Bool Arith Lia.
From Verif Require Import ExecutorModel ExecutorSpec.
Import ListNotations.

Lemma run_app s a b : e_run s (a ++ b) = let (s1, xs) := e_run s a in let (s2, ys) := e_run s1 b in (s2, xs ++ ys).
Proof.
  revert s. induction a as [|o a IH]; intros s; cbn [e_run app]; [now destruct (e_run s b)|].
  destruct (e_step s o) as [s1 x]. rewrite IH. destruct (e_run s1 a) as [s2 xs], (e_run s2 b); reflexivity.
Qed.
Lemma after_snoc os o : e_after (os ++ [o]) = fst (e_step (e_after os) o).
Proof. unfold e_after. rewrite run_app. destruct (e_run e_init os) as [s xs]. cbn [e_run]. destruct (e_step s o) as [s1 x] eqn:E. cbn [fst]. now rewrite E. Qed.
Lemma outs_snoc os o : e_outs (os ++ [o]) = e_outs os ++ [snd (e_step (e_after os) o)].
Proof. unfold e_outs, e_after. rewrite run_app. destruct (e_run e_init os) as [s xs]. cbn [e_run]. destruct (e_step s o) as [s1 x] eqn:E. cbn [fst snd]. now rewrite E. Qed.

Lemma upd_same {A} (m : nat -> A) k v : upd m k v k = v.
Proof. unfold upd. now rewrite Nat.eqb_refl. Qed.
Lemma upd_other {A} (m : nat -> A) k v x : x <> k -> upd m k v x = m x.
Proof. intros D. unfold upd. apply Nat.eqb_neq in D. now rewrite D. Qed.
Lemma set_nth_length {A} i (v : A) l : length (set_nth i v l) = length l.
Proof. revert i. induction l; intros [|i]; cbn; auto. Qed.
Lemma nth_set_same {A} i (v : A) l : i < length l -> nth_error (set_nth i v l) i = Some v.
Proof. revert i. induction l; intros [|i] H; cbn in *; try lia; auto. apply IHl. lia. Qed.
Lemma nth_set_other {A} i j (v : A) l : i <> j -> nth_error (set_nth i v l) j = nth_error l j.
Proof. revert i j. induction l; intros [|i] [|j] H; cbn; auto; try congruence. Qed.
Lemma mem_In x l : mem x l = true <-> In x l.
Proof. unfold mem. rewrite existsb_exists. split; [intros (y & A & B); apply Nat.eqb_eq in B; congruence|intros H; exists x; split; [auto|apply Nat.eqb_refl]]. Qed.
Lemma mem_no x l : mem x l = false <-> ~ In x l.
Proof. rewrite <- mem_In. destruct (mem x l); intuition congruence. Qed.
Lemma del_In x y l : In y (del x l) <-> y <> x /\ In y l.
Proof. unfold del. rewrite filter_In, negb_true_iff, Nat.eqb_neq. tauto. Qed.
Lemma nth_snoc {A} (l : list A) x n y : nth_error (l ++ [x]) n = Some y -> nth_error l n = Some y \/ n = length l /\ y = x.
Proof.
  intros H. destruct (lt_dec n (length l)); [rewrite nth_error_app1 in H by auto; auto|].
  rewrite nth_error_app2 in H by lia. destruct (n - length l) as [|[|m]] eqn:E; cbn in H; try discriminate. injection H as <-. right. split; [lia|auto].
Qed.
Lemma nth_last {A} (l : list A) x : nth_error (l ++ [x]) (length l) = Some x.
Proof. rewrite nth_error_app2, Nat.sub_diag by lia. reflexivity. Qed.

(** ** What a worker holds *)
Definition held (k : worker) : list item := match ph k with PHanded i | PGot i => [i] | _ => [] end ++ queue k.
Definition job_of (i : item) : list nat := match i with IPair _ j => [j] | INone => [] end.
Definition jobs (k : worker) : list nat := flat_map job_of (held k).
Definition idle_ph (p : phase) : Prop := forall f j, p <> PBusy f j.

Lemma jobs_In k j : In j (jobs k) <-> exists f, In (IPair f j) (held k).
Proof.
  unfold jobs. rewrite in_flat_map. split.
  - intros ([f i|] & A & B); cbn in B; [|tauto]. destruct B as [-> | []]. eauto.
  - intros (f & A). exists (IPair f j). cbn. auto.
Qed.

(** ** The jobs *)
Record jinv (s : exec) : Prop := {
  j_new : forall w, nw s <= w -> ws s w = {| ph := PTop; queue := []; stopped := false |};
  j_wait : forall w, ph (ws s w) = PWait -> queue (ws s w) = [];
  j_diag : forall w f j, In (IPair f j) (held (ws s w)) -> f = j /\ j < length (futs s) /\ ~ In j (log s);
  j_busy : forall w f j, ph (ws s w) = PBusy f j -> f = j /\ j < length (futs s) /\ In j (log s);
  j_set : forall j f, In (LSet j f) (loop s) -> f = j /\ j < length (futs s) /\ In j (log s) /\ forall w g, ph (ws s w) <> PBusy g j;
  j_can : forall j, In (LCancel j) (loop s) -> j < length (futs s) /\ (forall w, ~ In j (jobs (ws s w))) /\ forall w g, ph (ws s w) <> PBusy g j;
  j_nd : forall w, NoDup (jobs (ws s w));
  j_uniq : forall w v j, In j (jobs (ws s w)) -> In j (jobs (ws s v)) -> w = v;
  j_buniq : forall w v f g j, ph (ws s w) = PBusy f j -> ph (ws s v) = PBusy g j -> w = v;
  j_log : NoDup (log s) /\ forall j, In j (log s) -> j < length (futs s);
  j_out : forall j x f, nth_error (futs s) j = Some x -> out x = Some (Result f) -> f = j /\ In j (log s)
}.

(** Fields the jobs do not depend on. *)
Lemma jinv_same s s' : ws s' = ws s -> nw s <= nw s' -> futs s' = futs s -> log s' = log s -> (forall h, In h (loop s') -> In h (loop s) \/ (exists j w, h = LCallback j w) \/ exists w, h = LEnded w) -> jinv s -> jinv s'.
Proof.
  intros A B C D E []. split; rewrite ?A, ?C, ?D; auto.
  - intros w W. apply j_new0. lia.
  - intros j f H. destruct (E _ H) as [X|[(a & b & X)|(a & X)]]; [auto|discriminate|discriminate].
  - intros j H. destruct (E _ H) as [X|[(a & b & X)|(a & X)]]; [auto|discriminate|discriminate].
Qed.

Lemma held_put i k : (ph k = PWait -> queue k = []) -> held (put i k) = held k ++ [i].
Proof. unfold held, put. destruct (ph k) eqn:E; cbn; intros H; rewrite ?E; auto. now rewrite H. Qed.
Lemma put_idle i k f j : ph (put i k) = PBusy f j <-> ph k = PBusy f j.
Proof. unfold put. destruct (ph k) eqn:E; cbn; rewrite ?E; split; congruence. Qed.
Lemma put_wait i k : ph (put i k) <> PWait \/ queue (put i k) = queue k.
Proof. unfold put. destruct (ph k) eqn:E; cbn; auto; left; congruence. Qed.

(** Replacing a worker by one which is busy with the same, and holds nothing else. *)
Lemma jinv_worker s w k : jinv s -> w < nw s -> (forall f j, ph k = PBusy f j -> ph (ws s w) = PBusy f j) -> (ph k = PWait -> queue k = []) ->
  (forall i, In i (held k) -> In i (held (ws s w)) \/ i = INone) -> NoDup (jobs k) -> jinv (with_ws s (upd (ws s) w k)).
Proof.
  intros [A B C D E F G H I J K] W P Q R S.
  assert (Sub : forall v j, In j (jobs (upd (ws s) w k v)) -> In j (jobs (ws s v))).
  { intros v j X. unfold upd in X. destruct (v =? w) eqn:V; [|auto]. apply Nat.eqb_eq in V. subst v. apply jobs_In in X. destruct X as (f & X). apply jobs_In. exists f. destruct (R _ X); [auto|discriminate]. }
  assert (Bs : forall v f j, ph (upd (ws s) w k v) = PBusy f j -> ph (ws s v) = PBusy f j).
  { intros v f j. unfold upd. destruct (v =? w) eqn:V; [|auto]. apply Nat.eqb_eq in V. subst v. auto. }
  split; cbn [ws nw futs log loop with_ws].
  - intros v V. rewrite upd_other by lia. auto.
  - intros v. unfold upd. destruct (v =? w); auto.
  - intros v f j. unfold upd. destruct (v =? w) eqn:V; [|apply C]. intros X. destruct (R _ X) as [Y|Y]; [eapply C; eauto|discriminate].
  - intros v f j X. eapply D. apply Bs, X.
  - intros j f X. destruct (E j f X) as (X1 & X2 & X3 & X4). repeat split; auto. intros v g Y. eapply X4. apply Bs, Y.
  - intros j X. destruct (F j X) as (X1 & X2 & X3). split; [auto|]. split; [intros v Y; eapply X2; apply Sub, Y|intros v g Y; eapply X3; apply Bs, Y].
  - intros v. unfold upd. destruct (v =? w); auto.
  - intros v u j X Y. eapply H; apply Sub; eauto.
  - intros v u f g j X Y. eapply I; apply Bs; eauto.
  - auto.
  - auto.
Qed.

Lemma jinv_put_none s w : jinv s -> w < nw s -> jinv (put_to w INone s).
Proof.
  intros Iv W. unfold put_to. apply jinv_worker; auto.
  - intros f j X. now apply put_idle in X.
  - intros X. destruct (put_wait INone (ws s w)) as [Y|Y]; [congruence|]. rewrite Y. apply (j_wait _ Iv). unfold put in *. destruct (ph (ws s w)) eqn:E; cbn in *; congruence.
  - intros i X. rewrite held_put in X by apply (j_wait _ Iv). apply in_app_iff in X. cbn in X. intuition.
  - unfold jobs. rewrite held_put by apply (j_wait _ Iv). rewrite flat_map_app. cbn. rewrite app_nil_r. apply (j_nd _ Iv).
Qed.

Lemma put_nw w i s : nw (put_to w i s) = nw s. Proof. reflexivity. Qed.
Lemma release_all_fields l : forall s, nw (release_all l s) = nw s /\ futs (release_all l s) = futs s /\ free (release_all l s) = free s /\ running (release_all l s) = running s /\
  claimed (release_all l s) = claimed s /\ claims (release_all l s) = claims s /\ loop (release_all l s) = loop s /\ log (release_all l s) = log s.
Proof. induction l as [|w l IH]; intros s; cbn [release_all]; [auto 10|]. apply (IH (put_to w INone s)). Qed.
Lemma jinv_release l : forall s, jinv s -> (forall w, In w l -> w < nw s) -> jinv (release_all l s).
Proof.
  induction l as [|w l IH]; intros s Iv H; cbn; [auto|]. apply IH; [|intros v V; rewrite put_nw; apply H; cbn; auto]. apply jinv_put_none; [auto|]. apply H. cbn. auto.
Qed.

Lemma cancel_handles_In q h : In h (cancel_handles q) <-> exists f j, In (IPair f j) q /\ h = LCancel j.
Proof.
  unfold cancel_handles. rewrite in_flat_map. split.
  - intros ([f j|] & A & B); cbn in B; [|tauto]. destruct B as [<- | []]. eauto.
  - intros (f & j & A & ->). exists (IPair f j). cbn. auto.
Qed.
Lemma jobs_app k : jobs k = flat_map job_of (match ph k with PHanded i | PGot i => [i] | _ => [] end) ++ flat_map job_of (queue k).
Proof. unfold jobs, held. apply flat_map_app. Qed.
Lemma NoDup_app_l {A} (a b : list A) : NoDup (a ++ b) -> NoDup a.
Proof. induction a as [|x a IH]; cbn; [constructor|]. intros H. inversion H; subst. constructor; [rewrite in_app_iff in *; tauto|auto]. Qed.
Lemma NoDup_app_r {A} (a b : list A) : NoDup (a ++ b) -> NoDup b.
Proof. induction a as [|x a IH]; cbn; [auto|]. intros H. inversion H; auto. Qed.
Lemma NoDup_app_no {A} (a b : list A) x : NoDup (a ++ b) -> In x a -> In x b -> False.
Proof. induction a as [|y a IH]; cbn; [tauto|]. intros H [-> | X] Y; inversion H; subst; [rewrite in_app_iff in *; tauto|auto]. Qed.

Lemma jinv_cancel s w : jinv s -> w < nw s -> jinv (cancel_worker w s).
Proof.
  intros Iv W. unfold cancel_worker. apply jinv_put_none; [|exact W].
  set (k := {| ph := ph (ws s w); queue := []; stopped := true |}).
  assert (Iv1 : jinv (with_ws s (upd (ws s) w k))).
  { apply jinv_worker; auto.
    - intros i. unfold held, k. cbn. rewrite app_nil_r, in_app_iff. auto.
    - unfold jobs, held, k. cbn [ph queue]. rewrite app_nil_r. pose proof (j_nd _ Iv w) as N. rewrite jobs_app in N. now apply NoDup_app_l in N. }
  pose proof Iv as [A B C D E F G H I J K]. destruct Iv1 as [A1 B1 C1 D1 E1 F1 G1 H1 I1 J1 K1].
  split; cbn [ws nw futs log loop with_ws with_loop] in *; auto.
  - intros j f X. apply in_app_iff in X. destruct X as [X|X]; [auto|]. apply cancel_handles_In in X. destruct X as (? & ? & _ & X). discriminate.
  - intros j X. apply in_app_iff in X. destruct X as [X|X]; [auto|]. apply cancel_handles_In in X. destruct X as (f & j' & X & Y). injection Y as <-.
    assert (Jq : In j (flat_map job_of (queue (ws s w)))) by (apply in_flat_map; exists (IPair f j); cbn; auto).
    assert (Jw : In j (jobs (ws s w))) by (rewrite jobs_app; apply in_app_iff; auto).
    destruct (proj1 (jobs_In _ _) Jw) as (f' & Y). destruct (C w f' j Y) as (_ & L & Nl). split; [auto|]. split.
    + intros v V. destruct (Nat.eq_dec v w) as [-> | D0].
      * rewrite upd_same in V. unfold jobs, held, k in V. cbn [ph queue] in V. rewrite app_nil_r in V. pose proof (j_nd _ Iv w) as N. rewrite jobs_app in N. eapply NoDup_app_no; eauto.
      * rewrite upd_other in V by auto. apply D0. eapply H; eauto.
    + intros v g V. destruct (D1 v g j V) as (_ & _ & Z). contradiction.
Qed.
Lemma cancel_fields w s : nw (cancel_worker w s) = nw s /\ futs (cancel_worker w s) = futs s /\ free (cancel_worker w s) = free s /\ running (cancel_worker w s) = running s /\
  claimed (cancel_worker w s) = claimed s /\ claims (cancel_worker w s) = claims s /\ log (cancel_worker w s) = log s.
Proof. cbn. auto 10. Qed.
Lemma cancel_all_fields l : forall s, nw (cancel_all l s) = nw s /\ futs (cancel_all l s) = futs s /\ free (cancel_all l s) = free s /\ running (cancel_all l s) = running s /\
  claimed (cancel_all l s) = claimed s /\ claims (cancel_all l s) = claims s /\ log (cancel_all l s) = log s.
Proof. induction l as [|w l IH]; intros s; cbn [cancel_all]; [auto 10|]. apply (IH (cancel_worker w s)). Qed.
Lemma jinv_cancel_all l : forall s, jinv s -> (forall w, In w l -> w < nw s) -> jinv (cancel_all l s).
Proof.
  induction l as [|w l IH]; intros s Iv H; cbn [cancel_all]; [auto|]. apply IH; [|intros v V; apply (H v); cbn; auto]. apply jinv_cancel; [auto|]. apply H. cbn. auto.
Qed.

Lemma is_done_spec j s : is_done j s = true <-> exists f x, nth_error (futs s) j = Some f /\ out f = Some x.
Proof.
  unfold is_done. destruct (nth_error (futs s) j) as [f|]; [|split; [discriminate|intros (f & x & X & _); discriminate]].
  destruct (out f) as [x|] eqn:O; split; try discriminate; eauto. intros (g & x & X & Y). congruence.
Qed.

Lemma jinv_work s w : jinv s -> w < nw s -> jinv (work w s).
Proof.
  intros Iv W. pose proof Iv as [A B C D E F G H I J K]. unfold work. pose proof (C w) as Cw. pose proof (D w) as Dw. pose proof (G w) as Gw. pose proof (B w) as Bw.
  unfold jobs, held in Gw. unfold held in Cw.
  destruct (ph (ws s w)) as [| |i|[f j|]|f j|] eqn:P; cbn [app] in *.
  - destruct (stopped (ws s w)) eqn:St; [|destruct (queue (ws s w)) as [|i q] eqn:Q]; apply jinv_worker; auto; try discriminate; unfold jobs, held; cbn [ph queue app]; rewrite ?P, ?Q; cbn [app]; auto.
  - auto.
  - apply jinv_worker; auto; try discriminate. unfold held at 2. rewrite P. auto.
  - destruct (is_done j s) eqn:Dn.
    + apply jinv_worker; auto; try discriminate.
      * intros i X. left. unfold held in X |- *. rewrite P. cbn in *. auto.
      * unfold jobs, held. cbn. inversion Gw; auto.
    + (* the function starts *)
      destruct (Cw f j (or_introl eq_refl)) as (Ef & L & Nl). subst f.
      assert (Jw : In j (jobs (ws s w))). { apply jobs_In. exists j. unfold held. rewrite P. cbn. auto. }
      assert (Sub : forall v x, In x (jobs (upd (ws s) w {| ph := PBusy j j; queue := queue (ws s w); stopped := stopped (ws s w) |} v)) -> In x (jobs (ws s v)) /\ x <> j).
      { intros v x X. unfold upd in X. destruct (v =? w) eqn:V.
        - apply Nat.eqb_eq in V. subst v. unfold jobs, held in X |- *. rewrite P. cbn in *. inversion Gw; subst. split; [auto|congruence].
        - apply Nat.eqb_neq in V. split; [auto|]. intros ->. apply V. eapply H; eauto. }
      split; cbn [ws nw futs log loop with_ws with_log].
      * intros v V. rewrite upd_other by lia. auto.
      * intros v. unfold upd. destruct (v =? w); [discriminate|auto].
      * intros v f x X. assert (X0 : In (IPair f x) (held (ws s v))). { unfold upd in X. destruct (v =? w) eqn:V; [|auto]. apply Nat.eqb_eq in V. subst v. unfold held in *. rewrite P. cbn in *. auto. }
        destruct (C v f x X0) as (X1 & X2 & X3). split; [auto|]. split; [auto|]. cbn. intros [Y|Y]; [|auto]. destruct (Sub v x) as (_ & Z); [apply jobs_In; exists f; exact X|congruence].
      * intros v f x. unfold upd. destruct (v =? w); cbn; [intros X; injection X as <- <-; auto|]. intros X. destruct (D v f x X) as (X1 & X2 & X3). auto.
      * intros x f X. destruct (E x f X) as (X1 & X2 & X3 & X4). split; [auto|]. split; [auto|]. split; [cbn; auto|]. intros v g. unfold upd. destruct (v =? w); [|auto]. cbn. intros Y. injection Y as _ <-. contradiction.
      * intros x X. destruct (F x X) as (X1 & X2 & X3). split; [auto|]. split; [intros v Y; apply Sub in Y; now apply (X2 v)|]. intros v g. unfold upd. destruct (v =? w); [|auto]. cbn. intros Y. injection Y as _ <-. now apply (X2 w).
      * intros v. unfold upd. destruct (v =? w); [|auto]. unfold jobs, held. cbn. inversion Gw; auto.
      * intros v u x X Y. apply Sub in X. apply Sub in Y. eapply H; [apply X|apply Y].
      * intros v u f g x. unfold upd. destruct (v =? w) eqn:V, (u =? w) eqn:U; cbn.
        -- apply Nat.eqb_eq in V, U. congruence.
        -- intros X Y. injection X as _ <-. destruct (D u g j Y) as (_ & _ & Z). contradiction.
        -- intros Y X. injection X as _ <-. destruct (D v f j Y) as (_ & _ & Z). contradiction.
        -- apply I.
      * destruct J as (J1 & J2). split; [constructor; auto|]. intros x [<- | X]; auto.
      * intros x y f X Y. destruct (K x y f X Y). cbn. auto.
  - apply jinv_worker; auto; try discriminate. intros i X. left. unfold held in X |- *. rewrite P. cbn in *. auto.
  - (* the function ends *)
    destruct (Dw f j eq_refl) as (<- & L & Lg).
    assert (Iv1 : jinv (with_ws s (upd (ws s) w {| ph := PTop; queue := queue (ws s w); stopped := stopped (ws s w) |}))).
    { apply jinv_worker; auto; try discriminate. unfold held at 2. rewrite P. auto. }
    destruct Iv1 as [A1 B1 C1 D1 E1 F1 G1 H1 I1 J1 K1]. split; cbn [ws nw futs log loop with_ws with_loop] in *; auto.
    + intros x g X. apply in_app_iff in X. destruct X as [X|[X|[]]]; [auto|]. injection X as <- <-. split; [auto|]. split; [auto|]. split; [auto|].
      intros v g X. destruct (Nat.eq_dec v w) as [-> | V]; [rewrite upd_same in X; discriminate|]. rewrite upd_other in X by auto. apply V. eapply I; eauto.
    + intros x X. apply in_app_iff in X. destruct X as [X|[X|[]]]; [auto|discriminate].
  - auto.
Qed.

Lemma jinv_settle s j x : jinv s -> (forall f, x = Result f -> f = j /\ In j (log s)) -> jinv (settle j x s).
Proof.
  intros Iv Hx. unfold settle. destruct (nth_error (futs s) j) as [f|] eqn:N; [|auto]. destruct (out f) eqn:O; [auto|].
  assert (L : j < length (futs s)) by (apply nth_error_Some; congruence).
  destruct Iv as [A B C D E F G H I J K]. split; cbn [ws nw futs log loop with_futs with_loop] in *; rewrite ?set_nth_length; auto.
  - intros y g X. apply in_app_iff in X. destruct X as [X|X]; [auto|]. destruct (ended_cb f); [destruct X as [X|[]]; discriminate|contradiction].
  - intros y X. apply in_app_iff in X. destruct X as [X|X]; [auto|]. destruct (ended_cb f); [destruct X as [X|[]]; discriminate|contradiction].
  - intros y z g X Y. destruct (Nat.eq_dec j y) as [<- | Dd].
    + rewrite nth_set_same in X by auto. injection X as <-. cbn in Y. injection Y as ->. auto.
    + rewrite nth_set_other in X by auto. eauto.
Qed.

(** A new job for the worker [w], with a future. *)
Definition new_job (w : nat) (cb : option nat) (s : exec) : exec :=
  put_to w (IPair (length (futs s)) (length (futs s))) (with_futs s (futs s ++ [{| out := None; ended_cb := cb |}])).

Lemma jinv_new_job s w cb : jinv s -> w < nw s -> jinv (new_job w cb s).
Proof.
  intros [A B C D E F G H I J K] W. unfold new_job, put_to. set (n := length (futs s)).
  assert (Hp : held (put (IPair n n) (ws s w)) = held (ws s w) ++ [IPair n n]) by (apply held_put, B).
  assert (Jp : jobs (put (IPair n n) (ws s w)) = jobs (ws s w) ++ [n]) by (unfold jobs; rewrite Hp, flat_map_app; reflexivity).
  assert (Fresh : forall v, ~ In n (jobs (ws s v))). { intros v X. apply jobs_In in X. destruct X as (f & X). apply C in X. unfold n in X. lia. }
  assert (Jb : forall v x, In x (jobs (upd (ws s) w (put (IPair n n) (ws s w)) v)) -> In x (jobs (ws s v)) \/ v = w /\ x = n).
  { intros v x. unfold upd. destruct (v =? w) eqn:V; [|auto]. apply Nat.eqb_eq in V. subst v. rewrite Jp, in_app_iff. cbn. intuition. }
  assert (Bs : forall v f j, ph (upd (ws s) w (put (IPair n n) (ws s w)) v) = PBusy f j -> ph (ws s v) = PBusy f j).
  { intros v f j. unfold upd. destruct (v =? w) eqn:V; [|auto]. apply Nat.eqb_eq in V. subst v. apply put_idle. }
  assert (Ln : length (futs s ++ [{| out := None; ended_cb := cb |}]) = S n) by (rewrite app_length; cbn; unfold n; lia).
  split; cbn [ws nw futs log loop with_futs with_ws]; rewrite ?Ln.
  - intros v V. rewrite upd_other by lia. auto.
  - intros v. unfold upd. destruct (v =? w) eqn:V; [|auto]. intros X. destruct (put_wait (IPair n n) (ws s w)) as [Y|Y]; [congruence|]. rewrite Y. apply B. unfold put in *. destruct (ph (ws s w)) eqn:P; cbn in *; congruence.
  - intros v f j X. assert (Y : In (IPair f j) (held (ws s v)) \/ v = w /\ f = n /\ j = n).
    { unfold upd in X. destruct (v =? w) eqn:V; [|auto]. apply Nat.eqb_eq in V. subst v. rewrite Hp in X. apply in_app_iff in X. destruct X as [X|[X|[]]]; [auto|]. injection X as <- <-. auto. }
    destruct Y as [Y|(_ & -> & ->)]; [destruct (C v f j Y) as (? & ? & ?); repeat split; auto; unfold n; lia|]. split; [auto|]. split; [lia|]. intros Z. apply J in Z. unfold n in Z. lia.
  - intros v f j X. destruct (D v f j (Bs _ _ _ X)) as (? & ? & ?). repeat split; auto; unfold n; lia.
  - intros j f X. destruct (E j f X) as (? & ? & ? & X4). split; [auto|]. split; [unfold n; lia|]. split; [auto|]. intros v g Y. eapply X4. apply Bs, Y.
  - intros j X. destruct (F j X) as (X1 & X2 & X3). split; [unfold n; lia|]. split; [|intros v g Y; eapply X3; apply Bs, Y]. intros v Y. destruct (Jb v j Y) as [Z|(_ & ->)]; [now apply (X2 v)|]. unfold n in X1. lia.
  - intros v. unfold upd. destruct (v =? w); [|auto]. rewrite Jp. specialize (G w). specialize (Fresh w). revert G Fresh. generalize (jobs (ws s w)) as l. clear. induction l as [|y l IH]; cbn; intros N X; [constructor; [intros []|constructor]|].
    inversion N; subst. constructor; [rewrite in_app_iff; cbn; intuition congruence|]. apply IH; tauto.
  - intros v u j X Y. destruct (Jb v j X) as [X1|(X1 & X2)], (Jb u j Y) as [Y1|(Y1 & Y2)]; subst; auto.
    + eapply H; eauto.
    + now apply Fresh in X1.
    + now apply Fresh in Y1.
  - intros v u f g j X Y. eapply I; apply Bs; eauto.
  - destruct J as (J1 & J2). split; [auto|]. intros x X. apply J2 in X. unfold n. lia.
  - intros j x f X Y. apply nth_snoc in X. destruct X as [X|(-> & ->)]; [eauto|discriminate].
Qed.

(** ** The sets of executors *)
Definition inset (s : exec) (w : nat) : Prop := In w (free s) \/ In w (running s) \/ In w (claimed s).
Record sinv (s : exec) : Prop := {
  s_nd : NoDup (free s);
  s_fr : forall w, In w (free s) -> ~ In w (running s) /\ ~ In w (claimed s);
  s_rc : forall w, In w (running s) -> ~ In w (claimed s);
  s_lt : forall w, inset s w -> w < nw s;
  s_live : forall w, inset s w -> stopped (ws s w) = false /\ ~ In INone (held (ws s w)) /\ ph (ws s w) <> PEnd;
  s_cl : forall c w, nth_error (claims s) c = Some (Some w) -> w < nw s /\ ~ In w (free s) /\ ~ In w (running s);
  s_cu : forall c d w, nth_error (claims s) c = Some (Some w) -> nth_error (claims s) d = Some (Some w) -> c = d
}.

Lemma get_free_ok s : sinv s -> let '(s1, w) := get_free s in
  ws s1 = ws s /\ futs s1 = futs s /\ running s1 = running s /\ claimed s1 = claimed s /\ claims s1 = claims s /\ loop s1 = loop s /\ log s1 = log s /\
  NoDup (free s1) /\ (forall v, In v (free s1) <-> In v (free s) /\ v <> w) /\ nw s <= nw s1 /\ w < nw s1 /\
  ((In w (free s) /\ nw s1 = nw s) \/ (w = nw s /\ nw s1 = S (nw s) /\ free s = [])).
Proof.
  intros [A B C D E F G]. unfold get_free. destruct (rev (free s)) as [|w r] eqn:R.
  - assert (X : free s = []) by (rewrite <- (rev_involutive (free s)), R; reflexivity). cbn. rewrite X. repeat split; auto; try constructor; cbn; try tauto; try lia.
  - assert (X : free s = rev r ++ [w]) by (rewrite <- (rev_involutive (free s)), R; reflexivity). cbn.
    assert (Iw : In w (free s)) by (rewrite X; apply in_app_iff; cbn; auto). rewrite X in A. pose proof (NoDup_remove_2 _ _ _ A) as N2. pose proof (NoDup_remove_1 _ _ _ A) as N1. rewrite app_nil_r in *.
    repeat split; auto.
    + rewrite X. apply in_app_iff. auto.
    + congruence.
    + intros (Y & Z). rewrite X in Y. apply in_app_iff in Y. cbn in Y. intuition congruence.
    + apply D. left. auto.
Qed.

(** Replacing the worker [w], which lives on or is in no set. *)
Lemma sinv_worker s w k fs l lg : sinv s -> (inset s w -> stopped k = false /\ ~ In INone (held k) /\ ph k <> PEnd) ->
  sinv {| ws := upd (ws s) w k; nw := nw s; futs := fs; free := free s; running := running s; claimed := claimed s; claims := claims s; loop := l; log := lg |}.
Proof.
  intros [A B C D E F G] X. split; cbn; auto. intros v V. destruct (Nat.eq_dec v w) as [-> | Y]; [rewrite upd_same; auto|rewrite upd_other by auto; auto].
Qed.
Lemma sinv_other s fs l lg : sinv s -> sinv {| ws := ws s; nw := nw s; futs := fs; free := free s; running := running s; claimed := claimed s; claims := claims s; loop := l; log := lg |}.
Proof. intros [A B C D E F G]. split; cbn; auto. Qed.

Lemma held_none_put f j k : ~ In INone (held k) -> (ph k = PWait -> queue k = []) -> ~ In INone (held (put (IPair f j) k)).
Proof. intros H W. rewrite held_put by auto. rewrite in_app_iff. cbn. intuition discriminate. Qed.
Lemma put_live i k : stopped (put i k) = stopped k /\ (ph (put i k) = PEnd <-> ph k = PEnd).
Proof. unfold put. destruct (ph k) eqn:E; cbn; rewrite ?E; split; auto; split; congruence. Qed.

Lemma sinv_new_job s w cb : jinv s -> sinv s -> sinv (new_job w cb s).
Proof.
  intros J S. apply (sinv_worker s w); [exact S|]. intros X. destruct (s_live _ S w X) as (A & B & C).
  destruct (put_live (IPair (length (futs s)) (length (futs s))) (ws s w)) as (D & E). split; [cbn; congruence|]. split; [|tauto]. apply held_none_put; [auto|apply (j_wait _ J)].
Qed.

Lemma sinv_work s w : sinv s -> jinv s -> sinv (work w s).
Proof.
  intros S J. unfold work. pose proof (s_live _ S w) as L. destruct (ph (ws s w)) as [| |i|[f j|]|f j|] eqn:P.
  - destruct (stopped (ws s w)) eqn:St; [|destruct (queue (ws s w)) as [|i q] eqn:Q]; apply (sinv_worker s w); auto; intros X; destruct (L X) as (L1 & L2 & L3).
    + congruence.
    + cbn. repeat split; auto. discriminate.
    + unfold held in *. rewrite P, Q in L2. cbn in *. repeat split; auto. discriminate.
  - auto.
  - apply (sinv_worker s w); auto. intros X. destruct (L X) as (L1 & L2 & L3). unfold held in *. rewrite P in L2. cbn in *. repeat split; auto. discriminate.
  - destruct (is_done j s); apply (sinv_worker s w); auto; intros X; destruct (L X) as (L1 & L2 & L3); unfold held in *; rewrite P in L2; cbn in *; repeat split; auto; discriminate.
  - apply (sinv_worker s w); auto. intros X. destruct (L X) as (L1 & L2 & L3). destruct L2. unfold held. rewrite P. cbn. auto.
  - apply (sinv_worker s w); auto. intros X. destruct (L X) as (L1 & L2 & L3). unfold held in *. rewrite P in L2. cbn in *. repeat split; auto. discriminate.
  - auto.
Qed.

Lemma sinv_put_none s w : sinv s -> ~ inset s w -> sinv (put_to w INone s).
Proof. intros S N. unfold put_to. apply (sinv_worker s w); auto. contradiction. Qed.
Lemma inset_fields s s' : free s' = free s -> running s' = running s -> claimed s' = claimed s -> forall w, inset s' w <-> inset s w.
Proof. intros A B C w. unfold inset. rewrite A, B, C. tauto. Qed.
Lemma sinv_release l : forall s, sinv s -> (forall w, In w l -> ~ inset s w) -> sinv (release_all l s).
Proof.
  induction l as [|w l IH]; intros s S H; cbn [release_all]; [auto|]. apply IH; [apply sinv_put_none; auto; apply H; cbn; auto|]. intros v V. exact (H v (or_intror V)).
Qed.
Lemma sinv_cancel s w : sinv s -> ~ inset s w -> sinv (cancel_worker w s).
Proof. intros S N. unfold cancel_worker. apply sinv_put_none; [|exact N]. apply (sinv_worker s w); auto. contradiction. Qed.
Lemma sinv_cancel_all l : forall s, sinv s -> (forall w, In w l -> ~ inset s w) -> sinv (cancel_all l s).
Proof.
  induction l as [|w l IH]; intros s S H; cbn [cancel_all]; [auto|]. apply IH; [apply sinv_cancel; auto; apply H; cbn; auto|]. intros v V. exact (H v (or_intror V)).
Qed.

(** The sets can be emptied first. *)
Lemma put_sets w i s f r c : with_sets (put_to w i s) f r c = put_to w i (with_sets s f r c). Proof. reflexivity. Qed.
Lemma release_sets l f r c : forall s, with_sets (release_all l s) f r c = release_all l (with_sets s f r c).
Proof. induction l as [|w l IH]; intros s; cbn [release_all]; [auto|]. now rewrite IH, put_sets. Qed.
Lemma cancel_sets l f r c : forall s, with_sets (cancel_all l s) f r c = cancel_all l (with_sets s f r c).
Proof. induction l as [|w l IH]; intros s; cbn [cancel_all]; [auto|]. now rewrite IH. Qed.
Lemma sinv_empty s : sinv s -> sinv (with_sets s [] [] []).
Proof.
  intros [A B C D E F G]. assert (N : forall w, ~ inset (with_sets s [] [] []) w) by (intros w [X|[X|X]]; exact X).
  split; [apply NoDup_nil|intros w X; destruct X|intros w X; destruct X|intros w X; destruct (N w X)|intros w X; destruct (N w X)|intros c w X; destruct (F c w X) as (X1 & _); cbn; auto|exact G].
Qed.
Lemma no_inset s : forall w, ~ inset (with_sets s [] [] []) w.
Proof. intros w [X|[X|X]]; exact X. Qed.

Definition base (s : exec) : Prop := jinv s /\ sinv s.

Lemma base_step s o : base s -> base (fst (e_step s o)).
Proof.
  intros (J & S). destruct o; cbn [e_step].
  - (* submit *)
    cbn [fst]. unfold submit. pose proof (get_free_ok s S) as G. destruct (get_free s) as [s1 w]. destruct G as (G1 & G2 & G3 & G4 & G5 & G6 & G7 & G8 & G9 & G10 & G11 & G12).
    set (s2 := with_sets s1 (free s1) (if mem w (running s1) then running s1 else w :: running s1) (claimed s1)).
    assert (J2 : jinv s2). { apply (jinv_same s); auto. cbn. rewrite G6. auto. }
    assert (R2 : forall v, In v (running s2) <-> v = w \/ In v (running s)).
    { intros v. cbn. rewrite G3. destruct (mem w (running s)) eqn:M; cbn; [apply mem_In in M|]; intuition congruence. }
    assert (Wn : ~ In w (running s) /\ ~ In w (claimed s) /\ (forall c, nth_error (claims s) c <> Some (Some w)) /\ stopped (ws s w) = false /\ ~ In INone (held (ws s w)) /\ ph (ws s w) <> PEnd).
    { destruct G12 as [(X & _)|(-> & _)].
      - destruct (s_fr _ S w X). split; [auto|]. split; [auto|]. split; [intros c Y; apply (s_cl _ S) in Y; tauto|]. apply (s_live _ S). left. auto.
      - split; [intros X; assert (nw s < nw s) by (apply (s_lt _ S); right; left; auto); lia|]. split; [intros X; assert (nw s < nw s) by (apply (s_lt _ S); right; right; auto); lia|].
        split; [intros c Y; apply (s_cl _ S) in Y; lia|]. rewrite (j_new _ J) by lia. cbn. repeat split; auto. discriminate. }
    destruct Wn as (W1 & W2 & W3 & W4).
    assert (S2 : sinv s2).
    { destruct S as [A B C D E F G]. split.
      - exact G8.
      - intros v V. cbn in V. apply G9 in V. destruct V as (V & Vw). destruct (B v V). rewrite R2. cbn. rewrite G4. split; [intuition|auto].
      - intros v V. apply R2 in V. cbn. rewrite G4. destruct V as [-> | V]; auto.
      - intros v V. change (nw s2) with (nw s1). assert (X : inset s v \/ v = w). { destruct V as [V|[V|V]]; [cbn in V; apply G9 in V; left; left; tauto|apply R2 in V; destruct V; [auto|left; right; left; auto]|cbn in V; rewrite G4 in V; left; right; right; auto]. }
        destruct X as [X| ->]; [apply D in X; lia|auto].
      - intros v V. cbn. rewrite G1. assert (X : inset s v \/ v = w). { destruct V as [V|[V|V]]; [cbn in V; apply G9 in V; left; left; tauto|apply R2 in V; destruct V; [auto|left; right; left; auto]|cbn in V; rewrite G4 in V; left; right; right; auto]. }
        destruct X as [X| ->]; [auto|auto].
      - intros c v X. cbn in X. rewrite G5 in X. destruct (F c v X) as (X1 & X2 & X3). split; [cbn; lia|]. split; [cbn; rewrite G9; tauto|]. rewrite R2. intros [-> | Y]; [now apply W3 in X|auto].
      - cbn. rewrite G5. exact G. }
    change (base (put_to w (IPair (length (futs s)) (length (futs s))) (with_futs s2 (futs s ++ [{| out := None; ended_cb := Some w |}])))).
    assert (F2 : futs s2 = futs s) by exact G2. rewrite <- F2.
    split; [apply jinv_new_job; auto|apply sinv_new_job; auto].
  - cbn [fst]. split; [apply jinv_settle; auto; discriminate|]. unfold settle. destruct (nth_error (futs s) j) as [f|]; [|auto]. destruct (out f); [auto|]. apply (sinv_other s); auto.
  - cbn [fst]. destruct (w <? nw s) eqn:L; [|split; auto]. apply Nat.ltb_lt in L. split; [apply jinv_work; auto|apply sinv_work; auto].
  - cbn [fst]. destruct (loop s) as [|h r] eqn:R; [split; auto|].
    assert (J1 : jinv (with_loop s r)). { apply (jinv_same s); auto. cbn. intros x X. left. rewrite R. cbn. auto. }
    assert (S1 : sinv (with_loop s r)) by (apply (sinv_other s); auto).
    destruct h as [j f|j|j w|w]; cbn [run_handle].
    + split; [apply jinv_settle; auto|].
      * intros g X. injection X as <-. destruct (j_set _ J j f) as (X1 & X2 & X3 & _); [rewrite R; cbn; auto|]. auto.
      * unfold settle. destruct (nth_error _ j) as [x|]; [|auto]. destruct (out x); [auto|]. apply (sinv_other s); auto.
    + split; [apply jinv_settle; auto; discriminate|]. unfold settle. destruct (nth_error _ j) as [x|]; [|auto]. destruct (out x); [auto|]. apply (sinv_other s); auto.
    + split; [|apply (sinv_other s); auto]. apply (jinv_same (with_loop s r)); auto. cbn. intros x X. apply in_app_iff in X. destruct X as [X|[<- | []]]; eauto.
    + unfold execution_ended. cbn [running with_loop free claimed]. destruct (mem w (running s)) eqn:M; [|split; auto]. apply mem_In in M. split; [apply (jinv_same (with_loop s r)); auto|].
      destruct S as [A B C D E F G]. split; cbn [free running claimed claims nw ws with_sets with_loop].
      * assert (Nw : ~ In w (free s)) by (intros X; apply B in X; tauto). clear - A Nw. induction (free s) as [|y l IH]; cbn in *; [repeat constructor; intros []|]. inversion A; subst. constructor; [rewrite in_app_iff; cbn; intuition congruence|]. apply IH; auto.
      * intros v V. apply in_app_iff in V. rewrite del_In. destruct V as [V|[<- | []]]; [destruct (B v V); split; [tauto|auto]|split; [tauto|auto]].
      * intros v V. apply del_In in V. apply C. tauto.
      * intros v [V|[V|V]]; cbn in V; apply D; [apply in_app_iff in V; destruct V as [V|[<- | []]]; [left; auto|right; left; auto]|apply del_In in V; right; left; tauto|right; right; auto].
      * intros v [V|[V|V]]; cbn in V; apply E; [apply in_app_iff in V; destruct V as [V|[<- | []]]; [left; auto|right; left; auto]|apply del_In in V; right; left; tauto|right; right; auto].
      * intros c v X. destruct (F c v X) as (X1 & X2 & X3). split; [auto|]. rewrite in_app_iff, del_In. cbn. split; [|tauto]. intros [Y|[Y|[]]]; [auto|]. subst v. contradiction.
      * exact G.
  - (* claim *)
    cbn [fst]. unfold claim. pose proof (get_free_ok s S) as G. destruct (get_free s) as [s1 w]. destruct G as (G1 & G2 & G3 & G4 & G5 & G6 & G7 & G8 & G9 & G10 & G11 & G12).
    set (s2 := with_claims _ _).
    assert (J2 : jinv s2). { apply (jinv_same s); auto. cbn. rewrite G6. auto. }
    assert (R2 : forall v, In v (claimed s2) <-> v = w \/ In v (claimed s)).
    { intros v. cbn. rewrite G4. destruct (mem w (claimed s)) eqn:M; cbn; [apply mem_In in M|]; intuition congruence. }
    assert (Wn : ~ In w (running s) /\ ~ In w (claimed s) /\ (forall c, nth_error (claims s) c <> Some (Some w)) /\ stopped (ws s w) = false /\ ~ In INone (held (ws s w)) /\ ph (ws s w) <> PEnd).
    { destruct G12 as [(X & _)|(-> & _)].
      - destruct (s_fr _ S w X). split; [auto|]. split; [auto|]. split; [intros c Y; apply (s_cl _ S) in Y; tauto|]. apply (s_live _ S). left. auto.
      - split; [intros X; assert (nw s < nw s) by (apply (s_lt _ S); right; left; auto); lia|]. split; [intros X; assert (nw s < nw s) by (apply (s_lt _ S); right; right; auto); lia|].
        split; [intros c Y; apply (s_cl _ S) in Y; lia|]. rewrite (j_new _ J) by lia. cbn. repeat split; auto. discriminate. }
    destruct Wn as (W1 & W2 & W3 & W4). split; [auto|].
    assert (Is : forall v, inset s2 v -> inset s v \/ v = w).
    { intros v [V|[V|V]]; [cbn in V; apply G9 in V; left; left; tauto|cbn in V; rewrite G3 in V; left; right; left; auto|apply R2 in V; destruct V; [auto|left; right; right; auto]]. }
    destruct S as [A B C D E F G]. split.
    + exact G8.
    + intros v V. cbn in V. apply G9 in V. destruct V as (V & Vw). destruct (B v V). rewrite R2. cbn. rewrite G3. split; [auto|intuition].
    + intros v V. cbn in V. rewrite G3 in V. rewrite R2. intros [-> | X]; [auto|]. now apply C in V.
    + intros v V. change (nw s2) with (nw s1). destruct (Is v V) as [X| ->]; [apply D in X; lia|auto].
    + intros v V. cbn. rewrite G1. destruct (Is v V) as [X| ->]; auto.
    + intros c v X. change (nw s2) with (nw s1). cbn in X. apply nth_snoc in X. destruct X as [X|(_ & X)].
      * destruct (F c v X) as (X1 & X2 & X3). split; [lia|]. cbn. rewrite G9, G3. tauto.
      * injection X as ->. split; [auto|]. cbn. rewrite G9, G3. split; [tauto|auto].
    + intros c d v X Y. cbn in X, Y. apply nth_snoc in X. apply nth_snoc in Y. destruct X as [X|(-> & X)], Y as [Y|(-> & Y)]; auto.
      * eapply G; eauto.
      * injection Y as ->. now apply W3 in X.
      * injection X as ->. now apply W3 in Y.
  - unfold claim_execute. destruct (nth_error (claims s) c) as [[w|]|] eqn:N; cbn [fst]; try (split; auto). 
    + apply jinv_new_job; auto. now apply (s_cl _ S) in N.
    + apply sinv_new_job; auto.
  - unfold claim_release. destruct (nth_error (claims s) c) as [[w|]|] eqn:N; cbn [fst]; try (split; auto; fail). destruct (queue (ws s w)); cbn [fst]; [|split; auto].
    destruct (s_cl _ S c w N) as (N1 & N2 & N3).
    assert (Cs : forall d v, nth_error (set_nth c None (claims s)) d = Some (Some v) -> nth_error (claims s) d = Some (Some v) /\ d <> c).
    { intros d v X. destruct (Nat.eq_dec c d) as [<- | D]; [rewrite nth_set_same in X; [discriminate|]; apply nth_error_Some; congruence|]. rewrite nth_set_other in X by auto. auto. }
    destruct (mem w (claimed s)) eqn:M; (split; [apply (jinv_same s); auto|]).
    + apply mem_In in M. destruct S as [A B C D E F G]. split; cbn [free running claimed claims nw ws with_sets with_claims].
      * clear - A N2. induction (free s) as [|y l IH]; cbn in *; [repeat constructor; intros []|]. inversion A; subst. constructor; [rewrite in_app_iff; cbn; intuition congruence|]. apply IH; auto.
      * intros v V. apply in_app_iff in V. rewrite del_In. destruct V as [V|[<- | []]]; [destruct (B v V); split; [auto|tauto]|split; [auto|tauto]].
      * intros v V. rewrite del_In. apply C in V. tauto.
      * intros v [V|[V|V]]; cbn in V; apply D; [apply in_app_iff in V; destruct V as [V|[<- | []]]; [left; auto|right; right; auto]|right; left; auto|apply del_In in V; right; right; tauto].
      * intros v [V|[V|V]]; cbn in V; apply E; [apply in_app_iff in V; destruct V as [V|[<- | []]]; [left; auto|right; right; auto]|right; left; auto|apply del_In in V; right; right; tauto].
      * intros d v X. destruct (Cs d v X) as (Y & Z). destruct (F d v Y) as (Y1 & Y2 & Y3). split; [auto|]. split; [|auto]. rewrite in_app_iff. intros [T|[T|[]]]; [auto|]. subst v. apply Z. eapply G; eauto.
      * intros d e v X Y. apply Cs in X. apply Cs in Y. eapply G; [apply X|apply Y].
    + destruct S as [A B C D E F G]. split; cbn [free running claimed claims nw ws with_sets with_claims]; auto.
      * intros d v X. apply Cs in X. eapply F, X.
      * intros d e v X Y. apply Cs in X. apply Cs in Y. eapply G; [apply X|apply Y].
  - (* shrink *)
    cbn [fst]. destruct (rev (free s)) as [|w r] eqn:R; [split; auto|].
    assert (X : free s = rev r ++ [w]) by (rewrite <- (rev_involutive (free s)), R; reflexivity).
    assert (Iw : In w (free s)) by (rewrite X; apply in_app_iff; cbn; auto). pose proof (s_nd _ S) as A. rewrite X in A. pose proof (NoDup_remove_2 _ _ _ A) as N2. pose proof (NoDup_remove_1 _ _ _ A) as N1. rewrite app_nil_r in *.
    assert (Sub : forall v, In v (rev r) -> In v (free s)) by (intros v V; rewrite X; apply in_app_iff; auto).
    assert (J1 : jinv (with_sets s (rev r) (running s) (claimed s))) by (apply (jinv_same s); auto).
    assert (S1 : sinv (with_sets s (rev r) (running s) (claimed s))).
    { destruct S as [A0 B C D E F G]. split; cbn; auto.
      - intros v [V|V]; [apply D; left; auto|apply D; right; auto].
      - intros v [V|V]; [apply E; left; auto|apply E; right; auto].
      - intros c v V. destruct (F c v V) as (V1 & V2 & V3). split; [exact V1|]. split; [intros Y; apply V2, Sub, Y|exact V3]. }
    split; [apply jinv_put_none; [auto|]; apply (s_lt _ S); left; auto|]. apply sinv_put_none; [auto|].
    destruct (s_fr _ S w Iw). intros [V|[V|V]]; cbn in V; auto.
  - cbn [fst]. rewrite !release_sets. assert (L : forall l, (forall w, In w l -> inset s w) -> forall w, In w l -> w < nw s) by (intros l X w Y; apply (s_lt _ S); auto).
    assert (Fi : forall v, In v (rev (free s)) -> inset s v) by (intros v V; apply in_rev in V; left; auto).
    split.
    + apply jinv_release; [apply jinv_release; [apply jinv_release|]|].
      * apply (jinv_same s); auto.
      * apply L. auto.
      * intros w V. destruct (release_all_fields (rev (free s)) (with_sets s [] [] [])) as (-> & _). apply (s_lt _ S). right. left. auto.
      * intros w V. destruct (release_all_fields (running s) (release_all (rev (free s)) (with_sets s [] [] []))) as (-> & _). destruct (release_all_fields (rev (free s)) (with_sets s [] [] [])) as (-> & _). apply (s_lt _ S). right. right. auto.
    + apply sinv_release; [apply sinv_release; [apply sinv_release|]|].
      * now apply sinv_empty.
      * intros w _. apply no_inset.
      * intros w _. destruct (release_all_fields (rev (free s)) (with_sets s [] [] [])) as (_ & _ & X1 & X2 & X3 & _). rewrite (inset_fields _ _ X1 X2 X3). apply no_inset.
      * intros w _. destruct (release_all_fields (running s) (release_all (rev (free s)) (with_sets s [] [] []))) as (_ & _ & Y1 & Y2 & Y3 & _). rewrite (inset_fields _ _ Y1 Y2 Y3).
        destruct (release_all_fields (rev (free s)) (with_sets s [] [] [])) as (_ & _ & X1 & X2 & X3 & _). rewrite (inset_fields _ _ X1 X2 X3). apply no_inset.
  - cbn [fst]. rewrite !cancel_sets, release_sets. assert (L : forall l, (forall w, In w l -> inset s w) -> forall w, In w l -> w < nw s) by (intros l X w Y; apply (s_lt _ S); auto).
    assert (Fi : forall v, In v (rev (free s)) -> inset s v) by (intros v V; apply in_rev in V; left; auto).
    split.
    + apply jinv_cancel_all; [apply jinv_cancel_all; [apply jinv_release|]|].
      * apply (jinv_same s); auto.
      * apply L. auto.
      * intros w V. destruct (release_all_fields (rev (free s)) (with_sets s [] [] [])) as (-> & _). apply (s_lt _ S). right. left. auto.
      * intros w V. destruct (cancel_all_fields (running s) (release_all (rev (free s)) (with_sets s [] [] []))) as (-> & _). destruct (release_all_fields (rev (free s)) (with_sets s [] [] [])) as (-> & _). apply (s_lt _ S). right. right. auto.
    + apply sinv_cancel_all; [apply sinv_cancel_all; [apply sinv_release|]|].
      * now apply sinv_empty.
      * intros w _. apply no_inset.
      * intros w _. destruct (release_all_fields (rev (free s)) (with_sets s [] [] [])) as (_ & _ & X1 & X2 & X3 & _). rewrite (inset_fields _ _ X1 X2 X3). apply no_inset.
      * intros w _. destruct (cancel_all_fields (running s) (release_all (rev (free s)) (with_sets s [] [] []))) as (_ & _ & Y1 & Y2 & Y3 & _). rewrite (inset_fields _ _ Y1 Y2 Y3).
        destruct (release_all_fields (rev (free s)) (with_sets s [] [] [])) as (_ & _ & X1 & X2 & X3 & _). rewrite (inset_fields _ _ X1 X2 X3). apply no_inset.
Qed.

Lemma base_init : base e_init.
Proof.
  split; split; try (cbn; intros; contradiction); try (cbn; intros; discriminate); try (intros; cbn in *; auto; fail).
  - intros w. apply NoDup_nil.
  - cbn. split; [apply NoDup_nil|intros ? []].
  - intros [|j]; discriminate.
  - apply NoDup_nil.
  - intros w [X|[X|X]]; destruct X.
  - intros w [X|[X|X]]; destruct X.
  - intros [|c]; discriminate.
  - intros [|c]; discriminate.
Qed.
Lemma base_after os : base (e_after os).
Proof. induction os as [|o os IH] using rev_ind; [exact base_init|]. rewrite after_snoc. now apply base_step. Qed.

(** ** C40: at most once *)
Lemma outcome_set s j : forall x g, nth_error (futs (settle j x s)) g = match nth_error (futs s) g with Some f => if g =? j then (match out f with Some _ => Some f | None => Some {| out := Some x; ended_cb := None |} end) else Some f | None => None end.
Proof.
  intros x g. unfold settle. destruct (nth_error (futs s) j) as [f|] eqn:N; [destruct (out f) eqn:O|].
  - destruct (Nat.eqb_spec g j) as [-> | D]; [now rewrite N, O|]. now destruct (nth_error (futs s) g).
  - cbn. destruct (Nat.eqb_spec g j) as [-> | D].
    + rewrite nth_set_same by (apply nth_error_Some; congruence). now rewrite N, O.
    + rewrite nth_set_other by auto. now destruct (nth_error (futs s) g).
  - destruct (Nat.eqb_spec g j) as [-> | D]; [now rewrite N|]. now destruct (nth_error (futs s) g).
Qed.
Lemma work_futs w s : futs (work w s) = futs s.
Proof. unfold work. destruct (ph (ws s w)) as [| |i|[f j|]|f j|]; auto; [destruct (stopped _); auto; destruct (queue _); auto|destruct (is_done j s); auto]. Qed.
Lemma get_free_futs s : futs (fst (get_free s)) = futs s /\ log (fst (get_free s)) = log s.
Proof. unfold get_free. destruct (rev (free s)); auto. Qed.

Lemma done_step s o j f x : nth_error (futs s) j = Some f -> out f = Some x -> nth_error (futs (fst (e_step s o))) j = Some f.
Proof.
  intros N O. assert (L : j < length (futs s)) by (apply nth_error_Some; congruence). assert (App : forall y, nth_error (futs s ++ [y]) j = Some f) by (intros; rewrite nth_error_app1; auto).
  assert (Set_ : forall i y t, futs t = futs s -> nth_error (futs (settle i y t)) j = Some f). { intros i y t T. rewrite outcome_set, T, N, O. now destruct (j =? i). }
  destruct o; cbn [e_step fst].
  - unfold submit. pose proof (get_free_futs s) as G. destruct (get_free s). apply App.
  - auto.
  - destruct (w <? nw s); [rewrite work_futs|]; auto.
  - destruct (loop s) as [|[] r]; auto; cbn [run_handle]; auto. unfold execution_ended. destruct (mem _ _); auto.
  - unfold claim. pose proof (get_free_futs s) as (G & _). destruct (get_free s). cbn in *. now rewrite G.
  - unfold claim_execute. destruct (nth_error (claims s) c) as [[w|]|]; cbn [fst]; auto. apply App.
  - unfold claim_release. destruct (nth_error (claims s) c) as [[w|]|]; cbn [fst]; auto. destruct (queue _); cbn [fst]; auto. destruct (mem _ _); auto.
  - destruct (rev (free s)); auto.
  - rewrite !release_sets. repeat match goal with |- context [futs (release_all ?l ?t)] => destruct (release_all_fields l t) as (_ & -> & _) end. auto.
  - rewrite !cancel_sets, !release_sets. repeat match goal with |- context [futs (cancel_all ?l ?t)] => destruct (cancel_all_fields l t) as (_ & -> & _) end. repeat match goal with |- context [futs (release_all ?l ?t)] => destruct (release_all_fields l t) as (_ & -> & _) end. auto.
Qed.

Lemma log_step s o : jinv s -> log (fst (e_step s o)) = log s \/ exists w j, o = EWork w /\ log (fst (e_step s o)) = j :: log s /\ is_done j s = false /\ w < nw s /\ In j (jobs (ws s w)).
Proof.
  intros J. destruct o; cbn [e_step fst].
  - left. unfold submit. pose proof (get_free_futs s) as (_ & G). destruct (get_free s). exact G.
  - left. unfold settle. destruct (nth_error (futs s) j) as [f|]; auto. destruct (out f); auto.
  - destruct (w <? nw s) eqn:L; [|auto]. apply Nat.ltb_lt in L. unfold work. pose proof (j_diag _ J w) as Dg. destruct (ph (ws s w)) as [| |i|[f j|]|f j|] eqn:P; auto.
    + destruct (stopped _); auto; destruct (queue _); auto.
    + destruct (is_done j s) eqn:D; auto. right. assert (In (IPair f j) (held (ws s w))) as H by (unfold held; rewrite P; cbn; auto). destruct (Dg f j H) as (-> & _). exists w, j. repeat split; auto. apply jobs_In. eauto.
  - left. destruct (loop s) as [|[] r]; auto; cbn [run_handle]; auto; unfold settle, execution_ended; cbn.
    + destruct (nth_error (futs s) future) as [f|]; auto. destruct (out f); auto.
    + destruct (nth_error (futs s) future) as [f|]; auto. destruct (out f); auto.
    + destruct (existsb _ _); auto.
  - left. unfold claim. pose proof (get_free_futs s) as (_ & G). destruct (get_free s). exact G.
  - left. unfold claim_execute. destruct (nth_error (claims s) c) as [[w|]|]; auto.
  - left. unfold claim_release. destruct (nth_error (claims s) c) as [[w|]|]; auto. destruct (queue _); auto. destruct (mem _ _); auto.
  - left. destruct (rev (free s)); auto.
  - left. rewrite !release_sets. repeat match goal with |- context [log (release_all ?l ?t)] => destruct (release_all_fields l t) as (_ & _ & _ & _ & _ & _ & _ & ->) end. auto.
  - left. rewrite !cancel_sets, !release_sets. repeat match goal with |- context [log (cancel_all ?l ?t)] => destruct (cancel_all_fields l t) as (_ & _ & _ & _ & _ & _ & ->) end. repeat match goal with |- context [log (release_all ?l ?t)] => destruct (release_all_fields l t) as (_ & _ & _ & _ & _ & _ & _ & ->) end. auto.
Qed.

Theorem once os j : starts os j <= 1.
Proof. unfold starts. destruct (base_after os) as (J & _). destruct (j_log _ J) as (N & _). now apply NoDup_count_occ. Qed.
Lemma starts_In os j : starts os j = 0 <-> ~ In j (log (e_after os)).
Proof. unfold starts. symmetry. apply count_occ_not_In. Qed.
Lemma starts_1 os j : In j (log (e_after os)) -> starts os j = 1.
Proof. intros H. pose proof (once os j). apply (count_occ_In Nat.eq_dec) in H. unfold starts in *. lia. Qed.

Lemma busy_put w i s v f j : ph (ws (put_to w i s) v) = PBusy f j <-> ph (ws s v) = PBusy f j.
Proof. unfold put_to. cbn. unfold upd. destruct (Nat.eqb_spec v w) as [-> | D]; [apply put_idle|tauto]. Qed.
Lemma busy_release l : forall s v f j, ph (ws (release_all l s) v) = PBusy f j <-> ph (ws s v) = PBusy f j.
Proof. induction l as [|w l IH]; intros s v f j; cbn [release_all]; [tauto|]. rewrite IH. apply busy_put. Qed.
Lemma busy_cancel w s v f j : ph (ws (cancel_worker w s) v) = PBusy f j <-> ph (ws s v) = PBusy f j.
Proof. unfold cancel_worker. rewrite busy_put. cbn. unfold upd. destruct (Nat.eqb_spec v w) as [-> | D]; cbn; tauto. Qed.
Lemma busy_cancel_all l : forall s v f j, ph (ws (cancel_all l s) v) = PBusy f j <-> ph (ws s v) = PBusy f j.
Proof. induction l as [|w l IH]; intros s v f j; cbn [cancel_all]; [tauto|]. rewrite IH. apply busy_cancel. Qed.
Lemma get_free_ws s : ws (fst (get_free s)) = ws s.
Proof. unfold get_free. destruct (rev (free s)); auto. Qed.
Lemma settle_ws j x s : ws (settle j x s) = ws s.
Proof. unfold settle. destruct (nth_error (futs s) j) as [f|]; auto. destruct (out f); auto. Qed.

(** How a worker gets busy. *)
Lemma busy_step s o v f j : ph (ws (fst (e_step s o)) v) = PBusy f j -> ph (ws s v) = PBusy f j \/ o = EWork v /\ is_done j s = false /\ In (IPair f j) (held (ws s v)).
Proof.
  destruct o; cbn [e_step fst].
  - unfold submit. pose proof (get_free_ws s) as G. destruct (get_free s) as [s1 w]. rewrite busy_put. cbn in *. rewrite G. auto.
  - rewrite settle_ws. auto.
  - destruct (w <? nw s) eqn:L; [|auto]. unfold work. destruct (ph (ws s w)) as [| |i|[g k|]|g k|] eqn:P; auto.
    + destruct (stopped _); [|destruct (queue _)]; cbn; unfold upd; destruct (Nat.eqb_spec v w) as [-> | D]; auto; discriminate.
    + cbn. unfold upd. destruct (Nat.eqb_spec v w) as [-> | D]; auto; discriminate.
    + destruct (is_done k s) eqn:Dn; cbn; unfold upd; destruct (Nat.eqb_spec v w) as [-> | D]; auto; [discriminate|]. cbn. intros X. injection X as <- <-. right. split; [auto|]. split; [auto|]. unfold held. rewrite P. cbn. auto.
    + cbn. unfold upd. destruct (Nat.eqb_spec v w) as [-> | D]; auto; discriminate.
    + cbn. unfold upd. destruct (Nat.eqb_spec v w) as [-> | D]; auto; discriminate.
  - destruct (loop s) as [|[] r]; auto; cbn [run_handle]; rewrite ?settle_ws; auto; unfold execution_ended; cbn. destruct (existsb _ _); auto.
  - unfold claim. pose proof (get_free_ws s) as G. destruct (get_free s) as [s1 w]. cbn in *. rewrite G. auto.
  - unfold claim_execute. destruct (nth_error (claims s) c) as [[w|]|]; auto. cbn [fst]. rewrite busy_put. auto.
  - unfold claim_release. destruct (nth_error (claims s) c) as [[w|]|]; auto. destruct (queue _); auto. destruct (mem _ _); auto.
  - destruct (rev (free s)); auto. rewrite busy_put. auto.
  - rewrite !release_sets, !busy_release. auto.
  - rewrite !cancel_sets, !release_sets, !busy_cancel_all, !busy_release. auto.
Qed.

(** How a future gets its result. *)
Lemma result_step s o j x f : nth_error (futs (fst (e_step s o))) j = Some x -> out x = Some (Result f) ->
  nth_error (futs s) j = Some x \/ exists r, o = ELoop /\ loop s = LSet j f :: r /\ is_done j s = false.
Proof.
  assert (App : forall y, out y = None -> nth_error (futs s ++ [y]) j = Some x -> out x = Some (Result f) -> nth_error (futs s) j = Some x).
  { intros y Y X Z. apply nth_snoc in X. destruct X as [X|(_ & ->)]; [auto|congruence]. }
  destruct o; cbn [e_step fst].
  - intros X Y. left. revert X. unfold submit. destruct (get_free s). cbn. intros X. eapply App; eauto. reflexivity.
  - rewrite outcome_set. destruct (nth_error (futs s) j) as [y|] eqn:N; [|discriminate]. destruct (j =? j0); [|auto]. destruct (out y); [auto|]. intros X Y. injection X as <-. discriminate.
  - destruct (w <? nw s); rewrite ?work_futs; auto.
  - destruct (loop s) as [|[i g|i|i w|w] r] eqn:R; auto; cbn [run_handle].
    + rewrite outcome_set. cbn. destruct (nth_error (futs s) j) as [y|] eqn:N; [|discriminate]. destruct (Nat.eqb_spec j i) as [-> | D]; [|auto]. destruct (out y) eqn:O; [auto|]. intros X Y. injection X as <-. cbn in Y. injection Y as ->. right. exists r. split; [auto|]. split; [auto|]. unfold is_done. now rewrite N, O.
    + rewrite outcome_set. cbn. destruct (nth_error (futs s) j) as [y|] eqn:N; [|discriminate]. destruct (j =? i); [|auto]. destruct (out y); [auto|]. intros X Y. injection X as <-. discriminate.
    + unfold execution_ended. destruct (mem w (running (with_loop s r))); cbn; auto.
  - unfold claim. pose proof (get_free_futs s) as (G & _). destruct (get_free s). cbn in *. rewrite G. auto.
  - unfold claim_execute. destruct (nth_error (claims s) c) as [[w|]|]; auto. cbn [fst]. intros X Y. left. refine (App {| out := None; ended_cb := None |} eq_refl _ Y). exact X.
  - unfold claim_release. destruct (nth_error (claims s) c) as [[w|]|]; auto. destruct (queue _); auto. destruct (mem _ _); auto.
  - destruct (rev (free s)); auto.
  - rewrite !release_sets. repeat match goal with |- context [futs (release_all ?l ?t)] => destruct (release_all_fields l t) as (_ & -> & _) end. auto.
  - rewrite !cancel_sets, !release_sets. repeat match goal with |- context [futs (cancel_all ?l ?t)] => destruct (cancel_all_fields l t) as (_ & -> & _) end. repeat match goal with |- context [futs (release_all ?l ?t)] => destruct (release_all_fields l t) as (_ & -> & _) end. auto.
Qed.

Lemma result_idle os : forall j x f w g, nth_error (futs (e_after os)) j = Some x -> out x = Some (Result f) -> ph (ws (e_after os) w) <> PBusy g j.
Proof.
  induction os as [|o os IH] using rev_ind; [intros [|j]; discriminate|]. rewrite after_snoc. intros j x f w g N O P. destruct (base_after os) as (J & _).
  destruct (result_step _ _ _ _ _ N O) as [N0|(r & -> & R & D)]; destruct (busy_step _ _ _ _ _ P) as [P0|(E & D0 & _)].
  - eapply IH; eauto.
  - assert (X : is_done j (e_after os) = true) by (apply is_done_spec; eauto). congruence.
  - destruct (j_set _ J j f) as (_ & _ & _ & X); [rewrite R; cbn; auto|]. eapply X, P0.
  - discriminate.
Qed.

Theorem own os j f : outcome_of os j = Some (Result f) -> f = j /\ starts os j = 1 /\ ~ executing os j.
Proof.
  intros H. unfold outcome_of in H. destruct (nth_error _ j) as [x|] eqn:N; [|discriminate]. destruct (base_after os) as (J & _). destruct (j_out _ J j x f N H) as (-> & L). split; [auto|]. split; [now apply starts_1|].
  intros (w & g & _ & P). assert (j = g) by (now apply (j_busy _ J) in P). subst g. eapply result_idle; eauto.
Qed.

Lemma run_more os q : e_after (os ++ q) = fst (e_run (e_after os) q).
Proof. unfold e_after. rewrite run_app. destruct (e_run e_init os) as [s xs]. cbn [fst]. now destruct (e_run s q). Qed.
Theorem stable os q j x : outcome_of os j = Some x -> outcome_of (os ++ q) j = Some x.
Proof.
  intros H. induction q as [|o q IH] using rev_ind; [now rewrite app_nil_r|]. rewrite app_assoc. unfold outcome_of in *. rewrite after_snoc.
  destruct (nth_error (futs (e_after (os ++ q))) j) as [f|] eqn:N; [|discriminate]. now rewrite (done_step _ o _ _ _ N IH).
Qed.
(** What was cancelled in time never starts. *)
Theorem skipped os q j x : outcome_of os j = Some x -> starts os j = 0 -> starts (os ++ q) j = 0.
Proof.
  intros H Z. induction q as [|o q IH] using rev_ind; [now rewrite app_nil_r|]. rewrite app_assoc. rewrite starts_In in *. rewrite after_snoc. destruct (base_after (os ++ q)) as (J & _).
  destruct (log_step _ o J) as [-> |(w & i & _ & -> & D & _)]; [auto|]. intros [-> | X]; [|auto].
  apply (stable os q) in H. unfold outcome_of in H. unfold is_done in D. destruct (nth_error _ j) as [f|]; [|discriminate]. rewrite H in D. discriminate.
Qed.

(** ** C40: every function is executed or cancelled *)
Definition tidy (l : list item) : Prop := forall a b, l = a ++ INone :: b -> flat_map job_of b = [].
Lemma tidy_none l : ~ In INone l -> tidy l.
Proof. intros H a b ->. destruct H. apply in_app_iff. cbn. auto. Qed.
Lemma snoc_split {A} (l a b : list A) x y : l ++ [x] = a ++ y :: b -> (b = [] /\ l = a /\ x = y) \/ exists c, b = c ++ [x] /\ l = a ++ y :: c.
Proof.
  destruct b as [|z b] using rev_ind; intros H.
  - apply app_inj_tail in H. destruct H. auto.
  - right. exists b. change (y :: b ++ [z]) with ((y :: b) ++ [z]) in H. rewrite app_assoc in H. apply app_inj_tail in H. destruct H as (-> & ->). auto.
Qed.
Lemma tidy_snoc l : tidy l -> tidy (l ++ [INone]).
Proof. intros T a b H. apply snoc_split in H. destruct H as [(-> & _)|(c & -> & E)]; [reflexivity|]. rewrite flat_map_app, (T a c E). reflexivity. Qed.
Lemma tidy_tl i l : tidy (i :: l) -> tidy l.
Proof. intros T a b ->. apply (T (i :: a) b). reflexivity. Qed.

Record pinv (s : exec) : Prop := {
  p_tidy : forall w, tidy (held (ws s w));
  p_end : forall w, ph (ws s w) = PEnd -> jobs (ws s w) = [];
  p_stop : forall w, stopped (ws s w) = true -> flat_map job_of (queue (ws s w)) = [];
  p_pend : forall j f, nth_error (futs s) j = Some f -> out f = None ->
    (exists w, w < nw s /\ (In j (jobs (ws s w)) \/ exists g, ph (ws s w) = PBusy g j)) \/ (exists g, In (LSet j g) (loop s)) \/ In (LCancel j) (loop s)
}.

Lemma jobs_put i k : (ph k = PWait -> queue k = []) -> jobs (put i k) = jobs k ++ job_of i.
Proof. intros H. unfold jobs. rewrite held_put, flat_map_app by auto. cbn. now rewrite app_nil_r. Qed.
Lemma pinv_put_none s w : (ph (ws s w) = PWait -> queue (ws s w) = []) -> pinv s -> pinv (put_to w INone s).
Proof.
  intros Wt [A B C D]. unfold put_to.
  assert (Jb : forall v, jobs (upd (ws s) w (put INone (ws s w)) v) = jobs (ws s v)).
  { intros v. unfold upd. destruct (Nat.eqb_spec v w) as [-> | X]; [|auto]. rewrite jobs_put by auto. cbn. apply app_nil_r. }
  split; cbn [ws nw futs loop with_ws].
  - intros v. unfold upd. destruct (Nat.eqb_spec v w) as [-> | X]; [|auto]. rewrite held_put by auto. now apply tidy_snoc.
  - intros v V. rewrite Jb. apply B. revert V. unfold upd. destruct (Nat.eqb_spec v w) as [-> | X]; [|auto]. apply put_live.
  - intros v. unfold upd. destruct (Nat.eqb_spec v w) as [-> | X]; [|auto]. destruct (put_live INone (ws s w)) as (-> & _). intros V. specialize (C w V). unfold put. destruct (ph (ws s w)); cbn; auto; rewrite flat_map_app, C; reflexivity.
  - intros j f N O. destruct (D j f N O) as [(v & V & X)|X]; [left|auto]. exists v. split; [auto|]. rewrite Jb. destruct X as [X|(g & X)]; [auto|]. right. exists g. apply (busy_put w INone s). exact X.
Qed.
Lemma pinv_release l : forall s, jinv s -> (forall w, In w l -> w < nw s) -> pinv s -> pinv (release_all l s).
Proof.
  induction l as [|w l IH]; intros s J L P; cbn [release_all]; [auto|]. apply IH; [apply jinv_put_none; auto; apply L; cbn; auto|intros v V; apply (L v); cbn; auto|apply pinv_put_none; [apply (j_wait _ J)|auto]].
Qed.
Lemma pinv_cancel s w : jinv s -> w < nw s -> pinv s -> pinv (cancel_worker w s).
Proof.
  intros J L [A B C D]. unfold cancel_worker. set (k := {| ph := ph (ws s w); queue := []; stopped := true |}).
  apply pinv_put_none; [cbn; rewrite upd_same; auto|].
  assert (Hk : forall i, In i (held k) -> In i (held (ws s w))) by (intros i; unfold held, k; cbn; rewrite app_nil_r, in_app_iff; auto).
  split; cbn [ws nw futs loop with_ws with_loop].
  - intros v. unfold upd. destruct (Nat.eqb_spec v w) as [-> | X]; [|auto]. intros a b E. unfold held, k in E. cbn in E. rewrite app_nil_r in E.
    destruct (ph (ws s w)); destruct a as [|x [|y a]]; cbn in E; try discriminate; injection E; intros; subst; auto; try (destruct a; discriminate).
  - intros v. unfold upd. destruct (Nat.eqb_spec v w) as [-> | X]; [|auto]. intros V. cbn in V. unfold jobs, held, k. cbn. rewrite V. reflexivity.
  - intros v. unfold upd. destruct (Nat.eqb_spec v w) as [-> | X]; [|auto]. reflexivity.
  - intros j f N O. destruct (D j f N O) as [(v & V & X)|X].
    + destruct (Nat.eq_dec v w) as [-> | Y].
      * destruct X as [X|(g & X)].
        -- rewrite jobs_app in X. apply in_app_iff in X. destruct X as [X|X].
           ++ left. exists w. split; [auto|]. left. rewrite upd_same. unfold jobs, held, k. cbn. rewrite app_nil_r. exact X.
           ++ right. right. apply in_app_iff. right. apply cancel_handles_In. apply in_flat_map in X. destruct X as ([g i|] & X & Z); cbn in Z; [|contradiction]. destruct Z as [-> | []]. eauto.
        -- left. exists w. split; [auto|]. right. exists g. rewrite upd_same. exact X.
      * left. exists v. split; [auto|]. rewrite upd_other by auto. auto.
    + right. destruct X as [(g & X)|X]; [left; exists g; apply in_app_iff; auto|right; apply in_app_iff; auto].
Qed.
Lemma pinv_cancel_all l : forall s, jinv s -> (forall w, In w l -> w < nw s) -> pinv s -> pinv (cancel_all l s).
Proof.
  induction l as [|w l IH]; intros s J L P; cbn [cancel_all]; [auto|]. assert (Lw : w < nw s) by (apply L; cbn; auto).
  apply IH; [apply jinv_cancel; auto|intros v V; apply (L v); cbn; auto|apply pinv_cancel; auto].
Qed.
Lemma pinv_same s s' : ws s' = ws s -> nw s <= nw s' -> futs s' = futs s -> (forall j g, In (LSet j g) (loop s) -> In (LSet j g) (loop s')) -> (forall j, In (LCancel j) (loop s) -> In (LCancel j) (loop s')) -> pinv s -> pinv s'.
Proof.
  intros E1 E2 E3 E4 E5 [A B C D]. split; rewrite ?E1, ?E3; auto. intros j f N O. destruct (D j f N O) as [(w & W & X)|[(g & X)|X]].
  - left. exists w. split; [lia|auto].
  - right. left. eauto.
  - right. right. auto.
Qed.
Lemma pinv_new_job s w cb : jinv s -> w < nw s -> stopped (ws s w) = false -> ~ In INone (held (ws s w)) -> ph (ws s w) <> PEnd -> pinv s -> pinv (new_job w cb s).
Proof.
  intros J L St Nn Ne [A B C D]. unfold new_job, put_to. set (n := length (futs s)). pose proof (j_wait _ J w) as Wt.
  assert (Jb : forall v x, In x (jobs (ws s v)) -> In x (jobs (upd (ws s) w (put (IPair n n) (ws s w)) v))).
  { intros v x X. unfold upd. destruct (Nat.eqb_spec v w) as [-> | Y]; [|auto]. rewrite jobs_put by auto. apply in_app_iff. auto. }
  split; cbn [ws nw futs loop with_ws with_futs].
  - intros v. unfold upd. destruct (Nat.eqb_spec v w) as [-> | X]; [|auto]. rewrite held_put by auto. apply tidy_none. rewrite in_app_iff. cbn. intuition discriminate.
  - intros v. unfold upd. destruct (Nat.eqb_spec v w) as [-> | X]; [|auto]. rewrite (proj2 (put_live (IPair n n) (ws s w))). contradiction.
  - intros v. unfold upd. destruct (Nat.eqb_spec v w) as [-> | X]; [|auto]. rewrite (proj1 (put_live (IPair n n) (ws s w))). congruence.
  - intros j f N O. apply nth_snoc in N. destruct N as [N|(-> & ->)].
    + destruct (D j f N O) as [(v & V & X)|X]; [left|auto]. exists v. split; [auto|]. destruct X as [X|(g & X)]; [left; auto|]. right. exists g. apply (busy_put w (IPair n n) s). exact X.
    + left. exists w. split; [auto|]. left. rewrite upd_same, jobs_put by auto. apply in_app_iff. cbn. auto.
Qed.
Lemma pinv_worker s w k l lg : pinv s -> tidy (held k) -> (ph k = PEnd -> jobs k = []) -> (stopped k = true -> flat_map job_of (queue k) = []) ->
  (forall j, (In j (jobs (ws s w)) \/ exists g, ph (ws s w) = PBusy g j) -> is_done j s = true \/ (In j (jobs k) \/ exists g, ph k = PBusy g j) \/ exists g, In (LSet j g) l) ->
  pinv {| ws := upd (ws s) w k; nw := nw s; futs := futs s; free := free s; running := running s; claimed := claimed s; claims := claims s; loop := loop s ++ l; log := lg |}.
Proof.
  intros [A B C D] H1 H2 H3 H4. split; cbn [ws nw futs loop].
  - intros v. unfold upd. destruct (Nat.eqb_spec v w); auto.
  - intros v. unfold upd. destruct (Nat.eqb_spec v w); auto.
  - intros v. unfold upd. destruct (Nat.eqb_spec v w); auto.
  - intros j f N O. destruct (D j f N O) as [(v & V & X)|[(g & X)|X]].
    + destruct (Nat.eq_dec v w) as [-> | Y]; [|left; exists v; rewrite upd_other by auto; auto].
      destruct (H4 j X) as [Z|[Z|(g & Z)]].
      * unfold is_done in Z. rewrite N, O in Z. discriminate.
      * left. exists w. rewrite upd_same. auto.
      * right. left. exists g. apply in_app_iff. auto.
    + right. left. exists g. apply in_app_iff. auto.
    + right. right. apply in_app_iff. auto.
Qed.
Lemma pinv_work s w : jinv s -> pinv s -> pinv (work w s).
Proof.
  intros J Pv. pose proof Pv as [A B C D]. unfold work. pose proof (A w) as Aw. pose proof (C w) as Cw. unfold held in Aw.
  assert (W : forall k lg, tidy (held k) -> (ph k = PEnd -> jobs k = []) -> (stopped k = true -> flat_map job_of (queue k) = []) ->
    (forall j, (In j (flat_map job_of (match ph (ws s w) with PHanded i | PGot i => [i] | _ => [] end ++ queue (ws s w))) \/ exists g, ph (ws s w) = PBusy g j) -> is_done j s = true \/ (In j (jobs k) \/ exists g, ph k = PBusy g j)) -> pinv (with_log (with_ws s (upd (ws s) w k)) lg)).
  { intros k lg H1 H2 H3 H4. pose proof (pinv_worker s w k [] lg Pv H1 H2 H3) as X. rewrite app_nil_r in X. apply X. intros j Y. destruct (H4 j Y); auto. }
  assert (W0 : forall k, pinv (with_log (with_ws s (upd (ws s) w k)) (log s)) -> pinv (with_ws s (upd (ws s) w k))) by (intros k X; exact X).
  destruct (ph (ws s w)) as [| |i|[f j|]|f j|] eqn:P; cbn [app] in *; [| exact Pv | | | | | exact Pv].
  - destruct (stopped (ws s w)) eqn:St; [|destruct (queue (ws s w)) as [|i q] eqn:Q]; apply W0, W; auto; try discriminate.
    + intros j [X|(g & X)]; [right; left; exact X|discriminate].
    + intros j [X|(g & X)]; [right; left; exact X|discriminate].
    + intros j [X|(g & X)]; [right; left; exact X|discriminate].
  - apply W0, W; auto; try discriminate. intros j [X|(g & X)]; [right; left; exact X|discriminate].
  - destruct (is_done j s) eqn:Dn.
    + apply W0, W; auto; try discriminate; [eapply tidy_tl, Aw|]. intros x [X|(g & X)]; [|discriminate]. cbn in X. destruct X as [<- | X]; [auto|right; left; exact X].
    + apply W; auto; try discriminate; [eapply tidy_tl, Aw|]. intros x [X|(g & X)]; [|discriminate]. cbn in X. right. destruct X as [<- | X]; [right; eexists; reflexivity|left; exact X].
  - pose proof (Aw [] (queue (ws s w)) eq_refl) as Z. apply W0, W; auto; try discriminate.
    + eapply tidy_tl, Aw.
    + intros x [X|(g & X)]; [right; left; exact X|discriminate].
  - apply (pinv_worker s w {| ph := PTop; queue := queue (ws s w); stopped := stopped (ws s w) |} [LSet j f] (log s) Pv); auto; try discriminate.
    intros x [X|(g & X)].
    + unfold jobs, held in X. rewrite P in X. right. left. left. exact X.
    + rewrite P in X. injection X as <- <-. right. right. exists f. cbn. auto.
Qed.

Lemma pinv_settle s j x r : (forall h, In h (loop s) -> In h r \/ h = LCancel j \/ exists g, h = LSet j g) -> pinv s -> pinv (settle j x (with_loop s r)).
Proof.
  intros H [A B C D]. unfold settle. cbn [futs with_loop].
  assert (Old : forall t, ws t = ws s -> nw t = nw s -> (forall i f, nth_error (futs t) i = Some f -> out f = None -> nth_error (futs s) i = Some f /\ i <> j) -> (forall h, In h r -> In h (loop t)) -> pinv t).
  { intros t T1 T2 T3 T4. split; rewrite ?T1, ?T2; auto. intros i f N O. destruct (T3 i f N O) as (N0 & Ne). destruct (D i f N0 O) as [X|[(g & X)|X]]; [auto| |].
    - right. left. exists g. destruct (H _ X) as [Y|[Y|(g' & Y)]]; [auto|discriminate|congruence].
    - right. right. destruct (H _ X) as [Y|[Y|(g' & Y)]]; [auto|congruence|discriminate]. }
  destruct (nth_error (futs s) j) as [f|] eqn:N; [destruct (out f) eqn:O|].
  - apply Old; auto. cbn. intros i g Ni Oi. split; [auto|]. intros ->. congruence.
  - apply Old; auto.
    + cbn. intros i g Ni Oi. destruct (Nat.eq_dec j i) as [<- | Y]; [rewrite nth_set_same in Ni by (apply nth_error_Some; congruence); injection Ni as <-; discriminate|]. rewrite nth_set_other in Ni by auto. auto.
    + cbn. intros h X. apply in_app_iff. auto.
  - apply Old; auto. cbn. intros i g Ni Oi. split; [auto|]. intros ->. congruence.
Qed.

Lemma pinv_step s o : base s -> pinv s -> (forall c w, o = EExecute c -> nth_error (claims s) c = Some (Some w) -> In w (claimed s)) -> pinv (fst (e_step s o)).
Proof.
  intros (J & S) P Ns. destruct o; cbn [e_step].
  - cbn [fst]. unfold submit. pose proof (get_free_ok s S) as G. destruct (get_free s) as [s1 w]. destruct G as (G1 & G2 & G3 & G4 & G5 & G6 & G7 & G8 & G9 & G10 & G11 & G12).
    set (s2 := with_sets s1 (free s1) (if mem w (running s1) then running s1 else w :: running s1) (claimed s1)).
    assert (J2 : jinv s2). { apply (jinv_same s); auto. cbn. rewrite G6. auto. }
    assert (P2 : pinv s2). { apply (pinv_same s); auto; cbn; rewrite G6; auto. }
    assert (W4 : stopped (ws s w) = false /\ ~ In INone (held (ws s w)) /\ ph (ws s w) <> PEnd).
    { destruct G12 as [(X & _)|(-> & _)]; [apply (s_live _ S); left; auto|]. rewrite (j_new _ J) by lia. cbn. repeat split; auto. discriminate. }
    assert (F2 : futs s2 = futs s) by exact G2. change (pinv (put_to w (IPair (length (futs s)) (length (futs s))) (with_futs s2 (futs s ++ [{| out := None; ended_cb := Some w |}])))). rewrite <- F2.
    apply pinv_new_job; auto; cbn; rewrite G1; apply W4.
  - cbn [fst]. pose proof (pinv_settle s j Cancelled (loop s)) as X. replace (with_loop s (loop s)) with s in X by (now destruct s). apply X; auto.
  - cbn [fst]. destruct (w <? nw s) eqn:L; [|auto]. apply pinv_work; auto.
  - cbn [fst]. destruct (loop s) as [|h r] eqn:R; [auto|]. destruct h as [j f|j|j w|w]; cbn [run_handle].
    + apply pinv_settle; auto. rewrite R. cbn. intros h [<- | X]; eauto.
    + apply pinv_settle; auto. rewrite R. cbn. intros h [<- | X]; eauto.
    + apply (pinv_same s); auto; rewrite R; cbn; intros; rewrite in_app_iff; cbn; intuition discriminate.
    + unfold execution_ended. destruct (mem w _); apply (pinv_same s); auto; rewrite R; cbn; intros; intuition discriminate.
  - cbn [fst]. unfold claim. pose proof (get_free_ok s S) as G. destruct (get_free s) as [s1 w]. destruct G as (G1 & G2 & G3 & G4 & G5 & G6 & G7 & G8 & G9 & G10 & G11 & G12).
    apply (pinv_same s); auto; cbn; rewrite G6; auto.
  - unfold claim_execute. destruct (nth_error (claims s) c) as [[w|]|] eqn:N; cbn [fst]; auto. pose proof (Ns c w eq_refl N) as Cl. assert (Is : inset s w) by (right; right; auto). destruct (s_live _ S w Is) as (L1 & L2 & L3).
    apply pinv_new_job; auto. apply (s_lt _ S); auto.
  - unfold claim_release. destruct (nth_error (claims s) c) as [[w|]|] eqn:N; cbn [fst]; auto. destruct (queue (ws s w)); cbn [fst]; auto. destruct (mem _ _); apply (pinv_same s); auto.
  - cbn [fst]. destruct (rev (free s)) as [|w r] eqn:R; [auto|]. apply pinv_put_none; [apply (j_wait _ J)|]. apply (pinv_same s); auto.
  - cbn [fst]. rewrite !release_sets.
    assert (J0 : jinv (with_sets s [] [] [])) by (apply (jinv_same s); auto). assert (P0 : pinv (with_sets s [] [] [])) by (apply (pinv_same s); auto).
    assert (L0 : forall w, In w (rev (free s)) -> w < nw (with_sets s [] [] [])) by (intros w V; apply in_rev in V; apply (s_lt _ S); left; auto).
    pose proof (jinv_release _ _ J0 L0) as J1. pose proof (pinv_release _ _ J0 L0 P0) as P1. set (s1 := release_all (rev (free s)) (with_sets s [] [] [])) in *.
    assert (N1 : nw s1 = nw s) by (apply (release_all_fields (rev (free s)) (with_sets s [] [] []))).
    assert (L1 : forall w, In w (running s) -> w < nw s1) by (intros w V; rewrite N1; apply (s_lt _ S); right; left; auto).
    apply pinv_release; [apply jinv_release; auto| |apply pinv_release; auto]. intros w V. destruct (release_all_fields (running s) s1) as (-> & _). rewrite N1. apply (s_lt _ S). right. right. auto.
  - cbn [fst]. rewrite !cancel_sets, !release_sets.
    assert (J0 : jinv (with_sets s [] [] [])) by (apply (jinv_same s); auto). assert (P0 : pinv (with_sets s [] [] [])) by (apply (pinv_same s); auto).
    assert (L0 : forall w, In w (rev (free s)) -> w < nw (with_sets s [] [] [])) by (intros w V; apply in_rev in V; apply (s_lt _ S); left; auto).
    pose proof (jinv_release _ _ J0 L0) as J1. pose proof (pinv_release _ _ J0 L0 P0) as P1. set (s1 := release_all (rev (free s)) (with_sets s [] [] [])) in *.
    assert (N1 : nw s1 = nw s) by (apply (release_all_fields (rev (free s)) (with_sets s [] [] []))).
    assert (L1 : forall w, In w (running s) -> w < nw s1) by (intros w V; rewrite N1; apply (s_lt _ S); right; left; auto).
    apply pinv_cancel_all; [apply jinv_cancel_all; auto| |apply pinv_cancel_all; auto]. intros w V. destruct (cancel_all_fields (running s) s1) as (-> & _). rewrite N1. apply (s_lt _ S). right. right. auto.
Qed.

Lemma no_stale_init os o : no_stale (os ++ [o]) -> no_stale os.
Proof. intros H p q c w ->. apply (H p (q ++ [o])). rewrite <- app_assoc. reflexivity. Qed.
Lemma pinv_after os : no_stale os -> pinv (e_after os).
Proof.
  induction os as [|o os IH] using rev_ind; intros Ns.
  - split; try discriminate; [intros w a b X; destruct a; discriminate|intros [|j]; discriminate].
  - rewrite after_snoc. apply pinv_step; [apply base_after|apply IH; eapply no_stale_init, Ns|]. intros c w ->. apply (Ns os []). reflexivity.
Qed.

Lemma submitted_lt os j : submitted os j <-> j < length (futs (e_after os)).
Proof.
  unfold submitted. induction os as [|o os IH] using rev_ind; [cbn; lia|]. rewrite outs_snoc, after_snoc, in_app_iff, IH. cbn [In].
  assert (Same : forall t x, futs t = futs (e_after os) -> x <> EoJob j -> (j < length (futs (e_after os)) \/ x = EoJob j \/ False) <-> j < length (futs t)) by (intros t x -> X; tauto).
  assert (More : forall f, (j < length (futs (e_after os)) \/ EoJob (length (futs (e_after os))) = EoJob j \/ False) <-> j < length (futs (e_after os) ++ [f])).
  { intros f. rewrite app_length. cbn. split; [intros [X|[X|[]]]; [lia|injection X; lia]|]. intros X. destruct (Nat.eq_dec j (length (futs (e_after os)))) as [-> | Y]; [auto|left; lia]. }
  generalize dependent (e_after os). intros s _ Same More.
  destruct o; cbn [e_step fst snd].
  - unfold submit. destruct (get_free s). apply More.
  - unfold settle. destruct (nth_error (futs s) j0) as [f|] eqn:N; [destruct (out f)|]; try (apply Same; [reflexivity|discriminate]). cbn. rewrite set_nth_length. split; [intros [X|[X|[]]]; [auto|discriminate]|auto].
  - apply Same; [|discriminate]. destruct (w <? nw s); [apply work_futs|auto].
  - assert (X : length (futs (match loop s with [] => s | h :: r => run_handle h (with_loop s r) end)) = length (futs s)).
    { destruct (loop s) as [|[] r]; auto; cbn [run_handle]; unfold settle, execution_ended; cbn [futs with_loop]; auto.
      - destruct (nth_error (futs s) future) as [f|]; [destruct (out f)|]; cbn; rewrite ?set_nth_length; auto.
      - destruct (nth_error (futs s) future) as [f|]; [destruct (out f)|]; cbn; rewrite ?set_nth_length; auto.
      - destruct (mem _ _); auto. }
    rewrite X. split; [intros [Y|[Y|[]]]; [auto|discriminate]|auto].
  - apply Same; [|discriminate]. unfold claim. pose proof (get_free_futs s) as (G & _). destruct (get_free s). exact G.
  - unfold claim_execute. destruct (nth_error (claims s) c) as [[w|]|]; cbn [fst snd]; [apply More|apply Same; [reflexivity|discriminate]|apply Same; [reflexivity|discriminate]].
  - unfold claim_release. destruct (nth_error (claims s) c) as [[w|]|]; cbn [fst snd]; try (apply Same; [reflexivity|discriminate]). destruct (queue _); cbn [fst snd]; [destruct (mem _ _)|]; apply Same; try reflexivity; discriminate.
  - apply Same; [|discriminate]. destruct (rev (free s)); auto.
  - apply Same; [|discriminate]. rewrite !release_sets. repeat match goal with |- context [futs (release_all ?l ?t)] => destruct (release_all_fields l t) as (_ & -> & _) end. auto.
  - apply Same; [|discriminate]. rewrite !cancel_sets, !release_sets. repeat match goal with |- context [futs (cancel_all ?l ?t)] => destruct (cancel_all_fields l t) as (_ & -> & _) end. repeat match goal with |- context [futs (release_all ?l ?t)] => destruct (release_all_fields l t) as (_ & -> & _) end. auto.
Qed.

Lemma quiet_worker os w : quiet os -> w < nw (e_after os) -> ph (ws (e_after os) w) = PWait \/ ph (ws (e_after os) w) = PEnd.
Proof.
  intros (_ & Q) L. specialize (Q w L). cbn [e_step fst] in Q. apply Nat.ltb_lt in L. rewrite L in Q. revert Q. generalize (e_after os) as s. intros s Q.
  assert (E : ph (ws (work w s) w) = ph (ws s w)) by (now rewrite Q). revert E. unfold work.
  destruct (ph (ws s w)) as [| |i|[f j|]|f j|] eqn:P; auto.
  - destruct (stopped _); [|destruct (queue _)]; cbn; rewrite upd_same; discriminate.
  - cbn. rewrite upd_same. discriminate.
  - destruct (is_done j s); cbn; rewrite upd_same; discriminate.
  - cbn. rewrite upd_same. discriminate.
  - cbn. rewrite upd_same. discriminate.
Qed.

Theorem settled os j : no_stale os -> quiet os -> submitted os j -> outcome_of os j <> None.
Proof.
  intros Ns Q Sb O. apply submitted_lt in Sb. unfold outcome_of in O. destruct (nth_error (futs (e_after os)) j) as [f|] eqn:N; [|apply nth_error_None in N; lia].
  destruct (base_after os) as (J & S). pose proof (pinv_after os Ns) as P. destruct (p_pend _ P j f N O) as [(w & W & X)|[(g & X)|X]].
  - destruct (quiet_worker os w Q W) as [Y|Y].
    + destruct X as [X|(g & X)]; [|congruence]. unfold jobs, held in X. rewrite Y, (j_wait _ J w Y) in X. exact X.
    + destruct X as [X|(g & X)]; [|congruence]. rewrite (p_end _ P w Y) in X. exact X.
  - destruct Q as (Q & _). rewrite Q in X. exact X.
  - destruct Q as (Q & _). rewrite Q in X. exact X.
Qed.

(** Claims get stale only when all executors are released. *)
Theorem fresh os : ~ In EReleaseAll os -> ~ In ECancelAll os -> no_stale os.
Proof.
  assert (H : forall p, ~ In EReleaseAll p -> ~ In ECancelAll p -> forall c w, nth_error (claims (e_after p)) c = Some (Some w) -> In w (claimed (e_after p))).
  { induction p as [|o p IH] using rev_ind; [intros _ _ [|c]; discriminate|]. intros N1 N2. assert (H : forall c w, nth_error (claims (e_after p)) c = Some (Some w) -> In w (claimed (e_after p))) by (apply IH; intros X; [apply N1|apply N2]; apply in_app_iff; auto).
    rewrite after_snoc. destruct (base_after p) as (J & S). clear IH. generalize dependent (e_after p). intros s H J S.
    destruct o; cbn [e_step].
    - cbn [fst]. unfold submit. pose proof (get_free_ok s S) as G. destruct (get_free s) as [s1 w]. destruct G as (_ & _ & _ & G4 & G5 & _). cbn. rewrite G4, G5. auto.
    - cbn [fst]. unfold settle. destruct (nth_error (futs s) j) as [f|]; auto. destruct (out f); auto.
    - cbn [fst]. destruct (w <? nw s); auto. unfold work. destruct (ph (ws s w)) as [| |i|[f j|]|f j|]; auto; [destruct (stopped _); auto; destruct (queue _); auto|destruct (is_done j s); auto].
    - cbn [fst]. destruct (loop s) as [|[] r]; auto; cbn [run_handle]; unfold settle, execution_ended; cbn [futs with_loop]; auto.
      + destruct (nth_error (futs s) future) as [f|]; auto. destruct (out f); auto.
      + destruct (nth_error (futs s) future) as [f|]; auto. destruct (out f); auto.
      + destruct (mem _ _); auto.
    - cbn [fst]. unfold claim. pose proof (get_free_ok s S) as G. destruct (get_free s) as [s1 w]. destruct G as (_ & _ & _ & G4 & _). cbn [claims claimed with_claims with_sets]. rewrite G4. intros c v X.
      assert (Mm : forall u, u = w \/ In u (claimed s) -> In u (if mem w (claimed s) then claimed s else w :: claimed s)). { intros u U. destruct (mem w (claimed s)) eqn:M; cbn; [apply mem_In in M|]; intuition congruence. }
      apply Mm. apply nth_snoc in X. destruct X as [X|(_ & X)]; [right; eauto|left; congruence].
    - unfold claim_execute. destruct (nth_error (claims s) c) as [[w|]|] eqn:N; cbn [fst]; auto.
    - unfold claim_release. destruct (nth_error (claims s) c) as [[w|]|] eqn:N; cbn [fst]; auto. destruct (queue (ws s w)); cbn [fst]; auto.
      assert (Cs : forall d v, nth_error (set_nth c None (claims s)) d = Some (Some v) -> nth_error (claims s) d = Some (Some v) /\ d <> c).
      { intros d v X. destruct (Nat.eq_dec c d) as [<- | D]; [rewrite nth_set_same in X; [discriminate|]; apply nth_error_Some; congruence|]. rewrite nth_set_other in X by auto. auto. }
      destruct (mem w (claimed s)); cbn [claims claimed with_claims with_sets]; intros d v X; apply Cs in X; destruct X as (X & D); [|eauto].
      apply del_In. split; [|eauto]. intros ->. apply D. eapply (s_cu _ S); eauto.
    - cbn [fst]. destruct (rev (free s)); auto.
    - destruct N1. apply in_app_iff. cbn. auto.
    - destruct N2. apply in_app_iff. cbn. auto. }
  intros N1 N2 p q c w -> X. apply (H p) with (c := c); auto; intros Y; [apply N1|apply N2]; apply in_app_iff; auto.
Qed.

(** ** C41: the free executors are idle *)
Definition cb_is (w : nat) (f : fut) : bool := match ended_cb f with Some v => v =? w | None => false end.
Definition h_is (w : nat) (h : handle) : bool := match h with LCallback _ v | LEnded v => v =? w | _ => false end.
(** How often the executor is still told that [w] ended. *)
Definition tok (s : exec) (w : nat) : nat := length (filter (cb_is w) (futs s)) + length (filter (h_is w) (loop s)).
Definition finished (s : exec) (j : nat) : Prop := is_done j s = true.

Record dinv (s : exec) : Prop := {
  d_busy : forall w f j, ph (ws s w) = PBusy f j -> ~ finished s j;
  d_free : forall w, In w (free s) -> tok s w = 0 /\ (forall f j, ph (ws s w) <> PBusy f j) /\ forall j, In j (jobs (ws s w)) -> finished s j;
  d_run : forall w, In w (running s) -> tok s w = 1 /\ exists j x, nth_error (futs s) j = Some x /\ (out x = None -> ended_cb x = Some w) /\
    (forall f k, ph (ws s w) = PBusy f k -> k = j) /\ forall k, In k (jobs (ws s w)) -> finished s k \/ k = j;
  d_claim : forall w, In w (claimed s) -> tok s w = 0;
  d_new : forall w, nw s <= w -> tok s w = 0
}.

Lemma filter_app_len {A} (p : A -> bool) a b : length (filter p (a ++ b)) = length (filter p a) + length (filter p b).
Proof. rewrite filter_app, app_length. reflexivity. Qed.
Lemma filter_set {A} (p : A -> bool) i x y l : nth_error l i = Some x -> p y = false -> length (filter p l) = length (filter p (set_nth i y l)) + (if p x then 1 else 0).
Proof.
  intros N Y. revert i N. induction l as [|z l IH]; intros [|i] N; cbn in *; try discriminate.
  - injection N as ->. rewrite Y. destruct (p x); cbn; lia.
  - specialize (IH i N). destruct (p z); cbn; lia.
Qed.
Lemma filter_pos {A} (p : A -> bool) x l : In x l -> p x = true -> 1 <= length (filter p l).
Proof. intros H P. assert (X : In x (filter p l)) by (apply filter_In; auto). destruct (filter p l); [contradiction|cbn; lia]. Qed.

(** Nothing new is started, no set grows. *)
Lemma dinv_less s s' : (forall w f j, ph (ws s' w) = PBusy f j -> ph (ws s w) = PBusy f j) -> (forall w j, In j (jobs (ws s' w)) -> In j (jobs (ws s w))) ->
  futs s' = futs s -> (forall w, In w (free s') -> In w (free s)) -> (forall w, In w (running s') -> In w (running s)) -> (forall w, In w (claimed s') -> In w (claimed s)) ->
  nw s' = nw s -> (forall w, length (filter (h_is w) (loop s')) = length (filter (h_is w) (loop s))) -> dinv s -> dinv s'.
Proof.
  intros E1 E2 E3 E4 E5 E6 E7 E8 [A B C D E].
  assert (T : forall w, tok s' w = tok s w) by (intros w; unfold tok; now rewrite E3, E8).
  assert (F : forall j, finished s' j <-> finished s j) by (intros j; unfold finished, is_done; rewrite E3; tauto).
  split.
  - intros w f j X. rewrite F. eapply A, E1, X.
  - intros w X. rewrite T. destruct (B w (E4 w X)) as (B1 & B2 & B3). split; [auto|]. split; [intros f j Y; eapply B2, E1, Y|]. intros j Y. apply F, B3, E2, Y.
  - intros w X. rewrite T. destruct (C w (E5 w X)) as (C1 & j & x & C2 & C3 & C4 & C5). split; [auto|]. exists j, x. rewrite E3. split; [auto|]. split; [auto|]. split; [intros f k Y; eapply C4, E1, Y|]. intros k Y. rewrite F. apply C5, E2, Y.
  - intros w X. rewrite T. auto.
  - intros w X. rewrite T. apply E. lia.
Qed.

Lemma tok_settle s j x w : tok (settle j x s) w = tok s w.
Proof.
  unfold settle. destruct (nth_error (futs s) j) as [f|] eqn:N; [|auto]. destruct (out f) eqn:O; [auto|]. unfold tok. cbn [futs loop with_futs with_loop].
  rewrite filter_app_len. pose proof (filter_set (cb_is w) j f {| out := Some x; ended_cb := None |} (futs s) N eq_refl) as X. unfold cb_is at 3 in X.
  destruct (ended_cb f) as [v|]; cbn; [destruct (v =? w); cbn; lia|lia].
Qed.
Lemma settle_sets s j x : free (settle j x s) = free s /\ running (settle j x s) = running s /\ claimed (settle j x s) = claimed s /\ nw (settle j x s) = nw s.
Proof. unfold settle. destruct (nth_error (futs s) j) as [f|]; auto. destruct (out f); auto. Qed.
Lemma finished_settle s j x k : finished s k -> finished (settle j x s) k.
Proof. unfold finished, is_done. rewrite outcome_set. destruct (nth_error (futs s) k) as [f|]; [|discriminate]. destruct (k =? j); [|auto]. destruct (out f) eqn:O; [now rewrite O|discriminate]. Qed.
Lemma finished_settle_inv s j x k : finished (settle j x s) k -> finished s k \/ k = j.
Proof. unfold finished, is_done. rewrite outcome_set. destruct (nth_error (futs s) k) as [f|]; [|discriminate]. destruct (Nat.eqb_spec k j); auto. Qed.
Lemma dinv_settle s j x : dinv s -> (forall w f, ph (ws s w) <> PBusy f j) -> dinv (settle j x s).
Proof.
  intros [A B C D E] Nb. destruct (settle_sets s j x) as (F1 & F2 & F3 & F4).
  split; rewrite ?settle_ws, ?F1, ?F2, ?F3, ?F4.
  - intros w f k P X. apply finished_settle_inv in X. destruct X as [X| ->]; [eapply A; eauto|eapply Nb, P].
  - intros w X. rewrite tok_settle. destruct (B w X) as (B1 & B2 & B3). split; [auto|]. split; [auto|]. intros k K. now apply finished_settle, B3.
  - intros w X. rewrite tok_settle. destruct (C w X) as (C1 & k & y & C2 & C3 & C4 & C5). split; [auto|]. exists k, (if k =? j then match out y with Some _ => y | None => {| out := Some x; ended_cb := None |} end else y).
    split; [rewrite outcome_set, C2; destruct (k =? j); [destruct (out y)|]; auto|]. split; [destruct (k =? j); [destruct (out y) eqn:O; [rewrite O; discriminate|discriminate]|auto]|].
    split; [auto|]. intros i Hi. destruct (C5 i Hi) as [Z| ->]; [left; now apply finished_settle|auto].
  - intros w X. rewrite tok_settle. auto.
  - intros w X. rewrite tok_settle. auto.
Qed.

Lemma jobs_put_none w s v : (ph (ws s w) = PWait -> queue (ws s w) = []) -> jobs (ws (put_to w INone s) v) = jobs (ws s v).
Proof. intros W. unfold put_to. cbn. unfold upd. destruct (Nat.eqb_spec v w) as [-> | X]; [|auto]. rewrite jobs_put by auto. cbn. apply app_nil_r. Qed.
Lemma dinv_put_none s w : (ph (ws s w) = PWait -> queue (ws s w) = []) -> dinv s -> dinv (put_to w INone s).
Proof. intros W. apply dinv_less; auto; [intros v f j; apply busy_put|intros v j; now rewrite jobs_put_none]. Qed.
Lemma dinv_release l : forall s, jinv s -> (forall w, In w l -> w < nw s) -> dinv s -> dinv (release_all l s).
Proof.
  induction l as [|w l IH]; intros s J L P; cbn [release_all]; [auto|]. apply IH; [apply jinv_put_none; auto; apply L; cbn; auto|intros v V; apply (L v); cbn; auto|apply dinv_put_none; [apply (j_wait _ J)|auto]].
Qed.
Lemma dinv_cancel s w : dinv s -> dinv (cancel_worker w s).
Proof.
  unfold cancel_worker. intros D. apply dinv_put_none; [cbn; rewrite upd_same; auto|]. revert D. apply dinv_less; auto; cbn [ws loop with_loop with_ws].
  - intros v f j. unfold upd. destruct (Nat.eqb_spec v w) as [-> | X]; auto.
  - intros v j. unfold upd. destruct (Nat.eqb_spec v w) as [-> | X]; [|auto]. rewrite jobs_In, jobs_In. intros (f & F). exists f. unfold held in *. cbn in F. rewrite app_nil_r in F. apply in_app_iff. auto.
  - intros v. rewrite filter_app_len. assert (X : filter (h_is v) (cancel_handles (queue (ws s w))) = []); [|rewrite X; cbn; lia].
    induction (queue (ws s w)) as [|[f j|] q IH]; cbn; auto.
Qed.
Lemma dinv_cancel_all l : forall s, dinv s -> dinv (cancel_all l s).
Proof. induction l as [|w l IH]; intros s D; cbn [cancel_all]; [auto|]. apply IH, dinv_cancel, D. Qed.

Lemma finished_app s x j : finished s j -> finished (with_futs s (futs s ++ [x])) j.
Proof. unfold finished, is_done. cbn. destruct (nth_error (futs s) j) as [f|] eqn:N; [|discriminate]. rewrite nth_error_app1 by (apply nth_error_Some; congruence). now rewrite N. Qed.
Lemma finished_app_inv s x j : j < length (futs s) -> finished (with_futs s (futs s ++ [x])) j -> finished s j.
Proof. intros L. unfold finished, is_done. cbn. now rewrite nth_error_app1. Qed.

Lemma jobs_new_job s w cb v j : (ph (ws s w) = PWait -> queue (ws s w) = []) -> In j (jobs (ws (new_job w cb s) v)) -> In j (jobs (ws s v)) \/ v = w /\ j = length (futs s).
Proof. intros W. unfold new_job, put_to. cbn. unfold upd. destruct (Nat.eqb_spec v w) as [-> | X]; [|auto]. rewrite jobs_put by auto. rewrite in_app_iff. cbn. intuition. Qed.

(** A job for a claimed executor, or one which is known no more. *)
Lemma dinv_new_job s w : jinv s -> ~ In w (free s) -> ~ In w (running s) -> dinv s -> dinv (new_job w None s).
Proof.
  intros J Nf Nr [A B C D E]. pose proof (j_wait _ J w) as W. set (y := {| out := None; ended_cb := None |}).
  assert (T : forall v, tok (new_job w None s) v = tok s v). { intros v. unfold tok, new_job. cbn [futs loop put_to with_ws with_futs]. rewrite filter_app_len. cbn. lia. }
  assert (Bs : forall v f j, ph (ws (new_job w None s) v) = PBusy f j -> ph (ws s v) = PBusy f j) by (intros v f j X; apply busy_put in X; exact X).
  split.
  - intros v f j P X. apply Bs in P. destruct (j_busy _ J v f j P) as (_ & L & _). eapply A; [exact P|]. eapply (finished_app_inv s y); [auto|exact X].
  - intros v V. rewrite T. destruct (B v V) as (B1 & B2 & B3). split; [auto|]. split; [intros f j P; eapply B2, Bs, P|]. intros j X. apply jobs_new_job in X; [|auto]. destruct X as [X|(-> & _)]; [exact (finished_app s y j (B3 j X))|contradiction].
  - intros v V. rewrite T. destruct (C v V) as (C1 & j & x & C2 & C3 & C4 & C5). split; [auto|]. exists j, x. split; [cbn; rewrite nth_error_app1; [auto|apply nth_error_Some; congruence]|]. split; [auto|]. split; [intros f k P; eapply C4, Bs, P|].
    intros k X. apply jobs_new_job in X; [|auto]. destruct X as [X|(-> & _)]; [|contradiction]. destruct (C5 k X) as [Y|Y]; [left; exact (finished_app s y k Y)|auto].
  - intros v V. rewrite T. auto.
  - intros v V. rewrite T. auto.
Qed.

Lemma dinv_work s w : jinv s -> dinv s -> dinv (work w s).
Proof.
  intros J Dv. pose proof Dv as [A B C D E]. unfold work.
  assert (W : forall k l, (forall f j, ph k = PBusy f j -> ph (ws s w) = PBusy f j) -> (forall j, In j (jobs k) -> In j (jobs (ws s w))) -> (forall v, filter (h_is v) l = []) -> dinv (with_loop (with_ws s (upd (ws s) w k)) (loop s ++ l))).
  { intros k l H1 H2 H3. apply (dinv_less s); auto; cbn [ws loop with_loop with_ws].
    - intros v f j. unfold upd. destruct (Nat.eqb_spec v w) as [-> | X]; auto.
    - intros v j. unfold upd. destruct (Nat.eqb_spec v w) as [-> | X]; auto.
    - intros v. rewrite filter_app_len, H3. cbn. lia. }
  assert (W0 : forall k, (forall f j, ph k = PBusy f j -> ph (ws s w) = PBusy f j) -> (forall j, In j (jobs k) -> In j (jobs (ws s w))) -> dinv (with_ws s (upd (ws s) w k))).
  { intros k H1 H2. pose proof (W k [] H1 H2 (fun _ => eq_refl)) as X. rewrite app_nil_r in X. exact X. }
  assert (Jq : forall j, In j (flat_map job_of (queue (ws s w))) -> In j (jobs (ws s w))) by (intros j X; rewrite jobs_app; apply in_app_iff; auto).
  destruct (ph (ws s w)) as [| |i|[f j|]|f j|] eqn:P.
  - assert (Eq : jobs (ws s w) = flat_map job_of (queue (ws s w))) by (rewrite jobs_app, P; reflexivity).
    destruct (stopped (ws s w)) eqn:St; [|destruct (queue (ws s w)) as [|i q] eqn:Q]; apply W0; try discriminate; intros j; rewrite Eq; auto.
  - exact Dv.
  - apply W0; try discriminate. intros j. unfold jobs, held. rewrite P. auto.
  - destruct (is_done j s) eqn:Dn; [apply W0; try discriminate; exact Jq|].
    assert (Hj : In (IPair f j) (held (ws s w))) by (unfold held; rewrite P; cbn; auto). destruct (j_diag _ J w f j Hj) as (-> & L & _). assert (Jj : In j (jobs (ws s w))) by (apply jobs_In; eauto).
    set (k := {| ph := PBusy j j; queue := queue (ws s w); stopped := stopped (ws s w) |}).
    assert (Jk : forall x, In x (jobs k) -> In x (jobs (ws s w))) by exact Jq.
    split; cbn [ws futs free running claimed nw with_log with_ws].
    + intros v g x. change (finished (with_log (with_ws s (upd (ws s) w k)) (j :: log s)) x) with (finished s x). unfold upd. destruct (Nat.eqb_spec v w) as [-> | X]; [|apply A]. cbn. intros X. injection X as <- <-. unfold finished. congruence.
    + intros v V. change (tok (with_log (with_ws s (upd (ws s) w k)) (j :: log s)) v) with (tok s v). destruct (B v V) as (B1 & B2 & B3). split; [auto|]. unfold upd. destruct (Nat.eqb_spec v w) as [-> | X]; [|auto]. specialize (B3 j Jj). unfold finished in B3. congruence.
    + intros v V. change (tok (with_log (with_ws s (upd (ws s) w k)) (j :: log s)) v) with (tok s v). destruct (C v V) as (C1 & i & x & C2 & C3 & C4 & C5). split; [auto|]. exists i, x. split; [auto|]. split; [auto|]. unfold upd. destruct (Nat.eqb_spec v w) as [-> | X]; [|auto].
      split; [|intros y Y; exact (C5 y (Jk y Y))]. cbn. intros g y Y. injection Y as <- <-. destruct (C5 j Jj) as [Z|Z]; [unfold finished in Z; congruence|auto].
    + exact D.
    + exact E.
  - apply W0; try discriminate. exact Jq.
  - apply W; try discriminate; [exact Jq|]. intros v. reflexivity.
  - exact Dv.
Qed.

(** What [calm] says about a step. *)
Definition calm_op (s : exec) (o : e_op) : Prop :=
  (forall j, o = ECancel j -> forall w f, w < nw s -> ph (ws s w) <> PBusy j f) /\
  (forall c w, o = ERelease c -> nth_error (claims s) c = Some (Some w) -> ph (ws s w) = PTop \/ ph (ws s w) = PWait).

Lemma busy_lt s w f j : jinv s -> ph (ws s w) = PBusy f j -> w < nw s /\ f = j.
Proof. intros J P. destruct (lt_dec w (nw s)) as [L|L]; [split; [auto|]; now apply (j_busy _ J) in P|]. rewrite (j_new _ J) in P by lia. discriminate. Qed.

Lemma dinv_step s o : base s -> dinv s -> calm_op s o -> dinv (fst (e_step s o)).
Proof.
  intros (J & S) Dv (K1 & K2). destruct o; cbn [e_step].
  - (* submit *)
    cbn [fst]. unfold submit. pose proof (get_free_ok s S) as G. destruct (get_free s) as [s1 w]. destruct G as (G1 & G2 & G3 & G4 & G5 & G6 & G7 & G8 & G9 & G10 & G11 & G12).
    set (s2 := with_sets s1 (free s1) (if mem w (running s1) then running s1 else w :: running s1) (claimed s1)).
    assert (F2 : futs s2 = futs s) by exact G2. change (dinv (put_to w (IPair (length (futs s)) (length (futs s))) (with_futs s2 (futs s ++ [{| out := None; ended_cb := Some w |}])))). rewrite <- F2. change (dinv (new_job w (Some w) s2)).
    assert (R2 : forall v, In v (running s2) -> v = w \/ In v (running s)).
    { intros v. cbn. rewrite G3. destruct (mem w (running s)) eqn:M; cbn; [auto|]. intuition congruence. }
    destruct Dv as [A B C D E].
    assert (Wf : tok s w = 0 /\ (forall f j, ph (ws s w) <> PBusy f j) /\ forall j, In j (jobs (ws s w)) -> finished s j).
    { destruct G12 as [(X & _)|(-> & _)]; [auto|]. split; [apply E; lia|]. rewrite (j_new _ J) by lia. split; [discriminate|intros j []]. }
    assert (Wr : ~ In w (running s) /\ ~ In w (claimed s)).
    { destruct G12 as [(X & _)|(-> & _)]; [apply (s_fr _ S w X)|]. split; intros X; [assert (nw s < nw s) by (apply (s_lt _ S); right; left; auto)|assert (nw s < nw s) by (apply (s_lt _ S); right; right; auto)]; lia. }
    assert (W2 : ph (ws s2 w) = PWait -> queue (ws s2 w) = []) by (cbn; rewrite G1; apply (j_wait _ J)).
    set (n := new_job w (Some w) s2).
    assert (T : forall v, tok n v = tok s v + (if w =? v then 1 else 0)). { intros v. unfold tok, n, new_job. cbn [futs loop put_to with_ws with_futs s2 with_sets]. rewrite G2, G6, filter_app_len. cbn. destruct (w =? v); cbn; lia. }
    assert (Bs : forall v f j, ph (ws n v) = PBusy f j -> ph (ws s v) = PBusy f j). { intros v f j X. apply busy_put in X. cbn in X. rewrite G1 in X. exact X. }
    assert (Jb : forall v j, In j (jobs (ws n v)) -> In j (jobs (ws s v)) \/ v = w /\ j = length (futs s)). { intros v j X. apply jobs_new_job in X; [|auto]. rewrite F2 in X. cbn in X. rewrite G1 in X. exact X. }
    assert (Fn : forall j, finished s j -> finished n j). { intros j X. apply (finished_app s2 {| out := None; ended_cb := Some w |} j). unfold finished, is_done in *. rewrite F2. exact X. }
    assert (Nth : forall j x, nth_error (futs s) j = Some x -> nth_error (futs n) j = Some x). { intros j x X. unfold n, new_job. cbn. rewrite G2, nth_error_app1; [auto|apply nth_error_Some; congruence]. }
    split.
    + intros v f j P X. apply Bs in P. destruct (j_busy _ J v f j P) as (_ & L & _). eapply A; [exact P|]. assert (Y : finished s2 j) by (eapply (finished_app_inv s2 {| out := None; ended_cb := Some w |}); [rewrite F2; auto|exact X]). unfold finished, is_done in *. rewrite F2 in Y. exact Y.
    + intros v V. cbn in V. apply G9 in V. destruct V as (V & Vw). rewrite T. destruct (Nat.eqb_spec w v) as [-> | X]; [congruence|]. destruct (B v V) as (B1 & B2 & B3). split; [lia|]. split; [intros f j P; eapply B2, Bs, P|]. intros j Y. apply Jb in Y. destruct Y as [Y|(-> & _)]; [auto|congruence].
    + intros v V. apply R2 in V. rewrite T. destruct (Nat.eqb_spec w v) as [<- | X].
      * destruct Wf as (W3 & W4 & W5). split; [lia|]. exists (length (futs s)), {| out := None; ended_cb := Some w |}. split; [unfold n, new_job; cbn; rewrite G2; apply nth_last|]. split; [auto|]. split; [intros f k P; apply Bs in P; destruct (W4 _ _ P)|].
        intros k Y. apply Jb in Y. destruct Y as [Y|(_ & Y)]; [left; apply Fn; auto|auto].
      * destruct V as [V|V]; [congruence|]. destruct (C v V) as (C1 & j & x & C2 & C3 & C4 & C5). split; [lia|]. exists j, x. split; [auto|]. split; [auto|]. split; [intros f k P; eapply C4, Bs, P|]. intros k Y. apply Jb in Y. destruct Y as [Y|(-> & _)]; [|congruence]. destruct (C5 k Y); auto.
    + intros v V. cbn in V. rewrite G4 in V. rewrite T. destruct (Nat.eqb_spec w v) as [-> | X]; [tauto|]. rewrite (D v V). lia.
    + intros v V. change (nw n) with (nw s1) in V. rewrite T. destruct (Nat.eqb_spec w v) as [-> | X]; [lia|]. rewrite E by lia. lia.
  - cbn [fst]. apply dinv_settle; [auto|]. intros w f P. destruct (busy_lt _ _ _ _ J P) as (L & ->). exact (K1 j eq_refl w j L P).
  - cbn [fst]. destruct (w <? nw s); [|auto]. now apply dinv_work.
  - cbn [fst]. destruct (loop s) as [|h r] eqn:R; [auto|].
    destruct h as [j f|j|j w|w]; cbn [run_handle].
    + apply dinv_settle; [|cbn; intros w g; apply (j_set _ J j f); rewrite R; cbn; auto]. revert Dv. apply dinv_less; auto. intros w. rewrite R. reflexivity.
    + apply dinv_settle; [|cbn; intros w g; apply (j_can _ J j); rewrite R; cbn; auto]. revert Dv. apply dinv_less; auto. intros w. rewrite R. reflexivity.
    + revert Dv. apply dinv_less; auto. intros v. rewrite R. cbn. rewrite filter_app_len. cbn. destruct (w =? v); cbn; lia.
    + destruct Dv as [A B C D E].
      assert (T : forall f rr c v, tok (with_sets (with_loop s r) f rr c) v + (if w =? v then 1 else 0) = tok s v). { intros. unfold tok. cbn. rewrite R. cbn. destruct (w =? v); cbn; lia. }
      assert (T0 : forall v, tok (with_loop s r) v + (if w =? v then 1 else 0) = tok s v). { intros. unfold tok. cbn. rewrite R. cbn. destruct (w =? v); cbn; lia. }
      unfold execution_ended. destruct (mem w (running (with_loop s r))) eqn:M.
      * cbn in M. change (mem w (running s) = true) in M. apply mem_In in M. destruct (C w M) as (C1 & j & x & C2 & C3 & C4 & C5).
        assert (Fj : finished s j).
        { unfold finished, is_done. rewrite C2. destruct (out x) eqn:O; [auto|]. exfalso. specialize (C3 eq_refl). unfold tok in C1. assert (X1 : 1 <= length (filter (cb_is w) (futs s))) by (apply (filter_pos _ x); [eapply nth_error_In, C2|unfold cb_is; rewrite C3; apply Nat.eqb_refl]).
          assert (X2 : 1 <= length (filter (h_is w) (loop s))) by (apply (filter_pos _ (LEnded w)); [rewrite R; cbn; auto|cbn; apply Nat.eqb_refl]). lia. }
        cbn [free running claimed with_loop]. split; cbn [ws futs free running claimed nw with_sets with_loop].
        -- exact A.
        -- intros v V. specialize (T (free s ++ [w]) (del w (running s)) (claimed s) v). apply in_app_iff in V. destruct V as [V|[<- | []]].
           ++ destruct (B v V) as (B1 & B2 & B3). split; [lia|]. split; [auto|exact B3].
           ++ rewrite Nat.eqb_refl in T. split; [lia|]. split; [intros f k P; pose proof (C4 f k P); subst k; exact (A w f j P Fj)|]. intros k X. destruct (C5 k X) as [Y| ->]; [exact Y|exact Fj].
        -- intros v V. specialize (T (free s ++ [w]) (del w (running s)) (claimed s) v). apply del_In in V. destruct V as (V1 & V2). apply Nat.eqb_neq in V1. rewrite Nat.eqb_sym in V1. rewrite V1 in T. destruct (C v V2) as (X & Y). split; [lia|exact Y].
        -- intros v V. specialize (T (free s ++ [w]) (del w (running s)) (claimed s) v). rewrite (D v V) in T. lia.
        -- intros v V. specialize (T (free s ++ [w]) (del w (running s)) (claimed s) v). rewrite (E v V) in T. lia.
      * apply mem_no in M. cbn [running with_loop] in M. split; cbn [ws futs free running claimed nw with_loop].
        -- exact A.
        -- intros v V. specialize (T0 v). destruct (B v V) as (B1 & B2 & B3). split; [lia|]. split; [auto|exact B3].
        -- intros v V. specialize (T0 v). destruct (Nat.eqb_spec w v) as [-> | X]; [contradiction|]. destruct (C v V) as (Y & Z). split; [lia|exact Z].
        -- intros v V. specialize (T0 v). rewrite (D v V) in T0. lia.
        -- intros v V. specialize (T0 v). rewrite (E v V) in T0. lia.
  - (* claim *)
    cbn [fst]. unfold claim. pose proof (get_free_ok s S) as G. destruct (get_free s) as [s1 w]. destruct G as (G1 & G2 & G3 & G4 & G5 & G6 & G7 & G8 & G9 & G10 & G11 & G12).
    set (s2 := with_claims _ _). destruct Dv as [A B C D E].
    assert (T : forall v, tok s2 v = tok s v) by (intros v; unfold tok; cbn; rewrite G2, G6; auto).
    assert (Fn : forall j, finished s2 j <-> finished s j) by (intros j; unfold finished, is_done; cbn; rewrite G2; tauto).
    split; cbn [ws futs free running claimed nw s2 with_claims with_sets]; rewrite ?G1, ?G2, ?G3, ?G4.
    + intros v f j P. rewrite Fn. eapply A, P.
    + intros v V. apply G9 in V. destruct V as (V & _). rewrite T. destruct (B v V) as (B1 & B2 & B3). split; [auto|]. split; [auto|]. intros j X. apply Fn; auto.
    + intros v V. rewrite T. destruct (C v V) as (C1 & j & x & C2 & C3 & C4 & C5). split; [auto|]. exists j, x. split; [auto|]. split; [auto|]. split; [auto|]. intros k X. rewrite Fn. auto.
    + intros v V. rewrite T. assert (X : v = w \/ In v (claimed s)). { destruct (mem w (claimed s)); [auto|]. destruct V; auto. }
      destruct X as [-> | X]; [|auto]. destruct G12 as [(X & _)|(-> & _)]; [apply B; auto|apply E; lia].
    + intros v V. rewrite T. apply E. lia.
  - unfold claim_execute. destruct (nth_error (claims s) c) as [[w|]|] eqn:N; cbn [fst]; auto. destruct (s_cl _ S c w N) as (_ & X & Y). now apply (dinv_new_job s w).
  - unfold claim_release. destruct (nth_error (claims s) c) as [[w|]|] eqn:N; cbn [fst]; auto. destruct (queue (ws s w)) eqn:Q; cbn [fst]; auto.
    specialize (K2 c w eq_refl N). destruct (mem w (claimed s)) eqn:M.
    + apply mem_In in M. destruct Dv as [A B C D E]. split; cbn [ws futs free running claimed nw with_claims with_sets].
      * exact A.
      * intros v V. apply in_app_iff in V. destruct V as [V|[<- | []]]; [exact (B v V)|]. split; [exact (D w M)|]. split; [intros f j P; destruct K2; congruence|]. intros j X. unfold jobs, held in X. rewrite Q in X. destruct K2 as [K2|K2]; rewrite K2 in X; destruct X.
      * exact C.
      * intros v V. apply del_In in V. apply (D v). tauto.
      * exact E.
    + revert Dv. apply dinv_less; auto.
  - cbn [fst]. destruct (rev (free s)) as [|w r] eqn:R; [auto|]. apply dinv_put_none; [apply (j_wait _ J)|]. revert Dv. apply dinv_less; auto. cbn. intros v V. apply in_rev in V. apply in_rev. rewrite R. cbn. auto.
  - cbn [fst]. rewrite !release_sets.
    assert (J0 : jinv (with_sets s [] [] [])) by (apply (jinv_same s); auto). assert (D0 : dinv (with_sets s [] [] [])) by (apply (dinv_less s); auto; intros w []).
    assert (L0 : forall w, In w (rev (free s)) -> w < nw (with_sets s [] [] [])) by (intros w V; apply in_rev in V; apply (s_lt _ S); left; auto).
    pose proof (jinv_release _ _ J0 L0) as J1. pose proof (dinv_release _ _ J0 L0 D0) as D1. set (s1 := release_all (rev (free s)) (with_sets s [] [] [])) in *.
    assert (N1 : nw s1 = nw s) by (apply (release_all_fields (rev (free s)) (with_sets s [] [] []))).
    assert (L1 : forall w, In w (running s) -> w < nw s1) by (intros w V; rewrite N1; apply (s_lt _ S); right; left; auto).
    apply dinv_release; [apply jinv_release; auto| |apply dinv_release; auto]. intros w V. destruct (release_all_fields (running s) s1) as (-> & _). rewrite N1. apply (s_lt _ S). right. right. auto.
  - cbn [fst]. rewrite !cancel_sets, !release_sets.
    assert (J0 : jinv (with_sets s [] [] [])) by (apply (jinv_same s); auto). assert (D0 : dinv (with_sets s [] [] [])) by (apply (dinv_less s); auto; intros w []).
    assert (L0 : forall w, In w (rev (free s)) -> w < nw (with_sets s [] [] [])) by (intros w V; apply in_rev in V; apply (s_lt _ S); left; auto).
    apply dinv_cancel_all, dinv_cancel_all, dinv_release; auto.
Qed.

Lemma calm_init os o : calm (os ++ [o]) -> calm os.
Proof.
  intros (H1 & H2). split.
  - intros p q j ->. apply (H1 p (q ++ [o])). rewrite <- app_assoc. reflexivity.
  - intros p q c w ->. apply (H2 p (q ++ [o])). rewrite <- app_assoc. reflexivity.
Qed.
Lemma dinv_after os : calm os -> dinv (e_after os).
Proof.
  induction os as [|o os IH] using rev_ind; intros K.
  - split; try (intros w []); try discriminate; reflexivity.
  - rewrite after_snoc. apply dinv_step; [apply base_after|apply IH; eapply calm_init, K|]. destruct K as (K1 & K2). split.
    + intros j -> w f L P. apply (K1 os [] j eq_refl). exists w, f. auto.
    + intros c w ->. apply (K2 os []). reflexivity.
Qed.
Theorem free_idle os w : calm os -> is_free os w -> ~ busy os w /\ forall j, In j (jobs (ws (e_after os) w)) -> outcome_of os j <> None.
Proof.
  intros K F. destruct (d_free _ (dinv_after os K) w F) as (_ & A & B). split; [intros (f & j & P); eapply A, P|]. intros j J X. specialize (B j J). unfold finished, is_done in B. unfold outcome_of in X. destruct (nth_error _ j) as [y|]; [|discriminate]. rewrite X in B. discriminate.
Qed.
Theorem free_idle_user os w : calm os -> is_free os w -> ~ busy os w /\ forall j, waits_for os w j -> outcome_of os j <> None.
Proof.
  intros K F. destruct (free_idle os w K F) as (A & B). split; [exact A|]. intros j (f & X). apply B, jobs_In. exists f. unfold held. apply in_app_iff. destruct X as [X|[-> | ->]]; cbn; auto.
Qed.

(** ** C100: claimed executors *)
Lemma claims_len os : length (claims (e_after os)) = length (filter is_claim os).
Proof.
  induction os as [|o os IH] using rev_ind; [reflexivity|]. rewrite after_snoc, filter_app, app_length, <- IH. generalize (e_after os) as s. intros s. destruct o; cbn [e_step is_claim filter length]; rewrite ?Nat.add_0_r.
  - cbn [fst]. unfold submit, get_free. destruct (rev (free s)); auto.
  - cbn [fst]. unfold settle. destruct (nth_error (futs s) j) as [f|]; auto. destruct (out f); auto.
  - cbn [fst]. destruct (w <? nw s); auto. unfold work. destruct (ph (ws s w)) as [| |i|[f j|]|f j|]; auto; [destruct (stopped _); auto; destruct (queue _); auto|destruct (is_done j s); auto].
  - cbn [fst]. destruct (loop s) as [|[] r]; auto; cbn [run_handle]; unfold settle, execution_ended; cbn [futs with_loop]; auto.
    + destruct (nth_error (futs s) future) as [f|]; auto. destruct (out f); auto.
    + destruct (nth_error (futs s) future) as [f|]; auto. destruct (out f); auto.
    + destruct (mem _ _); auto.
  - cbn [fst]. unfold claim. destruct (get_free s). cbn. apply app_length.
  - unfold claim_execute. destruct (nth_error (claims s) c) as [[w|]|]; auto.
  - unfold claim_release. destruct (nth_error (claims s) c) as [[w|]|]; auto. destruct (queue _); auto. destruct (mem _ _); cbn; apply set_nth_length.
  - cbn [fst]. destruct (rev (free s)); auto.
  - cbn [fst]. rewrite !release_sets. repeat match goal with |- context [claims (release_all ?l ?t)] => destruct (release_all_fields l t) as (_ & _ & _ & _ & _ & -> & _) end. auto.
  - cbn [fst]. rewrite !cancel_sets, !release_sets. repeat match goal with |- context [claims (cancel_all ?l ?t)] => destruct (cancel_all_fields l t) as (_ & _ & _ & _ & _ & -> & _) end. repeat match goal with |- context [claims (release_all ?l ?t)] => destruct (release_all_fields l t) as (_ & _ & _ & _ & _ & -> & _) end. auto.
Qed.
(** A claim changes only by being made and being released. *)
Lemma claims_step s o c x : nth_error (claims s) c = Some x -> nth_error (claims (fst (e_step s o))) c = Some x \/ o = ERelease c /\ nth_error (claims (fst (e_step s o))) c = Some None.
Proof.
  intros N. assert (L : c < length (claims s)) by (apply nth_error_Some; congruence). destruct o; cbn [e_step].
  - left. cbn [fst]. unfold submit, get_free. destruct (rev (free s)); auto.
  - left. cbn [fst]. unfold settle. destruct (nth_error (futs s) j) as [f|]; auto. destruct (out f); auto.
  - left. cbn [fst]. destruct (w <? nw s); auto. unfold work. destruct (ph (ws s w)) as [| |i|[f j|]|f j|]; auto; [destruct (stopped _); auto; destruct (queue _); auto|destruct (is_done j s); auto].
  - left. cbn [fst]. destruct (loop s) as [|[] r]; auto; cbn [run_handle]; unfold settle, execution_ended; cbn [futs with_loop]; auto.
    + destruct (nth_error (futs s) future) as [f|]; auto. destruct (out f); auto.
    + destruct (nth_error (futs s) future) as [f|]; auto. destruct (out f); auto.
    + destruct (mem _ _); auto.
  - left. cbn [fst]. unfold claim. destruct (get_free s). cbn. now rewrite nth_error_app1.
  - left. unfold claim_execute. destruct (nth_error (claims s) c0) as [[w|]|]; auto.
  - unfold claim_release. destruct (nth_error (claims s) c0) as [[w|]|]; auto. destruct (queue _); auto. cbn [fst].
    assert (X : forall t, claims t = set_nth c0 None (claims s) -> nth_error (claims t) c = Some x \/ ERelease c0 = ERelease c /\ nth_error (claims t) c = Some None).
    { intros t ->. destruct (Nat.eq_dec c0 c) as [-> | D]; [right; split; [auto|now apply nth_set_same]|left; now rewrite nth_set_other]. }
    destruct (mem _ _); apply X; reflexivity.
  - left. cbn [fst]. destruct (rev (free s)); auto.
  - left. cbn [fst]. rewrite !release_sets. repeat match goal with |- context [claims (release_all ?l ?t)] => destruct (release_all_fields l t) as (_ & _ & _ & _ & _ & -> & _) end. auto.
  - left. cbn [fst]. rewrite !cancel_sets, !release_sets. repeat match goal with |- context [claims (cancel_all ?l ?t)] => destruct (cancel_all_fields l t) as (_ & _ & _ & _ & _ & -> & _) end. repeat match goal with |- context [claims (release_all ?l ?t)] => destruct (release_all_fields l t) as (_ & _ & _ & _ & _ & -> & _) end. auto.
Qed.

Theorem refused os c q : claim_made os c -> snd (e_step (e_after os) (ERelease c)) = EoNone -> snd (e_step (e_after (os ++ ERelease c :: q)) (EExecute c)) = EoRuntimeError.
Proof.
  intros M R. replace (os ++ ERelease c :: q) with ((os ++ [ERelease c]) ++ q) by (rewrite <- app_assoc; reflexivity).
  assert (X : nth_error (claims (e_after (os ++ [ERelease c]))) c = Some None).
  { rewrite after_snoc. unfold claim_made in M. rewrite <- claims_len in M. revert R. cbn [e_step]. unfold claim_release. destruct (nth_error (claims (e_after os)) c) as [[w|]|] eqn:N; cbn [fst snd]; auto.
    - destruct (queue _); [|discriminate]. intros _. cbn [fst]. destruct (mem _ _); cbn; now apply nth_set_same.
    - apply nth_error_None in N. lia. }
  assert (Y : nth_error (claims (e_after ((os ++ [ERelease c]) ++ q))) c = Some None).
  { induction q as [|o q IH] using rev_ind; [now rewrite app_nil_r|]. rewrite app_assoc, after_snoc. destruct (claims_step _ o _ _ IH) as [Z|(_ & Z)]; auto. }
  cbn [e_step]. unfold claim_execute. now rewrite Y.
Qed.

Definition infix (a l : list nat) : Prop := exists x y, l = x ++ a ++ y.
Lemma infix_refl l : infix l l. Proof. exists [], []. cbn. now rewrite app_nil_r. Qed.
Lemma infix_trans a b c : infix a b -> infix b c -> infix a c.
Proof. intros (x & y & ->) (x' & y' & ->). exists (x' ++ x), (y ++ y'). now rewrite !app_assoc. Qed.
Lemma infix_In a l x : infix a l -> In x a -> In x l.
Proof. intros (p & q & ->) H. rewrite !in_app_iff. auto. Qed.

Lemma jobs_release l : forall s v, jinv s -> (forall w, In w l -> w < nw s) -> jobs (ws (release_all l s) v) = jobs (ws s v).
Proof.
  induction l as [|w l IH]; intros s v J L; cbn [release_all]; [auto|]. rewrite IH; [apply jobs_put_none, (j_wait _ J)|apply jinv_put_none; auto; apply L; cbn; auto|intros u U; apply (L u); cbn; auto].
Qed.
Lemma jobs_cancel w s v : infix (jobs (ws (cancel_worker w s) v)) (jobs (ws s v)).
Proof.
  unfold cancel_worker. rewrite jobs_put_none by (cbn; rewrite upd_same; auto). cbn. unfold upd. destruct (Nat.eqb_spec v w) as [-> | X]; [|apply infix_refl].
  rewrite (jobs_app (ws s w)). unfold jobs, held. cbn. rewrite app_nil_r. exists [], (flat_map job_of (queue (ws s w))). reflexivity.
Qed.
Lemma jobs_cancel_all l : forall s v, infix (jobs (ws (cancel_all l s) v)) (jobs (ws s v)).
Proof. induction l as [|w l IH]; intros s v; cbn [cancel_all]; [apply infix_refl|]. eapply infix_trans; [apply IH|apply jobs_cancel]. Qed.

Lemma jobs_work w s v : infix (jobs (ws (work w s) v)) (jobs (ws s v)).
Proof.
  unfold work. assert (U : forall k, infix (jobs k) (jobs (ws s w)) -> infix (jobs (upd (ws s) w k v)) (jobs (ws s v))).
  { intros k X. unfold upd. destruct (Nat.eqb_spec v w) as [-> | Y]; [auto|apply infix_refl]. }
  assert (Ap : forall a b, infix b (a ++ b)) by (intros a b; exists a, []; now rewrite app_nil_r).
  destruct (ph (ws s w)) as [| |i|[f j|]|f j|] eqn:P; try apply infix_refl.
  - destruct (stopped (ws s w)); [|destruct (queue (ws s w)) as [|i q] eqn:Q]; apply U; unfold jobs, held; cbn [ph queue]; rewrite P, ?Q; apply infix_refl.
  - apply U. unfold jobs, held. rewrite P. apply infix_refl.
  - destruct (is_done j s); apply U; rewrite (jobs_app (ws s w)), P; apply (Ap [j]).
  - apply U. rewrite (jobs_app (ws s w)), P. apply (Ap []).
  - apply U. rewrite (jobs_app (ws s w)), P. apply (Ap []).
Qed.

Lemma jobs_step s o v : base s -> infix (jobs (ws (fst (e_step s o)) v)) (jobs (ws s v)) \/
  jobs (ws (fst (e_step s o)) v) = jobs (ws s v) ++ [length (futs s)] /\ (o = ESubmit \/ exists c, o = EExecute c /\ nth_error (claims s) c = Some (Some v)).
Proof.
  intros (J & S). destruct o; cbn [e_step].
  - cbn [fst]. unfold submit. pose proof (get_free_ws s) as G. destruct (get_free s) as [s1 w]. cbn in *. unfold upd. rewrite G. destruct (Nat.eqb_spec v w) as [-> | X]; [|left; apply infix_refl].
    right. split; [|auto]. apply jobs_put, (j_wait _ J).
  - left. cbn [fst]. rewrite settle_ws. apply infix_refl.
  - left. cbn [fst]. destruct (w <? nw s); [apply jobs_work|apply infix_refl].
  - left. cbn [fst]. destruct (loop s) as [|[] r]; cbn [run_handle]; rewrite ?settle_ws; try apply infix_refl. unfold execution_ended. destruct (mem _ _); apply infix_refl.
  - left. cbn [fst]. unfold claim. pose proof (get_free_ws s) as G. destruct (get_free s) as [s1 w]. cbn in *. rewrite G. apply infix_refl.
  - unfold claim_execute. destruct (nth_error (claims s) c) as [[w|]|] eqn:N; cbn [fst]; try (left; apply infix_refl). unfold put_to. cbn [ws with_ws with_futs]. unfold upd. destruct (Nat.eqb_spec v w) as [-> | X]; [|left; apply infix_refl].
    right. split; [|eauto]. apply jobs_put, (j_wait _ J).
  - left. unfold claim_release. destruct (nth_error (claims s) c) as [[w|]|]; try apply infix_refl. destruct (queue _); [|apply infix_refl]. cbn [fst]. destruct (mem _ _); apply infix_refl.
  - left. cbn [fst]. destruct (rev (free s)) as [|w r]; [apply infix_refl|]. rewrite jobs_put_none by apply (j_wait _ J). apply infix_refl.
  - left. cbn [fst]. rewrite !release_sets.
    assert (J0 : jinv (with_sets s [] [] [])) by (apply (jinv_same s); auto).
    assert (L0 : forall w, In w (rev (free s)) -> w < nw (with_sets s [] [] [])) by (intros w V; apply in_rev in V; apply (s_lt _ S); left; auto).
    pose proof (jinv_release _ _ J0 L0) as J1. pose proof (jobs_release _ _ v J0 L0) as Q1. set (s1 := release_all (rev (free s)) (with_sets s [] [] [])) in *.
    assert (N1 : nw s1 = nw s) by (apply (release_all_fields (rev (free s)) (with_sets s [] [] []))).
    assert (L1 : forall w, In w (running s) -> w < nw s1) by (intros w V; rewrite N1; apply (s_lt _ S); right; left; auto).
    rewrite jobs_release; [rewrite jobs_release; auto; rewrite Q1; apply infix_refl|apply jinv_release; auto|]. intros w V. destruct (release_all_fields (running s) s1) as (-> & _). rewrite N1. apply (s_lt _ S). right. right. auto.
  - left. cbn [fst]. rewrite !cancel_sets, !release_sets.
    assert (J0 : jinv (with_sets s [] [] [])) by (apply (jinv_same s); auto).
    assert (L0 : forall w, In w (rev (free s)) -> w < nw (with_sets s [] [] [])) by (intros w V; apply in_rev in V; apply (s_lt _ S); left; auto).
    eapply infix_trans; [apply jobs_cancel_all|]. eapply infix_trans; [apply jobs_cancel_all|]. rewrite jobs_release by auto. apply infix_refl.
Qed.

Lemma given_snoc os o c j : given (os ++ [o]) c j <-> given os c j \/ o = EExecute c /\ j = length (futs (e_after os)) /\ exists w, nth_error (claims (e_after os)) c = Some (Some w).
Proof.
  split.
  - intros (p & q & E & X). apply snoc_split in E. destruct E as [(-> & -> & ->)|(r & -> & ->)].
    + right. split; [auto|]. cbn [e_step] in X. unfold claim_execute in X. destruct (nth_error (claims (e_after p)) c) as [[w|]|]; cbn [snd] in X; try discriminate. injection X as <-. eauto.
    + left. exists p, r. auto.
  - intros [(p & q & -> & X)|(-> & -> & w & N)].
    + exists p, (q ++ [o]). rewrite <- app_assoc. auto.
    + exists os, []. split; [auto|]. cbn [e_step]. unfold claim_execute. now rewrite N.
Qed.

Fixpoint asc (l : list nat) : Prop := match l with [] => True | x :: r => (forall y, In y r -> x < y) /\ asc r end.
Lemma asc_app a b : asc (a ++ b) -> asc a /\ asc b.
Proof. induction a as [|x a IH]; cbn; [auto|]. intros (H & R). destruct (IH R). repeat split; auto. intros y Y. apply H, in_app_iff. auto. Qed.
Lemma asc_infix a l : infix a l -> asc l -> asc a.
Proof. intros (x & y & ->) H. apply asc_app in H. destruct H as (_ & H). now apply asc_app in H. Qed.
Lemma asc_snoc l n : asc l -> (forall y, In y l -> y < n) -> asc (l ++ [n]).
Proof. induction l as [|x l IH]; cbn; intros A B; [split; [intros y []|auto]|]. destruct A as (A & R). split; [|apply IH; auto]. intros y Y. apply in_app_iff in Y. destruct Y as [Y|[<- | []]]; auto. Qed.

Record oinv (os : list e_op) : Prop := {
  o_asc : forall w, asc (jobs (ws (e_after os) w));
  o_lt : forall c j, given os c j -> j < length (futs (e_after os)) /\ c < length (claims (e_after os));
  o_at : forall c j v w, given os c j -> In j (jobs (ws (e_after os) v)) -> nth_error (claims (e_after os)) c = Some (Some w) -> v = w;
  o_same : forall c i j v w, given os c i -> given os c j -> In i (jobs (ws (e_after os) v)) -> In j (jobs (ws (e_after os) w)) -> v = w;
  o_log : forall c i j v, given os c i -> given os c j -> i < j -> In j (log (e_after os)) -> ~ In i (jobs (ws (e_after os) v));
  o_ord : forall c i j a b, given os c i -> given os c j -> i < j -> log (e_after os) = a ++ i :: b -> ~ In j b
}.

(** The job which starts is the first of the worker. *)
Lemma start_head s w j : jinv s -> log (work w s) = j :: log s -> exists r, jobs (ws s w) = j :: r.
Proof.
  intros J. assert (Nc : forall l : list nat, l <> j :: l). { intros l X. assert (Y : length l = length (j :: l)) by (now rewrite <- X). cbn in Y. lia. }
  unfold work. destruct (ph (ws s w)) as [| |i|[f k|]|f k|] eqn:P; try (intros X; destruct (Nc _ X)).
  - destruct (stopped _); [|destruct (queue _)]; intros X; destruct (Nc _ X).
  - destruct (is_done k s); [intros X; destruct (Nc _ X)|]. cbn. intros X. injection X as ->. assert (In (IPair j k) (held (ws s w))) as H by (unfold held; rewrite P; cbn; auto). destruct (j_diag _ J w j k H) as (-> & _). exists (flat_map job_of (queue (ws s w))). rewrite jobs_app, P. reflexivity.
Qed.

Lemma oinv_after os : oinv os.
Proof.
  induction os as [|o os IH] using rev_ind.
  - assert (N : forall c j, ~ given [] c j) by (intros c j (p & q & E & _); destruct p; discriminate). split; try (intros; exfalso; eapply N; eauto; fail). intros w. exact (Logic.I).
  - destruct IH as [A B C D E F]. destruct (base_after os) as (J & S). pose proof (base_step _ o (conj J S)) as (J1 & S1). rewrite <- after_snoc in J1, S1.
    set (s := e_after os) in *. assert (St : e_after (os ++ [o]) = fst (e_step s o)) by apply after_snoc.
    assert (Old : forall v j, In j (jobs (ws s v)) -> j < length (futs s)). { intros v j X. apply jobs_In in X. destruct X as (f & X). apply (j_diag _ J) in X. tauto. }
    assert (Js : forall v j, In j (jobs (ws (e_after (os ++ [o])) v)) -> In j (jobs (ws s v)) \/ j = length (futs s) /\ (o = ESubmit \/ exists c, o = EExecute c /\ nth_error (claims s) c = Some (Some v))).
    { intros v j X. rewrite St in X. destruct (jobs_step s o v (conj J S)) as [Y|(Y & Z)]; [left; eapply infix_In; eauto|]. rewrite Y in X. apply in_app_iff in X. destruct X as [X|[<- | []]]; auto. }
    assert (Fl : length (futs s) <= length (futs (e_after (os ++ [o])))).
    { destruct (le_lt_dec (length (futs s)) (length (futs (e_after (os ++ [o]))))) as [X|X]; [auto|]. exfalso. assert (Y : submitted os (pred (length (futs s)))) by (apply submitted_lt; fold s; lia). assert (Z : submitted (os ++ [o]) (pred (length (futs s)))) by (unfold submitted in *; rewrite outs_snoc; apply in_app_iff; auto). apply submitted_lt in Z. lia. }
    assert (Cl : length (claims s) <= length (claims (e_after (os ++ [o])))) by (unfold s; rewrite !claims_len, filter_app, app_length; lia).
    assert (Cn : forall c w, nth_error (claims (e_after (os ++ [o]))) c = Some (Some w) -> c < length (claims s) -> nth_error (claims s) c = Some (Some w)).
    { intros c w X Y. destruct (nth_error (claims s) c) as [x|] eqn:N; [|apply nth_error_None in N; lia]. rewrite St in X. destruct (claims_step s o c x N) as [Z|(_ & Z)]; congruence. }
    assert (Nn : forall c j, given os c j -> j <> length (futs s)) by (intros c j X Y; apply B in X; lia).
    split.
    + intros w. rewrite St. destruct (jobs_step s o w (conj J S)) as [Y|(Y & Z)]; [eapply asc_infix; [exact Y|apply A]|]. rewrite Y. apply asc_snoc; [apply A|apply Old].
    + intros c j G. apply given_snoc in G. destruct G as [G|(-> & -> & w & N)]; [apply B in G; split; lia|]. fold s in N |- *. split; [|assert (c < length (claims s)) by (apply nth_error_Some; congruence); lia].
      apply submitted_lt. unfold submitted. rewrite outs_snoc. apply in_app_iff. right. fold s. cbn [e_step]. unfold claim_execute. rewrite N. cbn. auto.
    + intros c j v w G X N. apply given_snoc in G. fold s in G. apply Js in X. destruct G as [G|(-> & -> & w' & N')].
      * apply Cn in N; [|apply B in G; lia]. destruct X as [X|(-> & _)]; [eapply C; eauto|]. now apply Nn in G.
      * apply Cn in N; [|apply nth_error_Some; congruence]. destruct X as [X|(_ & [X|(d & X & Y)])]; [apply Old in X; lia|discriminate|]. injection X as <-. congruence.
    + intros c i j v w Gi Gj Xi Xj. apply given_snoc in Gi, Gj. fold s in Gi, Gj. apply Js in Xi, Xj.
      destruct Gi as [Gi|(Eo & Ei & wi & Ni)], Gj as [Gj|(Eo' & Ej & wj & Nj)].
      * destruct Xi as [Xi|(Xi & _)]; [|now apply Nn in Gi]. destruct Xj as [Xj|(Xj & _)]; [|now apply Nn in Gj]. exact (D c i j v w Gi Gj Xi Xj).
      * destruct Xi as [Xi|(Xi & _)]; [|now apply Nn in Gi]. subst o j. destruct Xj as [Xj|(_ & [Xj|(d & Xj & Y)])]; [apply Old in Xj; lia|discriminate|]. injection Xj as <-. eapply C; eauto.
      * destruct Xj as [Xj|(Xj & _)]; [|now apply Nn in Gj]. subst o i. destruct Xi as [Xi|(_ & [Xi|(d & Xi & Y)])]; [apply Old in Xi; lia|discriminate|]. injection Xi as <-. symmetry. eapply C; eauto.
      * subst o i j. destruct Xi as [Xi|(_ & [Xi|(d & Xi & Y)])]; [apply Old in Xi; lia|discriminate|]. destruct Xj as [Xj|(_ & [Xj|(e & Xj & Z)])]; [apply Old in Xj; lia|discriminate|]. injection Xi as <-. injection Xj as <-. congruence.
    + intros c i j v Gi Gj L Lj Xi. assert (Gj' : j < length (futs (e_after (os ++ [o])))) by (apply (j_log _ J1); auto). apply given_snoc in Gi, Gj. fold s in Gi, Gj. apply Js in Xi.
      assert (Jl : j < length (futs s)). { rewrite St in Lj. destruct (log_step s o J) as [Y|(w & k & _ & Y & _ & _ & Z)]; rewrite Y in Lj; [now apply (j_log _ J)|]. destruct Lj as [-> | Lj]; [eapply Old; eauto|now apply (j_log _ J)]. }
      destruct Gj as [Gj|(_ & -> & _)]; [|lia]. destruct Gi as [Gi|(_ & -> & _)]; [|lia]. destruct Xi as [Xi|(-> & _)]; [|now apply Nn in Gi].
      rewrite St in Lj. destruct (log_step s o J) as [Y|(w & k & Eo & Y & Dn & Lw & Z)]; rewrite Y in Lj; [exact (E c i j v Gi Gj L Lj Xi)|]. destruct Lj as [-> | Lj]; [|exact (E c i j v Gi Gj L Lj Xi)].
      assert (v = w) by (eapply D; [exact Gi|exact Gj|exact Xi|exact Z]). subst v o. cbn [e_step fst] in Y. apply Nat.ltb_lt in Lw. rewrite Lw in Y. destruct (start_head s w j J Y) as (r & R). specialize (A w). fold s in A. rewrite R in A, Xi. destruct A as (A & _). destruct Xi as [-> | Xi]; [lia|]. apply A in Xi. lia.
    + intros c i j a b Gi Gj L Lg Xj. rewrite St in Lg. apply given_snoc in Gi, Gj. fold s in Gi, Gj.
      destruct (log_step s o J) as [Y|(w & k & Eo & Y & Dn & Lw & Z)]; rewrite Y in Lg.
      * assert (Li : In i (log s)) by (rewrite Lg; apply in_app_iff; cbn; auto). assert (Lj : In j (log s)) by (rewrite Lg; apply in_app_iff; cbn; auto). apply (j_log _ J) in Li, Lj.
        destruct Gj as [Gj|(_ & -> & _)]; [|lia]. destruct Gi as [Gi|(_ & -> & _)]; [|lia]. exact (F c i j a b Gi Gj L Lg Xj).
      * subst o. destruct Gi as [Gi|(Gi & _)]; [|discriminate]. destruct Gj as [Gj|(Gj & _)]; [|discriminate]. destruct a as [|x a]; cbn in Lg; injection Lg as -> Lg.
        -- subst b. exact (E c i j w Gi Gj L Xj Z).
        -- exact (F c i j a b Gi Gj L Lg Xj).
Qed.
Theorem ordered os c i j : given os c i -> given os c j -> i < j -> ~ started_before os j i.
Proof. intros Gi Gj L (a & b & E & X). eapply (o_ord _ (oinv_after os) c i j a b); eauto. Qed.

(** Who cancels. *)
Lemma lcancel_step s o j : In (LCancel j) (loop (fst (e_step s o))) -> In (LCancel j) (loop s) \/ o = ECancelAll.
Proof.
  assert (Set_ : forall i x t, In (LCancel j) (loop (settle i x t)) -> In (LCancel j) (loop t)).
  { intros i x t. unfold settle. destruct (nth_error (futs t) i) as [f|]; auto. destruct (out f); auto. cbn. rewrite in_app_iff. destruct (ended_cb f); cbn; intuition discriminate. }
  destruct o; cbn [e_step]; auto.
  - cbn [fst]. unfold submit, get_free. destruct (rev (free s)); auto.
  - cbn [fst]. intros X. left. eapply Set_, X.
  - cbn [fst]. destruct (w <? nw s); auto. unfold work. destruct (ph (ws s w)) as [| |i|[f k|]|f k|]; auto; [destruct (stopped _); auto; destruct (queue _); auto|destruct (is_done k s); auto|]. cbn. rewrite in_app_iff. cbn. intuition discriminate.
  - cbn [fst]. intros X. left. destruct (loop s) as [|h r] eqn:R; [rewrite R in X; exact X|]. cbn. right. destruct h; cbn [run_handle] in X; try (apply Set_ in X; exact X).
    + cbn in X. apply in_app_iff in X. destruct X as [X|[X|[]]]; [auto|discriminate].
    + unfold execution_ended in X. destruct (mem _ _); exact X.
  - cbn [fst]. unfold claim, get_free. destruct (rev (free s)); auto.
  - unfold claim_execute. destruct (nth_error (claims s) c) as [[w|]|]; auto.
  - unfold claim_release. destruct (nth_error (claims s) c) as [[w|]|]; auto. destruct (queue _); auto. destruct (mem _ _); auto.
  - cbn [fst]. destruct (rev (free s)); auto.
  - cbn [fst]. rewrite !release_sets. repeat match goal with |- context [loop (release_all ?l ?t)] => destruct (release_all_fields l t) as (_ & _ & _ & _ & _ & _ & -> & _) end. auto.
Qed.
Lemma cancelled_step s o j x : nth_error (futs (fst (e_step s o))) j = Some x -> out x = Some Cancelled -> nth_error (futs s) j = Some x \/ o = ECancel j \/ In (LCancel j) (loop s).
Proof.
  assert (App : forall y, out y = None -> nth_error (futs s ++ [y]) j = Some x -> out x = Some Cancelled -> nth_error (futs s) j = Some x).
  { intros y Y X Z. apply nth_snoc in X. destruct X as [X|(_ & ->)]; [auto|congruence]. }
  destruct o; cbn [e_step fst].
  - intros X Y. left. revert X. unfold submit. destruct (get_free s). cbn. intros X. eapply App; eauto. reflexivity.
  - rewrite outcome_set. destruct (nth_error (futs s) j) as [y|] eqn:N; [|discriminate]. destruct (Nat.eqb_spec j j0) as [-> | D]; auto.
  - destruct (w <? nw s); rewrite ?work_futs; auto.
  - destruct (loop s) as [|[i g|i|i w|w] r] eqn:R; auto; cbn [run_handle].
    + rewrite outcome_set. cbn. destruct (nth_error (futs s) j) as [y|] eqn:N; [|discriminate]. destruct (j =? i); [|auto]. destruct (out y) eqn:O; [auto|]. intros X Y. injection X as <-. discriminate.
    + rewrite outcome_set. cbn. destruct (nth_error (futs s) j) as [y|] eqn:N; [|discriminate]. destruct (Nat.eqb_spec j i) as [-> | D]; auto.
    + unfold execution_ended. destruct (mem w (running (with_loop s r))); cbn; auto.
  - unfold claim. pose proof (get_free_futs s) as (G & _). destruct (get_free s). cbn in *. rewrite G. auto.
  - unfold claim_execute. destruct (nth_error (claims s) c) as [[w|]|]; auto. cbn [fst]. intros X Y. left. refine (App {| out := None; ended_cb := None |} eq_refl _ Y). exact X.
  - unfold claim_release. destruct (nth_error (claims s) c) as [[w|]|]; auto. destruct (queue _); auto. destruct (mem _ _); auto.
  - destruct (rev (free s)); auto.
  - rewrite !release_sets. repeat match goal with |- context [futs (release_all ?l ?t)] => destruct (release_all_fields l t) as (_ & -> & _) end. auto.
  - rewrite !cancel_sets, !release_sets. repeat match goal with |- context [futs (cancel_all ?l ?t)] => destruct (cancel_all_fields l t) as (_ & -> & _) end. repeat match goal with |- context [futs (release_all ?l ?t)] => destruct (release_all_fields l t) as (_ & -> & _) end. auto.
Qed.
Lemma no_lcancel os : ~ In ECancelAll os -> forall j, ~ In (LCancel j) (loop (e_after os)).
Proof.
  induction os as [|o os IH] using rev_ind; intros N j; [cbn; auto|]. rewrite after_snoc. intros X. apply lcancel_step in X. destruct X as [X|X].
  - revert X. apply IH. intros Y. apply N, in_app_iff. auto.
  - apply N. apply in_app_iff. cbn. auto.
Qed.
Theorem not_cancelled os j : ~ In (ECancel j) os -> ~ In ECancelAll os -> outcome_of os j <> Some Cancelled.
Proof.
  induction os as [|o os IH] using rev_ind; intros N1 N2; [unfold outcome_of; destruct j; discriminate|].
  assert (H : outcome_of os j <> Some Cancelled) by (apply IH; intros X; [apply N1|apply N2]; apply in_app_iff; auto).
  unfold outcome_of. rewrite after_snoc. intros X. destruct (nth_error (futs (fst (e_step (e_after os) o))) j) as [f|] eqn:N; [|discriminate].
  destruct (cancelled_step _ _ _ _ N X) as [Y|[-> |Y]].
  - apply H. unfold outcome_of. now rewrite Y.
  - apply N1, in_app_iff. cbn. auto.
  - revert Y. apply no_lcancel. intros Z. apply N2, in_app_iff. auto.
Qed.
Theorem runs os j : no_stale os -> quiet os -> submitted os j -> ~ In (ECancel j) os -> ~ In ECancelAll os -> starts os j = 1 /\ outcome_of os j = Some (Result j).
Proof.
  intros Ns Q Sb N1 N2. pose proof (settled os j Ns Q Sb) as X. pose proof (not_cancelled os j N1 N2) as Y. destruct (outcome_of os j) as [[f|]|] eqn:O; [|congruence|congruence].
  destruct (own os j f O) as (-> & Z & _). auto.
Qed.
