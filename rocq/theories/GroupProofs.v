(** Proofs for C51, C97 and C98. *)
From Coq Require Import List Bool Arith Lia.
From Verif Require Import GroupModel GroupSpec.
Import ListNotations.

Lemma run_app s a b : g_run s (a ++ b) = let (s1, xs) := g_run s a in let (s2, ys) := g_run s1 b in (s2, xs ++ ys).
Proof.
  revert s. induction a as [|o a IH]; intros s; cbn; [now destruct (g_run s b)|].
  destruct (g_step s o) as [s1 x]. rewrite IH. destruct (g_run s1 a) as [s2 xs], (g_run s2 b); reflexivity.
Qed.
Lemma after_snoc os o : g_after (os ++ [o]) = fst (g_step (g_after os) o).
Proof. unfold g_after. rewrite run_app. destruct (g_run g_init os). cbn. now destruct (g_step g o). Qed.
Lemma outs_snoc os o : g_outs (os ++ [o]) = g_outs os ++ [snd (g_step (g_after os) o)].
Proof. unfold g_outs, g_after. rewrite run_app. destruct (g_run g_init os). cbn. now destruct (g_step g o). Qed.
Lemma added_app a b : added (a ++ b) = added a ++ added b.
Proof. induction a as [|[] a IH]; cbn; [reflexivity| |..]; now rewrite ?IH. Qed.
Lemma waits_app a b : waits (a ++ b) = waits a ++ waits b.
Proof. induction a as [|[] a IH]; cbn; [reflexivity| |..]; now rewrite ?IH. Qed.

Lemma mem_In x l : mem x l = true <-> In x l.
Proof. unfold mem. rewrite existsb_exists. split; [intros (y & A & B); apply Nat.eqb_eq in B; congruence|intros H; exists x; split; [auto|apply Nat.eqb_refl]]. Qed.
Lemma sadd_In x y l : In y (sadd x l) <-> y = x \/ In y l.
Proof. unfold sadd. destruct (mem x l) eqn:E; [apply mem_In in E|rewrite in_app_iff; cbn]; intuition congruence. Qed.
Lemma sdel_In x y l : In y (sdel x l) <-> y <> x /\ In y l.
Proof. unfold sdel. rewrite filter_In, negb_true_iff, Nat.eqb_neq. tauto. Qed.
Lemma pick_In i l f : pick i l = Some f -> In f l.
Proof. unfold pick. apply nth_error_In. Qed.
Lemma pick_None i l : pick i l = None -> l = [].
Proof. unfold pick. destruct l as [|x l]; [auto|]. intros H. apply nth_error_None in H. pose proof (Nat.mod_upper_bound i (length (x :: l))) as B. cbn [length] in *. lia. Qed.
Lemma upd_same {A} (m : nat -> A) k v : upd m k v k = v.
Proof. unfold upd. now rewrite Nat.eqb_refl. Qed.
Lemma upd_other {A} (m : nat -> A) k v x : x <> k -> upd m k v x = m x.
Proof. intros D. unfold upd. apply Nat.eqb_neq in D. now rewrite D. Qed.
Lemma set_nth_length {A} i (v : A) l : length (set_nth i v l) = length l.
Proof. revert i. induction l; intros [|i]; cbn; auto. Qed.
Lemma nth_set_same {A} i (v : A) l : i < length l -> nth_error (set_nth i v l) i = Some v.
Proof. revert i. induction l; intros [|i] H; cbn in *; try lia; auto. apply IHl. lia. Qed.
Lemma nth_set_other {A} i j (v : A) l : i <> j -> nth_error (set_nth i v l) j = nth_error l j.
Proof. revert i j. induction l; intros [|i] [|j] H; cbn; auto; try congruence. Qed.

Definition kind_of (h : handler) : kind :=
  match h with HNext => KNext | HFirst => KFirst | HFirstPop => KFirstPop | HExc c p => KExc c p | HN n _ => KN n | HAll => KAll end.

Lemma resume_kind h f st p h' : resume h f st p = inl h' -> kind_of h' = kind_of h.
Proof.
  destruct h; cbn; try discriminate.
  - destruct (fails _ _); [discriminate|]. destruct p; [discriminate|]. intros H; injection H as <-. reflexivity.
  - destruct (_ <=? _); [discriminate|]. intros H; injection H as <-. reflexivity.
  - destruct p; [discriminate|]. intros H; injection H as <-. reflexivity.
Qed.
Lemma resume_pop h f st p x : resume h f st p = inr (false, x) -> is_pop (kind_of h) = true /\ x = GRes (Some f).
Proof.
  destruct h; cbn; try discriminate.
  - intros H; injection H as <-. auto.
  - destruct (fails _ _); [|destruct p; discriminate]. destruct pop; [|discriminate]. intros H; injection H as <-. auto.
  - destruct (_ <=? _); discriminate.
  - destruct p; discriminate.
Qed.
Lemma resume_given h f st p b g : resume h f st p = inr (b, GRes (Some g)) -> g = f /\ (is_pop (kind_of h) = true -> b = false).
Proof.
  destruct h; cbn; try discriminate.
  - intros H; injection H as <- <-. auto.
  - intros H; injection H as <- <-. auto.
  - destruct (fails _ _); [|destruct p; discriminate]. intros H; injection H as <- <-. split; [auto|]. now intros ->.
  - destruct (_ <=? _); discriminate.
  - destruct p; discriminate.
Qed.
Lemma resume_end h f st p b x : resume h f st p = inr (b, x) -> x <> GWait /\ x <> GCancelled.
Proof.
  destruct h; cbn; try discriminate; try (intros H; injection H as _ <-; split; discriminate).
  - destruct (fails _ _); [|destruct p; [|discriminate]]; intros H; injection H as _ <-; split; discriminate.
  - destruct (_ <=? _); [|discriminate]. intros H; injection H as _ <-; split; discriminate.
  - destruct p; [|discriminate]. intros H; injection H as _ <-; split; discriminate.
Qed.

Lemma settle_ok w x ws : let '(ws', js) := settle w x ws in
  length ws' = length ws /\ (forall v, v <> w -> nth_error ws' v = nth_error ws v) /\
  (nth_error ws w = Some GWait -> nth_error ws' w = Some x) /\ (nth_error ws w <> Some GWait -> ws' = ws) /\
  (forall j, In j js -> j = CWaiter w /\ nth_error ws w = Some GWait).
Proof.
  unfold settle. assert (X : nth_error ws w <> Some GWait -> length ws = length ws /\ (forall v, v <> w -> nth_error ws v = nth_error ws v) /\
    (nth_error ws w = Some GWait -> nth_error ws w = Some x) /\ (nth_error ws w <> Some GWait -> ws = ws) /\ (forall j, In j (@nil job) -> j = CWaiter w /\ nth_error ws w = Some GWait)).
  { intros X. split; [auto|]. split; [auto|]. split; [intros; contradiction|]. split; [auto|]. intros j []. }
  destruct (nth_error ws w) as [y|] eqn:E; [|rewrite E in *; apply X; discriminate].
  destruct y; [clear X|rewrite E in *; apply X; discriminate..].
  assert (w < length ws) by (apply nth_error_Some; congruence).
  split; [apply set_nth_length|]. split; [intros v D; apply nth_set_other; auto|]. split; [intros _; now apply nth_set_same|]. split; [congruence|]. intros j [<- | []]. auto.
Qed.

Lemma notify_ok f st p hs : forall ws, NoDup (map fst hs) ->
  let '(a, hs', ws', js) := notify f st p hs ws in
  length ws' = length ws /\
  (forall w, ~ In w (map fst hs) -> nth_error ws' w = nth_error ws w) /\
  (forall w h, In (w, h) hs -> match resume h f st p with
     | inl h' => nth_error ws' w = nth_error ws w /\ In (w, h') hs'
     | inr (_, x) => (nth_error ws w = Some GWait -> nth_error ws' w = Some x) /\ (nth_error ws w <> Some GWait -> nth_error ws' w = nth_error ws w) end) /\
  (forall w h', In (w, h') hs' -> exists h, In (w, h) hs /\ resume h f st p = inl h') /\
  NoDup (map fst hs') /\ (forall j, In j js -> exists w, j = CWaiter w) /\
  (a = true <-> forall w h x, In (w, h) hs -> resume h f st p <> inr (false, x)).
Proof.
  induction hs as [|[w h] hs IH]; intros ws N; cbn [notify].
  - cbn. repeat split; auto; try tauto; try (intros; contradiction).
  - inversion N as [|? ? N1 N2]; subst. destruct (resume h f st p) as [h'|[a x]] eqn:R.
    + specialize (IH ws N2). destruct (notify f st p hs ws) as [[[a hs'] ws'] js]. destruct IH as (A & B & C & D & E & F & G).
      split; [auto|]. split; [intros v V; apply B; cbn in V; tauto|]. split.
      { intros v g [X|X].
        - injection X as <- <-. rewrite R. split; [apply B; auto|cbn; auto].
        - specialize (C v g X). destruct (resume g f st p) as [g'|[b y]]; [|auto]. destruct C. split; [auto|cbn; auto]. }
      split. { intros v g [X|X]; [injection X as <- <-; exists h; cbn; auto|]. destruct (D v g X) as (q & Q1 & Q2). exists q. cbn. auto. }
      split. { cbn. constructor; [|auto]. intros X. apply in_map_iff in X. destruct X as ([v g] & X1 & X2). cbn in X1. subst v.
               destruct (D w g X2) as (q & Q & _). apply N1. apply in_map_iff. exists (w, q). auto. }
      split; [auto|]. rewrite G. split.
      * intros H v g y [X|X]; [injection X as <- <-; congruence|eauto].
      * intros H v g y X. apply (H v g y). cbn. auto.
    + pose proof (settle_ok w x ws) as S1. destruct (settle w x ws) as [ws1 j1]. destruct S1 as (S1 & S2 & S3 & S4 & S5).
      specialize (IH ws1 N2). destruct (notify f st p hs ws1) as [[[b hs'] ws'] js]. destruct IH as (A & B & C & D & E & F & G).
      split; [congruence|]. split. { intros v V. cbn in V. rewrite B by tauto. apply S2. intros ->. tauto. }
      split.
      { intros v g [X|X].
        - injection X as <- <-. rewrite R. rewrite B by auto. split; [auto|]. intros Z. now rewrite S4.
        - assert (V : v <> w) by (intros ->; apply N1, in_map_iff; exists (w, g); auto). specialize (C v g X). rewrite !S2 in C by auto. exact C. }
      split. { intros v g X. destruct (D v g X) as (q & Q1 & Q2). exists q. cbn. auto. }
      split; [auto|]. split. { intros j X. apply in_app_iff in X. destruct X as [X|X]; [apply S5 in X; destruct X; eauto|auto]. }
      rewrite andb_true_iff, G. split.
      * intros (-> & H) v g y [X|X]; [injection X as <- <-; congruence|eauto].
      * intros H. split; [destruct a; [auto|]; exfalso; apply (H w h x); cbn; auto|]. intros v g y X. apply (H v g y). cbn. auto.
Qed.

(** ** Callbacks in the queue *)
Definition is_cfut (f : nat) (j : job) : bool := match j with CFut g => g =? f | CWaiter _ => false end.
Definition cnt (f : nat) (l : list job) : nat := length (filter (is_cfut f) l).
Lemma cnt_app f a b : cnt f (a ++ b) = cnt f a + cnt f b.
Proof. unfold cnt. now rewrite filter_app, app_length. Qed.
Lemma cnt_waiters f js : (forall j, In j js -> exists w, j = CWaiter w) -> cnt f js = 0.
Proof.
  intros H. induction js as [|j js IH]; [reflexivity|]. destruct (H j) as (w & ->); [cbn; auto|]. cbn. apply IH. intros. apply H. cbn. auto.
Qed.
Lemma cnt_repeat f g n : cnt f (repeat (CFut g) n) = if g =? f then n else 0.
Proof. induction n as [|n IH]; cbn; [now destruct (g =? f)|]. unfold cnt in *. cbn. destruct (g =? f); cbn; [now rewrite IH|exact IH]. Qed.
Lemma cnt_pos f l : In (CFut f) l -> 0 < cnt f l.
Proof. induction l as [|j l IH]; cbn; [tauto|]. unfold cnt in *. intros [-> | H]; cbn; [rewrite Nat.eqb_refl; cbn; lia|]. destruct (is_cfut f j); cbn; [lia|auto]. Qed.
Lemma cnt_In f l : 0 < cnt f l -> In (CFut f) l.
Proof.
  induction l as [|j l IH]; cbn; [lia|]. unfold cnt in *. cbn. destruct (is_cfut f j) eqn:E; cbn; [|auto].
  destruct j; cbn in E; [|discriminate]. apply Nat.eqb_eq in E. subst. auto.
Qed.

(** ** The shape of a group, whatever is done *)
Record shape (ks : list kind) (s : group) : Prop := {
  sh_len : length (wst s) = length ks;
  sh_kind : forall w h, In (w, h) (waiters s) -> nth_error ks w = Some (kind_of h);
  sh_nd : NoDup (map fst (waiters s));
  sh_wait : forall w, nth_error (wst s) w = Some GWait -> In w (map fst (waiters s));
  sh_done : forall f, In f (done s) -> exists r c, futs s f = FD r c;
  sh_ready : forall f, In (CFut f) (ready s) -> exists r c, futs s f = FD r c;
  sh_job : forall w, In (CWaiter w) (ready s) -> exists x, nth_error (wst s) w = Some x /\ x <> GWait
}.

Lemma fst_In {A B} (w : A) (h : B) l : In (w, h) l -> In w (map fst l).
Proof. intros H. apply in_map_iff. exists (w, h). auto. Qed.
Lemma In_fst {A B} (w : A) (l : list (A * B)) : In w (map fst l) -> exists h, In (w, h) l.
Proof. intros H. apply in_map_iff in H. destruct H as ([v h] & E & H). cbn in E. subst. eauto. Qed.

Lemma waited_shape ks s f r c : shape ks s -> futs s f = FD r c -> shape ks (waited_done f s).
Proof.
  intros [A B C D E F G] Ff. unfold waited_done. pose proof (notify_ok f (futs s f) (sdel f (pending s)) (waiters s) (wst s) C) as P.
  assert (NJ : forall w, In (CWaiter w) (snd (notify f (futs s f) (sdel f (pending s)) (waiters s) (wst s))) -> In w (map fst (waiters s)) /\ exists h b x, In (w, h) (waiters s) /\ resume h f (futs s f) (sdel f (pending s)) = inr (b, x)).
  { clear. generalize (wst s) as ws. generalize (futs s f) as st. generalize (sdel f (pending s)) as p. intros p st. induction (waiters s) as [|[v h] hs IH]; intros ws w; cbn [notify].
    - cbn. tauto.
    - destruct (resume h f st p) as [h'|[a x]] eqn:R.
      + specialize (IH ws w). destruct (notify f st p hs ws) as [[[b hs'] ws'] js]. cbn in *. intros X. destruct (IH X) as (I1 & q & b2 & x & Q1 & Q2). split; [auto|]. exists q, b2, x. auto.
      + pose proof (settle_ok v x ws) as S1. destruct (settle v x ws) as [ws1 j1]. destruct S1 as (_ & _ & _ & _ & S5). specialize (IH ws1 w). destruct (notify f st p hs ws1) as [[[b hs'] ws'] js]. cbn in *.
        intros X. apply in_app_iff in X. destruct X as [X|X].
        * apply S5 in X. destruct X as (X & _). injection X as ->. split; [auto|]. exists h, a, x. auto.
        * destruct (IH X) as (I1 & q & b2 & y & Q1 & Q2). split; [auto|]. exists q, b2, y. auto. }
  destruct (notify f (futs s f) (sdel f (pending s)) (waiters s) (wst s)) as [[[a hs] ws] js]. cbn [snd] in NJ.
  destruct P as (P1 & P2 & P3 & P4 & P5 & P6 & P7). split; cbn.
  - congruence.
  - intros w h H. destruct (P4 w h H) as (q & Q1 & Q2). apply resume_kind in Q2. rewrite Q2. auto.
  - auto.
  - intros w H. destruct (in_dec Nat.eq_dec w (map fst (waiters s))) as [X|X].
    + apply In_fst in X. destruct X as (h & X). specialize (P3 w h X). destruct (resume h f (futs s f) (sdel f (pending s))) as [h'|[b x]] eqn:R.
      * destruct P3 as (_ & Y). now apply fst_In in Y.
      * destruct P3 as (Y1 & Y2). destruct (nth_error (wst s) w) as [[]|] eqn:W; try (rewrite Y2 in H by discriminate; discriminate).
        rewrite Y1 in H by auto. injection H as ->. apply resume_end in R. tauto.
    + rewrite P2 in H by auto. apply D in H. contradiction.
  - intros g H. destruct a; [|auto]. apply sadd_In in H. destruct H as [-> | H]; [eauto|auto].
  - intros g H. apply in_app_iff in H. destruct H as [H|H]; [auto|]. destruct (P6 _ H). discriminate.
  - intros w H. apply in_app_iff in H. destruct H as [H|H].
    + destruct (G w H) as (y & W & Ny). exists y. split; [|auto]. destruct (in_dec Nat.eq_dec w (map fst (waiters s))) as [X|X]; [|now rewrite P2].
      apply In_fst in X. destruct X as (h & X). specialize (P3 w h X). destruct (resume h f (futs s f) (sdel f (pending s))) as [h'|[b x]] eqn:R.
      * destruct P3 as (-> & _). auto.
      * destruct P3 as (_ & Y). rewrite Y; [auto|]. rewrite W. congruence.
    + destruct (NJ w H) as (_ & h & b & x & X & R). assert (L : w < length (wst s)) by (rewrite A; apply nth_error_Some; rewrite (B w h X); discriminate).
      specialize (P3 w h X). rewrite R in P3. destruct P3 as (Y1 & Y2). apply resume_end in R.
      destruct (nth_error (wst s) w) as [y|] eqn:W; [|apply nth_error_None in W; lia].
      destruct y; [rewrite Y1 by auto; exists x; tauto|rewrite Y2 by discriminate; eexists; split; [reflexivity|discriminate]..].
Qed.

Definition kinds (o : g_op) : list kind := match o with TWait k _ => [k] | _ => [] end.

Lemma start_kind k i s h : start k i s = inl h -> kind_of h = k.
Proof.
  destruct k; cbn.
  - intros H; injection H as <-. auto.
  - destruct (done s); [|discriminate]. destruct (pending s); [discriminate|]. intros H; injection H as <-. auto.
  - destruct (pick i (done s)); [discriminate|]. destruct (pending s); [discriminate|]. intros H; injection H as <-. auto.
  - destruct (pick i _); [discriminate|]. destruct (pending s); [discriminate|]. intros H; injection H as <-. auto.
  - destruct (_ <=? _); [discriminate|]. intros H; injection H as <-. auto.
  - destruct (pending s); [discriminate|]. intros H; injection H as <-. auto.
Qed.
Lemma start_end k i s x d : start k i s = inr (x, d) -> x <> GWait /\ x <> GCancelled /\ incl d (done s) /\
  (forall f, x = GRes (Some f) -> In f (done s) /\ (is_pop k = true -> ~ In f d) /\ forall g, In g (done s) -> g <> f -> In g d) /\
  ((forall f, x <> GRes (Some f)) \/ is_pop k = false -> d = done s).
Proof.
  destruct k; cbn.
  - discriminate.
  - destruct (done s) as [|y l] eqn:E.
    + destruct (pending s); [|discriminate]. intros H; injection H as <- <-. split; [discriminate|]. split; [discriminate|]. split; [intros ?; auto|]. split; [discriminate|auto].
    + intros H; injection H as <- <-. split; [discriminate|]. split; [discriminate|]. split; [intros ?; auto|]. split; [|auto]. intros f F. injection F as F. apply pick_In in F. split; [auto|]. split; [discriminate|auto].
  - destruct (pick i (done s)) as [g|] eqn:P.
    + intros H; injection H as <- <-. split; [discriminate|]. split; [discriminate|]. split; [intros y; rewrite sdel_In; tauto|]. split.
      * intros f F. injection F as <-. apply pick_In in P. split; [auto|]. split; [intros _ X; apply sdel_In in X; tauto|]. intros y Y Z. apply sdel_In. auto.
      * intros [H|H]; [destruct (H g); auto|discriminate].
    + destruct (pending s); [|discriminate]. intros H; injection H as <- <-. split; [discriminate|]. split; [discriminate|]. split; [intros ?; auto|]. split; [discriminate|auto].
  - destruct (pick i _) as [g|] eqn:P.
    + intros H; injection H as <- <-. apply pick_In, filter_In in P. split; [discriminate|]. split; [discriminate|]. split; [intros y; destruct pop; rewrite ?sdel_In; tauto|]. split.
      * intros f F. injection F as <-. split; [tauto|]. split; [intros ->; rewrite sdel_In; tauto|]. intros y Y Z. destruct pop; [apply sdel_In; auto|auto].
      * intros [H| ->]; [destruct (H g); auto|auto].
    + destruct (pending s); [|discriminate]. intros H; injection H as <- <-. split; [discriminate|]. split; [discriminate|]. split; [intros ?; auto|]. split; [discriminate|auto].
  - destruct (_ <=? _); [|discriminate]. intros H; injection H as <- <-. split; [discriminate|]. split; [discriminate|]. split; [intros ?; auto|]. split; [discriminate|auto].
  - destruct (pending s); [|discriminate]. intros H; injection H as <- <-. split; [discriminate|]. split; [discriminate|]. split; [intros ?; auto|]. split; [discriminate|auto].
Qed.

Lemma nth_snoc {A} (l : list A) x n y : nth_error (l ++ [x]) n = Some y -> nth_error l n = Some y \/ n = length l /\ y = x.
Proof.
  intros H. destruct (lt_dec n (length l)); [rewrite nth_error_app1 in H by auto; auto|].
  rewrite nth_error_app2 in H by lia. destruct (n - length l) as [|[|m]] eqn:E; cbn in H; try discriminate. injection H as <-. right. split; [lia|auto].
Qed.
Lemma nth_app_l {A} (l m : list A) n y : nth_error l n = Some y -> nth_error (l ++ m) n = Some y.
Proof. intros H. rewrite nth_error_app1; [auto|]. apply nth_error_Some. congruence. Qed.
Lemma nth_last {A} (l : list A) x : nth_error (l ++ [x]) (length l) = Some x.
Proof. rewrite nth_error_app2, Nat.sub_diag by lia. reflexivity. Qed.

Lemma shape_step ks s o : shape ks s -> shape (ks ++ kinds o) (fst (g_step s o)).
Proof.
  intros Sh. pose proof Sh as [A B C D E F G]. destruct o; cbn [kinds]; rewrite ?app_nil_r; cbn [g_step fst].
  - unfold add_future. destruct (futs s f) as [n|r c] eqn:Ff; [|eapply waited_shape; eauto].
    split; cbn; auto.
    + intros g H. destruct (E g H) as (r & c & X). exists r, c. rewrite upd_other; [auto|congruence].
    + intros g H. destruct (F g H) as (r & c & X). exists r, c. rewrite upd_other; [auto|congruence].
  - destruct (futs s f) as [n|r c] eqn:Ff; cbn; [|auto]. split; cbn; auto.
    + intros g H. destruct (Nat.eq_dec g f) as [-> | X]; [rewrite upd_same; eauto|rewrite upd_other by auto; auto].
    + intros g H. destruct (Nat.eq_dec g f) as [-> | X]; [rewrite upd_same; eauto|rewrite upd_other by auto]. apply in_app_iff in H. destruct H as [H|H]; [auto|]. apply repeat_spec in H. congruence.
    + intros w H. apply in_app_iff in H. destruct H as [H|H]; [auto|]. apply repeat_spec in H. discriminate.
  - destruct (ready s) as [|j l] eqn:R; cbn; [auto|].
    assert (Sh1 : shape ks {| futs := futs s; pending := pending s; done := done s; waiters := waiters s; wst := wst s; ready := l |}).
    { split; cbn; auto; [intros f H; apply F|intros w H; apply G]; cbn; auto. }
    destruct j as [f|w].
    + destruct (F f) as (r & c & Ff); [cbn; auto|]. eapply waited_shape; [exact Sh1|exact Ff].
    + unfold waiter_done. cbn. destruct (G w (or_introl eq_refl)) as (y & Gw & Ny). split; cbn; auto.
      * intros v h H. apply filter_In in H. apply B. tauto.
      * clear -C. induction (waiters s) as [|[v h] l IH]; cbn in *; [constructor|]. inversion C as [|? ? C1 C2]; subst. destruct (negb (v =? w)); cbn; [|auto]. constructor; [|auto].
        intros X. apply C1. apply In_fst in X. destruct X as (q & X). apply filter_In in X. destruct X as (X & _). now apply fst_In in X.
      * intros v H. assert (v <> w) by (intros ->; congruence). apply D in H. apply In_fst in H. destruct H as (h & H). apply (fst_In v h). apply filter_In. split; [auto|]. cbn. apply negb_true_iff. now apply Nat.eqb_neq.
      * intros f H. apply F. cbn. auto.
      * intros v H. apply G. cbn. auto.
  - unfold add_handler. destruct (start k i s) as [h|[x d]] eqn:St.
    + apply start_kind in St. split; cbn; auto.
      * rewrite !app_length. cbn. lia.
      * intros w g H. apply in_app_iff in H. destruct H as [H|[H|[]]]; [apply nth_app_l; auto|]. injection H as <- <-. rewrite A, St. apply nth_last.
      * rewrite map_app. cbn. clear - B C A. assert (X : ~ In (length (wst s)) (map fst (waiters s))).
        { intros X. apply In_fst in X. destruct X as (h & X). apply B in X. assert (length (wst s) < length ks) by (apply nth_error_Some; congruence). lia. }
        revert X C. generalize (map fst (waiters s)) as l. induction l as [|y l IH]; cbn; intros X C; [constructor; [intros []|constructor]|].
        inversion C; subst. constructor; [rewrite in_app_iff; cbn; intuition congruence|]. apply IH; tauto.
      * intros w H. rewrite map_app, in_app_iff. apply nth_snoc in H. destruct H as [H|(-> & _)]; [auto|cbn; auto].
      * intros w H. destruct (G w H) as (x & X & Y). exists x. split; [now apply nth_app_l|auto].
    + destruct (start_end _ _ _ _ _ St) as (X1 & X2 & X3 & _). split; cbn; auto.
      * rewrite !app_length. cbn. lia.
      * intros w g H. apply nth_app_l. auto.
      * intros w H. apply nth_snoc in H. destruct H as [H|(_ & H)]; [auto|congruence].
      * intros w H. destruct (G w H) as (y & X & Y). exists y. split; [now apply nth_app_l|auto].
  - pose proof (settle_ok w GCancelled (wst s)) as T. destruct (settle w GCancelled (wst s)) as [ws js]. destruct T as (T1 & T2 & T3 & T4 & T5). cbn [fst].
    assert (K : forall v x, nth_error (wst s) v = Some x -> x <> GWait -> nth_error ws v = Some x).
    { intros v x X Y. destruct (Nat.eq_dec v w) as [-> | V]; [|now rewrite T2]. rewrite T4; [auto|congruence]. }
    split; cbn; auto.
    + congruence.
    + intros v H. apply D. destruct (Nat.eq_dec v w) as [-> | V]; [|now rewrite <- T2].
      destruct (nth_error (wst s) w) as [[]|] eqn:W; auto; try (rewrite T4 in H by discriminate; congruence).
    + intros f H. apply in_app_iff in H. destruct H as [H|H]; [auto|]. apply T5 in H. destruct H. discriminate.
    + intros v H. apply in_app_iff in H. destruct H as [H|H].
      * destruct (G v H) as (x & X & Y). exists x. auto.
      * destruct (T5 _ H) as (Z & W). injection Z as ->. exists GCancelled. split; [auto|discriminate].
  - destruct (pick i (done s)) as [f|] eqn:P; cbn [fst]; [|auto]. split; cbn; auto. intros g H. apply sdel_In in H. apply E. tauto.
Qed.

Lemma shape_init : shape [] g_init.
Proof. split; cbn; try tauto; auto; [constructor|]. intros [|w]; discriminate. Qed.
Lemma kinds_waits o : kinds o = waits [o].
Proof. now destruct o. Qed.
Lemma shape_after os : shape (waits os) (g_after os).
Proof.
  induction os as [|o os IH] using rev_ind; [apply shape_init|]. rewrite after_snoc, waits_app, <- kinds_waits. now apply shape_step.
Qed.

(** ** No wait is missed *)
Definition due (s : group) (h : handler) : Prop :=
  match h with
  | HNext => True
  | HFirst | HFirstPop => pending s <> [] /\ done s = []
  | HExc c _ => pending s <> [] /\ forall f, In f (done s) -> fails c (futs s f) = false
  | HN n m => m < n /\ length (done s) <= m
  | HAll => pending s <> []
  end.

Lemma sadd_length x l : length (sadd x l) <= S (length l).
Proof. unfold sadd. destruct (mem x l); [lia|]. rewrite app_length. cbn. lia. Qed.
Lemma sdel_length x l : length (sdel x l) <= length l.
Proof. unfold sdel. induction l as [|y l IH]; cbn; [lia|]. destruct (negb (y =? x)); cbn; lia. Qed.
Lemma sadd_ne x l : sadd x l <> [].
Proof. intros E. assert (In x (sadd x l)) by (apply sadd_In; auto). rewrite E in *. contradiction. Qed.

Lemma due_waited ks s f r c : shape ks s -> futs s f = FD r c -> (forall w h, In (w, h) (waiters s) -> due s h) ->
  forall w h, In (w, h) (waiters (waited_done f s)) -> due (waited_done f s) h.
Proof.
  intros Sh Ff H w h'. unfold waited_done. pose proof (notify_ok f (futs s f) (sdel f (pending s)) (waiters s) (wst s) (sh_nd _ _ Sh)) as P.
  destruct (notify f (futs s f) (sdel f (pending s)) (waiters s) (wst s)) as [[[a hs] ws] js]. destruct P as (_ & _ & _ & P4 & _). cbn [waiters].
  intros W. destruct (P4 w h' W) as (h & X & R). specialize (H w h X). destruct h; cbn in R; try discriminate.
  - destruct (fails _ _) eqn:Fl; [discriminate|]. destruct (sdel f (pending s)) eqn:Sd; [discriminate|]. injection R as <-. cbn in *. split; [discriminate|].
    intros g G. destruct a; [apply sadd_In in G; destruct G as [-> | G]; [auto|]|]; apply H; auto.
  - destruct (_ <=? _) eqn:L; [discriminate|]. injection R as <-. apply Nat.leb_gt in L. cbn in *. split; [auto|]. pose proof (sadd_length f (done s)). destruct a; lia.
  - destruct (sdel f (pending s)) eqn:Sd; [discriminate|]. injection R as <-. cbn. discriminate.
Qed.

Lemma filter_none {A} (p : A -> bool) l : filter p l = [] -> forall x, In x l -> p x = false.
Proof. intros E x H. destruct (p x) eqn:P; [|auto]. assert (X : In x (filter p l)) by (apply filter_In; auto). rewrite E in X. contradiction. Qed.

Lemma start_due k i s h : start k i s = inl h -> due s h.
Proof.
  destruct k; cbn.
  - intros H; injection H as <-. exact I.
  - destruct (done s) eqn:D; [|discriminate]. destruct (pending s) eqn:P; [discriminate|]. intros H; injection H as <-. cbn. rewrite D, P. split; [discriminate|auto].
  - destruct (pick i (done s)) eqn:D; [discriminate|]. apply pick_None in D. destruct (pending s) eqn:P; [discriminate|]. intros H; injection H as <-. cbn. rewrite D, P. split; [discriminate|auto].
  - destruct (pick i _) eqn:D; [discriminate|]. apply pick_None in D. destruct (pending s) eqn:P; [discriminate|]. intros H; injection H as <-. cbn. rewrite P. split; [discriminate|]. intros f F. exact (filter_none _ _ D f F).
  - destruct (_ <=? _) eqn:L; [discriminate|]. apply Nat.leb_gt in L. intros H; injection H as <-. cbn. auto.
  - destruct (pending s) eqn:P; [discriminate|]. intros H; injection H as <-. cbn. rewrite P. discriminate.
Qed.

Definition same_base (s s' : group) : Prop := futs s' = futs s /\ pending s' = pending s /\ incl (done s') (done s) /\ length (done s') <= length (done s).
Lemma due_base s s' h : same_base s s' -> due s h -> due s' h.
Proof.
  intros (A & B & C & D). destruct h; cbn; rewrite ?A, ?B; auto.
  - intros (X & Y). rewrite Y in *. split; [auto|]. destruct (done s') as [|y l]; [auto|]. destruct (C y). cbn; auto.
  - intros (X & Y). rewrite Y in *. split; [auto|]. destruct (done s') as [|y l]; [auto|]. destruct (C y). cbn; auto.
  - intros (X & Y). auto.
  - lia.
Qed.

Lemma start_len k i s x d : start k i s = inr (x, d) -> length d <= length (done s).
Proof.
  destruct k; cbn.
  - discriminate.
  - destruct (done s); [destruct (pending s); [|discriminate]|]; intros H; injection H as _ <-; auto.
  - destruct (pick i _); [|destruct (pending s); [|discriminate]]; intros H; injection H as _ <-; auto using sdel_length.
  - destruct (pick i _); [|destruct (pending s); [|discriminate]]; intros H; injection H as _ <-; [destruct pop|]; auto using sdel_length.
  - destruct (_ <=? _); [|discriminate]. intros H; injection H as _ <-; auto.
  - destruct (pending s); [|discriminate]. intros H; injection H as _ <-; auto.
Qed.

Lemma due_step ks s o : shape ks s -> (forall w h, In (w, h) (waiters s) -> due s h) ->
  forall w h, In (w, h) (waiters (fst (g_step s o))) -> due (fst (g_step s o)) h.
Proof.
  intros Sh H w h. destruct o; cbn [g_step fst].
  - unfold add_future. destruct (futs s f) as [n|r c] eqn:Ff; [|eapply due_waited; eauto].
    cbn [waiters]. intros W. specialize (H w h W). destruct h; cbn in *; try tauto.
    + split; [apply sadd_ne|tauto].
    + split; [apply sadd_ne|tauto].
    + split; [apply sadd_ne|]. intros g G. destruct (sh_done _ _ Sh g G) as (r & c & X). rewrite upd_other by congruence. now apply H.
    + apply sadd_ne.
  - destruct (futs s f) as [n|r c] eqn:Ff; cbn [fst]; [|apply H]. cbn [waiters]. intros W. specialize (H w h W). destruct h; cbn in *; try tauto.
    split; [tauto|]. intros g G. destruct (sh_done _ _ Sh g G) as (r & c & X). rewrite upd_other by congruence. now apply H.
  - destruct (ready s) as [|j l] eqn:R; cbn [fst]; [apply H|].
    pose proof Sh as [A B C D E F G]. rewrite R in F, G.
    assert (Sh1 : shape ks {| futs := futs s; pending := pending s; done := done s; waiters := waiters s; wst := wst s; ready := l |}).
    { split; cbn; auto; [intros f X; apply F|intros v X; apply G]; cbn; auto. }
    destruct j as [f|v].
    + destruct (F f) as (r & c & Ff); [cbn; auto|]. eapply due_waited; [exact Sh1|exact Ff|exact H].
    + unfold waiter_done. cbn. intros X. apply filter_In in X. apply (due_base s); [|eapply H; apply X]. repeat split; auto. cbn. apply incl_refl.
  - unfold add_handler. destruct (start k i s) as [g|[x d]] eqn:St; cbn [waiters].
    + intros X. apply (due_base s); [repeat split; auto; apply incl_refl|]. apply in_app_iff in X. destruct X as [X|[X|[]]]; [eauto|]. injection X as _ <-. now apply start_due in St.
    + intros X. apply (due_base s); [|eauto]. split; [auto|]. split; [auto|]. cbn. split; [now apply start_end in St|now apply start_len in St].
  - destruct (settle w0 GCancelled (wst s)) as [ws js]. cbn [fst waiters]. intros X. apply (due_base s); [repeat split; auto; apply incl_refl|eauto].
  - destruct (pick i (done s)) as [f|]; cbn [fst]; [|apply H]. cbn [waiters]. intros X. apply (due_base s); [|eauto]. split; [auto|]. split; [auto|]. cbn. split; [intros y; rewrite sdel_In; tauto|apply sdel_length].
Qed.

Lemma due_after os w h : In (w, h) (waiters (g_after os)) -> due (g_after os) h.
Proof.
  revert w h. induction os as [|o os IH] using rev_ind; [intros w h []|]. rewrite after_snoc. apply (due_step (waits os)); [apply shape_after|exact IH].
Qed.

(** A waiter which waits has a handler of its kind. *)
Lemma waiting_handler os w k : waiter os w k GWait -> exists h, kind_of h = k /\ In (w, h) (waiters (g_after os)).
Proof.
  intros (K & W). pose proof (shape_after os) as Sh. apply (sh_wait _ _ Sh) in W. apply In_fst in W. destruct W as (h & W). exists h. split; [|auto].
  apply (sh_kind _ _ Sh) in W. congruence.
Qed.

(** ** Where the futures come from *)
Record source (os : list g_op) (s : group) : Prop := {
  so_pending : forall f, In f (pending s) -> In f (added os);
  so_done : forall f, In f (done s) -> In f (added os);
  so_ready : forall f, In (CFut f) (ready s) -> In f (added os);
  so_cb : forall f n, futs s f = FP (S n) -> In f (added os);
  so_fin : forall f r c, futs s f = FD r c -> In (TFinish f r c) os
}.

Lemma jobs_waiters f st p hs ws : NoDup (map fst hs) -> forall j, In j (snd (notify f st p hs ws)) -> exists w, j = CWaiter w.
Proof. intros N. pose proof (notify_ok f st p hs ws N) as P. destruct (notify f st p hs ws) as [[[a hs'] ws'] js]. cbn. tauto. Qed.

Lemma source_waited ks os s f : shape ks s -> source os s -> In f (added os) -> source os (waited_done f s).
Proof.
  intros Sh [A B C D E] F. unfold waited_done. pose proof (jobs_waiters f (futs s f) (sdel f (pending s)) (waiters s) (wst s) (sh_nd _ _ Sh)) as P.
  destruct (notify f (futs s f) (sdel f (pending s)) (waiters s) (wst s)) as [[[a hs] ws] js]. cbn [snd] in P. split; cbn; auto.
  - intros g G. apply sdel_In in G. apply A. tauto.
  - intros g G. destruct a; [apply sadd_In in G; destruct G as [-> | G]; auto|auto].
  - intros g G. apply in_app_iff in G. destruct G as [G|G]; [auto|]. destruct (P _ G). discriminate.
Qed.

Lemma source_more os s o : source os s -> source (os ++ [o]) s.
Proof.
  intros [A B C D E]. split; intros; rewrite ?added_app, ?in_app_iff; left; eauto.
Qed.

Lemma source_step os s o : shape (waits os) s -> source os s -> source (os ++ [o]) (fst (g_step s o)).
Proof.
  intros Sh So. pose proof (source_more _ _ o So) as So'. pose proof So' as [A B C D E]. destruct o; cbn [g_step fst].
  - assert (F : In f (added (os ++ [TAdd f]))) by (rewrite added_app, in_app_iff; cbn; auto).
    unfold add_future. destruct (futs s f) as [n|r c] eqn:Ff; [|eapply source_waited; eauto].
    split; cbn; auto.
    + intros g G. apply sadd_In in G. destruct G as [-> | G]; auto.
    + intros g m G. destruct (Nat.eq_dec g f) as [-> | X]; [auto|]. rewrite upd_other in G by auto. eauto.
    + intros g r c G. destruct (Nat.eq_dec g f) as [-> | X]; [rewrite upd_same in G; discriminate|]. rewrite upd_other in G by auto. eauto.
  - destruct (futs s f) as [n|r c] eqn:Ff; cbn [fst]; [|auto]. split; cbn; auto.
    + intros g G. apply in_app_iff in G. destruct G as [G|G]; [auto|]. destruct n as [|n]; [destruct G|]. apply repeat_spec in G. injection G as ->. eauto.
    + intros g m G. destruct (Nat.eq_dec g f) as [-> | X]; [rewrite upd_same in G; discriminate|]. rewrite upd_other in G by auto. eauto.
    + intros g r c G. destruct (Nat.eq_dec g f) as [-> | X]; [rewrite upd_same in G; injection G as <- <-; apply in_app_iff; cbn; auto|]. rewrite upd_other in G by auto. eauto.
  - destruct (ready s) as [|j l] eqn:R; cbn [fst]; [auto|]. pose proof Sh as [A1 B1 C1 D1 E1 F1 G1]. rewrite R in F1, G1.
    assert (Sh1 : shape (waits os) {| futs := futs s; pending := pending s; done := done s; waiters := waiters s; wst := wst s; ready := l |}).
    { split; cbn; auto; [intros f X; apply F1|intros v X; apply G1]; cbn; auto. }
    assert (S1 : source (os ++ [TRun]) {| futs := futs s; pending := pending s; done := done s; waiters := waiters s; wst := wst s; ready := l |}).
    { split; cbn; [exact A|exact B| |exact D|exact E]. intros g G. apply C. cbn. auto. }
    destruct j as [f|v].
    + eapply source_waited; [exact Sh1|exact S1|]. apply C. cbn. auto.
    + destruct S1 as [A2 B2 C2 D2 E2]. split; cbn in *; auto.
  - unfold add_handler. destruct (start k i s) as [g|[x d]] eqn:St; split; cbn; auto. intros f F. apply start_end in St. destruct St as (_ & _ & St & _). auto.
  - pose proof (settle_ok w GCancelled (wst s)) as T. destruct (settle w GCancelled (wst s)) as [ws js]. destruct T as (_ & _ & _ & _ & T). split; cbn; auto.
    intros f F. apply in_app_iff in F. destruct F as [F|F]; [auto|]. apply T in F. destruct F. discriminate.
  - destruct (pick i (done s)) as [f|]; cbn [fst]; [|auto]. split; cbn; auto. intros g G. apply sdel_In in G. apply B. tauto.
Qed.

Lemma source_after os : source os (g_after os).
Proof.
  induction os as [|o os IH] using rev_ind; [split; cbn; try tauto; discriminate|]. rewrite after_snoc. apply source_step; [apply shape_after|exact IH].
Qed.

Lemma notify_false f st p hs : forall ws, fst (fst (fst (notify f st p hs ws))) = false -> exists w h x, In (w, h) hs /\ resume h f st p = inr (false, x).
Proof.
  induction hs as [|[w h] hs IH]; intros ws; cbn [notify]; [discriminate|]. destruct (resume h f st p) as [h'|[a x]] eqn:R.
  - specialize (IH ws). destruct (notify f st p hs ws) as [[[b hs'] ws'] js]. cbn in *. intros X. destruct (IH X) as (v & g & y & Y & Z). exists v, g, y. auto.
  - destruct (settle w x ws) as [ws1 j1]. specialize (IH ws1). destruct (notify f st p hs ws1) as [[[b hs'] ws'] js]. cbn in *. intros X.
    destruct a; [|exists w, h, x; auto]. destruct (IH X) as (v & g & y & Y & Z). exists v, g, y. auto.
Qed.

(** ** Registered waiters wait or were cancelled *)
Definition regs (s : group) : Prop := forall w h, In (w, h) (waiters s) -> nth_error (wst s) w = Some GWait \/ nth_error (wst s) w = Some GCancelled.

Lemma regs_waited ks s f : shape ks s -> regs s -> regs (waited_done f s).
Proof.
  intros Sh H w h'. unfold waited_done. pose proof (notify_ok f (futs s f) (sdel f (pending s)) (waiters s) (wst s) (sh_nd _ _ Sh)) as P.
  destruct (notify f (futs s f) (sdel f (pending s)) (waiters s) (wst s)) as [[[a hs] ws] js]. destruct P as (_ & _ & P3 & P4 & _). cbn [waiters wst].
  intros W. destruct (P4 w h' W) as (h & X & R). specialize (P3 w h X). rewrite R in P3. destruct P3 as (-> & _). eauto.
Qed.

Lemma regs_step ks s o : shape ks s -> regs s -> regs (fst (g_step s o)).
Proof.
  intros Sh H. pose proof Sh as [A B C D E F G]. destruct o; cbn [g_step fst].
  - unfold add_future. destruct (futs s f); [exact H|]. eapply regs_waited; eauto.
  - destruct (futs s f); exact H.
  - destruct (ready s) as [|j l] eqn:R; [exact H|]. cbn [fst].
    assert (Sh1 : shape ks {| futs := futs s; pending := pending s; done := done s; waiters := waiters s; wst := wst s; ready := l |}).
    { split; cbn; auto; [intros f X; apply F|intros v X; apply G]; cbn; auto. }
    destruct j as [f|v]; [eapply regs_waited; [exact Sh1|exact H]|].
    intros w h X. cbn in *. apply filter_In in X. eapply H. apply X.
  - unfold add_handler. destruct (start k i s) as [g|[x d]] eqn:St; intros w h X; cbn in *.
    + apply in_app_iff in X. destruct X as [X|[X|[]]]; [|injection X as <- <-; left; apply nth_last]. destruct (H w h X) as [Y|Y]; [left|right]; now apply nth_app_l.
    + destruct (H w h X) as [Y|Y]; [left|right]; now apply nth_app_l.
  - pose proof (settle_ok w GCancelled (wst s)) as T. destruct (settle w GCancelled (wst s)) as [ws js]. destruct T as (T1 & T2 & T3 & T4 & T5). intros v h X. cbn in *.
    destruct (Nat.eq_dec v w) as [-> | V]; [|rewrite T2 by auto; eauto]. destruct (H w h X) as [Y|Y]; [right; auto|]. rewrite T4; [auto|]. congruence.
  - destruct (pick i (done s)); exact H.
Qed.
Lemma regs_after os : regs (g_after os).
Proof. induction os as [|o os IH] using rev_ind; [intros w h []|]. rewrite after_snoc. eapply regs_step; [apply shape_after|exact IH]. Qed.

(** ** Every future is in one place *)
Definition Gw (ks : list kind) (ws : list wstate) (f : nat) : Prop := exists w k, is_pop k = true /\ nth_error ks w = Some k /\ nth_error ws w = Some (GRes (Some f)).
Definition Pc (ks : list kind) (ws : list wstate) : Prop := exists w k, is_pop k = true /\ nth_error ks w = Some k /\ nth_error ws w = Some GCancelled.

Local Arguments cnt : simpl never.
(** [G] the future was given out before by pop_done. *)
Inductive phase (ad : list nat) (ks : list kind) (s : group) (G : Prop) (f : nat) : Prop :=
| PhNone : ~ In f ad -> ~ In f (pending s) -> ~ In f (done s) -> cnt f (ready s) = 0 -> (futs s f = FP 0 \/ exists r c, futs s f = FD r c) -> ~ G -> ~ Gw ks (wst s) f -> phase ad ks s G f
| PhPending : In f ad -> futs s f = FP 1 -> In f (pending s) -> ~ In f (done s) -> cnt f (ready s) = 0 -> ~ G -> ~ Gw ks (wst s) f -> phase ad ks s G f
| PhReady r c : In f ad -> futs s f = FD r c -> In f (pending s) -> ~ In f (done s) -> cnt f (ready s) = 1 -> ~ G -> ~ Gw ks (wst s) f -> phase ad ks s G f
| PhDone r c : In f ad -> futs s f = FD r c -> ~ In f (pending s) -> In f (done s) -> cnt f (ready s) = 0 -> ~ G -> ~ Gw ks (wst s) f -> phase ad ks s G f
| PhGone r c : In f ad -> futs s f = FD r c -> ~ In f (pending s) -> ~ In f (done s) -> cnt f (ready s) = 0 -> (G \/ Gw ks (wst s) f \/ Pc ks (wst s)) -> phase ad ks s G f.

(** What [_waited_done_callback] does. *)
Lemma waited_track ks s f r c : shape ks s -> regs s -> futs s f = FD r c ->
  let s' := waited_done f s in
  futs s' = futs s /\ (forall g, In g (pending s') <-> g <> f /\ In g (pending s)) /\ (forall g, cnt g (ready s') = cnt g (ready s)) /\
  (forall g, g <> f -> (In g (done s') <-> In g (done s))) /\
  (forall g, g <> f -> (Gw ks (wst s') g <-> Gw ks (wst s) g)) /\ (forall g, Gw ks (wst s) g -> Gw ks (wst s') g) /\ (Pc ks (wst s) -> Pc ks (wst s')) /\
  (~ In f (done s) -> ~ Gw ks (wst s) f -> In f (done s') /\ ~ Gw ks (wst s') f \/ ~ In f (done s') /\ (Gw ks (wst s') f \/ Pc ks (wst s'))).
Proof.
  intros Sh Rg Ff. unfold waited_done. pose proof (notify_ok f (futs s f) (sdel f (pending s)) (waiters s) (wst s) (sh_nd _ _ Sh)) as P.
  pose proof (notify_false f (futs s f) (sdel f (pending s)) (waiters s) (wst s)) as Q.
  destruct (notify f (futs s f) (sdel f (pending s)) (waiters s) (wst s)) as [[[a hs] ws] js]. destruct P as (P1 & P2 & P3 & P4 & P5 & P6 & P7). cbn in Q. cbn.
  (* the change of a waiter *)
  assert (Ch : forall w x, nth_error ws w = Some x -> nth_error (wst s) w = Some x \/ exists h b, In (w, h) (waiters s) /\ resume h f (futs s f) (sdel f (pending s)) = inr (b, x)).
  { intros w x X. destruct (in_dec Nat.eq_dec w (map fst (waiters s))) as [Y|Y]; [|rewrite P2 in X by auto; auto].
    apply In_fst in Y. destruct Y as (h & Y). specialize (P3 w h Y). destruct (resume h f (futs s f) (sdel f (pending s))) as [h'|[b y]] eqn:R.
    - destruct P3 as (P3 & _). left. congruence.
    - destruct P3 as (Z1 & Z2). destruct (Rg w h Y) as [W|W]; [|rewrite W in *; left; rewrite Z2 in X by discriminate; auto].
      right. exists h, b. split; [auto|]. rewrite Z1 in X by auto. congruence. }
  assert (Kp : forall w x, nth_error (wst s) w = Some x -> x <> GWait -> nth_error ws w = Some x).
  { intros w x X Nx. destruct (in_dec Nat.eq_dec w (map fst (waiters s))) as [Y|Y]; [|rewrite P2 by auto; auto].
    apply In_fst in Y. destruct Y as (h & Y). specialize (P3 w h Y). destruct (resume h f (futs s f) (sdel f (pending s))) as [h'|[b y]] eqn:R.
    - destruct P3 as (P3 & _). congruence.
    - destruct P3 as (Z1 & Z2). rewrite Z2; [auto|congruence]. }
  split; [auto|]. split; [intros g; apply sdel_In|]. split; [intros g; rewrite cnt_app, (cnt_waiters g js P6); lia|].
  split. { intros g D. destruct a; [rewrite sadd_In; intuition congruence|tauto]. }
  assert (Gk : forall g, Gw ks (wst s) g -> Gw ks ws g). { intros g (w & k & K1 & K2 & K3). exists w, k. split; [auto|]. split; [auto|]. apply Kp; [auto|discriminate]. }
  split. { intros g D. split; [|auto]. intros (w & k & K1 & K2 & K3). destruct (Ch w _ K3) as [X|(h & b & X1 & X2)]; [exists w, k; auto|]. apply resume_given in X2. destruct X2. congruence. }
  split; [auto|]. split. { intros (w & k & K1 & K2 & K3). exists w, k. split; [auto|]. split; [auto|]. apply Kp; [auto|discriminate]. }
  intros Nd Ng. destruct a.
  - left. split; [apply sadd_In; auto|]. intros (w & k & K1 & K2 & K3). destruct (Ch w _ K3) as [X|(h & b & X1 & X2)]; [apply Ng; exists w, k; auto|].
    pose proof (resume_given _ _ _ _ _ _ X2) as (_ & Z). pose proof (sh_kind _ _ Sh _ _ X1) as Y. assert (k = kind_of h) by congruence. subst k. rewrite (Z K1) in X2.
    destruct P7 as (P7 & _). exact (P7 eq_refl w h _ X1 X2).
  - right. split; [auto|]. destruct (Q eq_refl) as (w & h & x & X1 & X2). pose proof (resume_pop _ _ _ _ _ X2) as (Y1 & ->).
    pose proof (sh_kind _ _ Sh _ _ X1) as Y. specialize (P3 w h X1). rewrite X2 in P3. destruct (Rg w h X1) as [W|W].
    + left. exists w, (kind_of h). split; [auto|]. split; [auto|]. now apply P3.
    + right. exists w, (kind_of h). split; [auto|]. split; [auto|]. apply Kp; [auto|discriminate].
Qed.

Lemma phase_same ad ad' ks ks' s s' (G G' : Prop) f :
  (In f ad' <-> In f ad) -> futs s' f = futs s f -> (In f (pending s') <-> In f (pending s)) -> (In f (done s') <-> In f (done s)) -> cnt f (ready s') = cnt f (ready s) ->
  (G' <-> G) -> (Gw ks' (wst s') f <-> Gw ks (wst s) f) -> (Pc ks (wst s) -> Pc ks' (wst s')) -> phase ad ks s G f -> phase ad' ks' s' G' f.
Proof.
  intros A B C D E F H J [].
  - apply PhNone; rewrite ?B, ?E; tauto.
  - apply PhPending; rewrite ?B, ?E; tauto.
  - apply (PhReady _ _ _ _ _ r c); rewrite ?B, ?E; tauto.
  - apply (PhDone _ _ _ _ _ r c); rewrite ?B, ?E; tauto.
  - apply (PhGone _ _ _ _ _ r c); rewrite ?B, ?E; tauto.
Qed.

Lemma cnt_cons f j l : cnt f (j :: l) = (if is_cfut f j then 1 else 0) + cnt f l.
Proof. unfold cnt. cbn. now destruct (is_cfut f j). Qed.

Lemma Gw_snoc ks ws k x f : length ks = length ws -> (Gw (ks ++ [k]) (ws ++ [x]) f <-> Gw ks ws f \/ is_pop k = true /\ x = GRes (Some f)).
Proof.
  intros L. split.
  - intros (w & q & A & B & C). apply nth_snoc in C. apply nth_snoc in B. destruct C as [C|(-> & C)].
    + left. exists w, q. split; [auto|]. split; [|auto]. destruct B as [B|(-> & _)]; [auto|]. assert (length ks < length ws) by (apply nth_error_Some; congruence). lia.
    + destruct B as [B|(B1 & B2)]; [assert (length ws < length ks) by (apply nth_error_Some; congruence); lia|]. subst. auto.
  - intros [(w & q & A & B & C)|(A & ->)].
    + exists w, q. split; [auto|]. split; now apply nth_app_l.
    + exists (length ws), k. split; [auto|]. split; [rewrite <- L|]; apply nth_last.
Qed.
Lemma Pc_snoc ks ws k x : Pc ks ws -> Pc (ks ++ [k]) (ws ++ [x]).
Proof. intros (w & q & A & B & C). exists w, q. split; [auto|]. split; now apply nth_app_l. Qed.

Definition got (o : g_out) (f : nat) : Prop := o = OGot f.

Lemma phase_step ad ks s o (G : nat -> Prop) :
  shape ks s -> regs s -> (forall f, phase ad ks s (G f) f) -> (forall f, o = TAdd f -> ~ In f ad) ->
  forall f, phase (ad ++ added [o]) (ks ++ kinds o) (fst (g_step s o)) (G f \/ snd (g_step s o) = OGot f) f.
Proof.
  intros Sh Rg H No f. pose proof (H f) as Hf. destruct o as [a|a ra ca| |k i|w|i]; cbn [kinds added]; rewrite ?app_nil_r.
  - (* add *)
    cbn [g_step fst snd]. specialize (No a eq_refl). unfold add_future. destruct (futs s a) as [n|r c] eqn:Fa.
    + destruct (Nat.eq_dec f a) as [-> | D].
      * destruct Hf; try contradiction. destruct H4 as [X|(r & c & X)]; [|congruence]. assert (n = 0) by congruence. subst n.
        apply PhPending; cbn; auto; [apply in_app_iff; cbn; auto|now rewrite upd_same|apply sadd_In; auto|intros [?|?]; [auto|discriminate]].
      * eapply phase_same; [..|exact Hf]; cbn; try tauto.
        -- rewrite in_app_iff. cbn. intuition congruence.
        -- now rewrite upd_other.
        -- rewrite sadd_In. intuition congruence.
        -- intuition discriminate.
    + destruct (waited_track ks s a r c Sh Rg Fa) as (W1 & W2 & W3 & W4 & W5 & W6 & W7 & W8). destruct (Nat.eq_dec f a) as [-> | D].
      * destruct Hf; try contradiction. destruct (W8 H2 H6) as [(X & Y)|(X & Y)].
        -- apply (PhDone _ _ _ _ _ r c); [apply in_app_iff; cbn; auto|now rewrite W1|rewrite W2; tauto|auto|now rewrite W3|intros [?|?]; [auto|discriminate]|auto].
        -- apply (PhGone _ _ _ _ _ r c); [apply in_app_iff; cbn; auto|now rewrite W1|rewrite W2; tauto|auto|now rewrite W3|tauto].
      * eapply phase_same; [..|exact Hf].
        -- rewrite in_app_iff. cbn. intuition congruence.
        -- now rewrite W1.
        -- rewrite W2. tauto.
        -- auto.
        -- auto.
        -- intuition discriminate.
        -- auto.
        -- auto.
  - (* finish *)
    cbn [g_step]. destruct (futs s a) as [n|r c] eqn:Fa; cbn [fst snd].
    + destruct (Nat.eq_dec f a) as [-> | D].
      * destruct Hf; try congruence.
        -- destruct H4 as [X|(r & c & X)]; [|congruence]. assert (n = 0) by congruence. subst n. apply PhNone; cbn; auto; [rewrite app_nil_r; auto|right; rewrite upd_same; eauto|intros [?|?]; [auto|discriminate]].
        -- assert (n = 1) by congruence. subst n. apply (PhReady _ _ _ _ _ ra ca); cbn; auto; [now rewrite upd_same|rewrite cnt_app, H4; unfold cnt; cbn; now rewrite Nat.eqb_refl|intros [?|?]; [auto|discriminate]].
      * eapply phase_same; [..|exact Hf]; cbn; try tauto.
        -- now rewrite upd_other.
        -- rewrite cnt_app, cnt_repeat. destruct (a =? f) eqn:X; [apply Nat.eqb_eq in X; congruence|lia].
        -- intuition discriminate.
    + eapply phase_same; [..|exact Hf]; cbn; try tauto. intuition discriminate.
  - (* run *)
    cbn [g_step]. destruct (ready s) as [|j l] eqn:R; cbn [fst snd].
    { eapply phase_same; [..|exact Hf]; cbn; try tauto. intuition discriminate. }
    pose proof Sh as [A1 B1 C1 D1 E1 F1 G1]. rewrite R in F1, G1.
    set (s1 := {| futs := futs s; pending := pending s; done := done s; waiters := waiters s; wst := wst s; ready := l |}).
    assert (Sh1 : shape ks s1). { split; cbn; auto; [intros g X; apply F1|intros v X; apply G1]; cbn; auto. }
    destruct j as [a|v].
    + destruct (F1 a) as (r & c & Fa); [cbn; auto|]. destruct (waited_track ks s1 a r c Sh1 Rg Fa) as (W1 & W2 & W3 & W4 & W5 & W6 & W7 & W8).
      change (ready s1) with l in *. change (pending s1) with (pending s) in *. change (done s1) with (done s) in *. change (wst s1) with (wst s) in *. change (futs s1) with (futs s) in *.
      assert (Ca : cnt a (ready s) = S (cnt a l)) by (rewrite R, cnt_cons; cbn; now rewrite Nat.eqb_refl).
      destruct (Nat.eq_dec f a) as [-> | D].
      * destruct Hf; try lia. destruct (W8 H3 H6) as [(X & Y)|(X & Y)].
        -- apply (PhDone _ _ _ _ _ r c); [auto|now rewrite W1|rewrite W2; tauto|auto|rewrite W3; lia|intros [?|?]; [auto|discriminate]|auto].
        -- apply (PhGone _ _ _ _ _ r c); [auto|now rewrite W1|rewrite W2; tauto|auto|rewrite W3; lia|tauto].
      * eapply phase_same; [..|exact Hf].
        -- tauto.
        -- now rewrite W1.
        -- rewrite W2. tauto.
        -- auto.
        -- rewrite W3, R, cnt_cons. cbn. destruct (a =? f) eqn:X; [apply Nat.eqb_eq in X; congruence|lia].
        -- intuition discriminate.
        -- auto.
        -- auto.
    + eapply phase_same; [..|exact Hf]; cbn; try tauto; [rewrite R, cnt_cons; reflexivity|intuition discriminate].
  - (* wait *)
    cbn [g_step fst snd]. unfold add_handler. destruct (start k i s) as [h|[x d]] eqn:St.
    + eapply phase_same; [..|exact Hf]; cbn; try tauto; [intuition discriminate| |apply Pc_snoc].
      rewrite Gw_snoc by (symmetry; apply (sh_len _ _ Sh)). intuition discriminate.
    + destruct (start_end _ _ _ _ _ St) as (X1 & X2 & X3 & X4 & X5).
      assert (L : length ks = length (wst s)) by (symmetry; apply (sh_len _ _ Sh)).
      assert (Dec : (is_pop k = true /\ x = GRes (Some f)) \/ ~ (is_pop k = true /\ x = GRes (Some f))).
      { destruct (is_pop k); [|right; intros (? & _); discriminate]. destruct x as [|[g|]| |]; try (right; intros (_ & ?); discriminate). destruct (Nat.eq_dec g f) as [-> | Z]; [auto|right; intros (_ & ?); congruence]. }
      destruct Dec as [(Y1 & ->)|Y].
      * destruct (X4 f eq_refl) as (Z1 & Z2 & Z3). specialize (Z2 Y1). destruct Hf; try contradiction.
        apply (PhGone _ _ _ _ _ r c); cbn; auto. right. left. apply Gw_snoc; auto.
      * eapply phase_same; [..|exact Hf]; cbn; try tauto.
        -- split; [apply X3|]. intros Z. destruct (is_pop k) eqn:Pk; [|rewrite X5; auto].
           destruct x as [|[g|]| |]; try (rewrite X5; [auto|left; intros; discriminate]). destruct (X4 g eq_refl) as (_ & _ & T). apply T; [auto|]. intros ->. apply Y. auto.
        -- intuition discriminate.
        -- rewrite Gw_snoc by auto. tauto.
        -- apply Pc_snoc.
  - (* cancel *)
    cbn [g_step]. pose proof (settle_ok w GCancelled (wst s)) as T. destruct (settle w GCancelled (wst s)) as [ws js]. destruct T as (T1 & T2 & T3 & T4 & T5). cbn [fst snd].
    eapply phase_same; [..|exact Hf]; cbn; try tauto.
    + rewrite cnt_app, (cnt_waiters f js); [lia|]. intros j J. apply T5 in J. destruct J. eauto.
    + intuition discriminate.
    + split; intros (v & k & A & B & C); exists v, k; (split; [auto|]); (split; [auto|]).
      * destruct (Nat.eq_dec v w) as [-> | D]; [|now rewrite <- T2]. destruct (nth_error (wst s) w) as [[]|] eqn:W; try (rewrite T4 in C by discriminate; congruence). rewrite T3 in C by auto. discriminate.
      * destruct (Nat.eq_dec v w) as [-> | D]; [|now rewrite T2]. rewrite T4; [auto|congruence].
    + intros (v & k & A & B & C); exists v, k; (split; [auto|]); (split; [auto|]). destruct (Nat.eq_dec v w) as [-> | D]; [|now rewrite T2]. rewrite T4; [auto|congruence].
  - (* pop *)
    cbn [g_step]. destruct (pick i (done s)) as [a|] eqn:Pk; cbn [fst snd].
    + apply pick_In in Pk. destruct (Nat.eq_dec f a) as [-> | D].
      * destruct Hf; try contradiction. apply (PhGone _ _ _ _ _ r c); cbn; auto. rewrite sdel_In. tauto.
      * eapply phase_same; [..|exact Hf]; cbn; try tauto; [rewrite sdel_In; tauto|]. intuition congruence.
    + eapply phase_same; [..|exact Hf]; cbn; try tauto. intuition discriminate.
Qed.

Lemma phase_after os : NoDup (added os) -> forall f, phase (added os) (waits os) (g_after os) (In (OGot f) (g_outs os)) f.
Proof.
  induction os as [|o os IH] using rev_ind; intros N f.
  - apply PhNone; cbn; auto. intros ([|w] & k & _ & X & _); discriminate.
  - rewrite after_snoc, outs_snoc, waits_app, <- kinds_waits, added_app in *.
    assert (N1 : NoDup (added os)). { revert N. generalize (added os) as l. induction l as [|y l J]; cbn; intros X; [constructor|]. inversion X; subst. constructor; [rewrite in_app_iff in *; tauto|auto]. }
    assert (No : forall g, o = TAdd g -> ~ In g (added os)). { intros g -> X. cbn in N. apply NoDup_remove_2 in N. rewrite app_nil_r in N. contradiction. }
    pose proof (phase_step (added os) (waits os) (g_after os) o (fun g => In (OGot g) (g_outs os)) (shape_after os) (regs_after os) (IH N1) No f) as P.
    eapply phase_same; [..|exact P]; try tauto. rewrite in_app_iff. cbn. tauto.
Qed.

Lemma fails_failed os c f : fails c (futs (g_after os) f) = true <-> failed os c f.
Proof.
  unfold failed, fails. destruct (futs (g_after os) f) as [n|r d]; split.
  - discriminate.
  - intros (r & d & X & _). discriminate.
  - intros H. apply orb_true_iff in H. rewrite andb_true_iff in H. exists r, d. auto.
  - intros (r' & d' & X & H). injection X as <- <-. apply orb_true_iff. rewrite andb_true_iff. auto.
Qed.
Lemma fails_not os c f : fails c (futs (g_after os) f) = false <-> ~ failed os c f.
Proof. rewrite <- fails_failed. destruct (fails c (futs (g_after os) f)); intuition congruence. Qed.
Lemma ne_ex {A} (l : list A) : l <> [] -> exists x, In x l.
Proof. destruct l as [|x l]; [congruence|]. exists x. cbn. auto. Qed.
Lemma emp_no {A} (l : list A) : l = [] -> forall x, ~ In x l.
Proof. now intros ->. Qed.
Lemma no_emp {A} (l : list A) : (forall x, ~ In x l) -> l = [].
Proof. destruct l as [|x l]; [auto|]. intros H. destruct (H x). cbn. auto. Qed.

Lemma no_missed os w k : waiter os w k GWait -> nothing_yet os k.
Proof.
  intros W. destruct (waiting_handler _ _ _ W) as (h & <- & H). apply due_after in H. destruct h; cbn in *; auto.
  - destruct H as (A & B). split; [now apply ne_ex|now apply emp_no].
  - destruct H as (A & B). split; [now apply ne_ex|now apply emp_no].
  - destruct H as (A & B). split; [now apply ne_ex|]. intros f F. apply fails_not. auto.
  - lia.
  - now apply ne_ex.
Qed.

(** In terms of the state. *)
Definition awaits (s : group) (k : kind) (x : wstate) (M : nat -> Prop) : Prop :=
  match k with
  | KNext => x = GRes None
  | KFirst | KFirstPop => (exists f, x = GRes (Some f) /\ M f) \/ x = GRes None /\ pending s = [] /\ done s = []
  | KExc c _ => (exists f, x = GRes (Some f) /\ M f /\ fails c (futs s f) = true) \/ x = GRes None /\ pending s = [] /\ forall f, In f (done s) -> fails c (futs s f) = false
  | KN n => exists m, x = GCount m /\ n <= m
  | KAll => x = GRes None /\ pending s = []
  end.

Lemma start_awaits k i s x d : start k i s = inr (x, d) ->
  awaits {| futs := futs s; pending := pending s; done := d; waiters := waiters s; wst := wst s ++ [x]; ready := ready s |} k x (fun f => In f (done s)).
Proof.
  destruct k; cbn.
  - discriminate.
  - destruct (done s) as [|y l] eqn:E.
    + destruct (pending s); [|discriminate]. intros H; injection H as <- <-. auto.
    + intros H; injection H as <- <-. left. destruct (pick i (y :: l)) as [f|] eqn:P; [|apply pick_None in P; discriminate]. exists f. split; [auto|]. now apply pick_In in P.
  - destruct (pick i (done s)) as [f|] eqn:P.
    + intros H; injection H as <- <-. left. exists f. split; [auto|]. now apply pick_In in P.
    + destruct (pending s); [|discriminate]. intros H; injection H as <- <-. apply pick_None in P. auto.
  - destruct (pick i _) as [f|] eqn:P.
    + intros H; injection H as <- <-. left. exists f. apply pick_In, filter_In in P. tauto.
    + destruct (pending s); [|discriminate]. intros H; injection H as <- <-. apply pick_None in P. right. split; [auto|]. split; [auto|]. intros f F. exact (filter_none _ _ P f F).
  - destruct (_ <=? _) eqn:L; [|discriminate]. apply Nat.leb_le in L. intros H; injection H as <- <-. eauto.
  - destruct (pending s); [|discriminate]. intros H; injection H as <- <-. auto.
Qed.

Lemma waited_awaits ks s f r c w k x : shape ks s -> (forall v h, In (v, h) (waiters s) -> due s h) -> futs s f = FD r c ->
  nth_error ks w = Some k -> nth_error (wst s) w = Some GWait -> nth_error (wst (waited_done f s)) w = Some x -> x <> GWait ->
  awaits (waited_done f s) k x (fun g => g = f).
Proof.
  intros Sh Du Ff K W. unfold waited_done. pose proof (notify_ok f (futs s f) (sdel f (pending s)) (waiters s) (wst s) (sh_nd _ _ Sh)) as P.
  destruct (notify f (futs s f) (sdel f (pending s)) (waiters s) (wst s)) as [[[a hs] ws] js]. destruct P as (_ & _ & P3 & _). cbn [wst]. intros X Nx.
  pose proof (sh_wait _ _ Sh w W) as H. apply In_fst in H. destruct H as (h & H). pose proof (sh_kind _ _ Sh w h H) as Kh. assert (k = kind_of h) by congruence. subst k.
  specialize (P3 w h H). pose proof (Du w h H) as D. destruct (resume h f (futs s f) (sdel f (pending s))) as [h'|[b y]] eqn:R; [destruct P3; congruence|].
  destruct P3 as (P3 & _). specialize (P3 W). assert (y = x) by congruence. subst y. clear P3 K Kh.
  destruct h; cbn in R |- *.
  - injection R as <- <-. auto.
  - injection R as <- <-. left. eauto.
  - injection R as <- <-. left. eauto.
  - destruct (fails _ _) eqn:Fl; [injection R as <- <-; left; exists f; auto|]. destruct (sdel f (pending s)) eqn:Sd; [|discriminate]. injection R as <- <-.
    right. split; [auto|]. split; [auto|]. intros g G. cbn in D. destruct D as (_ & D). destruct a; [apply sadd_In in G; destruct G as [-> | G]; auto|auto].
  - destruct (_ <=? _) eqn:L; [|discriminate]. apply Nat.leb_le in L. injection R as <- <-. eauto.
  - destruct (sdel f (pending s)) eqn:Sd; [|discriminate]. injection R as <- <-. auto.
Qed.

Lemma awaits_awaited os k x (M : nat -> Prop) : (forall f, M f -> member_done os f) -> awaits (g_after os) k x M -> awaited os k x.
Proof.
  intros H. destruct k; cbn; auto.
  - intros [(f & A & B)|(A & B & C)]; [left; eauto|right]. split; [auto|]. split; now apply emp_no.
  - intros [(f & A & B)|(A & B & C)]; [left; eauto|right]. split; [auto|]. split; now apply emp_no.
  - intros [(f & A & B & C)|(A & B & C)].
    + left. exists f. split; [auto|]. split; [auto|]. now apply fails_failed.
    + right. split; [auto|]. split; [now apply emp_no|]. intros g G. apply fails_not. now apply C.
  - intros (A & B). split; [auto|now apply emp_no].
Qed.

Lemma not_early os o w k x : ends os o w k x -> awaited (os ++ [o]) k x.
Proof.
  intros ((K & W) & N1 & N2 & Old). pose proof (shape_after os) as Sh. pose proof (source_after (os ++ [o])) as So. pose proof (due_after os) as Du. pose proof (shape_after (os ++ [o])) as Sh'.
  assert (M : forall f, In f (done (g_after os)) -> member_done (os ++ [o]) f).
  { intros f F. destruct (sh_done _ _ Sh f F) as (r & c & X). split; [apply (so_done _ _ (source_after os)) in F; rewrite added_app, in_app_iff; auto|].
    assert (X' : futs (g_after (os ++ [o])) f = FD r c).
    { rewrite after_snoc. clear - X. destruct o; cbn [g_step].
      - unfold add_future. destruct (futs (g_after os) f0) eqn:Y; cbn [fst]; [cbn; rewrite upd_other; [auto|congruence]|]. unfold waited_done. destruct (notify f0 _ _ _ _) as [[[a hs] ws] js]. exact X.
      - destruct (futs (g_after os) f0) eqn:Y; cbn [fst]; [cbn; rewrite upd_other; [auto|congruence]|exact X].
      - destruct (ready (g_after os)) as [|j l]; [exact X|]. destruct j; cbn [fst]; [|exact X]. unfold waited_done. destruct (notify _ _ _ _ _) as [[[a hs] ws] js]. exact X.
      - cbn [fst]. unfold add_handler. destruct (start _ _ _) as [h|[y d]]; exact X.
      - destruct (settle _ _ _); exact X.
      - destruct (pick _ _); exact X. }
    exists r, c. split; [auto|]. apply (so_fin _ _ So). auto. }
  assert (Ko : nth_error (wst (g_after os)) w = Some GWait -> nth_error (waits os) w = Some k).
  { intros Y. rewrite waits_app in K. rewrite nth_error_app1 in K; [auto|]. rewrite <- (sh_len _ _ Sh). apply nth_error_Some. congruence. }
  assert (Z : forall a r c, futs (g_after (os ++ [o])) a = FD r c -> In a (added (os ++ [o])) -> member_done (os ++ [o]) a).
  { intros a r c X Y. split; [auto|]. exists r, c. split; [auto|]. now apply (so_fin _ _ So). }
  rewrite after_snoc in W. destruct o as [a|a ra ca| |q i|v|i]; cbn [g_step] in W.
  - cbn [fst] in W. unfold add_future in W. destruct (futs (g_after os) a) as [n|r c] eqn:Fa; [cbn in W; destruct Old as [Old|Old]; congruence|].
    assert (Len : length (wst (waited_done a (g_after os))) = length (wst (g_after os))).
    { unfold waited_done. pose proof (notify_ok a (futs (g_after os) a) (sdel a (pending (g_after os))) (waiters (g_after os)) (wst (g_after os)) (sh_nd _ _ Sh)) as P. destruct (notify a _ _ _ _) as [[[b hs] ws] js]. cbn. tauto. }
    destruct Old as [Old|Old]; [apply nth_error_None in Old; assert (w < length (wst (waited_done a (g_after os)))) by (apply nth_error_Some; congruence); lia|].
    apply (awaits_awaited _ _ _ (fun g => g = a)).
    + intros g ->. apply (Z a r c).
      * rewrite after_snoc. cbn [g_step fst]. unfold add_future. rewrite Fa. unfold waited_done. destruct (notify a _ _ _ _) as [[[b hs] ws] js]. exact Fa.
      * rewrite added_app, in_app_iff. cbn. auto.
    + rewrite after_snoc. cbn [g_step fst]. unfold add_future. rewrite Fa. eapply waited_awaits; eauto.
  - destruct (futs (g_after os) a); cbn in W; destruct Old as [Old|Old]; congruence.
  - destruct (ready (g_after os)) as [|j l] eqn:R; [cbn in W; destruct Old as [Old|Old]; congruence|]. cbn [fst] in W.
    destruct j as [a|v]; [|cbn in W; destruct Old as [Old|Old]; congruence].
    pose proof Sh as [A1 B1 C1 D1 E1 F1 G1]. rewrite R in F1, G1. destruct (F1 a) as (r & c & Fa); [cbn; auto|].
    set (s1 := {| futs := futs (g_after os); pending := pending (g_after os); done := done (g_after os); waiters := waiters (g_after os); wst := wst (g_after os); ready := l |}) in *.
    assert (Sh1 : shape (waits os) s1). { split; cbn; auto; [intros g X; apply F1|intros u X; apply G1]; cbn; auto. }
    assert (Len : length (wst (waited_done a s1)) = length (wst (g_after os))).
    { unfold waited_done. pose proof (notify_ok a (futs s1 a) (sdel a (pending s1)) (waiters s1) (wst s1) (sh_nd _ _ Sh)) as P. destruct (notify a _ _ _ _) as [[[b hs] ws] js]. cbn. tauto. }
    destruct Old as [Old|Old]; [apply nth_error_None in Old; assert (w < length (wst (waited_done a s1))) by (apply nth_error_Some; congruence); lia|].
    apply (awaits_awaited _ _ _ (fun g => g = a)).
    + intros g ->. apply (Z a r c).
      * rewrite after_snoc. cbn [g_step]. rewrite R. cbn [fst]. fold s1. unfold waited_done. destruct (notify a _ _ _ _) as [[[b hs] ws] js]. exact Fa.
      * rewrite added_app, in_app_iff. left. apply (so_ready _ _ (source_after os)). rewrite R. cbn. auto.
    + rewrite after_snoc. cbn [g_step]. rewrite R. cbn [fst]. fold s1. eapply waited_awaits; eauto.
  - cbn [fst] in W. unfold add_handler in W. destruct (start q i (g_after os)) as [h|[y d]] eqn:St; cbn in W.
    + apply nth_snoc in W. destruct W as [W|(_ & W)]; [destruct Old as [Old|Old]; congruence|congruence].
    + apply nth_snoc in W. destruct W as [W|(-> & <-)]; [destruct Old as [Old|Old]; congruence|].
      rewrite waits_app, (sh_len _ _ Sh) in K. cbn in K. rewrite nth_last in K. injection K as <-.
      apply (awaits_awaited _ _ _ (fun f => In f (done (g_after os)))); [exact M|]. rewrite after_snoc. cbn [g_step fst]. unfold add_handler. rewrite St. now apply (start_awaits q i).
  - pose proof (settle_ok v GCancelled (wst (g_after os))) as T. destruct (settle v GCancelled (wst (g_after os))) as [ws js]. destruct T as (T1 & T2 & T3 & T4 & T5). cbn in W.
    destruct (Nat.eq_dec w v) as [-> | D]; [|rewrite T2 in W by auto; destruct Old as [Old|Old]; congruence].
    destruct Old as [Old|Old]; [rewrite T4 in W by congruence; congruence|]. rewrite T3 in W by auto. congruence.
  - destruct (pick i (done (g_after os))); cbn in W; destruct Old as [Old|Old]; congruence.
Qed.

(** ** The theorems *)
Lemma tracked os f : NoDup (added os) -> In f (added os) ->
  (in_pending os f /\ ~ in_done os f /\ ~ given os f) \/
  (in_done os f /\ ~ in_pending os f /\ ~ given os f) \/
  (~ in_pending os f /\ ~ in_done os f /\ (given os f \/ pop_cancelled os)).
Proof.
  intros N A. assert (Ge : given os f <-> In (OGot f) (g_outs os) \/ Gw (waits os) (wst (g_after os)) f) by (unfold given, Gw, waiter; reflexivity).
  unfold in_pending, in_done. change (pop_cancelled os) with (Pc (waits os) (wst (g_after os))). rewrite Ge. destruct (phase_after os N f); tauto.
Qed.
Lemma given_gone os f : NoDup (added os) -> given os f -> In f (added os) /\ finished os f /\ ~ in_pending os f /\ ~ in_done os f.
Proof.
  intros N G. assert (Ge : In (OGot f) (g_outs os) \/ Gw (waits os) (wst (g_after os)) f) by (exact G). unfold in_pending, in_done.
  destruct (phase_after os N f) as [| | | |r c]; try tauto. split; [auto|]. split; [|auto]. exists r, c. now apply (so_fin _ _ (source_after os)).
Qed.
Lemma done_finished os f : in_done os f -> In f (added os) /\ finished os f.
Proof.
  intros H. split; [now apply (so_done _ _ (source_after os))|]. destruct (sh_done _ _ (shape_after os) f H) as (r & c & X). exists r, c. now apply (so_fin _ _ (source_after os)).
Qed.
Lemma step_nonrun_futs s o f r c : futs s f = FD r c -> futs (fst (g_step s o)) f = FD r c.
Proof.
  intros X. destruct o as [g|g r' c'| |k i|w|i]; cbn [g_step].
  - unfold add_future. destruct (futs s g) eqn:Y; cbn [fst]; [cbn; rewrite upd_other; [auto|congruence]|]. unfold waited_done. destruct (notify g _ _ _ _) as [[[a hs] ws] js]. exact X.
  - destruct (futs s g) eqn:Y; cbn [fst]; [cbn; rewrite upd_other; [auto|congruence]|exact X].
  - destruct (ready s) as [|j l]; [exact X|]. destruct j; cbn [fst]; [|exact X]. unfold waited_done. destruct (notify _ _ _ _ _) as [[[a hs] ws] js]. exact X.
  - cbn [fst]. unfold add_handler. destruct (start _ _ _) as [h|[y d]]; exact X.
  - destruct (settle _ _ _); exact X.
  - destruct (pick _ _); exact X.
Qed.
Lemma finished_state os f : finished os f -> exists r c, futs (g_after os) f = FD r c.
Proof.
  induction os as [|o os IH] using rev_ind; [intros (r & c & [])|]. intros (r & c & H). rewrite after_snoc. apply in_app_iff in H. destruct H as [H|[H|[]]].
  - destruct IH as (r' & c' & X); [now exists r, c|]. exists r', c'. now apply step_nonrun_futs.
  - subst o. destruct (futs (g_after os) f) as [n|r' c'] eqn:E; [|exists r', c'; now apply step_nonrun_futs]. exists r, c. cbn [g_step]. rewrite E. cbn. apply upd_same.
Qed.
(** A future which is done stays pending only as long as its callback is in the queue. *)
Lemma pending_callback os f : NoDup (added os) -> in_pending os f -> finished os f -> In (CFut f) (ready (g_after os)).
Proof.
  intros N P F. destruct (finished_state os f F) as (r & c & X). unfold in_pending in P. destruct (phase_after os N f); try contradiction; [congruence|]. apply cnt_In. lia.
Qed.
Lemma idle_moved os f : NoDup (added os) -> ready (g_after os) = [] -> In f (added os) -> finished os f -> ~ in_pending os f.
Proof. intros N R A F P. pose proof (pending_callback os f N P F) as X. rewrite R in X. contradiction. Qed.
