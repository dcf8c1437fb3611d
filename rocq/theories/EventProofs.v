From Coq Require Import List Arith Bool Lia.
From Verif Require Import Bytes EventModel EventSpec.
Import ListNotations.

Lemma exec_app : forall a b s, exec s (a ++ b) = let '(s1, l1) := exec s a in let '(s2, l2) := exec s1 b in (s2, l1 ++ l2).
Proof.
  induction a as [|x a IH]; intros b s; cbn [app exec].
  - destruct (exec s b). reflexivity.
  - destruct (step s x) as [s1 l1]. rewrite IH. destruct (exec s1 a) as [s2 l2]. destruct (exec s2 b) as [s3 l3]. rewrite app_assoc. reflexivity.
Qed.

Lemma upd_same : forall f t x, upd f t x t = x.
Proof. intros. unfold upd. rewrite Nat.eqb_refl. reflexivity. Qed.
Lemma upd_other : forall f t x u, u <> t -> upd f t x u = f u.
Proof. intros f t x u H. unfold upd. apply Nat.eqb_neq in H. rewrite H. reflexivity. Qed.

Lemma wake_spec : forall ws f, let '(g, l) := wake ws f in
  (forall t, g t = match f t with Pending => if in_dec Nat.eq_dec t ws then Woken else Pending | x => x end) /\
  NoDup l /\ (forall t, In t l <-> In t ws /\ f t = Pending).
Proof.
  induction ws as [|w ws IH]; intro f; cbn [wake].
  - csplit; [intro t; destruct (f t); reflexivity|constructor|intro t; cbn; tauto].
  - destruct (f w) eqn:E.
    1: { generalize (IH (upd f w Woken)). destruct (wake ws (upd f w Woken)) as [g l]. intros (A & B & C). csplit.
      - intro t. rewrite A. destruct (Nat.eq_dec t w) as [->|N].
        + rewrite upd_same, E. destruct (in_dec Nat.eq_dec w (w :: ws)) as [_|X]; [reflexivity|destruct X; left; reflexivity].
        + rewrite upd_other by assumption. destruct (f t); auto. destruct (in_dec Nat.eq_dec t ws), (in_dec Nat.eq_dec t (w :: ws)); cbn in *; auto; tauto || (destruct n; tauto) || auto.
          destruct i; [congruence|tauto].
      - constructor; [|exact B]. rewrite C. intros [_ Q]. rewrite upd_same in Q. discriminate.
      - intro t. cbn [In]. rewrite C. destruct (Nat.eq_dec t w) as [->|N].
        + rewrite upd_same. split; [intros _; tauto|intros _; left; reflexivity].
        + rewrite upd_other by assumption. split; [intros [X|X]; [congruence|tauto]|intros [[X|X] Y]; [congruence|tauto]]. }
    all: generalize (IH f); destruct (wake ws f) as [g l]; intros (A & B & C); csplit; [|exact B|].
    all: try (intro t; cbn [In]; rewrite C; split; [tauto|intros [[->|X] Y]; [congruence|tauto]]).
    all: intro t; rewrite A; destruct (f t) eqn:Et; auto;
      destruct (in_dec Nat.eq_dec t ws) as [i|i], (in_dec Nat.eq_dec t (w :: ws)) as [j|j]; auto; exfalso; cbn in j;
      [apply j; right; exact i|destruct j as [->|j]; [congruence|contradiction]].
Qed.

Definition inv (s : ev) : Prop :=
  (forall t, e_stat s t = Pending -> In t (e_waiters s) /\ t < e_next s) /\
  (e_value s = true -> forall t, e_stat s t <> Pending) /\ (forall t, In t (e_waiters s) -> t < e_next s).

Lemma init_inv : inv init.
Proof. unfold inv. csplit; cbn; try discriminate; intros; contradiction. Qed.

(** One step for a waiter that exists already. *)
Lemma step_spec : forall s x, inv s -> let '(s', l) := step s x in
  inv s' /\ e_value s' = (match x with OSet => true | OClear => false | _ => e_value s end) /\
  e_next s' = e_next s + (match x with OWait => 1 | _ => 0 end) /\
  (forall t, t < e_next s -> e_stat s' t = waiter_step t (e_stat s t) x) /\
  NoDup l /\ (forall t, In t l <-> x = OSet /\ e_stat s t = Pending) /\
  (x = OWait -> e_stat s' (e_next s) = if e_value s then Passed else Pending).
Proof.
  intros s x (I1 & I2 & I3). destruct x as [| | |t|t]; cbn [step].
  - destruct (e_value s) eqn:V; cbn [e_value e_next e_stat e_waiters].
    + csplit; auto; try lia.
      * unfold inv. cbn [e_stat e_waiters e_next e_value]. csplit.
        -- intros t H. destruct (Nat.eq_dec t (e_next s)) as [->|N]; [rewrite upd_same in H; discriminate|]. rewrite upd_other in H by assumption.
           destruct (I2 eq_refl t H).
        -- intros _ t H. destruct (Nat.eq_dec t (e_next s)) as [->|N]; [rewrite upd_same in H; discriminate|]. rewrite upd_other in H by assumption.
           destruct (I2 eq_refl t H).
        -- intros t H. apply I3 in H. lia.
      * intros t H. rewrite upd_other by lia. cbn. destruct (e_stat s t); reflexivity.
      * constructor.
      * intro t. cbn. split; [tauto|intros [Q _]; discriminate].
      * intros _. apply upd_same.
    + csplit; auto; try lia.
      * unfold inv. cbn [e_stat e_waiters e_next e_value]. csplit.
        -- intros t H. rewrite in_app_iff. destruct (Nat.eq_dec t (e_next s)) as [->|N]; [cbn; split; [tauto|lia]|]. rewrite upd_other in H by assumption.
           apply I1 in H. split; [tauto|lia].
        -- intro Q. congruence.
        -- intros t H. apply in_app_iff in H. destruct H as [H|[<-|[]]]; [apply I3 in H|]; lia.
      * intros t H. rewrite upd_other by lia. cbn. destruct (e_stat s t); reflexivity.
      * constructor.
      * intro t. cbn. split; [tauto|intros [Q _]; discriminate].
      * intros _. apply upd_same.
  - destruct (e_value s) eqn:V.
    + csplit; auto; try lia; try discriminate.
      * unfold inv. auto.
      * intros t H. cbn. specialize (I2 eq_refl t). destruct (e_stat s t); congruence.
      * constructor.
      * intro t. cbn. split; [tauto|intros [_ Q]; destruct (I2 eq_refl t Q)].
    + generalize (wake_spec (e_waiters s) (e_stat s)). destruct (wake (e_waiters s) (e_stat s)) as [f l]. intros (A & B & C).
      cbn [e_value e_next e_stat e_waiters].
      assert (P : forall t, e_stat s t = Pending -> f t = Woken).
      { intros t H. rewrite A, H. destruct (in_dec Nat.eq_dec t (e_waiters s)); auto. apply I1 in H. tauto. }
      assert (NP : forall t, f t <> Pending).
      { intros t H. assert (G := A t). destruct (e_stat s t) eqn:E; rewrite H in G; try discriminate. apply P in E. congruence. }
      csplit; auto; try lia; try discriminate.
      * unfold inv. cbn [e_stat e_waiters e_next e_value]. csplit.
        -- intros t H. destruct (NP t H).
        -- auto.
        -- intros t [].
      * intros t H. cbn. rewrite A. destruct (e_stat s t) eqn:E; auto. destruct (in_dec Nat.eq_dec t (e_waiters s)); auto. apply I1 in E. tauto.
      * intro t. rewrite C. split; [tauto|]. intros [_ Q]. split; [apply I1; exact Q|exact Q].
  - cbn [e_value e_next e_stat e_waiters]. csplit; auto; try lia; try discriminate.
    + unfold inv. cbn [e_stat e_waiters e_next e_value]. csplit; auto. discriminate.
    + constructor.
    + intro t. cbn. split; [tauto|intros [Q _]; discriminate].
  - destruct (Nat.ltb_spec t (e_next s)) as [L|L].
    + cbn [e_value e_next e_stat e_waiters].
      set (g := match e_stat s t with Pending => _ | Woken => _ | _ => _ end).
      assert (G : forall u, g u = waiter_step u (e_stat s u) (OCancel t)).
      { intro u. unfold g. cbn [waiter_step]. destruct (Nat.eq_dec u t) as [->|N].
        - rewrite Nat.eqb_refl. destruct (e_stat s t) eqn:E; rewrite ?upd_same, ?E; reflexivity.
        - assert (N' : Nat.eqb t u = false) by (apply Nat.eqb_neq; congruence). rewrite N'.
          destruct (e_stat s t); rewrite ?upd_other by assumption; destruct (e_stat s u); reflexivity. }
      assert (GP : forall u, g u = Pending -> e_stat s u = Pending).
      { intros u H. rewrite G in H. cbn in H. destruct (e_stat s u); try discriminate; auto; destruct (Nat.eqb t u); discriminate. }
      csplit; auto; try lia; try discriminate.
      * unfold inv. cbn [e_stat e_waiters e_next e_value]. csplit; auto. intros V u H. apply GP in H. destruct (I2 V u H).
      * constructor.
      * intro u. cbn. split; [tauto|intros [Q _]; discriminate].
    + csplit; auto; try lia; try discriminate.
      * unfold inv; auto.
      * intros u H. cbn [waiter_step]. assert (N' : Nat.eqb t u = false) by (apply Nat.eqb_neq; lia). rewrite N'. destruct (e_stat s u); reflexivity.
      * constructor.
      * intro u. cbn. split; [tauto|intros [Q _]; discriminate].
  - destruct (Nat.ltb_spec t (e_next s)) as [L|L].
    + cbn [e_value e_next e_stat e_waiters].
      set (g := match e_stat s t with Pending => _ | Woken => _ | _ => _ end).
      assert (G : forall u, g u = waiter_step u (e_stat s u) (OResume t)).
      { intro u. unfold g. cbn [waiter_step]. destruct (Nat.eq_dec u t) as [->|N].
        - rewrite Nat.eqb_refl. destruct (e_stat s t) eqn:E; rewrite ?upd_same, ?E; reflexivity.
        - assert (N' : Nat.eqb t u = false) by (apply Nat.eqb_neq; congruence). rewrite N'.
          destruct (e_stat s t); rewrite ?upd_other by assumption; destruct (e_stat s u); reflexivity. }
      assert (GP : forall u, g u = Pending -> e_stat s u = Pending).
      { intros u H. rewrite G in H. cbn in H. destruct (e_stat s u); try discriminate; auto; destruct (Nat.eqb t u); discriminate. }
      csplit; auto; try lia; try discriminate.
      * unfold inv. cbn [e_stat e_waiters e_next e_value]. csplit; auto. intros V u H. apply GP in H. destruct (I2 V u H).
      * constructor.
      * intro u. cbn. split; [tauto|intros [Q _]; discriminate].
    + csplit; auto; try lia; try discriminate.
      * unfold inv; auto.
      * intros u H. cbn [waiter_step]. assert (N' : Nat.eqb t u = false) by (apply Nat.eqb_neq; lia). rewrite N'. destruct (e_stat s u); reflexivity.
      * constructor.
      * intro u. cbn. split; [tauto|intros [Q _]; discriminate].
Qed.

Lemma exec_inv : forall ops, let s := fst (exec init ops) in inv s /\ e_value s = flag ops /\ e_next s = waits ops.
Proof.
  intro ops. induction ops as [|x ops IH] using rev_ind; cbv zeta in *.
  - csplit; [exact init_inv|reflexivity|reflexivity].
  - rewrite exec_app. destruct (exec init ops) as [s l]. cbn [fst] in IH. destruct IH as (I & V & N). cbn [exec].
    generalize (step_spec s x I). destruct (step s x) as [s' l']. cbn [fst]. intros (A & B & C & _). csplit; auto.
    + unfold flag in *. rewrite fold_left_app. cbn [fold_left]. rewrite B, V. reflexivity.
    + unfold waits in *. rewrite filter_app, app_length. rewrite C, N. destruct x; reflexivity.
Qed.

Lemma exec_waiter : forall after s t, inv s -> t < e_next s ->
  e_stat (fst (exec s after)) t = fold_left (waiter_step t) after (e_stat s t).
Proof.
  induction after as [|x after IH]; intros s t I L; [reflexivity|]. cbn [exec fold_left].
  generalize (step_spec s x I). destruct (step s x) as [s' l']. intros (A & B & C & D & _).
  specialize (IH s' t A ltac:(lia)). destruct (exec s' after) as [s2 l2]. cbn [fst] in *. rewrite IH, D by assumption. reflexivity.
Qed.

Lemma waiter_automaton : forall before after, let t := waits before in
  let s := fst (exec init (before ++ OWait :: after)) in
  e_stat s t = if flag before then Passed else waiter t after.
Proof.
  intros before after t s. unfold s. rewrite exec_app. generalize (exec_inv before). destruct (exec init before) as [s0 l0]. cbv zeta. cbn [fst].
  intros (I & V & N). cbn [exec]. generalize (step_spec s0 OWait I). destruct (step s0 OWait) as [s1 l1]. intros (A & B & C & D & _ & _ & E).
  assert (L : t < e_next s1) by (unfold t; lia). generalize (exec_waiter after s1 t A L). destruct (exec s1 after) as [s2 l2]. cbn [fst]. intros ->.
  unfold t. rewrite <- N, E, V by reflexivity. destruct (flag before); [|reflexivity].
  clear. induction after as [|x after IH]; [reflexivity|]. cbn [fold_left]. replace (waiter_step (e_next s0) Passed x) with Passed by (destruct x; reflexivity). exact IH.
Qed.

Definition count (t : nat) (l : list nat) : nat := count_occ Nat.eq_dec l t.

Lemma count_nodup : forall t l, NoDup l -> count t l = if in_dec Nat.eq_dec t l then 1 else 0.
Proof.
  intros t l H. unfold count. destruct (in_dec Nat.eq_dec t l) as [i|i].
  - apply NoDup_count_occ'; assumption.
  - apply count_occ_not_In. assumption.
Qed.

Lemma exec_wakes : forall after s t, inv s -> t < e_next s ->
  count t (snd (exec s after)) = match e_stat s t with Pending => if set_first t after then 1 else 0 | _ => 0 end.
Proof.
  induction after as [|x after IH]; intros s t I L; cbn [exec].
  - cbn. destruct (e_stat s t); reflexivity.
  - generalize (step_spec s x I). destruct (step s x) as [s' l']. intros (A & B & C & D & E & F & _).
    specialize (IH s' t A ltac:(lia)). destruct (exec s' after) as [s2 l2]. cbn [snd] in *. unfold count in *. rewrite count_occ_app.
    fold (count t l') in *. rewrite count_nodup by assumption. rewrite IH, D by assumption.
    destruct (in_dec Nat.eq_dec t l') as [i|i].
    + apply F in i. destruct i as [-> ->]. reflexivity.
    + assert (NI : ~ (x = OSet /\ e_stat s t = Pending)) by (intro Q; apply i, F; exact Q).
      destruct x as [| | |u|u]; cbn [waiter_step set_first]; destruct (e_stat s t); try reflexivity.
      * destruct NI. auto.
      * destruct (Nat.eqb u t); reflexivity.
      * destruct (Nat.eqb u t); reflexivity.
      * destruct (Nat.eqb u t); reflexivity.
      * destruct (Nat.eqb u t); reflexivity.
      * destruct (Nat.eqb u t); reflexivity.
Qed.

Lemma exec_fresh : forall ops s t, inv s -> e_next s <= t -> count t (snd (exec s ops)) = 0 \/ t < e_next (fst (exec s ops)).
Proof.
  induction ops as [|x ops IH]; intros s t I L; cbn [exec]; [left; reflexivity|].
  generalize (step_spec s x I). destruct (step s x) as [s' l']. intros (A & B & C & D & E & F & _).
  assert (Z : count t l' = 0).
  { apply count_occ_not_In. intro Q. apply F in Q. destruct Q as [_ Q]. destruct I as (I1 & _). apply I1 in Q. lia. }
  destruct (le_lt_dec (e_next s') t) as [G|G].
  - destruct (IH s' t A G) as [Q|Q]; destruct (exec s' ops) as [s2 l2]; cbn [fst snd] in *.
    + left. unfold count in *. rewrite count_occ_app. lia.
    + right. exact Q.
  - right. assert (M : forall ops s, inv s -> e_next s <= e_next (fst (exec s ops))).
    { clear. induction ops as [|x ops IH]; intros s I; cbn [exec fst]; [lia|]. generalize (step_spec s x I). destruct (step s x) as [s' l'].
      intros (A & _ & C & _). specialize (IH s' A). destruct (exec s' ops). cbn [fst] in *. lia. }
    specialize (M ops s' A). destruct (exec s' ops). cbn [fst] in *. lia.
Qed.

Lemma wakes_once : forall before after, flag before = false -> let t := waits before in
  count t (snd (exec init (before ++ OWait :: after))) = if set_first t after then 1 else 0.
Proof.
  intros before after FB t. rewrite exec_app. generalize (exec_inv before) (exec_fresh before init t init_inv ltac:(cbn; lia)).
  destruct (exec init before) as [s0 l0]. cbv zeta. cbn [fst snd]. intros (I & V & N) FR. cbn [exec].
  generalize (step_spec s0 OWait I). destruct (step s0 OWait) as [s1 l1]. intros (A & B & C & D & E & F & G).
  assert (L : t < e_next s1) by (unfold t; lia). generalize (exec_wakes after s1 t A L). destruct (exec s1 after) as [s2 l2]. cbn [snd]. intro W.
  unfold count in *. rewrite !count_occ_app. fold (count t l1). rewrite (count_nodup t l1 E). rewrite W.
  unfold t in *. rewrite <- N, G, V, FB by reflexivity.
  destruct FR as [FR|FR]; [|lia]. rewrite N, FR. destruct (in_dec Nat.eq_dec (waits before) l1) as [i|i]; [apply F in i; destruct i; discriminate|]. reflexivity.
Qed.

(** * About the automaton *)

Lemma waiter_cases : forall t after st, fold_left (waiter_step t) after st = Passed -> st = Pending -> set_first t after = true.
Proof.
  intros t after. induction after as [|x after IH]; intros st H E; subst; [discriminate|]. cbn [fold_left set_first] in *.
  assert (G : forall l st, st = Cancelled \/ st = Raised -> fold_left (waiter_step t) l st <> Passed).
  { clear. induction l as [|x l IH]; intros st [->| ->]; cbn [fold_left]; try discriminate; apply IH; destruct x; cbn; auto; destruct (Nat.eqb t0 t); auto. }
  destruct x as [| | |u|u]; cbn [waiter_step] in H; eauto.
  destruct (Nat.eqb u t); [|eauto]. exfalso. apply (G after Cancelled); auto.
Qed.

Lemma pass_needs_set : forall before after, let t := waits before in
  e_stat (fst (exec init (before ++ OWait :: after))) t = Passed -> flag before = true \/ set_first t after = true.
Proof.
  intros before after t H. unfold t in *. rewrite waiter_automaton in H. destruct (flag before); [left; reflexivity|right]. eapply waiter_cases; eauto.
Qed.

Lemma no_waiter_left : forall ops t, flag ops = true -> e_stat (fst (exec init ops)) t <> Pending.
Proof. intros ops t H. destruct (exec_inv ops) as ((_ & I & _) & V & _). apply I. rewrite V. exact H. Qed.
