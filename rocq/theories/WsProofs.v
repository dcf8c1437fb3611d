From Coq Require Import List Arith Bool Lia Sorting.Sorted.
From Verif Require LockModel LockSpec LockProofs QueueModel QueueSpec QueueProofs.
From Verif Require Import WsModel WsSpec.
Import ListNotations.

(** * Writing *)

Lemma w_run_app : forall a b s, w_run s (a ++ b) = w_run (w_run s a) b.
Proof. induction a as [|o a IH]; intros b s; [reflexivity|]. cbn. apply IH. Qed.
Lemma w_outs_app : forall a b s, w_outs s (a ++ b) = w_outs s a ++ w_outs (w_run s a) b.
Proof. induction a as [|o a IH]; intros b s; [reflexivity|]. cbn. rewrite IH. reflexivity. Qed.
Lemma w_outs_length : forall a s, length (w_outs s a) = length a.
Proof. induction a as [|o a IH]; intros s; [reflexivity|]. cbn. rewrite IH. reflexivity. Qed.

Lemma closes_app : forall a b, closes (a ++ b) = closes a ++ closes b.
Proof. intros a b. unfold closes. rewrite map_app, filter_app. reflexivity. Qed.
Lemma written_app : forall a b, written (a ++ b) = written a ++ written b.
Proof. intros a b. apply flat_map_app. Qed.
Lemma issued_app : forall a b t f, issued a t f -> issued (a ++ b) t f.
Proof.
  intros a b t f [i [o [H1 [H2 H3]]]]. exists i, o.
  assert (L : i < length a) by (apply nth_error_Some; congruence).
  split; [rewrite nth_error_app1; assumption|]. split; [|exact H3].
  rewrite w_outs_app, nth_error_app1 by (rewrite w_outs_length; exact L). exact H2.
Qed.
Lemma issued_last : forall a o t f, snd (w_step (w_run w_init a) o) = Started t -> asks o f -> issued (a ++ [o]) t f.
Proof.
  intros a o t f H A. exists (length a), o. split; [|split; [|exact A]].
  - rewrite nth_error_app2, Nat.sub_diag by lia. reflexivity.
  - rewrite w_outs_app, nth_error_app2; rewrite w_outs_length; [|lia]. rewrite Nat.sub_diag. cbn. rewrite H. reflexivity.
Qed.

(** A frame written by a call is a message, or the close frame of the last call. *)
Record winv (ops : list w_op) (s : writer) : Prop := {
  v_lock : LockProofs.inv (w_lock s);
  v_size : LockModel.l_size (w_lock s) = 1;
  v_settled : exists m, LockProofs.settled m (w_lock s) /\ Forall (fun t => t < m) (written (w_wire s));
  v_sorted : StronglySorted lt (written (w_wire s));
  v_call : forall t f, In (Some t, f) (w_wire s) -> f = w_frame s t;
  v_fail : forall f, In (None, f) (w_wire s) -> is_open (w_state s) = false /\ (exists c, f = CloseFrame c) /\
    forall t, t < LockModel.l_next (w_lock s) -> exists n, w_frame s t = Message n;
  v_once : length (filter (fun x => match fst x with None => true | _ => false end) (w_wire s)) <= 1;
  v_frames : (forall t, t < LockModel.l_next (w_lock s) -> exists n, w_frame s t = Message n) \/
    (is_open (w_state s) = false /\ forall t, S t < LockModel.l_next (w_lock s) -> exists n, w_frame s t = Message n);
  v_issued : forall t, t < LockModel.l_next (w_lock s) -> issued ops t (w_frame s t);
  v_holding : forall t, In (LockModel.mk_call t LockModel.Holding) (LockModel.l_calls (w_lock s)) ->
    w_dead s = true \/ In (Some t, w_frame s t) (w_wire s)
}.

Lemma winv_init : winv [] w_init.
Proof.
  constructor; try (apply LockProofs.inv_init); try (cbn; intros; contradiction); try (cbn; intros; lia).
  - exists 0. split; [|constructor]. split; [cbn; lia|]. intros c [].
  - constructor.
  - left. cbn. intros; lia.
Qed.

Lemma acquire_event : forall l, LockProofs.inv l ->
  snd (LockModel.acquire l) = LockModel.EvAcquired (LockModel.l_next l) \/ snd (LockModel.acquire l) = LockModel.EvWaits (LockModel.l_next l).
Proof.
  intros l Iv. unfold LockModel.acquire.
  destruct (LockModel.l_size l <? length (LockModel.l_deque l ++ [LockModel.l_next l])) eqn:E; [|auto]. apply Nat.ltb_lt in E.
  destruct (LockProofs.acquire_waiter_pending l Iv E) as [P _]. cbv zeta in P. rewrite P. auto.
Qed.
Lemma acquire_next : forall l, LockModel.l_next (fst (LockModel.acquire l)) = S (LockModel.l_next l).
Proof. intros l. unfold LockModel.acquire. destruct (_ <? _); [|reflexivity]. destruct (LockModel.upd _ _ _ _); reflexivity. Qed.
Lemma other_next : forall l o, o <> LockModel.OpAcquire -> LockModel.l_next (fst (LockModel.step l o)) = LockModel.l_next l.
Proof.
  intros l [|t|t|t] H; [congruence| | |]; cbn [LockModel.step].
  - unfold LockModel.release. destruct (LockModel.find_call t _) as [[t' [g m|]]|]; try reflexivity. destruct (LockModel.l_deque l); reflexivity.
  - unfold LockModel.cancel. destruct (LockModel.find_call t _) as [[t' [g m|]]|]; try reflexivity. destruct (LockModel.is_pending _); reflexivity.
  - unfold LockModel.resume. destruct (LockModel.find_call t _) as [[t' [g m|]]|]; try reflexivity.
    destruct (LockModel.l_stat l g); [| destruct m|]; reflexivity.
Qed.

Lemma sorted_snoc : forall l x, StronglySorted lt l -> Forall (fun t => t < x) l -> StronglySorted lt (l ++ [x]).
Proof. intros l x H F. apply LockProofs.sorted_app; [exact H|]. rewrite Forall_forall in F. exact F. Qed.

(** Who holds the lock after a step. *)
Lemma holding_after : forall l o t, LockProofs.inv l -> In (LockModel.mk_call t LockModel.Holding) (LockModel.l_calls (fst (LockModel.step l o))) ->
  In (LockModel.mk_call t LockModel.Holding) (LockModel.l_calls l) \/ snd (LockModel.step l o) = LockModel.EvAcquired t.
Proof.
  intros l o t Iv H. destruct (LockProofs.step_calls l o _ H) as [E|[c [Hc [Et Ph]]]].
  - cbn in E. subst t. destruct o as [|u|u|u].
    + right. destruct (acquire_event l Iv) as [Q|Q]; [exact Q|]. exfalso. cbn [LockModel.step] in H.
      unfold LockModel.acquire in *. set (dq := LockModel.l_deque l ++ [LockModel.l_next l]) in *.
      destruct (LockModel.l_size l <? length dq); [|discriminate].
      destruct (LockModel.upd _ _ _ _); cbn [snd] in Q; try discriminate. cbn [fst LockModel.l_calls] in H.
      apply in_app_or in H. destruct H as [H|[H|[]]]; [|discriminate]. apply (LockProofs.i_tickets l Iv) in H. cbn in H. lia.
    + pose proof (LockProofs.i_tickets _ (LockProofs.inv_step l (LockModel.OpRelease u) Iv) _ H) as L.
      rewrite other_next in L by discriminate. cbn in L. lia.
    + pose proof (LockProofs.i_tickets _ (LockProofs.inv_step l (LockModel.OpCancel u) Iv) _ H) as L.
      rewrite other_next in L by discriminate. cbn in L. lia.
    + pose proof (LockProofs.i_tickets _ (LockProofs.inv_step l (LockModel.OpResume u) Iv) _ H) as L.
      rewrite other_next in L by discriminate. cbn in L. lia.
  - cbn in Et, Ph. destruct Ph as [Ph|[[f [m [_ Ph]]]|[f [_ [_ [_ E]]]]]]; [|discriminate|right; exact E].
    left. destruct c as [t' ph]. cbn in *. subst. exact Hc.
Qed.

(** The wire after the lock was used. *)
Definition after_lock (s : writer) (l : LockModel.lock) (e : LockModel.event) : writer :=
  match e with LockModel.EvAcquired t => entered (with_lock s l) t | _ => with_lock s l end.

Lemma settled_next : forall m l o, LockProofs.inv l -> LockModel.l_size l = 1 -> LockProofs.settled m l ->
  (exists t, snd (LockModel.step l o) = LockModel.EvAcquired t /\ m <= t /\ LockProofs.settled (S t) (fst (LockModel.step l o))) \/
  ((forall t, snd (LockModel.step l o) <> LockModel.EvAcquired t) /\ LockProofs.settled m (fst (LockModel.step l o))).
Proof.
  intros m l o Iv Sz St. pose proof (LockProofs.settled_step m l o Iv Sz St) as P.
  destruct (snd (LockModel.step l o)) as [t|t|t| |n| |]; try (right; split; [intros x; discriminate | exact P]).
  left. exists t. split; [reflexivity | exact P].
Qed.

Lemma winv_lock : forall ops s o op', winv ops s -> o <> LockModel.OpAcquire ->
  winv (ops ++ [op']) (after_lock s (fst (LockModel.step (w_lock s) o)) (snd (LockModel.step (w_lock s) o))).
Proof.
  intros ops s o op' V NA. pose proof V as [Iv Sz [m [St Fm]] So Ca Fa On Fr Is Ho].
  set (l' := fst (LockModel.step (w_lock s) o)). set (e := snd (LockModel.step (w_lock s) o)).
  assert (Iv' : LockProofs.inv l') by (apply LockProofs.inv_step; exact Iv).
  assert (Sz' : LockModel.l_size l' = 1) by (unfold l'; rewrite LockProofs.step_size; exact Sz).
  assert (Nx : LockModel.l_next l' = LockModel.l_next (w_lock s)) by (apply other_next; exact NA).
  assert (Hold : forall t, In (LockModel.mk_call t LockModel.Holding) (LockModel.l_calls l') ->
    In (LockModel.mk_call t LockModel.Holding) (LockModel.l_calls (w_lock s)) \/ e = LockModel.EvAcquired t)
    by (intros t H; apply holding_after; assumption).
  destruct (settled_next m (w_lock s) o Iv Sz St) as [[t [E [Lt St']]]|[NE St']]; fold l' in St'; [fold e in E | fold e in NE].
  - unfold after_lock. rewrite E. unfold entered, emit. destruct (w_dead s) eqn:D; cbn [w_dead with_lock].
    + rewrite D. constructor; cbn [w_lock with_lock w_state w_frame w_wire w_dead w_reading]; rewrite ?Nx; try assumption.
      * exists (S t). split; [exact St'|]. eapply Forall_impl; [|exact Fm]. cbn. intros; lia.
      * intros x Hx. apply issued_app, Is, Hx.
      * intros x _. left. exact D.
    + rewrite D. cbn [w_lock with_lock w_state w_frame w_wire w_dead w_reading]. constructor; cbn [w_lock w_state w_frame w_wire w_dead w_reading]; rewrite ?Nx; try assumption.
      * exists (S t). split; [exact St'|]. rewrite written_app. apply Forall_app. split; [|constructor; [lia|constructor]].
        eapply Forall_impl; [|exact Fm]. cbn. intros; lia.
      * rewrite written_app. apply sorted_snoc; [exact So|]. eapply Forall_impl; [|exact Fm]. cbn. intros; lia.
      * intros x f H. apply in_app_or in H. destruct H as [H|[H|[]]]; [apply Ca, H|]. injection H as <- <-. reflexivity.
      * intros f H. apply in_app_or in H. destruct H as [H|[H|[]]]; [apply Fa, H | discriminate].
      * rewrite filter_app. cbn. rewrite app_nil_r. exact On.
      * intros x Hx. apply issued_app, Is, Hx.
      * intros x Hx. right. destruct (Hold x Hx) as [H|H].
        { destruct (Ho x H) as [Q|Q]; [congruence|]. apply in_or_app. left. exact Q. }
        { rewrite E in H. injection H as <-. apply in_or_app. right. left. reflexivity. }
  - assert (A : after_lock s l' e = with_lock s l') by (unfold after_lock; destruct e; try reflexivity; exfalso; eapply NE; reflexivity).
    rewrite A. constructor; cbn [w_lock with_lock w_state w_frame w_wire w_dead w_reading]; rewrite ?Nx; try assumption.
    + exists m. auto.
    + intros x Hx. apply issued_app, Is, Hx.
    + intros x Hx. destruct (Hold x Hx) as [H|H]; [apply Ho, H | exfalso; exact (NE _ H)].
Qed.

(** [write_frame] of a call which is allowed to write. *)
Lemma winv_write : forall ops o st f, let s := w_run w_init ops in winv ops s -> is_open (w_state s) = true ->
  asks o f -> w_step s o = write_frame (set_state s st) f ->
  (exists n, f = Message n) /\ st = w_state s \/ is_open st = false ->
  winv (ops ++ [o]) (fst (write_frame (set_state s st) f)).
Proof.
  intros ops o st f s V Op A Eq Wh. pose proof V as [Iv Sz [m [St Fm]] So Ca Fa On Fr Is Ho].
  assert (Fr' : forall t, t < LockModel.l_next (w_lock s) -> exists n, w_frame s t = Message n)
    by (destruct Fr as [Fr|[Fr _]]; [exact Fr | congruence]).
  assert (NoFail : forall g, ~ In (None, g) (w_wire s)) by (intros g H; destruct (Fa g H) as [Q _]; congruence).
  set (t := LockModel.l_next (w_lock s)) in *. set (l' := fst (LockModel.acquire (w_lock s))).
  assert (Iv' : LockProofs.inv l') by (apply LockProofs.inv_acquire; exact Iv).
  assert (Sz' : LockModel.l_size l' = 1) by (change l' with (fst (LockModel.step (w_lock s) LockModel.OpAcquire)); rewrite LockProofs.step_size; exact Sz).
  assert (Nx : LockModel.l_next l' = S t) by apply acquire_next.
  assert (Hold : forall x, In (LockModel.mk_call x LockModel.Holding) (LockModel.l_calls l') ->
    In (LockModel.mk_call x LockModel.Holding) (LockModel.l_calls (w_lock s)) \/ snd (LockModel.acquire (w_lock s)) = LockModel.EvAcquired x)
    by (intros x H; exact (holding_after (w_lock s) LockModel.OpAcquire x Iv H)).
  assert (Small : forall x g, In (Some x, g) (w_wire s) -> x < t).
  { intros x g H. destruct St as [St _]. rewrite Forall_forall in Fm.
    assert (In x (written (w_wire s))) by (apply in_flat_map; exists (Some x, g); split; [exact H | left; reflexivity]).
    apply Fm in H0. unfold t. lia. }
  assert (Holdt : forall x, In (LockModel.mk_call x LockModel.Holding) (LockModel.l_calls (w_lock s)) -> x < t)
    by (intros x H; apply (LockProofs.i_tickets _ Iv) in H; exact H).
  set (fr := fun x => if x =? t then f else w_frame s x).
  assert (Frt : fr t = f) by (unfold fr; rewrite Nat.eqb_refl; reflexivity).
  assert (Fro : forall x, x < t -> fr x = w_frame s x)
    by (intros x L; unfold fr; destruct (Nat.eqb_spec x t); [lia | reflexivity]).
  assert (Started_t : snd (w_step s o) = Started t).
  { rewrite Eq. unfold write_frame. cbn [set_state w_lock w_state w_reading w_frame w_dead w_wire]. fold t.
    destruct (acquire_event (w_lock s) Iv) as [E|E]; destruct (LockModel.acquire (w_lock s)) as [l e]; cbn in E; subst e; reflexivity. }
  assert (Frames : (forall x, x < S t -> exists n, fr x = Message n) \/
    (is_open st = false /\ forall x, S x < S t -> exists n, fr x = Message n)).
  { destruct Wh as [[[n ->] _]|Wh].
    - left. intros x L. destruct (Nat.eq_dec x t) as [->|]; [exists n; exact Frt|]. rewrite Fro by lia. apply Fr'. fold t. lia.
    - right. split; [exact Wh|]. intros x L. rewrite Fro by lia. apply Fr'. fold t. lia. }
  assert (Iss : forall x, x < S t -> issued (ops ++ [o]) x (fr x)).
  { intros x L. destruct (Nat.eq_dec x t) as [->|].
    - rewrite Frt. apply issued_last; assumption.
    - rewrite Fro by lia. apply issued_app, Is. fold t. lia. }
  assert (Caf : forall x g, In (Some x, g) (w_wire s) -> g = fr x)
    by (intros x g H; rewrite Fro by (eapply Small; exact H); apply Ca, H).
  assert (Write : fst (write_frame (set_state s st) f) =
    after_lock (mk_writer st (w_reading s) l' fr (w_dead s) (w_wire s)) l' (snd (LockModel.acquire (w_lock s)))).
  { unfold write_frame, after_lock, l', fr. cbn [set_state w_lock w_state w_reading w_frame w_dead w_wire]. fold t.
    destruct (acquire_event (w_lock s) Iv) as [E|E]; destruct (LockModel.acquire (w_lock s)) as [l e]; cbn in E; subst e; reflexivity. }
  rewrite Write. clear Write.
  destruct (settled_next m (w_lock s) LockModel.OpAcquire Iv Sz St) as [[u [E [Lu St']]]|[NE St']]; cbn [LockModel.step] in *; fold l' in St'.
  - assert (u = t) as -> by (destruct (acquire_event (w_lock s) Iv) as [Q|Q]; rewrite Q in E; [injection E as <-; reflexivity | discriminate]).
    unfold after_lock. rewrite E. unfold entered, emit. cbn [with_lock w_dead w_state w_reading w_lock w_frame w_wire].
    destruct (w_dead s) eqn:D.
    + constructor; cbn [with_lock w_lock w_state w_frame w_wire w_dead w_reading]; rewrite ?Nx; try assumption.
      * exists (S t). split; [exact St'|]. eapply Forall_impl; [|exact Fm]. cbn. intros; lia.
      * intros g H. exfalso. exact (NoFail g H).
      * intros x _. left. reflexivity.
    + constructor; cbn [w_lock w_state w_frame w_wire w_dead w_reading]; rewrite ?Nx; try assumption.
      * exists (S t). split; [exact St'|]. rewrite written_app. apply Forall_app. split; [|constructor; [lia|constructor]].
        eapply Forall_impl; [|exact Fm]. cbn. intros; lia.
      * rewrite written_app. apply sorted_snoc; [exact So|]. eapply Forall_impl; [|exact Fm]. cbn. intros; lia.
      * intros x g H. apply in_app_or in H. destruct H as [H|[H|[]]]; [apply Caf, H|]. injection H as <- <-. reflexivity.
      * intros g H. apply in_app_or in H. destruct H as [H|[H|[]]]; [exfalso; exact (NoFail g H) | discriminate].
      * rewrite filter_app. cbn. rewrite app_nil_r. exact On.
      * intros x Hx. right. destruct (Hold x Hx) as [H|H].
        { destruct (Ho x H) as [Q|Q]; [congruence|]. apply in_or_app. left. rewrite Fro by (apply Holdt, H). exact Q. }
        { rewrite E in H. injection H as <-. apply in_or_app. right. left. reflexivity. }
  - assert (Q : after_lock (mk_writer st (w_reading s) l' fr (w_dead s) (w_wire s)) l' (snd (LockModel.acquire (w_lock s))) =
                mk_writer st (w_reading s) l' fr (w_dead s) (w_wire s)).
    { unfold after_lock. destruct (snd (LockModel.acquire (w_lock s))); try reflexivity. exfalso. eapply NE. reflexivity. }
    rewrite Q. constructor; cbn [w_lock w_state w_frame w_wire w_dead w_reading]; rewrite ?Nx; try assumption.
    + exists m. auto.
    + intros g H. exfalso. exact (NoFail g H).
    + intros x Hx. destruct (Hold x Hx) as [H|H]; [|exfalso; exact (NE _ H)].
      destruct (Ho x H) as [P|P]; [left; exact P | right]. rewrite Fro by (apply Holdt, H). exact P.
Qed.

Lemma winv_step : forall ops o, winv ops (w_run w_init ops) -> winv (ops ++ [o]) (fst (w_step (w_run w_init ops) o)).
Proof.
  intros ops o V. set (s := w_run w_init ops) in *.
  assert (Same : forall x, winv ops x -> winv (ops ++ [o]) x).
  { intros x [Iv Sz St So Ca Fa On Fr Is Ho]. constructor; try assumption. intros t L. apply issued_app, Is, L. }
  destruct o as [n|c|c|t|t|t| | |]; cbn [w_step].
  - unfold ensure_open. destruct (is_open (w_state s)) eqn:Op; cbn [andb]; [|apply Same, V]. destruct (w_reading s) eqn:Rd; [|apply Same, V].
    assert (Es : set_state s (w_state s) = s) by (destruct s; reflexivity). rewrite <- Es.
    apply (winv_write ops (WSend n) (w_state s) (Message n) V Op); [constructor| |left; split; [exists n; reflexivity | reflexivity]].
    fold s. cbn [w_step]. unfold ensure_open. rewrite Op, Rd, Es. reflexivity.
  - destruct (is_open (w_state s)) eqn:Op; [|apply Same, V].
    apply (winv_write ops (WClose c) Closing (CloseFrame c) V Op); [constructor| |right; reflexivity].
    fold s. cbn [w_step]. rewrite Op. reflexivity.
  - destruct (negb (c =? 1006)); cbn [andb]; [|apply Same, V].
    destruct (is_open (w_state s)) eqn:Op; [|apply Same, V]. cbn [fst]. apply Same.
    destruct V as [Iv Sz [m [St Fm]] So Ca Fa On Fr Is Ho].
    assert (Fr' : forall t, t < LockModel.l_next (w_lock s) -> exists n, w_frame s t = Message n)
      by (destruct Fr as [Fr|[Fr _]]; [exact Fr | congruence]).
    assert (NoFail : forall g, ~ In (None, g) (w_wire s)) by (intros g H; destruct (Fa g H) as [Q _]; congruence).
    unfold emit. cbn [set_state w_dead w_state w_reading w_lock w_frame w_wire].
    destruct (w_dead s) eqn:D.
    + constructor; cbn [set_state w_lock w_state w_frame w_wire w_dead w_reading]; try assumption.
      * exists m; auto.
      * intros f H. exfalso. exact (NoFail f H).
      * left. exact Fr'.
      * intros x _. left. exact D.
    + constructor; cbn [set_state w_lock w_state w_frame w_wire w_dead w_reading]; try assumption.
      * exists m. split; [exact St|]. rewrite written_app. cbn. rewrite app_nil_r. exact Fm.
      * rewrite written_app. cbn. rewrite app_nil_r. exact So.
      * intros x f H. apply in_app_or in H. destruct H as [H|[H|[]]]; [apply Ca, H | discriminate].
      * intros f H. apply in_app_or in H. destruct H as [H|[H|[]]]; [exfalso; exact (NoFail f H)|]. injection H as <-.
        split; [reflexivity|]. split; [exists c; reflexivity | exact Fr'].
      * rewrite filter_app. cbn. rewrite app_length. cbn.
        replace (filter _ (w_wire s)) with (@nil (option nat * frame)); [cbn; lia|]. symmetry.
        assert (G : forall w, (forall g, ~ In (None, g) w) -> filter (fun x : option nat * frame => match fst x with None => true | _ => false end) w = []).
        { induction w as [|[[x|] g] w IH]; intros H; [reflexivity| |].
          - cbn. apply IH. intros g' Hg'. apply (H g'). right. exact Hg'.
          - exfalso. apply (H g). left. reflexivity. }
        apply G, NoFail.
      * left. exact Fr'.
      * intros x Hx. right. destruct (Ho x Hx) as [Q|Q]; [congruence|]. apply in_or_app. left. exact Q.
  - pose proof (winv_lock ops s (LockModel.OpResume t) (WResume t) V ltac:(discriminate)) as W. cbn [LockModel.step] in W.
    assert (E : forall l e, LockModel.resume (w_lock s) t = (l, e) -> forall u, e = LockModel.EvAcquired u -> u = t).
    { intros l e R u ->. unfold LockModel.resume in R. destruct (LockModel.find_call t _) as [[t' [g m|]]|]; try discriminate.
      destruct (LockModel.l_stat _ g); [discriminate| |discriminate]. destruct m; [discriminate|]. injection R as _ <-. reflexivity. }
    destruct (LockModel.resume (w_lock s) t) as [l e]. cbn [fst snd] in W. specialize (E l e eq_refl).
    unfold after_lock in W. destruct e as [u|u|u| |u| |]; try exact W. rewrite (E u eq_refl) in W. exact W.
  - pose proof (winv_lock ops s (LockModel.OpRelease t) (WRelease t) V ltac:(discriminate)) as W. cbn [LockModel.step] in W.
    assert (E : forall u, snd (LockModel.release (w_lock s) t) <> LockModel.EvAcquired u).
    { intros u. unfold LockModel.release. destruct (LockModel.find_call t _) as [[t' [g m|]]|]; try discriminate. destruct (LockModel.l_deque _); discriminate. }
    destruct (LockModel.release (w_lock s) t) as [l e]. cbn [fst snd] in *. unfold after_lock in W.
    destruct e as [u|u|u| |u| |]; try exact W. exfalso. exact (E u eq_refl).
  - pose proof (winv_lock ops s (LockModel.OpCancel t) (WCancel t) V ltac:(discriminate)) as W. cbn [LockModel.step] in W.
    assert (E : forall u, snd (LockModel.cancel (w_lock s) t) <> LockModel.EvAcquired u).
    { intros u. unfold LockModel.cancel. destruct (LockModel.find_call t _) as [[t' [g m|]]|]; try discriminate. destruct (LockModel.is_pending _); discriminate. }
    destruct (LockModel.cancel (w_lock s) t) as [l e]. cbn [fst snd] in *. unfold after_lock in W.
    destruct e as [u|u|u| |u| |]; try exact W. exfalso. exact (E u eq_refl).
  - destruct V as [Iv Sz St So Ca Fa On Fr Is Ho]. apply Same. constructor; assumption.
  - destruct V as [Iv Sz St So Ca Fa On Fr Is Ho]. apply Same. constructor; try assumption. intros t _. left. reflexivity.
  - destruct V as [Iv Sz St So Ca Fa On Fr Is Ho]. apply Same. constructor; try assumption.
    + intros f H. destruct (Fa f H) as [_ Q]. split; [reflexivity | exact Q].
    + cbn. destruct Fr as [Fr|[_ Fr]]; [left; exact Fr | right; split; [reflexivity | exact Fr]].
    + intros t _. left. reflexivity.
Qed.

Lemma winv_run : forall ops, winv ops (w_run w_init ops).
Proof.
  intros ops. induction ops as [|o ops IH] using rev_ind; [apply winv_init|].
  rewrite w_run_app. cbn [w_run]. apply winv_step, IH.
Qed.

(** The close frame of a call is the last frame. *)
Lemma after_close : forall ops l t c r, w_wire (w_run w_init ops) = l ++ (Some t, CloseFrame c) :: r -> r = [].
Proof.
  intros ops l t c r E. destruct (winv_run ops) as [Iv Sz [m [[Sm St] Fm]] So Ca Fa On Fr Is Ho].
  set (s := w_run w_init ops) in *.
  assert (F : w_frame s t = CloseFrame c) by (symmetry; apply Ca; rewrite E; apply in_elt).
  assert (Lt : forall x, In x (written (w_wire s)) -> x < LockModel.l_next (w_lock s))
    by (intros x H; rewrite Forall_forall in Fm; apply Fm in H; lia).
  assert (Tn : S t = LockModel.l_next (w_lock s)).
  { assert (L : t < LockModel.l_next (w_lock s)).
    { apply Lt. rewrite E, written_app. apply in_or_app. right. left. reflexivity. }
    destruct Fr as [Fr|[_ Fr]].
    - destruct (Fr t L) as [n Q]. congruence.
    - destruct (Nat.eq_dec (S t) (LockModel.l_next (w_lock s))) as [Q|Q]; [exact Q|]. destruct (Fr t ltac:(lia)) as [n P]. congruence. }
  destruct r as [|[[x|] g] r]; [reflexivity| |].
  - exfalso. assert (Hx : x < S t) by (rewrite Tn; apply Lt; rewrite E, written_app; apply in_or_app; right; right; left; reflexivity).
    rewrite E, written_app in So. clear - So Hx. induction (written l) as [|y w IH]; cbn in So.
    + inversion So as [|? ? _ Q]; subst. inversion Q; subst. lia.
    + inversion So; subst. apply IH. assumption.
  - exfalso. destruct (Fa g) as [_ [_ Q]]; [rewrite E; apply in_or_app; right; right; left; reflexivity|].
    destruct (Q t ltac:(lia)) as [n P]. congruence.
Qed.

Lemma closes_nil : forall w, (forall x f, In (x, f) w -> exists n, f = Message n) -> closes w = [].
Proof.
  induction w as [|[x f] w IH]; intros H; [reflexivity|]. unfold closes in *. cbn.
  destruct (H x f (or_introl eq_refl)) as [n ->]. apply IH. intros y g G. apply (H y g). right. exact G.
Qed.
Lemma closes_split : forall w, closes w = [] \/ exists l x c r, w = l ++ (x, CloseFrame c) :: r /\ closes l = [].
Proof.
  induction w as [|[x f] w IH]; [left; reflexivity|]. destruct f as [n|c].
  - destruct IH as [IH|[l [y [c [r [-> H]]]]]]; [left; exact IH|]. right. exists ((x, Message n) :: l), y, c, r. auto.
  - right. exists [], x, c, w. auto.
Qed.

Lemma one_close : forall ops, length (closes (w_wire (w_run w_init ops))) <= 1.
Proof.
  intros ops. pose proof (winv_run ops) as [Iv Sz St So Ca Fa On Fr Is Ho].
  destruct (closes_split (w_wire (w_run w_init ops))) as [->|[l [x [c [r [E H]]]]]]; [cbn; lia|].
  rewrite E. change (l ++ (x, CloseFrame c) :: r) with (l ++ [(x, CloseFrame c)] ++ r). rewrite !closes_app, H. cbn [app].
  change (closes [(x, CloseFrame c)]) with [CloseFrame c]. cbn [app length].
  replace (closes r) with (@nil frame); [cbn; lia|]. symmetry. destruct x as [t|].
  - rewrite (after_close ops l t c r E). reflexivity.
  - apply closes_nil. intros y f Hf. destruct y as [t|].
    + destruct (Fa (CloseFrame c)) as [_ [_ Q]]; [rewrite E; apply in_elt|].
      assert (Hin : In (Some t, f) (w_wire (w_run w_init ops))) by (rewrite E; apply in_or_app; right; right; exact Hf).
      rewrite (Ca t f Hin). apply Q. destruct St as [m [[Sm _] Fm]]. rewrite Forall_forall in Fm.
      assert (In t (written (w_wire (w_run w_init ops)))) by (apply in_flat_map; exists (Some t, f); split; [exact Hin | left; reflexivity]).
      apply Fm in H0. lia.
    + exfalso. rewrite E, filter_app in On. cbn in On. rewrite app_length in On. cbn in On.
      assert (In (None, f) (filter (fun x : option nat * frame => match fst x with None => true | Some _ => false end) r)) by (apply filter_In; auto).
      destruct (filter (fun x : option nat * frame => match fst x with None => true | Some _ => false end) r); [contradiction | cbn in On; lia].
Qed.

Lemma refused : forall ops n, closes (w_wire (w_run w_init ops)) <> [] -> w_step (w_run w_init ops) (WSend n) = (w_run w_init ops, Refused).
Proof.
  intros ops n H. pose proof (winv_run ops) as [Iv Sz St So Ca Fa On Fr Is Ho]. set (s := w_run w_init ops) in *.
  cbn [w_step]. unfold ensure_open. destruct (is_open (w_state s)) eqn:Op; [|reflexivity]. exfalso. apply H. apply closes_nil.
  intros x f Hf. destruct x as [t|]; [|destruct (Fa f Hf) as [Q _]; congruence].
  rewrite (Ca t f Hf). destruct Fr as [Fr|[Fr _]]; [|congruence]. apply Fr.
  destruct St as [m [[Sm _] Fm]]. rewrite Forall_forall in Fm.
  assert (In t (written (w_wire s))) by (apply in_flat_map; exists (Some t, f); split; [exact Hf | left; reflexivity]).
  apply Fm in H0. lia.
Qed.

Lemma wire_order : forall ops, StronglySorted lt (written (w_wire (w_run w_init ops))).
Proof. intros ops. apply (winv_run ops). Qed.

Lemma wire_frames : forall ops t f, In (Some t, f) (w_wire (w_run w_init ops)) -> issued ops t f.
Proof.
  intros ops t f H. pose proof (winv_run ops) as [Iv Sz St So Ca Fa On Fr Is Ho]. rewrite (Ca t f H). apply Is.
  destruct St as [m [[Sm _] Fm]]. rewrite Forall_forall in Fm.
  assert (In t (written (w_wire (w_run w_init ops)))) by (apply in_flat_map; exists (Some t, f); split; [exact H | left; reflexivity]).
  apply Fm in H0. lia.
Qed.

Lemma wire_grows : forall o s, exists x, w_wire (fst (w_step s o)) = w_wire s ++ x.
Proof.
  assert (E : forall s t f, exists x, w_wire (emit s t f) = w_wire s ++ x).
  { intros s t f. unfold emit. destruct (w_dead s); [exists []; rewrite app_nil_r; reflexivity | eexists; reflexivity]. }
  assert (W : forall s f, exists x, w_wire (fst (write_frame s f)) = w_wire s ++ x).
  { intros s f. unfold write_frame. destruct (LockModel.acquire (w_lock s)) as [l e].
    destruct e; cbn [fst]; try (exists []; cbn; rewrite app_nil_r; reflexivity).
    unfold entered. match goal with |- context [emit ?a ?b ?c] => exact (E a b c) end. }
  assert (K : forall s : writer, exists x, w_wire s = w_wire s ++ x) by (intros s; exists []; rewrite app_nil_r; reflexivity).
  intros [n|c|c|t|t|t| | |] s; cbn [w_step]; try (exact (K s)).
  - destruct (ensure_open s); [apply W | apply K].
  - destruct (is_open (w_state s)); [exact (W (set_state s Closing) _) | apply K].
  - destruct (negb (c =? 1006) && is_open (w_state s)); [exact (E (set_state s Closing) _ _) | apply K].
  - destruct (LockModel.resume (w_lock s) t) as [l e]. destruct e; try (exact (K s)). exact (E (with_lock s l) _ _).
  - destruct (LockModel.release (w_lock s) t) as [l e]. exact (K s).
Qed.
Lemma dead_stays : forall o s, w_dead s = true -> w_dead (fst (w_step s o)) = true.
Proof.
  assert (E : forall s t f, w_dead (emit s t f) = w_dead s) by (intros s t f; unfold emit; destruct (w_dead s) eqn:D; [exact D | reflexivity]).
  assert (W : forall s f, w_dead (fst (write_frame s f)) = w_dead s).
  { intros s f. unfold write_frame. destruct (LockModel.acquire (w_lock s)) as [l e]. destruct e; try reflexivity. unfold entered. cbn [fst]. rewrite E. reflexivity. }
  intros [n|c|c|t|t|t| | |] s D; cbn [w_step]; try (exact D); try reflexivity.
  - destruct (ensure_open s); [rewrite W|]; exact D.
  - destruct (is_open (w_state s)); [rewrite W|]; exact D.
  - destruct (negb (c =? 1006) && is_open (w_state s)); [cbn [fst]; rewrite E|]; exact D.
  - destruct (LockModel.resume (w_lock s) t) as [l e]. destruct e; try exact D. unfold entered. cbn [fst]. rewrite E. exact D.
  - destruct (LockModel.release (w_lock s) t) as [l e]. exact D.
Qed.

Lemma left_written : forall ops t, In (Left t) (w_outs w_init ops) -> w_dead (w_run w_init ops) = false ->
  exists f, issued ops t f /\ In (Some t, f) (w_wire (w_run w_init ops)).
Proof.
  intros ops t. induction ops as [|o ops IH] using rev_ind; [intros []|].
  rewrite w_outs_app, w_run_app. cbn [w_outs w_run]. intros H D.
  assert (D' : w_dead (w_run w_init ops) = false)
    by (destruct (w_dead (w_run w_init ops)) eqn:Q; [rewrite (dead_stays o _ Q) in D; discriminate | reflexivity]).
  assert (In (Some t, w_frame (w_run w_init ops) t) (w_wire (w_run w_init ops)) \/ In (Left t) (w_outs w_init ops)) as [Q|Q].
  { apply in_app_or in H. destruct H as [H|[H|[]]]; [right; exact H|]. left.
    destruct o as [n|c|c|u|u|u| | |]; cbn [w_step snd] in H; try discriminate.
    - destruct (ensure_open _); [|discriminate]. unfold write_frame in H. destruct (LockModel.acquire _) as [l e]. destruct e; discriminate.
    - destruct (is_open _); [|discriminate]. unfold write_frame in H. destruct (LockModel.acquire _) as [l e]. destruct e; discriminate.
    - destruct (_ && _); discriminate.
    - destruct (LockModel.resume _ u) as [l e]. destruct e; discriminate.
    - unfold LockModel.release in H. destruct (LockModel.find_call u _) as [[t' [g m|]]|] eqn:F; try discriminate.
      destruct (LockModel.l_deque _); [discriminate|]. cbn [snd] in H. injection H as ->.
      apply LockProofs.find_call_Some in F. destruct F as [Fc Ft]. cbn in Ft. subst t'.
      destruct (v_holding _ _ (winv_run ops) t Fc) as [Q|Q]; [congruence | exact Q]. }
  - exists (w_frame (w_run w_init ops) t). split; [apply issued_app, wire_frames, Q|].
    destruct (wire_grows o (w_run w_init ops)) as [x ->]. apply in_or_app. left. exact Q.
  - destruct (IH Q D') as [f [If Wf]]. exists f. split; [apply issued_app, If|].
    destruct (wire_grows o (w_run w_init ops)) as [x ->]. apply in_or_app. left. exact Wf.
Qed.

(** A cancelled writer may block all others. *)
Lemma lost_w_step : forall s o, LockProofs.lost (w_lock s) ->
  LockProofs.lost (w_lock (fst (w_step s o))) /\ written (w_wire (fst (w_step s o))) = written (w_wire s).
Proof.
  assert (W : forall s f, LockProofs.lost (w_lock s) ->
    LockProofs.lost (w_lock (fst (write_frame s f))) /\ written (w_wire (fst (write_frame s f))) = written (w_wire s)).
  { intros s f L. destruct (LockProofs.lost_step _ LockModel.OpAcquire L) as [L' N]. cbn [LockModel.step] in *. unfold write_frame.
    destruct (LockModel.acquire (w_lock s)) as [l e]. cbn [fst snd] in *. destruct e; try (split; [exact L' | reflexivity]).
    exfalso. exact (N _ eq_refl). }
  intros s o L. destruct o as [n|c|c|t|t|t| | |]; cbn [w_step]; try (split; [exact L | reflexivity]).
  - destruct (ensure_open s); [apply W, L | split; [exact L | reflexivity]].
  - destruct (is_open (w_state s)); [exact (W (set_state s Closing) _ L) | split; [exact L | reflexivity]].
  - destruct (negb (c =? 1006) && is_open (w_state s)); [|split; [exact L | reflexivity]]. cbn [fst]. unfold emit. cbn [set_state w_dead].
    destruct (w_dead s); [split; [exact L | reflexivity]|]. split; [exact L|]. cbn. rewrite written_app. apply app_nil_r.
  - destruct (LockProofs.lost_step _ (LockModel.OpResume t) L) as [L' N]. cbn [LockModel.step] in *.
    destruct (LockModel.resume (w_lock s) t) as [l e]. cbn [fst snd] in *. destruct e; try (split; [exact L' | reflexivity]).
    exfalso. exact (N _ eq_refl).
  - destruct (LockProofs.lost_step _ (LockModel.OpRelease t) L) as [L' _]. cbn [LockModel.step] in *.
    destruct (LockModel.release (w_lock s) t) as [l e]. split; [exact L' | reflexivity].
  - destruct (LockProofs.lost_step _ (LockModel.OpCancel t) L) as [L' _]. split; [exact L' | reflexivity].
Qed.
Lemma lost_w_run : forall os s, LockProofs.lost (w_lock s) -> written (w_wire (w_run s os)) = written (w_wire s).
Proof. induction os as [|o os IH]; intros s L; [reflexivity|]. cbn. destruct (lost_w_step s o L) as [L' E]. rewrite (IH _ L'). exact E. Qed.

Definition blocking : list w_op := [WSend 1; WSend 2; WCancel 1; WRelease 0; WResume 1].
Lemma blocking_lost : LockProofs.lost (w_lock (w_run w_init blocking)).
Proof. exact (proj2 (LockProofs.leak_lost _ (or_intror eq_refl))). Qed.

(** Without cancellations some call can go on. *)
Lemma quiet_w_step : forall s o, (forall t, o <> WCancel t) -> LockProofs.quiet (w_lock s) -> LockProofs.quiet (w_lock (fst (w_step s o))).
Proof.
  assert (E : forall s t f, w_lock (emit s t f) = w_lock s) by (intros s t f; unfold emit; destruct (w_dead s); reflexivity).
  assert (W : forall s f, LockProofs.quiet (w_lock s) -> LockProofs.quiet (w_lock (fst (write_frame s f)))).
  { intros s f Q. apply LockProofs.quiet_acquire in Q. unfold write_frame. destruct (LockModel.acquire (w_lock s)) as [l e].
    destruct e; try exact Q. unfold entered. cbn [fst]. rewrite E. exact Q. }
  intros s o N Q. destruct o as [n|c|c|t|t|t| | |]; cbn [w_step]; try exact Q.
  - destruct (ensure_open s); [apply W|]; exact Q.
  - destruct (is_open (w_state s)); [apply W|]; exact Q.
  - destruct (negb (c =? 1006) && is_open (w_state s)); [cbn [fst]; rewrite E|]; exact Q.
  - apply (LockProofs.quiet_resume _ t) in Q. destruct (LockModel.resume (w_lock s) t) as [l e].
    destruct e; try exact Q. unfold entered. cbn [fst]. rewrite E. exact Q.
  - apply (LockProofs.quiet_release _ t) in Q. destruct (LockModel.release (w_lock s) t) as [l e]. exact Q.
  - exfalso. exact (N t eq_refl).
Qed.
Lemma quiet_w_run : forall os, (forall t, ~ In (WCancel t) os) -> LockProofs.quiet (w_lock (w_run w_init os)).
Proof.
  intros os. induction os as [|o os IH] using rev_ind; intros N; [apply LockProofs.quiet_init|]. rewrite w_run_app. cbn [w_run].
  apply quiet_w_step.
  - intros t ->. apply (N t), in_or_app. right. left. reflexivity.
  - apply IH. intros t H. apply (N t), in_or_app. left. exact H.
Qed.

Lemma find_call_unique : forall l t p, LockProofs.inv l -> In (LockModel.mk_call t p) (LockModel.l_calls l) ->
  LockModel.find_call t (LockModel.l_calls l) = Some (LockModel.mk_call t p).
Proof.
  intros l t p Iv H. destruct (LockModel.find_call t (LockModel.l_calls l)) as [c|] eqn:F.
  - apply LockProofs.find_call_Some in F. destruct F as [Fc Ft]. f_equal.
    apply (LockProofs.sorted_unique _ _ _ (LockProofs.i_sorted _ Iv) Fc H Ft).
  - exfalso. unfold LockModel.find_call in F. apply find_none with (x := LockModel.mk_call t p) in F; [|exact H]. cbn in F. rewrite Nat.eqb_refl in F. discriminate.
Qed.

Lemma writers_progress : forall os, (forall t, ~ In (WCancel t) os) ->
  let s := w_run w_init os in LockModel.l_calls (w_lock s) <> [] -> w_dead s = false ->
  (exists t, snd (w_step s (WRelease t)) = Left t) \/
  (exists t f, w_wire (fst (w_step s (WResume t))) = w_wire s ++ [(Some t, f)]).
Proof.
  intros os N s NE D. pose proof (quiet_w_run os N) as Q. pose proof (winv_run os) as V. fold s in Q, V.
  destruct Q as [Iv [C [P B]]]. pose proof (v_size _ _ V) as Sz.
  assert (O : exists c, In c (LockSpec.owners (w_lock s))).
  { destruct (LockModel.l_calls (w_lock s)) as [|c cs] eqn:L; [congruence|].
    destruct (B c) as [Bc|Oc]; [left; reflexivity| |exists c; apply filter_In; rewrite L; split; [left; reflexivity | exact Oc]].
    assert (DQ : LockModel.l_deque (w_lock s) <> []).
    { unfold LockSpec.blocked in Bc. destruct (LockModel.c_phase c) as [f m|] eqn:Pc; [|discriminate].
      assert (In f (LockModel.l_deque (w_lock s))).
      { apply (LockProofs.i_pending _ Iv c f m); [rewrite L; left; reflexivity | exact Pc|]. destruct (LockModel.l_stat (w_lock s) f); [reflexivity | discriminate | discriminate]. }
      intros Z. rewrite Z in H. exact H. }
    destruct (LockSpec.owners (w_lock s)) as [|x xs]; [|exists x; left; reflexivity]. exfalso.
    rewrite Sz in C. destruct (LockModel.l_deque (w_lock s)); [congruence | cbn in C; lia]. }
  destruct O as [[t p] Hc]. apply filter_In in Hc. destruct Hc as [Hc Ow]. pose proof (find_call_unique _ _ _ Iv Hc) as F.
  unfold LockSpec.owns in Ow. cbn in Ow. destruct p as [f m|].
  - right. destruct m; [destruct (LockModel.l_stat (w_lock s) f); discriminate|]. destruct (LockModel.l_stat (w_lock s) f) eqn:St; try discriminate.
    exists t, (w_frame s t). cbn [w_step]. unfold LockModel.resume. rewrite F, St. cbn [fst]. unfold entered, emit. cbn [with_lock w_dead]. rewrite D. reflexivity.
  - left. exists t. cbn [w_step]. unfold LockModel.release. rewrite F.
    assert (DQ : LockModel.l_deque (w_lock s) <> []).
    { intros Z. rewrite Z in C. cbn in C. assert (In (LockModel.mk_call t LockModel.Holding) (LockSpec.owners (w_lock s))) by (apply filter_In; split; [exact Hc | reflexivity]).
      destruct (LockSpec.owners (w_lock s)); [contradiction | cbn in C; lia]. }
    destruct (LockModel.l_deque (w_lock s)); [congruence | reflexivity].
Qed.

(** * Ending *)

Lemma e_run_app : forall a b e, e_run e (a ++ b) = e_run (e_run e a) b.
Proof. induction a as [|o a IH]; intros b e; [reflexivity|]. cbn. apply IH. Qed.

(** [seen]: a close frame of the peer was read. *)
Record einv (client ssl : bool) (seen : bool) (e : endpoint) : Prop := {
  n_client : e_client e = client;
  n_ssl : e_ssl e = ssl;
  n_waiter : e_waiter e = true -> t_gone (e_transport e) = true \/ client = true /\ seen = true;
  n_scheduled : t_scheduled (e_transport e) = true -> t_closing (e_transport e) = true;
  n_gone : t_gone (e_transport e) = true -> t_scheduled (e_transport e) = true /\ e_state e = Closed;
  n_closed : e_state e = Closed -> t_gone (e_transport e) = true;
  n_closer : e_closer e = true -> t_closing (e_transport e) = true \/ client = true /\ ssl = false /\ seen = true;
  n_aborted : t_aborted (e_transport e) = false;
  n_reason : e_transfer e = None -> e_reason e = None
}.

Definition is_peer (o : e_op) : bool := match o with EPeerClose _ => true | _ => false end.

Lemma einv_init : forall client ssl, einv client ssl false (e_init client ssl).
Proof. intros client ssl. constructor; cbn; try reflexivity; try discriminate; auto. Qed.

Lemma einv_step : forall client ssl seen e o, einv client ssl seen e -> einv client ssl (seen || is_peer o) (e_step e o).
Proof.
  intros client ssl seen [cl sl st code reason wt tr cr [bu cg sc go rd ab] sent] o [Cl Sl Wt Sc Go Cd Cr Ab Re]. cbn in *. subst cl sl ab.
  destruct o as [c|p|c| | | | | | |]; cbn [e_step is_peer e_transfer e_closer e_transport t_reading t_scheduled t_gone e_ssl];
    rewrite ?orb_false_r, ?orb_true_r.
  - unfold send_close. destruct st; cbn; constructor; cbn; auto; try (intros; exfalso; intuition congruence); intuition congruence.
  - destruct tr as [x|]; [constructor; cbn; intuition congruence|].
    unfold peer_closes, end_transfer, send_close. cbn. destruct st; constructor; cbn; try reflexivity; try discriminate; auto;
      try (intros; exfalso; intuition congruence); try (intros W; apply orb_true_iff in W); intuition congruence.
  - destruct tr as [x|]; [constructor; cbn; auto|].
    unfold end_transfer, fail, send_close. destruct (cause_code c =? 1006); cbn; [constructor; cbn; rewrite ?orb_false_r; try discriminate; auto|].
    destruct st; constructor; cbn; rewrite ?orb_false_r; try reflexivity; try discriminate; auto; try (intros; exfalso; intuition congruence); intuition congruence.
  - destruct tr as [x|]; constructor; cbn; rewrite ?orb_false_r; try discriminate; auto.
  - destruct tr as [x|]; [|constructor; cbn; auto]. destruct cr; [constructor; cbn; auto|].
    unfold close_connection, close_finally. cbn [e_waiter e_ssl].
    destruct (wt && negb ssl) eqn:B.
    + apply andb_true_iff in B. destruct B as [-> B]. apply negb_true_iff in B. subst ssl. constructor; cbn; auto; try discriminate.
      intros _. destruct (Wt eq_refl) as [G|[G1 G2]]; [left; apply Sc, Go, G | right; auto].
    + assert (W : wait_for_connection_lost wt = true) by (destruct wt; reflexivity).
      cbn [e_waiter on_transport]. rewrite W. unfold on_transport, t_close. cbn [e_transport t_closing].
      destruct cg; constructor; cbn; auto; try discriminate; try (intros H; destruct (Go H) as [G1 G2]; apply Sc in G1; discriminate).
  - destruct (rd && negb sc) eqn:B; [|constructor; cbn; auto]. apply andb_true_iff in B. destruct B as [-> B]. apply negb_true_iff in B. subst sc.
    destruct ssl; unfold on_transport, t_close; cbn; [destruct cg|]; constructor; cbn; auto; try discriminate;
      try (intros H; destruct (Go H); discriminate); try (intros H; destruct (Cr H) as [Q|[_ [Q _]]]; discriminate).
  - unfold on_transport, t_force. cbn. destruct sc; constructor; cbn; auto; try discriminate; try (intros H; destruct (Go H); discriminate).
  - unfold on_transport. cbn. destruct sc; constructor; cbn; auto; try discriminate.
  - unfold on_transport, t_flush. cbn. destruct sc; constructor; cbn; auto; try discriminate; try (intros H; destruct (Go H); discriminate).
  - destruct (sc && negb go) eqn:B; [|constructor; cbn; auto]. apply andb_true_iff in B. destruct B as [-> B]. apply negb_true_iff in B. subst go.
    unfold connection_lost, on_transport. cbn. constructor; cbn; auto.
Qed.

Lemma einv_run : forall client ssl os, einv client ssl (existsb is_peer os) (e_run (e_init client ssl) os).
Proof.
  intros client ssl os. induction os as [|o os IH] using rev_ind; [apply einv_init|].
  rewrite e_run_app, existsb_app. cbn [existsb]. rewrite orb_false_r. apply einv_step, IH.
Qed.

Lemma no_peer : forall os, (forall p, ~ In (EPeerClose p) os) -> existsb is_peer os = false.
Proof.
  intros os H. destruct (existsb is_peer os) eqn:E; [|reflexivity]. exfalso. apply existsb_exists in E.
  destruct E as [o [Ho P]]. destruct o; try discriminate. exact (H _ Ho).
Qed.

(** A closing transport without anything to write is done. *)
Definition idle_done (e : endpoint) : Prop :=
  t_closing (e_transport e) = true -> t_buffered (e_transport e) = false -> t_scheduled (e_transport e) = true.
Lemma idle_step : forall e o, idle_done e -> idle_done (e_step e o).
Proof.
  intros [cl sl st code reason wt tr cr [bu cg sc go rd ab] sent] o H. unfold idle_done in *. cbn in H.
  destruct o as [c|p|c| | | | | | |]; cbn [e_step e_transfer e_closer e_transport t_reading t_scheduled t_gone e_ssl].
  - unfold send_close. destruct st; cbn; auto.
  - destruct tr as [x|]; [exact H|]. unfold peer_closes, end_transfer, send_close. cbn. destruct st; cbn; auto.
  - destruct tr as [x|]; [exact H|]. unfold end_transfer, fail, send_close. destruct (cause_code c =? 1006); cbn; auto. destruct st; cbn; auto.
  - destruct tr as [x|]; exact H.
  - destruct tr as [x|]; [|exact H]. destruct cr; [exact H|]. unfold close_connection, close_finally. cbn [e_waiter e_ssl].
    destruct (wt && negb sl); [exact H|]. cbn [e_waiter on_transport]. destruct (wait_for_connection_lost wt);
      unfold on_transport, t_abort, t_force, t_close; cbn; destruct cg, sc, bu; cbn; intros; auto; discriminate.
  - destruct (rd && negb sc); [|exact H]. destruct sl; unfold on_transport, t_close; cbn; [destruct cg|]; cbn; intros; auto.
    subst. apply orb_true_r.
  - unfold on_transport, t_force. cbn. destruct sc; cbn; auto.
  - unfold on_transport. cbn. destruct sc; cbn; auto; intros; discriminate.
  - unfold on_transport, t_flush. cbn. destruct sc; cbn; auto.
  - destruct (sc && negb go) eqn:B; [|exact H]. unfold connection_lost, on_transport. cbn. auto.
Qed.
Lemma idle_run : forall client ssl os, idle_done (e_run (e_init client ssl) os).
Proof.
  intros client ssl os. induction os as [|o os IH] using rev_ind; [intros C; discriminate|]. rewrite e_run_app. apply idle_step, IH.
Qed.

Lemma close_closes : forall client ssl os, client = false \/ ssl = true \/ (forall p, ~ In (EPeerClose p) os) ->
  close_returned (e_run (e_init client ssl) os) = true ->
  t_closing (e_transport (e_run (e_init client ssl) os)) = true /\ e_state (e_run (e_init client ssl) (os ++ [EFlush; ELost])) = Closed /\
  (t_buffered (e_transport (e_run (e_init client ssl) os)) = false -> e_state (e_run (e_init client ssl) (os ++ [ELost])) = Closed).
Proof.
  intros client ssl os H R. pose proof (einv_run client ssl os) as V. pose proof (idle_run client ssl os) as Id. rewrite !e_run_app.
  assert (Cg : t_closing (e_transport (e_run (e_init client ssl) os)) = true).
  { unfold close_returned in R. destruct (e_transfer _); [|discriminate].
    destruct (n_closer _ _ _ _ V R) as [Q|[Q1 [Q2 Q3]]]; [exact Q|]. exfalso.
    destruct H as [H|[H|H]]; [congruence | congruence|]. rewrite (no_peer os H) in Q3. discriminate. }
  split; [exact Cg|]. destruct (e_run (e_init client ssl) os) as [cl sl st code reason wt tr cr [bu cg sc go rd ab] sent].
  destruct V as [_ _ _ _ Go _ _ _ _]. unfold idle_done in Id. cbn in *. subst cg. split.
  - unfold on_transport, t_flush. cbn. destruct sc; cbn; [|destruct go; cbn; [|reflexivity]].
    + destruct go; cbn; [apply Go; reflexivity | reflexivity].
    + apply Go. reflexivity.
  - intros ->. rewrite (Id eq_refl eq_refl). destruct go; cbn; [apply Go; reflexivity|reflexivity].
Qed.

(** The plain client after the closing handshake: nothing but a broken connection closes it. *)
Record left_open (e : endpoint) : Prop := {
  lo_state : e_state e = Closing;
  lo_ssl : e_ssl e = false;
  lo_closer : e_closer e = true;
  lo_transfer : e_transfer e <> None;
  lo_closing : t_closing (e_transport e) = false;
  lo_scheduled : t_scheduled (e_transport e) = false
}.
Lemma left_open_step : forall e o, left_open e -> o <> EReset -> left_open (e_step e o).
Proof.
  intros [cl sl st code reason wt tr cr [bu cg sc go rd ab] sent] o [St Sl Cr Tr Cg Sc] N. cbn in *. subst.
  destruct tr as [x|]; [|congruence]. destruct o; try congruence; cbn; try (constructor; cbn; auto; fail).
  destruct rd; cbn; constructor; cbn; auto.
Qed.
Lemma left_open_run : forall os e, left_open e -> ~ In EReset os -> left_open (e_run e os).
Proof.
  induction os as [|o os IH]; intros e L N; [exact L|]. cbn. apply IH; [apply left_open_step; [exact L|]|]; intros H; apply N; [left; congruence | right; exact H].
Qed.
Lemma plain_client_stays_open : forall code p os, ~ In EReset os ->
  let before := [EClose code; EPeerClose p; ECloser] in
  close_returned (e_run (e_init true false) before) = true /\
  e_state (e_run (e_init true false) (before ++ os)) = Closing /\ t_closing (e_transport (e_run (e_init true false) (before ++ os))) = false.
Proof.
  intros code p os N before. split; [reflexivity|]. rewrite e_run_app.
  assert (L : left_open (e_run (e_init true false) before)) by (constructor; try reflexivity; discriminate).
  pose proof (left_open_run os _ L N) as [St _ _ _ Cg _]. auto.
Qed.

(** Nothing aborts the transport. *)
Lemma never_aborted : forall client ssl os, t_aborted (e_transport (e_run (e_init client ssl) os)) = false.
Proof. intros client ssl os. apply (n_aborted _ _ _ _ (einv_run client ssl os)). Qed.

Record jammed (e : endpoint) : Prop := {
  ja_state : e_state e <> Closed;
  ja_closer : e_closer e = true;
  ja_transfer : e_transfer e <> None;
  ja_closing : t_closing (e_transport e) = true;
  ja_scheduled : t_scheduled (e_transport e) = false;
  ja_reading : t_reading (e_transport e) = false
}.
Lemma jammed_step : forall e o, jammed e -> o <> EReset -> o <> EFlush -> jammed (e_step e o).
Proof.
  intros [cl sl st code reason wt tr cr [bu cg sc go rd ab] sent] o [St Cr Tr Cg Sc Rd] N1 N2. cbn in *. subst.
  destruct tr as [x|]; [|congruence]. destruct o; try congruence; cbn; try (constructor; cbn; auto; fail).
  unfold send_close. cbn. destruct st; constructor; cbn; auto; discriminate.
Qed.
Lemma jammed_run : forall os e, jammed e -> ~ In EReset os -> ~ In EFlush os -> jammed (e_run e os).
Proof.
  induction os as [|o os IH]; intros e L N1 N2; [exact L|]. cbn.
  apply IH; [apply jammed_step; [exact L| |]| |]; intros H; try (apply N1; right; exact H); try (apply N2; right; exact H); [apply N1 | apply N2]; left; congruence.
Qed.
Lemma unresponsive : forall client ssl os, ~ In EReset os -> ~ In EFlush os ->
  let before := [EWrite; EFails Connection; ECloser] in
  close_returned (e_run (e_init client ssl) before) = true /\ e_state (e_run (e_init client ssl) (before ++ os)) <> Closed.
Proof.
  intros client ssl os N1 N2 before. split; [reflexivity|]. rewrite e_run_app.
  assert (L : jammed (e_run (e_init client ssl) before)) by (constructor; try reflexivity; discriminate).
  apply (jammed_run os _ L N1 N2).
Qed.

(** After the close frame of the peer. *)
Definition told (code : nat) (reason : option nat) (e : endpoint) : Prop :=
  e_code e = code /\ e_reason e = reason /\ (e_state e = Closing \/ e_state e = Closed) /\ e_transfer e = Some (mk_ending code reason false).
Lemma told_step : forall code reason e o, code <> 0 -> told code reason e -> told code reason (e_step e o).
Proof.
  intros code reason [cl sl st c r wt tr cr tp sent] o N [C [R [St T]]]. cbn in *. subst c r tr. unfold told.
  destruct o as [x|p|x| | | | | | |]; cbn; auto.
  - unfold send_close. cbn. destruct St as [-> | ->]; cbn; auto.
  - destruct cr; cbn; auto. unfold close_finally. cbn. destruct (wt && negb sl); cbn; auto. destruct (wait_for_connection_lost wt); cbn; auto.
  - destruct (t_reading tp && negb (t_scheduled tp)); cbn; auto. destruct sl; cbn; auto.
  - destruct (t_scheduled tp && negb (t_gone tp)); cbn; auto. unfold or_default. destruct (Nat.eqb_spec code 0); [contradiction | auto].
Qed.
Lemma told_run : forall code reason os e, code <> 0 -> told code reason e -> told code reason (e_run e os).
Proof. induction os as [|o os IH]; intros e N T; [exact T|]. cbn. apply IH; [exact N|]. apply told_step; assumption. Qed.

Lemma peer_told : forall client ssl before payload after,
  e_transfer (e_run (e_init client ssl) before) = None -> payload_code payload <> 0 -> e_state (e_run (e_init client ssl) before) <> Connecting ->
  let e := e_run (e_init client ssl) (before ++ EPeerClose payload :: after) in
  receive_error e = Some (payload_code payload, option_map snd payload) /\
  send_error e = Some (payload_code payload) /\ e_reason e = option_map snd payload.
Proof.
  intros client ssl before payload after T N NC. cbv zeta. rewrite e_run_app. cbn [e_run].
  pose proof (einv_run client ssl before) as V. set (e0 := e_run (e_init client ssl) before) in *.
  assert (Told : told (payload_code payload) (option_map snd payload) (e_step e0 (EPeerClose payload))).
  { cbn [e_step]. rewrite T. unfold peer_closes, end_transfer, send_close, told.
    destruct payload as [[c r]|]; cbn in *; rewrite ?(n_reason _ _ _ _ V T) in *; unfold or_default.
    - destruct (e_state e0) eqn:E; cbn; (destruct (Nat.eqb_spec c 0); [contradiction | auto]). congruence.
    - destruct (e_state e0) eqn:E; cbn; auto. congruence. }
  apply (told_run _ _ after) in Told; [|exact N]. destruct Told as [C [R [St Tr]]].
  unfold receive_error, send_error. rewrite Tr, R, C. cbn [option_map]. split; [reflexivity|]. split; [|reflexivity].
  destruct St as [-> | ->]; [|reflexivity]. destruct (Nat.eqb_spec (payload_code payload) 0); [contradiction | reflexivity].
Qed.
Lemma not_connecting : forall client ssl os, e_state (e_run (e_init client ssl) os) <> Connecting.
Proof.
  intros client ssl os. induction os as [|o os IH] using rev_ind; [discriminate|]. rewrite e_run_app. cbn [e_run].
  destruct (e_run (e_init client ssl) os) as [cl sl st c r wt tr cr tp sent]. cbn in IH.
  destruct o as [x|p|x| | | | | | |]; cbn; auto.
  - unfold send_close. cbn. destruct st; cbn; congruence.
  - destruct tr; cbn; auto. unfold send_close. cbn. destruct st; cbn; congruence.
  - destruct tr; cbn; auto. unfold fail, send_close. destruct (cause_code x =? 1006); cbn; auto. destruct st; cbn; congruence.
  - destruct tr; cbn; auto.
  - destruct tr; cbn; auto. destruct cr; cbn; auto. unfold close_finally. cbn. destruct (wt && negb sl); cbn; auto. destruct (wait_for_connection_lost wt); cbn; auto.
  - destruct (t_reading tp && negb (t_scheduled tp)); cbn; auto. destruct sl; cbn; auto.
  - destruct (t_scheduled tp && negb (t_gone tp)); cbn; auto. discriminate.
Qed.
Lemma codes_agree : forall client ssl before payload after,
  e_transfer (e_run (e_init client ssl) before) = None -> payload_code payload <> 0 ->
  let e := e_run (e_init client ssl) (before ++ EPeerClose payload :: after) in
  receive_error e = Some (payload_code payload, option_map snd payload) /\
  send_error e = Some (payload_code payload) /\ e_reason e = option_map snd payload.
Proof. intros client ssl before payload after T N. apply peer_told; auto. apply not_connecting. Qed.

(** * Received messages *)

Lemma cancellations_none : forall os, (forall c, ~ In (MCancel c) os) -> QueueSpec.cancellations (map queue_op os) = 0.
Proof.
  induction os as [|o os IH]; intros H; [reflexivity|].
  assert (Q : QueueSpec.cancellations (map queue_op os) = 0) by (apply IH; intros c Hc; apply (H c); right; exact Hc).
  destruct o as [v| | | |c|c]; cbn; try exact Q. exfalso. apply (H c). left. reflexivity.
Qed.

Lemma accepted_arrived : forall os q, QueueModel.q_max q = None -> QueueProofs.bounded q ->
  QueueSpec.accepted (QueueModel.events q (map queue_op os)) = arrived os.
Proof.
  induction os as [|o os IH]; intros q M B; [reflexivity|]. cbn [map QueueModel.events].
  destruct (QueueProofs.bounded_step q (queue_op o) B) as [M' B']. rewrite M in M'.
  change (QueueSpec.accepted (?a :: ?b)) with (QueueSpec.accepted ([a] ++ b)). rewrite QueueProofs.accepted_app, (IH _ M' B').
  change (arrived (o :: os)) with (arrived ([o] ++ os)). unfold arrived at 2. rewrite flat_map_app. fold (arrived os). f_equal.
  destruct o as [v| | | |c|c]; cbn [queue_op].
  - destruct (QueueProofs.put_code q v) as [[E [_ [_ [n [Mn _]]]]]|[[E _]|[E _]]]; [congruence| |]; change (snd (QueueModel.step q (QueueModel.OPut v)) = QueueModel.EvPut v 0) in E; rewrite E; reflexivity.
  - reflexivity.
  - cbn. unfold QueueModel.get. destruct (QueueModel.take q) as [[v q']|]; [reflexivity|]. destruct (QueueModel.q_exc q); [reflexivity|].
    destruct (QueueModel.q_waiter q) as [f|]; [|reflexivity]. destruct (QueueModel.is_pending _); [reflexivity|].
    unfold QueueModel.finish_get. destruct (QueueModel.q_fut q f); reflexivity.
  - cbn. unfold QueueModel.get_no_wait. destruct (QueueModel.take q) as [[v q']|]; [reflexivity|]. destruct (QueueModel.q_exc q); reflexivity.
  - reflexivity.
  - cbn. unfold QueueModel.resume_get. destruct (QueueModel.find_get c _) as [g|]; [|reflexivity]. destruct (QueueModel.is_pending _); [reflexivity|].
    unfold QueueModel.finish_get. destruct (QueueModel.g_flag g); [destruct (QueueModel.g_next g); reflexivity|].
    destruct (QueueModel.q_fut _ _); destruct (QueueModel.g_next g); reflexivity.
Qed.

Lemma delivered : forall os, one_receiver None os ->
  received (m_events None os) ++ QueueSpec.in_flight (m_run None os) ++ QueueModel.q_results (m_run None os) = arrived os.
Proof.
  intros os [H N]. rewrite <- (accepted_arrived os (messages None) eq_refl I).
  exact (QueueProofs.once_in_order None (map queue_op os) H (cancellations_none os N)).
Qed.

(** A caller gets the exception only when nothing is stored. *)
Definition exc_last (q : QueueModel.queue) : Prop :=
  forall g, In g (QueueModel.q_gets q) -> QueueModel.q_fut q (QueueModel.g_fut g) = QueueModel.FExc ->
    QueueModel.q_exc q = true /\ QueueModel.q_results q = [].

Lemma exc_last_step : forall q o, QueueProofs.solo q -> QueueProofs.allowed q (queue_op o) -> exc_last q ->
  (forall c, o <> MCancel c) -> (forall v, o = MArrives v -> QueueModel.q_exc q = false) -> exc_last (fst (QueueModel.step q (queue_op o))).
Proof.
  intros q o So Al X NC NA. destruct o as [v| | | |c|c]; cbn [queue_op QueueModel.step fst].
  - specialize (NA v eq_refl). unfold exc_last in *. unfold QueueModel.put.
    assert (NE : forall g, In g (QueueModel.q_gets q) -> QueueModel.q_fut q (QueueModel.g_fut g) <> QueueModel.FExc)
      by (intros g Hg E; destruct (X g Hg E); congruence).
    destruct (QueueModel.q_waiter q) as [f|].
    + cbn. intros g Hg E. exfalso. apply (NE g Hg). unfold QueueModel.set_if_pending in E.
      destruct (QueueModel.is_pending _); [|exact E]. unfold QueueModel.upd in E. destruct (_ =? _); [discriminate | exact E].
    + destruct (QueueModel.full _ _); cbn; intros g Hg E; exfalso; exact (NE g Hg E).
  - intros g Hg E. cbn. split; [reflexivity|].
    unfold QueueModel.set_exception in Hg, E. cbn [QueueModel.q_gets QueueModel.q_fut QueueModel.g_fut] in Hg, E.
    rewrite (QueueProofs.j_swaiters q So) in E. cbn [fold_left] in E.
    destruct (QueueModel.q_waiter q) as [f|] eqn:W; [|apply (X g Hg E)].
    apply (proj1 (QueueProofs.j_waiter q So f W)).
  - unfold QueueModel.get. assert (G : QueueModel.q_gets q = []) by exact Al.
    destruct (QueueModel.take q) as [[v q']|] eqn:T.
    + cbn. rewrite andb_false_r. intros g Hg. unfold QueueModel.take in T. exfalso.
      destruct (QueueModel.q_lifo q); [destruct (rev (QueueModel.q_results q)); [discriminate|]|destruct (QueueModel.q_results q); [discriminate|]];
        injection T as _ <-; cbn in Hg; rewrite G in Hg; exact Hg.
    + destruct (QueueModel.q_exc q); [exact X|]. destruct (QueueModel.q_waiter q) as [f|].
      * destruct (QueueModel.is_pending (QueueModel.q_fut q f)) eqn:P.
        { unfold exc_last. cbn. rewrite G. intros g [<-|[]] E. cbn in E. rewrite E in P. discriminate. }
        { rewrite QueueProofs.finish_get_solo by apply So. exact X. }
      * unfold exc_last. cbn. rewrite G. intros g [<-|[]] E. cbn in E. rewrite QueueProofs.upd_same in E. discriminate.
  - unfold QueueModel.get_no_wait. assert (G : QueueModel.q_gets q = []) by exact Al.
    destruct (QueueModel.take q) as [[v q']|] eqn:T; [|exact X]. cbn [fst]. intros g Hg. exfalso.
    assert (G' : QueueModel.q_gets q' = []).
    { unfold QueueModel.take in T. destruct (QueueModel.q_lifo q); [destruct (rev (QueueModel.q_results q)); [discriminate|]|destruct (QueueModel.q_results q); [discriminate|]];
        injection T as _ <-; exact G. }
    assert (Q : QueueModel.q_gets (if QueueModel.q_lifo q then q' else QueueModel.poll_swaiters q') = []).
    { destruct (QueueModel.q_lifo q); [exact G'|]. unfold QueueModel.poll_swaiters. destruct (QueueModel.poll _ _). exact G'. }
    rewrite Q in Hg. exact Hg.
  - exfalso. exact (NC c eq_refl).
  - unfold QueueModel.resume_get. destruct (QueueModel.find_get c _) as [g0|]; [|exact X]. destruct (QueueModel.is_pending _); [exact X|].
    rewrite QueueProofs.finish_get_solo by apply So. intros g Hg E. cbn in *. apply filter_In in Hg. apply (X g); tauto.
Qed.

Lemma exc_set : forall o q, QueueModel.q_exc (fst (QueueModel.step q (queue_op o))) = true -> QueueModel.q_exc q = true \/ o = MEnds.
Proof.
  assert (P : forall q, QueueModel.q_exc (QueueModel.poll_swaiters q) = QueueModel.q_exc q)
    by (intros q; unfold QueueModel.poll_swaiters; destruct (QueueModel.poll _ _); reflexivity).
  assert (F : forall q f a b, QueueModel.q_exc (fst (QueueModel.finish_get q f a b)) = QueueModel.q_exc q).
  { intros q f a b. unfold QueueModel.finish_get.
    assert (Q : QueueModel.q_exc (if QueueModel.q_lifo q || b then q else QueueModel.poll_swaiters q) = QueueModel.q_exc q)
      by (destruct (QueueModel.q_lifo q || b); [reflexivity | apply P]).
    destruct a; [exact Q|]. destruct (QueueModel.q_fut q f); exact Q. }
  assert (T : forall q v q', QueueModel.take q = Some (v, q') -> QueueModel.q_exc q' = QueueModel.q_exc q).
  { intros q v q' T. unfold QueueModel.take in T.
    destruct (QueueModel.q_lifo q); [destruct (rev (QueueModel.q_results q)); [discriminate|]|destruct (QueueModel.q_results q); [discriminate|]];
      injection T as _ <-; reflexivity. }
  intros [v| | | |c|c] q; cbn [queue_op QueueModel.step fst]; auto.
  - unfold QueueModel.put. destruct (QueueModel.q_waiter q); [cbn; auto|]. destruct (QueueModel.full _ _); cbn; auto.
  - unfold QueueModel.get. destruct (QueueModel.take q) as [[v q']|] eqn:E.
    + cbn [fst]. rewrite andb_false_r, (T _ _ _ E). auto.
    + destruct (QueueModel.q_exc q) eqn:X; [cbn; auto|]. destruct (QueueModel.q_waiter q) as [f|]; [|cbn; auto].
      destruct (QueueModel.is_pending _); [cbn; auto|]. rewrite F, X. auto.
  - unfold QueueModel.get_no_wait. destruct (QueueModel.take q) as [[v q']|] eqn:E; [|auto]. cbn [fst].
    destruct (QueueModel.q_lifo q); [|rewrite P]; rewrite (T _ _ _ E); auto.
  - unfold QueueModel.cancel_get. destruct (QueueModel.find_get c _); [|auto]. destruct (QueueModel.is_pending _); cbn; auto.
  - unfold QueueModel.resume_get. destruct (QueueModel.find_get c _) as [g|]; [|auto]. destruct (QueueModel.is_pending _); [auto|]. rewrite F. cbn. auto.
Qed.

Lemma q_run_app : forall a b q, QueueModel.run q (a ++ b) = QueueModel.run (QueueModel.run q a) b.
Proof. induction a as [|o a IH]; intros b q; [reflexivity|]. cbn. apply IH. Qed.
Lemma one_consumer_app : forall a b q, QueueSpec.one_consumer q (a ++ b) ->
  QueueSpec.one_consumer q a /\ QueueSpec.one_consumer (QueueModel.run q a) b.
Proof. induction a as [|o a IH]; intros b q H; [split; [constructor | exact H]|]. cbn in *. destruct H as [A H]. apply IH in H. tauto. Qed.

Lemma one_receiver_app : forall m a b, one_receiver m (a ++ b) -> one_receiver m a.
Proof.
  intros m a b [H N]. rewrite map_app in H. split; [apply (one_consumer_app _ _ _ H)|].
  intros c Hc. apply (N c). apply in_or_app. left. exact Hc.
Qed.
Lemma ends_app : forall a b, ends (a ++ b) -> ends a.
Proof.
  intros a b H x y v E Hy. apply (H x (y ++ b) v); [rewrite E, <- app_assoc; reflexivity | apply in_or_app; left; exact Hy].
Qed.

Lemma exc_ends : forall m os, QueueModel.q_exc (m_run m os) = true -> In MEnds os.
Proof.
  intros m os. induction os as [|o os IH] using rev_ind; [discriminate|]. unfold m_run in *. rewrite map_app, q_run_app. cbn [map QueueModel.run].
  intros H. apply in_or_app. destruct (exc_set o _ H) as [Q|Q]; [left; apply IH, Q | right; left; auto].
Qed.

Lemma exc_last_run : forall m os, one_receiver m os -> ends os -> exc_last (m_run m os).
Proof.
  intros m os. induction os as [|o os IH] using rev_ind; intros H E; [intros g []|].
  pose proof (one_receiver_app _ _ _ H) as H1. pose proof (ends_app _ _ E) as E1. specialize (IH H1 E1).
  destruct H as [H N]. rewrite map_app in H. destruct (one_consumer_app _ _ _ H) as [Ha Hb]. cbn in Hb.
  unfold m_run in *. rewrite map_app, q_run_app. cbn [map QueueModel.run]. apply exc_last_step.
  - apply QueueProofs.solo_run; [apply QueueProofs.solo_init | exact Ha].
  - exact (proj1 Hb).
  - exact IH.
  - intros c ->. apply (N c). apply in_or_app. right. left. reflexivity.
  - intros v ->. destruct (QueueModel.q_exc _) eqn:X; [|reflexivity]. exfalso.
    apply exc_ends in X. apply in_split in X. destruct X as [a [b ->]].
    apply (E a (b ++ [MArrives v]) v); [rewrite <- app_assoc; reflexivity | apply in_or_app; right; left; reflexivity].
Qed.

(** The exception of the end comes when all messages were received. *)
Lemma exception_last : forall os o, one_receiver None (os ++ [o]) -> ends os ->
  snd (QueueModel.step (m_run None os) (queue_op o)) = QueueModel.EvGetRaised false -> received (m_events None os) = arrived os.
Proof.
  intros os o H E R. pose proof (one_receiver_app _ _ _ H) as H1. pose proof (exc_last_run None os H1 E) as X.
  pose proof (delivered os H1) as D. destruct H as [H N]. rewrite map_app in H. destruct (one_consumer_app _ _ _ H) as [Ha [Hb _]].
  fold (m_run None os) in Hb. set (q := m_run None os) in *.
  assert (J : QueueProofs.solo q) by (apply QueueProofs.solo_run; [apply QueueProofs.solo_init | exact Ha]).
  assert (Z : QueueSpec.in_flight q = [] /\ QueueModel.q_results q = []).
  { destruct o as [v| | | |c|c]; cbn [queue_op QueueModel.step snd] in R, Hb.
    - destruct (QueueProofs.put_code q v) as [[Q _]|[[Q _]|[Q _]]]; rewrite Q in R; discriminate.
    - discriminate.
    - split; [unfold QueueSpec.in_flight; rewrite Hb; reflexivity|]. unfold QueueModel.get in R.
      destruct (QueueModel.take q) as [[v q']|] eqn:T; [discriminate|]. apply QueueProofs.take_none, T.
    - split; [unfold QueueSpec.in_flight; rewrite Hb; reflexivity|]. unfold QueueModel.get_no_wait in R.
      destruct (QueueModel.take q) as [[v q']|] eqn:T; [discriminate|]. apply QueueProofs.take_none, T.
    - discriminate.
    - unfold QueueModel.resume_get in R. destruct (QueueProofs.gets_cases q J) as [G|[g G]]; rewrite G in R; cbn [QueueModel.find_get find] in R; [discriminate|].
      destruct (QueueModel.g_id g =? c); [|discriminate]. destruct (QueueModel.is_pending _); [discriminate|].
      unfold QueueModel.finish_get in R. cbn [QueueModel.with_gets QueueModel.q_fut] in R.
      destruct (QueueModel.g_flag g) eqn:Fl; [destruct (QueueModel.g_next g); discriminate|].
      destruct (QueueModel.q_fut q (QueueModel.g_fut g)) eqn:Fu; cbn [snd] in R; try (destruct (QueueModel.g_next g)); try discriminate;
        destruct (X g) as [_ Z]; try (rewrite G; left; reflexivity); try exact Fu;
        (split; [unfold QueueSpec.in_flight; rewrite G; cbn; rewrite Fl, Fu; reflexivity | exact Z]). }
  destruct Z as [Z1 Z2]. rewrite Z1, Z2, !app_nil_r in D. exact D.
Qed.
