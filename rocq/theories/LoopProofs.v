From Coq Require Import List ZArith Bool Permutation Lia.
From Verif Require Import LoopModel LoopSpec.
Import ListNotations.
Open Scope Z_scope.

Section Proofs.

Variable pick : list timer -> option (timer * list timer).
Hypothesis Hpick : heap_pick pick.
Variable resolution : Z.

Notation step := (step pick resolution).
Notation run := (run pick resolution).
Notation events := (events pick resolution).
Notation move_due := (move_due pick).

Lemma mem_In : forall h l, mem h l = true <-> In h l.
Proof.
  intros h l. unfold mem. rewrite existsb_exists. split.
  - intros [x [H1 H2]]. apply Nat.eqb_eq in H2. subst. exact H1.
  - intros H. exists h. split; [exact H | apply Nat.eqb_refl].
Qed.

Lemma events_app : forall h1 h2 s, events s (h1 ++ h2) = events s h1 ++ events (run s h1) h2.
Proof.
  induction h1 as [|o h1 IH]; intros h2 s; cbn; [reflexivity|]. rewrite IH, app_assoc. reflexivity.
Qed.

Lemma run_app : forall h1 h2 s, run s (h1 ++ h2) = run (run s h1) h2.
Proof.
  induction h1 as [|o h1 IH]; intros h2 s; cbn; [reflexivity|]. apply IH.
Qed.

(** ** Moving the due timers *)

Definition moved_handles (evs : list event) : list nat :=
  flat_map (fun e => match e with EvMoved _ h => [h] | _ => [] end) evs.
Definition dropped_handles (evs : list event) : list nat :=
  flat_map (fun e => match e with EvDropped h => [h] | _ => [] end) evs.

Lemma move_due_spec : forall n limit cancelled heap heap' evs,
  (length heap <= n)%nat -> move_due n limit cancelled heap = (heap', evs) ->
  (* nothing is lost *)
  Permutation (map snd heap) (moved_handles evs ++ dropped_handles evs ++ map snd heap') /\
  (* only such events *)
  (forall e, In e evs -> (exists w h, e = EvMoved w h /\ w < limit /\ In (w, h) heap /\ mem h cancelled = false) \/
                         (exists h, e = EvDropped h /\ In h cancelled)) /\
  (* in order *)
  nondecreasing (moved_deadlines evs) /\
  (* everything due is gone *)
  (forall w h, In (w, h) heap' -> In (w, h) heap /\ (mem h cancelled = false -> limit <= w)).
Proof.
  induction n as [|n IH]; intros limit cancelled heap heap' evs Hn E.
  - destruct heap; [|cbn in Hn; lia]. inversion E; subst. cbn. repeat split; auto; try contradiction.
  - cbn [LoopModel.move_due] in E. destruct (pick heap) as [[[w h] rest]|] eqn:P.
    2: { apply (proj1 Hpick) in P. subst. inversion E; subst. cbn. repeat split; auto; try contradiction. }
    destruct (proj2 Hpick _ _ _ P) as [Pm Mn].
    assert (Hr : (length rest <= n)%nat).
    { apply Permutation_length in Pm. cbn in Pm. lia. }
    assert (Hi : forall y, In y rest -> In y heap).
    { intros y Hy. eapply Permutation_in; [apply Permutation_sym; exact Pm | right; exact Hy]. }
    assert (Hx : In (w, h) heap).
    { eapply Permutation_in; [apply Permutation_sym; exact Pm | left; reflexivity]. }
    pose proof (Permutation_map snd Pm) as Pm'. cbn in Pm'.
    destruct (mem h cancelled) eqn:C.
    + destruct (move_due n limit cancelled rest) as [heap1 evs1] eqn:M. inversion E; subst.
      destruct (IH _ _ _ _ _ Hr M) as [I1 [I2 [I3 I4]]]. split; [|split; [|split]].
      * cbn. eapply Permutation_trans; [exact Pm'|].
        eapply Permutation_trans; [apply perm_skip; exact I1|]. apply Permutation_middle.
      * intros e [<-|He].
        -- right. exists h. split; [reflexivity | apply mem_In; exact C].
        -- destruct (I2 e He) as [[w' [h' [E1 [E2 [E3 E4]]]]]|J]; [left; exists w', h'; auto | right; exact J].
      * exact I3.
      * intros w' h' J. destruct (I4 w' h' J). auto.
    + destruct (Z.leb_spec limit w).
      * inversion E; subst. cbn. repeat split; auto; try contradiction.
        intros Hc. specialize (Mn _ H0). cbn in Mn. lia.
      * destruct (move_due n limit cancelled rest) as [heap1 evs1] eqn:M. inversion E; subst.
        destruct (IH _ _ _ _ _ Hr M) as [I1 [I2 [I3 I4]]]. split; [|split; [|split]].
        -- cbn. eapply Permutation_trans; [exact Pm'|]. apply perm_skip. exact I1.
        -- intros e [<-|He].
           ++ left. exists w, h. auto.
           ++ destruct (I2 e He) as [[w' [h' [E1 [E2 [E3 E4]]]]]|J]; [left; exists w', h'; auto | right; exact J].
        -- cbn. split; [|exact I3]. intros y Hy. unfold moved_deadlines in Hy. apply in_flat_map in Hy.
           destruct Hy as [e [He Hy]]. destruct (I2 e He) as [[w' [h' [-> [E2 [E3 E4]]]]]|[h' [-> _]]].
           ++ destruct Hy as [<-|[]]. apply (Mn (w', h')). auto.
           ++ destruct Hy.
        -- intros w' h' J. destruct (I4 w' h' J). auto.
Qed.

(** ** Conservation of handles *)

Definition trace_ok (s : loop) (evs : list event) : Prop :=
  created_soon evs = turns_soon evs ++ waiting_soon (e_ready s) /\
  Permutation (created evs) (ran evs ++ discarded evs ++ handles (e_ready s) ++ map snd (e_heap s)) /\
  NoDup (created evs) /\ (forall h, In h (created evs) -> (h < e_next s)%nat).

Lemma created_app : forall a b, created (a ++ b) = created a ++ created b.
Proof. intros. apply flat_map_app. Qed.
Lemma created_soon_app : forall a b, created_soon (a ++ b) = created_soon a ++ created_soon b.
Proof. intros. apply flat_map_app. Qed.
Lemma turns_soon_app : forall a b, turns_soon (a ++ b) = turns_soon a ++ turns_soon b.
Proof. intros. apply flat_map_app. Qed.
Lemma ran_app : forall a b, ran (a ++ b) = ran a ++ ran b.
Proof. intros. apply flat_map_app. Qed.
Lemma discarded_app : forall a b, discarded (a ++ b) = discarded a ++ discarded b.
Proof. intros. apply flat_map_app. Qed.
Lemma waiting_soon_app : forall a b, waiting_soon (a ++ b) = waiting_soon a ++ waiting_soon b.
Proof. intros. apply flat_map_app. Qed.
Lemma handles_app : forall a b, handles (a ++ b) = handles a ++ handles b.
Proof. intros. apply flat_map_app. Qed.

Lemma cycle_events : forall evs,
  (forall e, In e evs -> (exists w h, e = EvMoved w h) \/ (exists h, e = EvDropped h)) ->
  created evs = [] /\ created_soon evs = [] /\ turns_soon evs = [] /\ ran evs = [] /\
  discarded evs = dropped_handles evs /\ waiting_soon (moved_items evs) = [] /\
  handles (moved_items evs) = moved_handles evs.
Proof.
  induction evs as [|e evs IH]; intros H; [repeat split; reflexivity|].
  destruct (IH (fun e He => H e (or_intror He))) as [I1 [I2 [I3 [I4 [I5 [I6 I7]]]]]].
  unfold created, created_soon, turns_soon, ran, discarded, waiting_soon, handles, moved_items, dropped_handles,
    moved_handles in *.
  destruct (H e (or_introl eq_refl)) as [[w [h ->]]|[h ->]]; cbn; rewrite ?I1, ?I2, ?I3, ?I4, ?I5, ?I6, ?I7;
    repeat split; reflexivity.
Qed.

Lemma polled_none : forall rc rs, waiting_soon (polled rc rs) = [] /\ handles (polled rc rs) = [].
Proof.
  intros rc rs. unfold polled. induction (filter _ rs) as [|r l IH]; cbn; [auto | exact IH].
Qed.

Lemma trace_ok_init : trace_ok loop_init [].
Proof. repeat split; cbn; auto; try constructor; try contradiction. Qed.

Lemma NoDup_snoc : forall (l : list nat) x, NoDup l -> ~ In x l -> NoDup (l ++ [x]).
Proof.
  induction l as [|y l IH]; cbn; intros x H Hx; [repeat constructor; auto|].
  inversion H; subst. constructor.
  - rewrite in_app_iff. cbn. intros [J|[J|J]]; auto.
  - apply IH; auto.
Qed.

Lemma step_ok : forall s o evs, trace_ok s evs -> trace_ok (fst (step s o)) (evs ++ snd (step s o)).
Proof.
  intros s o evs [H1 [H2 [H3 H4]]]. unfold trace_ok.
  rewrite created_app, created_soon_app, turns_soon_app, ran_app, discarded_app.
  destruct o as [|w|h|r|now rs|]; cbn [LoopModel.step].
  - (* call_soon *)
    cbn [fst snd e_ready e_heap e_next]. rewrite waiting_soon_app, handles_app.
    cbn [created created_soon turns_soon ran discarded waiting_soon handles flat_map app]. rewrite !app_nil_r.
    split; [rewrite H1, app_assoc; reflexivity|]. split; [|split].
    + eapply Permutation_trans; [apply Permutation_app_tail; exact H2|].
      rewrite <- !app_assoc. do 3 apply Permutation_app_head. apply Permutation_app_comm.
    + apply NoDup_snoc; [exact H3|]. intros J. apply H4 in J. lia.
    + intros h J. apply in_app_or in J. destruct J as [J|[<-|[]]]; [apply H4 in J; lia | lia].
  - (* call_at *)
    cbn [fst snd e_ready e_heap e_next].
    cbn [created created_soon turns_soon ran discarded waiting_soon handles flat_map app map snd]. rewrite !app_nil_r.
    split; [exact H1|]. split; [|split].
    + eapply Permutation_trans; [apply Permutation_app_tail; exact H2|].
      rewrite <- !app_assoc. do 3 apply Permutation_app_head. apply Permutation_app_comm.
    + apply NoDup_snoc; [exact H3|]. intros J. apply H4 in J. lia.
    + intros h J. apply in_app_or in J. destruct J as [J|[<-|[]]]; [apply H4 in J; lia | lia].
  - cbn. rewrite !app_nil_r. auto.
  - cbn. rewrite !app_nil_r. auto.
  - (* cycle *)
    destruct (e_draining s) eqn:D; [cbn; rewrite !app_nil_r; auto|].
    destruct (move_due _ _ _ _) as [heap' ev] eqn:M.
    destruct (move_due_spec _ _ _ _ _ _ (le_n _) M) as [P1 [P2 [P3 P4]]].
    assert (P2' : forall e, In e ev -> (exists w h, e = EvMoved w h) \/ (exists h, e = EvDropped h)).
    { intros e He. destruct (P2 e He) as [[w [h [-> _]]]|[h [-> _]]]; [left | right]; eauto. }
    destruct (cycle_events ev P2') as [C1 [C2 [C3 [C4 [C5 [C6 C7]]]]]].
    cbn [fst snd e_ready e_heap e_next]. rewrite C1, C2, C3, C4, C5, !app_nil_r.
    rewrite !waiting_soon_app, !handles_app, C6, C7.
    destruct (polled_none (e_rcancelled s) rs) as [Q1 Q2]. rewrite Q1, Q2, !app_nil_r.
    split; [exact H1|]. split; [|split; assumption].
    eapply Permutation_trans; [exact H2|]. apply Permutation_app_head. rewrite <- !app_assoc.
    apply Permutation_app_head.
    eapply Permutation_trans; [apply Permutation_app_head; exact P1|].
    rewrite (app_assoc (handles (e_ready s))), (app_assoc (handles (e_ready s)) (moved_handles ev)).
    apply Permutation_app_swap_app.
  - (* run *)
    destruct (e_draining s) eqn:D; [|cbn; rewrite !app_nil_r; auto].
    destruct (e_ready s) as [|i ready] eqn:R.
    + cbn. rewrite !app_nil_r. cbn in H1, H2. rewrite app_nil_r in H1. auto.
    + cbn [fst snd e_ready e_heap e_next].
      assert (E : created [if item_cancelled s i then EvSkipped i else EvRan i] = []) by (destruct (item_cancelled s i); reflexivity).
      assert (E2 : created_soon [if item_cancelled s i then EvSkipped i else EvRan i] = []) by (destruct (item_cancelled s i); reflexivity).
      rewrite E, E2, !app_nil_r.
      assert (E3 : turns_soon [if item_cancelled s i then EvSkipped i else EvRan i] = waiting_soon [i])
        by (destruct (item_cancelled s i), i; reflexivity).
      rewrite E3. change (i :: ready) with ([i] ++ ready) in H1, H2.
      rewrite waiting_soon_app in H1. rewrite handles_app in H2.
      split; [rewrite H1, app_assoc; reflexivity|]. split; [|split; assumption].
      eapply Permutation_trans; [exact H2|].
      destruct (item_cancelled s i).
      * assert (E4 : ran [EvSkipped i] = []) by (destruct i; reflexivity).
        assert (E5 : discarded [EvSkipped i] = handles [i]) by (destruct i; reflexivity).
        rewrite E4, E5, app_nil_r, <- !app_assoc. reflexivity.
      * assert (E4 : ran [EvRan i] = handles [i]) by (destruct i; reflexivity).
        assert (E5 : discarded [EvRan i] = []) by (destruct i; reflexivity).
        rewrite E4, E5, app_nil_r, <- !app_assoc. apply Permutation_app_head.
        rewrite !app_assoc. do 2 apply Permutation_app_tail. apply Permutation_app_comm.
Qed.

Lemma run_ok : forall ops s evs, trace_ok s evs -> trace_ok (run s ops) (evs ++ events s ops).
Proof.
  induction ops as [|o ops IH]; intros s evs H; cbn; [rewrite app_nil_r; exact H|].
  rewrite app_assoc. apply IH. apply step_ok. exact H.
Qed.

Lemma conservation : forall ops, trace_ok (run loop_init ops) (events loop_init ops).
Proof. intros ops. apply (run_ok ops loop_init [] trace_ok_init). Qed.

(** ** C07 *)

Lemma fifo : forall ops,
  created_soon (events loop_init ops) =
  turns_soon (events loop_init ops) ++ waiting_soon (e_ready (run loop_init ops)).
Proof. intros ops. apply conservation. Qed.

Lemma NoDup_app_split : forall (a b : list nat), NoDup (a ++ b) -> NoDup a /\ forall x, In x a -> ~ In x b.
Proof.
  induction a as [|x a IH]; cbn; intros b H; [split; [constructor | tauto]|].
  inversion H; subst. destruct (IH b H3) as [I1 I2]. split.
  - constructor; [|exact I1]. intros J. apply H2. apply in_or_app. left. exact J.
  - intros y [<-|Hy] Hb; [apply H2; apply in_or_app; right; exact Hb | exact (I2 y Hy Hb)].
Qed.

Lemma at_most_once : forall ops, NoDup (ran (events loop_init ops)) /\
  (forall h, In h (ran (events loop_init ops)) -> ~ In h (discarded (events loop_init ops))).
Proof.
  intros ops. destruct (conservation ops) as [_ [P [N _]]].
  pose proof (Permutation_NoDup P N) as N'. destruct (NoDup_app_split _ _ N') as [N1 N2]. split; [exact N1|].
  intros h H1 H2. apply (N2 h H1). apply in_or_app. left. exact H2.
Qed.

(** ** Cancellation *)

Lemma cancelled_step : forall s o h,
  In h (e_cancelled (fst (step s o))) <-> In h (e_cancelled s) \/ o = OCancel h.
Proof.
  intros s o h. destruct o as [|w|h'|r|now rs|]; cbn [LoopModel.step].
  - cbn. split; [auto | intros [H|H]; [exact H | discriminate]].
  - cbn. split; [auto | intros [H|H]; [exact H | discriminate]].
  - cbn. split; intros [H|H].
    + right. subst. reflexivity.
    + left. exact H.
    + right. exact H.
    + left. inversion H. reflexivity.
  - cbn. split; [auto | intros [H|H]; [exact H | discriminate]].
  - destruct (e_draining s); [|destruct (move_due _ _ _ _)]; cbn;
      (split; [auto | intros [H|H]; [exact H | discriminate]]).
  - destruct (e_draining s); [destruct (e_ready s)|]; cbn;
      (split; [auto | intros [H|H]; [exact H | discriminate]]).
Qed.

Lemma cancelled_run : forall ops s h,
  In h (e_cancelled (run s ops)) <-> In h (e_cancelled s) \/ In (OCancel h) ops.
Proof.
  induction ops as [|o ops IH]; intros s h; cbn; [tauto|].
  rewrite IH, cancelled_step. intuition.
Qed.

Lemma run_iff_not_cancelled : forall h1 i,
  In (EvRan i) (snd (step (run loop_init h1) ORun)) ->
  match i with ISoon h | ITimer _ h => ~ In (OCancel h) h1 | IReader _ => True end.
Proof.
  intros h1 i H. set (s := run loop_init h1) in *. cbn [LoopModel.step] in H.
  destruct (e_draining s); [|contradiction]. destruct (e_ready s) as [|j ready]; [destruct H as [H|[]]; discriminate|].
  destruct H as [H|[]]. destruct (item_cancelled s j) eqn:C; [discriminate|]. inversion H; subst.
  assert (G : forall h, In (OCancel h) h1 -> mem h (e_cancelled s) = true).
  { intros h J. apply mem_In. apply cancelled_run. right. exact J. }
  destruct i as [h|w h|r]; [| |exact Logic.I]; intros J; apply G in J; unfold item_cancelled in C; congruence.
Qed.

Lemma discarded_only_cancelled : forall h1 o h,
  In h (discarded (snd (step (run loop_init h1) o))) -> In (OCancel h) h1.
Proof.
  intros h1 o h H. set (s := run loop_init h1) in *.
  assert (G : In h (e_cancelled s) -> In (OCancel h) h1).
  { intros J. apply cancelled_run in J. destruct J as [[]|J]; exact J. }
  apply G. destruct o as [|w|h'|r|now rs|]; cbn [LoopModel.step] in H; try contradiction.
  - destruct (e_draining s); [contradiction|].
    destruct (move_due _ _ _ _) as [heap' ev] eqn:M.
    destruct (move_due_spec _ _ _ _ _ _ (le_n _) M) as [_ [P2 _]]. cbn in H.
    unfold discarded in H. apply in_flat_map in H. destruct H as [e [He H]].
    destruct (P2 e He) as [[w [h' [-> _]]]|[h' [-> J]]]; [contradiction|].
    destruct H as [<-|[]]. exact J.
  - destruct (e_draining s); [|contradiction]. destruct (e_ready s) as [|i ready]; [contradiction|].
    cbn in H. destruct (item_cancelled s i) eqn:C.
    + destruct i as [h'|w h'|r]; cbn in H; try contradiction;
        (destruct H as [<-|[]]; apply mem_In; exact C).
    + destruct i; contradiction.
Qed.

(** ** C08 *)

Lemma timer_cycle : forall ops now rs,
  let s := run loop_init ops in
  let evs := snd (step s (OCycle now rs)) in
  (forall w h, In (EvMoved w h) evs -> w < now + resolution /\ ~ In (OCancel h) ops) /\
  nondecreasing (moved_deadlines evs) /\
  (e_draining s = false -> forall w h, In (w, h) (e_heap (fst (step s (OCycle now rs)))) ->
     ~ In (OCancel h) ops -> now + resolution <= w).
Proof.
  intros ops now rs s evs. unfold evs. cbn [LoopModel.step].
  destruct (e_draining s) eqn:D; [cbn; repeat split; try contradiction; discriminate|].
  destruct (move_due _ _ _ _) as [heap' ev] eqn:M.
  destruct (move_due_spec _ _ _ _ _ _ (le_n _) M) as [P1 [P2 [P3 P4]]]. cbn [fst snd e_heap].
  assert (G : forall h, mem h (e_cancelled s) = true <-> In (OCancel h) ops).
  { intros h. rewrite mem_In. unfold s. rewrite cancelled_run. cbn. tauto. }
  split; [|split].
  - intros w h H. destruct (P2 _ H) as [[w' [h' [E [L [_ C]]]]]|[h' [E _]]]; [|discriminate].
    inversion E; subst. split; [exact L|]. rewrite <- G. congruence.
  - exact P3.
  - intros _ w h H N. apply P4 in H. apply H. destruct (mem h (e_cancelled s)) eqn:C; [|reflexivity].
    apply G in C. contradiction.
Qed.

(** A timer only runs after it was moved. *)
Definition timers_ok (s : loop) (evs : list event) : Prop :=
  (forall w h, In (ITimer w h) (e_ready s) -> In (EvMoved w h) evs) /\
  (forall w h, In (EvRan (ITimer w h)) evs -> In (EvMoved w h) evs).

Lemma timers_step : forall s o evs, timers_ok s evs -> timers_ok (fst (step s o)) (evs ++ snd (step s o)).
Proof.
  intros s o evs [H1 H2]. unfold timers_ok. destruct o as [|w0|h0|r|now rs|]; cbn [LoopModel.step].
  - cbn [fst snd e_ready]. split; intros w h J; apply in_app_or in J; apply in_or_app; left;
      destruct J as [J|[J|[]]]; try discriminate; auto.
  - cbn [fst snd e_ready]. split; intros w h J; apply in_or_app; left; auto.
    apply in_app_or in J; destruct J as [J|[J|[]]]; [auto | discriminate].
  - cbn. rewrite app_nil_r. auto.
  - cbn. rewrite app_nil_r. auto.
  - destruct (e_draining s); [cbn; rewrite app_nil_r; auto|].
    destruct (move_due _ _ _ _) as [heap' ev] eqn:M.
    destruct (move_due_spec _ _ _ _ _ _ (le_n _) M) as [P1 [P2 [P3 P4]]]. cbn [fst snd e_ready].
    split; intros w h J.
    + apply in_app_or in J. apply in_or_app. destruct J as [J|J]; [left; auto|].
      apply in_app_or in J. destruct J as [J|J].
      * right. unfold moved_items in J. apply in_flat_map in J. destruct J as [e [He J]].
        destruct (P2 e He) as [[w' [h' [-> _]]]|[h' [-> _]]]; [|contradiction].
        destruct J as [J|[]]. inversion J; subst. exact He.
      * unfold polled in J. apply in_map_iff in J. destruct J as [x [J _]]. discriminate.
    + apply in_app_or in J. apply in_or_app. left. destruct J as [J|J]; [auto|].
      destruct (P2 _ J) as [[w' [h' [E _]]]|[h' [E _]]]; discriminate.
  - destruct (e_draining s); [|cbn; rewrite app_nil_r; auto].
    destruct (e_ready s) as [|i ready] eqn:R.
    + cbn [fst snd e_ready]. split; intros w h J; [contradiction|]. apply in_app_or in J. apply in_or_app. left.
      destruct J as [J|[J|[]]]; [auto | discriminate].
    + cbn [fst snd e_ready]. split; intros w h J.
      * apply in_or_app. left. apply H1. right. exact J.
      * apply in_app_or in J. apply in_or_app. left. destruct J as [J|[J|[]]]; [auto|].
        destruct (item_cancelled s i); [discriminate|]. inversion J; subst. apply H1. left. reflexivity.
Qed.

Lemma timers_run : forall ops s evs, timers_ok s evs -> timers_ok (run s ops) (evs ++ events s ops).
Proof.
  induction ops as [|o ops IH]; intros s evs H; cbn; [rewrite app_nil_r; exact H|].
  rewrite app_assoc. apply IH. apply timers_step. exact H.
Qed.

Lemma moved_from_cycle : forall ops s w h, In (EvMoved w h) (events s ops) ->
  exists h1 now rs h2, ops = h1 ++ OCycle now rs :: h2 /\ In (EvMoved w h) (snd (step (run s h1) (OCycle now rs))).
Proof.
  induction ops as [|o ops IH]; intros s w h H; [contradiction|]. cbn in H. apply in_app_or in H.
  destruct H as [H|H].
  - destruct o as [|w0|h0|r|now rs|]; try (cbn in H; (contradiction || (destruct H as [H|[]]; discriminate))).
    + exists [], now, rs, ops. split; [reflexivity | exact H].
    + cbn in H. destruct (e_draining s); [|contradiction]. destruct (e_ready s) as [|i ready];
        (destruct H as [H|[]]); try discriminate. destruct (item_cancelled s i); discriminate.
  - destruct (IH _ _ _ H) as [h1 [now [rs [h2 [E J]]]]]. exists (o :: h1), now, rs, h2.
    split; [cbn; rewrite E; reflexivity | exact J].
Qed.

(** A timer that ran was moved by an earlier cycle whose clock had reached its deadline. *)
Lemma never_early : forall ops w h, In (EvRan (ITimer w h)) (events loop_init ops) ->
  exists h1 now rs h2, ops = h1 ++ OCycle now rs :: h2 /\ w < now + resolution.
Proof.
  intros ops w h H.
  assert (T : timers_ok (run loop_init ops) (events loop_init ops)).
  { apply (timers_run ops loop_init []). split; cbn; contradiction. }
  apply (proj2 T) in H. destruct (moved_from_cycle _ _ _ _ H) as [h1 [now [rs [h2 [E J]]]]].
  exists h1, now, rs, h2. split; [exact E|]. destruct (timer_cycle h1 now rs) as [G _]. apply (G w h J).
Qed.

(** ** Draining *)

(** Without further additions the drain loop ends after as many turns as there are items, plus one. *)
Lemma drain_ends : forall ops s, e_draining s = true ->
  (forall o, In o ops -> o = ORun \/ (exists h, o = OCancel h) \/ (exists r, o = OCancelReader r) \/ exists w, o = OCallAt w) ->
  (length (e_ready s) < length (filter (fun o => match o with ORun => true | _ => false end) ops))%nat ->
  e_draining (run s ops) = false /\ In EvDrained (events s ops).
Proof.
  assert (Idle : forall ops s, e_draining s = false ->
    (forall o, In o ops -> o = ORun \/ (exists h, o = OCancel h) \/ (exists r, o = OCancelReader r) \/ exists w, o = OCallAt w) ->
    e_draining (run s ops) = false).
  { induction ops as [|o ops IH]; intros s D H; [exact D|]. cbn.
    apply IH; [|intros o' Ho'; apply H; right; exact Ho'].
    destruct (H o (or_introl eq_refl)) as [->|[[h ->]|[[r ->]|[w ->]]]]; cbn; try exact D.
    rewrite D. exact D. }
  induction ops as [|o ops IH]; intros s D H L; [cbn in L; lia|].
  assert (H' : forall o, In o ops -> o = ORun \/ (exists h, o = OCancel h) \/ (exists r, o = OCancelReader r) \/ exists w, o = OCallAt w)
    by (intros o' Ho'; apply H; right; exact Ho').
  cbn. destruct (H o (or_introl eq_refl)) as [->|[[h ->]|[[r ->]|[w ->]]]].
  - cbn in L. cbn [LoopModel.step]. rewrite D. destruct (e_ready s) as [|i ready] eqn:R; cbn [fst snd].
    + split; [apply Idle; [reflexivity | exact H'] | left; reflexivity].
    + cbn in L. destruct (IH (mk_loop ready (e_heap s) (e_cancelled s) (e_rcancelled s) (e_next s) true)) as [I1 I2].
      * reflexivity.
      * exact H'.
      * cbn. lia.
      * split; [exact I1 | apply in_or_app; right; exact I2].
  - cbn in L. cbn [LoopModel.step fst snd app]. apply IH; [exact D | exact H' | cbn; exact L].
  - cbn in L. cbn [LoopModel.step fst snd app]. apply IH; [exact D | exact H' | cbn; exact L].
  - cbn in L. cbn [LoopModel.step fst snd app].
    destruct (IH (mk_loop (e_ready s) ((w, e_next s) :: e_heap s) (e_cancelled s) (e_rcancelled s) (S (e_next s))
      (e_draining s))) as [I1 I2]; [exact D | exact H' | cbn; exact L | split; [exact I1 | right; exact I2]].
Qed.

(** Whatever is in [_ready] has its turn within as many turns as its position, whatever the callbacks add. *)
Lemma turn_comes : forall ops s k i, e_draining s = true -> nth_error (e_ready s) k = Some i ->
  (k < length (filter (fun o => match o with ORun => true | _ => false end) ops))%nat ->
  In (EvRan i) (events s ops) \/ In (EvSkipped i) (events s ops).
Proof.
  induction ops as [|o ops IH]; intros s k i D N L; [cbn in L; lia|].
  assert (G : forall s', e_draining s' = true -> nth_error (e_ready s') k = Some i ->
     (k < length (filter (fun o => match o with ORun => true | _ => false end) ops))%nat ->
     step s o = (s', snd (step s o)) ->
     In (EvRan i) (events s (o :: ops)) \/ In (EvSkipped i) (events s (o :: ops))).
  { intros s' D' N' L' E. cbn. destruct (IH s' k i D' N' L') as [J|J]; [left|right];
      apply in_or_app; right; rewrite E; exact J. }
  destruct o as [|w0|h0|r|now rs|].
  - eapply G; [| | |reflexivity]; cbn; auto. rewrite nth_error_app1; [exact N|].
    apply nth_error_Some. congruence.
  - eapply G; [| | |reflexivity]; cbn; auto.
  - eapply G; [| | |reflexivity]; cbn; auto.
  - eapply G; [| | |reflexivity]; cbn; auto.
  - cbn. rewrite D. cbn. apply (IH s k i D N). exact L.
  - cbn. rewrite D. destruct (e_ready s) as [|j ready] eqn:R; [destruct k; discriminate|]. cbn [fst snd].
    destruct k as [|k].
    + cbn in N. inversion N; subst. destruct (item_cancelled s i); [right|left]; left; reflexivity.
    + cbn in L. cbn in N. destruct (IH (mk_loop ready (e_heap s) (e_cancelled s) (e_rcancelled s) (e_next s) true) k i)
        as [J|J]; auto; [lia | left | right]; right; exact J.
Qed.

(** ** C09 *)

Definition busy (i : item) : list op := match i with ISoon _ => [OCallSoon] | _ => [] end.

(** One timer with deadline 5, one callback; the clock shows 0 when the loop starts. *)
Definition busy_start : list op := [OCallAt 5; OCallSoon; OCycle 0 []].

End Proofs.

(** A picker that meets [heap_pick]: the first smallest element. *)
Fixpoint pick_min (l : list timer) : option (timer * list timer) :=
  match l with
  | [] => None
  | x :: l' =>
      match pick_min l' with
      | None => Some (x, l')
      | Some (y, r) => if fst x <=? fst y then Some (x, l') else Some (y, x :: r)
      end
  end.

Lemma pick_min_ok : heap_pick pick_min.
Proof.
  split.
  - intros [|x l]; [reflexivity|]. cbn. destruct (pick_min l) as [[y r]|]; [|discriminate].
    destruct (fst x <=? fst y); discriminate.
  - induction l as [|x l IH]; cbn; intros m r E; [discriminate|].
    destruct (pick_min l) as [[y r']|] eqn:P.
    + destruct (IH _ _ eq_refl) as [I1 I2]. destruct (Z.leb_spec (fst x) (fst y)); inversion E; subst.
      * split; [reflexivity|]. intros z [<-|Hz]; [lia|]. specialize (I2 z Hz). lia.
      * split; [|intros z [<-|Hz]; [lia | auto]].
        eapply Permutation_trans; [apply perm_skip; exact I1 | apply perm_swap].
    + destruct l as [|z l]; inversion E; subst.
      * split; [reflexivity|]. intros z [<-|[]]. lia.
      * cbn in P. destruct (pick_min l) as [[? ?]|]; [destruct (fst z <=? fst t)|]; discriminate.
Qed.

(** The self-rescheduling callback keeps the loop inside the drain loop for ever. *)
Lemma busy_forever : forall pick, heap_pick pick -> forall n,
  let s := turns pick 1 busy n (run pick 1 loop_init busy_start) in
  e_draining s = true /\ (exists h, e_ready s = [ISoon h]) /\ e_heap s = [(5, 0%nat)] /\ e_cancelled s = [].
Proof.
  intros pick Hp n. cbv zeta.
  assert (S0 : run pick 1 loop_init busy_start = mk_loop [ISoon 1] [(5, 0%nat)] [] [] 2 true).
  { unfold busy_start. cbn [run step fst e_draining e_heap e_ready e_next e_cancelled e_rcancelled loop_init length app].
    cbn [move_due]. match goal with |- context [pick ?l] => change l with [((5, 0%nat) : timer)] end.
    destruct (pick [((5, 0%nat) : timer)]) as [[[w h] rest]|] eqn:P; [|reflexivity].
    destruct (proj2 Hp _ _ _ P) as [Pm _]. apply Permutation_length_1_inv in Pm. inversion Pm; subst. reflexivity. }
  rewrite S0. clear S0. generalize 1%nat as h.
  induction n as [|n IH]; intros h; [cbn; repeat split; eexists; reflexivity|].
  cbn [turns e_draining e_ready item_cancelled mem existsb e_cancelled step fst run busy e_heap e_rcancelled e_next app].
  apply IH.
Qed.
