From Coq Require Import List Bool Arith Lia.
From Verif Require Import TimeoutModel TimeoutSpec.
Import ListNotations.

(** ** Timeout *)

Lemma t_run_app res s a b : t_run res s (a ++ b) = t_run res (t_run res s a) b.
Proof. revert s; induction a as [|o a IH]; intros s; cbn [t_run app]; auto. Qed.
Lemma t_events_app res s a b : t_events res s (a ++ b) = t_events res s a ++ t_events res (t_run res s a) b.
Proof. revert s; induction a as [|o a IH]; intros s; cbn [t_run t_events app]; auto. rewrite IH, app_assoc. reflexivity. Qed.
Lemma t_elapsed_app a b : t_elapsed (a ++ b) = t_elapsed a + t_elapsed b.
Proof. induction a as [|o a IH]; auto. cbn [app t_elapsed]. destruct o; rewrite IH; lia. Qed.

Lemma t_closed_app a b : t_closed (a ++ b) <-> t_closed a \/ t_closed b.
Proof.
  unfold t_closed. rewrite in_app_iff. split.
  - intros [[H|H]|[e H]]; auto. apply in_app_iff in H. destruct H; [left|right]; eauto.
  - intros [[H|[e H]]|[H|[e H]]]; auto; right; exists e; apply in_app_iff; auto.
Qed.
Lemma t_closed_one o : t_closed [o] <-> o = TCancel \/ exists e, o = TExit e.
Proof.
  unfold t_closed; split.
  - intros [[->|[]]|[e [->|[]]]]; eauto.
  - intros [->|[e ->]]; [left|right; exists e]; cbn; auto.
Qed.
Lemma t_closed_nil : ~ t_closed [].
Proof. intros [[]|[e []]]. Qed.

Lemma snoc_case {A} (l : list A) : l = [] \/ exists l' x, l = l' ++ [x].
Proof. induction l as [|x l _] using rev_ind; eauto. Qed.

Lemma t_expired_snoc res d os o : t_expired res d (os ++ [o]) <->
  t_expired res d os \/ (o = TRun /\ exists h1 h2, os = h1 ++ TCycle :: h2 /\ d < t_elapsed h1 + res /\ ~ t_closed os).
Proof.
  split.
  - intros (h1 & h2 & h3 & E & D & C). destruct (snoc_case h3) as [->|(h3' & x & ->)].
    + right. replace (h1 ++ TCycle :: h2 ++ [TRun]) with ((h1 ++ TCycle :: h2) ++ [TRun]) in E
        by (rewrite <- app_assoc; reflexivity).
      apply app_inj_tail in E. destruct E as [-> ->]. split; auto. exists h1, h2. split; auto. split; auto.
      rewrite t_closed_app in *. change (TCycle :: h2) with ([TCycle] ++ h2). rewrite t_closed_app, t_closed_one.
      intros [H|[[H|[e H]]|H]]; [tauto|discriminate|discriminate|tauto].
    + left. exists h1, h2, h3'. split; auto.
      replace (h1 ++ TCycle :: h2 ++ TRun :: h3' ++ [x]) with ((h1 ++ TCycle :: h2 ++ TRun :: h3') ++ [x]) in E
        by (rewrite <- app_assoc; cbn [app]; rewrite <- app_assoc; reflexivity).
      apply app_inj_tail in E. tauto.
  - intros [(h1 & h2 & h3 & -> & D & C)|(-> & h1 & h2 & -> & D & C)].
    + exists h1, h2, (h3 ++ [o]). split; auto. rewrite <- app_assoc; cbn [app]; rewrite <- app_assoc; reflexivity.
    + exists h1, h2, []. split; [rewrite <- app_assoc; reflexivity|]. split; auto.
      rewrite t_closed_app in *. change (TCycle :: h2) with ([TCycle] ++ h2) in C. rewrite t_closed_app in C. tauto.
Qed.

Definition seen_due res d (os : list t_op) : Prop := exists h1 h2, os = h1 ++ TCycle :: h2 /\ d < t_elapsed h1 + res.

Lemma seen_snoc res d os o : seen_due res d (os ++ [o]) <-> seen_due res d os \/ (o = TCycle /\ d < t_elapsed os + res).
Proof.
  split.
  - intros (h1 & h2 & E & D). destruct (snoc_case h2) as [->|(h' & x & ->)].
    + apply app_inj_tail in E. destruct E as [-> ->]. auto.
    + left. exists h1, h'. change (TCycle :: h' ++ [x]) with ((TCycle :: h') ++ [x]) in E. rewrite app_assoc in E.
      apply app_inj_tail in E. tauto.
  - intros [(h1 & h2 & -> & D)|[-> D]].
    + exists h1, (h2 ++ [o]). rewrite <- app_assoc. auto.
    + exists os, []. auto.
Qed.


Definition t_inv res now d os (s : tmo) : Prop :=
  t_now s = now + t_elapsed os /\
  match t_state s with
  | TNone => ~ t_closed os /\ ~ t_expired res d os /\ (t_task s = true <-> t_entered os) /\
             exists q, t_handle s = Some (now + d, q) /\ (q = true <-> seen_due res d os)
  | TTimedOut => t_expired res d os /\ ~ t_closed os /\ t_handle s = None
  | _ => t_closed os /\ t_handle s = None /\ t_task s = false
  end.

Lemma t_after_snoc res now d os o : t_after res now d (os ++ [o]) = fst (t_step res (t_after res now d os) o).
Proof. unfold t_after. rewrite t_run_app. reflexivity. Qed.

Lemma t_inv_holds res now d os : t_inv res now d os (t_after res now d os).
Proof.
  induction os as [|o os IH] using rev_ind.
  - unfold t_after; cbn [t_run t_new]. split; cbn [t_now t_elapsed t_state t_new t_task t_handle]; [lia|].
    split; [apply t_closed_nil|]. split; [intros (h1 & h2 & h3 & E & _); destruct h1; discriminate|].
    split; [split; [discriminate|intros []]|]. exists false. split; auto. split; [discriminate|].
    intros (h1 & h2 & E & _); destruct h1; discriminate.
  - rewrite t_after_snoc. destruct (t_after res now d os) as [n h k st]. destruct IH as [IN IS].
    cbn [t_now t_state t_task t_handle] in IN, IS.
    unfold t_inv. rewrite t_elapsed_app.
    pose proof (t_closed_app os [o]) as CLO. rewrite t_closed_one in CLO. pose proof (t_expired_snoc res d os o) as EXP.
    assert (EN : t_entered (os ++ [o]) <-> t_entered os \/ o = TEnter true).
    { unfold t_entered. rewrite in_app_iff. cbn [In]. intuition. }
    destruct o as [dt| | |it| |e]; cbn [t_step fst t_now t_elapsed t_state t_handle t_task].
    + split; [lia|]; rewrite ?CLO, ?EXP. destruct st; cbn [option_map].
      * destruct IS as (A & B & C & q & -> & Q); rewrite ?CLO, ?EXP. split; [intros [H|[H|[e H]]]; [tauto|discriminate|discriminate]|]. split; [intros [H|[H _]]; [tauto|discriminate]|].
        split; [rewrite EN, C; intuition discriminate|]. exists q. split; auto. rewrite seen_snoc. intuition discriminate.
      * destruct IS as (A & B & C); rewrite ?CLO, ?EXP. split; auto. split; auto. intros [H|[H|[e H]]]; [tauto|discriminate|discriminate].
      * destruct IS as (A & B & C); rewrite ?CLO, ?EXP. auto.
      * destruct IS as (A & B & C); rewrite ?CLO, ?EXP. auto.
    + split; [lia|]; rewrite ?CLO, ?EXP. destruct st.
      * destruct IS as (A & B & C & q & -> & Q); rewrite ?CLO, ?EXP. cbn [option_map queue_due]. split; [intros [H|[H|[e H]]]; [tauto|discriminate|discriminate]|]. split; [intros [H|[H _]]; [tauto|discriminate]|].
        split; [rewrite EN, C; intuition discriminate|]. eexists. split; [reflexivity|]. rewrite seen_snoc.
        rewrite orb_true_iff, Nat.ltb_lt, Q. subst n. intuition lia.
      * destruct IS as (A & B & ->); rewrite ?CLO, ?EXP. split; auto. split; auto. intros [H|[H|[e H]]]; [tauto|discriminate|discriminate].
      * destruct IS as (A & -> & C); rewrite ?CLO, ?EXP. auto.
      * destruct IS as (A & -> & C); rewrite ?CLO, ?EXP. auto.
    + destruct st.
      * destruct IS as (A & B & C & q & -> & Q); rewrite ?CLO, ?EXP. destruct q.
        -- unfold t_timeout; cbn [t_state fst t_now t_handle]. split; [lia|]; rewrite ?CLO, ?EXP.
           split; [|split; auto].
           ++ right. split; auto. assert (true = true) as H by auto. apply Q in H. destruct H as (h1 & h2 & E & D).
              exists h1, h2. auto.
           ++ intros [H|[H|[e H]]]; [tauto|discriminate|discriminate].
        -- cbn [fst t_now t_state t_task t_handle]. split; [lia|]; rewrite ?CLO, ?EXP. split; [intros [H|[H|[e H]]]; [tauto|discriminate|discriminate]|].
           split. { intros [H|[_ (h1 & h2 & E & D & _)]]; [tauto|]. assert (false = true) by (apply Q; exists h1, h2; auto). discriminate. }
           split; [rewrite EN, C; intuition discriminate|]. exists false. split; auto. rewrite seen_snoc. intuition discriminate.
      * destruct IS as (A & B & ->); rewrite ?CLO, ?EXP. cbn [fst t_now t_state t_task t_handle]. split; [lia|]; rewrite ?CLO, ?EXP. split; auto. split; auto.
        intros [H|[H|[e H]]]; [tauto|discriminate|discriminate].
      * destruct IS as (A & -> & C); rewrite ?CLO, ?EXP. cbn [fst t_now t_state t_task t_handle]. split; [lia|]; rewrite ?CLO, ?EXP. auto.
      * destruct IS as (A & -> & C); rewrite ?CLO, ?EXP. cbn [fst t_now t_state t_task t_handle]. split; [lia|]; rewrite ?CLO, ?EXP. auto.
    + destruct st; destruct it; cbn [t_enter t_state fst t_now t_task t_handle];
        (split; [lia|]).
      * destruct IS as (A & B & C & q & -> & Q); rewrite ?CLO, ?EXP. split; [intros [H|[H|[e H]]]; [tauto|discriminate|discriminate]|].
        split; [intros [H|[H _]]; [tauto|discriminate]|]. split; [rewrite EN; intuition|]. exists q. split; auto.
        rewrite seen_snoc. intuition discriminate.
      * destruct IS as (A & B & C & q & -> & Q); rewrite ?CLO, ?EXP. split; [intros [H|[H|[e H]]]; [tauto|discriminate|discriminate]|].
        split; [intros [H|[H _]]; [tauto|discriminate]|]. split; [rewrite EN, C; intuition discriminate|]. exists q. split; auto.
        rewrite seen_snoc. intuition discriminate.
      * destruct IS as (A & B & C); rewrite ?CLO, ?EXP. split; auto. split; auto. intros [H|[H|[e H]]]; [tauto|discriminate|discriminate].
      * destruct IS as (A & B & C); rewrite ?CLO, ?EXP. split; auto. split; auto. intros [H|[H|[e H]]]; [tauto|discriminate|discriminate].
      * destruct IS as (A & B & C); rewrite ?CLO, ?EXP. auto.
      * destruct IS as (A & B & C); rewrite ?CLO, ?EXP. auto.
      * destruct IS as (A & B & C); rewrite ?CLO, ?EXP. auto.
      * destruct IS as (A & B & C); rewrite ?CLO, ?EXP. auto.
    + destruct st; cbn [t_state fst t_now t_task t_handle]; (split; [lia|]); rewrite CLO; tauto.
    + cbn [t_exit]. cbn [t_state fst t_now t_task t_handle]. split; [lia|]; rewrite ?CLO, ?EXP. split; [right; right; eauto|auto].
Qed.

Lemma t_exit_in_time res now d os e : ~ t_expired res d os -> t_then res now d os (TExit e) = [EvExit e (Through e)].
Proof.
  intros H. unfold t_then. pose proof (t_inv_holds res now d os) as [_ I]. cbn [t_step]. unfold t_exit.
  destruct (t_state (t_after res now d os)); auto. tauto.
Qed.

Lemma t_exit_late res now d os : t_expired res d os -> ~ t_closed os ->
  t_then res now d os (TExit (Some XCancelled)) = [EvExit (Some XCancelled) TimedOut] /\
  forall n, t_then res now d os (TExit (Some (XOther n))) = [EvExit (Some (XOther n)) (Through (Some (XOther n)))].
Proof.
  intros H C. unfold t_then. pose proof (t_inv_holds res now d os) as [_ I]. cbn [t_step]. unfold t_exit.
  destruct (t_state (t_after res now d os)); tauto.
Qed.

Lemma t_exit_late_normal res now d os : t_expired res d os -> ~ t_closed os ->
  t_then res now d os (TExit None) = [EvExit None TypeErrored].
Proof.
  intros H C. unfold t_then. pose proof (t_inv_holds res now d os) as [_ I]. cbn [t_step]. unfold t_exit.
  destruct (t_state (t_after res now d os)); tauto.
Qed.

Lemma t_exit_closed res now d os e : t_closed os -> t_then res now d os (TExit e) = [EvExit e (Through e)].
Proof.
  intros H. unfold t_then. pose proof (t_inv_holds res now d os) as [_ I]. cbn [t_step]. unfold t_exit.
  destruct (t_state (t_after res now d os)); tauto.
Qed.

Lemma t_cancel_only res now d os o : In EvCancelTask (t_then res now d os o) ->
  o = TRun /\ t_entered os /\ ~ t_closed os /\ ~ t_expired res d os /\ d < t_elapsed os + res.
Proof.
  unfold t_then. pose proof (t_inv_holds res now d os) as [IN I].
  destruct (t_after res now d os) as [n h k st]; cbn [t_now t_state t_task t_handle] in *.
  destruct o as [dt| | |it| |e]; cbn [t_step snd t_handle t_state].
  - intros [].
  - intros [].
  - destruct h as [[w [|]]|]; cbn [snd]; try (intros []; fail). unfold t_timeout; cbn [t_state t_task].
    destruct st; cbn [snd]; try (intros []; fail). destruct k; [|intros []]. intros _.
    destruct I as (A & B & C & q & E & Q). injection E as -> <-.
    split; auto. split; [apply C; auto|]. split; auto. split; auto.
    assert (true = true) as H by auto. apply Q in H. destruct H as (h1 & h2 & -> & D). rewrite t_elapsed_app. lia.
  - destruct (t_enter _ _); cbn [snd]. intros [H|[]]; discriminate.
  - destruct st; intros [].
  - destruct (t_exit _ _); cbn [snd]. intros [H|[]]; discriminate.
Qed.

Lemma t_cancels_snoc res now d os o : t_cancels res now d (os ++ [o]) =
  t_cancels res now d os + length (filter (fun e => match e with EvCancelTask => true | _ => false end) (t_then res now d os o)).
Proof.
  unfold t_cancels. rewrite t_events_app, filter_app, app_length. cbn [t_events]. rewrite app_nil_r. reflexivity.
Qed.

Lemma t_then_cancels res now d os o :
  length (filter (fun e => match e with EvCancelTask => true | _ => false end) (t_then res now d os o)) <= 1 /\
  (0 < length (filter (fun e => match e with EvCancelTask => true | _ => false end) (t_then res now d os o)) ->
   In EvCancelTask (t_then res now d os o)).
Proof.
  unfold t_then. destruct (t_after res now d os) as [n h k st].
  destruct o as [dt| | |it| |e]; cbn [t_step t_handle t_state].
  - cbn; lia.
  - cbn; lia.
  - destruct h as [[w [|]]|]; [|cbn; lia|cbn; lia]. unfold t_timeout; cbn [t_state t_task]. destruct st, k; cbn; auto; lia.
  - destruct (t_enter _ _); cbn; lia.
  - destruct st; cbn; lia.
  - destruct (t_exit _ _); cbn; lia.
Qed.

Lemma t_cancel_once res now d os : t_cancels res now d os <= 1 /\ (0 < t_cancels res now d os -> t_expired res d os).
Proof.
  induction os as [|o os [IH1 IH2]] using rev_ind; [cbn; lia|].
  rewrite t_cancels_snoc. pose proof (t_then_cancels res now d os o) as [L P].
  remember (length (filter _ (t_then res now d os o))) as c eqn:EC. destruct c as [|c].
  - split; [lia|]. intros H. apply t_expired_snoc. left. apply IH2. lia.
  - pose proof (P ltac:(lia)) as IN. pose proof (t_cancel_only _ _ _ _ _ IN) as (-> & E & C & X & D).
    assert (t_cancels res now d os = 0) by (destruct (t_cancels res now d os); auto; exfalso; apply X, IH2; lia).
    split; [lia|]. intros _. apply t_expired_snoc. right. split; auto.
    pose proof (t_inv_holds res now d os) as [_ I]. unfold t_then in IN. cbn [t_step] in IN.
    destruct (t_handle (t_after res now d os)) as [[w [|]]|] eqn:EH; try (destruct IN; fail).
    unfold t_timeout in IN. destruct (t_state (t_after res now d os)); try (destruct IN; fail).
    destruct I as (_ & _ & _ & q & E' & Q). injection E' as -> <-. destruct Q as [Q _]. destruct (Q eq_refl) as (h1 & h2 & ? & ?).
    exists h1, h2. auto.
Qed.

Lemma t_prompt res now d os : t_entered os -> ~ t_closed os -> ~ t_expired res d os -> d < t_elapsed os + res ->
  t_then res now d (os ++ [TCycle]) TRun = [EvCancelTask].
Proof.
  intros E C X D. unfold t_then. rewrite t_after_snoc. pose proof (t_inv_holds res now d os) as [IN I].
  destruct (t_after res now d os) as [n h k st]; cbn [t_now t_state t_task t_handle] in *.
  destruct st; try tauto. destruct I as (_ & _ & T & q & -> & Q).
  cbn [t_step fst t_handle option_map queue_due t_now].
  replace (now + d <? n + res) with true by (symmetry; apply Nat.ltb_lt; lia). rewrite orb_true_r.
  unfold t_timeout; cbn [t_state t_task snd]. replace k with true by (symmetry; apply T; exact E). reflexivity.
Qed.

Lemma t_enter_after res now d os : ~ t_closed os ->
  (t_expired res d os -> t_then res now d os (TEnter true) = [EvEnter AlreadyTimedOut]) /\
  (~ t_expired res d os -> t_then res now d os (TEnter true) = [EvEnter Entered]).
Proof.
  intros C. unfold t_then. pose proof (t_inv_holds res now d os) as [IN I]. cbn [t_step]. unfold t_enter.
  destruct (t_state (t_after res now d os)); cbn [snd]; tauto.
Qed.

(** ** repeat_timeout *)

Lemma r_run_app res dl s a b : r_run res dl s (a ++ b) = r_run res dl (r_run res dl s a) b.
Proof. revert s; induction a as [|o a IH]; intros s; cbn [r_run app]; auto. Qed.
Lemma r_events_app res dl s a b : r_events res dl s (a ++ b) = r_events res dl s a ++ r_events res dl (r_run res dl s a) b.
Proof. revert s; induction a as [|o a IH]; intros s; cbn [r_run r_events app]; auto. rewrite IH, app_assoc. reflexivity. Qed.
Lemma r_elapsed_app a b : r_elapsed (a ++ b) = r_elapsed a + r_elapsed b.
Proof. induction a as [|o a IH]; auto. cbn [app r_elapsed]. destruct o; rewrite IH; lia. Qed.
Lemma r_age_from_app a b x : r_age_from x (a ++ b) = r_age_from (r_age_from x a) b.
Proof. revert x; induction a as [|o a IH]; intros x; auto. cbn [app r_age_from]. destruct o; auto. Qed.
Lemma r_age_snoc a o : r_age (a ++ [o]) = match o with RTick dt => r_age a + dt | RNext => 0 | _ => r_age a end.
Proof. unfold r_age. rewrite r_age_from_app. destruct o; reflexivity. Qed.

Lemma r_after_snoc res now d os o : r_after res now d (os ++ [o]) = fst (r_step res d (r_after res now d os) o).
Proof. unfold r_after. rewrite r_run_app. reflexivity. Qed.

Lemma r_left_snoc os o : r_left (os ++ [o]) <-> r_left os \/ exists e, o = RExit e.
Proof.
  unfold r_left. split.
  - intros [e H]. apply in_app_iff in H. destruct H as [H|[->|[]]]; eauto.
  - intros [[e H]|[e ->]]; exists e; apply in_app_iff; cbn; auto.
Qed.

Lemma r_cancels_snoc res now d os o : r_cancels res now d (os ++ [o]) =
  r_cancels res now d os + length (filter (fun e => match e with EvCancelTask => true | _ => false end) (r_then res now d os o)).
Proof.
  unfold r_cancels. rewrite r_events_app, filter_app, app_length. cbn [r_events]. rewrite app_nil_r. reflexivity.
Qed.

(** [r_now s - age] is when the current iteration started. *)
Definition r_inv now d os (c : nat) (s : rep) : Prop :=
  0 < now /\ r_age os <= r_elapsed os /\ r_now s = now + r_elapsed os /\ (c = if r_timed s then 1 else 0) /\
  (r_last s = 0 \/ r_last s + r_age os = r_now s) /\
  match r_handle s with
  | Some (w, q) => r_timed s = false /\ ~ r_left os /\ (r_last s = 0 -> w + r_age os = r_now s + d) /\ w + r_age os <= r_now s + d /\
                   (q = true -> w <= r_now s + d)
  | None => r_timed s = true \/ r_left os
  end.

Definition r_due res (s : rep) : Prop := match r_handle s with Some (w, true) => w < r_now s + res | _ => True end.

Lemma r_inv_holds res now d os : 0 < now -> r_inv now d os (r_cancels res now d os) (r_after res now d os) /\ r_due res (r_after res now d os).
Proof.
  intros N0. induction os as [|o os [IH ID]] using rev_ind.
  - unfold r_inv, r_due; cbn. repeat split; auto; try lia. intros [e []].
  - rewrite r_after_snoc, r_cancels_snoc. unfold r_then. destruct (r_after res now d os) as [n h l tm]. destruct IH as (_ & IA & IN & IC & IL & IH).
    unfold r_due in ID. cbn [r_now r_handle r_last r_timed] in *. unfold r_inv. rewrite r_elapsed_app, r_age_snoc.
    assert (LS : forall x, (~ exists e, x = RExit e) -> (r_left (os ++ [x]) <-> r_left os)) by (intros x; rewrite r_left_snoc; tauto).
    destruct o as [dt| | | |e]; cbn [r_step fst snd r_now r_handle r_last r_timed r_elapsed filter length].
    + assert (LF : r_left (os ++ [RTick dt]) <-> r_left os) by (apply LS; intros [e E]; discriminate). unfold r_due; cbn [r_handle r_now].
      destruct h as [[w q]|]; [destruct q; split; try (exact Logic.I); try lia|split; [|exact Logic.I]];
       (split; [auto|split; [lia|split; [lia|split; [lia|split; [lia|]]]]]); try tauto; (destruct IH as (A & B & C & D & E);
       split; [auto|]; split; [tauto|]; split; [lia|]; split; [lia|]; lia).
    + assert (LF : r_left (os ++ [RCycle]) <-> r_left os) by (apply LS; intros [e E]; discriminate). unfold r_due; cbn [r_handle r_now].
      destruct h as [[w q]|]; cbn [option_map queue_due].
      * split.
        -- split; [auto|split; [lia|split; [lia|split; [lia|split; [lia|]]]]]. destruct IH as (A & B & C & D & E).
           split; [auto|]; split; [tauto|]; split; [lia|]; split; [lia|]. lia.
        -- destruct q; cbn [orb]; [lia|]. destruct (w <? n + res) eqn:E; auto. apply Nat.ltb_lt in E. lia.
      * split; [|exact Logic.I]. split; [auto|split; [lia|split; [lia|split; [lia|split; [lia|]]]]]. tauto.
    + assert (LF : r_left (os ++ [RRun]) <-> r_left os) by (apply LS; intros [e E]; discriminate).
      destruct h as [[w [|]]|]; cbn [fst snd r_now r_handle r_last r_timed filter length].
      * destruct IH as (-> & B & C & D & E). unfold r_call; cbn [r_last r_now r_timed].
        destruct (0 <? l) eqn:EL; [apply Nat.ltb_lt in EL|apply Nat.ltb_ge in EL]; cbn [fst snd r_now r_handle r_last r_timed filter length]; unfold r_due; cbn [r_handle r_now].
        -- split; [|exact Logic.I]. split; [auto|split; [lia|split; [lia|split; [lia|split; [lia|]]]]].
           split; [auto|]; split; [tauto|]; split; [lia|]; split; [lia|]. lia.
        -- split; [|exact Logic.I]. split; [auto|split; [lia|split; [lia|split; [lia|split; [lia|]]]]]. tauto.
      * unfold r_due; cbn [r_handle r_now]. split; [|exact Logic.I]. split; [auto|split; [lia|split; [lia|split; [lia|split; [lia|]]]]].
        destruct IH as (A & B & C & D & E). split; [auto|]; split; [tauto|]; split; [lia|]; split; [lia|]. lia.
      * unfold r_due; cbn [r_handle r_now]. split; [|exact Logic.I]. split; [auto|split; [lia|split; [lia|split; [lia|split; [lia|]]]]]. tauto.
    + assert (LF : r_left (os ++ [RNext]) <-> r_left os) by (apply LS; intros [e E]; discriminate). unfold r_due; cbn [r_handle r_now]. split; [|exact ID].
      split; [auto|split; [lia|split; [lia|split; [lia|split; [lia|]]]]].
      destruct h as [[w q]|]; [|tauto]. destruct IH as (A & B & C & D & E). split; [auto|]; split; [tauto|]; split; [lia|]; split; [|lia].
      destruct IL as [->|IL]; lia.
    + unfold r_due; cbn [r_exit fst snd r_handle r_now r_last r_timed filter length]. split; [|exact Logic.I].
      split; [auto|split; [lia|split; [lia|split; [lia|split; [lia|]]]]]. right. apply r_left_snoc. eauto.
Qed.

Lemma r_never_early res now d os o : 0 < now -> In EvCancelTask (r_then res now d os o) ->
  o = RRun /\ ~ r_left os /\ d < r_age os + res /\ r_cancels res now d os = 0.
Proof.
  intros N0. unfold r_then. pose proof (r_inv_holds res now d os N0) as [(_ & IA & IN & IC & IL & I) ID].
  unfold r_due in ID. destruct (r_after res now d os) as [n h l tm]. cbn [r_now r_handle r_last r_timed] in *.
  destruct o as [dt| | | |e]; cbn [r_step snd r_handle r_exit]; try (intros []; fail).
  - destruct h as [[w [|]]|]; cbn [snd]; try (intros []; fail). unfold r_call; cbn [r_last].
    destruct (0 <? l) eqn:EL; cbn [snd]; [intros []|]. apply Nat.ltb_ge in EL. intros _. destruct I as (-> & B & C & D & E).
    split; auto. split; auto. split; [lia|]. auto.
  - intros [H|[]]; discriminate.
Qed.

Lemma r_once res now d os : 0 < now -> r_cancels res now d os <= 1.
Proof.
  intros N0. pose proof (r_inv_holds res now d os N0) as [(_ & IA & IN & IC & _) _]. destruct (r_timed _); lia.
Qed.

Lemma r_prompt res now d os : 0 < now -> ~ r_left os -> d < r_age os + res ->
  r_cancels res now d (os ++ [RCycle; RRun; RCycle; RRun]) = 1.
Proof.
  intros N0 L D. pose proof (r_inv_holds res now d os N0) as [(_ & IA & IN & IC & IL & I) ID].
  unfold r_due in ID.
  change [RCycle; RRun; RCycle; RRun] with (([RCycle] ++ [RRun]) ++ [RCycle] ++ [RRun]).
  rewrite !app_assoc, !r_cancels_snoc. unfold r_then. rewrite !r_after_snoc.
  destruct (r_after res now d os) as [n h l tm]. cbn [r_now r_handle r_last r_timed] in *.
  destruct h as [[w q]|].
  - destruct I as (-> & _ & C & E & F). rewrite IC. cbn [r_step fst snd r_handle r_now r_last r_timed option_map queue_due filter length].
    replace (w <? n + res) with true by (symmetry; apply Nat.ltb_lt; lia). rewrite orb_true_r. unfold r_call; cbn [r_last r_timed r_now].
    destruct (0 <? l) eqn:EL; cbn [fst snd r_handle r_now r_last r_timed option_map queue_due filter length r_step].
    + replace (l + d <? n + res) with true by (symmetry; apply Nat.ltb_lt; apply Nat.ltb_lt in EL; lia). cbn [orb].
      cbn. lia.
    + cbn. lia.
  - destruct I as [->|I]; [|tauto]. rewrite IC. cbn. lia.
Qed.

Lemma r_exit_outcome res now d os e : 0 < now ->
  r_then res now d os (RExit e) =
  [EvExit e (match e with Some XCancelled => if r_cancels res now d os =? 0 then Through e else TimedOut | _ => Through e end)].
Proof.
  intros N0. unfold r_then. pose proof (r_inv_holds res now d os N0) as [(_ & IA & IN & IC & _) _].
  cbn [r_step r_exit snd]. rewrite IC. destruct e as [[|n]|]; auto. destruct (r_timed _); auto.
Qed.

(** ** sleep and apply_timeout *)

Lemma f_run_app res s a b : f_run res s (a ++ b) = f_run res (f_run res s a) b.
Proof. revert s; induction a as [|o a IH]; intros s; cbn [f_run app]; auto. Qed.
Lemma f_elapsed_app a b : f_elapsed (a ++ b) = f_elapsed a + f_elapsed b.
Proof. induction a as [|o a IH]; auto. cbn [app f_elapsed]. destruct o; rewrite IH; lia. Qed.

Lemma f_applied_snoc os o a d : f_applied os a d -> f_applied (os ++ [o]) a d.
Proof. intros (h1 & h2 & -> & E). exists h1, (h2 ++ [o]). split; auto. rewrite <- app_assoc. reflexivity. Qed.

(** [slept]: the delay [sleep] was called with, if it was. *)
Definition f_inv res now (slept : option nat) os (s : slp) : Prop :=
  f_now s = now + f_elapsed os /\
  (forall k w q, In (k, (w, q)) (f_timers s) ->
     (q = true -> w < f_now s + res) /\
     match k with
     | KSleep => exists d, slept = Some d /\ w = now + d
     | KTimeout => exists a d, f_applied os a d /\ w = now + a + d
     end) /\
  (match f_out s with
   | Some FSlept => exists d, slept = Some d /\ (d = 0 \/ d < f_elapsed os + res)
   | Some FTimeout => exists a d, f_applied os a d /\ (d = 0 \/ a + d < f_elapsed os + res)
   | Some (FUser n) => In (FSet n) os
   | None => True
   end) /\
  (f_called s = true -> f_out s <> None /\ f_timers s = []) /\
  (f_out s = None -> forall d, slept = Some d -> In (KSleep, (now + d)) (map (fun k => (fst k, fst (snd k))) (f_timers s))) /\
  (f_out s = None -> forall a d, f_applied os a d -> In (KTimeout, (now + a + d)) (map (fun k => (fst k, fst (snd k))) (f_timers s))).


Lemma f_after_snoc res now sl os o : f_after res now sl (os ++ [o]) = fst (f_step res (f_after res now sl os) o).
Proof. unfold f_after. rewrite f_run_app. reflexivity. Qed.

Lemma in_remove_nth {A} i (l : list A) x : In x (remove_nth i l) -> In x l.
Proof.
  revert i; induction l as [|y l IH]; intros i; [destruct i; auto|]. destruct i; cbn [remove_nth]; [right; auto|].
  intros [->|H]; [left; auto|right; eapply IH; eauto].
Qed.

Lemma f_applied_inv os o a d : f_applied (os ++ [o]) a d -> f_applied os a d \/ (o = FApply d /\ f_elapsed os = a).
Proof.
  intros (h1 & h2 & E & EL). destruct (snoc_case h2) as [->|(h' & x & ->)].
  - apply app_inj_tail in E. destruct E as [-> ->]. auto.
  - left. exists h1, h'. change (FApply d :: h' ++ [x]) with ((FApply d :: h') ++ [x]) in E. rewrite app_assoc in E.
    apply app_inj_tail in E. tauto.
Qed.

Lemma f_settle_pending s x ts : f_out (f_settle s x ts) = None -> False.
Proof. unfold f_settle. destruct (f_out s) eqn:E; cbn; discriminate. Qed.

Lemma f_inv_holds res now sl os : f_inv res now sl os (f_after res now sl os).
Proof.
  induction os as [|o os IH] using rev_ind.
  - assert (AP : forall a d, ~ f_applied [] a d) by (intros a d ([|] & h2 & E & _); discriminate).
    unfold f_inv, f_after, f_start; cbn [f_run f_elapsed]. destruct sl as [d|].
    + unfold f_sleep. destruct (d =? 0) eqn:E0; cbn [f_now f_timers f_out f_called].
      * apply Nat.eqb_eq in E0. subst d. split; [lia|]. split; [intros k w q []|]. split; [eauto|]. split; [discriminate|]. split; discriminate.
      * split; [lia|]. split.
        { intros k w q [E|[]]. injection E as <- <- <-. split; [discriminate|eauto]. }
        split; auto. split; [discriminate|]. split; [|intros _ a d' H; destruct (AP _ _ H)].
        intros _ d' E. injection E as <-. left. reflexivity.
    + unfold f_plain; cbn [f_now f_timers f_out f_called]. split; [lia|]. split; [intros k w q []|]. split; auto. split; [discriminate|].
      split; [discriminate|]. intros _ a d H; destruct (AP _ _ H).
  - rewrite f_after_snoc. destruct (f_after res now sl os) as [n out ts c]. destruct IH as (IN & IT & IO & IC & IS & IA).
    cbn [f_now f_out f_timers f_called] in *.
    assert (IT' : forall dt, f_elapsed [o] = dt -> forall k w q, In (k, (w, q)) ts ->
      (q = true -> w < n + dt + res) /\
      match k with
      | KSleep => exists d, sl = Some d /\ w = now + d
      | KTimeout => exists a d, f_applied (os ++ [o]) a d /\ w = now + a + d
      end).
    { intros dt _ k w q H. destruct (IT k w q H) as [H1 H2]. split; [intros E; specialize (H1 E); lia|].
      destruct k; auto. destruct H2 as (a & d & H2 & H3). exists a, d. split; auto. apply f_applied_snoc; auto. }
    assert (IO' : match out with
       | Some FSlept => exists d, sl = Some d /\ (d = 0 \/ d < f_elapsed (os ++ [o]) + res)
       | Some FTimeout => exists a d, f_applied (os ++ [o]) a d /\ (d = 0 \/ a + d < f_elapsed (os ++ [o]) + res)
       | Some (FUser m) => In (FSet m) (os ++ [o])
       | None => True
       end).
    { rewrite f_elapsed_app. destruct out as [[| |m]|]; auto.
      - destruct IO as (d & E & [H|H]); exists d; split; auto. right. lia.
      - destruct IO as (a & d & E & H). exists a, d. split; [apply f_applied_snoc; auto|]. destruct H; [auto|right; lia].
      - apply in_app_iff. auto. }
    assert (ND : (forall d, o <> FApply d) -> forall a d, f_applied (os ++ [o]) a d -> f_applied os a d).
    { intros NA a d H. apply f_applied_inv in H. destruct H as [H|[H _]]; auto. destruct (NA d H). }
    rewrite f_elapsed_app in IO'. unfold f_inv. rewrite f_elapsed_app.
    destruct o as [dt| |i|m|dl|]; cbn [f_step fst f_now f_out f_timers f_called f_elapsed] in *.
    + split; [lia|]. split; [intros k w q H; destruct (IT' dt ltac:(lia) k w q H) as [H1 H2]; auto|]. split; [exact IO'|].
      split; auto. split; auto. intros E a d H. apply IA; auto. apply ND; auto. discriminate.
    + split; [lia|]. split.
      { intros k w q H. apply in_map_iff in H. destruct H as ([k' [w' q']] & E & H). cbn [fst snd queue_due] in E. injection E as <- <- <-.
        destruct (IT' 0 eq_refl k' w' q' H) as [H1 H2]. split; auto. intros E. apply orb_true_iff in E. destruct E as [E|E]; [specialize (H1 E); lia|].
        apply Nat.ltb_lt in E. exact E. }
      split; [exact IO'|].
      assert (MM : forall ts, map (fun k => (fst k, fst (snd k))) (map (fun k : kind * timer => (fst k, queue_due res n (snd k))) ts) = map (fun k => (fst k, fst (snd k))) ts).
      { intros l. rewrite map_map. apply map_ext. intros [k [w q]]. reflexivity. }
      rewrite MM. split; [|split; auto].
      * intros E. destruct (IC E) as [H1 H2]. split; auto. rewrite H2. reflexivity.
      * intros E a d H. apply IA; auto. apply ND; auto. discriminate.
    + destruct (nth_error ts i) as [[k [w [|]]]|] eqn:EN; cbn [fst f_now f_out f_timers f_called].
      * assert (Hin : In (k, (w, true)) ts) by (eapply nth_error_In; eauto).
        destruct (IT' 0 eq_refl _ _ _ Hin) as [HW HK]. specialize (HW eq_refl).
        assert (RT : forall k w q, In (k, (w, q)) (remove_nth i ts) -> (q = true -> w < n + res) /\
          match k with KSleep => exists d, sl = Some d /\ w = now + d | KTimeout => exists a d, f_applied (os ++ [FRun i]) a d /\ w = now + a + d end).
        { intros k' w' q' H. apply in_remove_nth in H. destruct (IT' 0 eq_refl _ _ _ H) as [H1 H2]. split; auto. intros E; specialize (H1 E); lia. }
        unfold f_settle; cbn [f_out f_now f_called]. destruct out as [x|] eqn:EO; cbn [f_now f_out f_timers f_called].
        -- split; [lia|]. split; [exact RT|]. split; [exact IO'|]. split; [|split; discriminate].
           intros E. destruct (IC E) as [_ H2]. rewrite H2 in Hin. destruct Hin.
        -- split; [lia|]. split; [exact RT|]. split; [|split; [|split; discriminate]].
           ++ destruct k.
              ** destruct HK as (d & E & ->). exists d. split; auto. right. lia.
              ** destruct HK as (a & d & E & ->). exists a, d. split; auto. right. lia.
           ++ intros E. destruct (IC E) as [H _]. destruct H; auto.
      * split; [lia|]. split; [intros k' w' q' H; destruct (IT' 0 eq_refl _ _ _ H) as [H1 H2]; split; auto; intros E; specialize (H1 E); lia|].
        split; [exact IO'|]. split; auto. split; auto. intros E a d H. apply IA; auto. apply ND; auto. discriminate.
      * split; [lia|]. split; [intros k' w' q' H; destruct (IT' 0 eq_refl _ _ _ H) as [H1 H2]; split; auto; intros E; specialize (H1 E); lia|].
        split; [exact IO'|]. split; auto. split; auto. intros E a d H. apply IA; auto. apply ND; auto. discriminate.
    + assert (RT : forall k w q, In (k, (w, q)) ts -> (q = true -> w < n + res) /\
          match k with KSleep => exists d, sl = Some d /\ w = now + d | KTimeout => exists a d, f_applied (os ++ [FSet m]) a d /\ w = now + a + d end).
      { intros k' w' q' H. destruct (IT' 0 eq_refl _ _ _ H) as [H1 H2]. split; auto. intros E; specialize (H1 E); lia. }
      unfold f_settle; cbn [f_out f_now f_called]. destruct out as [x|] eqn:EO; cbn [f_now f_out f_timers f_called].
      * split; [lia|]. split; [exact RT|]. split; [exact IO'|]. split; [|split; discriminate]. exact IC.
      * split; [lia|]. split; [exact RT|]. split; [apply in_app_iff; cbn; auto|]. split; [|split; discriminate].
        intros E. destruct (IC E) as [H _]. destruct H; auto.
    + assert (RT : forall k w q, In (k, (w, q)) ts -> (q = true -> w < n + res) /\
          match k with KSleep => exists d, sl = Some d /\ w = now + d | KTimeout => exists a d, f_applied (os ++ [FApply dl]) a d /\ w = now + a + d end).
      { intros k' w' q' H. destruct (IT' 0 eq_refl _ _ _ H) as [H1 H2]. split; auto. intros E; specialize (H1 E); lia. }
      assert (NEW : f_applied (os ++ [FApply dl]) (f_elapsed os) dl) by (exists os, []; auto).
      destruct out as [x|] eqn:EO; cbn [fst f_now f_out f_timers f_called].
      * split; [lia|]. split; [exact RT|]. split; [exact IO'|]. split; [|split; discriminate]. exact IC.
      * destruct (dl =? 0) eqn:E0; unfold f_settle; cbn [fst f_now f_out f_timers f_called].
        -- split; [lia|]. split; [exact RT|]. apply Nat.eqb_eq in E0. split; [eauto|]. split; [|split; discriminate].
           intros E. destruct (IC E) as [H _]. destruct H; auto.
        -- split; [lia|]. split; [|split; auto; split; [|split]].
           ++ intros k w q H. apply in_app_iff in H. destruct H as [H|[H|[]]]; [auto|]. injection H as <- <- <-. split; [discriminate|].
              exists (f_elapsed os), dl. split; [auto|lia].
           ++ intros E. destruct (IC E) as [H _]. destruct H; auto.
           ++ intros _ d E. rewrite map_app. apply in_app_iff. left. auto.
           ++ intros _ a d H. rewrite map_app. apply in_app_iff. apply f_applied_inv in H. destruct H as [H|[H <-]]; [left; auto|].
              injection H as <-. right. left. cbn [fst snd]. repeat f_equal. lia.
    + destruct out as [x|] eqn:EO; cbn [fst f_now f_out f_timers f_called].
      * split; [lia|]. split; [intros k w q []|]. split; [exact IO'|]. split; [|split; discriminate]. intros _. split; [discriminate|auto].
      * split; [lia|]. split; [intros k' w' q' H; destruct (IT' 0 eq_refl _ _ _ H) as [H1 H2]; split; auto; intros E; specialize (H1 E); lia|].
        split; auto. split; auto. split; auto. intros E a d H. apply IA; auto. apply ND; auto. discriminate.
Qed.

Lemma f_slept_not_early res now sl os : f_out (f_after res now sl os) = Some FSlept ->
  exists d, sl = Some d /\ (d = 0 \/ d < f_elapsed os + res).
Proof. intros E. destruct (f_inv_holds res now sl os) as (_ & _ & H & _). rewrite E in H. exact H. Qed.

Lemma f_timeout_not_early res now sl os : f_out (f_after res now sl os) = Some FTimeout ->
  exists a d, f_applied os a d /\ (d = 0 \/ a + d < f_elapsed os + res).
Proof. intros E. destruct (f_inv_holds res now sl os) as (_ & _ & H & _). rewrite E in H. exact H. Qed.

Lemma f_stable res now sl os os' x : f_out (f_after res now sl os) = Some x -> f_out (f_after res now sl (os ++ os')) = Some x.
Proof.
  intros E. induction os' as [|o os' IH] using rev_ind; [rewrite app_nil_r; exact E|].
  rewrite app_assoc, f_after_snoc. destruct (f_after res now sl (os ++ os')) as [n out ts c]. cbn [f_out] in IH. subst out.
  destruct o as [dt| |i|m|dl|]; cbn [f_step fst f_out]; auto.
  destruct (nth_error _ i) as [[k [w [|]]]|]; auto.
Qed.

Lemma f_released res now sl os : f_out (f_after res now sl os) <> None ->
  f_timers (f_after res now sl (os ++ [FCallbacks])) = [].
Proof. rewrite f_after_snoc. destruct (f_after res now sl os) as [n [x|] ts c]; cbn; tauto. Qed.


Lemma f_runs_same res s rs : only_runs rs -> f_out (f_run res s rs) = None -> f_run res s rs = s.
Proof.
  revert s; induction rs as [|o rs IH]; intros s A E; [reflexivity|]. cbn [f_run] in *.
  assert (A' : only_runs rs) by (intros x Hx; apply A; right; auto).
  rewrite (IH _ A' E). rewrite (IH _ A' E) in E. destruct (A o (or_introl eq_refl)) as [i ->].
  cbn [f_step] in *. destruct (nth_error (f_timers s) i) as [[k [w [|]]]|]; auto.
  cbn [fst] in E. apply f_settle_pending in E. destruct E.
Qed.

Lemma f_due_done res now sl os rs k w : only_runs rs ->
  In (k, w) (map (fun k => (fst k, fst (snd k))) (f_timers (f_after res now sl os))) -> w < f_now (f_after res now sl os) + res ->
  f_quiet (f_after res now sl (os ++ FCycle :: rs)) -> f_out (f_after res now sl (os ++ FCycle :: rs)) <> None.
Proof.
  intros A I D Q E. unfold f_after in *. rewrite f_run_app in *. cbn [f_run] in *.
  set (s := f_run res (f_start now sl) os) in *.
  pose proof (f_runs_same _ _ _ A E) as R. rewrite R in Q. apply in_map_iff in I. destruct I as ([k' [w' q]] & Ew & I).
  cbn [fst snd] in Ew. injection Ew as -> ->. cbn [f_step fst] in Q.
  assert (false = true); [|discriminate]. symmetry. apply (Q k w). apply in_map_iff. exists (k, (w, q)). split; auto.
  cbn [fst snd queue_due]. do 2 f_equal. apply orb_true_iff. right. apply Nat.ltb_lt. exact D.
Qed.

Lemma f_wakes res now d os rs : only_runs rs -> d < f_elapsed os + res ->
  f_quiet (f_after res now (Some d) (os ++ FCycle :: rs)) -> f_out (f_after res now (Some d) (os ++ FCycle :: rs)) <> None.
Proof.
  intros A D Q. destruct (f_inv_holds res now (Some d) os) as (IN & _ & _ & _ & IS & _).
  destruct (f_out (f_after res now (Some d) os)) as [x|] eqn:E.
  - rewrite (f_stable _ _ _ _ _ _ E). discriminate.
  - apply (f_due_done res now (Some d) os rs KSleep (now + d)); auto. lia.
Qed.

Lemma f_times_out res now sl a d os rs : only_runs rs -> f_applied os a d -> a + d < f_elapsed os + res ->
  f_quiet (f_after res now sl (os ++ FCycle :: rs)) -> f_out (f_after res now sl (os ++ FCycle :: rs)) <> None.
Proof.
  intros A P D Q. destruct (f_inv_holds res now sl os) as (IN & _ & _ & _ & _ & IA).
  destruct (f_out (f_after res now sl os)) as [x|] eqn:E.
  - rewrite (f_stable _ _ _ _ _ _ E). discriminate.
  - apply (f_due_done res now sl os rs KTimeout (now + a + d)); auto. lia.
Qed.

Lemma f_apply_reply res now sl os d : snd (f_step res (f_after res now sl os) (FApply d)) =
  Some (match f_out (f_after res now sl os) with None => true | Some _ => false end).
Proof. cbn [f_step]. destruct (f_out _); auto. destruct (d =? 0); auto. Qed.
