From Coq Require Import List Arith Bool Lia.
From Verif Require Import SwitchModel SwitchSpec.
Import ListNotations.

(** * The block is done in the executor, whatever happens *)
Lemma block_executor l m : forall w, (forall th, In (true, th) (trace w) -> th = Executor) -> forall th, In (true, th) (trace (run l w m)) -> th = Executor.
Proof.
  induction m as [|a m IH]; intros w H; [exact H|]. apply (IH (step l w a)). clear IH.
  assert (R : forall n th, ~ In (true, th) (repeat (false, TheLoop) n)) by (intros n th X; apply repeat_spec in X; discriminate).
  destruct a; cbn [step].
  - destruct (at_ w); exact H.
  - destruct (at_ w); try exact H. destruct (entry w); exact H.
  - unfold exec. destruct (at_ w); try exact H.
    + destruct (ended w); [exact H|]. destruct (coro w); try exact H. destruct (cancelling w); exact H.
    + unfold inside. destruct (coro w) as [|[|[|] k]| |[|n]]; cbn; try exact H; try (destruct (raising w); exact H).
      * destruct (raising w); [exact H|]. cbn. intros th X. apply in_app_iff in X. destruct X as [X|[X|[]]]; [apply H; exact X|congruence].
      * destruct (end_ w); exact H.
      * intros th X. apply in_app_iff in X. destruct X as [X|[X|[]]]; [apply H; exact X|discriminate].
    + destruct (inner w); exact H.
    + destruct (end_ w); exact H.
  - destruct (at_ w); try exact H. destruct (inner w); exact H.
  - destruct (in_loop w); [|exact H]. assert (G : forall th, In (true, th) (trace (in_loop_step w)) -> th = Executor).
    { unfold in_loop_step. destruct (ended w); [exact H|]. cbn. intros th X. apply in_app_iff in X. destruct X as [X|X]; [apply H; exact X|destruct (R _ _ X)]. }
    destruct (at_ w); first [exact H|exact G].
  - unfold cancel. destruct (ended w); [exact H|]. destruct (waited w); [exact H|destruct (entry w)|destruct (inner w)|destruct (end_ w)]; exact H.
Qed.

(** * Without cancellation; [c]: cancelled while something was awaited in the block *)

Section L.
Variables (l : list item) (n : nat).

Inductive good : bool -> world -> Prop :=
| g_entry p : p = Scheduled \/ p = Queued -> good false (mk_world p false Entering n false false Entry Pending Pending Pending None false [])
| g_entered : good false (mk_world Top false Entering n false false End Result Pending Pending None false [])
| g_wait (c : bool) i d k : l = d ++ k -> (if c then i = Cancelled else i <> Cancelled) ->
    good c (mk_world Waiting false (Block k) n false false Inner Result i Pending None false (block_part d))
| g_top (c : bool) i d k : l = d ++ k -> (if c then i = Cancelled else i <> Cancelled) ->
    good c (mk_world Top false (Block k) n false false Inner Result i Pending None false (block_part d))
| g_inside (c : bool) x i d k : l = d ++ k -> (if c then i = Cancelled else i <> Cancelled) -> x = End \/ x = Inner ->
    good c (mk_world Inside false (Block k) n c false x Result i Pending None false (block_part d))
| g_exiting (c : bool) x i d k : l = d ++ k -> (c = false -> k = []) -> x = End \/ x = Inner ->
    good c (mk_world Inside false Exiting n c false x Result i Pending None false (block_part d))
| g_end (c : bool) i d k : l = d ++ k -> (c = false -> k = []) ->
    good c (mk_world AtEnd false Exiting n c false End Result i Pending None false (block_part d))
| g_away (c : bool) i d k : l = d ++ k -> (c = false -> k = []) ->
    good c (mk_world Away true Exiting n c false End Result i Result None false (block_part d))
| g_done (c : bool) i d k : l = d ++ k -> (c = false -> k = []) ->
    good c (mk_world Away false (Rest 0) n c false End Result i Result (Some (if c then CancelledError else Returns)) true (block_part d ++ rest_part n)).

Definition measure (w : world) : nat :=
  match at_ w, coro w with
  | Scheduled, _ => 4 * length l + 20
  | Queued, _ => 4 * length l + 19
  | Top, Block k => 4 * length k + 12
  | Top, _ => 4 * length l + 18
  | Waiting, Block k => 4 * length k + match inner w with Pending => 14 | _ => 13 end
  | Inside, Block k => 4 * length k + 11
  | Inside, _ => 8
  | AtEnd, _ => 7
  | Away, _ => if in_loop w then 6 else 0
  | _, _ => 0
  end.

Lemma block_snoc d i : block_part (d ++ [i]) = block_part d ++ match i with Work => [(true, Executor)] | Await => [] end.
Proof. unfold block_part. rewrite flat_map_app. cbn. rewrite app_nil_r. reflexivity. Qed.

Lemma good_step c w a : good c w -> a <> Cancel -> good c (step l w a) /\ (step l w a = w \/ measure (step l w a) < measure w).
Proof.
  intros G N. destruct G as [p P| |c i d k E I1|c i d k E I1|c x i d k E I1 X|c x i d k E K X|c i d k E K|c i d k E K|c i d k E K].
  - destruct a; try contradiction; destruct P as [-> | ->]; cbn; split; try (constructor; auto; fail); try (left; reflexivity); right; lia.
  - destruct a; try contradiction; cbn; split; try (constructor; auto; fail); try (left; reflexivity); [|right; lia]. apply (g_inside false End Pending [] l); auto. discriminate.
  - destruct a; try contradiction; cbn [step at_ exec inner in_loop]; try (split; [constructor; assumption|left; reflexivity]).
    + destruct i; [split; [constructor; assumption|left; reflexivity]|..]; (split; [constructor; assumption|right; cbn; lia]).
    + destruct i; try (split; [constructor; assumption|left; reflexivity]). split; [|right; cbn; lia]. cbn. destruct c; [discriminate|]. constructor; [exact E|discriminate].
  - destruct a; try contradiction; cbn [step at_ exec inner in_loop]; try (split; [constructor; assumption|left; reflexivity]).
    cbn. split; [|right; lia]. replace (match i with Cancelled => true | _ => false end) with c by (destruct c; [subst; reflexivity|destruct i; [reflexivity..|congruence]]). constructor; auto.
  - destruct a; try contradiction; cbn [step at_ exec inner in_loop]; try (split; [constructor; assumption|left; reflexivity]).
    unfold inside. cbn [coro raising]. destruct c.
    + cbn. split; [econstructor; [exact E|discriminate|exact X]|right; lia].
    + destruct k as [|[|] k]; cbn.
      * split; [econstructor; [exact E|reflexivity|exact X]|right; lia].
      * split; [|right; lia]. replace (block_part d ++ [(true, Executor)]) with (block_part (d ++ [Work])) by apply block_snoc. constructor; auto. rewrite <- app_assoc. exact E.
      * split; [|right; lia]. replace (block_part d) with (block_part (d ++ [Await])) by (rewrite block_snoc, app_nil_r; reflexivity). constructor; [rewrite <- app_assoc; exact E|discriminate].
  - destruct a; try contradiction; cbn [step at_ exec inner in_loop]; try (split; [econstructor; eassumption|left; reflexivity]).
    cbn. split; [econstructor; eassumption|right; lia].
  - destruct a; try contradiction; cbn [step at_ exec inner in_loop]; try (split; [econstructor; eassumption|left; reflexivity]).
    cbn. split; [econstructor; eassumption|right; lia].
  - destruct a; try contradiction; cbn [step at_ exec inner in_loop]; try (split; [econstructor; eassumption|left; reflexivity]).
    unfold in_loop_step. cbn. split; [|right; lia]. rewrite !orb_false_r. econstructor; eassumption.
  - destruct a; try contradiction; cbn [step at_ exec inner in_loop]; (split; [econstructor; eassumption|left; reflexivity]).
Qed.

Lemma good_run m : forall c w, good c w -> undisturbed m -> good c (run l w m) /\ measure (run l w m) <= measure w.
Proof.
  induction m as [|a m IH]; intros c w G U; [split; [exact G|apply le_n]|]. destruct (good_step c w a G) as [G2 M]; [intros ->; apply U; left; reflexivity|].
  destruct (IH c (step l w a) G2) as [G3 M3]; [intros X; apply U; right; exact X|]. split; [exact G3|]. cbn. unfold run in M3. destruct M as [M|M]; [rewrite M in *; exact M3|lia].
Qed.

Definition finished (c : bool) (w : world) : Prop :=
  ended w = Some (if c then CancelledError else Returns) /\ woken w = true /\ exists d k, l = d ++ k /\ (c = false -> k = []) /\ trace w = block_part d ++ rest_part n.

Lemma stuck_done c w : good c w -> stuck l w -> finished c w.
Proof.
  intros G N. destruct G as [p P| |c i d k E I1|c i d k E I1|c x i d k E I1 X|c x i d k E K X|c i d k E K|c i d k E K|c i d k E K].
  - exfalso. destruct P as [-> | ->]; [specialize (N Enter)|specialize (N Start)]; cbn in N; (assert (T : Exec <> Cancel) by discriminate); lapply N; try discriminate.
  - exfalso. specialize (N Exec ltac:(discriminate)). discriminate N.
  - exfalso. destruct i; [specialize (N InnerDone ltac:(discriminate))|specialize (N Exec ltac:(discriminate))|specialize (N Exec ltac:(discriminate))]; discriminate N.
  - exfalso. specialize (N Exec ltac:(discriminate)). discriminate N.
  - exfalso. specialize (N Exec ltac:(discriminate)). cbn in N. unfold inside in N. cbn in N. destruct c; [discriminate N|]. destruct k as [|[|] k]; try discriminate N.
    injection N as N1 N2. apply (f_equal (@length item)) in N1. cbn in N1. lia.
  - exfalso. specialize (N Exec ltac:(discriminate)). discriminate N.
  - exfalso. specialize (N Exec ltac:(discriminate)). discriminate N.
  - exfalso. specialize (N InLoop ltac:(discriminate)). discriminate N.
  - split; [reflexivity|]. split; [reflexivity|]. exists d, k. auto.
Qed.

Lemma still_finished c w a : good c w -> finished c w -> a <> Cancel -> finished c (step l w a).
Proof. intros G F N. destruct G; destruct F as (F & _); try discriminate F. destruct a; try contradiction; cbn; (split; [reflexivity|split; [reflexivity|]]); exists d, k; auto. Qed.

(** Whoever changes nothing in a round has nothing to do. *)
Lemma idle_run m : forall c w, good c w -> undisturbed m -> measure (run l w m) = measure w -> forall a, In a m -> step l w a = w.
Proof.
  induction m as [|b m IH]; intros c w G U M a I1; [destruct I1|].
  destruct (good_step c w b G) as [G2 D]; [intros ->; apply U; left; reflexivity|].
  destruct (good_run m c (step l w b) G2) as [G3 L3]; [intros X; apply U; right; exact X|]. cbn in M. unfold run in L3.
  destruct D as [D|D]; [|lia]. destruct I1 as [<-|I1]; [exact D|]. apply (IH c w); auto; [intros X; apply U; right; exact X|]. cbn in M. rewrite D in M. exact M.
Qed.

Lemma rounds_run k : forall c w, good c w -> measure w < k -> finished c (run l w (rounds k)).
Proof.
  induction k as [|k IH]; intros c w G M; [lia|]. cbn [rounds]. unfold run. rewrite fold_left_app. fold (run l w [Enter; Start; Exec; InnerDone; InLoop]). fold (run l (run l w [Enter; Start; Exec; InnerDone; InLoop]) (rounds k)).
  assert (U : undisturbed [Enter; Start; Exec; InnerDone; InLoop]) by (unfold undisturbed; cbn; intuition discriminate).
  destruct (good_run _ c w G U) as [G2 M2]. destruct (Nat.eq_dec (measure (run l w [Enter; Start; Exec; InnerDone; InLoop])) (measure w)) as [E|E].
  - pose proof (idle_run _ c w G U E) as Z. assert (N : stuck l w) by (intros a X; apply Z; destruct a; cbn; tauto).
    pose proof (stuck_done c w G N) as F. assert (Y : forall m, undisturbed m -> run l w m = w).
    { induction m as [|a m IHm]; intros Um; [reflexivity|]. cbn. rewrite N by (intros ->; apply Um; left; reflexivity). apply IHm. intros X; apply Um; right; exact X. }
    rewrite Y by exact U. rewrite Y; [exact F|]. clear. unfold undisturbed. induction k as [|k IH]; cbn; [tauto|]. intuition discriminate.
  - apply IH; [exact G2|lia].
Qed.
End L.

Lemma init_good l n : good l n false (init n).
Proof. constructor. left. reflexivity. Qed.

Lemma run_app l w a b : run l w (a ++ b) = run l (run l w a) b.
Proof. apply fold_left_app. Qed.

Lemma measure_init l n : measure l (init n) = 4 * length l + 20.
Proof. reflexivity. Qed.

Lemma no_cancel_finished l n m : undisturbed m -> let w := run l (init n) (m ++ rounds (4 * length l + 21)) in
  ended w = Some Returns /\ woken w = true /\ trace w = block_part l ++ rest_part n.
Proof.
  intros U. cbv zeta. rewrite run_app. destruct (good_run l n m false (init n) (init_good l n) U) as [G M]. rewrite measure_init in M.
  destruct (rounds_run l n (4 * length l + 21) false _ G) as (E & W & d & k & D & K & T); [lia|]. specialize (K eq_refl). subst k. rewrite app_nil_r in D. subst d. auto.
Qed.

Lemma no_cancel_rest l n m : undisturbed m -> let w := run l (init n) m in
  (forall th, In (false, th) (trace w) -> th = TheLoop) /\ (stuck l w -> woken w = true) /\ (ended w <> None -> woken w = true).
Proof.
  intros U. cbv zeta. destruct (good_run l n m false (init n) (init_good l n) U) as [G _].
  assert (B : forall d th, ~ In (false, th) (block_part d)).
  { intros d th X. unfold block_part in X. apply in_flat_map in X. destruct X as ([|] & _ & X); [destruct X as [X|[]]; discriminate|destruct X]. }
  split; [|split].
  - intros th X. destruct G; cbn in X; try contradiction; try (destruct (B _ _ X)). apply in_app_iff in X. destruct X as [X|X]; [destruct (B _ _ X)|]. apply repeat_spec in X. congruence.
  - intros N. apply (stuck_done l n false _ G N).
  - destruct G; cbn; intros HH; congruence.
Qed.

Lemma await_cancel l n m m2 : undisturbed m -> awaiting (run l (init n) m) -> undisturbed m2 ->
  let w := run l (init n) (m ++ Cancel :: m2) in
  (forall th, In (false, th) (trace w) -> th = TheLoop) /\ (stuck l w -> woken w = true) /\
  (let v := run l w (rounds (4 * length l + 21)) in ended v = Some CancelledError /\ woken v = true /\ exists d k, l = d ++ k /\ trace v = block_part d ++ rest_part n).
Proof.
  intros U A U2. cbv zeta. destruct (good_run l n m false (init n) (init_good l n) U) as [G M]. rewrite measure_init in M.
  replace (run l (init n) (m ++ Cancel :: m2)) with (run l (cancel (run l (init n) m)) m2) by (rewrite run_app; reflexivity).
  assert (H : good l n true (cancel (run l (init n) m)) /\ measure l (cancel (run l (init n) m)) <= 4 * length l + 20).
  { destruct A as [A1 A2]. destruct G; cbn in A1, A2, M |- *; try discriminate; try (destruct H as [-> | ->]; discriminate). subst i. cbn. split; [constructor; [exact H|reflexivity]|lia]. }
  destruct H as [H HM]. destruct (good_run l n m2 true _ H U2) as [G2 M2].
  assert (B : forall d th, ~ In (false, th) (block_part d)).
  { intros d th X. unfold block_part in X. apply in_flat_map in X. destruct X as ([|] & _ & X); [destruct X as [X|[]]; discriminate|destruct X]. }
  split; [|split].
  - intros th X. remember (run l (cancel (run l (init n) m)) m2) as w eqn:E. clear E. destruct G2; cbn in X; try contradiction; try (destruct (B _ _ X)). apply in_app_iff in X. destruct X as [X|X]; [destruct (B _ _ X)|]. apply repeat_spec in X. congruence.
  - intros N. apply (stuck_done l n true _ G2 N).
  - destruct (rounds_run l n (4 * length l + 21) true _ G2) as (E & W & d & k & D & _ & T); [lia|]. split; [exact E|]. split; [exact W|]. exists d, k. auto.
Qed.

(** Nobody comes back for a task which the executor has dropped. *)
Lemma dead_forever l m : forall w, at_ w = Died -> in_loop w = false -> woken (run l w m) = woken w /\ ended (run l w m) = ended w /\ trace (run l w m) = trace w.
Proof.
  induction m as [|a m IH]; intros w D I1; [auto|]. cbn.
  assert (G : at_ (step l w a) = Died /\ in_loop (step l w a) = false /\ woken (step l w a) = woken w /\ ended (step l w a) = ended w /\ trace (step l w a) = trace w).
  { destruct a; cbn; unfold exec; rewrite ?D, ?I1; auto. unfold cancel. destruct (ended w) eqn:E; [rewrite E; auto|]. destruct (waited w); cbn; auto; [destruct (entry w)|destruct (inner w)|destruct (end_ w)]; cbn; rewrite ?D, ?E; auto. }
  destruct G as (G1 & G2 & G3 & G4 & G5). destruct (IH (step l w a) G1 G2) as (H1 & H2 & H3). unfold run in *. rewrite H1, H2, H3. auto.
Qed.
