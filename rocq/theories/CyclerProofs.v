(** Proofs for C56, C94, C95. *)

From Coq Require Import List Arith Bool Lia Sorted.
From Verif Require Import CyclerModel CyclerSpec.
Import ListNotations.

Notation le_prio := (fun a b : callable => fst a <= fst b).
Notation at_prio p := (fun x : callable => fst x =? p).

(** * Sorting *)
Lemma insert_In x y l : In y (insert x l) <-> y = x \/ In y l.
Proof.
  induction l as [|z l IH]; cbn [insert]; [cbn; intuition|]. destruct (fst x <? fst z); cbn [In]; [intuition|]. rewrite IH. intuition.
Qed.
Lemma insert_sorted x l : StronglySorted le_prio l -> StronglySorted le_prio (insert x l).
Proof.
  induction 1 as [|y l SS IH F]; cbn [insert]; [repeat constructor|]. destruct (Nat.ltb_spec (fst x) (fst y)).
  - constructor; [now constructor|]. constructor; [lia|]. eapply Forall_impl; [|exact F]. cbn. intros z. lia.
  - constructor; [exact IH|]. apply Forall_forall. intros z J. apply insert_In in J as [->|J]; [exact H|]. rewrite Forall_forall in F. now apply F.
Qed.
Lemma insert_filter p x l : StronglySorted le_prio l -> filter (at_prio p) (insert x l) = filter (at_prio p) l ++ (if fst x =? p then [x] else []).
Proof.
  induction 1 as [|y l SS IH F]; cbn [insert filter]; [now destruct (fst x =? p)|]. destruct (Nat.ltb_spec (fst x) (fst y)).
  - cbn [filter]. destruct (Nat.eqb_spec (fst x) p) as [E|E]; [|now rewrite app_nil_r].
    assert (N0 : filter (at_prio p) (y :: l) = []).
    { rewrite Forall_forall in F. destruct (filter (at_prio p) (y :: l)) as [|z r] eqn:FE; [reflexivity|]. exfalso. assert (J : In z (filter (at_prio p) (y :: l))) by (rewrite FE; now left).
      apply filter_In in J as [J Z]. apply Nat.eqb_eq in Z. destruct J as [->|J]; [lia|]. specialize (F z J). cbn in F. lia. }
    cbn [filter] in N0. now rewrite N0.
  - cbn [filter]. rewrite IH. now destruct (fst y =? p).
Qed.

Lemma sort_fold : forall l acc, StronglySorted le_prio acc -> StronglySorted le_prio (fold_left (fun acc x => insert x acc) l acc) /\
  forall p, filter (at_prio p) (fold_left (fun acc x => insert x acc) l acc) = filter (at_prio p) acc ++ filter (at_prio p) l.
Proof.
  induction l as [|x l IH]; intros acc SS; cbn [fold_left]; [split; [exact SS|]; intros p; cbn; now rewrite app_nil_r|].
  destruct (IH (insert x acc) (insert_sorted x acc SS)) as [A B]. split; [exact A|]. intros p. rewrite B, insert_filter by exact SS. cbn [filter]. destruct (fst x =? p); rewrite <- app_assoc; reflexivity.
Qed.
Lemma sort_order l : in_order l (sort l).
Proof. destruct (sort_fold l []) as [A B]; [constructor|]. split; [exact A|]. intros p. now rewrite B. Qed.

Lemma in_order_trans a b c : (forall p, filter (at_prio p) b = filter (at_prio p) a) -> in_order b c -> in_order a c.
Proof. intros E [A B]. split; [exact A|]. intros p. now rewrite B, E. Qed.

Lemma order_append r l x : in_order r l -> in_order (r ++ [x]) (sort (l ++ [x])).
Proof. intros [_ F]. apply (in_order_trans _ (l ++ [x])); [|apply sort_order]. intros p. now rewrite !filter_app, F. Qed.

(** * Removal *)
Lemma remove_first_sorted f l : StronglySorted le_prio l -> StronglySorted le_prio (remove_first f l).
Proof.
  induction 1 as [|y l SS IH F]; cbn [remove_first]; [constructor|]. destruct (snd y =? f); [exact SS|]. constructor; [exact IH|].
  rewrite Forall_forall in *. intros z J. apply F. clear - J. induction l as [|w l IHl]; [destruct J|]. cbn [remove_first] in J. destruct (snd w =? f); [now right|]. destruct J as [->|J]; [now left|right; auto].
Qed.

Lemma remove_first_split f l : (exists a p b, l = a ++ (p, f) :: b /\ (forall x, In x a -> snd x <> f) /\ remove_first f l = a ++ b) \/ ((forall x, In x l -> snd x <> f) /\ remove_first f l = l).
Proof.
  induction l as [|[p g] l IH]; cbn [remove_first snd]; [right; split; [intros x []|reflexivity]|]. destruct (Nat.eqb_spec g f) as [->|NE].
  - left. exists [], p, l. split; [reflexivity|]. split; [intros x []|reflexivity].
  - destruct IH as [(a & q & b & -> & A & R)|[A R]].
    + left. exists ((p, g) :: a), q, b. rewrite R. repeat split; auto. intros x [<-|J]; [exact NE|auto].
    + right. rewrite R. split; [|reflexivity]. intros x [<-|J]; [exact NE|auto].
Qed.

(** The first one of a list by priority is the first one of the least priority. *)
Lemma filter_split_same (f : nat) p q : forall (a b a' b' : list callable), filter (at_prio q) (a ++ (p, f) :: b) = filter (at_prio q) (a' ++ (p, f) :: b') ->
  (forall x, In x a -> snd x = f -> p < fst x) -> (forall x, In x a' -> snd x <> f) -> q = p -> filter (at_prio q) (a ++ b) = filter (at_prio q) (a' ++ b').
Proof.
  intros a b a' b' E A A' ->. rewrite !filter_app in *. cbn [filter fst] in E. rewrite Nat.eqb_refl in E.
  assert (FA : forall x, In x (filter (at_prio p) a) -> snd x <> f).
  { intros x J S0. apply filter_In in J as [J P]. apply Nat.eqb_eq in P. specialize (A x J S0). lia. }
  assert (FA' : forall x, In x (filter (at_prio p) a') -> snd x <> f) by (intros x J; apply filter_In in J as [J _]; auto).
  revert E FA FA'. generalize (filter (at_prio p) a) (filter (at_prio p) a') (filter (at_prio p) b) (filter (at_prio p) b'). clear.
  induction l as [|x l IH]; intros [|y l'] r r' E FA FA'; cbn in *.
  - now injection E as ->.
  - injection E as <- E. exfalso. apply (FA' (p, f)); auto.
  - injection E as -> E. exfalso. apply (FA (p, f)); auto.
  - injection E as -> E. f_equal. apply IH; auto.
Qed.

Lemma order_remove r l f a p b : in_order r l -> r = a ++ (p, f) :: b -> (forall x, In x a -> snd x = f -> p < fst x) -> (forall x, In x b -> snd x = f -> p <= fst x) ->
  in_order (a ++ b) (remove_first f l).
Proof.
  intros [SS F] -> A B. split; [now apply remove_first_sorted|]. intros q.
  assert (IN : forall x, In x l <-> In x (a ++ (p, f) :: b)).
  { intros x. assert (E : In x (filter (at_prio (fst x)) l) <-> In x (filter (at_prio (fst x)) (a ++ (p, f) :: b))) by now rewrite F. rewrite !filter_In, Nat.eqb_refl in E. intuition. }
  destruct (remove_first_split f l) as [(a' & p' & b' & EL & A' & R)|[N0 _]].
  2:{ exfalso. apply (N0 (p, f)); [|reflexivity]. apply IN. apply in_app_iff. right. now left. }
  assert (EP : p' = p).
  { assert (L1 : p <= p').
    { assert (J : In (p', f) (a ++ (p, f) :: b)) by (apply IN; rewrite EL; apply in_app_iff; right; now left). apply in_app_iff in J as [J|[[= ->]|J]]; [specialize (A _ J eq_refl); cbn in A; lia|lia|exact (B _ J eq_refl)]. }
    assert (L2 : p' <= p).
    { assert (J : In (p, f) l) by (apply IN; apply in_app_iff; right; now left). rewrite EL in J, SS. apply in_app_iff in J as [J|[[= ->]|J]]; [exfalso; now apply (A' _ J)|lia|].
      clear - SS J. induction a' as [|y a' IHa]; cbn in SS; inversion SS as [|? ? S1 S2]; subst; [rewrite Forall_forall in S2; exact (S2 _ J)|auto]. }
    lia. }
  subst p'. rewrite R. destruct (Nat.eq_dec q p) as [->|NE].
  - symmetry. apply (filter_split_same f p p a b a' b'); auto. pose proof (F p) as FP. rewrite EL in FP. exact (eq_sym FP).
  - specialize (F q). rewrite EL in F. rewrite !filter_app in *. cbn [filter fst] in F. destruct (Nat.eqb_spec p q) as [->|_]; [congruence|exact F].
Qed.

Lemma order_remove_none r l f : in_order r l -> (forall x, In x r -> snd x <> f) -> remove_first f l = l.
Proof.
  intros [_ F] N0. destruct (remove_first_split f l) as [(a & p & b & -> & _ & _)|[_ R]]; [|exact R]. exfalso. apply (N0 (p, f)); [|reflexivity].
  assert (J : In (p, f) (filter (at_prio p) r)) by (rewrite <- F; apply filter_In; split; [apply in_app_iff; right; now left|apply Nat.eqb_refl]). apply filter_In in J. apply J.
Qed.

(** * Timers *)
Definition timed (c : cycler) : Prop := timers c = match handle c with None => [] | Some h => [h] end /\ forall h, handle c = Some h -> h < next_handle c.

Lemma timed_new p fs : timed (new_cycler p fs).
Proof. split; [reflexivity|]. cbn. intros h [= <-]. lia. Qed.
Lemma cancel_own c : timed c -> cancel_handle (handle c) (timers c) = [].
Proof. intros [E _]. rewrite E. destruct (handle c) as [h|]; [|reflexivity]. cbn. now rewrite Nat.eqb_refl. Qed.
Lemma timed_act c a : timed c -> timed (do_act c a).
Proof.
  intros T. pose proof (cancel_own c T) as CO. destruct T as [E L]. destruct a; cbn; split; auto; cbn.
  - discriminate.
  - now rewrite CO.
  - intros h [= <-]. lia.
Qed.

Section Behaviour.
Variable acts : nat -> list act.
Hypothesis quiet : forall f, forallb untimed (acts f) = true.

Lemma acts_same : forall l c, forallb untimed l = true -> let c' := fold_left do_act l c in handle c' = handle c /\ timers c' = timers c /\ next_handle c' = next_handle c.
Proof.
  induction l as [|a l IH]; intros c U; cbn [fold_left]; [auto|]. cbn [forallb] in U. apply andb_prop in U as [U1 U2]. destruct (IH (do_act c a) U2) as (A & B & C). rewrite A, B, C.
  destruct a; try discriminate; auto.
Qed.
Lemma run_loop_same : forall fuel i c c' log, run_loop acts fuel i c = Some (c', log) -> handle c' = handle c /\ timers c' = timers c /\ next_handle c' = next_handle c.
Proof.
  induction fuel as [|fuel IH]; intros i c c' log; cbn [run_loop]; destruct (nth_error (funcs c) i) as [[p f]|]; try discriminate; try (intros [= <- <-]; auto).
  destruct (run_loop acts fuel (S i) (fold_left do_act (acts f) c)) as [[c1 log1]|] eqn:E; [|discriminate]. intros [= <- <-]. destruct (IH _ _ _ _ E) as (A & B & C).
  destruct (acts_same (acts f) c (quiet f)) as (A' & B' & C'). rewrite A, B, C. auto.
Qed.

Lemma timed_run fuel c c' log : timers c = [] -> run acts fuel c = Some (c', log) -> timed c' /\ handle c' <> None.
Proof.
  intros T. unfold run. destruct (run_loop acts fuel 0 c) as [[c1 log1]|] eqn:E; [|discriminate]. intros [= <- <-]. destruct (run_loop_same _ _ _ _ _ E) as (_ & B & _).
  split; [|discriminate]. split; cbn; [now rewrite B, T|]. intros h [= <-]. lia.
Qed.

Lemma fire_off fuel t c : timed c -> handle c = None -> fire acts fuel t c = Some (c, []).
Proof. intros [E _] H. unfold fire. rewrite E, H. reflexivity. Qed.

(** [on] is the handle *)
Definition on (c : cycler) : bool := match handle c with None => false | Some _ => true end.

Lemma step_timed fuel c o c' log : timed c -> step acts fuel c o = Some (c', log) -> timed c' /\ on c' = is_on (on c) [o] /\ (on c = false -> o <> CallNow -> log = []).
Proof.
  intros T. destruct o as [a|t|]; cbn [step].
  - intros [= <- <-]. split; [now apply timed_act|]. split; [|auto]. destruct a; reflexivity.
  - destruct (handle c) as [h|] eqn:H.
    + unfold fire. destruct (existsb (Nat.eqb t) (timers c)) eqn:X; [|intros [= <- <-]; repeat split; auto; try apply T; unfold on; rewrite H; discriminate].
      intros R. destruct T as [E L]. rewrite E, H in X. cbn in X. rewrite orb_false_r in X. apply Nat.eqb_eq in X. subst t.
      apply timed_run in R as [T' N0]; [|cbn; rewrite E, H; cbn; now rewrite Nat.eqb_refl]. split; [exact T'|]. unfold on. rewrite H. cbn. split; [now destruct (handle c')|discriminate].
    + rewrite fire_off by auto. intros [= <- <-]. auto.
  - unfold call_now. rewrite cancel_own by exact T. intros R. apply timed_run in R as [T' N0]; [|reflexivity]. split; [exact T'|]. unfold on. cbn. split; [now destruct (handle c')|]. intros _ X. congruence.
Qed.

Lemma is_on_app : forall a b s, is_on s (a ++ b) = is_on (is_on s a) b.
Proof. induction a as [|o a IH]; intros b s; cbn [is_on app]; [reflexivity|]. destruct o as [[| | |]| |]; apply IH. Qed.

Lemma history_timed fuel : forall os c c' logs, timed c -> history acts fuel c os = Some (c', logs) -> timed c' /\ on c' = is_on (on c) os.
Proof.
  induction os as [|o os IH]; intros c c' logs T; cbn [history]; [intros [= <- <-]; auto|]. destruct (step acts fuel c o) as [[c1 log]|] eqn:S0; [|discriminate].
  destruct (history acts fuel c1 os) as [[c2 logs2]|] eqn:H; [|discriminate]. intros [= <- <-]. destruct (step_timed _ _ _ _ _ T S0) as (T1 & O1 & _).
  destruct (IH _ _ _ T1 H) as [T2 O2]. split; [exact T2|]. rewrite O2, O1. change (o :: os) with ([o] ++ os). now rewrite is_on_app.
Qed.

(** Nothing is called while it is off. *)
Lemma off_silent fuel c os c' logs o c'' log : timed c -> history acts fuel c os = Some (c', logs) -> is_on (on c) os = false -> o <> CallNow -> step acts fuel c' o = Some (c'', log) -> log = [].
Proof. intros T H O NC S0. destruct (history_timed _ _ _ _ _ T H) as [T' E]. destruct (step_timed _ _ _ _ _ T' S0) as (_ & _ & L). apply L; [now rewrite E|exact NC]. Qed.

(** There is never more than one timer. *)
Lemma one_timer fuel p fs os c logs : history acts fuel (new_cycler p fs) os = Some (c, logs) -> length (timers c) = if is_on true os then 1 else 0.
Proof.
  intros H. destruct (history_timed _ _ _ _ _ (timed_new p fs) H) as [[E _] O]. rewrite E. change (on (new_cycler p fs)) with true in O. rewrite <- O. unfold on. now destruct (handle c).
Qed.
End Behaviour.

(** * Order, for functions which leave their cycler alone *)
Definition idle : nat -> list act := fun _ => [].

Lemma run_loop_idle : forall l pre c fuel, funcs c = pre ++ l -> length l <= fuel -> run_loop idle fuel (length pre) c = Some (c, map snd l).
Proof.
  induction l as [|[p f] l IH]; intros pre c fuel E L.
  - destruct fuel; cbn [run_loop]; rewrite E, nth_error_app2 by lia; rewrite Nat.sub_diag; reflexivity.
  - destruct fuel as [|fuel]; [cbn in L; lia|]. cbn [run_loop]. rewrite E at 1. rewrite nth_error_app2, Nat.sub_diag by lia. cbn [nth_error idle fold_left].
    replace (S (length pre)) with (length (pre ++ [(p, f)])) by (rewrite app_length; cbn; lia). rewrite (IH (pre ++ [(p, f)])); [reflexivity|now rewrite <- app_assoc|cbn in L; lia].
Qed.

Lemma run_idle fuel c : length (funcs c) <= fuel -> run idle fuel c = Some (call_after c, map snd (funcs c)).
Proof. intros L. unfold run. pose proof (run_loop_idle (funcs c) [] c fuel eq_refl L) as R. cbn [length] in R. now rewrite R. Qed.

Lemma history_order fuel : forall os r r', registered os r r' -> forall c c' logs, in_order r (funcs c) -> history idle fuel c os = Some (c', logs) -> in_order r' (funcs c').
Proof.
  induction 1 as [r|p f os r r' R IH|f a p b os r' A B R IH|f os r r' N0 R IH|o os r r' NA NR R IH]; intros c c' logs IO; cbn [history].
  - intros [= <- <-]. exact IO.
  - cbn [step]. destruct (history idle fuel (do_act c (Append p f)) os) as [[c2 l2]|] eqn:H; [|discriminate]. intros [= <- <-]. refine (IH _ _ _ _ H). exact (order_append _ _ _ IO).
  - cbn [step]. destruct (history idle fuel (do_act c (Remove f)) os) as [[c2 l2]|] eqn:H; [|discriminate]. intros [= <- <-]. refine (IH _ _ _ _ H). now apply (order_remove _ _ f a p b IO).
  - cbn [step]. destruct (history idle fuel (do_act c (Remove f)) os) as [[c2 l2]|] eqn:H; [|discriminate]. intros [= <- <-]. refine (IH _ _ _ _ H). cbn. now rewrite (order_remove_none r).
  - destruct (step idle fuel c o) as [[c1 log]|] eqn:S0; [|discriminate]. destruct (history idle fuel c1 os) as [[c2 l2]|] eqn:H; [|discriminate]. intros [= <- <-]. refine (IH _ _ _ _ H).
    assert (E : funcs c1 = funcs c).
    { destruct o as [[p f|f| |]|t|]; cbn [step] in S0; try (injection S0 as <- <-; reflexivity); try (exfalso; now eapply NA); try (exfalso; now eapply NR).
      - unfold fire in S0. destruct (existsb _ _); [|injection S0 as <- <-; reflexivity]. unfold run in S0. destruct (run_loop idle fuel 0 _) as [[c3 l3]|] eqn:RL; [|discriminate].
        injection S0 as <- <-. cbn. clear - RL. match type of RL with run_loop _ _ _ ?x = _ => change (funcs c) with (funcs x); generalize dependent x end. generalize 0. revert c3 l3.
        induction fuel as [|fuel IHf]; intros c3 l3 i x; cbn [run_loop]; destruct (nth_error (funcs x) i) as [[p f]|]; try discriminate; try (intros [= <- <-]; auto).
        cbn [idle fold_left]. destruct (run_loop idle fuel (S i) x) as [[c4 l4]|] eqn:E; [|discriminate]. intros [= <- <-]. exact (IHf _ _ _ _ E).
      - unfold call_now in S0. unfold run in S0. destruct (run_loop idle fuel 0 _) as [[c3 l3]|] eqn:RL; [|discriminate].
        injection S0 as <- <-. cbn. clear - RL. match type of RL with run_loop _ _ _ ?x = _ => change (funcs c) with (funcs x); generalize dependent x end. generalize 0. revert c3 l3.
        induction fuel as [|fuel IHf]; intros c3 l3 i x; cbn [run_loop]; destruct (nth_error (funcs x) i) as [[p f]|]; try discriminate; try (intros [= <- <-]; auto).
        cbn [idle fold_left]. destruct (run_loop idle fuel (S i) x) as [[c4 l4]|] eqn:E; [|discriminate]. intros [= <- <-]. exact (IHf _ _ _ _ E). }
    now rewrite E.
Qed.

Lemma cycle_order fuel p fs os c logs r : history idle fuel (new_cycler p fs) os = Some (c, logs) -> registered os (map (fun f => (p, f)) fs) r ->
  length (funcs c) <= fuel -> forall t, In t (timers c) -> exists c' l, step idle fuel c (Fire t) = Some (c', map snd l) /\ in_order r l.
Proof.
  intros H R L t J. exists (call_after {| funcs := funcs c; handle := handle c; timers := filter (fun x => negb (x =? t)) (timers c); next_handle := next_handle c |}), (funcs c). split.
  - cbn [step]. unfold fire. replace (existsb (Nat.eqb t) (timers c)) with true; [now rewrite run_idle|]. symmetry. apply existsb_exists. exists t. split; [exact J|apply Nat.eqb_refl].
  - refine (history_order fuel os _ _ R _ _ _ _ H). apply sort_order.
Qed.

(** * A function which appends a more urgent one *)
Definition greedy (f : nat) : list act := if f =? 1 then [Append 0 2] else [].

Lemma insert_repeat : forall n, insert (0, 2) (repeat (0, 2) n) = repeat (0, 2) (S n).
Proof. induction n as [|n IH]; [reflexivity|]. cbn [repeat insert fst]. change (0 <? 0) with false. now rewrite IH. Qed.
Lemma fold_repeat : forall n m, fold_left (fun acc x => insert x acc) (repeat (0, 2) n) (repeat (0, 2) m) = repeat (0, 2) (n + m).
Proof. induction n as [|n IH]; intros m; [reflexivity|]. cbn [repeat fold_left]. rewrite insert_repeat, IH. f_equal. lia. Qed.
Lemma insert_last : forall n, insert (1, 1) (repeat (0, 2) n) = repeat (0, 2) n ++ [(1, 1)].
Proof. induction n as [|n IH]; [reflexivity|]. cbn [repeat insert fst app]. change (1 <? 0) with false. now rewrite IH. Qed.
Lemma insert_before : forall n, insert (0, 2) (repeat (0, 2) n ++ [(1, 1)]) = repeat (0, 2) (S n) ++ [(1, 1)].
Proof. induction n as [|n IH]; [reflexivity|]. cbn [repeat insert fst app]. change (0 <? 0) with false. now rewrite IH. Qed.
Lemma sort_greedy n : sort ((repeat (0, 2) n ++ [(1, 1)]) ++ [(0, 2)]) = repeat (0, 2) (S n) ++ [(1, 1)].
Proof.
  unfold sort. rewrite !fold_left_app. cbn [fold_left]. assert (E : fold_left (fun acc x => insert x acc) (repeat (0, 2) n) [] = repeat (0, 2) n) by (refine (eq_trans (fold_repeat n 0) _); now rewrite Nat.add_0_r).
  unfold callable in *. rewrite E. clear E. rewrite insert_last. apply insert_before.
Qed.

Lemma greedy_loop : forall fuel i c, funcs c = repeat (0, 2) i ++ [(1, 1)] -> run_loop greedy fuel i c = None.
Proof.
  induction fuel as [|fuel IH]; intros i c E; cbn [run_loop]; rewrite E; rewrite nth_error_app2 by (rewrite repeat_length; lia); rewrite repeat_length, Nat.sub_diag; [reflexivity|].
  cbn [nth_error greedy Nat.eqb fold_left]. rewrite IH; [reflexivity|]. cbn [do_act do_append funcs]. rewrite E. apply sort_greedy.
Qed.
