From Coq Require Import List Arith Bool Lia Permutation.
From Verif Require Import QueueModel QueueSpec.
Import ListNotations.

Lemma upd_same : forall g x v, upd g x v x = v.
Proof. intros. unfold upd. rewrite Nat.eqb_refl. reflexivity. Qed.
Lemma upd_other : forall g x v y, y <> x -> upd g x v y = g y.
Proof. intros g x v y H. unfold upd. destruct (Nat.eqb_spec y x); [contradiction | reflexivity]. Qed.

(** ** Subsequences *)

Lemma sub_refl : forall A (l : list A), sub l l.
Proof. induction l; constructor; assumption. Qed.

Lemma sub_nil_l : forall A (l : list A), sub [] l.
Proof. induction l; constructor; assumption. Qed.

Lemma sub_app : forall A (a b c d : list A), sub a b -> sub c d -> sub (a ++ c) (b ++ d).
Proof. intros A a b c d H. induction H; intros K; cbn; [exact K | constructor; auto | constructor; auto]. Qed.

Lemma sub_trans : forall A (b c : list A), sub b c -> forall a, sub a b -> sub a c.
Proof.
  intros A b c H. induction H; intros a' K; [exact K | |constructor; auto].
  inversion K; subst; constructor; auto.
Qed.

Lemma sub_length : forall A (a b : list A), sub a b -> length a <= length b.
Proof. intros A a b H. induction H; cbn; lia. Qed.

Lemma sub_full : forall A (a b : list A), sub a b -> length b <= length a -> a = b.
Proof.
  intros A a b H. induction H; cbn; intros L; [reflexivity | f_equal; apply IHsub; lia |].
  apply sub_length in H. lia.
Qed.

(** ** Bounded append *)

Lemma append_not_full : forall m l v, full m l = false -> deque_append m l v = l ++ [v].
Proof.
  intros [n|] l v H; [|reflexivity]. unfold full, deque_append in *. rewrite negb_false_iff, Nat.ltb_lt in H.
  replace (S (length l) - n) with 0 by lia. reflexivity.
Qed.

Lemma append_length : forall n l v, length l <= n -> length (deque_append (Some n) l v) <= n.
Proof.
  intros n l v H. cbn [deque_append]. rewrite skipn_length, app_length. cbn [length]. lia.
Qed.

(** ** C17: the bound *)

Lemma poll_swaiters_results : forall s, q_results (poll_swaiters s) = q_results s /\ q_max (poll_swaiters s) = q_max s.
Proof. intros s. unfold poll_swaiters. destruct (poll _ _). split; reflexivity. Qed.

Lemma take_spec : forall s v s', take s = Some (v, s') ->
  q_max s' = q_max s /\ q_lifo s' = q_lifo s /\ q_waiter s' = q_waiter s /\ q_exc s' = q_exc s /\
  q_swaiters s' = q_swaiters s /\ q_fut s' = q_fut s /\ q_gets s' = q_gets s /\ q_puts s' = q_puts s /\
  q_next s' = q_next s /\
  q_results s = if q_lifo s then q_results s' ++ [v] else v :: q_results s'.
Proof.
  intros s v s'. unfold take. destruct (q_lifo s) eqn:L.
  - destruct (rev (q_results s)) as [|x l] eqn:E; [discriminate|]. intros H. inversion H; subst. cbn.
    repeat split; auto. rewrite <- (rev_involutive (q_results s)), E. cbn. reflexivity.
  - destruct (q_results s) as [|x l] eqn:E; [discriminate|]. intros H. inversion H; subst. cbn. repeat split; auto.
Qed.

Lemma take_none : forall s, take s = None -> q_results s = [].
Proof.
  intros s. unfold take. destruct (q_lifo s).
  - destruct (rev (q_results s)) eqn:E; [|discriminate]. intros _. rewrite <- (rev_involutive (q_results s)), E. reflexivity.
  - destruct (q_results s); [reflexivity | discriminate].
Qed.

Lemma finish_get_results : forall s f a b,
  q_results (fst (finish_get s f a b)) = q_results s /\ q_max (fst (finish_get s f a b)) = q_max s.
Proof.
  intros s f a b. unfold finish_get.
  destruct (poll_swaiters_results s) as [P1 P2].
  destruct a; [|destruct (q_fut s f)]; cbn [fst]; destruct (q_lifo s || b); auto.
Qed.

Definition bounded (s : queue) : Prop := match q_max s with Some n => length (q_results s) <= n | None => True end.

Lemma bounded_eq : forall s s', q_max s' = q_max s -> q_results s' = q_results s -> bounded s -> bounded s'.
Proof. intros s s' H1 H2. unfold bounded. rewrite H1, H2. auto. Qed.

Lemma bounded_append : forall s s' v, q_max s' = q_max s ->
  q_results s' = deque_append (q_max s) (q_results s) v -> bounded s -> bounded s'.
Proof.
  intros s s' v H1 H2. unfold bounded. rewrite H1, H2. destruct (q_max s) as [n|]; [|auto]. apply append_length.
Qed.

Lemma bounded_take : forall s v s', take s = Some (v, s') -> bounded s -> bounded s'.
Proof.
  intros s v s' H. destruct (take_spec s v s' H) as [M [_ [_ [_ [_ [_ [_ [_ [_ R]]]]]]]]].
  unfold bounded. rewrite M, R. destruct (q_max s); [|auto]. destruct (q_lifo s); rewrite ?app_length; cbn; lia.
Qed.

Lemma bounded_step : forall s o, bounded s -> q_max (fst (step s o)) = q_max s /\ bounded (fst (step s o)).
Proof.
  intros s o B.
  assert (Bp : forall v, q_max (fst (put s v)) = q_max s /\ bounded (fst (put s v))).
  { intros v. unfold put. destruct (q_waiter s); [split; [reflexivity | exact B]|].
    destruct (full (q_max s) (q_results s)); [split; [reflexivity | exact B]|].
    split; [reflexivity|]. eapply bounded_append; [| |exact B]; reflexivity. }
  assert (Bg : forall b, q_max (fst (get s b)) = q_max s /\ bounded (fst (get s b))).
  { intros b. unfold get. destruct (take s) as [[v s']|] eqn:T.
    - pose proof (bounded_take s v s' T B) as B'. destruct (take_spec s v s' T) as [M _]. cbn [fst].
      destruct (poll_swaiters_results s') as [P1 P2].
      destruct (negb (q_lifo s) && b); [|auto]. split; [congruence|]. eapply bounded_eq; [exact P2 | exact P1 | exact B'].
    - destruct (q_exc s); [split; [reflexivity | exact B]|].
      destruct (q_waiter s) as [f|]; [|split; [reflexivity | exact B]].
      destruct (is_pending (q_fut s f)); [split; [reflexivity | exact B]|].
      destruct (finish_get_results s f false b) as [F1 F2]. split; [exact F2|].
      eapply bounded_eq; [exact F2 | exact F1 | exact B]. }
  destruct o; cbn [step].
  - apply Bp.
  - unfold put_wait. destruct (q_waiter s); [apply Bp|]. destruct (full (q_max s) (q_results s)); [|apply Bp].
    split; [reflexivity | exact B].
  - apply Bg.
  - apply Bg.
  - unfold get_no_wait. destruct (take s) as [[v s']|] eqn:T.
    + pose proof (bounded_take s v s' T B) as B'. destruct (take_spec s v s' T) as [M _]. cbn [fst].
      destruct (poll_swaiters_results s') as [P1 P2].
      destruct (q_lifo s); [auto|]. split; [congruence|]. eapply bounded_eq; [exact P2 | exact P1 | exact B'].
    + split; [reflexivity | exact B].
  - split; [reflexivity | exact B].
  - cbn [fst]. unfold cancel_get. destruct (find_get c (q_gets s)); [|auto]. destruct (is_pending _); split; auto.
  - cbn [fst]. unfold cancel_put. destruct (find_put p (q_puts s)); [|auto]. destruct (is_pending _); split; auto.
  - unfold resume_get. destruct (find_get c (q_gets s)) as [g|]; [|auto].
    destruct (is_pending _); [auto|].
    destruct (finish_get_results (with_gets s (filter (fun x => negb (Nat.eqb (g_id x) c)) (q_gets s)))
                (g_fut g) (g_flag g) (g_next g)) as [F1 F2].
    split; [exact F2|]. eapply bounded_eq; [exact F2 | exact F1 | exact B].
  - unfold resume_put. destruct (find_put p (q_puts s)) as [x|]; [|auto].
    destruct (is_pending _); [auto|]. destruct (p_flag x); [split; auto|].
    destruct (q_fut s (p_fut x)) as [| |[|]| |]; cbn [fst]; try (split; [reflexivity | exact B]).
    split; [reflexivity|]. eapply bounded_append; [| |exact B]; reflexivity.
Qed.

Lemma bound_kept : forall ops s, bounded s -> q_max (run s ops) = q_max s /\ bounded (run s ops).
Proof.
  induction ops as [|o ops IH]; cbn; intros s B; [auto|].
  destruct (bounded_step s o B) as [M B']. destruct (IH _ B') as [M' B'']. split; [congruence | exact B''].
Qed.

Lemma never_exceeds : forall lifo n ops, length (q_results (run (queue_init lifo (Some n)) ops)) <= n.
Proof.
  intros lifo n ops.
  assert (B : bounded (queue_init lifo (Some n))) by (cbn; lia).
  destruct (bound_kept ops _ B) as [M B']. unfold bounded in B'. rewrite M in B'. exact B'.
Qed.

(** ** C13, C15: one consumer *)

Definition dead (s : queue) : nat :=
  match q_waiter s with
  | Some f => match q_fut s f with FCancelled => 1 | _ => 0 end
  | None => 0
  end.

Record solo (s : queue) : Prop := {
  j_len : length (q_gets s) <= 1;
  j_puts : q_puts s = [];
  j_swaiters : q_swaiters s = [];
  j_waiter : forall f, q_waiter s = Some f -> q_results s = [] /\
    (q_fut s f = FCancelled \/
     (q_fut s f = FPending /\ exists g, q_gets s = [g] /\ g_fut g = f /\ g_flag g = false));
  j_pend : forall g, In g (q_gets s) -> q_fut s (g_fut g) = FPending -> q_waiter s = Some (g_fut g)
}.

Lemma solo_init : forall lifo m, solo (queue_init lifo m).
Proof. intros. constructor; cbn; auto; try discriminate; contradiction. Qed.

Lemma poll_none : forall s, q_swaiters s = [] -> poll_swaiters s = s.
Proof. intros [] H. cbn in H. subst. reflexivity. Qed.

Lemma finish_get_solo : forall s f a b, q_swaiters s = [] -> fst (finish_get s f a b) = s.
Proof.
  intros s f a b H. unfold finish_get. rewrite (poll_none s H).
  destruct a; [|destruct (q_fut s f)]; cbn; destruct (q_lifo s || b); reflexivity.
Qed.

Definition allowed (s : queue) (o : op) : Prop :=
  match o with
  | OGet | ONext | OGetNoWait => q_gets s = []
  | OPutWait _ => q_max s = None
  | _ => True
  end.

Definition cancels (o : op) : nat := match o with OCancelGet _ => 1 | _ => 0 end.

Definition conserve (s s' : queue) (e : event) (n : nat) : Prop :=
  solo s' /\ q_lifo s' = q_lifo s /\
  (exists lost, length lost + dead s' <= n + dead s /\
     Permutation (taken [e] ++ in_flight s' ++ q_results s' ++ lost) (in_flight s ++ q_results s ++ accepted [e])) /\
  (q_lifo s = false ->
     sub (taken [e] ++ in_flight s' ++ q_results s') (in_flight s ++ q_results s ++ accepted [e])).

Lemma gets_cases : forall s, solo s -> q_gets s = [] \/ exists g, q_gets s = [g].
Proof.
  intros s J. pose proof (j_len s J) as L. destruct (q_gets s) as [|g [|g' l]]; [auto | eauto | cbn in L; lia].
Qed.

Lemma conserve_id : forall s e n, solo s -> taken [e] = [] -> accepted [e] = [] -> conserve s s e n.
Proof.
  intros s e n J T A. split; [exact J|]. split; [reflexivity|]. split.
  - exists []. split; [cbn; lia|]. rewrite T, A. cbn [app]. reflexivity.
  - intros _. rewrite T, A. cbn [app]. rewrite app_nil_r. apply sub_refl.
Qed.

Lemma conserve_put : forall s v, solo s -> conserve s (fst (put s v)) (snd (put s v)) 0.
Proof.
  intros s v J. unfold put. destruct (q_waiter s) as [f|] eqn:W.
  - destruct (j_waiter s J f W) as [R [D|[P [g [G [Gf Gb]]]]]]; cbn [fst snd].
    + (* dead waiter: the element is lost *)
      assert (F : set_if_pending (q_fut s) f (FElem v) = q_fut s) by (unfold set_if_pending; rewrite D; reflexivity).
      rewrite F. split.
      { constructor; cbn; try apply J; try discriminate. intros g G P. pose proof (j_pend s J g G P). congruence. }
      split; [reflexivity|]. split.
      * exists [v]. split.
        -- unfold dead. cbn. rewrite W, D. lia.
        -- cbn [taken accepted flat_map app q_results]. rewrite R. unfold in_flight. cbn. reflexivity.
      * intros _. cbn [taken accepted flat_map app q_results]. rewrite R. unfold in_flight. cbn [q_gets q_fut].
        rewrite !app_nil_r. cbn [app]. rewrite <- (app_nil_r (flat_map _ (q_gets s))) at 1.
        apply sub_app; [apply sub_refl | apply sub_nil_l].
    + assert (F : set_if_pending (q_fut s) f (FElem v) = upd (q_fut s) f (FElem v)) by (unfold set_if_pending; rewrite P; reflexivity).
      rewrite F. split.
      { constructor; cbn; try apply J; try discriminate. intros g' G' P'. exfalso. rewrite G in G'.
        destruct G' as [<-|[]]. rewrite Gf, upd_same in P'. discriminate. }
      split; [reflexivity|].
      assert (E1 : in_flight s = []) by (unfold in_flight; rewrite G; cbn; rewrite Gb, Gf, P; reflexivity).
      match goal with |- context [in_flight ?s'] => assert (E2 : in_flight s' = [v]) end.
      { unfold in_flight. cbn [q_gets q_fut]. rewrite G. cbn. rewrite Gb, Gf, upd_same. reflexivity. }
      split.
      * exists []. split; [unfold dead; cbn; lia|]. rewrite E1, E2. cbn. rewrite R. reflexivity.
      * intros _. rewrite E1, E2. cbn. rewrite R. apply sub_refl.
  - destruct (full (q_max s) (q_results s)) eqn:Fu.
    + apply conserve_id; auto.
    + cbn [fst snd]. split.
      { constructor; cbn; try apply J; try discriminate. intros g G P. rewrite <- W. exact (j_pend s J g G P). }
      split; [reflexivity|].
      rewrite (append_not_full _ _ _ Fu). split.
      * exists []. split; [unfold dead; cbn; lia|]. cbn [q_results taken accepted flat_map app in_flight q_gets q_fut].
        rewrite app_nil_r. reflexivity.
      * intros _. apply sub_refl.
Qed.

Lemma perm_front : forall (a b : list nat) x, Permutation (x :: a ++ b) (a ++ b ++ [x]).
Proof.
  intros a b x. rewrite app_assoc. apply Permutation_cons_append.
Qed.

Lemma conserve_take : forall s v s' e n, solo s -> take s = Some (v, s') -> q_gets s = [] -> taken [e] = [v] ->
  accepted [e] = [] -> conserve s s' e n.
Proof.
  intros s v s' e n J T G Te Ae.
  destruct (take_spec s v s' T) as [_ [L [W [_ [S [F [G' [P [_ R]]]]]]]]].
  split; [|split; [exact L|]].
  - constructor; rewrite ?G', ?P, ?S, ?F, ?W; try apply J. intros f Hf. destruct (j_waiter s J f Hf) as [R0 _].
    rewrite R0 in R. destruct (q_lifo s); [destruct (q_results s') | ]; discriminate.
  - unfold in_flight. rewrite G', G, Te, Ae. cbn [flat_map app]. rewrite app_nil_r. split.
    + exists []. split; [unfold dead; rewrite W, F; cbn; lia|]. rewrite app_nil_r, R.
      destruct (q_lifo s); [apply Permutation_cons_append | reflexivity].
    + intros Lf. rewrite R, Lf. apply sub_refl.
Qed.

Lemma conserve_get : forall s b, solo s -> q_gets s = [] -> conserve s (fst (get s b)) (snd (get s b)) 0.
Proof.
  intros s b J G. unfold get. destruct (take s) as [[v s']|] eqn:T.
  - cbn [fst snd]. destruct (take_spec s v s' T) as [_ [_ [_ [_ [S _]]]]].
    rewrite (poll_none s') by (rewrite S; apply J). rewrite Tauto.if_same. apply (conserve_take s v); auto.
  - destruct (q_exc s); [apply conserve_id; auto|].
    pose proof (take_none s T) as R.
    destruct (q_waiter s) as [f|] eqn:W.
    + destruct (j_waiter s J f W) as [_ [D|[P [g [G' _]]]]]; [|congruence].
      rewrite D. cbn [is_pending]. rewrite (finish_get_solo s f false b (j_swaiters s J)).
      apply conserve_id; auto; unfold finish_get; rewrite D; destruct b; reflexivity.
    + cbn [fst snd]. split; [|split; [reflexivity|]].
      * constructor; cbn; rewrite ?G; cbn; try apply J; auto.
        -- intros f Hf. inversion Hf; subst. split; [exact R|]. right. rewrite upd_same. split; [reflexivity|].
           eexists. split; [reflexivity|]. split; reflexivity.
        -- intros g [<-|[]] _. reflexivity.
      * match goal with |- context [in_flight ?s'] => assert (E2 : in_flight s' = []) end.
        { unfold in_flight. cbn [q_gets q_fut]. rewrite G. cbn [app flat_map g_flag g_fut]. rewrite upd_same. reflexivity. }
        assert (E1 : in_flight s = []) by (unfold in_flight; rewrite G; reflexivity).
        rewrite E1, E2. cbn [q_results]. rewrite R. split; [|intros _; constructor].
        exists []. split; [|reflexivity]. unfold dead. cbn. rewrite Nat.eqb_refl || rewrite upd_same. cbn. lia.
Qed.

Lemma conserve_step : forall s o, solo s -> allowed s o ->
  conserve s (fst (step s o)) (snd (step s o)) (cancels o).
Proof.
  intros s o J A. destruct o; cbn [step cancels]; cbn [allowed] in A.
  - apply conserve_put; exact J.
  - unfold put_wait. destruct (q_waiter s) eqn:W; [apply conserve_put; exact J|].
    rewrite A. cbn [full]. apply conserve_put; exact J.
  - apply conserve_get; assumption.
  - apply conserve_get; assumption.
  - unfold get_no_wait. destruct (take s) as [[v s']|] eqn:T.
    + cbn [fst snd]. destruct (take_spec s v s' T) as [_ [_ [_ [_ [S _]]]]].
      rewrite (poll_none s') by (rewrite S; apply J). rewrite Tauto.if_same. apply (conserve_take s v); auto.
    + apply conserve_id; auto; destruct (q_exc s); reflexivity.
  - (* set_exception *)
    cbn [fst snd]. unfold set_exception. rewrite (j_swaiters s J). cbn [fold_left].
    destruct (q_waiter s) as [f|] eqn:W.
    + destruct (j_waiter s J f W) as [R [D|[P [g [G [Gf Gb]]]]]].
      * assert (F : set_if_pending (q_fut s) f FExc = q_fut s) by (unfold set_if_pending; rewrite D; reflexivity).
        rewrite F. split.
        { constructor; cbn; try apply J; try discriminate; auto. intros g G P. pose proof (j_pend s J g G P). congruence. }
        split; [reflexivity|]. split.
        -- exists []. split; [unfold dead; cbn; lia|]. unfold in_flight. cbn. reflexivity.
        -- intros _. unfold in_flight. cbn. rewrite app_nil_r. apply sub_refl.
      * assert (F : set_if_pending (q_fut s) f FExc = upd (q_fut s) f FExc) by (unfold set_if_pending; rewrite P; reflexivity).
        rewrite F. split.
        { constructor; cbn; try apply J; try discriminate; auto. intros g' G' P'. exfalso. rewrite G in G'.
          destruct G' as [<-|[]]. rewrite Gf, upd_same in P'. discriminate. }
        split; [reflexivity|].
        assert (E1 : in_flight s = []) by (unfold in_flight; rewrite G; cbn; rewrite Gb, Gf, P; reflexivity).
        match goal with |- context [in_flight ?s'] => assert (E2 : in_flight s' = []) end.
        { unfold in_flight. cbn [q_gets q_fut]. rewrite G. cbn. rewrite Gb, Gf, upd_same. reflexivity. }
        rewrite E1, E2. cbn [q_results]. rewrite R. split; [|intros _; constructor].
        exists []. split; [unfold dead; cbn; lia | reflexivity].
    + split.
      { constructor; cbn; try apply J; try discriminate; auto. intros g G P. rewrite <- W. exact (j_pend s J g G P). }
      split; [reflexivity|]. split.
      * exists []. split; [unfold dead; cbn; lia|]. unfold in_flight. cbn. reflexivity.
      * intros _. unfold in_flight. cbn. rewrite app_nil_r. apply sub_refl.
  - (* cancel_get *)
    cbn [fst snd]. unfold cancel_get. destruct (gets_cases s J) as [G|[g G]]; rewrite G; cbn [find_get find].
    { apply conserve_id; auto. }
    destruct (Nat.eqb (g_id g) c) eqn:Ec; [|apply conserve_id; auto].
    destruct (is_pending (q_fut s (g_fut g))) eqn:P.
    + destruct (q_fut s (g_fut g)) eqn:Pg; try discriminate.
      assert (E1 : in_flight s = []) by (unfold in_flight; rewrite G; cbn; rewrite Pg; destruct (g_flag g); reflexivity).
      assert (E2 : in_flight (with_fut s (upd (q_fut s) (g_fut g) FCancelled)) = []).
      { unfold in_flight. cbn [q_gets q_fut with_fut]. rewrite G. cbn. rewrite upd_same. destruct (g_flag g); reflexivity. }
      split; [|split; [reflexivity|]].
      * constructor; cbn; try apply J.
        -- intros f Hf. destruct (j_waiter s J f Hf) as [R D]. split; [exact R|]. left.
           unfold upd. destruct (Nat.eqb_spec f (g_fut g)); [reflexivity|].
           destruct D as [D|[D [g' [G' [Gf _]]]]]; [exact D|]. rewrite G in G'. inversion G'; subst. contradiction.
        -- intros g' G' P'. rewrite G in G'. destruct G' as [<-|[]]. rewrite upd_same in P'. discriminate.
      * rewrite E1, E2. cbn [q_results with_fut]. split; [|intros _; cbn; rewrite app_nil_r; apply sub_refl].
        exists []. split; [|cbn; reflexivity]. unfold dead at 1. cbn.
        destruct (q_waiter s); [|lia]. destruct (upd _ _ _ _); lia.
    + split; [|split; [reflexivity|]].
      * constructor; cbn; rewrite ?G; cbn; try apply J; auto.
        -- intros f Hf. destruct (j_waiter s J f Hf) as [R D]. split; [exact R|].
           destruct D as [D|[D [g' [G' [Gf _]]]]]; [auto|]. rewrite G in G'. inversion G'; subst. rewrite D in P. discriminate.
        -- rewrite Ec. intros g' [<-|[]] P'. cbn in P'. rewrite P' in P. discriminate.
      * assert (E2 : in_flight (with_gets s (map (fun x : getter => if g_id x =? c then mk_getter (g_id x) (g_fut x) true (g_next x) else x) [g])) = []).
        { unfold in_flight. cbn. rewrite Ec. reflexivity. }
        rewrite E2. cbn [q_results with_gets taken accepted flat_map app]. rewrite app_nil_r.
        assert (L : length (in_flight s) <= 1).
        { unfold in_flight. rewrite G. cbn. destruct (g_flag g); [cbn; lia|]. destruct (q_fut s (g_fut g)); cbn; lia. }
        split.
        -- exists (in_flight s). split; [|apply Permutation_app_comm]. unfold dead. cbn. lia.
        -- intros _. rewrite <- (app_nil_l (q_results s)) at 1. apply sub_app; [apply sub_nil_l | apply sub_refl].
  - (* cancel_put *)
    cbn [fst snd]. unfold cancel_put. rewrite (j_puts s J). cbn. apply conserve_id; auto.
  - (* resume_get *)
    unfold resume_get. destruct (gets_cases s J) as [G|[g G]]; rewrite G; cbn [find_get find].
    { apply conserve_id; auto. }
    destruct (Nat.eqb (g_id g) c) eqn:Ec; [|apply conserve_id; auto].
    destruct (is_pending (q_fut s (g_fut g))) eqn:P; [apply conserve_id; auto|].
    cbn [filter]. rewrite Ec. cbn [negb].
    rewrite finish_get_solo by apply J.
    split; [|split; [reflexivity|]].
    + constructor; cbn; try apply J; auto; try contradiction.
      intros f Hf. destruct (j_waiter s J f Hf) as [R D]. split; [exact R|]. left.
      destruct D as [D|[D [g' [G' [Gf _]]]]]; [exact D|]. rewrite G in G'. inversion G'; subst. rewrite D in P. discriminate.
    + assert (E2 : in_flight (with_gets s []) = []) by reflexivity.
      assert (E1 : taken [snd (finish_get (with_gets s []) (g_fut g) (g_flag g) (g_next g))] = in_flight s /\
                   accepted [snd (finish_get (with_gets s []) (g_fut g) (g_flag g) (g_next g))] = []).
      { unfold finish_get, in_flight. rewrite G. cbn [flat_map with_gets q_fut app].
        destruct (g_flag g); [destruct (g_next g); split; reflexivity|].
        destruct (q_fut s (g_fut g)); cbn; destruct (g_next g); cbn; split; reflexivity. }
      destruct E1 as [E1 E1']. rewrite E1, E1', E2. cbn [app q_results with_gets]. split.
      * exists []. split; [unfold dead; cbn; lia|]. reflexivity.
      * intros _. rewrite app_nil_r. apply sub_refl.
  - (* resume_put *)
    unfold resume_put. rewrite (j_puts s J). cbn. apply conserve_id; auto.
Qed.

Lemma taken_app : forall a b, taken (a ++ b) = taken a ++ taken b.
Proof. intros. apply flat_map_app. Qed.
Lemma accepted_app : forall a b, accepted (a ++ b) = accepted a ++ accepted b.
Proof. intros. apply flat_map_app. Qed.

Lemma conserve_run : forall ops s, solo s -> one_consumer s ops ->
  let s' := run s ops in let evs := events s ops in
  (exists lost, length lost + dead s' <= cancellations ops + dead s /\
     Permutation (taken evs ++ in_flight s' ++ q_results s' ++ lost) (in_flight s ++ q_results s ++ accepted evs)) /\
  (q_lifo s = false -> sub (taken evs ++ in_flight s' ++ q_results s') (in_flight s ++ q_results s ++ accepted evs)).
Proof.
  induction ops as [|o ops IH]; intros s J H.
  - cbn. rewrite !app_nil_r. split; [exists []; split; [cbn; lia | rewrite app_nil_r; reflexivity]|].
    intros _. apply sub_refl.
  - cbn [one_consumer] in H. destruct H as [A H]. destruct (conserve_step s o J A) as [J' [L' [[lost [C1 C2]] C3]]].
    specialize (IH _ J' H). cbn [run events]. cbv zeta in *.
    set (s1 := fst (step s o)) in *. set (e := snd (step s o)) in *.
    destruct IH as [[lost' [D1 D2]] D3].
    change (e :: events s1 ops) with ([e] ++ events s1 ops). rewrite taken_app, accepted_app.
    assert (N : cancellations (o :: ops) = cancels o + cancellations ops) by (destruct o; reflexivity).
    split.
    + exists (lost' ++ lost). split; [rewrite app_length, N; lia|].
      transitivity (taken [e] ++ (taken (events s1 ops) ++ in_flight (run s1 ops) ++ q_results (run s1 ops) ++ lost') ++ lost).
      { rewrite <- !app_assoc. reflexivity. }
      rewrite D2.
      transitivity ((taken [e] ++ in_flight s1 ++ q_results s1 ++ lost) ++ accepted (events s1 ops)).
      { rewrite <- !app_assoc. do 3 apply Permutation_app_head. apply Permutation_app_comm. }
      rewrite C2, <- !app_assoc. reflexivity.
    + intros Lf. specialize (C3 Lf). rewrite L' in D3. specialize (D3 Lf).
      rewrite <- app_assoc.
      apply sub_trans with (b := taken [e] ++ in_flight s1 ++ q_results s1 ++ accepted (events s1 ops)).
      * replace (in_flight s ++ q_results s ++ accepted [e] ++ accepted (events s1 ops))
          with ((in_flight s ++ q_results s ++ accepted [e]) ++ accepted (events s1 ops)) by (rewrite <- !app_assoc; reflexivity).
        replace (taken [e] ++ in_flight s1 ++ q_results s1 ++ accepted (events s1 ops))
          with ((taken [e] ++ in_flight s1 ++ q_results s1) ++ accepted (events s1 ops)) by (rewrite <- !app_assoc; reflexivity).
        apply sub_app; [exact C3 | apply sub_refl].
      * apply sub_app; [apply sub_refl | exact D3].
Qed.

Lemma conserve_init : forall lifo m ops, one_consumer (queue_init lifo m) ops ->
  let s := run (queue_init lifo m) ops in let evs := events (queue_init lifo m) ops in
  (exists lost, length lost <= cancellations ops /\
     Permutation (taken evs ++ in_flight s ++ q_results s ++ lost) (accepted evs)) /\
  (lifo = false -> sub (taken evs ++ in_flight s ++ q_results s) (accepted evs)).
Proof.
  intros lifo m ops H. destruct (conserve_run ops _ (solo_init lifo m) H) as [[lost [C1 C2]] C3]. split.
  - exists lost. split; [cbn in C1; lia | exact C2].
  - exact C3.
Qed.

Lemma loses_at_most : forall m ops, one_consumer (queue_init false m) ops ->
  let s := run (queue_init false m) ops in let evs := events (queue_init false m) ops in
  sub (taken evs ++ in_flight s ++ q_results s) (accepted evs) /\
  length (accepted evs) <= length (taken evs ++ in_flight s ++ q_results s) + cancellations ops.
Proof.
  intros m ops H. destruct (conserve_init false m ops H) as [[lost [C1 C2]] C3]. split; [apply C3; reflexivity|].
  apply Permutation_length in C2. rewrite <- C2. rewrite !app_length. lia.
Qed.

Lemma once_in_order : forall m ops, one_consumer (queue_init false m) ops -> cancellations ops = 0 ->
  let s := run (queue_init false m) ops in let evs := events (queue_init false m) ops in
  taken evs ++ in_flight s ++ q_results s = accepted evs.
Proof.
  intros m ops H N. destruct (loses_at_most m ops H) as [C1 C2]. cbv zeta. apply sub_full; [exact C1|]. rewrite N in C2. lia.
Qed.

Lemma lifo_once : forall m ops, one_consumer (queue_init true m) ops -> cancellations ops = 0 ->
  let s := run (queue_init true m) ops in let evs := events (queue_init true m) ops in
  Permutation (taken evs ++ in_flight s ++ q_results s) (accepted evs).
Proof.
  intros m ops H N. destruct (conserve_init true m ops H) as [[lost [C1 C2]] _]. cbv zeta.
  destruct lost; [|cbn in C1; lia]. rewrite app_nil_r in C2. exact C2.
Qed.

(** The consumer never waits while an element is stored. *)
Lemma solo_run : forall ops s, solo s -> one_consumer s ops -> solo (run s ops).
Proof.
  induction ops as [|o ops IH]; cbn; intros s J H; [exact J|]. destruct H as [A H].
  apply IH; [apply (conserve_step s o J A) | exact H].
Qed.

Lemma no_idle_element : forall lifo m ops, one_consumer (queue_init lifo m) ops ->
  let s := run (queue_init lifo m) ops in
  forall g, In g (q_gets s) -> q_fut s (g_fut g) = FPending -> q_results s = [].
Proof.
  intros lifo m ops H s g G P. assert (J : solo s) by (apply solo_run; [apply solo_init | exact H]).
  apply (j_waiter s J (g_fut g)). apply (j_pend s J); assumption.
Qed.

(** ** C16: waking producers *)

Definition pendings (g : nat -> fut) (l : list nat) : list nat := filter (fun f => is_pending (g f)) l.

Record order (s : queue) : Prop := {
  o_same : pendings (q_fut s) (map p_fut (q_puts s)) = pendings (q_fut s) (q_swaiters s);
  o_nodup : NoDup (map p_fut (q_puts s));
  o_nodupw : NoDup (q_swaiters s);
  o_fresh : forall f, In f (map p_fut (q_puts s)) \/ In f (q_swaiters s) -> f < q_next s;
  o_apart : forall f, In f (map p_fut (q_puts s)) \/ In f (q_swaiters s) ->
    q_waiter s <> Some f /\ forall g, In g (q_gets s) -> g_fut g <> f;
  o_getfresh : (forall g, In g (q_gets s) -> g_fut g < q_next s) /\ (forall f, q_waiter s = Some f -> f < q_next s);
  o_bool : forall p, In p (q_puts s) -> match q_fut s (p_fut p) with FElem _ | FExc => False | _ => True end;
  o_flag : forall p, In p (q_puts s) -> p_flag p = true -> q_fut s (p_fut p) <> FPending
}.

Lemma pendings_ext : forall g g' l, (forall f, In f l -> is_pending (g' f) = is_pending (g f)) ->
  pendings g' l = pendings g l.
Proof. intros g g' l H. apply filter_ext_in. exact H. Qed.

Lemma pendings_upd : forall g x v l, is_pending v = false ->
  pendings (upd g x v) l = filter (fun y => negb (Nat.eqb y x)) (pendings g l).
Proof.
  intros g x v l H. induction l as [|a l IH]; [reflexivity|]. unfold pendings in *. cbn [filter]. rewrite IH.
  unfold upd at 1. destruct (Nat.eqb_spec a x) as [->|N].
  - rewrite H. destruct (is_pending (g x)); [|reflexivity]. cbn [filter]. rewrite Nat.eqb_refl. reflexivity.
  - destruct (is_pending (g a)); [|reflexivity]. cbn [filter].
    destruct (Nat.eqb_spec a x); [contradiction | reflexivity].
Qed.

Lemma pendings_app : forall g a b, pendings g (a ++ b) = pendings g a ++ pendings g b.
Proof. intros. apply filter_app. Qed.

Lemma pendings_remove : forall g x l, is_pending (g x) = false ->
  pendings g (filter (fun y => negb (Nat.eqb y x)) l) = pendings g l.
Proof.
  intros g x l H. induction l as [|a l IH]; [reflexivity|]. unfold pendings in *. cbn [filter].
  destruct (Nat.eqb_spec a x) as [->|N]; cbn [negb filter]; [rewrite H; exact IH | rewrite IH; reflexivity].
Qed.

Lemma poll_spec : forall ws g g' ws', poll g ws = (g', ws') ->
  (pendings g ws = [] /\ g' = g /\ ws' = []) \/
  (exists pre w, ws = pre ++ w :: ws' /\ pendings g pre = [] /\ g w = FPending /\ g' = upd g w (FBool true)).
Proof.
  induction ws as [|w ws IH]; intros g g' ws' H; cbn [poll] in H; [inversion H; auto|].
  destruct (is_pending (g w)) eqn:P.
  - inversion H; subst. right. exists [], w. repeat split. destruct (g w); try discriminate. reflexivity.
  - destruct (IH _ _ _ H) as [[E1 [E2 E3]]|[pre [x [E1 [E2 [E3 E4]]]]]].
    + left. unfold pendings in *. cbn. rewrite P. auto.
    + right. exists (w :: pre), x. subst. unfold pendings in *. cbn. rewrite P. auto.
Qed.

Lemma order_init : forall lifo m, order (queue_init lifo m).
Proof. intros. constructor; cbn; try constructor; try tauto; try contradiction; discriminate. Qed.

(** Same producers and list, other futures untouched. *)
Lemma order_frame : forall s s', order s ->
  q_puts s' = q_puts s -> q_swaiters s' = q_swaiters s -> q_next s <= q_next s' ->
  (forall f, In f (map p_fut (q_puts s)) \/ In f (q_swaiters s) -> q_fut s' f = q_fut s f) ->
  (forall g, In g (q_gets s') -> In (g_fut g) (map g_fut (q_gets s)) \/ (q_next s <= g_fut g < q_next s') \/ q_waiter s = Some (g_fut g)) ->
  (forall f, q_waiter s' = Some f -> q_waiter s = Some f \/ q_next s <= f < q_next s') ->
  order s'.
Proof.
  intros s s' O P W N F G Wt. constructor; rewrite ?P, ?W.
  - rewrite !(pendings_ext (q_fut s) (q_fut s')); [apply O | |]; intros f H; rewrite F; auto.
  - apply O.
  - apply O.
  - intros f H. pose proof (o_fresh s O f H). lia.
  - intros f H. destruct (o_apart s O f H) as [A1 A2]. pose proof (o_fresh s O f H) as Fr. split.
    + intros E. apply Wt in E. destruct E; [congruence | lia].
    + intros g Hg. apply G in Hg. destruct Hg as [Hg|[Hg|Hg]]; [|lia | congruence].
      apply in_map_iff in Hg. destruct Hg as [g' [<- Hg]]. apply A2. exact Hg.
  - split.
    + intros g Hg. apply G in Hg. destruct (o_getfresh s O) as [F1 F2].
      destruct Hg as [Hg|[Hg|Hg]]; [|lia | apply F2 in Hg; lia].
      apply in_map_iff in Hg. destruct Hg as [g' [<- Hg]]. apply F1 in Hg. lia.
    + intros f Hf. apply Wt in Hf. destruct (o_getfresh s O) as [F1 F2]. destruct Hf as [Hf|Hf]; [apply F2 in Hf; lia | lia].
  - intros p Hp. rewrite F; [apply (o_bool s O); exact Hp|]. left. apply in_map. exact Hp.
  - intros p Hp. rewrite F; [apply (o_flag s O); exact Hp|]. left. apply in_map. exact Hp.
Qed.

Lemma nodup_filter : forall (A : Type) (h : A -> bool) l, NoDup l -> NoDup (filter h l).
Proof. intros. apply NoDup_filter. assumption. Qed.

Lemma order_poll : forall s, order s -> order (poll_swaiters s).
Proof.
  intros s O. unfold poll_swaiters. destruct (poll (q_fut s) (q_swaiters s)) as [g' ws'] eqn:E.
  destruct (poll_spec _ _ _ _ E) as [[E1 [E2 E3]]|[pre [w [E1 [E2 [E3 E4]]]]]].
  - subst. constructor; cbn [q_fut q_puts q_swaiters q_next q_waiter q_gets]; try apply O.
    + rewrite (o_same s O). exact E1.
    + constructor.
    + intros f [H|[]]. apply (o_fresh s O). auto.
    + intros f [H|[]]. apply (o_apart s O). auto.
  - subst g'.
    assert (Sub : forall f, In f ws' -> In f (q_swaiters s)).
    { intros f H. rewrite E1. apply in_or_app. right. right. exact H. }
    constructor; cbn [q_fut q_puts q_swaiters q_next q_waiter q_gets].
    + rewrite !pendings_upd by reflexivity. rewrite (o_same s O), E1, pendings_app, E2. cbn [app]. unfold pendings at 1.
      cbn [filter]. rewrite E3. cbn [is_pending filter]. rewrite Nat.eqb_refl. reflexivity.
    + apply O.
    + pose proof (o_nodupw s O) as Nw. rewrite E1 in Nw. apply NoDup_remove_1 in Nw. clear - Nw.
      induction pre; [exact Nw|]. cbn in Nw. inversion Nw; auto.
    + intros f H. apply (o_fresh s O). destruct H; auto.
    + intros f H. apply (o_apart s O). destruct H; auto.
    + apply O.
    + intros p Hp. unfold upd. destruct (Nat.eqb_spec (p_fut p) w); [exact I | apply (o_bool s O); exact Hp].
    + intros p Hp Fl. unfold upd. destruct (Nat.eqb_spec (p_fut p) w); [discriminate | apply (o_flag s O); assumption].
Qed.

Lemma order_finish : forall s f a b, order s -> order (fst (finish_get s f a b)).
Proof.
  intros s f a b O. unfold finish_get. pose proof (order_poll s O).
  destruct a; [|destruct (q_fut s f)]; cbn [fst]; destruct (q_lifo s || b); assumption.
Qed.

Lemma order_take : forall s v s', order s -> take s = Some (v, s') -> order s'.
Proof.
  intros s v s' O T. destruct (take_spec s v s' T) as [_ [_ [W [_ [S [F [G [P [N _]]]]]]]]].
  apply (order_frame s); auto; rewrite ?N, ?F, ?G, ?W; auto using in_map.
Qed.

Lemma order_put : forall s v, order s -> order (fst (put s v)).
Proof.
  intros s v O. unfold put. destruct (q_waiter s) as [f|] eqn:W.
  - cbn [fst]. apply (order_frame s); cbn; auto using in_map; try discriminate.
    intros f' H. destruct (o_apart s O f' H) as [A _]. unfold set_if_pending. destruct (is_pending (q_fut s f)); [|reflexivity].
    apply upd_other. congruence.
  - destruct (full (q_max s) (q_results s)); [exact O|]. cbn [fst]. apply (order_frame s); cbn; auto using in_map; try discriminate.
Qed.

Lemma order_get : forall s b, order s -> order (fst (get s b)).
Proof.
  intros s b O. unfold get. destruct (take s) as [[v s']|] eqn:T.
  - cbn [fst]. pose proof (order_take s v s' O T) as O'. pose proof (order_poll s' O'). destruct (negb (q_lifo s) && b); assumption.
  - destruct (q_exc s); [exact O|]. destruct (q_waiter s) as [f|] eqn:W.
    + destruct (is_pending (q_fut s f)); [|apply order_finish; exact O].
      cbn [fst]. apply (order_frame s); cbn; auto.
      * intros g H. apply in_app_or in H. destruct H as [H|[<-|[]]]; [auto using in_map | right; right; exact W].
      * intros f' Hf. inversion Hf; subst. auto.
    + cbn [fst]. apply (order_frame s); cbn; auto.
      * intros f H. apply upd_other. apply (o_fresh s O) in H. lia.
      * intros g H. apply in_app_or in H. destruct H as [H|[<-|[]]]; [auto using in_map | cbn; right; left; lia].
      * intros f Hf. inversion Hf; subst. right. lia.
Qed.

Lemma fold_set_exc : forall ws g f,
  fold_left (fun g w => set_if_pending g w (FBool false)) ws g f =
  if existsb (Nat.eqb f) ws && is_pending (g f) then FBool false else g f.
Proof.
  induction ws as [|w ws IH]; intros g f; [reflexivity|]. cbn [fold_left existsb]. rewrite IH.
  unfold set_if_pending. destruct (Nat.eqb_spec f w) as [->|N].
  - cbn [orb andb]. destruct (is_pending (g w)) eqn:P; [rewrite upd_same; cbn; rewrite andb_false_r; reflexivity|].
    rewrite P, andb_false_r. reflexivity.
  - cbn [orb]. destruct (is_pending (g w)); [rewrite upd_other by exact N|]; reflexivity.
Qed.

Lemma order_step : forall s o, order s -> order (fst (step s o)).
Proof.
  intros s o O. destruct o; cbn [step].
  - apply order_put; exact O.
  - unfold put_wait. destruct (q_waiter s) as [f|] eqn:W; [apply order_put; exact O|].
    destruct (full (q_max s) (q_results s)); [|apply order_put; exact O]. cbn [fst].
    set (n := q_next s).
    assert (Fr : forall f, In f (map p_fut (q_puts s)) \/ In f (q_swaiters s) -> f <> n).
    { intros f H. apply (o_fresh s O) in H. unfold n. lia. }
    constructor; cbn [q_fut q_puts q_swaiters q_next q_waiter q_gets].
    + rewrite map_app, !pendings_app. cbn [map p_fut]. f_equal.
      rewrite !(pendings_ext (q_fut s) (upd (q_fut s) n FPending)); [apply O | |];
        intros f H; rewrite upd_other; auto.
    + rewrite map_app. cbn [map p_fut].
      apply (Permutation_NoDup (l := n :: map p_fut (q_puts s))); [apply Permutation_cons_append|].
      constructor; [|apply O]. intros H. exact (Fr n (or_introl H) eq_refl).
    + apply (Permutation_NoDup (l := n :: q_swaiters s)); [apply Permutation_cons_append|].
      constructor; [|apply O]. intros H. exact (Fr n (or_intror H) eq_refl).
    + intros f H. rewrite map_app in H. rewrite !in_app_iff in H. cbn [map p_fut In] in H.
      assert (H' : f = n \/ (In f (map p_fut (q_puts s)) \/ In f (q_swaiters s))) by intuition.
      destruct H' as [->|H']; [lia|]. pose proof (o_fresh s O f H'). unfold n. lia.
    + intros f H. rewrite map_app in H. rewrite !in_app_iff in H. cbn [map p_fut In] in H.
      assert (H' : f = n \/ (In f (map p_fut (q_puts s)) \/ In f (q_swaiters s))) by intuition.
      split; [congruence|]. destruct H' as [->|H'].
      * intros g Hg. apply (proj1 (o_getfresh s O)) in Hg. unfold n. lia.
      * apply (o_apart s O). exact H'.
    + split; [|discriminate]. intros g Hg. apply (proj1 (o_getfresh s O)) in Hg. unfold n. lia.
    + intros p Hp. apply in_app_or in Hp. destruct Hp as [Hp|[<-|[]]]; [|cbn; rewrite upd_same; exact I].
      rewrite upd_other; [apply (o_bool s O); exact Hp|]. apply Fr. left. apply in_map. exact Hp.
    + intros p Hp. apply in_app_or in Hp. destruct Hp as [Hp|[<-|[]]]; [|cbn; discriminate].
      rewrite upd_other; [apply (o_flag s O); exact Hp|]. apply Fr. left. apply in_map. exact Hp.
  - apply order_get; exact O.
  - apply order_get; exact O.
  - unfold get_no_wait. destruct (take s) as [[v s']|] eqn:T; [|exact O].
    cbn [fst]. pose proof (order_take s v s' O T) as O'. pose proof (order_poll s' O'). destruct (q_lifo s); assumption.
  - (* set_exception *)
    cbn [fst]. unfold set_exception.
    set (g := match q_waiter s with None => q_fut s | Some f => set_if_pending (q_fut s) f FExc end).
    assert (Eg : forall f, In f (map p_fut (q_puts s)) \/ In f (q_swaiters s) -> g f = q_fut s f).
    { intros f H. destruct (o_apart s O f H) as [A _]. unfold g. destruct (q_waiter s) as [w|]; [|reflexivity].
      unfold set_if_pending. destruct (is_pending (q_fut s w)); [|reflexivity]. apply upd_other. congruence. }
    assert (Np : forall f, In f (map p_fut (q_puts s)) ->
      is_pending (fold_left (fun g w => set_if_pending g w (FBool false)) (q_swaiters s) g f) = false).
    { intros f H. rewrite fold_set_exc, (Eg f) by auto. destruct (is_pending (q_fut s f)) eqn:P; [|rewrite andb_false_r; exact P].
      assert (Iw : In f (q_swaiters s)).
      { assert (X : In f (pendings (q_fut s) (map p_fut (q_puts s)))) by (apply filter_In; auto).
        rewrite (o_same s O) in X. apply filter_In in X. apply X. }
      assert (E : existsb (Nat.eqb f) (q_swaiters s) = true) by (apply existsb_exists; exists f; rewrite Nat.eqb_refl; auto).
      rewrite E. reflexivity. }
    constructor; cbn [q_fut q_puts q_swaiters q_next q_waiter q_gets].
    + cbn. unfold pendings. clear - Np. induction (map p_fut (q_puts s)) as [|a l IH]; [reflexivity|].
      cbn [filter]. rewrite Np by (left; reflexivity). apply IH. intros f H. apply Np. right. exact H.
    + apply O.
    + constructor.
    + intros f [H|[]]. apply (o_fresh s O). auto.
    + intros f [H|[]]. split; [discriminate|]. apply (o_apart s O f). auto.
    + split; [apply O | discriminate].
    + intros p Hp. rewrite fold_set_exc, (Eg (p_fut p)) by (left; apply in_map; exact Hp).
      destruct (_ && _); [exact I | apply (o_bool s O); exact Hp].
    + intros p Hp _ E. pose proof (Np (p_fut p) (in_map _ _ _ Hp)) as X. rewrite E in X. discriminate.
  - (* cancel_get *)
    cbn [fst]. unfold cancel_get. destruct (find_get c (q_gets s)) as [g|] eqn:Fg; [|exact O].
    unfold find_get in Fg. apply find_some in Fg. destruct Fg as [Ig _].
    destruct (is_pending _).
    + apply (order_frame s); cbn; auto using in_map. intros f H. apply upd_other. destruct (o_apart s O f H) as [_ A].
      apply not_eq_sym. apply A. exact Ig.
    + apply (order_frame s); cbn; auto. intros g' H. apply in_map_iff in H. destruct H as [x [E H]].
      destruct (Nat.eqb (g_id x) c); subst g'; [|auto using in_map]. left. apply (in_map g_fut _ x). exact H.
  - (* cancel_put *)
    cbn [fst]. unfold cancel_put. destruct (find_put p (q_puts s)) as [x|] eqn:Fp; [|exact O].
    unfold find_put in Fp. apply find_some in Fp. destruct Fp as [Ip Ep]. apply Nat.eqb_eq in Ep.
    destruct (is_pending (q_fut s (p_fut x))) eqn:P.
    + constructor; cbn [q_fut q_puts q_swaiters q_next q_waiter q_gets with_fut]; try apply O.
      * rewrite !pendings_upd by reflexivity. rewrite (o_same s O). reflexivity.
      * intros p' Hp. unfold upd. destruct (Nat.eqb_spec (p_fut p') (p_fut x)); [exact I | apply (o_bool s O); exact Hp].
      * intros p' Hp Fl. unfold upd. destruct (Nat.eqb_spec (p_fut p') (p_fut x)); [discriminate | apply (o_flag s O); assumption].
    + set (l := map _ (q_puts s)).
      assert (El : map p_fut l = map p_fut (q_puts s)).
      { unfold l. rewrite map_map. apply map_ext. intros a. destruct (Nat.eqb (p_fut a) p); reflexivity. }
      assert (Il : forall p', In p' l -> exists a, In a (q_puts s) /\ p_fut a = p_fut p' /\ (p_flag p' = true -> p_flag a = true \/ p_fut p' = p)).
      { intros p' Hp. unfold l in Hp. apply in_map_iff in Hp. destruct Hp as [a [E Ha]]. exists a. split; [exact Ha|].
        destruct (Nat.eqb_spec (p_fut a) p); subst p'; cbn; auto. }
      constructor; cbn [q_fut q_puts q_swaiters q_next q_waiter q_gets with_puts]; rewrite ?El; try apply O.
      * intros p' Hp. destruct (Il p' Hp) as [a [Ha [<- _]]]. apply (o_bool s O). exact Ha.
      * intros p' Hp Fl. destruct (Il p' Hp) as [a [Ha [E K]]]. destruct (K Fl) as [K'|K'].
        -- rewrite <- E. apply (o_flag s O); assumption.
        -- rewrite K', <- Ep. intros E'. rewrite E' in P. discriminate.
  - (* resume_get *)
    unfold resume_get. destruct (find_get c (q_gets s)) as [g|] eqn:Fg; [|exact O].
    destruct (is_pending _); [exact O|]. apply order_finish.
    apply (order_frame s); cbn; auto. intros g' H. apply filter_In in H. left. apply in_map. apply H.
  - (* resume_put *)
    unfold resume_put. destruct (find_put p (q_puts s)) as [x|] eqn:Fp; [|exact O].
    unfold find_put in Fp. apply find_some in Fp. destruct Fp as [Ip Ep]. apply Nat.eqb_eq in Ep.
    destruct (is_pending (q_fut s (p_fut x))) eqn:P; [exact O|].
    assert (Ef : map p_fut (filter (fun x => negb (Nat.eqb (p_fut x) p)) (q_puts s)) =
                 filter (fun y => negb (Nat.eqb y p)) (map p_fut (q_puts s))).
    { clear. induction (q_puts s) as [|a l IH]; [reflexivity|]. cbn. destruct (Nat.eqb (p_fut a) p); cbn; rewrite IH; reflexivity. }
    rewrite Ep in P.
    assert (K : forall ws, (ws = q_swaiters s \/ ws = filter (fun w => negb (Nat.eqb w p)) (q_swaiters s)) ->
      forall r, order (mk_queue (q_lifo s) (q_max s) r (q_waiter s) (q_exc s) ws (q_fut s) (q_gets s)
                  (filter (fun x => negb (Nat.eqb (p_fut x) p)) (q_puts s)) (q_next s))).
    { intros ws Hw r.
      assert (Sub : forall f, In f ws -> In f (q_swaiters s)).
      { intros f H. destruct Hw as [->| ->]; [exact H | apply filter_In in H; apply H]. }
      assert (Sup : forall f, In f (filter (fun y => negb (Nat.eqb y p)) (map p_fut (q_puts s))) -> In f (map p_fut (q_puts s))).
      { intros f H. apply filter_In in H. apply H. }
      constructor; cbn [q_fut q_puts q_swaiters q_next q_waiter q_gets]; rewrite ?Ef.
      - rewrite pendings_remove by exact P. rewrite (o_same s O).
        destruct Hw as [->| ->]; [reflexivity | rewrite pendings_remove by exact P; reflexivity].
      - apply NoDup_filter. apply O.
      - destruct Hw as [->| ->]; [apply O | apply NoDup_filter; apply O].
      - intros f H. apply (o_fresh s O). destruct H; auto.
      - intros f H. apply (o_apart s O). destruct H; auto.
      - apply O.
      - intros p' Hp. apply filter_In in Hp. apply (o_bool s O). apply Hp.
      - intros p' Hp. apply filter_In in Hp. apply (o_flag s O). apply Hp. }
    destruct (p_flag x); [apply K; auto|]. destruct (q_fut s (p_fut x)) as [| |[|]| |]; apply K; auto.
Qed.

Lemma order_run : forall ops s, order s -> order (run s ops).
Proof. induction ops as [|o ops IH]; cbn; intros s O; [exact O | apply IH, order_step; exact O]. Qed.

Lemma find_first : forall p pre x post, p_fut x = p -> (forall y, In y pre -> p_fut y <> p) ->
  find_put p (pre ++ x :: post) = Some x.
Proof.
  intros p pre x post E H. unfold find_put. induction pre as [|a pre IH]; cbn.
  - rewrite E, Nat.eqb_refl. reflexivity.
  - destruct (Nat.eqb_spec (p_fut a) p) as [X|X]; [exfalso; exact (H a (or_introl eq_refl) X)|].
    apply IH. intros y Hy. apply H. right. exact Hy.
Qed.

Lemma lifo_kept : forall ops q, q_lifo (run q ops) = q_lifo q.
Proof.
  induction ops as [|o ops IH]; cbn; intros q; [reflexivity|]. rewrite IH.
    assert (Hp : forall q, q_lifo (poll_swaiters q) = q_lifo q) by (intros q'; unfold poll_swaiters; destruct (poll _ _); reflexivity).
    assert (Hf : forall q f a b, q_lifo (fst (finish_get q f a b)) = q_lifo q).
    { intros q' f a b. unfold finish_get. destruct a; [|destruct (q_fut q' f)]; cbn [fst]; destruct (q_lifo q' || b); rewrite ?Hp; reflexivity. }
    assert (Hu : forall v, q_lifo (fst (put q v)) = q_lifo q).
    { intros v. unfold put. destruct (q_waiter q); [reflexivity|]. destruct (full _ _); reflexivity. }
    assert (Hg : forall b, q_lifo (fst (get q b)) = q_lifo q).
    { intros b. unfold get. destruct (take q) as [[v s']|] eqn:T.
      - destruct (take_spec q v s' T) as [_ [L _]]. cbn [fst]. destruct (negb (q_lifo q) && b); rewrite ?Hp; exact L.
      - destruct (q_exc q); [reflexivity|]. destruct (q_waiter q) as [f|]; [|reflexivity].
        destruct (is_pending _); [reflexivity | apply Hf]. }
    destruct o; cbn [step]; auto.
    - unfold put_wait. destruct (q_waiter q); [apply Hu|]. destruct (full _ _); [reflexivity | apply Hu].
    - unfold get_no_wait. destruct (take q) as [[v s']|] eqn:T; [|reflexivity].
      destruct (take_spec q v s' T) as [_ [L _]]. cbn [fst]. destruct (q_lifo q); rewrite ?Hp; exact L.
    - cbn [fst]. unfold cancel_get. destruct (find_get _ _); [|reflexivity]. destruct (is_pending _); reflexivity.
    - cbn [fst]. unfold cancel_put. destruct (find_put _ _); [|reflexivity]. destruct (is_pending _); reflexivity.
    - unfold resume_get. destruct (find_get _ _); [|reflexivity]. destruct (is_pending _); [reflexivity|]. rewrite Hf. reflexivity.
    - unfold resume_put. destruct (find_put _ _) as [x|]; [|reflexivity]. destruct (is_pending _); [reflexivity|].
      destruct (p_flag x); [reflexivity|]. destruct (q_fut q (p_fut x)) as [| |[|]| |]; reflexivity.
Qed.

Lemma lifo_newest : forall m ops o l v,
  let s := run (queue_init true m) ops in
  (o = OGetNoWait \/ o = OGet \/ o = ONext) -> q_results s = l ++ [v] ->
  snd (step s o) = EvTook v /\ q_results (fst (step s o)) = l.
Proof.
  intros m ops o l v s Ho R. assert (L : q_lifo s = true) by (unfold s; rewrite lifo_kept; reflexivity).
  assert (T : exists s', take s = Some (v, s') /\ q_results s' = l).
  { unfold take. rewrite L, R, rev_app_distr. cbn. eexists. split; [reflexivity|]. cbn. apply rev_involutive. }
  destruct T as [s' [T E]].
  destruct Ho as [->|[->| ->]]; cbn [step]; unfold get_no_wait, get; rewrite T, L; cbn; auto.
Qed.

(** Taking with [get_result_no_wait] or [async for] wakes the producer that has waited longest. *)
Lemma take_wakes : forall m ops o v pre p post,
  let s := run (queue_init false m) ops in
  (o = OGetNoWait \/ o = ONext) -> q_results s <> [] -> snd (step s o) = EvTook v ->
  q_puts s = pre ++ p :: post -> (forall x, In x pre -> q_fut s (p_fut x) <> FPending) -> q_fut s (p_fut p) = FPending ->
  snd (step (fst (step s o)) (OResumePut (p_fut p))) = EvPut (p_elem p) 2.
Proof.
  intros m ops o v pre p post s Ho R Ev Pu Pre Pp.
  assert (O : order s) by (apply order_run, order_init).
  assert (L : q_lifo s = false) by (unfold s; rewrite lifo_kept; reflexivity).
  assert (E : exists s', take s = Some (v, s') /\ fst (step s o) = poll_swaiters s').
  { destruct (take s) as [[v' s']|] eqn:T; [|apply take_none in T; contradiction].
    exists s'. destruct Ho as [->| ->]; cbn [step] in *; unfold get_no_wait, get in *; rewrite T in *; rewrite L in *;
      cbn [snd fst negb andb] in *; inversion Ev; subst; auto. }
  destruct E as [s' [T E]]. rewrite E.
  destruct (take_spec s v s' T) as [_ [_ [_ [_ [S [F [_ [P _]]]]]]]].
  unfold poll_swaiters. rewrite S, F.
  destruct (poll (q_fut s) (q_swaiters s)) as [g' ws'] eqn:Po.
  assert (X : pendings (q_fut s) (map p_fut (q_puts s)) = p_fut p :: pendings (q_fut s) (map p_fut post)).
  { rewrite Pu, map_app, pendings_app. cbn [map]. unfold pendings at 2. cbn [filter]. rewrite Pp. cbn [is_pending].
    replace (pendings (q_fut s) (map p_fut pre)) with (@nil nat); [reflexivity|].
    clear - Pre. induction pre as [|a pre IH]; [reflexivity|]. unfold pendings in *. cbn.
    destruct (is_pending (q_fut s (p_fut a))) eqn:Y.
    - exfalso. apply (Pre a (or_introl eq_refl)). destruct (q_fut s (p_fut a)); try discriminate. reflexivity.
    - apply IH. intros x Hx. apply Pre. right. exact Hx. }
  rewrite (o_same s O) in X.
  destruct (poll_spec _ _ _ _ Po) as [[E1 _]|[pre' [w [E1 [E2 [E3 E4]]]]]]; [congruence|].
  rewrite E1, pendings_app, E2 in X. cbn [app] in X. unfold pendings in X. cbn [filter] in X. rewrite E3 in X.
  cbn [is_pending] in X. inversion X; subst w.
  cbn [step]. unfold resume_put. cbn [q_puts q_fut]. rewrite P, Pu.
  rewrite (find_first (p_fut p)).
  - subst g'. rewrite upd_same. cbn [is_pending].
    destruct (p_flag p) eqn:Fl; [|reflexivity].
    exfalso. apply (o_flag s O p); [rewrite Pu; apply in_or_app; right; left; reflexivity | exact Fl | exact Pp].
  - reflexivity.
  - intros y Hy E'. pose proof (o_nodup s O) as N. rewrite Pu, map_app in N. cbn [map] in N.
    apply NoDup_remove_2 in N. apply N. apply in_or_app. left. rewrite <- E'. apply in_map. exact Hy.
Qed.

(** ** C17: what [set_result] does *)

Lemma put_code : forall s v,
  (snd (put s v) = EvPut v 1 /\ fst (put s v) = s /\ q_waiter s = None /\ exists n, q_max s = Some n /\ n <= length (q_results s)) \/
  (snd (put s v) = EvPut v 0 /\ q_waiter s = None /\ q_results (fst (put s v)) = q_results s ++ [v]) \/
  (snd (put s v) = EvPut v 0 /\ exists f, q_waiter s = Some f /\ q_results (fst (put s v)) = q_results s /\
     (q_fut s f = FPending -> q_fut (fst (put s v)) f = FElem v)).
Proof.
  intros s v. unfold put. destruct (q_waiter s) as [f|].
  - right. right. cbn. split; [reflexivity|]. exists f. repeat split. intros P. unfold set_if_pending. rewrite P. apply upd_same.
  - destruct (full (q_max s) (q_results s)) eqn:Fu.
    + left. cbn. repeat split. destruct (q_max s) as [n|]; [|discriminate]. exists n. split; [reflexivity|].
      unfold full in Fu. rewrite negb_true_iff, Nat.ltb_ge in Fu. exact Fu.
    + right. left. cbn [fst snd q_results]. rewrite (append_not_full _ _ _ Fu). auto.
Qed.

Lemma once_length : forall m ops, one_consumer (queue_init false m) ops -> cancellations ops = 0 ->
  let s := run (queue_init false m) ops in let evs := events (queue_init false m) ops in
  length (taken evs) + length (in_flight s) + length (q_results s) = length (accepted evs).
Proof.
  intros m ops H N. pose proof (once_in_order m ops H N) as E. cbv zeta in *. rewrite <- E, !app_length. lia.
Qed.
