From Coq Require Import List Arith Bool Lia Sorting.Sorted.
From Verif Require Import LockModel LockSpec.
Import ListNotations.

Definition aw (c : call) : nat := match c_phase c with Waiting f _ => f | Holding => 0 end.
Definition queued (dq : list nat) (c : call) : bool :=
  match c_phase c with Waiting f _ => existsb (Nat.eqb f) dq | Holding => false end.

Definition notb (f : nat) (x : nat) : bool := negb (Nat.eqb x f).

(** ** Lists *)

Lemma existsb_In : forall f l, existsb (Nat.eqb f) l = true <-> In f l.
Proof.
  intros f l. rewrite existsb_exists. split.
  - intros [x [H1 H2]]. apply Nat.eqb_eq in H2. subst. exact H1.
  - intros H. exists f. split; [exact H | apply Nat.eqb_refl].
Qed.

Lemma filter_ext_in' : forall (A : Type) (p q : A -> bool) l,
  (forall x, In x l -> p x = q x) -> filter p l = filter q l.
Proof. exact filter_ext_in. Qed.

Lemma filter_filter : forall (A : Type) (p q : A -> bool) l,
  filter p (filter q l) = filter (fun x => q x && p x) l.
Proof.
  induction l as [|x l IH]; cbn; [reflexivity|].
  destruct (q x); cbn; [destruct (p x); rewrite IH; reflexivity | exact IH].
Qed.

Lemma map_filter : forall (A B : Type) (g : A -> B) (p : B -> bool) l,
  map g (filter (fun x => p (g x)) l) = filter p (map g l).
Proof.
  induction l as [|x l IH]; cbn; [reflexivity|].
  destruct (p (g x)); cbn; rewrite IH; reflexivity.
Qed.

Lemma filter_all : forall (A : Type) (p : A -> bool) l,
  (forall x, In x l -> p x = true) -> filter p l = l.
Proof.
  induction l as [|x l IH]; cbn; intros H; [reflexivity|].
  rewrite (H x (or_introl eq_refl)), IH; auto.
Qed.

Lemma remove_first_notin : forall f l, ~ In f l -> remove_first f l = l.
Proof.
  induction l as [|x l IH]; cbn; intros H; [reflexivity|].
  destruct (Nat.eqb_spec x f); [exfalso; auto|]. rewrite IH; auto.
Qed.

Lemma remove_first_filter : forall f l, NoDup l -> remove_first f l = filter (notb f) l.
Proof.
  induction l as [|x l IH]; cbn; intros H; [reflexivity|].
  inversion H; subst. unfold notb at 1. destruct (Nat.eqb_spec x f); cbn.
  - subst. symmetry. apply filter_all. intros y Hy. unfold notb.
    destruct (Nat.eqb_spec y f); [subst; contradiction | reflexivity].
  - rewrite IH; auto.
Qed.

Lemma remove_first_length : forall f l, In f l -> S (length (remove_first f l)) = length l.
Proof.
  induction l as [|x l IH]; cbn; intros H; [contradiction|].
  destruct (Nat.eqb_spec x f); [reflexivity|]. cbn. rewrite IH; [reflexivity|].
  destruct H; [contradiction | assumption].
Qed.

Lemma In_firstn : forall (A : Type) k (l : list A) x, In x (firstn k l) -> In x l.
Proof.
  intros A k l x H. rewrite <- (firstn_skipn k l). apply in_or_app. left. exact H.
Qed.

Lemma NoDup_firstn : forall (A : Type) k (l : list A), NoDup l -> NoDup (firstn k l).
Proof.
  induction k as [|k IH]; intros l H; cbn; [constructor|].
  destruct l as [|x l]; [constructor|]. inversion H; subst. constructor; auto.
  intros Hx. apply In_firstn in Hx. contradiction.
Qed.

Lemma firstn_remove : forall f l k, NoDup l -> In f (firstn k l) ->
  filter (notb f) (firstn k l) = firstn (k - 1) (remove_first f l).
Proof.
  induction l as [|x l IH]; intros k H Hi.
  - destruct k; contradiction.
  - destruct k as [|k]; [contradiction|]. inversion H; subst. cbn [firstn filter remove_first].
    replace (S k - 1) with k by lia. unfold notb at 1. destruct (Nat.eqb_spec x f); cbn [negb].
    + subst. apply filter_all. intros y Hy. unfold notb.
      destruct (Nat.eqb_spec y f); [subst; apply In_firstn in Hy; contradiction | reflexivity].
    + destruct Hi as [Hi|Hi]; [contradiction|]. rewrite IH; auto.
      destruct k as [|k]; [contradiction|]. cbn [firstn]. replace (S k - 1) with k by lia. reflexivity.
Qed.

Lemma count_le_one : forall f l, NoDup l -> length (filter (fun x => Nat.eqb x f) l) <= 1.
Proof.
  induction l as [|x l IH]; cbn; intros H; [lia|]. inversion H; subst.
  destruct (Nat.eqb_spec x f).
  - subst. cbn. replace (filter (fun x => Nat.eqb x f) l) with (@nil nat); [cbn; lia|].
    symmetry. clear IH H H3. induction l as [|y l IH]; cbn; [reflexivity|].
    destruct (Nat.eqb_spec y f).
    + subst. exfalso. apply H2. left. reflexivity.
    + apply IH. intros Hy. apply H2. right. exact Hy.
  - auto.
Qed.

Lemma sorted_app : forall l x, StronglySorted lt l -> (forall y, In y l -> y < x) -> StronglySorted lt (l ++ [x]).
Proof.
  induction l as [|y l IH]; cbn; intros x H Hx.
  - repeat constructor.
  - inversion H; subst. constructor.
    + apply IH; auto.
    + apply Forall_app. split; [assumption|]. repeat constructor. apply Hx. left. reflexivity.
Qed.

Lemma sorted_filter : forall p (l : list call), StronglySorted lt (map c_ticket l) ->
  StronglySorted lt (map c_ticket (filter p l)).
Proof.
  induction l as [|x l IH]; cbn; intros H; [constructor|]. inversion H; subst.
  destruct (p x); auto. cbn. constructor; auto.
  rewrite Forall_forall in *. intros y Hy. apply H3.
  apply in_map_iff in Hy. destruct Hy as [c [<- Hc]]. apply in_map. apply filter_In in Hc. tauto.
Qed.

Lemma sorted_unique : forall l c1 c2, StronglySorted lt (map c_ticket l) ->
  In c1 l -> In c2 l -> c_ticket c1 = c_ticket c2 -> c1 = c2.
Proof.
  induction l as [|x l IH]; cbn; intros c1 c2 H H1 H2 E; [contradiction|].
  inversion H; subst. rewrite Forall_forall in H5.
  destruct H1 as [H1|H1], H2 as [H2|H2]; subst; auto.
  - specialize (H5 (c_ticket c2) (in_map _ _ _ H2)). lia.
  - specialize (H5 (c_ticket c1) (in_map _ _ _ H1)). lia.
Qed.

Lemma find_call_Some : forall t l c, find_call t l = Some c -> In c l /\ c_ticket c = t.
Proof.
  intros t l c H. apply find_some in H. destruct H as [H1 H2]. apply Nat.eqb_eq in H2. auto.
Qed.

Lemma find_call_in : forall t l c, StronglySorted lt (map c_ticket l) -> In c l -> c_ticket c = t ->
  find_call t l = Some c.
Proof.
  intros t l c Hs Hi Ht. unfold find_call.
  destruct (find (fun c0 => Nat.eqb (c_ticket c0) t) l) as [c'|] eqn:E.
  - apply find_some in E. destruct E as [E1 E2]. apply Nat.eqb_eq in E2.
    f_equal. eapply sorted_unique; eauto. congruence.
  - apply (find_none _ _ E) in Hi. rewrite Ht, Nat.eqb_refl in Hi. discriminate.
Qed.

Lemma map_ticket_set_phase : forall t p l, map c_ticket (set_phase t p l) = map c_ticket l.
Proof.
  intros t p l. unfold set_phase. rewrite map_map. apply map_ext. intros c.
  destruct (Nat.eqb_spec (c_ticket c) t); cbn; auto.
Qed.

Lemma filter_length_drop : forall p t l c, StronglySorted lt (map c_ticket l) -> In c l -> c_ticket c = t ->
  p c = true -> S (length (filter p (drop_call t l))) = length (filter p l).
Proof.
  induction l as [|x l IH]; cbn; intros c Hs Hi Ht Hp; [contradiction|].
  inversion Hs; subst. rewrite Forall_forall in H2. destruct Hi as [Hi|Hi].
  - subst. rewrite Nat.eqb_refl. cbn. rewrite Hp. cbn. f_equal.
    f_equal. f_equal. apply filter_all.
    intros y Hy. specialize (H2 (c_ticket y) (in_map _ _ _ Hy)).
    destruct (Nat.eqb_spec (c_ticket y) (c_ticket c)); [lia | reflexivity].
  - specialize (H2 (c_ticket c) (in_map _ _ _ Hi)).
    destruct (Nat.eqb_spec (c_ticket x) (c_ticket c)); [lia|]. cbn.
    unfold drop_call in IH. destruct (p x); cbn; erewrite <- IH; eauto.
Qed.

Lemma filter_length_set_phase : forall p q t ph l,
  (forall c, In c l -> c_ticket c = t -> q (mk_call t ph) = p c) ->
  (forall c, In c l -> c_ticket c <> t -> q c = p c) ->
  length (filter q (set_phase t ph l)) = length (filter p l).
Proof.
  induction l as [|x l IH]; cbn; intros H1 H2; [reflexivity|].
  destruct (Nat.eqb_spec (c_ticket x) t).
  - rewrite (H1 x) by auto. unfold set_phase in IH. destruct (p x); cbn; rewrite IH; auto.
  - rewrite (H2 x) by auto. unfold set_phase in IH. destruct (p x); cbn; rewrite IH; auto.
Qed.

(** ** The invariant *)

Record inv (s : lock) : Prop := {
  i_nodup : NoDup (l_deque s);
  i_fresh : forall f, In f (l_deque s) -> f < l_next s;
  i_stat : forall f, In f (l_deque s) -> l_stat s f <> Finished;
  i_cancelled : forall f, In f (l_deque s) -> l_stat s f = Cancelled ->
    In f (firstn (length (l_deque s) - l_size s) (l_deque s));
  i_sorted : StronglySorted lt (map c_ticket (l_calls s));
  i_tickets : forall c, In c (l_calls s) -> c_ticket c < l_next s;
  i_await : forall c f m, In c (l_calls s) -> c_phase c = Waiting f m -> f < l_next s;
  i_pending : forall c f m, In c (l_calls s) -> c_phase c = Waiting f m -> l_stat s f = Pending -> In f (l_deque s);
  i_flag : forall c f, In c (l_calls s) -> c_phase c = Waiting f true -> l_stat s f <> Pending;
  i_queue : map aw (filter (queued (l_deque s)) (l_calls s)) =
    firstn (length (l_deque s) - l_size s) (l_deque s);
  i_count : length (owners s) <= Nat.min (length (l_deque s)) (l_size s);
  i_fifo : forall c1 c2, In c1 (l_calls s) -> In c2 (l_calls s) ->
    queued (l_deque s) c1 = true -> owns s c2 = true -> c_ticket c2 < c_ticket c1
}.

Lemma inv_init : forall size, inv (lock_init size).
Proof.
  intros size. constructor; cbn; try contradiction; try constructor; try lia; try (intros; contradiction).
Qed.

Lemma queued_In : forall dq c, queued dq c = true <-> exists f m, c_phase c = Waiting f m /\ In f dq.
Proof.
  intros dq c. unfold queued. destruct (c_phase c) as [f m|].
  - rewrite existsb_In. split.
    + intros H. exists f, m. auto.
    + intros [f' [m' [E H]]]. inversion E; subst. exact H.
  - split; [discriminate|]. intros [f [m [E _]]]. discriminate.
Qed.

Lemma queued_remove : forall f dq l, NoDup dq ->
  map aw (filter (queued (remove_first f dq)) l) = filter (notb f) (map aw (filter (queued dq) l)).
Proof.
  intros f dq l Hnd. rewrite <- map_filter, filter_filter. f_equal. apply filter_ext. intros c.
  unfold queued, aw. destruct (c_phase c) as [g m|]; [|reflexivity].
  rewrite remove_first_filter by exact Hnd.
  apply eq_true_iff_eq. rewrite existsb_In, filter_In, andb_true_iff, existsb_In. reflexivity.
Qed.

Lemma filter_drop : forall p t l, (forall c, In c l -> c_ticket c = t -> p c = false) ->
  filter p (drop_call t l) = filter p l.
Proof.
  intros p t l H. unfold drop_call. rewrite filter_filter. apply filter_ext_in. intros c Hc.
  destruct (Nat.eqb_spec (c_ticket c) t); cbn; [|reflexivity]. symmetry. auto.
Qed.

Lemma In_drop : forall t l c, In c (drop_call t l) <-> In c l /\ c_ticket c <> t.
Proof.
  intros t l c. unfold drop_call. rewrite filter_In, negb_true_iff, Nat.eqb_neq. reflexivity.
Qed.

(** At most one call waits for a future that is in the deque, and it is among the first [n - size]. *)
Lemma queue_unique : forall s c1 c2, inv s -> In c1 (l_calls s) -> In c2 (l_calls s) ->
  queued (l_deque s) c1 = true -> queued (l_deque s) c2 = true -> aw c1 = aw c2 -> c1 = c2.
Proof.
  intros s c1 c2 I H1 H2 Q1 Q2 E.
  assert (N : NoDup (map aw (filter (queued (l_deque s)) (l_calls s)))).
  { rewrite (i_queue s I). apply NoDup_firstn. apply (i_nodup s I). }
  assert (J1 : In c1 (filter (queued (l_deque s)) (l_calls s))) by (apply filter_In; auto).
  assert (J2 : In c2 (filter (queued (l_deque s)) (l_calls s))) by (apply filter_In; auto).
  revert N J1 J2. generalize (filter (queued (l_deque s)) (l_calls s)). intros l.
  induction l as [|x l IH]; cbn; intros N J1 J2; [contradiction|]. inversion N; subst.
  destruct J1 as [J1|J1], J2 as [J2|J2]; subst; auto.
  - exfalso. apply H3. rewrite E. apply in_map. exact J2.
  - exfalso. apply H3. rewrite <- E. apply in_map. exact J1.
Qed.

Lemma queue_prefix : forall s c, inv s -> In c (l_calls s) -> queued (l_deque s) c = true ->
  In (aw c) (firstn (length (l_deque s) - l_size s) (l_deque s)).
Proof.
  intros s c I H Q. rewrite <- (i_queue s I). apply in_map. apply filter_In. auto.
Qed.

Lemma upd_same : forall st f v, upd st f v f = v.
Proof. intros. unfold upd. rewrite Nat.eqb_refl. reflexivity. Qed.
Lemma upd_other : forall st f v x, x <> f -> upd st f v x = st x.
Proof. intros st f v x H. unfold upd. destruct (Nat.eqb_spec x f); [contradiction | reflexivity]. Qed.

Lemma firstn_app_le : forall (A : Type) k (l : list A) l', k <= length l -> firstn k (l ++ l') = firstn k l.
Proof.
  intros A k l l' H. rewrite firstn_app. replace (k - length l) with 0 by lia. cbn. apply app_nil_r.
Qed.

Lemma firstn_snoc : forall k (l : list nat) d, k < length l -> firstn (S k) l = firstn k l ++ [nth k l d].
Proof.
  induction k as [|k IH]; intros l d H; destruct l as [|x l]; cbn in *; try lia; [reflexivity|].
  f_equal. apply IH. lia.
Qed.

Lemma owns_ext : forall s s' c, (forall f m, c_phase c = Waiting f m -> l_stat s' f = l_stat s f) -> owns s' c = owns s c.
Proof.
  intros s s' c H. unfold owns. destruct (c_phase c) as [f m|]; [|reflexivity].
  destruct m; [reflexivity|]. rewrite (H f false eq_refl). reflexivity.
Qed.

Lemma NoDup_snoc : forall (l : list nat) x, NoDup l -> ~ In x l -> NoDup (l ++ [x]).
Proof.
  induction l as [|y l IH]; cbn; intros x H Hx; [repeat constructor; auto|].
  inversion H; subst. constructor.
  - rewrite in_app_iff. cbn. intros [J|[J|J]]; auto.
  - apply IH; auto.
Qed.

Lemma nth_notin_firstn : forall k (l : list nat) d, NoDup l -> k < length l -> ~ In (nth k l d) (firstn k l).
Proof.
  intros k l d H Hk J.
  assert (N : NoDup (firstn (S k) l)) by (apply NoDup_firstn; exact H).
  rewrite (firstn_snoc k l d Hk) in N. apply NoDup_remove in N. rewrite app_nil_r in N. tauto.
Qed.

Lemma acquire_waiter_pending : forall s, inv s -> l_size s < length (l_deque s ++ [l_next s]) ->
  let dq := l_deque s ++ [l_next s] in
  let w := nth (length dq - 1 - l_size s) dq 0 in
  upd (l_stat s) (l_next s) Pending w = Pending /\ In w dq /\
  firstn (length dq - l_size s) dq = firstn (length (l_deque s) - l_size s) (l_deque s) ++ [w].
Proof.
  intros s I Hlt dq w.
  assert (Hf : ~ In (l_next s) (l_deque s)) by (intros J; apply (i_fresh s I) in J; lia).
  assert (Hdq : NoDup dq) by (apply NoDup_snoc; [apply I | exact Hf]).
  assert (Hl : length dq = S (length (l_deque s))) by (unfold dq; rewrite app_length; cbn; lia).
  assert (Hw : In w dq) by (apply nth_In; lia).
  assert (E : firstn (length dq - l_size s) dq = firstn (length (l_deque s) - l_size s) (l_deque s) ++ [w]).
  { fold dq in Hlt. replace (length dq - l_size s) with (S (length dq - 1 - l_size s)) by lia.
    rewrite firstn_snoc with (d := 0) by lia. fold w. f_equal.
    replace (length dq - 1 - l_size s) with (length (l_deque s) - l_size s) by lia.
    unfold dq. apply firstn_app_le. lia. }
  split; [|split; assumption].
  unfold upd. destruct (Nat.eqb_spec w (l_next s)); [reflexivity|].
  assert (Hd : In w (l_deque s)).
  { unfold dq in Hw. apply in_app_or in Hw. destruct Hw as [Hw|[Hw|[]]]; [exact Hw | congruence]. }
  destruct (l_stat s w) eqn:St; [reflexivity | exfalso; exact (i_stat s I w Hd St) |].
  exfalso. apply (i_cancelled s I w Hd) in St.
  assert (N : NoDup (firstn (length dq - l_size s) dq)) by (apply NoDup_firstn; exact Hdq).
  rewrite E in N. apply NoDup_remove in N. rewrite app_nil_r in N. tauto.
Qed.

Lemma inv_acquire : forall s, inv s -> inv (fst (acquire s)).
Proof.
  intros s I. unfold acquire.
  set (dq := l_deque s ++ [l_next s]).
  assert (Hf : ~ In (l_next s) (l_deque s)) by (intros J; apply (i_fresh s I) in J; lia).
  assert (Hdq : NoDup dq) by (apply NoDup_snoc; [apply I | exact Hf]).
  assert (Hl : length dq = S (length (l_deque s))) by (unfold dq; rewrite app_length; cbn; lia).
  assert (Hst : forall f, In f dq -> upd (l_stat s) (l_next s) Pending f <> Finished).
  { intros f Hi. unfold upd. destruct (Nat.eqb_spec f (l_next s)); [discriminate|].
    apply in_app_or in Hi. destruct Hi as [Hi|[Hi|[]]]; [apply (i_stat s I _ Hi) | congruence]. }
  assert (Hlow : forall c f m, In c (l_calls s) -> c_phase c = Waiting f m ->
     upd (l_stat s) (l_next s) Pending f = l_stat s f).
  { intros c f m Hi Hp. apply upd_other. pose proof (i_await s I c f m Hi Hp). lia. }
  assert (Hq : forall c, In c (l_calls s) -> queued dq c = queued (l_deque s) c).
  { intros c Hi. apply eq_true_iff_eq. rewrite !queued_In. split; intros [f [m [E J]]]; exists f, m; split; auto.
    - unfold dq in J. apply in_app_or in J. destruct J as [J|[J|[]]]; auto. subst f.
      pose proof (i_await s I c _ m Hi E). lia.
    - unfold dq. apply in_or_app. auto. }
  assert (Hcs : forall p, StronglySorted lt (map c_ticket (l_calls s ++ [mk_call (l_next s) p]))).
  { intros p. rewrite map_app. cbn. apply sorted_app; [apply I|].
    intros y Hy. apply in_map_iff in Hy. destruct Hy as [c [<- Hc]]. apply (i_tickets s I c Hc). }
  destruct (Nat.ltb_spec (l_size s) (length dq)) as [Hlt|Hge].
  - destruct (acquire_waiter_pending s I Hlt) as [W1 [W2 W3]]. fold dq in W1, W2, W3.
    set (w := nth (length dq - 1 - l_size s) dq 0) in *. rewrite W1. cbn [fst].
    assert (Hqw : queued dq (mk_call (l_next s) (Waiting w false)) = true).
    { apply queued_In. exists w, false. auto. }
    assert (Hown : forall c, In c (l_calls s) ->
      owns (mk_lock (l_size s) dq (upd (l_stat s) (l_next s) Pending)
           (l_calls s ++ [mk_call (l_next s) (Waiting w false)]) (S (l_next s))) c = owns s c).
    { intros c Hc. apply owns_ext. intros f m E. cbn. eapply Hlow; eauto. }
    assert (Hnew : owns (mk_lock (l_size s) dq (upd (l_stat s) (l_next s) Pending)
           (l_calls s ++ [mk_call (l_next s) (Waiting w false)]) (S (l_next s)))
             (mk_call (l_next s) (Waiting w false)) = false).
    { unfold owns. cbn. rewrite W1. reflexivity. }
    constructor; cbn [l_deque l_stat l_calls l_next l_size].
    + exact Hdq.
    + intros f Hi. apply in_app_or in Hi. destruct Hi as [Hi|[Hi|[]]]; [apply (i_fresh s I) in Hi; lia | lia].
    + exact Hst.
    + intros f Hi Hc. rewrite W3. apply in_or_app. left.
      unfold upd in Hc. destruct (Nat.eqb_spec f (l_next s)); [discriminate|].
      apply in_app_or in Hi. destruct Hi as [Hi|[Hi|[]]]; [|congruence]. apply (i_cancelled s I); assumption.
    + apply Hcs.
    + intros c Hi. apply in_app_or in Hi. destruct Hi as [Hi|[<-|[]]]; [|cbn; lia].
      apply (i_tickets s I) in Hi. lia.
    + intros c f m Hi E. apply in_app_or in Hi. destruct Hi as [Hi|[<-|[]]].
      * pose proof (i_await s I c f m Hi E). lia.
      * cbn in E. inversion E; subst. unfold dq in W2. apply in_app_or in W2.
        destruct W2 as [J|[J|[]]]; [apply (i_fresh s I) in J; lia | lia].
    + intros c f m Hi E St. apply in_app_or in Hi. destruct Hi as [Hi|[<-|[]]].
      * rewrite (Hlow c f m Hi E) in St. apply in_or_app. left. eapply i_pending; eauto.
      * cbn in E. inversion E; subst. exact W2.
    + intros c f Hi E. apply in_app_or in Hi. destruct Hi as [Hi|[<-|[]]].
      * rewrite (Hlow c f true Hi E). eapply i_flag; eauto.
      * cbn in E. discriminate.
    + rewrite filter_app, map_app. cbn [filter]. rewrite Hqw. cbn [map].
      rewrite (filter_ext_in _ _ _ Hq), (i_queue s I), W3. reflexivity.
    + unfold owners. cbn [l_calls]. rewrite filter_app. cbn [filter]. rewrite Hnew, app_nil_r.
      rewrite (filter_ext_in _ _ _ Hown). pose proof (i_count s I). unfold owners in H. lia.
    + intros c1 c2 H1 H2 Q O. apply in_app_or in H1, H2.
      destruct H2 as [H2|[<-|[]]]; [|rewrite Hnew in O; discriminate].
      destruct H1 as [H1|[<-|[]]].
      * rewrite Hown in O by assumption. rewrite Hq in Q by assumption. eapply i_fifo; eauto.
      * cbn. apply (i_tickets s I c2 H2).
  - cbn [fst].
    assert (Hown : forall c, In c (l_calls s) ->
      owns (mk_lock (l_size s) dq (upd (l_stat s) (l_next s) Pending)
           (l_calls s ++ [mk_call (l_next s) Holding]) (S (l_next s))) c = owns s c).
    { intros c Hc. apply owns_ext. intros f m E. cbn. eapply Hlow; eauto. }
    assert (Hz : length (l_deque s) - l_size s = 0) by lia.
    assert (Hno : filter (queued (l_deque s)) (l_calls s) = []).
    { pose proof (i_queue s I) as Q. rewrite Hz in Q. cbn in Q. apply map_eq_nil in Q. exact Q. }
    assert (Hz' : length dq - l_size s = 0) by lia.
    constructor; cbn [l_deque l_stat l_calls l_next l_size].
    + exact Hdq.
    + intros f Hi. apply in_app_or in Hi. destruct Hi as [Hi|[Hi|[]]]; [apply (i_fresh s I) in Hi; lia | lia].
    + exact Hst.
    + intros f Hi Hc. exfalso.
      unfold upd in Hc. destruct (Nat.eqb_spec f (l_next s)); [discriminate|].
      apply in_app_or in Hi. destruct Hi as [Hi|[Hi|[]]]; [|congruence].
      apply (i_cancelled s I) in Hc; [|assumption]. rewrite Hz in Hc. contradiction.
    + apply Hcs.
    + intros c Hi. apply in_app_or in Hi. destruct Hi as [Hi|[<-|[]]]; [|cbn; lia].
      apply (i_tickets s I) in Hi. lia.
    + intros c f m Hi E. apply in_app_or in Hi. destruct Hi as [Hi|[<-|[]]]; [|discriminate].
      pose proof (i_await s I c f m Hi E). lia.
    + intros c f m Hi E St. apply in_app_or in Hi. destruct Hi as [Hi|[<-|[]]]; [|discriminate].
      rewrite (Hlow c f m Hi E) in St. apply in_or_app. left. eapply i_pending; eauto.
    + intros c f Hi E. apply in_app_or in Hi. destruct Hi as [Hi|[<-|[]]]; [|discriminate].
      rewrite (Hlow c f true Hi E). eapply i_flag; eauto.
    + rewrite filter_app, map_app. cbn [filter queued c_phase].
      rewrite (filter_ext_in _ _ _ Hq), Hno, Hz'. reflexivity.
    + unfold owners. cbn [l_calls]. rewrite filter_app. cbn [filter owns c_phase]. rewrite app_length. cbn [length].
      rewrite (filter_ext_in _ _ _ Hown). pose proof (i_count s I). unfold owners in H. lia.
    + intros c1 c2 H1 H2 Q O. apply in_app_or in H1.
      destruct H1 as [H1|[<-|[]]]; [|discriminate].
      rewrite Hq in Q by assumption. exfalso.
      assert (In c1 (filter (queued (l_deque s)) (l_calls s))) as J by (apply filter_In; auto).
      rewrite Hno in J. contradiction.
Qed.

Lemma acquire_count : forall s, inv s -> length (owners s) = Nat.min (length (l_deque s)) (l_size s) ->
  length (owners (fst (acquire s))) = Nat.min (length (l_deque (fst (acquire s)))) (l_size s).
Proof.
  intros s I C. unfold acquire.
  set (dq := l_deque s ++ [l_next s]).
  assert (Hl : length dq = S (length (l_deque s))) by (unfold dq; rewrite app_length; cbn; lia).
  assert (Hlow : forall c f m, In c (l_calls s) -> c_phase c = Waiting f m ->
     upd (l_stat s) (l_next s) Pending f = l_stat s f).
  { intros c f m Hi Hp. apply upd_other. pose proof (i_await s I c f m Hi Hp). lia. }
  destruct (Nat.ltb_spec (l_size s) (length dq)) as [Hlt|Hge].
  - destruct (acquire_waiter_pending s I Hlt) as [W1 _]. fold dq in W1.
    set (w := nth (length dq - 1 - l_size s) dq 0) in *. rewrite W1. cbn [fst l_deque].
    unfold owners in *. cbn [l_calls]. rewrite filter_app. cbn [filter].
    unfold owns at 2. cbn [c_phase l_stat]. rewrite W1, app_nil_r.
    rewrite (filter_ext_in _ (owns s)); [lia|].
    intros c Hc. apply owns_ext. intros f m E. cbn. eapply Hlow; eauto.
  - cbn [fst l_deque]. unfold owners in *. cbn [l_calls]. rewrite filter_app. cbn [filter owns c_phase].
    rewrite app_length. cbn [length].
    rewrite (filter_ext_in _ (owns s)); [lia|].
    intros c Hc. apply owns_ext. intros f m E. cbn. eapply Hlow; eauto.
Qed.

(** Which calls start to own a slot when the oldest future [f] of the deque gets its result. *)
Lemma owns_finish : forall s f dq calls c, inv s -> In c (l_calls s) ->
  owns (mk_lock (l_size s) dq (upd (l_stat s) f Finished) calls (l_next s)) c =
  owns s c || (match c_phase c with Waiting g false => Nat.eqb g f | _ => false end).
Proof.
  intros s f dq calls c I Hc. unfold owns. cbn [l_stat].
  destruct (c_phase c) as [g m|]; [|reflexivity]. destruct m; [reflexivity|].
  unfold upd. destruct (Nat.eqb_spec g f); [rewrite orb_true_r; reflexivity | rewrite orb_false_r; reflexivity].
Qed.

Lemma filter_or_length : forall (A : Type) (p q : A -> bool) l,
  (forall x, In x l -> p x = true -> q x = false) ->
  length (filter (fun x => p x || q x) l) = length (filter p l) + length (filter q l).
Proof.
  induction l as [|x l IH]; cbn; intros H; [reflexivity|].
  destruct (p x) eqn:P; cbn.
  - rewrite (H x (or_introl eq_refl) P). cbn. rewrite IH; auto.
  - destruct (q x); cbn; rewrite IH; auto; lia.
Qed.

Lemma inv_release : forall s t, inv s -> inv (fst (release s t)).
Proof.
  intros s t I. unfold release.
  destruct (find_call t (l_calls s)) as [c|] eqn:F; [|exact I].
  apply find_call_Some in F. destruct F as [Fc Ft].
  destruct c as [t' ph]. cbn in Ft. subst t'. destruct ph as [f m|]; [exact I|].
  destruct (l_deque s) as [|f0 dq] eqn:D; [exact I|]. cbn [fst].
  pose proof (i_nodup s I) as Hnd. rewrite D in Hnd. inversion Hnd as [|? ? Hf0 Hnd']; subst.
  set (calls := drop_call t (l_calls s)).
  assert (Hin : forall c, In c calls -> In c (l_calls s) /\ c_ticket c <> t) by (intros c; apply In_drop).
  assert (Ht : forall c, In c (l_calls s) -> c_ticket c = t -> c = mk_call t Holding).
  { intros c Hc E. eapply sorted_unique; eauto. apply I. }
  assert (Hrm : dq = remove_first f0 (f0 :: dq)) by (cbn; rewrite Nat.eqb_refl; reflexivity).
  assert (Hqq : map aw (filter (queued dq) calls) = firstn (length dq - l_size s) dq).
  { unfold calls. rewrite filter_drop by (intros c Hc E; rewrite (Ht c Hc E); reflexivity).
    rewrite Hrm at 1. rewrite queued_remove by (rewrite <- D; apply I).
    pose proof (i_queue s I) as Q. rewrite D in Q. rewrite Q. cbn [length].
    destruct (S (length dq) - l_size s) as [|k] eqn:K.
    - cbn. replace (length dq - l_size s) with 0 by lia. reflexivity.
    - rewrite firstn_remove; [| constructor; assumption | left; reflexivity].
      rewrite <- Hrm. f_equal. lia. }
  assert (Hqs : forall c, queued dq c = true -> queued (l_deque s) c = true).
  { intros c Q. apply queued_In in Q. destruct Q as [f [m [E J]]]. apply queued_In. exists f, m. rewrite D.
    split; [exact E | right; exact J]. }
  assert (Hcan : forall f, In f dq -> l_stat s f = Cancelled -> In f (firstn (length dq - l_size s) dq)).
  { intros f Hi St. pose proof (i_cancelled s I f) as J. rewrite D in J. specialize (J (or_intror Hi) St).
    cbn [length] in J. destruct (S (length dq) - l_size s) as [|k] eqn:K; [contradiction|].
    cbn [firstn] in J. destruct J as [J|J]; [subst; contradiction|].
    replace (length dq - l_size s) with k by lia. exact J. }
  assert (Hsd : forall c, In c calls -> In c (l_calls s)) by (intros c Hc; apply Hin; exact Hc).
  assert (Hcount0 : S (length (filter (owns s) calls)) <= Nat.min (S (length dq)) (l_size s)).
  { unfold calls. rewrite (filter_length_drop (owns s) t (l_calls s) (mk_call t Holding)); auto; [|apply I].
    pose proof (i_count s I) as C. rewrite D in C. exact C. }
  destruct (is_pending (l_stat s f0)) eqn:P.
  - assert (P' : l_stat s f0 = Pending) by (destruct (l_stat s f0); [reflexivity | discriminate | discriminate]).
    set (newly := fun c => match c_phase c with Waiting g false => Nat.eqb g f0 | _ => false end).
    assert (Hown : forall c, In c calls -> owns
      (mk_lock (l_size s) dq (upd (l_stat s) f0 Finished) calls (l_next s)) c = owns s c || newly c).
    { intros c Hc. apply owns_finish; auto. }
    assert (Hnewq : forall c, In c calls -> newly c = true -> queued (l_deque s) c = true /\ aw c = f0).
    { intros c Hc N. unfold newly in N. destruct (c_phase c) as [g m|] eqn:E; [|discriminate].
      destruct m; [discriminate|]. apply Nat.eqb_eq in N. subst g. split.
      - apply queued_In. exists f0, false. rewrite D. split; [exact E | left; reflexivity].
      - unfold aw. rewrite E. reflexivity. }
    assert (Hnn : length (filter newly calls) <= 1 /\
      (length (filter newly calls) = 1 -> l_size s < S (length dq))).
    { assert (A : forall l, (forall c, In c l -> In c calls) -> NoDup (map c_ticket l) ->
         (forall c, In c l -> newly c = true) -> length l <= 1).
      { intros l Hl Hn Hnew. destruct l as [|c1 [|c2 l]]; cbn; try lia. exfalso.
        assert (E : c1 = c2).
        { destruct (Hnewq c1) as [Q1 A1]; [apply Hl; cbn; auto | apply Hnew; cbn; auto|].
          destruct (Hnewq c2) as [Q2 A2]; [apply Hl; cbn; auto | apply Hnew; cbn; auto|].
          eapply queue_unique; eauto; [apply Hsd, Hl; cbn; auto | apply Hsd, Hl; cbn; auto | congruence]. }
        subst. inversion Hn; subst. apply H1. left. reflexivity. }
      split.
      - apply A.
        + intros c Hc. apply filter_In in Hc. tauto.
        + assert (S : StronglySorted lt (map c_ticket (filter newly calls))).
          { apply sorted_filter. unfold calls, drop_call. apply sorted_filter. apply I. }
          clear -S. induction S; constructor; auto. rewrite Forall_forall in H. intros J. specialize (H _ J). lia.
        + intros c Hc. apply filter_In in Hc. tauto.
      - intros L. destruct (filter newly calls) as [|c l] eqn:E; [discriminate|].
        assert (J : In c (filter newly calls)) by (rewrite E; left; reflexivity).
        apply filter_In in J. destruct J as [J1 J2]. destruct (Hnewq c J1 J2) as [Q A1].
        pose proof (queue_prefix s c I (Hsd c J1) Q) as Pf. rewrite D in Pf. cbn [length] in Pf.
        destruct (S (length dq) - l_size s) as [|k] eqn:K; [contradiction | lia]. }
    constructor; cbn [l_deque l_stat l_calls l_next l_size].
    + exact Hnd'.
    + intros f Hi. apply (i_fresh s I). rewrite D. right. exact Hi.
    + intros f Hi. rewrite upd_other by (intros ->; contradiction). apply (i_stat s I). rewrite D. right. exact Hi.
    + intros f Hi. rewrite upd_other by (intros ->; contradiction). apply Hcan. exact Hi.
    + unfold calls, drop_call. apply sorted_filter. apply I.
    + intros c Hc. apply (i_tickets s I). auto.
    + intros c f m Hc. apply (i_await s I c f m). auto.
    + intros c f m Hc E St. unfold upd in St. destruct (Nat.eqb_spec f f0); [discriminate|].
      pose proof (i_pending s I c f m (Hsd c Hc) E St) as J. rewrite D in J. destruct J; [congruence | assumption].
    + intros c f Hc E. unfold upd. destruct (Nat.eqb_spec f f0); [discriminate|]. exact (i_flag s I c f (Hsd c Hc) E).
    + exact Hqq.
    + unfold owners. cbn [l_calls]. rewrite (filter_ext_in _ _ _ Hown).
      rewrite filter_or_length; [lia|].
      intros c Hc O. destruct (newly c) eqn:N; [|reflexivity]. exfalso.
      unfold newly in N. unfold owns in O. destruct (c_phase c) as [g m|]; [|discriminate].
      destruct m; [discriminate|]. apply Nat.eqb_eq in N. subst g. rewrite P' in O. discriminate.
    + intros c1 c2 H1 H2 Q O. rewrite Hown in O by assumption. apply orb_true_iff in O. destruct O as [O|N].
      * eapply i_fifo; eauto.
      * destruct (Hnewq c2 H2 N) as [Q2 A2].
        assert (Sr : StronglySorted lt (map c_ticket (filter (queued (l_deque s)) (l_calls s)))).
        { apply sorted_filter. apply I. }
        pose proof (i_queue s I) as Qu. rewrite D in Qu at 2 3.
        assert (J1 : In c1 (filter (queued (l_deque s)) (l_calls s))) by (apply filter_In; auto).
        assert (J2 : In c2 (filter (queued (l_deque s)) (l_calls s))) by (apply filter_In; auto).
        pose proof (i_nodup s I) as Nd. rewrite D in Nd.
        assert (Ne : aw c1 <> f0).
        { apply queued_In in Q. destruct Q as [f [m [E J]]]. unfold aw. rewrite E. intros ->. contradiction. }
        cbn [length] in Qu. destruct (S (length dq) - l_size s) as [|k]; cbn [firstn] in Qu.
        { apply map_eq_nil in Qu. rewrite Qu in J1. contradiction. }
        destruct (filter (queued (l_deque s)) (l_calls s)) as [|c l] eqn:E; [contradiction|].
        cbn [map] in Qu. inversion Qu as [[Q0 Q1]].
        assert (c2 = c).
        { eapply queue_unique; eauto.
          - assert (J : In c (filter (queued (l_deque s)) (l_calls s))) by (rewrite E; left; reflexivity).
            apply filter_In in J. tauto.
          - assert (J : In c (filter (queued (l_deque s)) (l_calls s))) by (rewrite E; left; reflexivity).
            apply filter_In in J. tauto.
          - congruence. }
        subst c2. destruct J1 as [J1|J1]; [congruence|].
        cbn in Sr. inversion Sr; subst. rewrite Forall_forall in H4. apply H4. apply in_map. exact J1.
  - assert (Hown : forall c, owns (mk_lock (l_size s) dq (l_stat s) calls (l_next s)) c = owns s c) by reflexivity.
    constructor; cbn [l_deque l_stat l_calls l_next l_size].
    + exact Hnd'.
    + intros f Hi. apply (i_fresh s I). rewrite D. right. exact Hi.
    + intros f Hi. apply (i_stat s I). rewrite D. right. exact Hi.
    + exact Hcan.
    + unfold calls, drop_call. apply sorted_filter. apply I.
    + intros c Hc. apply (i_tickets s I). auto.
    + intros c f m Hc. apply (i_await s I c f m). auto.
    + intros c f m Hc E St.
      pose proof (i_pending s I c f m (Hsd c Hc) E St) as J. rewrite D in J. destruct J as [J|J]; [|exact J].
      subst. rewrite St in P. discriminate.
    + intros c f Hc E. exact (i_flag s I c f (Hsd c Hc) E).
    + exact Hqq.
    + unfold owners. cbn [l_calls]. rewrite (filter_ext _ _ Hown). lia.
    + intros c1 c2 H1 H2 Q O. rewrite Hown in O. eapply i_fifo; eauto.
Qed.

Lemma inv_cancel : forall s t, inv s -> inv (fst (cancel s t)).
Proof.
  intros s t I. unfold cancel.
  destruct (find_call t (l_calls s)) as [c|] eqn:F; [|exact I].
  apply find_call_Some in F. destruct F as [Fc Ft].
  destruct c as [t' ph]. cbn in Ft. subst t'. destruct ph as [f m|]; [|exact I].
  destruct (is_pending (l_stat s f)) eqn:P; cbn [fst].
  - assert (P' : l_stat s f = Pending) by (destruct (l_stat s f); [reflexivity | discriminate | discriminate]).
    assert (Fd : In f (l_deque s)) by (eapply i_pending; [exact I | exact Fc | reflexivity | exact P']).
    assert (Fq : In f (firstn (length (l_deque s) - l_size s) (l_deque s))).
    { apply (queue_prefix s (mk_call t (Waiting f m)) I Fc). apply queued_In. exists f, m. auto. }
    assert (Hown : forall c, owns
      (mk_lock (l_size s) (l_deque s) (upd (l_stat s) f Cancelled) (l_calls s) (l_next s)) c = owns s c).
    { intros c. unfold owns. cbn [l_stat]. destruct (c_phase c) as [g n|]; [|reflexivity]. destruct n; [reflexivity|].
      unfold upd. destruct (Nat.eqb_spec g f); [subst; rewrite P'; reflexivity | reflexivity]. }
    constructor; cbn [l_deque l_stat l_calls l_next l_size].
    + apply I.
    + apply I.
    + intros g Hg. unfold upd. destruct (Nat.eqb_spec g f); [discriminate | apply I; exact Hg].
    + intros g Hg. unfold upd. destruct (Nat.eqb_spec g f); [subst; intros _; exact Fq | apply I; exact Hg].
    + apply I.
    + apply I.
    + apply I.
    + intros c g n Hc E. unfold upd. destruct (Nat.eqb_spec g f); [discriminate|]. eapply i_pending; eauto.
    + intros c g Hc E. unfold upd. destruct (Nat.eqb_spec g f); [discriminate|]. eapply i_flag; eauto.
    + apply I.
    + unfold owners. cbn [l_calls]. rewrite (filter_ext _ _ Hown). apply I.
    + intros c1 c2 H1 H2 Q O. rewrite Hown in O. eapply i_fifo; eauto.
  - assert (Ht : forall c, In c (l_calls s) -> c_ticket c = t -> c = mk_call t (Waiting f m)).
    { intros c Hc E. eapply sorted_unique; eauto. apply I. }
    set (calls := set_phase t (Waiting f true) (l_calls s)).
    assert (Hin : forall c, In c calls -> exists c', In c' (l_calls s) /\ c_ticket c' = c_ticket c /\
       (forall dq, queued dq c = queued dq c') /\
       (forall g n, c_phase c = Waiting g n -> exists n', c_phase c' = Waiting g n') /\
       (c = c' \/ (c_phase c = Waiting f true))).
    { intros c Hc. unfold calls, set_phase in Hc. apply in_map_iff in Hc. destruct Hc as [c' [E Hc]].
      exists c'. split; [exact Hc|]. destruct (Nat.eqb_spec (c_ticket c') t).
      - rewrite (Ht c' Hc e) in *. subst c. cbn. repeat split; auto.
        intros g n E. inversion E; subst. eauto.
      - subst c'. repeat split; eauto. }
    assert (Np : l_stat s f <> Pending) by (intros E; rewrite E in P; discriminate).
    constructor; cbn [l_deque l_stat l_calls l_next l_size].
    + apply I.
    + apply I.
    + apply I.
    + apply I.
    + unfold calls. rewrite map_ticket_set_phase. apply I.
    + intros c Hc. destruct (Hin c Hc) as [c' [H1 [H2 _]]]. rewrite <- H2. apply (i_tickets s I). exact H1.
    + intros c g n Hc E. destruct (Hin c Hc) as [c' [H1 [_ [_ [H2 _]]]]].
      destruct (H2 g n E) as [n' E']. eapply i_await; eauto.
    + intros c g n Hc E. destruct (Hin c Hc) as [c' [H1 [_ [_ [H2 _]]]]].
      destruct (H2 g n E) as [n' E']. eapply i_pending; eauto.
    + intros c g Hc E. destruct (Hin c Hc) as [c' [H1 [_ [_ [H2 H3]]]]].
      destruct H3 as [H3|H3]; [subst; eapply i_flag; eauto|]. rewrite H3 in E. inversion E; subst. exact Np.
    + rewrite <- (i_queue s I). unfold calls. clear Hin calls.
      assert (G : forall l, (forall c, In c l -> In c (l_calls s)) ->
        map aw (filter (queued (l_deque s)) (set_phase t (Waiting f true) l)) =
        map aw (filter (queued (l_deque s)) l)).
      { induction l as [|x l IH]; intros Hl; [reflexivity|]. cbn [set_phase map filter].
        assert (E : forall y, queued (l_deque s) (mk_call y (Waiting f true)) = existsb (Nat.eqb f) (l_deque s))
          by reflexivity.
        specialize (IH (fun c Hc => Hl c (or_intror Hc))). unfold set_phase in IH.
        destruct (Nat.eqb_spec (c_ticket x) t).
        - rewrite (Ht x (Hl x (or_introl eq_refl)) e).
          change (queued (l_deque s) (mk_call t (Waiting f true))) with (existsb (Nat.eqb f) (l_deque s)).
          change (queued (l_deque s) (mk_call t (Waiting f m))) with (existsb (Nat.eqb f) (l_deque s)).
          destruct (existsb (Nat.eqb f) (l_deque s)); cbn [map]; rewrite IH; reflexivity.
        - destruct (queued (l_deque s) x); cbn [map]; rewrite IH; reflexivity. }
      apply G. auto.
    + eapply Nat.le_trans; [|apply (i_count s I)]. unfold owners. cbn [l_calls]. unfold calls.
      assert (G : forall l, length (filter (owns s) (set_phase t (Waiting f true) l)) <= length (filter (owns s) l)).
      { induction l as [|x l IH]; [cbn; lia|]. unfold set_phase in *. cbn [map filter].
        destruct (Nat.eqb_spec (c_ticket x) t).
        - change (owns s (mk_call t (Waiting f true))) with false. destruct (owns s x); cbn [length]; lia.
        - destruct (owns s x); cbn [length]; lia. }
      apply G.
    + intros c1 c2 H1 H2 Q O. destruct (Hin c1 H1) as [d1 [D1 [T1 [Q1 _]]]].
      destruct (Hin c2 H2) as [d2 [D2 [T2 [_ [_ X2]]]]]. rewrite <- T1, <- T2.
      destruct X2 as [X2|X2].
      * subst d2. apply (i_fifo s I); auto. rewrite <- Q1. exact Q.
      * unfold owns in O. rewrite X2 in O. discriminate.
Qed.

Lemma owns_drop_le : forall p t l, length (filter p (drop_call t l)) <= length (filter p l).
Proof.
  unfold drop_call. induction l as [|x l IH]; cbn; [lia|].
  destruct (negb (Nat.eqb (c_ticket x) t)); cbn; destruct (p x); cbn; lia.
Qed.

(** The failing path of [resume]. *)
Lemma inv_fail : forall s t f m, inv s -> In (mk_call t (Waiting f m)) (l_calls s) -> l_stat s f <> Pending ->
  inv (mk_lock (l_size s) (remove_first f (l_deque s)) (l_stat s) (drop_call t (l_calls s)) (l_next s)).
Proof.
  intros s t f m I Fc Np.
  assert (Ht : forall c, In c (l_calls s) -> c_ticket c = t -> c = mk_call t (Waiting f m)).
  { intros c Hc E. eapply sorted_unique; eauto. apply I. }
  assert (Hsd : forall c, In c (drop_call t (l_calls s)) -> In c (l_calls s)) by (intros c Hc; apply In_drop in Hc; tauto).
  assert (Hrm : forall g, In g (remove_first f (l_deque s)) -> In g (l_deque s) /\ g <> f).
  { intros g Hg. rewrite remove_first_filter in Hg by apply I. apply filter_In in Hg. destruct Hg as [H1 H2].
    unfold notb in H2. rewrite negb_true_iff, Nat.eqb_neq in H2. auto. }
  assert (Hqs : forall c, queued (remove_first f (l_deque s)) c = true -> queued (l_deque s) c = true).
  { intros c Q. apply queued_In in Q. destruct Q as [g [n [E J]]]. apply queued_In. exists g, n.
    split; [exact E | apply Hrm; exact J]. }
  assert (Hqt : forall c, In c (l_calls s) -> c_ticket c = t -> queued (remove_first f (l_deque s)) c = false).
  { intros c Hc E. rewrite (Ht c Hc E). destruct (queued _ _) eqn:Q; [|reflexivity]. exfalso.
    apply queued_In in Q. destruct Q as [g [n [E' J]]]. cbn in E'. inversion E'; subst. apply Hrm in J. tauto. }
  assert (Own : length (filter (owns s) (drop_call t (l_calls s))) <= length (owners s)) by apply owns_drop_le.
  assert (Hq : map aw (filter (queued (remove_first f (l_deque s))) (drop_call t (l_calls s))) =
     firstn (length (remove_first f (l_deque s)) - l_size s) (remove_first f (l_deque s)) /\
     length (owners s) <= Nat.min (length (remove_first f (l_deque s))) (l_size s) /\
     (forall g, In g (remove_first f (l_deque s)) -> l_stat s g = Cancelled ->
       In g (firstn (length (remove_first f (l_deque s)) - l_size s) (remove_first f (l_deque s))))).
  { rewrite filter_drop by exact Hqt. rewrite queued_remove by apply I. rewrite (i_queue s I).
    destruct (in_dec Nat.eq_dec f (l_deque s)) as [J|J].
    - assert (P : In f (firstn (length (l_deque s) - l_size s) (l_deque s))).
      { apply (queue_prefix s (mk_call t (Waiting f m)) I Fc). apply queued_In. exists f, m. auto. }
      pose proof (remove_first_length f (l_deque s) J) as L.
      assert (L' : l_size s < length (l_deque s)).
      { destruct (length (l_deque s) - l_size s) eqn:K; [contradiction | lia]. }
      rewrite firstn_remove by (auto; apply I).
      replace (length (l_deque s) - l_size s - 1) with (length (remove_first f (l_deque s)) - l_size s) by lia.
      split; [reflexivity|]. split; [pose proof (i_count s I); lia|].
      intros g Hg St. destruct (Hrm g Hg) as [G1 G2]. pose proof (i_cancelled s I g G1 St) as G3.
      replace (length (remove_first f (l_deque s)) - l_size s) with (length (l_deque s) - l_size s - 1) by lia.
      rewrite <- firstn_remove by (auto; apply I). apply filter_In. split; [exact G3|].
      unfold notb. rewrite negb_true_iff, Nat.eqb_neq. exact G2.
    - rewrite remove_first_notin by exact J. split.
      + apply filter_all. intros x Hx. apply In_firstn in Hx. unfold notb.
        destruct (Nat.eqb_spec x f); [subst; contradiction | reflexivity].
      + split; [apply I|]. intros g Hg St. apply I; assumption. }
  destruct Hq as [Hq [Hc Hcan]].
  constructor; cbn [l_deque l_stat l_calls l_next l_size].
  - rewrite remove_first_filter by apply I. apply NoDup_filter. apply I.
  - intros g Hg. apply I. apply Hrm. exact Hg.
  - intros g Hg. apply I. apply Hrm. exact Hg.
  - exact Hcan.
  - unfold drop_call. apply sorted_filter. apply I.
  - intros c Hc'. apply (i_tickets s I). auto.
  - intros c g n Hc'. apply (i_await s I c g n). auto.
  - intros c g n Hc' E St. rewrite remove_first_filter by apply I. apply filter_In. split.
    + exact (i_pending s I c g n (Hsd c Hc') E St).
    + unfold notb. destruct (Nat.eqb_spec g f); [subst; contradiction | reflexivity].
  - intros c g Hc' E. exact (i_flag s I c g (Hsd c Hc') E).
  - exact Hq.
  - unfold owners. cbn [l_calls]. change (length (filter (owns s) (drop_call t (l_calls s))) <=
      Nat.min (length (remove_first f (l_deque s))) (l_size s)). lia.
  - intros c1 c2 H1 H2 Q O. apply (i_fifo s I); auto.
Qed.

(** The succeeding path of [resume]. *)
Lemma inv_succeed : forall s t f, inv s -> In (mk_call t (Waiting f false)) (l_calls s) -> l_stat s f = Finished ->
  inv (mk_lock (l_size s) (l_deque s) (l_stat s) (set_phase t Holding (l_calls s)) (l_next s)) /\
  length (filter (owns s) (set_phase t Holding (l_calls s))) = length (owners s).
Proof.
  intros s t f I Fc St.
  assert (Ht : forall c, In c (l_calls s) -> c_ticket c = t -> c = mk_call t (Waiting f false)).
  { intros c Hc E. eapply sorted_unique; eauto. apply I. }
  set (calls := set_phase t Holding (l_calls s)).
  assert (Hin : forall c, In c calls -> (In c (l_calls s) /\ c_ticket c <> t) \/ c = mk_call t Holding).
  { intros c Hc. unfold calls, set_phase in Hc. apply in_map_iff in Hc. destruct Hc as [c' [E Hc]].
    destruct (Nat.eqb_spec (c_ticket c') t); subst; auto. }
  assert (Hlen : length (filter (owns s) calls) = length (owners s)).
  { unfold calls, owners. apply filter_length_set_phase.
    - intros c Hc E. rewrite (Ht c Hc E). unfold owns. cbn. rewrite St. reflexivity.
    - reflexivity. }
  split; [|exact Hlen].
  assert (Nf : ~ In f (l_deque s)) by (intros J; exact (i_stat s I f J St)).
  constructor; cbn [l_deque l_stat l_calls l_next l_size].
  - apply I.
  - apply I.
  - apply I.
  - apply I.
  - unfold calls. rewrite map_ticket_set_phase. apply I.
  - intros c Hc. destruct (Hin c Hc) as [[H _]| ->]; [apply (i_tickets s I); exact H | apply (i_tickets s I _ Fc)].
  - intros c g n Hc E. destruct (Hin c Hc) as [[H _]| ->]; [eapply i_await; eauto | discriminate].
  - intros c g n Hc E. destruct (Hin c Hc) as [[H _]| ->]; [eapply i_pending; eauto | discriminate].
  - intros c g Hc E. destruct (Hin c Hc) as [[H _]| ->]; [eapply i_flag; eauto | discriminate].
  - rewrite <- (i_queue s I). unfold calls. f_equal.
    assert (G : forall l, (forall c, In c l -> In c (l_calls s)) ->
      filter (queued (l_deque s)) (set_phase t Holding l) = filter (queued (l_deque s)) l).
    { induction l as [|x l IH]; intros Hl; [reflexivity|]. cbn [set_phase map filter].
      specialize (IH (fun c Hc => Hl c (or_intror Hc))). unfold set_phase in IH.
      destruct (Nat.eqb_spec (c_ticket x) t).
      - rewrite (Ht x (Hl x (or_introl eq_refl)) e). 
        change (queued (l_deque s) (mk_call t Holding)) with false.
        change (queued (l_deque s) (mk_call t (Waiting f false))) with (existsb (Nat.eqb f) (l_deque s)).
        destruct (existsb (Nat.eqb f) (l_deque s)) eqn:X; [apply existsb_In in X; contradiction|]. exact IH.
      - destruct (queued (l_deque s) x); rewrite IH; reflexivity. }
    apply G. auto.
  - unfold owners. cbn [l_calls]. change (length (filter (owns s) calls) <= Nat.min (length (l_deque s)) (l_size s)).
    rewrite Hlen. apply I.
  - intros c1 c2 H1 H2 Q O. destruct (Hin c1 H1) as [[D1 _]| ->]; [|discriminate].
    destruct (Hin c2 H2) as [[D2 _]| ->].
    + apply (i_fifo s I); auto.
    + cbn. apply (i_fifo s I c1 (mk_call t (Waiting f false))); auto.
      unfold owns. cbn. rewrite St. reflexivity.
Qed.

Lemma inv_resume : forall s t, inv s -> inv (fst (resume s t)).
Proof.
  intros s t I. unfold resume.
  destruct (find_call t (l_calls s)) as [c|] eqn:F; [|exact I].
  apply find_call_Some in F. destruct F as [Fc Ft].
  destruct c as [t' ph]. cbn in Ft. subst t'. destruct ph as [f m|]; [|exact I].
  destruct (l_stat s f) eqn:St; [exact I | |].
  - destruct m; cbn [fst].
    + eapply inv_fail; eauto. congruence.
    + eapply inv_succeed; eauto.
  - cbn [fst]. eapply inv_fail; eauto. congruence.
Qed.

Lemma inv_step : forall s o, inv s -> inv (fst (step s o)).
Proof.
  intros s [|t|t|t] I; cbn [step];
    [apply inv_acquire | apply inv_release | apply inv_cancel | apply inv_resume]; exact I.
Qed.

Lemma inv_run : forall ops s, inv s -> inv (run s ops).
Proof.
  induction ops as [|o ops IH]; cbn; intros s I; [exact I|]. apply IH. apply inv_step. exact I.
Qed.

Lemma step_size : forall s o, l_size (fst (step s o)) = l_size s.
Proof.
  intros s [|t|t|t]; cbn [step].
  - unfold acquire. destruct (l_size s <? _); [|reflexivity].
    destruct (upd _ _ _ _); reflexivity.
  - unfold release. destruct (find_call _ _) as [[? []]|]; try reflexivity. destruct (l_deque s); reflexivity.
  - unfold cancel. destruct (find_call _ _) as [[? []]|]; try reflexivity. destruct (is_pending _); reflexivity.
  - unfold resume. destruct (find_call _ _) as [[? []]|]; try reflexivity.
    destruct (l_stat s f), must_cancel; reflexivity.
Qed.

Lemma run_size : forall ops s, l_size (run s ops) = l_size s.
Proof.
  induction ops as [|o ops IH]; cbn; intros s; [reflexivity|]. rewrite IH. apply step_size.
Qed.

(** ** C10, C11 *)

Lemma holders_le_owners : forall s, length (holders s) <= length (owners s).
Proof.
  intros s. unfold holders, owners. induction (l_calls s) as [|c l IH]; cbn; [lia|].
  unfold owns at 1. destruct (c_phase c) as [f m|]; cbn.
  - destruct m; cbn; [exact IH|]. destruct (l_stat s f); cbn; lia.
  - lia.
Qed.

Lemma mutual_exclusion : forall size ops,
  let s := run (lock_init size) ops in
  length (owners s) <= size /\ length (holders s) <= size.
Proof.
  intros size ops s.
  assert (I : inv s) by (apply inv_run, inv_init).
  pose proof (i_count s I) as C. pose proof (holders_le_owners s).
  assert (E : l_size s = size) by (unfold s; rewrite run_size; reflexivity). lia.
Qed.

Lemma no_overtaking : forall size ops c1 c2,
  let s := run (lock_init size) ops in
  In c1 (l_calls s) -> In c2 (l_calls s) -> blocked s c1 = true -> owns s c2 = true ->
  c_ticket c2 < c_ticket c1.
Proof.
  intros size ops c1 c2 s H1 H2 B O.
  assert (I : inv s) by (apply inv_run, inv_init).
  apply (i_fifo s I); auto. unfold blocked in B. destruct (c_phase c1) as [f m|] eqn:E; [|discriminate].
  apply queued_In. exists f, m. split; [exact E|]. apply (i_pending s I c1 f m H1 E).
  destruct (l_stat s f); [reflexivity | discriminate | discriminate].
Qed.

(** Calls get tickets in the order in which [acquire] is called. *)
Lemma release_never_fails : forall size ops t,
  snd (release (run (lock_init size) ops) t) <> EvIndexError.
Proof.
  intros size ops t. set (s := run (lock_init size) ops).
  assert (I : inv s) by (apply inv_run, inv_init).
  unfold release. destruct (find_call t (l_calls s)) as [c|] eqn:F; [|discriminate].
  apply find_call_Some in F. destruct F as [Fc _]. destruct c as [t' [f m|]]; [discriminate|].
  destruct (l_deque s) eqn:D; [|discriminate]. exfalso.
  pose proof (i_count s I) as C. rewrite D in C. cbn in C.
  assert (J : In (mk_call t' Holding) (owners s)) by (apply filter_In; auto).
  destruct (owners s); [contradiction | cbn in C; lia].
Qed.

(** ** C12 *)

(** A state in which the lock is lost: the deque is full but nobody owns a slot. *)
Definition lost (s : lock) : Prop := inv s /\ owners s = [] /\ l_size s <= length (l_deque s).

Lemma lost_no_hold : forall s c, owners s = [] -> In c (l_calls s) -> owns s c = false.
Proof.
  intros s c E H. destruct (owns s c) eqn:O; [|reflexivity].
  assert (J : In c (owners s)) by (apply filter_In; auto). rewrite E in J. contradiction.
Qed.

Lemma lost_step : forall s o, lost s -> lost (fst (step s o)) /\ forall t, snd (step s o) <> EvAcquired t.
Proof.
  intros s o [I [E L]].
  pose proof (inv_step s o I) as I'.
  assert (G : owners (fst (step s o)) = [] /\ l_size s <= length (l_deque (fst (step s o))) /\
    forall t, snd (step s o) <> EvAcquired t).
  { destruct o as [|t|t|t]; cbn [step].
    - unfold acquire. set (dq := l_deque s ++ [l_next s]).
      assert (Hl : length dq = S (length (l_deque s))) by (unfold dq; rewrite app_length; cbn; lia).
      destruct (Nat.ltb_spec (l_size s) (length dq)) as [Hlt|]; [|lia].
      destruct (acquire_waiter_pending s I Hlt) as [W1 _]. fold dq in W1.
      set (w := nth (length dq - 1 - l_size s) dq 0) in *. rewrite W1. cbn [fst snd l_deque].
      split; [|split; [lia | discriminate]].
      unfold owners in *. cbn [l_calls]. rewrite filter_app. cbn [filter]. unfold owns at 2. cbn [c_phase l_stat].
      rewrite W1, app_nil_r. rewrite <- E. apply filter_ext_in. intros c Hc. apply owns_ext. intros f m Ep. cbn.
      apply upd_other. pose proof (i_await s I c f m Hc Ep). lia.
    - unfold release. destruct (find_call t (l_calls s)) as [c|] eqn:F; [|split; [exact E | split; [exact L | discriminate]]].
      apply find_call_Some in F. destruct F as [Fc _]. pose proof (lost_no_hold s c E Fc) as O.
      destruct c as [t' [f m|]]; [|discriminate]. cbn. split; [exact E | split; [exact L | discriminate]].
    - unfold cancel. destruct (find_call t (l_calls s)) as [c|] eqn:F;
        [|cbn; split; [exact E | split; [exact L | discriminate]]].
      apply find_call_Some in F. destruct F as [Fc Ft].
      destruct c as [t' [f m|]]; [|cbn; split; [exact E | split; [exact L | discriminate]]].
      cbn in Ft. subst t'.
      destruct (is_pending (l_stat s f)) eqn:P; cbn [fst snd l_deque].
      + split; [|split; [exact L | discriminate]]. rewrite <- E. unfold owners. cbn [l_calls]. apply filter_ext_in.
        intros c Hc. unfold owns. cbn [l_stat]. destruct (c_phase c) as [g n|]; [|reflexivity].
        destruct n; [reflexivity|]. unfold upd. destruct (Nat.eqb_spec g f); [|reflexivity].
        subst. destruct (l_stat s f); [reflexivity | discriminate | discriminate].
      + split; [|split; [exact L | discriminate]].
        unfold owners. cbn [l_calls].
        assert (Gl : forall l, (forall c, In c l -> In c (l_calls s)) ->
          filter (owns s) (set_phase t (Waiting f true) l) = []).
        { induction l as [|x l IH]; intros Hl; [reflexivity|]. unfold set_phase in *. cbn [map filter].
          specialize (IH (fun c Hc => Hl c (or_intror Hc))).
          destruct (Nat.eqb_spec (c_ticket x) t).
          - change (owns s (mk_call t (Waiting f true))) with false. exact IH.
          - rewrite (lost_no_hold s x E (Hl x (or_introl eq_refl))). exact IH. }
        apply Gl. auto.
    - unfold resume. destruct (find_call t (l_calls s)) as [c|] eqn:F;
        [|cbn; split; [exact E | split; [exact L | discriminate]]].
      apply find_call_Some in F. destruct F as [Fc Ft].
      destruct c as [t' [f m|]]; [|cbn; split; [exact E | split; [exact L | discriminate]]].
      cbn in Ft. subst t'. pose proof (lost_no_hold s _ E Fc) as O. unfold owns in O. cbn in O.
      assert (K : owners (mk_lock (l_size s) (remove_first f (l_deque s)) (l_stat s) (drop_call t (l_calls s)) (l_next s))
         = [] /\ l_size s <= length (remove_first f (l_deque s))).
      { split.
        - unfold owners. cbn [l_calls]. pose proof (owns_drop_le (owns s) t (l_calls s)) as Q.
          unfold owners in E. rewrite E in Q. cbn in Q.
          change (filter (owns s) (drop_call t (l_calls s)) = []).
          destruct (filter (owns s) (drop_call t (l_calls s))); [reflexivity | cbn in Q; lia].
        - destruct (in_dec Nat.eq_dec f (l_deque s)) as [J|J].
          + pose proof (remove_first_length f _ J).
            assert (P : In f (firstn (length (l_deque s) - l_size s) (l_deque s))).
            { apply (queue_prefix s (mk_call t (Waiting f m)) I Fc). apply queued_In. exists f, m. auto. }
            destruct (length (l_deque s) - l_size s) eqn:Kk; [contradiction | lia].
          + rewrite remove_first_notin by exact J. exact L. }
      destruct (l_stat s f) eqn:St.
      + cbn. split; [exact E | split; [exact L | discriminate]].
      + destruct m; [|discriminate]. cbn. split; [apply K | split; [apply K | discriminate]].
      + cbn. split; [apply K | split; [apply K | discriminate]]. }
  destruct G as [G1 [G2 G3]]. split; [|exact G3].
  split; [exact I'|]. split; [exact G1|]. rewrite step_size. exact G2.
Qed.

Lemma lost_forever : forall ops s t, lost s -> ~ In (EvAcquired t) (events s ops).
Proof.
  induction ops as [|o ops IH]; cbn; intros s t H; [tauto|].
  destruct (lost_step s o H) as [H1 H2]. intros [J|J]; [exact (H2 t J) | exact (IH _ t H1 J)].
Qed.

(** A lock of size one, held by call 0, awaited by call 1: call 0 releases, the woken task is cancelled before it
    runs. *)
Definition leak_history : list op := [OpAcquire; OpAcquire; OpRelease 0; OpCancel 1; OpResume 1].
(** The same with the cancellation right before the release. *)
Definition leak_history' : list op := [OpAcquire; OpAcquire; OpCancel 1; OpRelease 0; OpResume 1].

Lemma leak_lost : forall h, h = leak_history \/ h = leak_history' ->
  l_calls (run (lock_init 1) h) = [] /\ lost (run (lock_init 1) h).
Proof.
  intros h [-> | ->]; (split; [reflexivity|]; split; [apply inv_run, inv_init|]; split; [reflexivity|]; cbn; lia).
Qed.

Lemma lock_leak : forall h, h = leak_history \/ h = leak_history' ->
  l_calls (run (lock_init 1) h) = [] /\
  forall ops t, ~ In (EvAcquired t) (events (run (lock_init 1) h) ops).
Proof.
  intros h H. destruct (leak_lost h H) as [H1 H2]. split; [exact H1|].
  intros ops t. apply lost_forever. exact H2.
Qed.

(** Quiet states: no cancellation is in flight. *)
Definition quiet (s : lock) : Prop :=
  inv s /\ length (owners s) = Nat.min (length (l_deque s)) (l_size s) /\
  (forall f, In f (l_deque s) -> l_stat s f = Pending) /\
  (forall c, In c (l_calls s) -> blocked s c = true \/ owns s c = true).

Lemma quiet_init : forall size, quiet (lock_init size).
Proof.
  intros size. split; [apply inv_init|]. split; [reflexivity|]. split; cbn; contradiction.
Qed.

Lemma quiet_acquire : forall s, quiet s -> quiet (fst (acquire s)).
Proof.
  intros s [I [C [P B]]]. split; [apply inv_acquire; exact I|].
  split; [rewrite acquire_count by assumption; pose proof (step_size s OpAcquire) as E; cbn [step] in E;
          rewrite E; reflexivity|].
  unfold acquire. set (dq := l_deque s ++ [l_next s]).
  assert (Hp : forall f, In f dq -> upd (l_stat s) (l_next s) Pending f = Pending).
  { intros f Hf. unfold upd. destruct (Nat.eqb_spec f (l_next s)); [reflexivity|]. apply P.
    unfold dq in Hf. apply in_app_or in Hf. destruct Hf as [Hf|[Hf|[]]]; [exact Hf | congruence]. }
  assert (Hlow : forall c f m, In c (l_calls s) -> c_phase c = Waiting f m ->
     upd (l_stat s) (l_next s) Pending f = l_stat s f).
  { intros c f m Hi Hq. apply upd_other. pose proof (i_await s I c f m Hi Hq). lia. }
  assert (Hb : forall c dq calls n, In c (l_calls s) ->
     let s' := mk_lock (l_size s) dq (upd (l_stat s) (l_next s) Pending) calls n in
     blocked s' c = true \/ owns s' c = true).
  { intros c dq' calls n Hc s'. destruct (B c Hc) as [Q|Q]; [left|right].
    - unfold blocked in *. destruct (c_phase c) as [f m|] eqn:E; [|exact Q]. cbn. erewrite Hlow; eauto.
    - rewrite <- Q. apply owns_ext. intros f m E. cbn. eapply Hlow; eauto. }
  destruct (Nat.ltb_spec (l_size s) (length dq)) as [Hlt|Hge].
  - destruct (acquire_waiter_pending s I Hlt) as [W1 _]. fold dq in W1.
    set (w := nth (length dq - 1 - l_size s) dq 0) in *. rewrite W1. cbn [fst l_deque l_stat l_calls].
    split; [exact Hp|]. intros c Hc. apply in_app_or in Hc. destruct Hc as [Hc|[<-|[]]]; [apply Hb; exact Hc|].
    left. unfold blocked. cbn. rewrite W1. reflexivity.
  - cbn [fst l_deque l_stat l_calls]. split; [exact Hp|].
    intros c Hc. apply in_app_or in Hc. destruct Hc as [Hc|[<-|[]]]; [apply Hb; exact Hc | right; reflexivity].
Qed.

Lemma quiet_release : forall s t, quiet s -> quiet (fst (release s t)).
Proof.
  intros s t Qs. pose proof Qs as [I [C [P B]]]. pose proof (inv_release s t I) as I'. revert I'. unfold release.
  destruct (find_call t (l_calls s)) as [c|] eqn:F; [|intros _; exact Qs].
  apply find_call_Some in F. destruct F as [Fc Ft].
  destruct c as [t' ph]. cbn in Ft. subst t'. destruct ph as [f m|]; [intros _; exact Qs|].
  destruct (l_deque s) as [|f0 dq] eqn:D; [intros _; exact Qs|]. cbn [fst].
  pose proof (P f0 (or_introl eq_refl)) as P0. rewrite P0. cbn [is_pending]. intros I'.
  set (calls := drop_call t (l_calls s)) in *.
  assert (Hsd : forall c, In c calls -> In c (l_calls s)) by (intros c Hc; apply In_drop in Hc; tauto).
  pose proof (i_nodup s I) as Hnd. rewrite D in Hnd. inversion Hnd as [|? ? Hf0 Hnd']; subst.
  set (newly := fun c => match c_phase c with Waiting g false => Nat.eqb g f0 | _ => false end).
  assert (Hown : forall c, In c calls -> owns
    (mk_lock (l_size s) dq (upd (l_stat s) f0 Finished) calls (l_next s)) c = owns s c || newly c).
  { intros c Hc. apply owns_finish; auto. }
  assert (Hdis : forall c, In c calls -> owns s c = true -> newly c = false).
  { intros c Hc O. destruct (newly c) eqn:N; [|reflexivity]. exfalso.
    unfold newly in N. unfold owns in O. destruct (c_phase c) as [g m|]; [|discriminate].
    destruct m; [discriminate|]. apply Nat.eqb_eq in N. subst g. rewrite P0 in O. discriminate. }
  assert (Hflag : forall c g, In c (l_calls s) -> c_phase c = Waiting g true -> False).
  { intros c g Hc E. destruct (B c Hc) as [Q|Q].
    - unfold blocked in Q. rewrite E in Q. apply (i_flag s I c g Hc E). destruct (l_stat s g); [reflexivity | discriminate | discriminate].
    - unfold owns in Q. rewrite E in Q. discriminate. }
  split; [exact I'|]. split; [|split].
  - unfold owners at 1. cbn [l_calls l_deque l_size]. rewrite (filter_ext_in _ _ _ Hown).
    rewrite filter_or_length by exact Hdis.
    assert (Hd : S (length (filter (owns s) calls)) = length (owners s)).
    { unfold calls. apply filter_length_drop with (c := mk_call t Holding); auto. apply I. }
    rewrite C in Hd. cbn [length] in Hd.
    pose proof (i_count _ I') as C'. unfold owners at 1 in C'. cbn [l_calls l_deque l_size] in C'.
    rewrite (filter_ext_in _ _ _ Hown) in C'. rewrite filter_or_length in C' by exact Hdis.
    destruct (Nat.leb_spec (S (length dq)) (l_size s)) as [Le|Gt]; [lia|].
    (* somebody waits for [f0] *)
    assert (X : 1 <= length (filter newly calls)); [|lia].
    pose proof (i_queue s I) as Qu. rewrite D in Qu at 2 3. cbn [length] in Qu.
    destruct (S (length dq) - l_size s) as [|k] eqn:K; [lia|]. cbn [firstn] in Qu.
    destruct (filter (queued (l_deque s)) (l_calls s)) as [|c l] eqn:E; [discriminate|].
    cbn [map] in Qu. inversion Qu as [[Q0 Q1]].
    assert (J : In c (filter (queued (l_deque s)) (l_calls s))) by (rewrite E; left; reflexivity).
    apply filter_In in J. destruct J as [J1 J2].
    assert (J3 : In c (filter newly calls)).
    { apply queued_In in J2. destruct J2 as [g [m [Eg Jg]]]. apply filter_In. split.
      - apply In_drop. split; [exact J1|]. intros Et.
        assert (c = mk_call t Holding) by (eapply sorted_unique; eauto; apply I). subst c. discriminate.
      - unfold newly. unfold aw in Q0. rewrite Eg in *. destruct m; [exfalso; eapply Hflag; eauto|].
        apply Nat.eqb_eq. exact Q0. }
    destruct (filter newly calls); [contradiction | cbn; lia].
  - cbn [l_deque l_stat]. intros f Hf. rewrite upd_other by (intros ->; contradiction). apply P. right. exact Hf.
  - cbn [l_calls]. intros c Hc. destruct (B c (Hsd c Hc)) as [Q|Q].
    + destruct (newly c) eqn:N; [right; rewrite Hown, N by assumption; apply orb_true_r|].
      left. unfold blocked in *. destruct (c_phase c) as [g m|] eqn:E; [|exact Q]. cbn [l_stat].
      rewrite upd_other; [exact Q|]. intros ->. destruct m; [exact (Hflag c _ (Hsd c Hc) E)|].
      unfold newly in N. rewrite E in N. cbn in N. apply Nat.eqb_neq in N. congruence.
    + right. rewrite Hown by assumption. rewrite Q. reflexivity.
Qed.

Lemma quiet_resume : forall s t, quiet s -> quiet (fst (resume s t)).
Proof.
  intros s t Qs. pose proof Qs as [I [C [P B]]]. pose proof (inv_resume s t I) as I'. revert I'. unfold resume.
  destruct (find_call t (l_calls s)) as [c|] eqn:F; [|intros _; exact Qs].
  apply find_call_Some in F. destruct F as [Fc Ft].
  destruct c as [t' ph]. cbn in Ft. subst t'. destruct ph as [f m|]; [|intros _; exact Qs].
  pose proof (B _ Fc) as Bc. unfold blocked, owns in Bc. cbn in Bc.
  destruct (l_stat s f) eqn:St; [intros _; exact Qs | |].
  - destruct m; [destruct Bc; discriminate|]. cbn [fst]. intros I'. split; [exact I'|].
    destruct (inv_succeed s t f I Fc St) as [_ L].
    split; [unfold owners at 1; cbn [l_calls l_deque l_size]; rewrite <- C; exact L|].
    split; [exact P|]. cbn [l_calls]. intros c Hc. unfold set_phase in Hc. apply in_map_iff in Hc.
    destruct Hc as [c' [E Hc]]. destruct (Nat.eqb_spec (c_ticket c') t); subst c; [right; reflexivity|].
    apply (B c' Hc).
  - destruct m; destruct Bc; discriminate.
Qed.

Lemma quiet_cancel_resume : forall s t c, quiet s -> In c (l_calls s) -> c_ticket c = t -> blocked s c = true ->
  quiet (run s [OpCancel t; OpResume t]).
Proof.
  intros s t c Qs Hc Ht Hb. pose proof Qs as [I [C [P B]]].
  assert (I' : inv (run s [OpCancel t; OpResume t])) by (apply inv_run; exact I).
  revert I'. cbn [run step].
  unfold cancel. rewrite (find_call_in t _ c (i_sorted s I) Hc Ht).
  destruct c as [t' ph]. cbn in Ht. subst t'. unfold blocked in Hb. cbn in Hb. destruct ph as [f m|]; [|discriminate].
  rewrite Hb. cbn [fst]. unfold resume. cbn [l_calls l_stat l_size l_deque l_next].
  rewrite (find_call_in t _ _ (i_sorted s I) Hc eq_refl), upd_same. cbn [fst].
  assert (St : l_stat s f = Pending) by (destruct (l_stat s f); [reflexivity | discriminate | discriminate]).
  assert (Fd : In f (l_deque s)) by exact (i_pending s I _ f m Hc eq_refl St).
  intros I'. split; [exact I'|].
  assert (Ht : forall c, In c (l_calls s) -> c_ticket c = t -> c = mk_call t (Waiting f m)).
  { intros c Hc' E. eapply sorted_unique; eauto. apply I. }
  assert (Hq : queued (l_deque s) (mk_call t (Waiting f m)) = true) by (apply queued_In; exists f, m; auto).
  assert (Hne : forall c g n, In c (l_calls s) -> c_ticket c <> t -> c_phase c = Waiting g n -> g <> f).
  { intros c g n Hc' Hn E ->. apply Hn.
    assert (c = mk_call t (Waiting f m)); [|subst; reflexivity].
    apply (queue_unique s c _ I Hc' Hc); [apply queued_In; eauto | exact Hq | unfold aw; rewrite E; reflexivity]. }
  assert (Hown : forall c, In c (drop_call t (l_calls s)) -> forall dq calls n, owns
     (mk_lock (l_size s) dq (upd (l_stat s) f Cancelled) calls n) c = owns s c).
  { intros c Hc' dq calls n. apply In_drop in Hc'. destruct Hc' as [H1 H2]. apply owns_ext. intros g k E. cbn.
    apply upd_other. eapply Hne; eauto. }
  split; [|split].
  - unfold owners at 1. cbn [l_calls l_deque l_size].
    rewrite (filter_ext_in _ (owns s)) by (intros; apply Hown; assumption).
    rewrite filter_drop.
    + change (length (owners s) = Nat.min (length (remove_first f (l_deque s))) (l_size s)).
      pose proof (remove_first_length f _ Fd).
      pose proof (queue_prefix s _ I Hc Hq) as Pf.
      destruct (length (l_deque s) - l_size s) eqn:K; [contradiction|]. lia.
    + intros c Hc' E. rewrite (Ht c Hc' E). unfold owns. cbn. rewrite St. destruct m; reflexivity.
  - cbn [l_deque l_stat]. intros g Hg. rewrite remove_first_filter in Hg by apply I. apply filter_In in Hg.
    destruct Hg as [H1 H2]. unfold notb in H2. rewrite negb_true_iff, Nat.eqb_neq in H2.
    rewrite upd_other by exact H2. apply P. exact H1.
  - cbn [l_calls]. intros c Hc'. rewrite (Hown c Hc'). pose proof Hc' as Hd. apply In_drop in Hd. destruct Hd as [H1 H2].
    destruct (B c H1) as [Q|Q]; [left|right; exact Q].
    unfold blocked in *. destruct (c_phase c) as [g n|] eqn:E; [|exact Q]. cbn [l_stat].
    rewrite upd_other by (eapply Hne; eauto). exact Q.
Qed.

Lemma quiet_calm : forall s ops, calm s ops -> quiet s -> quiet (run s ops).
Proof.
  intros s ops H. induction H as [s | s t c h H1 H2 H3 H4 IH | s o h H1 H2 IH]; intros Q.
  - exact Q.
  - cbn [run]. cbn [run] in IH. apply IH. eapply quiet_cancel_resume; eauto.
  - cbn [run]. apply IH. destruct o as [|t|t|t]; cbn [step].
    + apply quiet_acquire; exact Q.
    + apply quiet_release; exact Q.
    + exfalso. exact (H1 t eq_refl).
    + apply quiet_resume; exact Q.
Qed.

(** Without cancellations in the two windows, slots are never lost: the lock has owners as soon as it is locked, it
    reports the truth, and nobody waits unless every slot is owned. *)
Lemma calm_no_leak : forall size ops, calm (lock_init size) ops ->
  let s := run (lock_init size) ops in
  (is_locked s = true <-> length (owners s) = size) /\
  (forall c, In c (l_calls s) -> blocked s c = true -> length (owners s) = size) /\
  get_waiting s = length (filter (blocked s) (l_calls s)).
Proof.
  intros size ops H s.
  assert (Q : quiet s) by (apply quiet_calm; [exact H | apply quiet_init]).
  assert (E : l_size s = size) by (unfold s; rewrite run_size; reflexivity).
  destruct Q as [I [C [P B]]]. rewrite E in C.
  assert (Hbq : forall c, In c (l_calls s) -> blocked s c = queued (l_deque s) c).
  { intros c Hc. apply eq_true_iff_eq. split; intros Hb.
    - unfold blocked in Hb. destruct (c_phase c) as [f m|] eqn:Ec; [|discriminate].
      apply queued_In. exists f, m. split; [exact Ec|]. apply (i_pending s I c f m Hc Ec).
      destruct (l_stat s f); [reflexivity | discriminate | discriminate].
    - apply queued_In in Hb. destruct Hb as [f [m [Ec J]]]. unfold blocked. rewrite Ec, (P f J). reflexivity. }
  split; [|split].
  - unfold is_locked. rewrite E, Nat.leb_le. lia.
  - intros c Hc Hb. rewrite Hbq in Hb by exact Hc. pose proof (queue_prefix s c I Hc Hb) as Pf.
    destruct (length (l_deque s) - l_size s) eqn:K; [contradiction | lia].
  - rewrite (filter_ext_in _ _ _ Hbq). rewrite <- (map_length aw), (i_queue s I), firstn_length.
    unfold get_waiting. destruct (Nat.ltb_spec (l_size s) (length (l_deque s))); lia.
Qed.

(** ** The order of the calls of a lock with one slot *)

Lemma step_stat : forall s o f, f < l_next s -> l_stat s f <> Pending -> l_stat (fst (step s o)) f = l_stat s f.
Proof.
  intros s o f L P. destruct o as [|t|t|t]; cbn [step].
  - unfold acquire. set (dq := l_deque s ++ [l_next s]).
    assert (E : upd (l_stat s) (l_next s) Pending f = l_stat s f) by (apply upd_other; lia).
    destruct (l_size s <? length dq); [|exact E]. destruct (upd (l_stat s) (l_next s) Pending (nth _ dq 0)); exact E.
  - unfold release. destruct (find_call t (l_calls s)) as [[t' [g m|]]|]; try reflexivity.
    destruct (l_deque s) as [|g dq]; [reflexivity|]. cbn [fst l_stat].
    destruct (is_pending (l_stat s g)) eqn:E; [|reflexivity]. apply upd_other. intros ->.
    destruct (l_stat s g); [congruence | discriminate | discriminate].
  - unfold cancel. destruct (find_call t (l_calls s)) as [[t' [g m|]]|]; try reflexivity.
    destruct (is_pending (l_stat s g)) eqn:E; [|reflexivity]. cbn [fst l_stat]. apply upd_other. intros ->.
    destruct (l_stat s g); [congruence | discriminate | discriminate].
  - unfold resume. destruct (find_call t (l_calls s)) as [[t' [g m|]]|]; try reflexivity.
    destruct (l_stat s g); [reflexivity| |reflexivity]. destruct m; reflexivity.
Qed.

(** What a step does to the calls. *)
Lemma step_calls : forall s o c', In c' (l_calls (fst (step s o))) ->
  c_ticket c' = l_next s \/
  exists c, In c (l_calls s) /\ c_ticket c = c_ticket c' /\
    (c_phase c' = c_phase c \/
     (exists f m, c_phase c = Waiting f m /\ c_phase c' = Waiting f true) \/
     (exists f, c_phase c = Waiting f false /\ l_stat s f = Finished /\ c_phase c' = Holding /\ snd (step s o) = EvAcquired (c_ticket c'))).
Proof.
  intros s o c' Hc. destruct o as [|t|t|t]; cbn [step] in *.
  - unfold acquire in Hc. set (dq := l_deque s ++ [l_next s]) in *.
    assert (D : In c' (l_calls s) \/ c_ticket c' = l_next s).
    { destruct (l_size s <? length dq).
      - destruct (upd (l_stat s) (l_next s) Pending (nth _ dq 0)); cbn [fst l_calls] in Hc; [| |left; exact Hc];
          apply in_app_or in Hc; destruct Hc as [Hc|[<-|[]]]; auto.
      - cbn [fst l_calls] in Hc. apply in_app_or in Hc. destruct Hc as [Hc|[<-|[]]]; auto. }
    destruct D as [D|D]; [right; exists c'; auto | left; exact D].
  - right. exists c'. unfold release in Hc. destruct (find_call t (l_calls s)) as [[t' [g m|]]|]; try (split; auto; fail).
    destruct (l_deque s) as [|g dq]; [split; auto|]. cbn [fst l_calls] in Hc. apply In_drop in Hc. split; [tauto|auto].
  - unfold cancel in Hc. destruct (find_call t (l_calls s)) as [[t' [g m|]]|] eqn:F; try (right; exists c'; auto; fail).
    destruct (is_pending (l_stat s g)); [right; exists c'; auto|]. cbn [fst l_calls] in Hc.
    apply find_call_Some in F. destruct F as [Fc Ft]. cbn in Ft. subst t'.
    unfold set_phase in Hc. apply in_map_iff in Hc. destruct Hc as [c [E Hc]]. right.
    destruct (Nat.eqb_spec (c_ticket c) t).
    + exists (mk_call t (Waiting g m)). subst c'. cbn. split; [exact Fc|]. split; [reflexivity|]. right. left. exists g, m. auto.
    + exists c. subst. auto.
  - unfold resume in *. destruct (find_call t (l_calls s)) as [[t' [g m|]]|] eqn:F; try (right; exists c'; auto; fail).
    apply find_call_Some in F. destruct F as [Fc Ft]. cbn in Ft. subst t'.
    destruct (l_stat s g) eqn:St; [right; exists c'; auto| |].
    + destruct m; cbn [fst snd l_calls] in *.
      * apply In_drop in Hc. right. exists c'. split; [tauto|auto].
      * unfold set_phase in Hc. apply in_map_iff in Hc. destruct Hc as [c [E Hc]]. right.
        destruct (Nat.eqb_spec (c_ticket c) t).
        { exists (mk_call t (Waiting g false)). subst c'. cbn. split; [exact Fc|]. split; [reflexivity|]. right. right. exists g. auto. }
        { exists c. subst. auto. }
    + cbn [fst snd l_calls] in Hc. apply In_drop in Hc. right. exists c'. split; [tauto|auto].
Qed.

Definition settled (m : nat) (s : lock) : Prop :=
  m <= l_next s /\ forall c, In c (l_calls s) -> c_ticket c < m -> c_phase c = Holding \/ doomed s c = true.

Lemma step_next : forall s o, l_next s <= l_next (fst (step s o)).
Proof.
  intros s [|t|t|t]; cbn [step].
  - unfold acquire. destruct (l_size s <? _); [|cbn; lia]. destruct (upd _ _ _ _); cbn; lia.
  - unfold release. destruct (find_call t (l_calls s)) as [[t' [g m|]]|]; try (cbn; lia). destruct (l_deque s); cbn; lia.
  - unfold cancel. destruct (find_call t (l_calls s)) as [[t' [g m|]]|]; try (cbn; lia). destruct (is_pending _); cbn; lia.
  - unfold resume. destruct (find_call t (l_calls s)) as [[t' [g m|]]|]; try (cbn; lia). destruct (l_stat s g); [| destruct m|]; cbn; lia.
Qed.

(** A call which is not blocked and owns nothing is doomed. *)
Lemma not_owner_doomed : forall s c, blocked s c = false -> owns s c = false -> doomed s c = true.
Proof.
  intros s c B O. unfold blocked, owns, doomed in *. destruct (c_phase c) as [f m|]; [|discriminate].
  destruct (l_stat s f), m; cbn in *; congruence.
Qed.

(** The call which acquires, with its number. *)
Lemma acquired_call : forall s o t, inv s -> snd (step s o) = EvAcquired t ->
  In (mk_call t Holding) (l_calls (fst (step s o))) /\
  (t = l_next s /\ o = OpAcquire \/ o = OpResume t /\ exists f, In (mk_call t (Waiting f false)) (l_calls s) /\ l_stat s f = Finished).
Proof.
  intros s o t Iv E. destruct o as [|u|u|u]; cbn [step] in *.
  - unfold acquire in *. set (dq := l_deque s ++ [l_next s]) in *.
    destruct (l_size s <? length dq).
    + destruct (upd (l_stat s) (l_next s) Pending (nth _ dq 0)); cbn [snd fst l_calls] in *; try discriminate.
      injection E as <-. split; [apply in_or_app; right; left; reflexivity|]. left. auto.
    + cbn [snd fst l_calls] in *. injection E as <-. split; [apply in_or_app; right; left; reflexivity|]. left. auto.
  - unfold release in E. destruct (find_call u (l_calls s)) as [[t' [g m|]]|]; try discriminate. destruct (l_deque s); discriminate.
  - unfold cancel in E. destruct (find_call u (l_calls s)) as [[t' [g m|]]|]; try discriminate. destruct (is_pending _); discriminate.
  - unfold resume in *. destruct (find_call u (l_calls s)) as [[t' [g m|]]|] eqn:F; try discriminate.
    apply find_call_Some in F. destruct F as [Fc Ft]. cbn in Ft. subst t'.
    destruct (l_stat s g) eqn:St; [discriminate| |discriminate]. destruct m; cbn [snd fst l_calls] in *; [discriminate|].
    injection E as <-. split; [|right; split; [reflexivity|]; exists g; auto].
    unfold set_phase. apply in_map_iff. exists (mk_call u (Waiting g false)). cbn. rewrite Nat.eqb_refl. auto.
Qed.

Lemma settled_step : forall m s o, inv s -> l_size s = 1 -> settled m s ->
  match snd (step s o) with
  | EvAcquired t => m <= t /\ settled (S t) (fst (step s o))
  | _ => settled m (fst (step s o))
  end.
Proof.
  intros m s o Iv Sz [M H].
  assert (Iv' : inv (fst (step s o))) by (apply inv_step; exact Iv).
  assert (Keep : (forall t, snd (step s o) <> EvAcquired t) -> settled m (fst (step s o))).
  { intros NA. split; [pose proof (step_next s o); lia|]. intros c' Hc' Lt.
    destruct (step_calls s o c' Hc') as [E|[c [Hc [Et Ph]]]]; [lia|].
    specialize (H c Hc ltac:(lia)). destruct Ph as [Ph|[[f [n [Ph Ph']]]|[f [Ph [St [Ph' E]]]]]].
    - destruct H as [H|H]; [left; congruence|]. right. unfold doomed in *. rewrite Ph. destruct (c_phase c) as [f n|] eqn:Q; [|exact H].
      rewrite step_stat; [exact H | eapply i_await; eauto | destruct (l_stat s f); [destruct n; discriminate | discriminate | discriminate]].
    - destruct H as [H|H]; [congruence|]. right. unfold doomed in *. rewrite Ph in H. rewrite Ph'.
      rewrite step_stat; [destruct (l_stat s f); [destruct n; discriminate| reflexivity | reflexivity] | eapply i_await; eauto |
                          destruct (l_stat s f); [destruct n; discriminate | discriminate | discriminate]].
    - exfalso. exact (NA _ E). }
  destruct (snd (step s o)) as [t|t|t| |n| |] eqn:E; try (apply Keep; intros x; discriminate).
  destruct (acquired_call s o t Iv E) as [Hin Hwho]. split.
  - destruct Hwho as [[-> _]|[_ [f [Hc St]]]]; [lia|]. destruct (Nat.le_gt_cases m t) as [L|L]; [exact L|]. exfalso.
    destruct (H _ Hc L) as [Q|Q]; [discriminate|]. unfold doomed in Q. cbn in Q. rewrite St in Q. discriminate.
  - split; [apply (i_tickets _ Iv' _ Hin)|]. intros c Hc Lt.
    destruct (Nat.eq_dec (c_ticket c) t) as [Q|Q].
    { left. rewrite (sorted_unique _ c (mk_call t Holding) (i_sorted _ Iv') Hc Hin Q). reflexivity. }
    right. apply not_owner_doomed.
    + destruct (blocked (fst (step s o)) c) eqn:B; [|reflexivity]. exfalso.
      unfold blocked in B. destruct (c_phase c) as [f n|] eqn:P; [|discriminate].
      assert (t < c_ticket c); [|lia].
      apply (i_fifo _ Iv' c (mk_call t Holding) Hc Hin); [|reflexivity].
      apply queued_In. exists f, n. split; [exact P|]. apply (i_pending _ Iv' c f n Hc P).
      destruct (l_stat (fst (step s o)) f); [reflexivity | discriminate | discriminate].
    + destruct (owns (fst (step s o)) c) eqn:O; [|reflexivity]. exfalso.
      pose proof (i_count _ Iv') as C. rewrite step_size, Sz in C.
      assert (O1 : In c (owners (fst (step s o)))) by (apply filter_In; auto).
      assert (O2 : In (mk_call t Holding) (owners (fst (step s o)))) by (apply filter_In; auto).
      destruct (owners (fst (step s o))) as [|x [|y l]]; [contradiction| |cbn in C; lia].
      destruct O1 as [O1|[]], O2 as [O2|[]]. subst x. rewrite O2 in Q. apply Q. reflexivity.
Qed.

Lemma acquired_from : forall ops m s, inv s -> l_size s = 1 -> settled m s ->
  StronglySorted lt (acquired (events s ops)) /\ Forall (le m) (acquired (events s ops)).
Proof.
  induction ops as [|o ops IH]; intros m s Iv Sz St; [cbn; split; constructor|].
  pose proof (settled_step m s o Iv Sz St) as P. cbn [events].
  assert (Iv' : inv (fst (step s o))) by (apply inv_step; exact Iv).
  assert (Sz' : l_size (fst (step s o)) = 1) by (rewrite step_size; exact Sz).
  destruct (snd (step s o)) as [t|t|t| |n| |]; try (apply IH; assumption).
  destruct P as [L P]. destruct (IH (S t) _ Iv' Sz' P) as [A B]. cbn [acquired flat_map app]. fold (acquired (events (fst (step s o)) ops)).
  split; constructor; auto.
  eapply Forall_impl; [|exact B]. cbn. intros; lia.
Qed.

Lemma acquired_in_order : forall ops, StronglySorted lt (acquired (events (lock_init 1) ops)).
Proof.
  intros ops. apply (acquired_from ops 0 (lock_init 1)); [apply inv_init | reflexivity|].
  split; [cbn; lia|]. intros c [].
Qed.
