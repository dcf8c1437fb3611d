From Coq Require Import List Arith Bool Lia Permutation.
From Verif Require Import WeakSetModel WeakSetSpec.
Import ListNotations.

Lemma mem_In o l : mem o l = true <-> In o l.
Proof.
  unfold mem. rewrite existsb_exists. split.
  - intros (x & X & E). apply Nat.eqb_eq in E. subst. exact X.
  - intros H. exists o. split; [exact H|apply Nat.eqb_refl].
Qed.
Lemma mem_not o l : mem o l = false <-> ~ In o l.
Proof. rewrite <- mem_In. destruct (mem o l); split; intros; try congruence; tauto. Qed.
Lemma mem_app o a b : mem o (a ++ b) = mem o a || mem o b.
Proof. unfold mem. apply existsb_app. Qed.
Lemma mem_filter o f l : mem o (filter f l) = mem o l && f o.
Proof.
  apply eq_true_iff_eq. rewrite andb_true_iff, !mem_In. apply filter_In.
Qed.
Lemma same_ref_eq a b : same_ref a b = true <-> a = b.
Proof.
  unfold same_ref. destruct a as [x y], b as [z w]. cbn. rewrite andb_true_iff, !Nat.eqb_eq. split; [intros [-> ->]; reflexivity|intros E; injection E; auto].
Qed.
Lemma in_pend r l : existsb (same_ref r) l = true <-> In r l.
Proof.
  rewrite existsb_exists. split; [intros (x & X & E); apply same_ref_eq in E; subst; exact X|].
  intros H. exists r. split; [exact H|apply same_ref_eq; reflexivity].
Qed.

Lemma contains_elements d x o : contains d x o = mem o (elements d x).
Proof.
  apply eq_true_iff_eq. rewrite mem_In. unfold contains, elements. rewrite existsb_exists, in_map_iff. split.
  - intros (r & R & H). apply andb_true_iff in H. destruct H as [L E]. apply Nat.eqb_eq in E. exists r. split; [exact E|apply filter_In; auto].
  - intros (r & E & H). apply filter_In in H. destruct H as [R L]. exists r. split; [exact R|]. rewrite L, E, Nat.eqb_refl. reflexivity.
Qed.

(** A set is fine: its elements are different, dead references are pending and only while it is iterated, what is pending is dead. *)
Record ok (d : list nat) (x : wset) : Prop := mk_ok {
  o_nodup : NoDup (elements d x);
  o_dead : forall r, In r (tab x) -> live d r = false -> In r (pend x);
  o_live : iters x = 0 -> forall r, In r (tab x) -> live d r = true;
  o_pend : forall r, In r (pend x) -> live d r = false
}.

(** The number of its elements can be told. *)
Definition exact (d : list nat) (x : wset) : Prop := NoDup (tab x) /\ NoDup (pend x) /\ forall r, In r (pend x) -> In r (tab x).

Lemma filter_map_snd (f : ref -> bool) (g : nat -> bool) d t : (forall r, live d r = true -> f r = g (snd r)) ->
  map snd (filter (live d) (filter f t)) = filter g (map snd (filter (live d) t)).
Proof.
  intros H. induction t as [|r t IH]; [reflexivity|]. cbn [filter]. destruct (live d r) eqn:L.
  - cbn [map filter]. rewrite <- (H r L). destruct (f r); cbn [filter]; rewrite ?L; cbn [map]; rewrite IH; reflexivity.
  - destruct (f r); cbn [filter]; rewrite ?L; exact IH.
Qed.

(** Keeping some of the live references, and all dead ones. *)
Lemma ok_filter d x f (g : nat -> bool) : ok d x -> (forall r, live d r = true -> f r = g (snd r)) ->
  ok d (mk_wset (filter f (tab x)) (pend x) (iters x)) /\
  elements d (mk_wset (filter f (tab x)) (pend x) (iters x)) = filter g (elements d x).
Proof.
  intros [N D L P] H. assert (E : elements d (mk_wset (filter f (tab x)) (pend x) (iters x)) = filter g (elements d x)) by (apply (filter_map_snd f g d); exact H).
  split; [|exact E]. constructor; cbn [tab pend iters].
  - rewrite E. apply NoDup_filter. exact N.
  - intros r R. apply filter_In in R. apply D. tauto.
  - intros I0 r R. apply filter_In in R. apply L; tauto.
  - exact P.
Qed.

Lemma exact_filter d x f : (forall r, live d r = false -> f r = true) -> ok d x -> exact d x -> exact d (mk_wset (filter f (tab x)) (pend x) (iters x)).
Proof.
  intros F O (A & B & C). split; [apply NoDup_filter; exact A|]. split; [exact B|]. cbn. intros r R. apply filter_In. split; [apply C; exact R|].
  apply F. apply (o_pend d x O). exact R.
Qed.

Lemma discard_ok d x o : ok d x -> ok d (discard d x o) /\ elements d (discard d x o) = filter (fun q => negb (q =? o)) (elements d x).
Proof. intros O. apply ok_filter; [exact O|]. intros r ->. reflexivity. Qed.
Lemma discard_exact d x o : ok d x -> exact d x -> exact d (discard d x o).
Proof. intros O. apply exact_filter; [|exact O]. intros r ->. reflexivity. Qed.

Lemma ref_eqb_live d q r : live d q = true -> ref_eqb d q r = live d r && (snd q =? snd r).
Proof.
  intros L. unfold ref_eqb. rewrite L. cbn. destruct (same_ref q r) eqn:E; [|reflexivity]. apply same_ref_eq in E. subst. rewrite L, Nat.eqb_refl. reflexivity.
Qed.
Lemma ref_eqb_dead d q r : live d q = false -> ref_eqb d q r = same_ref q r.
Proof. intros L. unfold ref_eqb. rewrite L. cbn. apply orb_false_r. Qed.

Lemma set_discard_ok d x r : ok d x -> ok d (set_discard d x r) /\
  elements d (set_discard d x r) = if live d r then filter (fun q => negb (q =? snd r)) (elements d x) else elements d x.
Proof.
  intros O. destruct (live d r) eqn:L.
  - apply ok_filter; [exact O|]. intros q Q. rewrite ref_eqb_live, L by exact Q. reflexivity.
  - destruct (ok_filter d x (fun q => negb (ref_eqb d q r)) (fun _ => true) O) as [A B].
    + intros q Q. rewrite ref_eqb_live, L by exact Q. reflexivity.
    + split; [exact A|]. unfold set_discard. rewrite B. clear. induction (elements d x) as [|a l IH]; cbn; congruence.
Qed.
Lemma set_discard_exact d x r : live d r = true -> ok d x -> exact d x -> exact d (set_discard d x r).
Proof.
  intros L O. apply exact_filter; [|exact O]. intros q Q. rewrite ref_eqb_dead by exact Q. destruct (same_ref q r) eqn:E; [|reflexivity].
  apply same_ref_eq in E. congruence.
Qed.

Lemma add_ok d n x o : ok d x -> mem o d = false -> ok d (add d n x o) /\ elements d (add d n x o) = if mem o (elements d x) then elements d x else elements d x ++ [o].
Proof.
  intros O M. unfold add. rewrite contains_elements. destruct (mem o (elements d x)) eqn:C; [auto|].
  assert (E : elements d (mk_wset (tab x ++ [(n, o)]) (pend x) (iters x)) = elements d x ++ [o]).
  { unfold elements. cbn [tab]. rewrite filter_app, map_app. cbn. unfold live at 2. cbn. rewrite M. reflexivity. }
  split; [|exact E]. destruct O as [N D L P]. constructor; cbn [tab pend iters].
  - rewrite E. apply mem_not in C. apply (Permutation_NoDup (Permutation_cons_append (elements d x) o)). constructor; assumption.
  - intros r R X. apply in_app_iff in R. destruct R as [R|[R|[]]]; [apply D; assumption|]. subst r. unfold live in X. cbn in X. rewrite M in X. discriminate.
  - intros I0 r R. apply in_app_iff in R. destruct R as [R|[R|[]]]; [apply L; assumption|]. subst r. unfold live. cbn. rewrite M. reflexivity.
  - exact P.
Qed.
Lemma add_exact d n x o : mem o d = false -> exact d x -> exact d (add d n x o).
Proof.
  intros M (A & B & C). unfold add. destruct (contains d x o) eqn:K; [split; auto|]. split; [|split; [exact B|]]; cbn [tab pend].
  - apply (Permutation_NoDup (Permutation_cons_append (tab x) (n, o))). constructor; [|exact A]. intros R.
    assert (X : contains d x o = true); [|congruence]. unfold contains. apply existsb_exists. exists (n, o). split; [exact R|]. unfold live. cbn. rewrite M, Nat.eqb_refl. reflexivity.
  - intros r R. apply in_or_app. left. apply C. exact R.
Qed.

Lemma pending_tab x r : tab (add_pending x r) = tab x /\ iters (add_pending x r) = iters x.
Proof. split; reflexivity. Qed.
Lemma pending_in x r q : In q (pend (add_pending x r)) <-> q = r \/ In q (pend x).
Proof.
  unfold add_pending. cbn. destruct (existsb (same_ref r) (pend x)) eqn:E.
  - apply in_pend in E. split; [tauto|]. intros [->|H]; assumption.
  - rewrite in_app_iff. cbn. split; [intros [H|[H|[]]]; auto|]. intros [->|H]; auto.
Qed.
Lemma pending_nodup x r : NoDup (pend x) -> NoDup (pend (add_pending x r)).
Proof.
  intros N. unfold add_pending. cbn. destruct (existsb (same_ref r) (pend x)) eqn:E; [exact N|].
  apply (Permutation_NoDup (Permutation_cons_append (pend x) r)). constructor; [|exact N]. intros H. apply in_pend in H. congruence.
Qed.

Lemma pending_ok d x r : live d r = false -> ok d x -> ok d (add_pending x r) /\ elements d (add_pending x r) = elements d x.
Proof.
  intros L [N D V P]. split; [|reflexivity]. constructor.
  - exact N.
  - intros q Q X. apply pending_in. right. apply D; assumption.
  - exact V.
  - intros q Q. apply pending_in in Q. destruct Q as [->|Q]; [exact L|apply P; exact Q].
Qed.

Lemma discards_dead d l : forall x, ok d x -> (forall r, In r l -> live d r = false) ->
  ok d (fold_left (set_discard d) l x) /\ elements d (fold_left (set_discard d) l x) = elements d x.
Proof.
  induction l as [|r l IH]; intros x O H; [auto|]. cbn [fold_left]. destruct (set_discard_ok d x r O) as [A B].
  rewrite (H r (or_introl eq_refl)) in B. destruct (IH _ A) as [C E]; [intros q Q; apply H; right; exact Q|]. split; [exact C|]. rewrite E. exact B.
Qed.

Lemma discards_fields d l : forall x, pend (fold_left (set_discard d) l x) = pend x /\ iters (fold_left (set_discard d) l x) = iters x /\
  forall r, In r (tab (fold_left (set_discard d) l x)) <-> In r (tab x) /\ forall q, In q l -> ref_eqb d r q = false.
Proof.
  induction l as [|a l IH]; intros x; cbn [fold_left].
  - split; [reflexivity|]. split; [reflexivity|]. intros r. split; [intros H; split; [exact H|contradiction]|tauto].
  - destruct (IH (set_discard d x a)) as (A & B & C). split; [exact A|]. split; [exact B|]. intros r. rewrite C. cbn [set_discard tab]. rewrite filter_In, negb_true_iff. split.
    + intros ((R & E) & H). split; [exact R|]. intros q [->|Q]; auto.
    + intros (R & H). split; [split; [exact R|]|]; intros; apply H; cbn; auto.
Qed.

Lemma discards_nodup d l : forall x, NoDup (tab x) -> NoDup (tab (fold_left (set_discard d) l x)).
Proof. induction l as [|a l IH]; intros x N; [exact N|]. cbn [fold_left]. apply IH. cbn. apply NoDup_filter. exact N. Qed.

(** The last iteration over a set ends. *)
Lemma closing_ok d x : NoDup (elements d x) -> (forall r, In r (tab x) -> live d r = false -> In r (pend x)) -> (forall r, In r (pend x) -> live d r = false) ->
  ok d (commit d x) /\ elements d (commit d x) = elements d x /\ iters (commit d x) = iters x.
Proof.
  intros N D P. unfold commit. destruct (iters x) as [|n] eqn:I0.
  - destruct (discards_fields d (pend x) (mk_wset (tab x) [] 0)) as (A & B & C). cbn [tab pend iters] in *.
    assert (E : elements d (fold_left (set_discard d) (pend x) (mk_wset (tab x) [] 0)) = elements d x).
    { revert N D P. clear. intros _ _ P. change (elements d x) with (elements d (mk_wset (tab x) [] 0)). generalize (mk_wset (tab x) [] 0).
      induction (pend x) as [|r l IH]; intros y; [reflexivity|]. cbn [fold_left]. rewrite IH; [|intros q Q; apply P; right; exact Q].
      unfold elements, set_discard. cbn [tab]. rewrite (filter_map_snd _ (fun _ => true)).
      - induction (map snd (filter (live d) (tab y))) as [|a z IHz]; cbn; congruence.
      - intros q Q. rewrite ref_eqb_live by exact Q. rewrite (P r (or_introl eq_refl)). reflexivity. }
    split; [|split; [exact E|exact B]]. constructor.
    + rewrite E. exact N.
    + intros r R L. apply C in R. destruct R as [R H]. specialize (H r (D r R L)). rewrite ref_eqb_dead in H by exact L.
      assert (X : same_ref r r = true) by (apply same_ref_eq; reflexivity). congruence.
    + intros _ r R. destruct (live d r) eqn:L; [reflexivity|]. apply C in R. destruct R as [R H]. specialize (H r (D r R L)). rewrite ref_eqb_dead in H by exact L.
      assert (X : same_ref r r = true) by (apply same_ref_eq; reflexivity). congruence.
    + rewrite A. intros r [].
  - split; [|split; [reflexivity|exact I0]]. constructor; auto. congruence.
Qed.
Lemma closing_exact d x : exact d x -> exact d (commit d x).
Proof.
  intros (A & B & C). unfold commit. destruct (iters x); [|split; auto].
  destruct (discards_fields d (pend x) (mk_wset (tab x) [] 0)) as (E & _ & _). split; [apply discards_nodup; exact A|].
  rewrite E. split; [constructor|intros r []].
Qed.

Lemma marks d l : forall x, (forall r, In r l -> In r (tab x)) -> ok d x ->
  let y := fold_left (fun y r => if live d r then y else add_pending y r) l x in
  ok d y /\ tab y = tab x /\ iters y = iters x /\ (exact d x -> exact d y).
Proof.
  induction l as [|r l IH]; intros x S O; cbn [fold_left]; [auto|].
  destruct (live d r) eqn:L.
  - apply IH; [intros q Q; apply S; right; exact Q|exact O].
  - destruct (pending_ok d x r L O) as [A _].
    destruct (IH (add_pending x r)) as (B & C & D & E); [intros q Q; apply S; right; exact Q|exact A|].
    split; [exact B|]. split; [exact C|]. split; [exact D|]. intros (X & Y & Z). apply E. split; [exact X|]. split; [apply pending_nodup; exact Y|].
    intros q Q. apply pending_in in Q. destruct Q as [->|Q]; [apply S; left; reflexivity|apply Z; exact Q].
Qed.

Lemma iterate_ok d x : ok d x -> ok d (fst (iterate d x)) /\ elements d (fst (iterate d x)) = elements d x /\ iters (fst (iterate d x)) = iters x /\
  snd (iterate d x) = elements d x /\ (exact d x -> exact d (fst (iterate d x))).
Proof.
  intros O. unfold iterate. cbn [fst snd]. destruct (marks d (tab x) x (fun r R => R) O) as (A & B & C & D).
  set (y := fold_left _ (tab x) x) in *. destruct A as [N K _ P]. destruct (closing_ok d y N K P) as (E & F & G).
  split; [exact E|]. split; [rewrite F; unfold elements; rewrite B; reflexivity|]. split; [rewrite G; exact C|]. split; [reflexivity|].
  intros X. apply closing_exact. apply D. exact X.
Qed.

Lemma pendings_fields l : forall x, tab (fold_left add_pending l x) = tab x /\ iters (fold_left add_pending l x) = iters x /\
  (forall r, In r (pend (fold_left add_pending l x)) <-> In r l \/ In r (pend x)) /\ (NoDup (pend x) -> NoDup (pend (fold_left add_pending l x))).
Proof.
  induction l as [|a l IH]; intros x; cbn [fold_left]; [cbn; tauto|].
  destruct (IH (add_pending x a)) as (A & B & C & D). split; [exact A|]. split; [exact B|]. split.
  - intros r. rewrite C, pending_in. cbn. split; intros [H|H]; auto; [destruct H as [->|H]; auto|destruct H as [->|H]; auto].
  - intros N. apply D. apply pending_nodup. exact N.
Qed.

Lemma live_app l d r : live (l ++ d) r = live d r && negb (mem (snd r) l).
Proof. unfold live. rewrite mem_app, negb_orb. apply andb_comm. Qed.

Lemma elements_die l d t : map snd (filter (live (l ++ d)) t) = filter (fun o => negb (mem o l)) (map snd (filter (live d) t)).
Proof.
  induction t as [|r t IH]; [reflexivity|]. cbn [filter]. rewrite live_app. destruct (live d r); cbn [andb map filter]; [|exact IH].
  destruct (mem (snd r) l); cbn [negb map]; rewrite IH; reflexivity.
Qed.

Lemma die_ok l d x : ok d x -> ok (l ++ d) (die l d x) /\ elements (l ++ d) (die l d x) = filter (fun o => negb (mem o l)) (elements d x) /\
  iters (die l d x) = iters x /\ (exact d x -> exact (l ++ d) (die l d x)).
Proof.
  intros [N D L P]. unfold die. destruct (iters x) as [|n] eqn:I0.
  - assert (E : elements (l ++ d) (mk_wset (filter (fun r => negb (live d r && mem (snd r) l)) (tab x)) (pend x) 0) = filter (fun o => negb (mem o l)) (elements d x)).
    { unfold elements. cbn [tab]. rewrite elements_die. rewrite (filter_map_snd _ (fun o => negb (mem o l))).
      - induction (map snd (filter (live d) (tab x))) as [|a z IH]; [reflexivity|]. cbn [filter]. destruct (negb (mem a l)) eqn:M; cbn [filter]; rewrite ?M, IH; reflexivity.
      - intros r ->. reflexivity. }
    split; [|split; [exact E|split; [reflexivity|]]].
    + assert (V : forall r, In r (filter (fun r => negb (live d r && mem (snd r) l)) (tab x)) -> live (l ++ d) r = true).
      { intros r R. apply filter_In in R. destruct R as [R H]. rewrite live_app, (L eq_refl r R) in *. exact H. }
      constructor; cbn [tab pend iters].
      * rewrite E. apply NoDup_filter. exact N.
      * intros r R X. rewrite (V r R) in X. discriminate.
      * intros _. exact V.
      * intros r R. rewrite live_app, (P r R). reflexivity.
    + intros (A & B & C). split; [apply NoDup_filter; exact A|]. split; [exact B|]. cbn. intros r R. apply filter_In. split; [apply C; exact R|]. rewrite (P r R). reflexivity.
  - set (dying := filter (fun r => live d r && mem (snd r) l) (tab x)).
    destruct (pendings_fields dying x) as (A & B & C & E).
    assert (F : elements (l ++ d) (fold_left add_pending dying x) = filter (fun o => negb (mem o l)) (elements d x)) by (unfold elements; rewrite A; apply elements_die).
    split; [|split; [exact F|split; [rewrite B; exact I0|]]].
    + constructor.
      * rewrite F. apply NoDup_filter. exact N.
      * intros r R X. rewrite A in R. apply C. rewrite live_app in X. destruct (live d r) eqn:V; [|right; apply D; assumption].
        left. apply filter_In. split; [exact R|]. rewrite V. cbn in *. destruct (mem (snd r) l); [reflexivity|discriminate].
      * rewrite B. congruence.
      * intros r R. apply C in R. rewrite live_app. destruct R as [R|R]; [|rewrite (P r R); reflexivity].
        apply filter_In in R. destruct R as [_ R]. apply andb_true_iff in R. destruct R as [-> ->]. reflexivity.
    + intros (X & Y & Z). split; [rewrite A; exact X|]. split; [apply E; exact Y|]. intros r R. rewrite A. apply C in R. destruct R as [R|R]; [apply filter_In in R; tauto|apply Z; exact R].
Qed.

Lemma combine_in n (l : list nat) : forall r, In r (combine (seq n (length l)) l) -> In (snd r) l.
Proof. intros [a b] H. apply in_combine_r in H. exact H. Qed.
Lemma combine_snd (l : list nat) : forall n, map snd (combine (seq n (length l)) l) = l.
Proof. induction l as [|a l IH]; intros n; [reflexivity|]. cbn. rewrite IH. reflexivity. Qed.

Lemma make_ok d n l : NoDup l -> (forall o, In o l -> mem o d = false) -> ok d (make n l) /\ elements d (make n l) = l /\ exact d (make n l).
Proof.
  intros N L. assert (V : forall r, In r (tab (make n l)) -> live d r = true).
  { intros r R. apply combine_in in R. unfold live. rewrite L by exact R. reflexivity. }
  assert (E : elements d (make n l) = l).
  { unfold elements. assert (F : filter (live d) (tab (make n l)) = tab (make n l)).
    { clear N L. induction (tab (make n l)) as [|r t IH]; [reflexivity|]. cbn [filter]. rewrite (V r (or_introl eq_refl)). f_equal. apply IH. intros q Q. apply V. right. exact Q. }
    rewrite F. apply combine_snd. }
  split; [|split; [exact E|]].
  - constructor; [rewrite E; exact N| | |intros r []].
    + intros r R X. rewrite (V r R) in X. discriminate.
    + intros _. exact V.
  - split; [|split; [constructor|intros r []]]. apply (NoDup_map_inv snd). cbn. rewrite combine_snd. exact N.
Qed.

Lemma elements_live d x o : In o (elements d x) -> mem o d = false.
Proof. unfold elements. rewrite in_map_iff. intros (r & <- & H). apply filter_In in H. destruct H as [_ H]. unfold live in H. apply negb_true_iff in H. exact H. Qed.

(** pop *)
Lemma take_split n : forall t, match take_nth n t with None => t = [] | Some (r, t') => exists a b, t = a ++ r :: b /\ t' = a ++ b end.
Proof.
  induction n as [|n IH]; intros [|r t]; cbn; try reflexivity.
  - exists [], t. auto.
  - specialize (IH t). destruct (take_nth n t) as [[q t']|].
    + destruct IH as (a & b & -> & ->). exists (r :: a), b. auto.
    + subst t. exists [], []. auto.
Qed.

Lemma pop_spec d fuel : forall which t, length t <= fuel ->
  match pop_loop fuel d which t with
  | (t', Some o) => exists a b r, map snd (filter (live d) t) = map snd (filter (live d) a) ++ o :: map snd (filter (live d) b) /\
                     map snd (filter (live d) t') = map snd (filter (live d) a) ++ map snd (filter (live d) b) /\ (forall q, In q t' -> In q t) /\ In r t
  | (t', None) => t' = [] /\ map snd (filter (live d) t) = []
  end.
Proof.
  induction fuel as [|fuel IH]; intros which t L; cbn [pop_loop].
  - destruct t; [auto|cbn in L; lia].
  - pose proof (take_split (hd 0 which) t) as S1. destruct (take_nth (hd 0 which) t) as [[r t']|].
    + destruct S1 as (a & b & -> & ->). destruct (live d r) eqn:V.
      * exists a, b, r. rewrite !filter_app, !map_app. cbn [filter]. rewrite V. split; [reflexivity|]. split; [reflexivity|].
        split; [intros q; rewrite !in_app_iff; cbn; tauto|apply in_or_app; right; left; reflexivity].
      * specialize (IH (tl which) (a ++ b)). rewrite app_length in *. cbn [length] in L.
        assert (E : map snd (filter (live d) (a ++ r :: b)) = map snd (filter (live d) (a ++ b))) by (rewrite !filter_app; cbn [filter]; rewrite V; reflexivity).
        rewrite E. specialize (IH ltac:(lia)). destruct (pop_loop fuel d (tl which) (a ++ b)) as [t2 [o|]]; [|exact IH].
        destruct IH as (a2 & b2 & r2 & H1 & H2 & H3 & H4). exists a2, b2, r. split; [exact H1|]. split; [exact H2|].
        split; [intros q Q; apply H3 in Q; rewrite !in_app_iff in *; cbn; tauto|apply in_or_app; right; left; reflexivity].
    + subst t. auto.
Qed.

(** * The world *)

Definition good (w : world) : Prop := forall s, ok (gone w) (sets w s).
Definition A (w : world) : aworld := mk_aworld (fun s o => mem o (elements (gone w) (sets w s))) (fun s => iters (sets w s)) (gone w).

Lemma alike_refl m : alike m m.
Proof. unfold alike. auto. Qed.
Lemma alike_trans m1 m2 m3 : alike m1 m2 -> alike m2 m3 -> alike m1 m3.
Proof. intros (a & b & c) (a' & b' & c'). split; [|split]; intros; congruence. Qed.
Lemma alike_sym m1 m2 : alike m1 m2 -> alike m2 m1.
Proof. intros (a & b & c). split; [|split]; intros; congruence. Qed.

(** A set is replaced by one with the members [f]. *)
Lemma put_alike w s x f n : (forall q, mem q (elements (gone w) x) = f q) -> iters x = iters (sets w s) ->
  alike (update (A w) s f) (A (mk_world (sets (store w s x)) (gone w) n)).
Proof.
  intros E I0. unfold alike, update, A, store, change. cbn. split; [|split; [|reflexivity]]; intros t; [intros o|]; destruct (t =? s) eqn:K; auto.
  apply Nat.eqb_eq in K. subst. auto.
Qed.
Lemma keep_alike w s x n : (forall q, mem q (elements (gone w) x) = mem q (elements (gone w) (sets w s))) -> iters x = iters (sets w s) ->
  alike (A w) (A (mk_world (sets (store w s x)) (gone w) n)).
Proof.
  intros E I0. unfold alike, A, store. cbn. split; [|split; [|reflexivity]]; intros t; [intros o|]; destruct (t =? s) eqn:K; auto;
    apply Nat.eqb_eq in K; subst; auto.
Qed.
Lemma store_good w s x n : good w -> ok (gone w) x -> good (mk_world (sets (store w s x)) (gone w) n).
Proof. intros G O t. cbn. destruct (t =? s); [exact O|apply G]. Qed.

Lemma store_eta w s x : store w s x = mk_world (sets (store w s x)) (gone w) (fresh w).
Proof. reflexivity. Qed.

Definition all_exact (w : world) : Prop := forall s, exact (gone w) (sets w s).
Lemma store_exact w s x n : all_exact w -> exact (gone w) x -> all_exact (mk_world (sets (store w s x)) (gone w) n).
Proof. intros G O t. cbn. destruct (t =? s); [exact O|apply G]. Qed.

Lemma iterate_world w s : good w -> good (fst (iterate_at w s)) /\ alike (A w) (A (fst (iterate_at w s))) /\
  snd (iterate_at w s) = elements (gone w) (sets w s) /\ gone (fst (iterate_at w s)) = gone w /\ fresh (fst (iterate_at w s)) = fresh w /\
  (forall t, elements (gone w) (sets (fst (iterate_at w s)) t) = elements (gone w) (sets w t)) /\
  (forall t, iters (sets (fst (iterate_at w s)) t) = iters (sets w t)) /\ (all_exact w -> all_exact (fst (iterate_at w s))).
Proof.
  intros G. destruct (iterate_ok (gone w) (sets w s) (G s)) as (O & E & I0 & L & X). unfold iterate_at.
  destruct (iterate (gone w) (sets w s)) as [x l]. cbn [fst snd] in *. rewrite store_eta.
  split; [apply store_good; assumption|]. split; [apply keep_alike; [intros q; rewrite E; reflexivity|exact I0]|]. split; [exact L|]. split; [reflexivity|]. split; [reflexivity|].
  split; [|split].
  - intros t. cbn. destruct (t =? s) eqn:K; [apply Nat.eqb_eq in K; subst; exact E|reflexivity].
  - intros t. cbn. destruct (t =? s) eqn:K; [apply Nat.eqb_eq in K; subst; exact I0|reflexivity].
  - intros Y. apply store_exact; [exact Y|apply X; apply Y].
Qed.

Lemma fill_world w r l f : good w -> NoDup l -> (forall o, In o l -> mem o (gone w) = false) -> (forall q, mem q l = f q) ->
  good (fst (fill w r l)) /\ snd (fill w r l) = Done /\ alike (renew (A w) r f) (A (fst (fill w r l))) /\ (all_exact w -> all_exact (fst (fill w r l))).
Proof.
  intros G N L F. destruct (make_ok (gone w) (fresh w) l N L) as (O & E & X). unfold fill. cbn [fst snd]. split; [|split; [reflexivity|split]].
  - intros t. cbn. destruct (t =? r); [exact O|apply G].
  - unfold alike, renew, A, change. cbn. split; [|split; [|reflexivity]]; intros t; [intros o|]; destruct (t =? r); try reflexivity. rewrite E. rewrite F. reflexivity.
  - intros Y t. cbn. destruct (t =? r); [exact X|apply Y].
Qed.

Lemma renew_alike m m' r f f' : alike m m' -> (forall q, f q = f' q) -> alike (renew m r f) (renew m' r f').
Proof. intros (a & b & c) F. unfold alike, renew, change. cbn. split; [|split; [|exact c]]; intros t; [intros o|]; destruct (t =? r); auto. Qed.

Lemma add_all_ok d l : forall x n, ok d x -> (forall o, In o l -> mem o d = false) ->
  let y := fst (add_all d (x, n) l) in ok d y /\ (forall q, mem q (elements d y) = mem q (elements d x) || mem q l) /\ iters y = iters x /\ (exact d x -> exact d y).
Proof.
  induction l as [|o l IH]; intros x n O L; cbn [add_all fold_left fst].
  - split; [exact O|]. split; [intros q; rewrite orb_false_r; reflexivity|]. auto.
  - destruct (add_ok d n x o O (L o (or_introl eq_refl))) as [B E].
    destruct (IH (add d n x o) (S n) B (fun q Q => L q (or_intror Q))) as (C & F & I0 & X). unfold add_all in *. split; [exact C|]. split; [|split].
    + intros q. rewrite F, E. change (mem q (o :: l)) with ((q =? o) || mem q l). destruct (mem o (elements d x)) eqn:M.
      * destruct (q =? o) eqn:K; [|reflexivity]. apply Nat.eqb_eq in K. subst. rewrite M. reflexivity.
      * rewrite mem_app. cbn. rewrite orb_false_r, orb_assoc. reflexivity.
    + rewrite I0. unfold add. destruct (contains d x o); reflexivity.
    + intros Y. apply X. apply add_exact; [apply L; left; reflexivity|exact Y].
Qed.

Lemma discard_all_ok d l : forall x, ok d x -> let y := fold_left (discard d) l x in
  ok d y /\ (forall q, mem q (elements d y) = mem q (elements d x) && negb (mem q l)) /\ iters y = iters x /\ (exact d x -> exact d y).
Proof.
  induction l as [|o l IH]; intros x O; cbn [fold_left].
  - split; [exact O|]. split; [intros q; rewrite andb_true_r; reflexivity|]. auto.
  - destruct (discard_ok d x o O) as [B E]. destruct (IH _ B) as (C & F & I0 & X). split; [exact C|]. split; [|split].
    + intros q. rewrite F, E, mem_filter. change (mem q (o :: l)) with ((q =? o) || mem q l). rewrite negb_orb, andb_assoc. reflexivity.
    + exact I0.
    + intros Y. apply X. apply discard_exact; assumption.
Qed.

Lemma existsb_live d x r : live d r = true -> existsb (fun q => ref_eqb d q r) (tab x) = mem (snd r) (elements d x).
Proof.
  intros L. rewrite <- contains_elements. unfold contains. induction (tab x) as [|q t IH]; [reflexivity|]. cbn [existsb]. rewrite IH. f_equal.
  destruct (live d q) eqn:V; [rewrite ref_eqb_live, L by exact V; reflexivity|]. rewrite ref_eqb_dead by exact V.
  destruct (same_ref q r) eqn:K; [|reflexivity]. apply same_ref_eq in K. congruence.
Qed.

Lemma ixor_ok d y : NoDup (map snd (filter (live d) y)) -> forall x n, ok d x ->
  let z := fst (fold_left (ixor_one d) y (x, n)) in
  ok d z /\ (forall q, mem q (elements d z) = xorb (mem q (elements d x)) (mem q (map snd (filter (live d) y)))) /\ iters z = iters x /\
  ((forall r, In r y -> live d r = true) -> exact d x -> exact d z).
Proof.
  induction y as [|r y IH]; intros N x n O.
  - cbn. split; [exact O|]. split; [intros q; rewrite xorb_false_r; reflexivity|]. auto.
  - cbn [fold_left]. unfold ixor_one at 2 4 6 8. cbn [filter] in N. cbn [filter]. destruct (live d r) eqn:L.
    + cbn [map] in N. inversion N as [|? ? M N']; subst.
      assert (LV : mem (snd r) d = false) by (unfold live in L; apply negb_true_iff in L; exact L).
      rewrite existsb_live by exact L. destruct (mem (snd r) (elements d x)) eqn:K.
      * destruct (set_discard_ok d x r O) as [B E]. rewrite L in E. destruct (IH N' (set_discard d x r) n B) as (C & F & I0 & X).
        split; [exact C|]. split; [|split; [exact I0|]].
        -- intros q. rewrite F, E, mem_filter. cbn [map]. change (mem q (snd r :: map snd (filter (live d) y))) with ((q =? snd r) || mem q (map snd (filter (live d) y))).
           destruct (q =? snd r) eqn:Q; cbn; [|rewrite andb_true_r; reflexivity]. apply Nat.eqb_eq in Q. subst q. rewrite K. apply mem_not in M. rewrite M. reflexivity.
        -- intros V Y. apply X; [intros q Q; apply V; right; exact Q|]. apply set_discard_exact; assumption.
      * destruct (add_ok d n x (snd r) O LV) as [B E]. rewrite K in E. destruct (IH N' (add d n x (snd r)) (S n) B) as (C & F & I0 & X).
        split; [exact C|]. split; [|split].
        -- intros q. rewrite F, E, mem_app. cbn [map]. change (mem q (snd r :: map snd (filter (live d) y))) with ((q =? snd r) || mem q (map snd (filter (live d) y))).
           cbn [mem existsb]. rewrite orb_false_r. destruct (q =? snd r) eqn:Q; cbn; [|rewrite orb_false_r; reflexivity]. apply Nat.eqb_eq in Q. subst q. rewrite K. apply mem_not in M. rewrite M. reflexivity.
        -- rewrite I0. unfold add. destruct (contains d x (snd r)); reflexivity.
        -- intros V Y. apply X; [intros q Q; apply V; right; exact Q|]. apply add_exact; assumption.
    + destruct (pending_ok d x r L O) as [B E]. destruct (IH N (add_pending x r) n B) as (C & F & I0 & X).
      split; [exact C|]. split; [intros q; rewrite F, E; reflexivity|]. split; [exact I0|]. intros V. rewrite (V r (or_introl eq_refl)) in L. discriminate.
Qed.

Lemma pop_ok d which x : ok d x -> match pop_loop (length (tab x)) d which (tab x) with
  | (t, Some o) => ok d (mk_wset t (pend x) (iters x)) /\ mem o (elements d x) = true /\
                   (forall q, mem q (elements d (mk_wset t (pend x) (iters x))) = negb (q =? o) && mem q (elements d x))
  | (t, None) => t = [] /\ elements d x = []
  end.
Proof.
  intros O. pose proof (pop_spec d (length (tab x)) which (tab x) (le_n _)) as H. destruct (pop_loop (length (tab x)) d which (tab x)) as [t [o|]]; [|exact H].
  destruct H as (a & b & r & E & F & I0 & _). destruct O as [N D L P]. unfold elements in N. rewrite E in N.
  split; [|split].
  - constructor; cbn [tab pend iters].
    + unfold elements. cbn [tab]. rewrite F. apply NoDup_remove_1 in N. exact N.
    + intros q Q. apply D. apply I0. exact Q.
    + intros Z q Q. apply (L Z). apply I0. exact Q.
    + exact P.
  - apply mem_In. unfold elements. rewrite E. apply in_or_app. right. left. reflexivity.
  - intros q. unfold elements. cbn [tab]. rewrite E, F. rewrite !mem_app. cbn [mem existsb]. apply NoDup_remove_2 in N.
    destruct (q =? o) eqn:K; cbn [orb andb negb]; [|reflexivity]. apply Nat.eqb_eq in K. subst q. rewrite <- mem_app. apply mem_not. exact N.
Qed.

Lemma eq_true_iff a b : (a = true <-> b = true) -> a = b.
Proof. destruct a, b; intuition congruence. Qed.

Lemma below_ok d x y : (forall r, In r x -> live d r = true) -> (forall r, In r y -> live d r = true) ->
  below d x y = true <-> forall o, In o (map snd x) -> In o (map snd y).
Proof.
  intros X Y. unfold below. rewrite forallb_forall. split.
  - intros H o K. apply in_map_iff in K. destruct K as (r & <- & R). specialize (H r R). apply existsb_exists in H. destruct H as (q & Q & E).
    rewrite ref_eqb_live in E by (apply X; exact R). apply andb_true_iff in E. destruct E as [_ E]. apply Nat.eqb_eq in E. rewrite E. apply in_map. exact Q.
  - intros H r R. specialize (H (snd r) (in_map snd _ _ R)). apply in_map_iff in H. destruct H as (q & E & Q). apply existsb_exists. exists q. split; [exact Q|].
    rewrite ref_eqb_live by (apply X; exact R). rewrite (Y q Q), E, Nat.eqb_refl. reflexivity.
Qed.

Lemma all_live_elements d x : ok d x -> iters x = 0 -> elements d x = map snd (tab x).
Proof.
  intros O Z. unfold elements. f_equal. pose proof (o_live d x O Z) as L. induction (tab x) as [|r t IH]; [reflexivity|]. cbn [filter].
  rewrite (L r (or_introl eq_refl)). f_equal. apply IH. intros q Q. apply L. right. exact Q.
Qed.

Lemma le_right d x y : ok d x -> ok d y -> iters x = 0 -> iters y = 0 ->
  le d x y = true <-> forall q, mem q (elements d x) = true -> mem q (elements d y) = true.
Proof.
  intros X Y Zx Zy. unfold le. rewrite andb_true_iff, (below_ok d (tab x) (tab y) (o_live d x X Zx) (o_live d y Y Zy)).
  rewrite <- (all_live_elements d x X Zx), <- (all_live_elements d y Y Zy). split.
  - intros [_ H] q. rewrite !mem_In. apply H.
  - intros H. assert (K : forall o, In o (elements d x) -> In o (elements d y)) by (intros o; rewrite <- !mem_In; apply H). split; [|exact K].
    apply Nat.leb_le. pose proof (NoDup_incl_length (o_nodup d x X) K) as M. rewrite (all_live_elements d x X Zx), (all_live_elements d y Y Zy), !map_length in M. exact M.
Qed.
Lemma eq_right d x y : ok d x -> ok d y -> iters x = 0 -> iters y = 0 ->
  eq d x y = true <-> forall q, mem q (elements d x) = mem q (elements d y).
Proof.
  intros X Y Zx Zy. unfold eq. rewrite andb_true_iff, (below_ok d (tab x) (tab y) (o_live d x X Zx) (o_live d y Y Zy)), Nat.eqb_eq.
  assert (Lx : length (elements d x) = length (tab x)) by (rewrite all_live_elements, map_length by assumption; reflexivity).
  assert (Ly : length (elements d y) = length (tab y)) by (rewrite all_live_elements, map_length by assumption; reflexivity).
  rewrite <- (all_live_elements d x X Zx), <- (all_live_elements d y Y Zy). rewrite <- Lx, <- Ly. split.
  - intros [E H] q. apply eq_true_iff. rewrite !mem_In. split; [apply H|].
    apply (NoDup_length_incl (o_nodup d x X)); [rewrite E; apply le_n|exact H].
  - intros H. assert (K : forall o, In o (elements d x) <-> In o (elements d y)) by (intros o; rewrite <- !mem_In, H; tauto). split; [|intros o; apply K].
    apply Nat.le_antisymm; (apply NoDup_incl_length; [eauto using o_nodup|intros o; apply K]).
Qed.

Lemma forallb_disjoint k l : forallb (fun o => negb (mem o k)) l = true <-> forall q, mem q l = true -> mem q k = false.
Proof.
  rewrite forallb_forall. split; intros H q Q.
  - apply negb_true_iff. apply H. apply mem_In. exact Q.
  - apply negb_true_iff. apply H. apply mem_In. exact Q.
Qed.

Lemma nodup_app_filter (l k : list nat) : NoDup l -> NoDup k -> NoDup (l ++ filter (fun o => negb (mem o l)) k).
Proof.
  intros L K. induction L as [|a l A0 L IH].
  - cbn. apply NoDup_filter. exact K.
  - cbn [app]. constructor.
    + rewrite in_app_iff, filter_In. intros [H|[_ H]]; [contradiction|]. apply negb_true_iff, mem_not in H. apply H. left. reflexivity.
    + assert (E : filter (fun o => negb (mem o (a :: l))) k = filter (fun o => negb (o =? a)) (filter (fun o => negb (mem o l)) k)).
      { clear. induction k as [|b k IH]; [reflexivity|]. cbn [filter]. change (mem b (a :: l)) with ((b =? a) || mem b l). rewrite negb_orb, IH.
        destruct (negb (mem b l)) eqn:M; cbn [filter]; destruct (negb (b =? a)); cbn; reflexivity. }
      rewrite E. clear E. revert IH. generalize (filter (fun o => negb (mem o l)) k). intros z. clear. induction l as [|b l IH].
      * cbn. intros H. apply NoDup_filter. exact H.
      * cbn [app]. intros H. inversion H as [|? ? B C]; subst. constructor; [|apply IH; exact C]. intros X. apply B. rewrite in_app_iff in *. destruct X as [X|X]; [auto|]. apply filter_In in X. tauto.
Qed.
Lemma nodup_app (l k : list nat) : NoDup l -> NoDup k -> (forall o, In o l -> ~ In o k) -> NoDup (l ++ k).
Proof.
  intros L K. induction L as [|a l A0 L IH]; intros H; [exact K|]. cbn. constructor; [|apply IH; intros o Q; apply H; right; exact Q].
  rewrite in_app_iff. intros [X|X]; [contradiction|]. apply (H a (or_introl eq_refl) X).
Qed.

Lemma alike_mem w w' s q : alike (A w) (A w') -> mem q (elements (gone w) (sets w s)) = mem q (elements (gone w') (sets w' s)).
Proof. intros (H & _). apply H. Qed.

Lemma step_right w a : good w -> apart a -> let '(w', x) := step w a in good w' /\ exists m, after (A w) a x m /\ alike m (A w').
Proof.
  intros G K. destruct a; cbn [step].
  - (* add *) destruct (mem o (gone w)) eqn:M.
    + split; [exact G|]. exists (A w). split; [eapply A_dead; [left; reflexivity|exact M]|apply alike_refl].
    + destruct (add_ok (gone w) (fresh w) (sets w s) o (G s) M) as [B E]. split; [apply store_good; assumption|]. eexists. split; [apply A_add; exact M|].
      apply put_alike; [|unfold add; destruct (contains (gone w) (sets w s) o); reflexivity]. intros q. rewrite E. cbn. destruct (mem o (elements (gone w) (sets w s))) eqn:C.
      * destruct (q =? o) eqn:Q; [|reflexivity]. apply Nat.eqb_eq in Q. subst. exact C.
      * rewrite mem_app. cbn. rewrite orb_false_r. apply orb_comm.
  - (* discard *) destruct (mem o (gone w)) eqn:M.
    + split; [exact G|]. exists (A w). split; [eapply A_dead; [right; left; reflexivity|exact M]|apply alike_refl].
    + destruct (discard_ok (gone w) (sets w s) o (G s)) as [B E]. rewrite store_eta. split; [apply store_good; assumption|]. eexists. split; [apply A_discard; exact M|].
      apply put_alike; [|reflexivity]. intros q. rewrite E, mem_filter. apply andb_comm.
  - (* remove *) destruct (mem o (gone w)) eqn:M.
    + split; [exact G|]. exists (A w). split; [eapply A_dead; [right; right; left; reflexivity|exact M]|apply alike_refl].
    + rewrite contains_elements. destruct (mem o (elements (gone w) (sets w s))) eqn:C.
      * destruct (discard_ok (gone w) (sets w s) o (G s)) as [B E]. rewrite store_eta. split; [apply store_good; assumption|]. eexists. split; [apply A_remove; [exact M|exact C]|].
        apply put_alike; [|reflexivity]. intros q. rewrite E, mem_filter. apply andb_comm.
      * split; [exact G|]. exists (A w). split; [apply A_remove_missing; [exact M|exact C]|apply alike_refl].
  - (* in *) destruct (mem o (gone w)) eqn:M; (split; [exact G|]); exists (A w); (split; [|apply alike_refl]).
    + eapply A_dead; [right; right; right; left; reflexivity|exact M].
    + rewrite contains_elements. apply (A_in (A w)). exact M.
  - (* len *) split; [exact G|]. exists (A w). split; [|apply alike_refl]. apply A_len. unfold len. destruct (_ <? _); eauto.
  - (* pop *) pose proof (pop_ok (gone w) which (sets w s) (G s)) as P. destruct (pop_loop _ _ _ _) as [t [o|]].
    + destruct P as (B & C & E). rewrite store_eta. split; [apply store_good; assumption|]. eexists. split; [apply A_pop; exact C|]. apply put_alike; [exact E|reflexivity].
    + destruct P as (-> & C). split.
      * rewrite store_eta. apply store_good; [exact G|]. destruct (G s) as [N D L P]. constructor; cbn; [constructor|intros r []|intros _ r []|exact P].
      * exists (A w). split; [apply A_pop_empty; intros o; cbn; rewrite C; reflexivity|]. rewrite store_eta. apply keep_alike; [intros q; rewrite C; reflexivity|reflexivity].
  - (* clear *) split.
    + rewrite store_eta. apply store_good; [exact G|]. constructor; cbn; [constructor|intros r []|intros _ r []|intros r []].
    + eexists. split; [apply A_clear|]. rewrite store_eta. apply put_alike; reflexivity.
  - (* list *) destruct (iterate_world w s G) as (G1 & E1 & L1 & _). destruct (iterate_at w s) as [w1 l]. cbn [fst snd] in *. split; [exact G1|]. subst l.
    exists (A w). split; [|exact E1]. apply A_list. split; [apply o_nodup; apply G|]. intros o. cbn. rewrite mem_In. tauto.
  - (* begin *) split.
    + rewrite store_eta. apply store_good; [exact G|]. destruct (G s) as [N D L P]. constructor; cbn; auto. discriminate.
    + eexists. split; [apply A_begin|]. unfold alike, A, reopen, change. cbn. split; [|split; [|reflexivity]]; intros t; [intros o|]; destruct (t =? s) eqn:Q; try reflexivity.
      apply Nat.eqb_eq in Q. subst. reflexivity.
  - (* end *) destruct (iters (sets w s)) as [|n] eqn:Z.
    + split; [exact G|]. eexists. split; [apply A_end|]. unfold alike, A, reopen, change. cbn. split; [reflexivity|split; [|reflexivity]]. intros t. destruct (t =? s) eqn:Q; [|reflexivity].
      apply Nat.eqb_eq in Q. subst. rewrite Z. reflexivity.
    + destruct (G s) as [N D L P]. destruct (closing_ok (gone w) (mk_wset (tab (sets w s)) (pend (sets w s)) n) N D P) as (B & E & F). rewrite store_eta. split; [apply store_good; assumption|].
      eexists. split; [apply A_end|]. unfold alike, A, reopen, change. cbn [has opened dead sets gone store]. split; [|split; [|reflexivity]]; intros t; [intros o|]; destruct (t =? s) eqn:Q; try reflexivity.
      * apply Nat.eqb_eq in Q. subst. rewrite E. reflexivity.
      * rewrite F, Z. cbn. apply Nat.sub_0_r.
  - (* die *) split.
    + intros s. apply (die_ok l (gone w) (sets w s) (G s)).
    + eexists. split; [apply A_die|]. unfold alike, A. cbn [has opened dead sets gone]. split; [|split; [|reflexivity]]; intros t; [intros o|]; destruct (die_ok l (gone w) (sets w t) (G t)) as (_ & E & I0 & _).
      * rewrite E, mem_filter. apply andb_comm.
      * symmetry. exact I0.
  - (* copy *) destruct (fill_world w r (elements (gone w) (sets w s)) (has (A w) s) G (o_nodup _ _ (G s)) (elements_live _ _) (fun q => eq_refl)) as (G1 & O1 & E1 & _).
    destruct (fill w r _) as [w1 x]. cbn [fst snd] in *. subst x. split; [exact G1|]. eexists. split; [apply A_copy|exact E1].
  - (* and *) assert (H : forall q, mem q (filter (contains (gone w) (sets w s)) (elements (gone w) (sets w t))) = has (A w) s q && has (A w) t q).
    { intros q. rewrite mem_filter, contains_elements. cbn. apply andb_comm. }
    destruct (fill_world w r _ _ G (NoDup_filter _ (o_nodup _ _ (G t))) (fun o Q => elements_live _ _ o (proj1 (proj1 (filter_In _ _ _) Q))) H) as (G1 & O1 & E1 & _).
    destruct (fill w r _) as [w1 x]. cbn [fst snd] in *. subst x. split; [exact G1|]. eexists. split; [apply A_and|exact E1].
  - (* or *) destruct (iterate_world w t G) as (G1 & E1 & L1 & D1 & _). destruct (iterate_at w t) as [w1 k]. cbn [fst snd] in *. subst k.
    set (l := elements (gone w) (sets w s)). set (k := elements (gone w) (sets w t)).
    destruct (fill_world w1 r (l ++ filter (fun o => negb (mem o l)) k) (fun q => has (A w) s q || has (A w) t q) G1) as (G2 & O2 & E2 & _).
    + apply nodup_app_filter; apply o_nodup; apply G.
    + intros o Q. rewrite D1. apply in_app_iff in Q. destruct Q as [Q|Q]; [apply elements_live in Q; exact Q|]. apply filter_In in Q. destruct Q as [Q _]. apply elements_live in Q. exact Q.
    + intros q. rewrite mem_app, mem_filter. cbn. fold l k. destruct (mem q l), (mem q k); reflexivity.
    + destruct (fill w1 r _) as [w2 x]. cbn [fst snd] in *. subst x. split; [exact G2|]. eexists. split; [apply A_or|]. eapply alike_trans; [|exact E2]. apply renew_alike; [exact E1|reflexivity].
  - (* sub *) destruct (iterate_world w t G) as (G1 & E1 & L1 & D1 & _ & S1 & _). destruct (iterate_at w t) as [w1 k]. cbn [fst snd] in *. subst k.
    destruct (iterate_world w1 s G1) as (G2 & E2 & L2 & D2 & _ & S2 & _). destruct (iterate_at w1 s) as [w2 l]. cbn [fst snd] in *. subst l. rewrite D1, S1 in *.
    set (l := elements (gone w) (sets w s)). set (k := elements (gone w) (sets w t)).
    destruct (fill_world w2 r (filter (fun o => negb (mem o k)) l) (fun q => has (A w) s q && negb (has (A w) t q)) G2) as (G3 & O3 & E3 & _).
    + apply NoDup_filter. apply o_nodup. apply G.
    + intros o Q. rewrite D2. apply filter_In in Q. destruct Q as [Q _]. apply elements_live in Q. exact Q.
    + intros q. rewrite mem_filter. reflexivity.
    + destruct (fill w2 r _) as [w3 x]. cbn [fst snd] in *. subst x. split; [exact G3|]. eexists. split; [apply A_sub|]. eapply alike_trans; [|exact E3]. apply renew_alike; [eapply alike_trans; eassumption|reflexivity].
  - (* xor *) destruct (iterate_world w t G) as (G1 & E1 & L1 & D1 & _ & S1 & _). destruct (iterate_at w t) as [w1 k]. cbn [fst snd] in *. subst k.
    destruct (iterate_world w1 s G1) as (G2 & E2 & L2 & D2 & _ & S2 & _). destruct (iterate_at w1 s) as [w2 l]. cbn [fst snd] in *. subst l. rewrite D1, S1 in *.
    set (l := elements (gone w) (sets w s)). set (k := elements (gone w) (sets w t)).
    destruct (fill_world w2 r (filter (fun o => negb (mem o k)) l ++ filter (fun o => negb (mem o l)) k) (fun q => xorb (has (A w) s q) (has (A w) t q)) G2) as (G3 & O3 & E3 & _).
    + apply nodup_app; try (apply NoDup_filter; apply o_nodup; apply G). intros o X Y. apply filter_In in X. apply filter_In in Y. destruct X as [X _], Y as [_ Y]. apply mem_In in X. rewrite X in Y. discriminate.
    + intros o Q. rewrite D2. apply in_app_iff in Q. destruct Q as [Q|Q]; apply filter_In in Q; destruct Q as [Q _]; apply elements_live in Q; exact Q.
    + intros q. rewrite mem_app, !mem_filter. cbn. fold l k. destruct (mem q l), (mem q k); reflexivity.
    + destruct (fill w2 r _) as [w3 x]. cbn [fst snd] in *. subst x. split; [exact G3|]. eexists. split; [apply A_xor|]. eapply alike_trans; [|exact E3]. apply renew_alike; [eapply alike_trans; eassumption|reflexivity].
  - (* iand *) destruct (iterate_world w t G) as (G1 & E1 & L1 & D1 & _ & S1 & I1 & _). destruct (iterate_at w t) as [w1 k]. cbn [fst snd] in *. subst k.
    destruct (iterate_world w1 s G1) as (G2 & E2 & L2 & D2 & _ & S2 & I2 & _). destruct (iterate_at w1 s) as [w2 l]. cbn [fst snd] in *. subst l. rewrite D1, S1 in *.
    set (l := elements (gone w) (sets w s)) in *. set (k := elements (gone w) (sets w t)) in *.
    destruct (discard_all_ok (gone w) (filter (fun o => negb (mem o k)) l) (sets w2 s)) as (B & E & I0 & _); [rewrite <- D2; apply G2|].
    split; [rewrite store_eta; apply store_good; [exact G2|rewrite D2; exact B]|]. eexists. split; [apply A_iand|].
    eapply alike_trans; [|rewrite store_eta; apply put_alike; [intros q; rewrite D2; apply E|exact I0]].
    unfold alike, update, A, change. cbn [has opened dead]. split; [|split; [|congruence]]; intros u; [intros o|rewrite I2, I1; reflexivity]. rewrite D2. destruct (u =? s) eqn:Q; [|rewrite S2, S1; reflexivity].
    rewrite mem_filter, S2, S1. fold l k. destruct (mem o l), (mem o k); reflexivity.
  - (* ior *) destruct (add_all_ok (gone w) (elements (gone w) (sets w t)) (sets w s) (fresh w) (G s) (elements_live _ _)) as (B & E & I0 & _).
    destruct (add_all (gone w) (sets w s, fresh w) (elements (gone w) (sets w t))) as [x n]. cbn [fst] in *.
    assert (G1 : good (store w s x)) by (rewrite store_eta; apply store_good; assumption).
    destruct (iterate_world (store w s x) t G1) as (G2 & E2 & _ & D2 & _). destruct (iterate_at (store w s x) t) as [w2 l]. cbn [fst snd] in *.
    split; [intros u; specialize (G2 u); rewrite D2 in G2; exact G2|]. eexists. split; [apply A_ior|]. eapply alike_trans; [|eapply alike_trans; [exact E2|]].
    + rewrite store_eta. apply put_alike; [exact E|exact I0].
    + unfold alike, A. cbn. rewrite D2. auto.
  - (* isub *) cbn in K. destruct (s =? t) eqn:Q; [apply Nat.eqb_eq in Q; contradiction|].
    assert (H : forall y x, ok (gone w) x -> ok (gone w) (fold_left (set_discard (gone w)) y x) /\
       (forall q, mem q (elements (gone w) (fold_left (set_discard (gone w)) y x)) = mem q (elements (gone w) x) && negb (mem q (map snd (filter (live (gone w)) y)))) /\ iters (fold_left (set_discard (gone w)) y x) = iters x).
    { clear. induction y as [|r y IH]; intros x O; cbn [fold_left]; [split; [exact O|]; split; [intros q; cbn; rewrite andb_true_r; reflexivity|reflexivity]|].
      destruct (set_discard_ok (gone w) x r O) as [B E]. destruct (IH _ B) as (C & F & I0). split; [exact C|]. split; [|exact I0]. intros q. rewrite F, E. cbn [filter]. destruct (live (gone w) r); [|reflexivity].
      rewrite mem_filter. cbn [map]. change (mem q (snd r :: map snd (filter (live (gone w)) y))) with ((q =? snd r) || mem q (map snd (filter (live (gone w)) y))). rewrite negb_orb, andb_assoc. reflexivity. }
    destruct (H (tab (sets w t)) (sets w s) (G s)) as (B & E & I0). rewrite store_eta. split; [apply store_good; assumption|]. eexists. split; [apply A_isub|]. apply put_alike; [exact E|exact I0].
  - (* ixor *) cbn in K. destruct (s =? t) eqn:Q; [apply Nat.eqb_eq in Q; contradiction|].
    destruct (ixor_ok (gone w) (tab (sets w t)) (o_nodup _ _ (G t)) (sets w s) (fresh w) (G s)) as (B & E & I0 & _). unfold ixor. destruct (fold_left (ixor_one (gone w)) (tab (sets w t)) (sets w s, fresh w)) as [x n]. cbn [fst] in *.
    split; [apply store_good; assumption|]. eexists. split; [apply A_ixor|]. apply put_alike; [exact E|exact I0].
  - (* eq *) split; [exact G|]. exists (A w). split; [|apply alike_refl]. apply A_eq. cbn. apply eq_right; apply G.
  - (* le *) split; [exact G|]. exists (A w). split; [|apply alike_refl]. apply A_le. cbn. apply le_right; apply G.
  - (* disjoint *) destruct (iterate_world w t G) as (G1 & E1 & L1 & D1 & _ & S1 & _). destruct (iterate_at w t) as [w1 k]. cbn [fst snd] in *. subst k.
    destruct (iterate_world w1 s G1) as (G2 & E2 & L2 & D2 & _ & S2 & _). destruct (iterate_at w1 s) as [w2 l]. cbn [fst snd] in *. subst l. rewrite D1, S1 in *.
    split; [exact G2|]. exists (A w). split; [|eapply alike_trans; eassumption]. apply A_disjoint. apply forallb_disjoint.
Qed.

Lemma init_good : good init.
Proof. intros s. constructor; cbn; [constructor|intros r []|intros _ r []|intros r []]. Qed.

Lemma sets_right l : forall w, good w -> Forall apart l -> exists m, history (A w) l (snd (run w l)) m /\ alike m (A (fst (run w l))) /\ good (fst (run w l)).
Proof.
  induction l as [|a l IH]; intros w G F.
  - exists (A w). split; [apply H_nil; apply alike_refl|]. split; [apply alike_refl|exact G].
  - inversion F as [|? ? F1 F2]; subst. cbn [run]. pose proof (step_right w a G F1) as S1. destruct (step w a) as [w1 x]. destruct S1 as (G1 & m1 & H1 & E1).
    destruct (IH w1 G1 F2) as (m & H & E & G2). destruct (run w1 l) as [w2 xs]. cbn [fst snd] in *. exists m. split; [|split; assumption]. eapply H_cons; eassumption.
Qed.

Lemma after_alike m1 m2 a x m1' m2' : alike m1 m2 -> after m1 a x m1' -> after m2 a x m2' -> alike m1' m2'.
Proof.
  intros (H1 & H2 & H3) X Y. destruct X.
  1: { inversion Y; subst; try (unfold alike; auto; fail); cbn in *; repeat match goal with H : _ \/ _ |- _ => destruct H | H : exists _, _ |- _ => destruct H end; congruence. }
  all: inversion Y; subst; try congruence;
    unfold alike, update, renew, reopen, change; cbn; (split; [|split]); intros; try rewrite H3; try reflexivity; auto;
    try match goal with |- context [?t =? ?s] => destruct (t =? s) eqn:? end; rewrite ?H1, ?H2; auto.
Qed.

Lemma history_determined l : forall m1 m2 xs m1' m2', alike m1 m2 -> history m1 l xs m1' -> history m2 l xs m2' -> alike m1' m2'.
Proof.
  induction l as [|a l IH]; intros m1 m2 xs m1' m2' E X Y; inversion X; inversion Y; subst.
  - repeat match goal with H : alike _ _ |- _ => destruct H as (? & ? & ?) end. split; [|split]; intros; congruence.
  - match goal with H : _ :: _ = _ :: _ |- _ => injection H as <- <- end.
    eapply IH; [|eassumption|eassumption].
    match goal with P : after m1 _ _ ?a, Q : after m2 _ _ ?b |- _ => pose proof (after_alike _ _ _ _ _ _ E P Q) end.
    repeat match goal with H : alike _ _ |- _ => destruct H as (? & ? & ?) end. split; [|split]; intros; congruence.
Qed.

Lemma after_opened m a x m' s : after m a x m' -> opened m' s = opened_by s a (opened m s).
Proof.
  intros H. destruct H; cbn; unfold change; rewrite ?(Nat.eqb_sym s); try reflexivity.
  - cbn in H. repeat match goal with H : _ \/ _ |- _ => destruct H end; subst; try reflexivity. contradiction.
  - destruct (s0 =? s) eqn:Q; [apply Nat.eqb_eq in Q; subst; reflexivity|reflexivity].
  - destruct (s0 =? s) eqn:Q; [apply Nat.eqb_eq in Q; subst; reflexivity|reflexivity].
Qed.

Lemma run_app l : forall w k, run w (l ++ k) = (fst (run (fst (run w l)) k), snd (run w l) ++ snd (run (fst (run w l)) k)).
Proof.
  induction l as [|a l IH]; intros w k; cbn [app run].
  - cbn [fst snd app]. destruct (run w k). reflexivity.
  - destruct (step w a) as [w1 x]. rewrite IH. destruct (run w1 l) as [w2 xs]. cbn [fst snd]. destruct (run w2 k). reflexivity.
Qed.
Lemma run_one w a : run w [a] = (fst (step w a), [snd (step w a)]).
Proof. cbn. destruct (step w a). reflexivity. Qed.

Lemma run_good l : Forall apart l -> good (fst (run init l)).
Proof. intros F. destruct (sets_right l init init_good F) as (m & _ & _ & G). exact G. Qed.

Lemma run_opened l s : Forall apart l -> iters (sets (fst (run init l)) s) = open_after l s.
Proof.
  induction l as [|a l IH] using rev_ind; intros F; [reflexivity|].
  apply Forall_app in F. destruct F as [F1 F2]. inversion F2 as [|? ? F3 _]; subst. rewrite run_app, run_one. cbn [fst].
  unfold open_after in *. rewrite fold_left_app. cbn [fold_left]. rewrite <- IH by exact F1.
  pose proof (step_right (fst (run init l)) a (run_good l F1) F3) as H. destruct (step (fst (run init l)) a) as [w' x]. destruct H as (_ & m & H & E). cbn [fst].
  apply (after_opened _ _ _ _ s) in H. cbn in H. rewrite <- H. destruct E as (_ & E & _). symmetry. apply E.
Qed.

Lemma step_exact w a : good w -> apart a -> match a with WPop s _ => iters (sets w s) = 0 | WISub _ t | WIXor _ t => iters (sets w t) = 0 | _ => True end ->
  all_exact w -> all_exact (fst (step w a)).
Proof.
  intros G K C X. destruct a; cbn [step].
  - destruct (mem o (gone w)) eqn:M; [exact X|]. apply store_exact; [exact X|]. apply add_exact; [exact M|apply X].
  - destruct (mem o (gone w)) eqn:M; [exact X|]. cbn [fst]. rewrite store_eta. apply store_exact; [exact X|]. apply discard_exact; [apply G|apply X].
  - destruct (mem o (gone w)) eqn:M; [exact X|]. destruct (contains _ _ _); [|exact X]. cbn [fst]. rewrite store_eta. apply store_exact; [exact X|]. apply discard_exact; [apply G|apply X].
  - destruct (mem o (gone w)); exact X.
  - exact X.
  - assert (P : pend (sets w s) = []).
    { destruct (pend (sets w s)) as [|r p] eqn:E; [reflexivity|]. exfalso. destruct (X s) as (_ & _ & I0). pose proof (o_pend _ _ (G s) r) as D. rewrite E in *.
      specialize (I0 r (or_introl eq_refl)). rewrite (o_live _ _ (G s) C r I0) in D. specialize (D (or_introl eq_refl)). discriminate. }
    assert (H : forall fuel which t, NoDup t -> NoDup (fst (pop_loop fuel (gone w) which t))).
    { induction fuel as [|fuel IH]; intros wh t N; cbn [pop_loop]; [exact N|]. pose proof (take_split (hd 0 wh) t) as S1. destruct (take_nth (hd 0 wh) t) as [[r t']|]; [|exact N].
      destruct S1 as (a & b & -> & ->). apply NoDup_remove_1 in N. destruct (live (gone w) r); [exact N|apply IH; exact N]. }
    specialize (H (length (tab (sets w s))) which (tab (sets w s)) (proj1 (X s))). destruct (pop_loop _ _ _ _) as [t v]. cbn [fst] in *.
    rewrite store_eta. apply store_exact; [exact X|]. rewrite P. split; [exact H|]. split; [constructor|intros r []].
  - cbn [fst]. rewrite store_eta. apply store_exact; [exact X|]. split; [constructor|]. split; [constructor|intros r []].
  - destruct (iterate_world w s G) as (_ & _ & _ & _ & _ & _ & _ & Y). destruct (iterate_at w s). apply Y. exact X.
  - cbn [fst]. rewrite store_eta. apply store_exact; [exact X|]. exact (X s).
  - destruct (iters (sets w s)); [exact X|]. cbn [fst]. rewrite store_eta. apply store_exact; [exact X|]. apply closing_exact. exact (X s).
  - intros s. cbn. apply (die_ok l (gone w) (sets w s) (G s)). apply X.
  - apply (fill_world w r (elements (gone w) (sets w s)) (has (A w) s) G (o_nodup _ _ (G s)) (elements_live _ _) (fun q => eq_refl)). exact X.
  - eapply (fill_world w r _ _ G (NoDup_filter _ (o_nodup _ _ (G t))) (fun o Q => elements_live _ _ o (proj1 (proj1 (filter_In _ _ _) Q))) (fun q => eq_refl)). exact X.
  - destruct (iterate_world w t G) as (G1 & E1 & L1 & D1 & _ & _ & _ & X1). destruct (iterate_at w t) as [w1 k]. cbn [fst snd] in *. subst k.
    eapply (fill_world w1 r _ _ G1); [| |intros q; reflexivity|apply X1; exact X].
    + apply nodup_app_filter; apply o_nodup; apply G.
    + intros o Q. rewrite D1. apply in_app_iff in Q. destruct Q as [Q|Q]; [apply elements_live in Q; exact Q|]. apply filter_In in Q. destruct Q as [Q _]. apply elements_live in Q. exact Q.
  - destruct (iterate_world w t G) as (G1 & E1 & L1 & D1 & _ & S1 & _ & X1). destruct (iterate_at w t) as [w1 k]. cbn [fst snd] in *. subst k.
    destruct (iterate_world w1 s G1) as (G2 & E2 & L2 & D2 & _ & S2 & _ & X2). destruct (iterate_at w1 s) as [w2 l]. cbn [fst snd] in *. subst l. rewrite D1, S1 in *.
    eapply (fill_world w2 r _ _ G2); [| |intros q; reflexivity|apply X2, X1; exact X].
    + apply NoDup_filter. apply o_nodup. apply G.
    + intros o Q. rewrite D2. apply filter_In in Q. destruct Q as [Q _]. apply elements_live in Q. exact Q.
  - destruct (iterate_world w t G) as (G1 & E1 & L1 & D1 & _ & S1 & _ & X1). destruct (iterate_at w t) as [w1 k]. cbn [fst snd] in *. subst k.
    destruct (iterate_world w1 s G1) as (G2 & E2 & L2 & D2 & _ & S2 & _ & X2). destruct (iterate_at w1 s) as [w2 l]. cbn [fst snd] in *. subst l. rewrite D1, S1 in *.
    eapply (fill_world w2 r _ _ G2); [| |intros q; reflexivity|apply X2, X1; exact X].
    + apply nodup_app; try (apply NoDup_filter; apply o_nodup; apply G). intros o Y Z. apply filter_In in Y. apply filter_In in Z. destruct Y as [Y _], Z as [_ Z]. apply mem_In in Y. rewrite Y in Z. discriminate.
    + intros o Q. rewrite D2. apply in_app_iff in Q. destruct Q as [Q|Q]; apply filter_In in Q; destruct Q as [Q _]; apply elements_live in Q; exact Q.
  - destruct (iterate_world w t G) as (G1 & E1 & L1 & D1 & _ & S1 & _ & X1). destruct (iterate_at w t) as [w1 k]. cbn [fst snd] in *. subst k.
    destruct (iterate_world w1 s G1) as (G2 & E2 & L2 & D2 & _ & S2 & _ & X2). destruct (iterate_at w1 s) as [w2 l]. cbn [fst snd] in *. subst l. rewrite D1, S1 in *.
    rewrite store_eta. apply store_exact; [apply X2, X1; exact X|]. rewrite D2.
    refine (proj2 (proj2 (proj2 (discard_all_ok (gone w) _ (sets w2 s) _))) _); rewrite <- D2; [apply G2|apply X2, X1; exact X].
  - destruct (add_all_ok (gone w) (elements (gone w) (sets w t)) (sets w s) (fresh w) (G s) (elements_live _ _)) as (B & E & I0 & X1).
    destruct (add_all (gone w) (sets w s, fresh w) (elements (gone w) (sets w t))) as [x n]. cbn [fst] in *.
    assert (G1 : good (store w s x)) by (rewrite store_eta; apply store_good; assumption).
    destruct (iterate_world (store w s x) t G1) as (G2 & E2 & _ & D2 & _ & _ & _ & X2). destruct (iterate_at (store w s x) t) as [w2 l]. cbn [fst snd] in *.
    assert (X3 : all_exact w2) by (apply X2; rewrite store_eta; apply store_exact; [exact X|apply X1; apply X]). intros u. specialize (X3 u). rewrite D2 in X3. exact X3.
  - cbn in K. destruct (s =? t) eqn:Q; [apply Nat.eqb_eq in Q; contradiction|]. cbn [fst]. rewrite store_eta. apply store_exact; [exact X|].
    pose proof (o_live _ _ (G t) C) as V. unfold isub. revert V. generalize (G s), (X s). generalize (sets w s).
    induction (tab (sets w t)) as [|r y IH]; intros x O Y V; [exact Y|]. cbn [fold_left]. apply IH.
    + apply set_discard_ok. exact O.
    + apply set_discard_exact; [apply V; left; reflexivity|exact O|exact Y].
    + intros q Z. apply V. right. exact Z.
  - cbn in K. destruct (s =? t) eqn:Q; [apply Nat.eqb_eq in Q; contradiction|].
    destruct (ixor_ok (gone w) (tab (sets w t)) (o_nodup _ _ (G t)) (sets w s) (fresh w) (G s)) as (B & E & I0 & X1). unfold ixor. destruct (fold_left (ixor_one (gone w)) (tab (sets w t)) (sets w s, fresh w)) as [x n]. cbn [fst] in *.
    apply store_exact; [exact X|]. apply X1; [apply o_live; [apply G|exact C]|apply X].
  - exact X.
  - exact X.
  - destruct (iterate_world w t G) as (G1 & E1 & L1 & D1 & _ & S1 & _ & X1). destruct (iterate_at w t) as [w1 k]. cbn [fst snd] in *. subst k.
    destruct (iterate_world w1 s G1) as (G2 & E2 & L2 & D2 & _ & S2 & _ & X2). destruct (iterate_at w1 s) as [w2 l]. cbn [fst snd] in *. subst l. apply X2, X1. exact X.
Qed.

Lemma calm_exact l : Forall apart l -> calm l -> all_exact (fst (run init l)).
Proof.
  induction l as [|a l IH] using rev_ind; intros F C.
  - intros s. split; [constructor|]. split; [constructor|intros r []].
  - pose proof F as F0. apply Forall_app in F. destruct F as [F1 F2]. inversion F2 as [|? ? F3 _]; subst. rewrite run_app, run_one. cbn [fst].
    apply step_exact; [apply run_good; exact F1|exact F3| |].
    + specialize (C l a [] eq_refl). destruct a; try exact I; rewrite run_opened by exact F1; exact C.
    + apply IH; [exact F1|]. intros before b rest E. apply (C before b (rest ++ [a])). rewrite E, <- app_assoc. reflexivity.
Qed.

Lemma len_exact d x : ok d x -> exact d x -> len x = Count (length (elements d x)).
Proof.
  intros O (N & P & I0). unfold len, elements. rewrite map_length.
  assert (E : length (tab x) = length (filter (live d) (tab x)) + length (filter (fun r => negb (live d r)) (tab x))).
  { clear. induction (tab x) as [|r t IH]; [reflexivity|]. cbn. destruct (live d r); cbn; lia. }
  assert (F : length (filter (fun r => negb (live d r)) (tab x)) = length (pend x)).
  { apply Nat.le_antisymm; apply NoDup_incl_length; [apply NoDup_filter; exact N| |exact P|]; intros r R.
    - apply filter_In in R. destruct R as [R L]. apply negb_true_iff in L. apply (o_dead d x O r R L).
    - apply filter_In. split; [apply I0; exact R|]. rewrite (o_pend d x O r R). reflexivity. }
  rewrite F in E. assert (J : forall a b c, a = b + c -> (if a <? c then ValueError else Count (a - c)) = Count b).
  { intros a b c ->. destruct (b + c <? c) eqn:K; [apply Nat.ltb_lt in K; lia|]. f_equal. lia. }
  exact (J _ _ _ E).
Qed.

Lemma weak_sets l : Forall apart l -> exists m, history abs_init l (snd (run init l)) m.
Proof. intros F. destruct (sets_right l init init_good F) as (m & H & _). exists m. exact H. Qed.

Lemma weak_determined l xs m1 m2 : history abs_init l xs m1 -> history abs_init l xs m2 -> alike m1 m2.
Proof. apply history_determined. apply alike_refl. Qed.

Lemma alike_abs l m : Forall apart l -> history abs_init l (snd (run init l)) m -> alike m (A (fst (run init l))).
Proof.
  intros F H. destruct (sets_right l init init_good F) as (m' & H' & E & _). eapply alike_trans; [|exact E]. eapply history_determined; [|exact H|exact H']. apply alike_refl.
Qed.

Lemma len_right l s m : Forall apart l -> calm l -> history abs_init l (snd (run init l)) m ->
  exists n, size (has m s) n /\ snd (run init (l ++ [WLen s])) = snd (run init l) ++ [Count n].
Proof.
  intros F C H. destruct (alike_abs l m F H) as (E & _). pose proof (run_good l F) as G. pose proof (calm_exact l F C) as X.
  set (w := fst (run init l)) in *. exists (length (elements (gone w) (sets w s))). split.
  - exists (elements (gone w) (sets w s)). split; [|reflexivity]. split; [apply o_nodup; apply G|]. intros o. rewrite E. cbn. rewrite mem_In. tauto.
  - rewrite run_app, run_one. cbn [fst snd]. fold w. cbn [step snd]. rewrite (len_exact (gone w)); [reflexivity|apply G|apply X].
Qed.

Lemma compare_right l s t m : Forall apart l -> history abs_init l (snd (run init l)) m -> open_after l s = 0 -> open_after l t = 0 ->
  exists b c, snd (run init (l ++ [WEq s t; WLe s t])) = snd (run init l) ++ [Is b; Is c] /\
    (b = true <-> forall q, has m s q = has m t q) /\ (c = true <-> forall q, has m s q = true -> has m t q = true).
Proof.
  intros F H S1 T1. destruct (alike_abs l m F H) as (E & _). pose proof (run_good l F) as G. rewrite <- (run_opened l s F) in S1. rewrite <- (run_opened l t F) in T1.
  set (w := fst (run init l)) in *. exists (eq (gone w) (sets w s) (sets w t)), (le (gone w) (sets w s) (sets w t)). split; [rewrite run_app; reflexivity|]. split.
  - rewrite (eq_right _ _ _ (G s) (G t) S1 T1). split; intros K q; [rewrite !E; apply K|]. specialize (K q). rewrite !E in K. exact K.
  - rewrite (le_right _ _ _ (G s) (G t) S1 T1). split; intros K q; [rewrite !E; apply K|]. specialize (K q). rewrite !E in K. exact K.
Qed.

Lemma isub_self_right l s m : Forall apart l -> history abs_init l (snd (run init l)) m -> open_after l s = 0 ->
  exists x, snd (run init (l ++ [WISub s s])) = snd (run init l) ++ [x] /\
    (x = Done <-> empty (has m s)) /\ (x = RuntimeError <-> ~ empty (has m s)).
Proof.
  intros F H S1. destruct (alike_abs l m F H) as (E & _). pose proof (run_good l F) as G. rewrite <- (run_opened l s F) in S1.
  set (w := fst (run init l)) in *. eexists. split; [rewrite run_app, run_one; reflexivity|]. fold w. cbn [step]. rewrite Nat.eqb_refl. unfold isub_self.
  pose proof (all_live_elements _ _ (G s) S1) as L. destruct (tab (sets w s)) as [|r t] eqn:T; cbn [snd].
  - assert (K : empty (has m s)) by (intros o; rewrite E; cbn; rewrite L; reflexivity). split; split; intros; auto; [discriminate|contradiction].
  - assert (K : ~ empty (has m s)).
    { intros K. specialize (K (snd r)). rewrite E in K. cbn in K. rewrite L in K. cbn in K. rewrite Nat.eqb_refl in K. discriminate. }
    split; split; intros; auto; [discriminate|contradiction].
Qed.

Lemma die_same l d x : (forall r, In r (tab x) -> live d r = true -> mem (snd r) l = false) -> (forall r, In r (tab x) -> live d r = true) -> tab (die l d x) = tab x.
Proof.
  intros H _. unfold die. destruct (iters x).
  - cbn. clear -H. induction (tab x) as [|r t IH]; [reflexivity|]. cbn. destruct (live d r) eqn:L; cbn.
    + rewrite (H r (or_introl eq_refl) L). cbn. f_equal. apply IH. intros q Q. apply H. right. exact Q.
    + f_equal. apply IH. intros q Q. apply H. right. exact Q.
  - apply pendings_fields.
Qed.

Lemma copy_right l s m deaths : Forall apart l -> history abs_init l (snd (run init l)) m -> open_after l s = 0 ->
  (forall n o, In o (deaths n) -> has m s o = false) ->
  exists k, copy deaths (gone (fst (run init l))) (sets (fst (run init l)) s) = Some k /\ lists (has m s) k.
Proof.
  intros F H S1 D. destruct (alike_abs l m F H) as (E & _). pose proof (run_good l F) as G. rewrite <- (run_opened l s F) in S1. set (w := fst (run init l)) in *.
  exists (elements (gone w) (sets w s)). split.
  - pose proof (all_live_elements _ _ (G s) S1) as L. pose proof (o_live _ _ (G s) S1) as V.
    assert (Z : forall n r, In r (tab (sets w s)) -> mem (snd r) (deaths n) = false).
    { intros n r R. apply mem_not. intros K. apply D in K. rewrite E in K. cbn in K. apply mem_not in K. apply K. rewrite L. apply in_map. exact R. }
    rewrite L. unfold copy.
    assert (J : forall rest n d x acc, tab x = tab (sets w s) -> (forall r, In r (tab x) -> live d r = true) -> (forall r, In r rest -> In r (tab x)) ->
      copy_loop n deaths d x rest acc = Some (acc ++ map snd rest)).
    { induction rest as [|r rest IH]; intros n d x acc T W I0; cbn [copy_loop]; rewrite (die_same (deaths n) d x); try (intros; rewrite T in *; apply Z; assumption); try exact W; rewrite Nat.eqb_refl.
      - rewrite app_nil_r. reflexivity.
      - assert (W' : forall q, In q (tab x) -> live (deaths n ++ d) q = true) by (intros q Q; rewrite live_app, (W q Q), (Z n q); [reflexivity|rewrite <- T; exact Q]).
        rewrite (W' r (I0 r (or_introl eq_refl))). rewrite IH.
        + rewrite <- app_assoc. reflexivity.
        + rewrite die_same; [exact T| |exact W]. intros q Q _. apply Z. rewrite <- T. exact Q.
        + rewrite die_same; [exact W'| |exact W]. intros q Q _. apply Z. rewrite <- T. exact Q.
        + rewrite die_same; [intros q Q; apply I0; right; exact Q| |exact W]. intros q Q _. apply Z. rewrite <- T. exact Q. }
    apply (J (tab (sets w s)) 0 (gone w) (sets w s) []); auto.
  - split; [apply o_nodup; apply G|]. intros o. rewrite E. cbn. rewrite mem_In. tauto.
Qed.
