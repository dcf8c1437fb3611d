(** Proofs for C53 and C96. *)
From Coq Require Import List ZArith Bool Arith Lia.
From Verif Require Import ServerModel ServerSpec.
Import ListNotations.

Lemma run_app s a b : fst (sv_run s (a ++ b)) = fst (sv_run (fst (sv_run s a)) b).
Proof.
  revert s. induction a as [|o a IH]; intros s; cbn; [reflexivity|].
  destruct (sv_step s o) as [s1 x]. specialize (IH s1).
  destruct (sv_run s1 (a ++ b)), (sv_run s1 a); cbn in *. exact IH.
Qed.
Lemma after_snoc os o : sv_after (os ++ [o]) = fst (sv_step (sv_after os) o).
Proof. unfold sv_after. rewrite run_app. cbn. now destruct (sv_step _ o). Qed.

Lemma attached_app a b : attached (a ++ b) = attached a + attached b.
Proof. induction a as [|[]]; cbn; lia. Qed.
Lemma detached_app a b : detached (a ++ b) = detached a + detached b.
Proof. induction a as [|[]]; cbn; lia. Qed.
Lemma legit_app a b : legit (a ++ b) -> legit a.
Proof.
  intros L n. specialize (L (min n (length a))). rewrite firstn_app in L.
  replace (min n (length a) - length a) with 0 in L by lia. cbn in L. rewrite app_nil_r in L.
  destruct (le_lt_dec n (length a)).
  - now rewrite Nat.min_l in L by lia.
  - rewrite Nat.min_r in L by lia. rewrite firstn_all in L. rewrite firstn_all2 by lia. exact L.
Qed.
Lemma legit_all a : legit a -> detached a <= attached a.
Proof. intros L. specialize (L (length a)). now rewrite firstn_all in L. Qed.

Lemma set_nth_length i v l : length (set_nth i v l) = length l.
Proof. revert i. induction l; intros [|i]; cbn; auto. Qed.
Lemma nth_set_same i v l : i < length l -> nth_error (set_nth i v l) i = Some v.
Proof. revert i. induction l; intros [|i] H; cbn in *; try lia; auto. apply IHl. lia. Qed.
Lemma nth_set_other i j v l : i <> j -> nth_error (set_nth i v l) j = nth_error l j.
Proof. revert i j. induction l; intros [|i] [|j] H; cbn; auto; try congruence. Qed.

Lemma wake_loop_length ws : forall fs, length (fst (wake_loop ws fs)) = length fs.
Proof.
  induction ws as [|w ws IH]; intros fs; cbn; [reflexivity|].
  destruct (nth_error fs w) as [[]|]; cbn; auto. rewrite IH. apply set_nth_length.
Qed.

(** The loop wakes the waiters up to the first one which is not pending. *)
Lemma wake_loop_seq n : forall i fs, i + n = length fs ->
  (forall j, j < i -> nth_error fs j = Some WWoken) ->
  exists c, c <= length fs /\ i <= c /\
    (forall j, j < c -> nth_error (fst (wake_loop (seq i n) fs)) j = Some WWoken) /\
    (forall j, c <= j -> nth_error (fst (wake_loop (seq i n) fs)) j = nth_error fs j) /\
    (forall j, i <= j -> j < c -> nth_error fs j = Some WPending) /\
    (c < length fs -> nth_error fs c <> Some WPending).
Proof.
  induction n as [|n IH]; intros i fs L W.
  - exists i. cbn. repeat split; auto; try lia.
  - cbn [seq wake_loop]. destruct (nth_error fs i) as [x|] eqn:E; [|apply nth_error_None in E; lia].
    destruct x.
    + destruct (IH (S i) (set_nth i WWoken fs)) as (c & C1 & C2 & C3 & C4 & C5 & C6).
      * rewrite set_nth_length. lia.
      * intros j J. destruct (Nat.eq_dec i j) as [<- | D]; [apply nth_set_same; lia|].
        rewrite nth_set_other by auto. apply W. lia.
      * rewrite set_nth_length in *. exists c. split; [lia|]. split; [lia|]. split; [auto|]. split; [|split].
        -- intros j J. rewrite C4 by auto. apply nth_set_other. lia.
        -- intros j J1 J2. destruct (Nat.eq_dec i j) as [<- | D]; [auto|].
           rewrite <- (C5 j) by lia. rewrite nth_set_other by auto. reflexivity.
        -- intros H. specialize (C6 H). rewrite nth_set_other in C6 by lia. exact C6.
    + exists i. cbn. repeat split; auto; try lia. congruence.
    + exists i. cbn. repeat split; auto; try lia. congruence.
Qed.

Lemma closed_app a o : closed (a ++ [o]) <-> closed a \/ o = SClose.
Proof. unfold closed. rewrite in_app_iff. cbn. intuition. Qed.

Lemma firstn_snoc_le {A} n (l : list A) x : n <= length l -> firstn n (l ++ [x]) = firstn n l.
Proof. intros L. rewrite firstn_app. replace (n - length l) with 0 by lia. cbn. now rewrite app_nil_r. Qed.
Lemma fin_prefix os o : (exists n, finished (firstn n os)) -> exists n, finished (firstn n (os ++ [o])).
Proof.
  intros [n F]. destruct (le_lt_dec n (length os)).
  - exists n. now rewrite firstn_snoc_le.
  - exists (length os). rewrite firstn_snoc_le by auto. rewrite firstn_all2 in F by lia. now rewrite firstn_all.
Qed.

Definition inv (os : list sv_op) (s : server) : Prop :=
  (sv_open s = false <-> closed os) /\
  sv_active s = (Z.of_nat (attached os) - Z.of_nat (detached os))%Z /\
  match sv_waiters s with
  | Some ws => ws = seq 0 (length (sv_futures s)) /\ (forall w, nth_error (sv_futures s) w <> Some WWoken) /\ ~ finished os
  | None => closed os /\
      (forall w, nth_error (sv_futures s) w = Some WPending -> exists c, c < w /\ nth_error (sv_futures s) c = Some WCancelled) /\
      exists n, finished (firstn n os)
  end.

Lemma wake_inv os s s1 x : finished os -> wake_up s = (s1, x) ->
  sv_open s = false -> sv_active s = (Z.of_nat (attached os) - Z.of_nat (detached os))%Z ->
  match sv_waiters s with
  | Some ws => ws = seq 0 (length (sv_futures s)) /\ (forall w, nth_error (sv_futures s) w <> Some WWoken)
  | None => closed os /\
      (forall w, nth_error (sv_futures s) w = Some WPending -> exists c, c < w /\ nth_error (sv_futures s) c = Some WCancelled) /\
      exists n, finished (firstn n os)
  end -> inv os s1.
Proof.
  intros F W Op Ac I. unfold wake_up in W. destruct (sv_waiters s) as [ws|] eqn:Ew.
  - destruct I as [-> NW].
    destruct (wake_loop_seq (length (sv_futures s)) 0 (sv_futures s) eq_refl ltac:(intros; lia)) as (c & C1 & C2 & C3 & C4 & C5 & C6).
    destruct (wake_loop (seq 0 (length (sv_futures s))) (sv_futures s)) as [fs ok] eqn:El.
    cbn [fst] in *. injection W as <- <-. unfold inv. cbn. split; [|split; [auto|split; [apply F|split]]].
    + split; [intros _; apply F|auto].
    + intros w P. destruct (le_lt_dec c w) as [G|G]; [|rewrite C3 in P by auto; discriminate].
      rewrite C4 in P by auto.
      assert (w < length (sv_futures s)) by (apply nth_error_Some; congruence).
      assert (c < length (sv_futures s)) by lia. specialize (C6 ltac:(auto)).
      destruct (Nat.eq_dec c w) as [-> | D]; [congruence|].
      exists c. split; [lia|]. rewrite C4 by auto.
      destruct (nth_error (sv_futures s) c) as [[]|] eqn:E; auto; [congruence|now destruct (NW c)|apply nth_error_None in E; lia].
    + exists (length os). now rewrite firstn_all.
  - injection W as <- <-. unfold inv. rewrite Ew. split; [split; [intros _; apply F|auto]|auto].
Qed.

Lemma inv_run os : legit os -> inv os (sv_after os).
Proof.
  induction os as [|o os IH] using rev_ind; intros L.
  - unfold sv_after, inv. cbn. split; [|split; [auto|split; [auto|split]]].
    + split; [discriminate|intros []].
    + intros [|w]; discriminate.
    + intros [[] _].
  - specialize (IH (legit_app _ _ L)). pose proof (legit_all _ L) as LA. pose proof (legit_all _ (legit_app _ _ L)) as LB.
    rewrite after_snoc. set (s := sv_after os) in *. destruct IH as (Op & Ac & I).
    assert (AT : attached (os ++ [o]) = attached os + attached [o]) by apply attached_app.
    assert (DT : detached (os ++ [o]) = detached os + detached [o]) by apply detached_app.
    assert (FP := fin_prefix os o). assert (CA := closed_app os o). assert (CB : closed os -> closed (os ++ [o])) by (intros; apply CA; auto).
    destruct o; cbn [attached detached] in AT, DT.
    + (* attach *)
      unfold inv. cbn. rewrite !CA. split; [rewrite Op; intuition discriminate|]. split; [lia|].
      destruct (sv_waiters s) as [ws|].
      * destruct I as (-> & NW & NF). split; [auto|split; [auto|]]. intros [C N]. apply NF.
        unfold no_connection in N. rewrite AT, DT in N. lia.
      * destruct I as (C & P & F). split; [auto|split; [auto|auto]].
    + (* detach *)
      cbn [sv_step]. destruct (sv_active s - 1 =? 0)%Z eqn:E; cbn [negb].
      * apply Z.eqb_eq in E. destruct (sv_open s) eqn:Eo; cbn [negb].
        -- unfold inv. cbn. rewrite !CA. split; [split; [intros H; congruence|intros [C|C]; [|discriminate]; apply Op in C; congruence]|]. split; [lia|].
           assert (NC : ~ closed os) by (intros C; apply Op in C; discriminate).
           destruct (sv_waiters s) as [ws|].
           ++ destruct I as (-> & NW & NF). split; [auto|split; [auto|]]. intros [C _]. apply CA in C. destruct C; [auto|discriminate].
           ++ destruct I as (C & _). contradiction.
        -- assert (Cl : closed os) by now apply Op.
           assert (F : finished (os ++ [SDetach])).
           { split; [apply CA; auto|]. unfold no_connection. lia. }
           destruct (wake_up _) as [s1 x] eqn:W. cbn [fst]. eapply wake_inv; [exact F|exact W|cbn; auto|cbn; lia|].
           cbn. destruct (sv_waiters s) as [ws|].
           ++ destruct I as (-> & NW & NF). auto.
           ++ destruct I as (C & P & Fn). split; [apply CA; auto|split; [auto|auto]].
      * apply Z.eqb_neq in E. unfold inv. cbn. rewrite !CA. split; [rewrite Op; intuition discriminate|]. split; [lia|].
        destruct (sv_waiters s) as [ws|].
        ++ destruct I as (-> & NW & NF). split; [auto|split; [auto|]]. intros [_ N]. unfold no_connection in N. lia.
        ++ destruct I as (C & P & F). auto.
    + (* close *)
      cbn [sv_step]. destruct (sv_open s) eqn:Eo; cbn [negb].
      * assert (NC : ~ closed os) by (intros C; apply Op in C; discriminate).
        destruct (sv_waiters s) as [ws|] eqn:Ew; [|destruct I; contradiction]. destruct I as (-> & NW & NF).
        destruct (sv_active s =? 0)%Z eqn:E.
        -- apply Z.eqb_eq in E.
           assert (F : finished (os ++ [SClose])).
           { split; [apply CA; auto|]. unfold no_connection. lia. }
           destruct (wake_up _) as [s1 x] eqn:W. cbn [fst]. eapply wake_inv; [exact F|exact W|cbn; auto|cbn; lia|].
           cbn. auto.
        -- apply Z.eqb_neq in E. unfold inv. cbn. split; [split; auto; intros _; apply CA; auto|]. split; [lia|].
           split; [auto|split; [auto|]]. intros [_ N]. unfold no_connection in N. lia.
      * cbn. assert (Cl : closed os) by now apply Op. unfold inv. rewrite !CA. split; [intuition|]. split; [lia|].
        destruct (sv_waiters s) as [ws|].
        ++ destruct I as (-> & NW & NF). split; [auto|split; [auto|]]. intros [_ N]. apply NF. split; [auto|]. unfold no_connection in *. lia.
        ++ destruct I as (C & P & F). auto.
    + (* wait *)
      cbn [sv_step]. destruct (sv_open s) eqn:Eo; cbn [negb].
      * assert (NC : ~ closed os) by (intros C; apply Op in C; discriminate).
        destruct (sv_waiters s) as [ws|] eqn:Ew; [|destruct I; contradiction]. destruct I as (-> & NW & NF).
        unfold inv. cbn. split; [split; [discriminate|intros C; apply CA in C; destruct C; [contradiction|discriminate]]|]. split; [lia|].
        split; [|split].
        -- rewrite app_length. cbn. now rewrite Nat.add_1_r, seq_S.
        -- intros w. destruct (lt_dec w (length (sv_futures s))).
           ++ rewrite nth_error_app1 by auto. auto.
           ++ rewrite nth_error_app2 by lia. destruct (w - length (sv_futures s)) as [|[|?]]; discriminate.
        -- intros [C _]. apply CA in C. destruct C; [contradiction|discriminate].
      * cbn. unfold inv. rewrite !CA. split; [rewrite Eo; intuition|]. split; [lia|].
        destruct (sv_waiters s) as [ws|].
        ++ destruct I as (-> & NW & NF). split; [auto|split; [auto|]]. intros [C N]. apply NF. split; [now apply Op|]. unfold no_connection in *. lia.
        ++ destruct I as (C & P & F). auto.
    + (* cancel *)
      cbn [sv_step].
      assert (ST : inv (os ++ [SCancel w]) s).
      { unfold inv. rewrite !CA. split; [rewrite Op; intuition discriminate|]. split; [lia|].
        destruct (sv_waiters s) as [ws|].
        ++ destruct I as (-> & NW & NF). split; [auto|split; [auto|]]. intros [C N]. apply NF. apply CA in C. split; [destruct C; [auto|discriminate]|]. unfold no_connection in *. lia.
        ++ destruct I as (C & P & F). auto. }
      destruct (nth_error (sv_futures s) w) as [[]|] eqn:E; cbn [fst]; auto.
      assert (LT : w < length (sv_futures s)) by (apply nth_error_Some; congruence).
      unfold inv in *. cbn. rewrite set_nth_length. destruct ST as (S1 & S2 & S3). split; [auto|split; [auto|]].
      destruct (sv_waiters s) as [ws|].
      * destruct S3 as (-> & NW & NF). split; [auto|split; [|auto]]. intros v. destruct (Nat.eq_dec w v) as [<- | D].
        -- rewrite nth_set_same by auto. discriminate.
        -- rewrite nth_set_other by auto. auto.
      * destruct S3 as (C & P & F). split; [auto|split; [|auto]]. intros v V. destruct (Nat.eq_dec w v) as [<- | D].
        -- rewrite nth_set_same in V by auto. discriminate.
        -- rewrite nth_set_other in V by auto. destruct (P v V) as (c & C1 & C2).
           exists c. split; [auto|]. destruct (Nat.eq_dec w c) as [-> | D2]; [congruence|]. rewrite nth_set_other by auto. exact C2.
Qed.

(** Whoever still waits when the server is finished started to wait after a waiter which was cancelled. *)
Lemma finished_woken os w : legit os -> finished os -> waiter os w WPending -> exists c, c < w /\ waiter os c WCancelled.
Proof.
  intros L F W. destruct (inv_run os L) as (_ & _ & I). unfold waiter in *.
  destruct (sv_waiters (sv_after os)) as [ws|].
  - destruct I as (_ & _ & NF). contradiction.
  - destruct I as (_ & P & _). auto.
Qed.

(** No one is cancelled by anyone but [SCancel]. *)
Lemma wake_loop_cancelled ws : forall fs w, nth_error (fst (wake_loop ws fs)) w = Some WCancelled -> nth_error fs w = Some WCancelled.
Proof.
  induction ws as [|v ws IH]; intros fs w H; cbn in *; [auto|].
  destruct (nth_error fs v) as [[]|] eqn:E; auto. apply IH in H.
  destruct (Nat.eq_dec v w) as [-> | D]; [|now rewrite nth_set_other in H by auto].
  rewrite nth_set_same in H by (apply nth_error_Some; congruence). discriminate.
Qed.
Lemma wake_up_cancelled s w : nth_error (sv_futures (fst (wake_up s))) w = Some WCancelled -> nth_error (sv_futures s) w = Some WCancelled.
Proof.
  unfold wake_up. destruct (sv_waiters s) as [ws|]; [|auto].
  pose proof (wake_loop_cancelled ws (sv_futures s) w) as W. destruct (wake_loop ws (sv_futures s)); auto.
Qed.
Lemma cancelled_by os w : waiter os w WCancelled -> In (SCancel w) os.
Proof.
  unfold waiter. induction os as [|o os IH] using rev_ind; [destruct w; discriminate|].
  rewrite after_snoc, in_app_iff. set (s := sv_after os) in *.
  assert (K : nth_error (sv_futures s) w = Some WCancelled -> In (SCancel w) os \/ In (SCancel w) [o]) by auto.
  destruct o; cbn [sv_step].
  - exact K.
  - destruct (negb _); [exact K|]. destruct (negb _); [|exact K]. intros H. apply wake_up_cancelled in H. exact (K H).
  - destruct (negb _); [exact K|]. destruct (_ =? _)%Z; [|exact K]. intros H. apply wake_up_cancelled in H. exact (K H).
  - destruct (negb _); [exact K|]. destruct (sv_waiters s); [|exact K]. cbn. intros H.
    destruct (lt_dec w (length (sv_futures s))).
    + rewrite nth_error_app1 in H by auto. auto.
    + rewrite nth_error_app2 in H by lia. destruct (w - length (sv_futures s)) as [|[|?]]; discriminate.
  - destruct (nth_error (sv_futures s) w0) as [[]|] eqn:E; try exact K. cbn.
    destruct (Nat.eq_dec w0 w) as [-> | D]; [intros _; right; left; reflexivity|]. rewrite nth_set_other by auto. exact K.
Qed.

(** Without cancellation every waiter continues. *)
Lemma finished_all os w x : legit os -> finished os -> (forall c, ~ In (SCancel c) os) -> waiter os w x -> x = WWoken.
Proof.
  intros L F N W. destruct x; auto.
  - destruct (finished_woken os w L F W) as (c & _ & C). apply cancelled_by in C. now destruct (N c).
  - apply cancelled_by in W. now destruct (N w).
Qed.

(** No one is woken early. *)
Lemma woken_finished os w : legit os -> waiter os w WWoken -> exists n, finished (firstn n os).
Proof.
  intros L W. destruct (inv_run os L) as (_ & _ & I). unfold waiter in *.
  destruct (sv_waiters (sv_after os)) as [ws|].
  - destruct I as (_ & NW & NF). now destruct (NW w).
  - now destruct I as (_ & P & F).
Qed.

(** [wait_closed] does not return before [close] was called. *)
Lemma returned_closed os : legit os -> snd (sv_step (sv_after os) SWait) = SReturned -> closed os.
Proof.
  intros L H. destruct (inv_run os L) as (Op & _ & I). cbn in H. destruct (sv_open (sv_after os)) eqn:E; cbn in H.
  - destruct (sv_waiters (sv_after os)); [discriminate|]. apply I.
  - now apply Op.
Qed.
