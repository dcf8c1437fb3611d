From Coq Require Import List Arith Bool Lia.
From Verif Require Import TaskModel TaskSpec.
Import ListNotations.

Lemma upd_same : forall g x v, upd g x v x = v.
Proof. intros. unfold upd. rewrite Nat.eqb_refl. reflexivity. Qed.
Lemma upd_other : forall g x v y, y <> x -> upd g x v y = g y.
Proof. intros g x v y H. unfold upd. destruct (Nat.eqb_spec y x); [contradiction | reflexivity]. Qed.

Record inv (w : world) : Prop := {
  n_regs : forall f t, In (f, t) (w_regs w) -> x_waited (w_ent w t) = Some f /\ x_done (w_ent w f) = None;
  n_wake : forall t, In (HWake t) (w_ready w) ->
    exists f, x_waited (w_ent w t) = Some f /\ x_done (w_ent w f) <> None;
  n_step : forall t, In (HStep t) (w_ready w) -> x_waited (w_ent w t) = None;
  n_run : forall t, w_running w = Some t -> live w t = true /\ x_waited (w_ent w t) = None;
  n_waited : forall t f, t < w_next w -> x_waited (w_ent w t) = Some f -> f < w_next w;
  n_cnt : forall t, reasons w t = if live w t && negb (running w t) then 1 else 0
}.

Lemma inv_init : inv world_init.
Proof. constructor; cbn; try contradiction; try discriminate; auto. Qed.

Lemma live_true : forall w t, live w t = true <->
  t < w_next w /\ x_task (w_ent w t) = true /\ x_done (w_ent w t) = None.
Proof.
  intros w t. unfold live, is_done. rewrite !andb_true_iff, Nat.ltb_lt, negb_true_iff.
  destruct (x_done (w_ent w t)); intuition discriminate.
Qed.

Lemma reasons_live : forall w t, inv w -> reasons w t <> 0 -> live w t = true /\ running w t = false /\ reasons w t = 1.
Proof.
  intros w t I H. rewrite (n_cnt w I) in *. destruct (live w t), (running w t); cbn in *; auto; lia.
Qed.

Lemma in_ready_reasons : forall w h, In h (w_ready w) -> reasons w (htask h) <> 0.
Proof.
  intros w h H. unfold reasons. apply (in_map htask) in H. apply (count_occ_In Nat.eq_dec) in H. lia.
Qed.
Lemma in_regs_reasons : forall w f t, In (f, t) (w_regs w) -> reasons w t <> 0.
Proof.
  intros w f t H. unfold reasons. apply (in_map snd) in H. cbn in H. apply (count_occ_In Nat.eq_dec) in H. lia.
Qed.

(** Worlds that differ in flags only. *)
Lemma inv_flags : forall w w', inv w ->
  w_regs w' = w_regs w -> w_ready w' = w_ready w -> w_running w' = w_running w -> w_next w' = w_next w ->
  (forall y, x_task (w_ent w' y) = x_task (w_ent w y) /\ x_done (w_ent w' y) = x_done (w_ent w y) /\
             x_waited (w_ent w' y) = x_waited (w_ent w y)) ->
  inv w'.
Proof.
  intros w w' I E1 E2 E3 E4 E5.
  assert (L : forall t, live w' t = live w t).
  { intros t. unfold live, is_done. rewrite E4. destruct (E5 t) as [-> [-> _]]. reflexivity. }
  constructor.
  - intros f t. rewrite E1. intros H. destruct (E5 t) as [_ [_ ->]]. destruct (E5 f) as [_ [-> _]].
    apply (n_regs w I). exact H.
  - intros t. rewrite E2. intros H. destruct (n_wake w I t H) as [f [H1 H2]]. exists f.
    destruct (E5 t) as [_ [_ ->]]. destruct (E5 f) as [_ [-> _]]. auto.
  - intros t. rewrite E2. intros H. destruct (E5 t) as [_ [_ ->]]. apply (n_step w I). exact H.
  - intros t. rewrite E3. intros H. rewrite L. destruct (E5 t) as [_ [_ ->]]. apply (n_run w I). exact H.
  - intros t f. rewrite E4. destruct (E5 t) as [_ [_ ->]]. apply (n_waited w I).
  - intros t. unfold running. rewrite E3, L. unfold reasons. rewrite E1, E2. apply (n_cnt w I).
Qed.

Lemma count_split : forall f t (l : list (nat * nat)),
  count_occ Nat.eq_dec (map snd l) t =
  count_occ Nat.eq_dec (map snd (filter (fun r => Nat.eqb (fst r) f) l)) t +
  count_occ Nat.eq_dec (map snd (filter (fun r => negb (Nat.eqb (fst r) f)) l)) t.
Proof.
  induction l as [|[g u] l IH]; [reflexivity|]. cbn [map snd count_occ filter fst].
  rewrite IH. destruct (Nat.eqb g f); cbn [negb map snd count_occ]; destruct (Nat.eq_dec u t); lia.
Qed.

Lemma count_occ_rev' : forall (l : list nat) t, count_occ Nat.eq_dec (rev l) t = count_occ Nat.eq_dec l t.
Proof.
  induction l as [|x l IH]; cbn; intros t; [reflexivity|]. rewrite count_occ_app, IH. cbn.
  destruct (Nat.eq_dec x t); lia.
Qed.

Lemma complete_reasons : forall w f o t, reasons (complete w f o) t = reasons w t.
Proof.
  intros w f o t. unfold reasons, complete. cbn [w_ready w_regs].
  rewrite map_app, count_occ_app, map_rev, count_occ_rev', map_map. cbn [htask].
  rewrite (count_split f t (w_regs w)). change (fun x : nat * nat => snd x) with (@snd nat nat). lia.
Qed.

Lemma complete_ent : forall w f o y,
  x_task (w_ent (complete w f o) y) = x_task (w_ent w y) /\
  x_waited (w_ent (complete w f o) y) = x_waited (w_ent w y) /\
  x_cancelling (w_ent (complete w f o) y) = x_cancelling (w_ent w y) /\
  x_exc (w_ent (complete w f o) y) = x_exc (w_ent w y) /\
  x_done (w_ent (complete w f o) y) = if Nat.eqb y f then Some o else x_done (w_ent w y).
Proof.
  intros w f o y. unfold complete. cbn [w_ent]. unfold upd. destruct (Nat.eqb_spec y f); [subst; cbn; auto | auto].
Qed.

Lemma complete_ready : forall w f o h, In h (w_ready (complete w f o)) ->
  In h (w_ready w) \/ exists t, h = HWake t /\ In (f, t) (w_regs w).
Proof.
  intros w f o h H. unfold complete in H. cbn in H. apply in_app_or in H. destruct H as [H|H]; [auto|].
  right. apply in_rev in H. apply in_map_iff in H. destruct H as [[g t] [E H]]. apply filter_In in H.
  destruct H as [H1 H2]. cbn in *. apply Nat.eqb_eq in H2. subst. eauto.
Qed.

Lemma complete_regs : forall w f o g t, In (g, t) (w_regs (complete w f o)) -> In (g, t) (w_regs w) /\ g <> f.
Proof.
  intros w f o g t H. unfold complete in H. cbn in H. apply filter_In in H. cbn in H.
  rewrite negb_true_iff, Nat.eqb_neq in H. exact H.
Qed.

(** The parts of the invariant that do not depend on who is running. *)
Lemma inv_complete_core : forall w f o, inv w ->
  (forall g t, In (g, t) (w_regs (complete w f o)) ->
     x_waited (w_ent (complete w f o) t) = Some g /\ x_done (w_ent (complete w f o) g) = None) /\
  (forall t, In (HWake t) (w_ready (complete w f o)) ->
     exists g, x_waited (w_ent (complete w f o) t) = Some g /\ x_done (w_ent (complete w f o) g) <> None) /\
  (forall t, In (HStep t) (w_ready (complete w f o)) -> x_waited (w_ent (complete w f o) t) = None) /\
  (forall t g, t < w_next w -> x_waited (w_ent (complete w f o) t) = Some g -> g < w_next w).
Proof.
  intros w f o I. split; [|split; [|split]].
  - intros g t H. apply complete_regs in H. destruct H as [H N]. destruct (n_regs w I g t H) as [H1 H2].
    destruct (complete_ent w f o t) as [_ [-> _]]. destruct (complete_ent w f o g) as [_ [_ [_ [_ ->]]]].
    destruct (Nat.eqb_spec g f); [contradiction | auto].
  - intros t H. apply complete_ready in H. destruct (complete_ent w f o t) as [_ [Ew _]].
    destruct H as [H|[u [E H]]].
    + destruct (n_wake w I t H) as [g [H1 H2]]. exists g. rewrite Ew. split; [exact H1|].
      destruct (complete_ent w f o g) as [_ [_ [_ [_ ->]]]]. destruct (Nat.eqb g f); [discriminate | exact H2].
    + inversion E; subst. destruct (n_regs w I f u H) as [H1 _]. exists f. rewrite Ew. split; [exact H1|].
      destruct (complete_ent w f o f) as [_ [_ [_ [_ ->]]]]. rewrite Nat.eqb_refl. discriminate.
  - intros t H. apply complete_ready in H. destruct H as [H|[u [E H]]]; [|discriminate].
    destruct (complete_ent w f o t) as [_ [-> _]]. apply (n_step w I). exact H.
  - intros t g. destruct (complete_ent w f o t) as [_ [-> _]]. apply (n_waited w I).
Qed.

Lemma inv_complete_plain : forall w f o, inv w -> x_task (w_ent w f) = false -> inv (complete w f o).
Proof.
  intros w f o I T. destruct (inv_complete_core w f o I) as [C1 [C2 [C3 C4]]].
  assert (L : forall t, live (complete w f o) t = live w t).
  { intros t. apply eq_true_iff_eq. rewrite !live_true. cbn [w_next complete].
    destruct (complete_ent w f o t) as [-> [_ [_ [_ ->]]]].
    destruct (Nat.eqb_spec t f); [subst; rewrite T; intuition discriminate | reflexivity]. }
  constructor; auto.
  - intros t H. rewrite L. destruct (complete_ent w f o t) as [_ [-> _]]. apply (n_run w I). exact H.
  - intros t. rewrite complete_reasons, L. apply (n_cnt w I).
Qed.

Definition idle (w : world) : world := mk_world (w_ent w) (w_regs w) (w_ready w) None (w_next w).

Lemma inv_complete_running : forall w t o, inv w -> w_running w = Some t -> inv (idle (complete w t o)).
Proof.
  intros w t o I R. destruct (inv_complete_core w t o I) as [C1 [C2 [C3 C4]]].
  constructor.
  - exact C1.
  - exact C2.
  - exact C3.
  - discriminate.
  - exact C4.
  - intros u. change (reasons (idle (complete w t o)) u) with (reasons (complete w t o) u).
    rewrite complete_reasons, (n_cnt w I). unfold running. cbn [w_running idle]. rewrite R.
    destruct (Nat.eqb_spec t u).
    + subst u. assert (L : live (idle (complete w t o)) t = false).
      { destruct (live _ t) eqn:L; [|reflexivity]. apply live_true in L. destruct L as [_ [_ L]].
        cbn [w_ent idle] in L. destruct (complete_ent w t o t) as [_ [_ [_ [_ E]]]]. rewrite E, Nat.eqb_refl in L.
        discriminate. }
      rewrite L. rewrite andb_false_r. reflexivity.
    + assert (L : live (idle (complete w t o)) u = live w u).
      { apply eq_true_iff_eq. rewrite !live_true. cbn [w_next idle w_ent complete].
        destruct (complete_ent w t o u) as [E1 [_ [_ [_ E2]]]]. cbn [w_ent complete] in E1, E2. rewrite E1, E2.
        destruct (Nat.eqb_spec u t); [congruence | reflexivity]. }
      rewrite L. reflexivity.
Qed.

(** What [cancel] keeps. *)
Record grows (w w' : world) : Prop := {
  g_next : w_next w' = w_next w;
  g_running : w_running w' = w_running w;
  g_task : forall y, x_task (w_ent w' y) = x_task (w_ent w y);
  g_waited : forall y, x_waited (w_ent w' y) = x_waited (w_ent w y);
  g_done : forall y o, x_done (w_ent w y) = Some o -> x_done (w_ent w' y) = Some o;
  g_flag : forall y, x_cancelling (w_ent w y) = true -> x_cancelling (w_ent w' y) = true;
  g_live : forall y, x_task (w_ent w y) = true -> x_done (w_ent w' y) = x_done (w_ent w y);
  g_exc : forall y, x_exc (w_ent w' y) = x_exc (w_ent w y)
}.

Lemma grows_refl : forall w, grows w w.
Proof. intros w. constructor; auto. Qed.

Lemma grows_flag : forall w w' x, grows w w' -> grows w (set_ent w' x (with_flag (w_ent w' x) true)).
Proof.
  intros w w' x G. constructor; try apply G; intros y; cbn [w_ent set_ent]; unfold upd;
    destruct (Nat.eqb_spec y x); subst; cbn; auto; apply G.
Qed.

Lemma grows_complete : forall w f o, x_done (w_ent w f) = None -> x_task (w_ent w f) = false -> grows w (complete w f o).
Proof.
  intros w f o D T. constructor; try reflexivity; intros y; destruct (complete_ent w f o y) as [E1 [E2 [E3 [E4 E5]]]].
  - exact E1.
  - exact E2.
  - intros o' H. rewrite E5. destruct (Nat.eqb_spec y f); [subst; congruence | exact H].
  - rewrite E3. auto.
  - intros Ty. rewrite E5. destruct (Nat.eqb_spec y f); [subst; congruence | reflexivity].
  - exact E4.
Qed.

Lemma inv_set_flag : forall w x b, inv w -> inv (set_ent w x (with_flag (w_ent w x) b)).
Proof.
  intros w x b I. apply (inv_flags w); auto. intros y. cbn [w_ent set_ent]. unfold upd.
  destruct (Nat.eqb_spec y x); subst; cbn; auto.
Qed.

(** The cancellation is on its way to [t]. *)
Definition struck (w : world) (t : nat) : Prop :=
  x_cancelling (w_ent w t) = true \/
  exists f, x_waited (w_ent w t) = Some f /\
    (x_task (w_ent w f) = true \/ exists e, x_done (w_ent w f) = Some (OutCancelled e)).

Lemma is_done_false : forall e, is_done e = false <-> x_done e = None.
Proof. intros e. unfold is_done. destruct (x_done e); split; congruence. Qed.

Lemma cancel_ok : forall n w x w' r, inv w -> cancel n w x = Some (w', r) ->
  inv w' /\ grows w w' /\
  (x_done (w_ent w x) = None ->
     r = true /\ (x_task (w_ent w x) = false -> exists e, x_done (w_ent w' x) = Some (OutCancelled e)) /\
     (x_task (w_ent w x) = true -> struck w' x)).
Proof.
  induction n as [|n IH]; intros w x w' r I H; cbn [cancel] in H; [discriminate|].
  destruct (is_done (w_ent w x)) eqn:D.
  - inversion H; subst. split; [exact I|]. split; [apply grows_refl|]. intros D'. apply is_done_false in D'. congruence.
  - destruct (x_task (w_ent w x)) eqn:T.
    + destruct (x_waited (w_ent w x)) as [f|] eqn:W.
      * destruct (cancel n w f) as [[w1 [|]]|] eqn:C; [| |discriminate]; inversion H; subst;
          destruct (IH _ _ _ _ I C) as [I1 [G1 R1]].
        -- split; [exact I1|]. split; [exact G1|]. intros _. split; [reflexivity|]. split; [discriminate|]. intros _.
           right. exists f. rewrite (g_waited _ _ G1). split; [exact W|].
           destruct (x_task (w_ent w f)) eqn:Tf; [left; rewrite (g_task _ _ G1); exact Tf | right].
           destruct (x_done (w_ent w f)) eqn:Df.
           ++ exfalso. destruct n as [|n']; cbn in C; [discriminate|]. unfold is_done in C. rewrite Df in C. discriminate.
           ++ destruct (R1 eq_refl) as [_ [R2 _]]. auto.
        -- split; [apply inv_set_flag; exact I1|]. split; [apply grows_flag; exact G1|].
           intros _. split; [reflexivity|]. split; [discriminate|]. intros _. left. cbn. rewrite upd_same. reflexivity.
      * inversion H; subst. split; [apply inv_set_flag; exact I|]. split; [apply grows_flag; apply grows_refl|].
        intros _. split; [reflexivity|]. split; [discriminate|]. intros _. left. cbn. rewrite upd_same. reflexivity.
    + inversion H; subst. apply is_done_false in D.
      split; [apply inv_complete_plain; assumption|]. split; [apply grows_complete; assumption|].
      intros _. split; [reflexivity|]. split; [|discriminate]. intros _. exists None.
      destruct (complete_ent w x (OutCancelled None) x) as [_ [_ [_ [_ ->]]]]. rewrite Nat.eqb_refl. reflexivity.
Qed.

Lemma inv_set_exc : forall w x e b, inv w -> inv (set_ent w x (with_exc (with_flag (w_ent w x) b) e)).
Proof.
  intros w x e b I. apply (inv_flags w); auto. intros y. cbn [w_ent set_ent]. unfold upd.
  destruct (Nat.eqb_spec y x); subst; cbn; auto.
Qed.

Lemma with_flag_same : forall e, with_flag e (x_cancelling e) = e.
Proof. intros []. reflexivity. Qed.

(** What [cancel_with] keeps: like [cancel], with the exception stored. *)
Lemma cancel_with_ok : forall w x e w' r, inv w -> cancel_with w x e = Some (w', r) ->
  inv w' /\
  (w_next w' = w_next w /\ w_running w' = w_running w /\
   (forall y, x_task (w_ent w' y) = x_task (w_ent w y)) /\
   (forall y, x_waited (w_ent w' y) = x_waited (w_ent w y)) /\
   (forall y o, x_done (w_ent w y) = Some o -> x_done (w_ent w' y) = Some o) /\
   (forall y, x_cancelling (w_ent w y) = true -> x_cancelling (w_ent w' y) = true)) /\
  (x_done (w_ent w x) = None -> x_task (w_ent w x) = true ->
   (forall f, x_waited (w_ent w x) = Some f -> x_done (w_ent w f) = None) -> r = true /\ struck w' x).
Proof.
  intros w x e w' r I H. unfold cancel_with in H.
  destruct (is_done (w_ent w x)) eqn:D.
  - inversion H; subst. split; [exact I|]. split; [repeat split; auto|]. intros D'. apply is_done_false in D'. congruence.
  - destruct (x_task (w_ent w x)) eqn:T.
    + assert (K : forall w1 b, inv w1 -> grows w w1 -> (b = true \/ b = x_cancelling (w_ent w1 x)) ->
        inv (set_ent w1 x (with_exc (with_flag (w_ent w1 x) b) (Some e))) /\
        let w' := set_ent w1 x (with_exc (with_flag (w_ent w1 x) b) (Some e)) in
        (w_next w' = w_next w /\ w_running w' = w_running w /\
         (forall y, x_task (w_ent w' y) = x_task (w_ent w y)) /\
         (forall y, x_waited (w_ent w' y) = x_waited (w_ent w y)) /\
         (forall y o, x_done (w_ent w y) = Some o -> x_done (w_ent w' y) = Some o) /\
         (forall y, x_cancelling (w_ent w y) = true -> x_cancelling (w_ent w' y) = true))).
      { intros w1 b I1 G1 Hb. split; [apply inv_set_exc; exact I1|]. cbv zeta. cbn [w_next w_running set_ent w_ent].
        split; [apply G1|]. split; [apply G1|].
        repeat split; intros y; unfold upd; destruct (Nat.eqb_spec y x); subst; cbn; try apply G1; auto.
        intros Hc. destruct Hb as [->| ->]; [reflexivity | apply (g_flag _ _ G1); exact Hc]. }
      destruct (x_waited (w_ent w x)) as [f|] eqn:W.
      * destruct (cancel (fuel w) w f) as [[w1 [|]]|] eqn:C; [| |discriminate]; inversion H; subst;
          destruct (cancel_ok _ _ _ _ _ I C) as [I1 [G1 R1]].
        -- destruct (K w1 true I1 G1 (or_introl eq_refl)) as [K1 K2]. split; [exact K1|]. split; [exact K2|].
           intros _ _ _. split; [reflexivity|]. left. cbn. rewrite upd_same. reflexivity.
        -- destruct (K w1 (x_cancelling (w_ent w1 x)) I1 G1 (or_intror eq_refl)) as [K1 K2].
           rewrite with_flag_same in K1, K2. split; [exact K1|]. split; [exact K2|].
           intros _ _ Hf. specialize (Hf f eq_refl). destruct (R1 Hf) as [R2 _]. discriminate.
      * inversion H; subst. destruct (K w true I (grows_refl w) (or_introl eq_refl)) as [K1 K2].
        split; [exact K1|]. split; [exact K2|]. intros _ _ _. split; [reflexivity|]. left. cbn. rewrite upd_same.
        reflexivity.
    + inversion H; subst. apply is_done_false in D.
      pose proof (grows_complete w x (OutCancelled (Some e)) D T) as G.
      split; [apply inv_complete_plain; assumption|]. split; [|discriminate].
      repeat split; apply G.
Qed.

(** ** One step of the loop *)

Lemma begin_ok : forall w, inv w ->
  inv (fst (begin_step w)) /\ forall t, ~ In (EvInvalidState t) (snd (begin_step w)).
Proof.
  intros w I. unfold begin_step.
  destruct (w_running w) as [u|] eqn:R; [split; [exact I | intros t []]|].
  destruct (w_ready w) as [|h ready] eqn:Q; [split; [exact I | intros t []]|].
  set (t := htask h).
  assert (Hr : reasons w t <> 0) by (apply in_ready_reasons; rewrite Q; left; reflexivity).
  destruct (reasons_live w t I Hr) as [L [_ C1]]. pose proof L as L'. apply live_true in L'. destruct L' as [L1 [L2 L3]].
  assert (D : is_done (w_ent w t) = false) by (apply is_done_false; exact L3).
  rewrite D. cbn [fst snd]. split; [|intros t' [H|[]]; discriminate].
  set (e1 := match h with HStep _ => w_ent w t | HWake _ => with_waited (w_ent w t) None end).
  assert (E1 : x_task e1 = true /\ x_done e1 = None /\ x_waited e1 = None).
  { unfold e1. destruct h as [u|u]; cbn in *.
    - split; [exact L2|]. split; [exact L3|]. apply (n_step w I). rewrite Q. left. reflexivity.
    - auto. }
  destruct E1 as [E1 [E2 E3]].
  assert (C0 : count_occ Nat.eq_dec (map htask ready) t = 0 /\ count_occ Nat.eq_dec (map snd (w_regs w)) t = 0).
  { unfold reasons in C1. rewrite Q in C1. cbn [map count_occ] in C1. fold t in C1.
    destruct (Nat.eq_dec t t); [lia | contradiction]. }
  destruct C0 as [C2 C3].
  assert (Nr : forall h', In h' ready -> htask h' <> t).
  { intros h' H E. apply (in_map htask) in H. rewrite E in H. apply (count_occ_In Nat.eq_dec) in H. lia. }
  assert (Ng : forall f u, In (f, u) (w_regs w) -> u <> t).
  { intros f u H E. apply (in_map snd) in H. cbn in H. rewrite E in H. apply (count_occ_In Nat.eq_dec) in H. lia. }
  assert (Ed : forall y, x_done (upd (w_ent w) t (with_flag e1 false) y) = x_done (w_ent w y)).
  { intros y. unfold upd. destruct (Nat.eqb_spec y t); [subst y; cbn; congruence | reflexivity]. }
  assert (Et : forall y, x_task (upd (w_ent w) t (with_flag e1 false) y) = x_task (w_ent w y)).
  { intros y. unfold upd. destruct (Nat.eqb_spec y t); [subst y; cbn; congruence | reflexivity]. }
  assert (Ll : forall y, live (mk_world (upd (w_ent w) t (with_flag e1 false)) (w_regs w) ready (Some t) (w_next w)) y = live w y).
  { intros y. apply eq_true_iff_eq. rewrite !live_true. cbn [w_ent w_next]. rewrite Ed, Et. reflexivity. }
  constructor; cbn [w_ent w_regs w_ready w_running w_next].
  - intros f u H. rewrite Ed, upd_other by (eapply Ng; eauto). apply (n_regs w I). exact H.
  - intros u H. destruct (n_wake w I u) as [f [H1 H2]]; [rewrite Q; right; exact H|]. exists f.
    rewrite Ed, upd_other by (apply (Nr _ H)). auto.
  - intros u H. rewrite upd_other by (apply (Nr _ H)). apply (n_step w I). rewrite Q. right. exact H.
  - intros u H. inversion H; subst u. rewrite Ll, upd_same. cbn. auto.
  - intros u f. unfold upd. destruct (Nat.eqb_spec u t); [cbn; rewrite E3; discriminate | apply (n_waited w I)].
  - intros u. rewrite Ll. unfold reasons, running. cbn [w_ready w_regs w_running].
    destruct (Nat.eqb_spec t u).
    + subst u. rewrite C2, C3, L. reflexivity.
    + pose proof (n_cnt w I u) as Cu. unfold reasons, running in Cu. rewrite Q, R in Cu. cbn [map count_occ] in Cu.
      fold t in Cu. destruct (Nat.eq_dec t u); [contradiction|]. exact Cu.
Qed.

Lemma end_await_inv : forall w t f, inv w -> w_running w = Some t -> x_done (w_ent w f) = None -> f < w_next w ->
  inv (mk_world (upd (w_ent w) t (with_waited (w_ent w t) (Some f))) (w_regs w ++ [(f, t)]) (w_ready w) None (w_next w)).
Proof.
  intros w t f I R D F. destruct (n_run w I t R) as [L W]. pose proof L as L'. apply live_true in L'.
  destruct L' as [L1 [L2 L3]].
  assert (C0 : reasons w t = 0).
  { rewrite (n_cnt w I). unfold running. rewrite R, Nat.eqb_refl, L. reflexivity. }
  set (g := upd (w_ent w) t (with_waited (w_ent w t) (Some f))).
  assert (Ed : forall y, x_done (g y) = x_done (w_ent w y)).
  { intros y. unfold g, upd. destruct (Nat.eqb_spec y t); [subst y; reflexivity | reflexivity]. }
  assert (Et : forall y, x_task (g y) = x_task (w_ent w y)).
  { intros y. unfold g, upd. destruct (Nat.eqb_spec y t); [subst y; reflexivity | reflexivity]. }
  assert (Ew : forall y, y <> t -> x_waited (g y) = x_waited (w_ent w y)).
  { intros y N. unfold g. rewrite upd_other by exact N. reflexivity. }
  assert (Ll : forall y, live (mk_world g (w_regs w ++ [(f, t)]) (w_ready w) None (w_next w)) y = live w y).
  { intros y. apply eq_true_iff_eq. rewrite !live_true. cbn [w_ent w_next]. rewrite Ed, Et. reflexivity. }
  constructor; cbn [w_ent w_regs w_ready w_running w_next].
  - intros h u H. apply in_app_or in H. destruct H as [H|[H|[]]].
    + assert (N : u <> t) by (intros ->; apply in_regs_reasons in H; contradiction).
      rewrite Ed, Ew by exact N. apply (n_regs w I). exact H.
    + inversion H; subst. rewrite Ed. split; [|exact D]. unfold g. rewrite upd_same. reflexivity.
  - intros u H. assert (N : u <> t) by (intros ->; apply in_ready_reasons in H; contradiction).
    destruct (n_wake w I u H) as [h [H1 H2]]. exists h. rewrite Ed, Ew by exact N. auto.
  - intros u H. assert (N : u <> t) by (intros ->; apply in_ready_reasons in H; contradiction).
    rewrite Ew by exact N. apply (n_step w I). exact H.
  - discriminate.
  - intros u h Hu. destruct (Nat.eq_dec u t) as [->|N].
    + unfold g. rewrite upd_same. cbn. intros E. inversion E; subst. exact F.
    + rewrite Ew by exact N. apply (n_waited w I). exact Hu.
  - intros u. rewrite Ll. unfold reasons, running. cbn [w_ready w_regs w_running].
    rewrite map_app, count_occ_app. cbn [map snd count_occ negb]. rewrite andb_true_r.
    pose proof (n_cnt w I u) as Cu. unfold reasons, running in Cu. rewrite R in Cu.
    destruct (Nat.eq_dec t u) as [->|N].
    + rewrite L in *. rewrite Nat.eqb_refl in Cu. cbn in Cu. lia.
    + destruct (Nat.eqb_spec t u); [contradiction|]. cbn [negb] in Cu. rewrite andb_true_r in Cu. lia.
Qed.

Lemma inv_yield : forall w t, inv w -> w_running w = Some t ->
  inv (mk_world (w_ent w) (w_regs w) (w_ready w ++ [HStep t]) None (w_next w)).
Proof.
  intros w t I R. destruct (n_run w I t R) as [L W].
  constructor; cbn [w_ent w_regs w_ready w_running w_next].
  - exact (n_regs w I).
  - intros u H. apply in_app_or in H. destruct H as [H|[H|[]]]; [|discriminate]. apply (n_wake w I). exact H.
  - intros u H. apply in_app_or in H. destruct H as [H|[H|[]]]; [apply (n_step w I); exact H|].
    inversion H; subst. exact W.
  - discriminate.
  - exact (n_waited w I).
  - intros u. change (live _ u) with (live w u). unfold reasons, running. cbn [w_ready w_regs w_running].
    rewrite map_app, count_occ_app. cbn [map htask count_occ negb]. rewrite andb_true_r.
    pose proof (n_cnt w I u) as Cu. unfold reasons, running in Cu. rewrite R in Cu.
    destruct (Nat.eq_dec t u) as [->|N].
    + rewrite L in *. rewrite Nat.eqb_refl in Cu. cbn in Cu. lia.
    + destruct (Nat.eqb_spec t u); [contradiction|]. cbn [negb] in Cu. rewrite andb_true_r in Cu. lia.
Qed.

Lemma inv_end : forall w r, inv w -> inv (fst (end_step w r)).
Proof.
  intros w r I. unfold end_step. destruct (w_running w) as [t|] eqn:R; [|exact I].
  destruct r as [f| | | |].
  - destruct (is_done (w_ent w f) || negb (f <? w_next w)) eqn:B; [exact I|].
    apply orb_false_iff in B. destruct B as [B1 B2]. apply is_done_false in B1.
    rewrite negb_false_iff, Nat.ltb_lt in B2. pose proof (end_await_inv w t f I R B1 B2) as I1.
    cbn [w_ent w_regs w_ready w_next].
    set (w1 := mk_world (upd (w_ent w) t (with_waited (w_ent w t) (Some f))) (w_regs w ++ [(f, t)]) (w_ready w) None (w_next w)) in *.
    destruct (x_cancelling (w_ent w t)); [|exact I1].
    destruct (cancel (fuel w1) w1 f) as [[w2 [|]]|] eqn:C; cbn [fst]; [| |exact I1];
      destruct (cancel_ok _ _ _ _ _ I1 C) as [I2 _]; [apply inv_set_flag; exact I2 | exact I2].
  - exact (inv_yield w t I R).
  - exact (inv_complete_running w t _ I R).
  - exact (inv_complete_running w t _ I R).
  - exact (inv_complete_running w t _ I R).
Qed.

Lemma inv_new : forall w b, inv w ->
  inv (mk_world (upd (w_ent w) (w_next w) (ent_init b)) (w_regs w)
    (if b then w_ready w ++ [HStep (w_next w)] else w_ready w) (w_running w) (S (w_next w))).
Proof.
  intros w b I. set (n := w_next w).
  assert (Nl : live w n = false).
  { destruct (live w n) eqn:L; [|reflexivity]. apply live_true in L. unfold n in L. lia. }
  assert (C0 : reasons w n = 0) by (rewrite (n_cnt w I), Nl; reflexivity).
  assert (Nr : forall h, In h (w_ready w) -> htask h <> n).
  { intros h H E. apply in_ready_reasons in H. rewrite E in H. contradiction. }
  assert (Ng : forall f u, In (f, u) (w_regs w) -> u <> n).
  { intros f u H E. apply in_regs_reasons in H. rewrite E in H. contradiction. }
  assert (Gn : forall f u, In (f, u) (w_regs w) -> f <> n).
  { intros f u H ->. destruct (n_regs w I _ _ H) as [H1 _]. apply in_regs_reasons in H.
    destruct (reasons_live w u I H) as [L _]. apply live_true in L. destruct L as [L _].
    apply (n_waited w I u n L) in H1. unfold n in H1. lia. }
  assert (Wn : forall f u, u < n -> x_waited (w_ent w u) = Some f -> f <> n).
  { intros f u Hu H ->. apply (n_waited w I u n Hu) in H. unfold n in H. lia. }
  assert (Rl : forall u h, In h (w_ready w) -> htask h = u -> u < n).
  { intros u h H <-. apply in_ready_reasons in H. destruct (reasons_live w _ I H) as [L _]. apply live_true in L. apply L. }
  assert (Ll : forall u, u <> n ->
    live (mk_world (upd (w_ent w) n (ent_init b)) (w_regs w) (if b then w_ready w ++ [HStep n] else w_ready w)
       (w_running w) (S n)) u = live w u).
  { intros u N. apply eq_true_iff_eq. rewrite !live_true. cbn [w_ent w_next]. rewrite upd_other by exact N.
    fold n. intuition lia. }
  constructor; cbn [w_ent w_regs w_ready w_running w_next].
  - intros f u H. rewrite !upd_other by (eauto). apply (n_regs w I). exact H.
  - intros u H. assert (H' : In (HWake u) (w_ready w)).
    { destruct b; [|exact H]. apply in_app_or in H. destruct H as [H|[H|[]]]; [exact H | discriminate]. }
    destruct (n_wake w I u H') as [f [H1 H2]]. exists f. pose proof (Rl u _ H' eq_refl) as Hu.
    rewrite !upd_other; [auto | | ].
    + intros ->. exact (Wn n u Hu H1 eq_refl).
    + lia.
  - intros u H. destruct (Nat.eq_dec u n) as [->|N]; [rewrite upd_same; reflexivity|].
    rewrite upd_other by exact N. apply (n_step w I). destruct b; [|exact H].
    apply in_app_or in H. destruct H as [H|[H|[]]]; [exact H | inversion H; congruence].
  - intros u H. destruct (n_run w I u H) as [L W]. assert (N : u <> n) by (intros ->; congruence).
    rewrite Ll, upd_other by exact N. auto.
  - intros u f Hu H. unfold upd in H. destruct (Nat.eqb_spec u n); [discriminate|].
    assert (Hu' : u < n) by lia. apply (n_waited w I u f Hu') in H. fold n. lia.
  - intros u. unfold reasons, running. cbn [w_ready w_regs w_running].
    destruct (Nat.eq_dec u n) as [->|N].
    + assert (Rn : match w_running w with Some v => Nat.eqb v n | None => false end = false).
      { destruct (w_running w) as [v|] eqn:R; [|reflexivity]. destruct (n_run w I v R) as [L _].
        destruct (Nat.eqb_spec v n); [congruence | reflexivity]. }
      rewrite Rn. cbn [negb]. rewrite andb_true_r. unfold reasons in C0.
      unfold live. cbn [w_ent w_next]. rewrite upd_same.
      destruct (Nat.ltb_spec n (S n)); [|lia]. destruct b.
      * rewrite map_app, count_occ_app. cbn [map count_occ htask]. cbn [ent_init x_task is_done x_done andb negb].
        destruct (Nat.eq_dec n n); [lia | contradiction].
      * cbn [ent_init x_task is_done x_done andb negb]. lia.
    + rewrite Ll by exact N. pose proof (n_cnt w I u) as Cu. unfold reasons, running in Cu. rewrite <- Cu.
      destruct b; [|reflexivity]. rewrite map_app, count_occ_app. cbn [map count_occ htask].
      destruct (Nat.eq_dec n u); [congruence | lia].
Qed.

Lemma inv_step : forall w o, inv w -> inv (fst (step w o)).
Proof.
  intros w o I. destruct o as [| |f|x|x e| |r]; cbn [step].
  - exact (inv_new w false I).
  - exact (inv_new w true I).
  - destruct ((f <? w_next w) && negb (x_task (w_ent w f)) && negb (is_done (w_ent w f))) eqn:B; [|exact I].
    rewrite !andb_true_iff, !negb_true_iff in B. apply inv_complete_plain; tauto.
  - destruct (x <? w_next w); [|exact I]. destruct (cancel (fuel w) w x) as [[w' r]|] eqn:C; [|exact I].
    apply (cancel_ok _ _ _ _ _ I C).
  - destruct (x <? w_next w); [|exact I]. destruct (cancel_with w x e) as [[w' r]|] eqn:C; [|exact I].
    apply (cancel_with_ok _ _ _ _ _ I C).
  - apply begin_ok. exact I.
  - apply inv_end. exact I.
Qed.

Lemma inv_run : forall ops w, inv w -> inv (run w ops).
Proof.
  induction ops as [|o ops IH]; cbn; intros w I; [exact I|]. apply IH. apply inv_step. exact I.
Qed.

(** ** C04 *)

Lemma one_reason : forall ops t,
  let w := run world_init ops in
  reasons w t = if live w t && negb (running w t) then 1 else 0.
Proof. intros ops t w. apply n_cnt. apply inv_run, inv_init. Qed.

Lemma end_no_invalid : forall w r t, ~ In (EvInvalidState t) (snd (end_step w r)).
Proof.
  intros w r t. unfold end_step. destruct (w_running w) as [u|]; [|intros []].
  destruct r as [f| | | |]; cbn [snd].
  - destruct (is_done (w_ent w f) || negb (f <? w_next w)); [intros []|].
    destruct (x_cancelling (w_ent w u)); [|intros [H|[]]; discriminate].
    destruct (cancel _ _ _) as [[w2 [|]]|]; cbn; intuition discriminate.
  - intros [H|[]]; discriminate.
  - intros [H|[]]; discriminate.
  - intros [H|[]]; discriminate.
  - intros [H|[]]; discriminate.
Qed.

Lemma no_invalid : forall ops w t, inv w -> ~ In (EvInvalidState t) (events w ops).
Proof.
  induction ops as [|o ops IH]; intros w t I; cbn; [tauto|].
  intros H. apply in_app_or in H. destruct H as [H|H]; [|exact (IH _ t (inv_step w o I) H)].
  destruct o as [| |f|x|x e| |r]; cbn [step] in H; try contradiction.
  - destruct (_ && _ && _); contradiction.
  - destruct (x <? w_next w); [|contradiction]. destruct (cancel _ _ _) as [[? ?]|]; destruct H as [H|[]]; discriminate.
  - destruct (x <? w_next w); [|contradiction]. destruct (cancel_with _ _ _) as [[? ?]|]; destruct H as [H|[]]; discriminate.
  - destruct (begin_ok w I) as [_ B]. exact (B t H).
  - exact (end_no_invalid w r t H).
Qed.

Lemma never_stepped_again : forall ops t, ~ In (EvInvalidState t) (events world_init ops).
Proof. intros ops t. apply no_invalid. apply inv_init. Qed.

(** A resumed task was alive and suspended. *)
Lemma resume_live : forall w t k, inv w -> In (EvResume t k) (snd (begin_step w)) ->
  live w t = true /\ running w t = false /\ running (fst (begin_step w)) t = true.
Proof.
  intros w t k I H. unfold begin_step in *.
  destruct (w_running w) as [u|] eqn:R; [contradiction|]. destruct (w_ready w) as [|h ready] eqn:Q; [contradiction|].
  assert (Hr : reasons w (htask h) <> 0) by (apply in_ready_reasons; rewrite Q; left; reflexivity).
  destruct (reasons_live w _ I Hr) as [L [Rn _]].
  destruct (is_done (w_ent w (htask h))) eqn:D; cbn in *; destruct H as [H|[]]; [discriminate|].
  inversion H; subst. split; [exact L|]. split; [exact Rn|]. unfold running. cbn. apply Nat.eqb_refl.
Qed.

(** ** C05, C06 *)

(** [t] is over, or a cancellation is on its way to it. *)
Definition doomed (w : world) (t : nat) : Prop :=
  t < w_next w /\ (x_done (w_ent w t) <> None \/ struck w t).

(** Same entities as far as [struck] and [is_done] look, for [t]. *)
Lemma doomed_grows : forall w w' t, inv w -> doomed w t ->
  w_next w <= w_next w' ->
  (forall y, y < w_next w -> x_task (w_ent w' y) = x_task (w_ent w y)) ->
  x_waited (w_ent w' t) = x_waited (w_ent w t) ->
  (forall y o, y < w_next w -> x_done (w_ent w y) = Some o -> x_done (w_ent w' y) = Some o) ->
  (x_cancelling (w_ent w t) = true -> x_cancelling (w_ent w' t) = true) ->
  doomed w' t.
Proof.
  intros w w' t I [Ht D] E1 E2 E3 E4 E5. split; [lia|]. destruct D as [D|[D|[f [D1 D2]]]].
  - left. destruct (x_done (w_ent w t)) as [o|] eqn:X; [|contradiction]. rewrite (E4 t o Ht X). discriminate.
  - right. left. auto.
  - right. right. exists f. rewrite E3. split; [exact D1|].
    pose proof (n_waited w I t f Ht D1) as Hf. rewrite (E2 f Hf).
    destruct D2 as [D2|[e D2]]; [left; exact D2 | right; exists e; apply (E4 f _ Hf D2)].
Qed.

Lemma doomed_step : forall w o t, inv w -> doomed w t ->
  match next_resume t (snd (step w o)) with
  | Some k => interrupting k
  | None => doomed (fst (step w o)) t
  end.
Proof.
  intros w o t I D. pose proof D as [Ht D']. destruct o as [| |f|x|x e| |r]; cbn [step].
  - cbn. apply (doomed_grows w); cbn; auto; intros; rewrite ?upd_other by lia; auto.
  - cbn. apply (doomed_grows w); cbn; auto; intros; rewrite ?upd_other by lia; auto.
  - destruct ((f <? w_next w) && negb (x_task (w_ent w f)) && negb (is_done (w_ent w f))) eqn:B; [|exact D].
    rewrite !andb_true_iff, !negb_true_iff, is_done_false in B. destruct B as [[_ B1] B2].
    pose proof (grows_complete w f OutResult B2 B1) as G. cbn [next_resume snd fst].
    apply (doomed_grows w); try apply G; auto; intros; try apply G; auto.
  - destruct (x <? w_next w); [|exact D]. destruct (cancel (fuel w) w x) as [[w' r]|] eqn:C; [|exact D].
    destruct (cancel_ok _ _ _ _ _ I C) as [_ [G _]]. cbn [next_resume snd fst].
    apply (doomed_grows w); try apply G; auto; intros; try apply G; auto. rewrite (g_next _ _ G). lia.
  - destruct (x <? w_next w); [|exact D]. destruct (cancel_with w x e) as [[w' r]|] eqn:C; [|exact D].
    destruct (cancel_with_ok _ _ _ _ _ I C) as [_ [[G1 [G2 [G3 [G4 [G5 G6]]]]] _]]. cbn [next_resume snd fst].
    apply (doomed_grows w); auto. lia.
  - (* begin *)
    unfold begin_step. destruct (w_running w) as [u|] eqn:R; [exact D|].
    destruct (w_ready w) as [|h ready] eqn:Q; [exact D|].
    assert (Hr : reasons w (htask h) <> 0) by (apply in_ready_reasons; rewrite Q; left; reflexivity).
    destruct (reasons_live w _ I Hr) as [L [_ C1]]. pose proof L as L'. apply live_true in L'. destruct L' as [L1 [L2 L3]].
    assert (Dn : is_done (w_ent w (htask h)) = false) by (apply is_done_false; exact L3).
    rewrite Dn. cbn [snd fst next_resume]. destruct (Nat.eqb_spec (htask h) t) as [E|N].
    + (* t itself *)
      rewrite E in *. destruct D' as [D'|D']; [contradiction|].
      destruct (x_cancelling (w_ent w t)) eqn:F; [exact Logic.I|].
      destruct D' as [D'|[f [W D2]]]; [congruence|].
      destruct h as [u|u]; cbn in E; subst u.
      * exfalso. assert (S : x_waited (w_ent w t) = None) by (apply (n_step w I); rewrite Q; left; reflexivity).
        congruence.
      * rewrite W. cbn. exact D2.
    + apply (doomed_grows w); cbn; auto; intros; unfold upd.
      * destruct (Nat.eqb_spec y (htask h)); [subst; destruct h; reflexivity | reflexivity].
      * destruct (Nat.eqb_spec t (htask h)); [congruence | reflexivity].
      * destruct (Nat.eqb_spec y (htask h)); [subst; congruence | assumption].
      * destruct (Nat.eqb_spec t (htask h)); [congruence | assumption].
  - (* end *)
    unfold end_step. destruct (w_running w) as [u|] eqn:R; [|exact D].
    destruct (n_run w I u R) as [L W]. apply live_true in L. destruct L as [L1 [L2 L3]].
    assert (Fin : forall o, doomed (idle (complete w u o)) t).
    { intros o. destruct (Nat.eq_dec t u) as [->|N].
      - split; [exact Ht|]. left. cbn [w_ent idle]. destruct (complete_ent w u o u) as [_ [_ [_ [_ E]]]].
        cbn [complete w_ent] in *. rewrite E, Nat.eqb_refl. discriminate.
      - apply (doomed_grows w); auto; intros; cbn [idle w_ent]; try destruct (complete_ent w u o y) as [E1 [E2 [E3 [E4 E5]]]];
          try destruct (complete_ent w u o t) as [F1 [F2 [F3 [F4 F5]]]]; auto.
        + rewrite E5. destruct (Nat.eqb_spec y u); [subst; congruence | assumption].
        + rewrite F3. assumption. }
    destruct r as [f| | | |]; cbn [snd fst next_resume]; try apply Fin.
    + destruct (is_done (w_ent w f) || negb (f <? w_next w)) eqn:B; [exact D|].
      apply orb_false_iff in B. destruct B as [B1 B2]. apply is_done_false in B1.
      rewrite negb_false_iff, Nat.ltb_lt in B2. pose proof (end_await_inv w u f I R B1 B2) as I1.
      cbn [w_ent w_regs w_ready w_next].
      set (w1 := mk_world (upd (w_ent w) u (with_waited (w_ent w u) (Some f))) (w_regs w ++ [(f, u)]) (w_ready w) None (w_next w)) in *.
      assert (K : t <> u -> doomed w1 t).
      { intros N. apply (doomed_grows w); cbn; auto; intros; unfold upd.
        - destruct (Nat.eqb_spec y u); [subst; reflexivity | reflexivity].
        - destruct (Nat.eqb_spec t u); [congruence | reflexivity].
        - destruct (Nat.eqb_spec y u); [subst; congruence | assumption].
        - destruct (Nat.eqb_spec t u); [congruence | assumption]. }
      destruct (x_cancelling (w_ent w u)) eqn:F.
      * destruct (cancel (fuel w1) w1 f) as [[w2 [|]]|] eqn:C; cbn [snd fst next_resume].
        -- destruct (cancel_ok _ _ _ _ _ I1 C) as [I2 [G R2]].
           destruct (Nat.eq_dec t u) as [->|N].
           ++ split; [cbn; rewrite (g_next _ _ G); exact Ht|]. right. right. exists f. cbn [w_ent set_ent].
              rewrite upd_same. cbn [x_waited with_flag]. rewrite (g_waited _ _ G). cbn [w_ent w1]. unfold w1. cbn [w_ent].
              rewrite upd_same. split; [reflexivity|].
              assert (Df : x_done (w_ent w1 f) = None).
              { unfold w1. cbn. unfold upd. destruct (Nat.eqb_spec f u); [subst; exact B1 | exact B1]. }
              destruct (R2 Df) as [_ [R3 _]].
              unfold upd. destruct (Nat.eqb_spec f u) as [->|Nf].
              ** left. cbn. rewrite (g_task _ _ G). unfold w1. cbn. rewrite upd_same. exact L2.
              ** destruct (x_task (w_ent w1 f)) eqn:Tf; [left; rewrite (g_task _ _ G); exact Tf | right; apply R3; reflexivity].
           ++ pose proof (K N) as D1.
              assert (D2 : doomed w2 t).
              { apply (doomed_grows w1); try apply G; auto; intros; try apply G; auto. rewrite (g_next _ _ G). lia. }
              apply (doomed_grows w2); cbn; auto; intros; unfold upd.
              ** destruct (Nat.eqb_spec y u); [subst; reflexivity | reflexivity].
              ** destruct (Nat.eqb_spec t u); [congruence | reflexivity].
              ** destruct (Nat.eqb_spec y u); [subst; assumption | assumption].
              ** destruct (Nat.eqb_spec t u); [congruence | assumption].
        -- destruct (cancel_ok _ _ _ _ _ I1 C) as [I2 [G R2]].
           assert (Df : x_done (w_ent w1 f) = None).
           { unfold w1. cbn. unfold upd. destruct (Nat.eqb_spec f u); [subst; exact B1 | exact B1]. }
           destruct (R2 Df) as [X _]. discriminate.
        -- destruct (Nat.eq_dec t u) as [->|N]; [|apply K; exact N].
           split; [exact Ht|]. right. left. unfold w1. cbn. rewrite upd_same. exact F.
      * cbn [snd fst next_resume]. destruct (Nat.eq_dec t u) as [->|N]; [|apply K; exact N].
        exfalso. destruct D' as [D'|[D'|[g [D1 _]]]]; congruence.
    + destruct (Nat.eq_dec t u) as [->|N].
      * split; [exact Ht|]. right. destruct D' as [D'|D']; [contradiction | exact D'].
      * apply (doomed_grows w); cbn; auto.
Qed.

Lemma next_resume_app : forall t a b, next_resume t (a ++ b) =
  match next_resume t a with Some k => Some k | None => next_resume t b end.
Proof.
  induction a as [|e a IH]; intros b; cbn; [reflexivity|].
  destruct e; try apply IH. destruct (Nat.eqb t0 t); [reflexivity | apply IH].
Qed.

Lemma doomed_next : forall ops w t, inv w -> doomed w t ->
  match next_resume t (events w ops) with Some k => interrupting k | None => True end.
Proof.
  induction ops as [|o ops IH]; intros w t I D; cbn; [exact Logic.I|].
  rewrite next_resume_app. pose proof (doomed_step w o t I D) as S.
  destruct (next_resume t (snd (step w o))) as [k|]; [exact S|]. apply IH; [apply inv_step; exact I | exact S].
Qed.

Lemma cancel_reaches : forall ops t ops',
  let w := run world_init ops in
  x_task (w_ent w t) = true -> snd (step w (OCancel t)) = [EvCancel t true] ->
  match next_resume t (events (fst (step w (OCancel t))) ops') with Some k => interrupting k | None => True end.
Proof.
  intros ops t ops' w T H.
  assert (I : inv w) by (apply inv_run, inv_init).
  apply doomed_next; [apply inv_step; exact I|]. revert H. cbn [step].
  destruct (Nat.ltb_spec t (w_next w)); [|discriminate].
  destruct (cancel (fuel w) w t) as [[w' r]|] eqn:C; [|discriminate]. cbn [fst snd]. intros E. inversion E; subst.
  destruct (cancel_ok _ _ _ _ _ I C) as [_ [G R]].
  split; [rewrite (g_next _ _ G); exact H|].
  destruct (x_done (w_ent w t)) as [o|] eqn:D; [left; rewrite (g_done _ _ G _ _ D); discriminate|].
  right. apply R; auto.
Qed.

Lemma cancel_with_reaches : forall ops t e ops',
  let w := run world_init ops in
  x_task (w_ent w t) = true -> snd (step w (OCancelWith t e)) = [EvCancel t true] ->
  (forall f, x_waited (w_ent w t) = Some f -> x_done (w_ent w f) = None) ->
  match next_resume t (events (fst (step w (OCancelWith t e))) ops') with Some k => interrupting k | None => True end.
Proof.
  intros ops t e ops' w T H Hf.
  assert (I : inv w) by (apply inv_run, inv_init).
  apply doomed_next; [apply inv_step; exact I|]. revert H. cbn [step].
  destruct (Nat.ltb_spec t (w_next w)); [|discriminate].
  destruct (cancel_with w t e) as [[w' r]|] eqn:C; [|discriminate]. cbn [fst snd]. intros E. inversion E; subst.
  destruct (cancel_with_ok _ _ _ _ _ I C) as [_ [[G1 [_ [_ [_ [G5 _]]]]] R]].
  split; [rewrite G1; exact H|].
  destruct (x_done (w_ent w t)) as [o|] eqn:D; [left; rewrite (G5 _ _ D); discriminate|].
  right. apply R; auto.
Qed.

(** The whole chain of tasks that wait for each other gets it. *)
Lemma cancel_chain : forall w t g, chain w t g -> forall n w' r, inv w -> t < w_next w ->
  cancel n w t = Some (w', r) -> doomed w' g.
Proof.
  intros w t g H. induction H as [t Ht Hd|t f g Ht Hd Hw Hf Hc IH]; intros n w' r I Hn C.
  - destruct (cancel_ok _ _ _ _ _ I C) as [_ [G R]]. split; [rewrite (g_next _ _ G); exact Hn|]. right. apply R; auto.
  - destruct n as [|n]; cbn in C; [discriminate|]. unfold is_done in C. rewrite Hd, Ht, Hw in C.
    destruct (cancel n w f) as [[w1 b]|] eqn:C1; [|discriminate].
    destruct (cancel_ok _ _ _ _ _ I C1) as [_ [_ R]]. destruct (R Hf) as [-> _]. inversion C; subst.
    apply (IH n w' true I); [|exact C1]. exact (n_waited w I t f Hn Hw).
Qed.

Lemma cancel_reaches_chain : forall ops t g ops',
  let w := run world_init ops in
  chain w t g -> snd (step w (OCancel t)) = [EvCancel t true] ->
  match next_resume g (events (fst (step w (OCancel t))) ops') with Some k => interrupting k | None => True end.
Proof.
  intros ops t g ops' w T H.
  assert (I : inv w) by (apply inv_run, inv_init).
  apply doomed_next; [apply inv_step; exact I|]. revert H. cbn [step].
  destruct (Nat.ltb_spec t (w_next w)); [|discriminate].
  destruct (cancel (fuel w) w t) as [[w' r]|] eqn:C; [|discriminate]. cbn [fst snd]. intros E. inversion E; subst.
  exact (cancel_chain w t g T _ _ _ I H C).
Qed.

(** A task that is cancelled while its coroutine executes and then returns ends as cancelled. *)

Lemma inner_keeps : forall ops w t, inv w -> w_running w = Some t -> x_cancelling (w_ent w t) = true ->
  (forall o, In o ops -> inner o) ->
  w_running (run w ops) = Some t /\ x_cancelling (w_ent (run w ops) t) = true.
Proof.
  induction ops as [|o ops IH]; intros w t I R F H; cbn; [auto|].
  apply IH; [apply inv_step; exact I | | | intros o' Ho'; apply H; right; exact Ho'];
    pose proof (H o (or_introl eq_refl)) as Hi; destruct (n_run w I t R) as [L W]; apply live_true in L;
    destruct o as [| |f|x|x e| |r]; try contradiction; cbn [step].
  - exact R.
  - exact R.
  - destruct (_ && _ && _); exact R.
  - destruct (x <? w_next w); [|exact R]. destruct (cancel (fuel w) w x) as [[w' r]|] eqn:C; [|exact R].
    destruct (cancel_ok _ _ _ _ _ I C) as [_ [G _]]. cbn. rewrite (g_running _ _ G). exact R.
  - destruct (x <? w_next w); [|exact R]. destruct (cancel_with w x e) as [[w' r]|] eqn:C; [|exact R].
    destruct (cancel_with_ok _ _ _ _ _ I C) as [_ [[_ [G _]] _]]. cbn. rewrite G. exact R.
  - cbn. rewrite upd_other by lia. exact F.
  - cbn. rewrite upd_other by lia. exact F.
  - destruct (_ && _ && _); [|exact F]. cbn [fst]. destruct (complete_ent w f OutResult t) as [_ [_ [-> _]]]. exact F.
  - destruct (x <? w_next w); [|exact F]. destruct (cancel (fuel w) w x) as [[w' r]|] eqn:C; [|exact F].
    destruct (cancel_ok _ _ _ _ _ I C) as [_ [G _]]. cbn. apply (g_flag _ _ G). exact F.
  - destruct (x <? w_next w); [|exact F]. destruct (cancel_with w x e) as [[w' r]|] eqn:C; [|exact F].
    destruct (cancel_with_ok _ _ _ _ _ I C) as [_ [[_ [_ [_ [_ [_ G]]]]] _]]. cbn. apply G. exact F.
Qed.

Lemma cancel_beats_return : forall ops t ops',
  let w := run world_init ops in
  w_running w = Some t -> (forall o, In o ops' -> inner o) ->
  exists e, snd (step (run (fst (step w (OCancel t))) ops') (OEnd RReturn)) = [EvFinish t (OutCancelled e)].
Proof.
  intros ops t ops' w R H.
  assert (I : inv w) by (apply inv_run, inv_init).
  destruct (n_run w I t R) as [L W]. apply live_true in L. destruct L as [L1 [L2 L3]].
  assert (I' : inv (fst (step w (OCancel t)))) by (apply inv_step; exact I).
  assert (E : fst (step w (OCancel t)) = set_ent w t (with_flag (w_ent w t) true)).
  { cbn [step]. destruct (Nat.ltb_spec t (w_next w)); [|lia]. unfold fuel. cbn [cancel]. unfold is_done.
    rewrite L3, L2, W. reflexivity. }
  rewrite E in *. destruct (inner_keeps ops' _ t I') as [K1 K2].
  - exact R.
  - cbn. rewrite upd_same. reflexivity.
  - exact H.
  - cbn [step]. unfold end_step. rewrite K1, K2. cbn. eauto.
Qed.

(** The lost [cancel_with]. *)
Definition lost_history : list op := [ONewFuture; ONewTask; OBegin; OEnd (RAwait 0); OSetResult 0].
