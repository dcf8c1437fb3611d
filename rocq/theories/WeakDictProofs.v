(** Proofs for C54 and C55. *)
From Coq Require Import List ZArith Bool Arith Lia Permutation.
From Verif Require Import WeakDictModel WeakDictSpec.
Import ListNotations.

Lemma ref_eqb_eq a b : ref_eqb a b = true <-> a = b.
Proof.
  unfold ref_eqb. destruct a, b; cbn. rewrite !andb_true_iff, !Nat.eqb_eq, Bool.eqb_true_iff.
  split; [intros (((-> & ->) & ->) & ->); reflexivity|intros H; injection H as -> -> -> ->; auto].
Qed.

Section Proofs.
Variable hybrid : bool.
Variable weakable : nat -> bool.
Notation deref := (deref weakable).
Notation alive := (alive weakable).
Notation w_step := (w_step hybrid weakable).
Notation w_run := (w_run hybrid weakable).

Definition vis (s : wdict) : amap := fun k => match lookup k (tab s) with Some e => deref (dead s) e | None => None end.

Lemma mem_In o l : mem o l = true <-> In o l.
Proof. unfold mem. rewrite existsb_exists. split; [intros (x & A & B); apply Nat.eqb_eq in B; congruence|intros H; exists o; split; [auto|apply Nat.eqb_refl]]. Qed.

Lemma lookup_In k e t : lookup k t = Some e -> In (k, e) t.
Proof.
  induction t as [|[x f] t IH]; cbn; [discriminate|]. destruct (x =? k) eqn:E; intros H.
  - apply Nat.eqb_eq in E. injection H as ->. subst. auto.
  - auto.
Qed.
Lemma lookup_None k t : lookup k t = None <-> ~ In k (map fst t).
Proof.
  induction t as [|[x f] t IH]; cbn; [tauto|]. destruct (x =? k) eqn:E.
  - apply Nat.eqb_eq in E. split; [discriminate|intros H; tauto].
  - apply Nat.eqb_neq in E. rewrite IH. tauto.
Qed.
Lemma In_lookup k e t : NoDup (map fst t) -> In (k, e) t -> lookup k t = Some e.
Proof.
  induction t as [|[x f] t IH]; cbn; [tauto|]. intros N H. inversion N as [|? ? N1 N2]; subst. destruct H as [H|H].
  - injection H as -> ->. now rewrite Nat.eqb_refl.
  - destruct (x =? k) eqn:E; [|auto]. apply Nat.eqb_eq in E. subst. destruct N1. apply in_map_iff. exists (k, e). auto.
Qed.
Lemma lookup_put k e t x : lookup x (put k e t) = if x =? k then Some e else lookup x t.
Proof.
  induction t as [|[y f] t IH]; cbn.
  - rewrite (Nat.eqb_sym k x). reflexivity.
  - destruct (y =? k) eqn:E; cbn.
    + apply Nat.eqb_eq in E. subst. rewrite (Nat.eqb_sym k x). destruct (x =? k); reflexivity.
    + rewrite IH. destruct (y =? x) eqn:F; [|reflexivity]. apply Nat.eqb_eq in F. subst. now rewrite E.
Qed.
Lemma put_In k e t y : In y (put k e t) -> y = (k, e) \/ In y t.
Proof.
  induction t as [|[x f] t IH]; cbn; [intuition|]. destruct (x =? k) eqn:E; cbn; [apply Nat.eqb_eq in E; subst|]; intuition.
Qed.
Lemma put_keys k e t : In k (map fst t) -> map fst (put k e t) = map fst t.
Proof.
  induction t as [|[x f] t IH]; cbn; [tauto|]. destruct (x =? k) eqn:E; cbn; [reflexivity|].
  apply Nat.eqb_neq in E. intros [H|H]; [contradiction|]. now rewrite IH.
Qed.
Lemma put_NoDup k e t : NoDup (map fst t) -> NoDup (map fst (put k e t)).
Proof.
  intros N. destruct (in_dec Nat.eq_dec k (map fst t)) as [H|H]; [now rewrite put_keys|].
  assert (E : put k e t = t ++ [(k, e)]).
  { clear N. induction t as [|[x f] t IH]; cbn in *; [reflexivity|]. destruct (x =? k) eqn:E; [apply Nat.eqb_eq in E; tauto|]. rewrite IH; tauto. }
  rewrite E, map_app. cbn. apply (Permutation_NoDup (Permutation_cons_append _ k)). now constructor.
Qed.
Lemma del_In k t y : In y (del k t) -> In y t.
Proof. induction t as [|[x f] t IH]; cbn; [tauto|]. destruct (x =? k); cbn; intuition. Qed.
Lemma del_NoDup k t : NoDup (map fst t) -> NoDup (map fst (del k t)).
Proof.
  induction t as [|[x f] t IH]; cbn; [auto|]. intros N. inversion N as [|? ? N1 N2]; subst. destruct (x =? k); cbn; [auto|].
  constructor; [|auto]. intros H. apply N1. apply in_map_iff in H. destruct H as (y & A & B). apply del_In in B. apply in_map_iff. eauto.
Qed.
Lemma lookup_del k t x : NoDup (map fst t) -> lookup x (del k t) = if x =? k then None else lookup x t.
Proof.
  induction t as [|[y f] t IH]; cbn; intros N; [now destruct (x =? k)|]. inversion N as [|? ? N1 N2]; subst.
  destruct (y =? k) eqn:E; cbn.
  - apply Nat.eqb_eq in E. subst. destruct (x =? k) eqn:F.
    + apply Nat.eqb_eq in F. subst. now apply lookup_None.
    + now rewrite (Nat.eqb_sym k x), F.
  - destruct (y =? x) eqn:F; [|now apply IH]. apply Nat.eqb_eq in F. subst. now rewrite E.
Qed.

(** ** The invariant *)
Definition okent (d : list nat) (x : nat * entry) : Prop :=
  match snd x with Weak r => r_key r = fst x /\ weakable (r_target r) = true | Strong o => weakable o = false end.
Definition deadp (d : list nat) (p : pending) : Prop := alive d (r_target (pending_ref p)) = false.
Record wf (s : wdict) : Prop := {
  wf_keys : NoDup (map fst (tab s));
  wf_ent : forall x, In x (tab s) -> okent (dead s) x;
  wf_pend : forall p, In p (pend s) -> deadp (dead s) p;
  wf_held : forall g r, In g (gens s) -> g_held g = Some r -> weakable (r_target r) = true
}.

Lemma wf_init : wf w_init.
Proof. split; cbn; [constructor|tauto|tauto|tauto]. Qed.

Lemma vis_put k o s : wf s -> alive (dead s) o = true -> same (vis (set_item weakable k o s)) (aput k o (vis s)).
Proof.
  intros W A x. unfold vis, set_item, aput. cbn [tab dead]. rewrite lookup_put. destruct (x =? k); [|reflexivity].
  destruct (weakable o); cbn; [now rewrite A|reflexivity].
Qed.
Lemma wf_put k o s : wf s -> wf (set_item weakable k o s).
Proof.
  intros [W1 W2 W3 W4]. split; cbn.
  - now apply put_NoDup.
  - intros x H. apply put_In in H. destruct H as [-> | H]; [|auto]. unfold okent. cbn. destruct (weakable o) eqn:E; cbn; auto.
  - auto.
  - auto.
Qed.
Lemma vis_del k s : wf s -> same (vis (s_del k s)) (adel k (vis s)).
Proof. intros W x. unfold vis, adel. cbn. rewrite lookup_del by apply W. now destruct (x =? k). Qed.
Lemma wf_del k s : wf s -> wf (s_del k s).
Proof. intros [W1 W2 W3 W4]. split; cbn; [now apply del_NoDup|intros x H; apply del_In in H; auto|auto|auto]. Qed.
Lemma vis_del_dead k s : wf s -> vis s k = None -> same (vis (s_del k s)) (vis s).
Proof. intros W D x. rewrite vis_del by auto. unfold adel. destruct (x =? k) eqn:E; [|auto]. apply Nat.eqb_eq in E. congruence. Qed.

Lemma add_tab r s : tab (add_pending r s) = tab s. Proof. reflexivity. Qed.
Lemma add_dead r s : dead (add_pending r s) = dead s. Proof. reflexivity. Qed.
Lemma vis_add r s : vis (add_pending r s) = vis s. Proof. reflexivity. Qed.
Lemma add_In p r s : In p (pend (add_pending r s)) -> In p (pend s) \/ pending_ref p = r.
Proof.
  unfold add_pending. cbn. destruct (existsb _ _); [auto|]. rewrite in_app_iff. intros [H|[<- | []]]; [auto|]. right. now destruct (r_hashed r).
Qed.
Lemma wf_add r s : wf s -> alive (dead s) (r_target r) = false -> wf (add_pending r s).
Proof.
  intros [W1 W2 W3 W4] D. split; [exact W1|exact W2| |exact W4]. intros p H. apply add_In in H. destruct H as [H| <-]; [now apply W3|exact D].
Qed.
Lemma deref_dead d e : deref d e = None -> exists r, e = Weak r /\ alive d (r_target r) = false.
Proof. destruct e as [r|o]; cbn; [|discriminate]. destruct (alive d (r_target r)) eqn:E; [discriminate|]. eauto. Qed.

Lemma found_ok k r s : wf s -> lookup k (tab s) = Some (Weak r) -> alive (dead s) (r_target r) = false ->
  wf (found_dead k r s) /\ same (vis (found_dead k r s)) (vis s) /\ dead (found_dead k r s) = dead s.
Proof.
  intros W L D. unfold found_dead. destruct (gens s).
  - split; [now apply wf_del|]. split; [|reflexivity]. apply vis_del_dead; [auto|]. unfold vis. rewrite L. cbn. now rewrite D.
  - split; [now apply wf_add|]. split; [intros x; reflexivity|reflexivity].
Qed.

Lemma with_gens_ok l s : wf s -> (forall g r, In g l -> g_held g = Some r -> weakable (r_target r) = true) -> wf (with_gens l s).
Proof. intros [W1 W2 W3 W4] H. now split. Qed.
Lemma drop_held g s h r : wf s -> In h (drop_gen g (gens s)) -> g_held h = Some r -> weakable (r_target r) = true.
Proof. intros W H. apply filter_In in H. apply (wf_held _ W). apply H. Qed.

Lemma commit_one_ok p s : wf s -> deadp (dead s) p -> wf (commit_one s p) /\ same (vis (commit_one s p)) (vis s) /\ dead (commit_one s p) = dead s.
Proof.
  intros W D. unfold commit_one. destruct (lookup _ (tab s)) as [e|] eqn:L; [|split; [auto|split; [intros x; reflexivity|reflexivity]]].
  destruct (same_object e p) eqn:E; [|split; [auto|split; [intros x; reflexivity|reflexivity]]].
  unfold same_object in E. destruct e as [r|]; [|discriminate]. destruct p as [q|]; [|discriminate]. apply ref_eqb_eq in E. subst q.
  split; [now apply wf_del|split; [|reflexivity]]. apply vis_del_dead; [auto|]. unfold vis. cbn [pending_ref] in *. rewrite L. cbn. unfold deadp in D. cbn in D. now rewrite D.
Qed.
Lemma commit_fold ps : forall s, wf s -> (forall p, In p ps -> deadp (dead s) p) ->
  wf (fold_left commit_one ps s) /\ same (vis (fold_left commit_one ps s)) (vis s) /\ dead (fold_left commit_one ps s) = dead s.
Proof.
  induction ps as [|p ps IH]; intros s W D; cbn; [split; [auto|split; [intros x; reflexivity|reflexivity]]|].
  destruct (commit_one_ok p s W (D p (or_introl eq_refl))) as (A & B & C).
  destruct (IH (commit_one s p) A) as (A2 & B2 & C2); [intros q H; rewrite C; apply D; cbn; auto|].
  split; [auto|split; [|congruence]]. intros x. now rewrite B2, B.
Qed.
Lemma commit_ok s : wf s -> wf (commit s) /\ same (vis (commit s)) (vis s) /\ dead (commit s) = dead s.
Proof.
  intros W. unfold commit. destruct (gens s); [|split; [auto|split; [intros x; reflexivity|reflexivity]]].
  destruct (commit_fold (pend s) {| tab := tab s; pend := []; gens := []; dead := dead s; fresh := fresh s; ver := ver s |}) as (A & B & C).
  - destruct W. split; cbn; auto; tauto.
  - apply W.
  - auto.
Qed.
Lemma gen_end_ok g s : wf s -> wf (gen_end g s) /\ same (vis (gen_end g s)) (vis s) /\ dead (gen_end g s) = dead s.
Proof. intros W. exact (commit_ok _ (with_gens_ok _ _ W (fun h r => drop_held g s h r W))). Qed.

Lemma scan_ok g t : forall pos s, wf s -> incl t (tab s) ->
  let '(s', x) := scan weakable g t pos s in
  wf s' /\ same (vis s') (vis s) /\ dead s' = dead s /\ (x = WStop \/ exists k o, x = WItem k o /\ vis s k = Some o).
Proof.
  induction t as [|[k e] t IH]; intros pos s W L; cbn [scan].
  - destruct (gen_end_ok g s W) as (A & B & C). auto.
  - assert (I1 : In (k, e) (tab s)) by (apply L; cbn; auto).
    assert (I2 : incl t (tab s)) by (intros y H; apply L; cbn; auto).
    destruct (deref (dead s) e) as [o|] eqn:D.
    + split; [apply with_gens_ok; [auto|intros h r [<- | H]; [cbn; intros E; destruct e as [q|]; [injection E as ->; apply (wf_ent _ W _ I1)|discriminate]|now apply (drop_held g s)]]|]. split; [intros y; reflexivity|]. split; [reflexivity|]. right. exists k, o. split; [reflexivity|].
      unfold vis. rewrite (In_lookup k e) by (auto; apply W). auto.
    + destruct (deref_dead _ _ D) as (r & -> & Dr). specialize (IH (S pos) (add_pending r s) (wf_add _ _ W Dr) I2). exact IH.
Qed.

Lemma copy_loop_ok t : forall s, wf s -> incl t (tab s) -> NoDup (map fst t) ->
  let '(s', l) := copy_loop weakable t s in
  wf s' /\ same (vis s') (vis s) /\ dead s' = dead s /\ incl (map fst l) (map fst t) /\ NoDup (map fst l) /\
  (forall k o, In (k, o) l <-> exists e, In (k, e) t /\ deref (dead s) e = Some o).
Proof.
  induction t as [|[k e] t IH]; intros s W L N; cbn [copy_loop].
  - split; [auto|]. split; [intros y; reflexivity|]. split; [reflexivity|]. split; [intros y []|]. split; [constructor|]. intros k o. cbn. split; [tauto|intros (e & [] & _)].
  - inversion N as [|? ? N1 N2]; subst.
    assert (I2 : incl t (tab s)) by (intros y H; apply L; cbn; auto).
    destruct (deref (dead s) e) as [o|] eqn:D.
    + specialize (IH s W I2 N2). destruct (copy_loop weakable t s) as [s1 l]. destruct IH as (A & B & C & F & G & H).
      split; [auto|]. split; [auto|]. split; [auto|]. split; [|split].
      * intros y [<- | Y]; cbn; [auto|right; now apply F].
      * cbn. constructor; [|auto]. intros Y. apply N1. now apply F.
      * intros x v. cbn. rewrite H. split.
        -- intros [E|(f & E1 & E2)]; [injection E as <- <-; exists e; auto|exists f; auto].
        -- intros (f & [E1|E1] & E2); [injection E1 as <- <-; left; congruence|right; eauto].
    + destruct (deref_dead _ _ D) as (r & -> & Dr). specialize (IH (add_pending r s) (wf_add _ _ W Dr) I2 N2).
      destruct (copy_loop weakable t (add_pending r s)) as [s1 l]. destruct IH as (A & B & C & F & G & H).
      split; [auto|]. split; [auto|]. split; [auto|]. split; [|split; [auto|]].
      * intros y Y. cbn. right. now apply F.
      * intros x v. rewrite H. cbn [In]. split; [intros (f & E1 & E2); exists f; auto|].
        intros (f & [E1|E1] & E2); [|eauto]. injection E1 as <- <-. rewrite add_dead in *. congruence.
Qed.

(** ** Garbage collection *)
Lemma callback_ok r s : wf s -> vis s (r_key r) = None -> alive (dead s) (r_target r) = false ->
  wf (callback s r) /\ same (vis (callback s r)) (vis s) /\ dead (callback s r) = dead s /\ gens (callback s r) = gens s.
Proof.
  intros W D A. unfold callback. destruct (gens s) eqn:G.
  - destruct (lookup (r_key r) (tab s)); [|split; [auto|split; [intros x; reflexivity|auto]]].
    split; [now apply wf_del|]. split; [now apply vis_del_dead|auto].
  - split; [now apply wf_add|]. split; [intros x; reflexivity|auto].
Qed.
Lemma callback_iter r s : wf s -> gens s <> [] -> alive (dead s) (r_target r) = false ->
  wf (callback s r) /\ same (vis (callback s r)) (vis s) /\ dead (callback s r) = dead s /\ gens (callback s r) = gens s.
Proof.
  intros W D A. unfold callback. destruct (gens s) eqn:G; [congruence|].
  split; [now apply wf_add|]. split; [intros x; reflexivity|auto].
Qed.
Lemma callback_fold rs : forall s, wf s -> (forall r, In r rs -> (gens s <> [] \/ vis s (r_key r) = None) /\ alive (dead s) (r_target r) = false) ->
  wf (fold_left callback rs s) /\ same (vis (fold_left callback rs s)) (vis s) /\ dead (fold_left callback rs s) = dead s.
Proof.
  induction rs as [|r rs IH]; intros s W D; cbn; [split; [auto|split; [intros x; reflexivity|auto]]|].
  destruct (D r (or_introl eq_refl)) as (D1 & D2).
  assert (K : wf (callback s r) /\ same (vis (callback s r)) (vis s) /\ dead (callback s r) = dead s /\ gens (callback s r) = gens s).
  { destruct D1; [now apply callback_iter|now apply callback_ok]. }
  destruct K as (A & B & C & G). destruct (IH _ A) as (A2 & B2 & C2).
  - intros q H. rewrite C, G, B. apply D. cbn. auto.
  - split; [auto|split; [|congruence]]. intros x. now rewrite B2, B.
Qed.

Lemma alive_app l d o : alive (l ++ d) o = alive d o && negb (weakable o && mem o l).
Proof.
  unfold WeakDictModel.alive, mem. rewrite existsb_app. destruct (weakable o), (existsb _ l), (existsb _ d); reflexivity.
Qed.

Lemma die_ok l s : wf s -> wf (die weakable l s) /\ same (vis (die weakable l s)) (awithout weakable l (vis s)) /\ dead (die weakable l s) = l ++ dead s.
Proof.
  intros W. unfold die. set (s0 := {| tab := tab s |}).
  assert (W0 : wf s0).
  { destruct W as [W1 W2 W3 W4]. split; [exact W1|exact W2| |exact W4]. intros p H. specialize (W3 p H). unfold deadp in *. cbn. rewrite alive_app, W3. reflexivity. }
  assert (V0 : same (vis s0) (awithout weakable l (vis s))).
  { intros x. unfold vis, awithout. cbn. destruct (lookup x (tab s)) as [[r|o]|] eqn:E; cbn; [| |reflexivity].
    - rewrite alive_app. destruct (alive (dead s) (r_target r)); cbn; [|reflexivity].
      unfold mem. destruct (weakable (r_target r) && existsb (Nat.eqb (r_target r)) l); reflexivity.
    - apply lookup_In in E. apply W in E. unfold okent in E. cbn in E. now rewrite E. }
  destruct (callback_fold (filter (fun r => alive (dead s) (r_target r) && mem (r_target r) l) (refs s)) s0 W0) as (A & B & C).
  - intros r H. apply filter_In in H. destruct H as (H1 & H2). apply andb_true_iff in H2. destruct H2 as (H2 & H3).
    unfold refs in H1. apply in_app_iff in H1. destruct H1 as [H1|H1].
    + apply in_flat_map in H1. destruct H1 as ([k e] & X1 & X2). cbn in X2. destruct e as [q|]; [|destruct X2]. destruct X2 as [-> | []].
      pose proof (wf_ent _ W _ X1) as (O1 & O2). cbn in O1, O2.
      assert (AD : alive (l ++ dead s) (r_target r) = false) by (rewrite alive_app, O2, H3; apply andb_false_r).
      split; [|exact AD]. right. unfold vis. cbn [tab s0]. rewrite O1, (In_lookup k (Weak r)) by (auto; apply W). cbn. now rewrite AD.
    + apply in_flat_map in H1. destruct H1 as (g & X1 & X2). destruct (g_held g) as [q|] eqn:EG; [|destruct X2]. destruct X2 as [-> | []].
      split; [left; cbn; intros E; rewrite E in X1; destruct X1|].
      cbn [dead s0]. rewrite alive_app, H3, (wf_held _ W _ _ X1 EG). apply andb_false_r.
  - split; [auto|split; [|auto]]. intros x. now rewrite B, V0.
Qed.

(** ** One step *)
Lemma set_dead k o s : dead (set_item weakable k o s) = dead s. Proof. reflexivity. Qed.

Lemma popitem_loop_ok d t : forall n, NoDup (map fst t) ->
  let '(r, m, x) := popitem_loop weakable d t n in
  (x = WKeyError /\ r = [] /\ forall k e, In (k, e) t -> deref d e = None) \/
  (exists p k e o, t = p ++ (k, e) :: r /\ x = WItem k o /\ deref d e = Some o /\ forall k e, In (k, e) p -> deref d e = None).
Proof.
  induction t as [|[k e] t IH]; intros n N; cbn [popitem_loop].
  - left. split; [auto|]. split; [auto|]. intros k e [].
  - destruct (deref d e) as [o|] eqn:D.
    + right. exists [], k, e, o. cbn. repeat split; auto. intros ? ? [].
    + inversion N as [|? ? N1 N2]; subst. specialize (IH (S n) N2). destruct (popitem_loop weakable d t (S n)) as [[r m] x].
      destruct IH as [(-> & -> & H)|(p & k' & e' & o & -> & -> & E & H)].
      * left. split; [auto|]. split; [auto|]. intros x f [X|X]; [injection X as <- <-; auto|eauto].
      * right. exists ((k, e) :: p), k', e', o. split; [reflexivity|]. split; [auto|]. split; [auto|]. intros x f [X|X]; [injection X as <- <-; auto|eauto].
Qed.

Definition good (s : wdict) (o : w_op) : Prop :=
  let '(s', x) := w_step s o in
  wf s' /\ dead s' = dead_after o (dead s) /\
  (x = WTypeError /\ hybrid = true /\ (exists k, o = WPop k true /\ vis s k = None) \/ exists m, spec_step weakable (dead s) (vis s) o m x /\ same m (vis s')).

Lemma vis_rev s t : wf s -> tab s = rev t -> forall k, vis s k = match lookup k t with Some e => deref (dead s) e | None => None end.
Proof.
  intros W E k. unfold vis. rewrite E. pose proof (wf_keys _ W) as N. rewrite E in N.
  assert (N2 : NoDup (map fst t)) by (rewrite map_rev in N; apply NoDup_rev in N; now rewrite rev_involutive in N).
  destruct (lookup k t) as [e|] eqn:L.
  - apply lookup_In in L. rewrite (In_lookup k e); auto. now apply in_rev in L.
  - destruct (lookup k (rev t)) as [e|] eqn:L2; [|auto]. apply lookup_In in L2. apply in_rev in L2. apply (In_lookup k e) in L2; auto. congruence.
Qed.

Lemma alive_false d o : alive d o = false -> weakable o = true /\ In o d.
Proof. unfold WeakDictModel.alive. intros H. apply negb_false_iff, andb_true_iff in H. now rewrite mem_In in H. Qed.

Lemma step_good s o : wf s -> good s o.
Proof.
  intros W. unfold good. destruct o; cbn [WeakDictModel.w_step dead_after].
  - (* set *) destruct (alive (dead s) o) eqn:A.
    + split; [now apply wf_put|]. split; [reflexivity|]. right. eexists. split; [constructor|]. intros x. symmetry. now apply vis_put.
    + split; [auto|]. split; [auto|]. right. eexists. split; [apply SpDead; now apply alive_false in A|]. intros x; reflexivity.
  - (* del *) unfold del_item. destruct (lookup k (tab s)) as [e|] eqn:L.
    + split; [now apply wf_del|]. split; [auto|]. right. eexists. split; [constructor; auto|]. intros x. symmetry. now apply vis_del.
    + split; [auto|]. split; [auto|]. right. eexists. split; [constructor; right; unfold vis; now rewrite L|]. intros x. unfold adel. destruct (x =? k) eqn:E; [|auto]. apply Nat.eqb_eq in E. subst. unfold vis. now rewrite L.
  - (* get *) unfold get. destruct (lookup k (tab s)) as [e|] eqn:L.
    + destruct (deref (dead s) e) as [o|] eqn:D.
      * split; [auto|]. split; [auto|]. right. exists (vis s). split; [constructor; unfold vis; now rewrite L, D|]. intros x; reflexivity.
      * destruct (deref_dead _ _ D) as (r & -> & Dr). destruct (found_ok k r s W L Dr) as (A & B & C). split; [auto|]. split; [auto|]. right.
        exists (vis s). split; [constructor; unfold vis; now rewrite L, D|]. intros x. now rewrite B.
    + split; [auto|]. split; [auto|]. right. exists (vis s). split; [constructor; unfold vis; now rewrite L|]. intros x; reflexivity.
  - (* getitem *) unfold get. destruct (lookup k (tab s)) as [e|] eqn:L.
    + destruct (deref (dead s) e) as [o|] eqn:D.
      * split; [auto|]. split; [auto|]. right. exists (vis s). split; [constructor; unfold vis; now rewrite L, D|]. intros x; reflexivity.
      * destruct (deref_dead _ _ D) as (r & -> & Dr). destruct (found_ok k r s W L Dr) as (A & B & C). split; [auto|]. split; [auto|]. right.
        exists (vis s). split; [constructor; unfold vis; now rewrite L, D|]. intros x. now rewrite B.
    + split; [auto|]. split; [auto|]. right. exists (vis s). split; [constructor; unfold vis; now rewrite L|]. intros x; reflexivity.
  - (* in *) unfold contains. destruct (lookup k (tab s)) as [e|] eqn:L.
    + destruct (deref (dead s) e) as [o|] eqn:D.
      * split; [auto|]. split; [auto|]. right. exists (vis s). split; [constructor; unfold vis; now rewrite L, D|]. intros x; reflexivity.
      * destruct (deref_dead _ _ D) as (r & -> & Dr). destruct (found_ok k r s W L Dr) as (A & B & C). split; [auto|]. split; [auto|]. right.
        exists (vis s). split; [constructor; unfold vis; now rewrite L, D|]. intros x. now rewrite B.
    + split; [auto|]. split; [auto|]. right. exists (vis s). split; [constructor; unfold vis; now rewrite L|]. intros x; reflexivity.
  - (* pop *) unfold pop. destruct (lookup k (tab s)) as [e|] eqn:L.
    + split; [now apply wf_del|]. split; [auto|]. right. exists (adel k (vis s)). split; [|intros x; symmetry; now apply vis_del].
      constructor. unfold vis. rewrite L. destruct (deref (dead s) e); reflexivity.
    + split; [auto|]. split; [auto|]. destruct (hybrid && default) eqn:HD; [left; apply andb_true_iff in HD; destruct HD as (-> & ->); split; [auto|split; [auto|]]; exists k; unfold vis; rewrite L; auto|]. right. exists (adel k (vis s)). split; [constructor; unfold vis; now rewrite L|].
      intros x. unfold adel. destruct (x =? k) eqn:E; [|auto]. apply Nat.eqb_eq in E. subst. unfold vis. now rewrite L.
  - (* popitem *) unfold popitem. pose proof (popitem_loop_ok (dead s) (rev (tab s)) 0) as P.
    assert (N : NoDup (map fst (rev (tab s)))) by (rewrite map_rev; apply NoDup_rev, W). specialize (P N).
    destruct (popitem_loop weakable (dead s) (rev (tab s)) 0) as [[r m] x].
    assert (VR := vis_rev s (rev (tab s)) W (eq_sym (rev_involutive _))).
    destruct P as [(-> & -> & H)|(p & k & e & o & E & -> & D & H)].
    + split; [destruct W; split; cbn; auto; [constructor|tauto]|]. split; [auto|]. right. exists (vis s). 
      assert (EM : same (vis s) empty).
      { intros k. rewrite VR. destruct (lookup k (rev (tab s))) as [e|] eqn:L; [|reflexivity]. apply lookup_In in L. now apply H in L. }
      split; [now constructor|]. intros k. rewrite EM. reflexivity.
    + assert (NR : NoDup (map fst r) /\ ~ In k (map fst r) /\ ~ In k (map fst p)).
      { rewrite E, map_app in N. cbn in N. split; [|split].
        - apply NoDup_remove_1 in N. clear -N. induction (map fst p); [auto|]. inversion N; auto.
        - apply NoDup_remove_2 in N. intros X. apply N, in_app_iff. auto.
        - apply NoDup_remove_2 in N. intros X. apply N, in_app_iff. auto. }
      destruct NR as (NR1 & NR2 & NR3).
      assert (W' : wf {| tab := rev r; pend := pend s; gens := gens s; dead := dead s; fresh := fresh s; ver := m + ver s |}).
      { destruct W as [W1 W2 W3 W4]. split; cbn; auto.
        - rewrite map_rev. now apply NoDup_rev.
        - intros x X. apply W2. apply in_rev. rewrite E. apply in_app_iff. right. right. now apply in_rev. }
      split; [auto|]. split; [auto|]. right. exists (adel k (vis s)). split.
      * constructor. rewrite VR, E. rewrite (In_lookup k e); [auto| |apply in_app_iff; cbn; auto]. now rewrite <- E.
      * intros x. rewrite (vis_rev _ r W' eq_refl). cbn [dead]. unfold adel. destruct (x =? k) eqn:X.
        -- apply Nat.eqb_eq in X. subst. destruct (lookup k r) as [f|] eqn:L; [|auto]. apply lookup_In in L. destruct NR2. apply in_map_iff. exists (k, f). auto.
        -- apply Nat.eqb_neq in X. rewrite VR. destruct (lookup x r) as [f|] eqn:L.
           ++ apply lookup_In in L. rewrite (In_lookup x f); [auto|auto|]. rewrite E. apply in_app_iff. cbn. auto.
           ++ destruct (lookup x (rev (tab s))) as [f|] eqn:L2; [|auto]. apply lookup_In in L2. rewrite E in L2. apply in_app_iff in L2.
              destruct L2 as [L2|[L2|L2]]; [now apply H in L2|injection L2 as -> ->; congruence|]. apply (In_lookup x f) in L2; [congruence|auto].
  - (* setdefault *) destruct (alive (dead s) o) eqn:A.
    + unfold setdefault. destruct (lookup k (tab s)) as [e|] eqn:L.
      * destruct (deref (dead s) e) as [v|] eqn:D.
        -- split; [auto|]. split; [auto|]. right. exists (vis s). split; [apply SpSetDefaultOld; unfold vis; now rewrite L|intros x; reflexivity].
        -- split; [now apply wf_put|]. split; [reflexivity|]. right. eexists. split; [apply SpSetDefault; unfold vis; now rewrite L|]. intros x. symmetry. now apply vis_put.
      * split; [now apply wf_put|]. split; [reflexivity|]. right. eexists. split; [apply SpSetDefault; unfold vis; now rewrite L|]. intros x. symmetry. now apply vis_put.
    + split; [auto|]. split; [auto|]. right. eexists. split; [apply SpSetDefaultDead; now apply alive_false in A|]. intros x; reflexivity.
  - (* clear *) split; [destruct W; split; cbn; auto; [constructor|tauto|tauto]|]. split; [auto|]. right. exists empty. split; [constructor|]. intros x; reflexivity.
  - (* len *) split; [auto|]. split; [auto|]. right. exists (vis s). split; [constructor; unfold len; destruct (_ <? _); eauto|]. intros x; reflexivity.
  - (* copy *) unfold copy. pose proof (copy_loop_ok (tab s) s W (incl_refl _) (wf_keys _ W)) as C.
    destruct (copy_loop weakable (tab s) s) as [s1 l]. destruct C as (A & B & C & _ & N & I1).
    destruct (commit_ok s1 A) as (A2 & B2 & C2). split; [auto|]. split; [congruence|]. right. exists (vis s). split; [|intros x; now rewrite B2, B].
    constructor. split; [auto|]. intros k o. rewrite I1. unfold vis. split.
    + intros (e & E1 & E2). now rewrite (In_lookup k e) by (auto; apply W).
    + destruct (lookup k (tab s)) as [e|] eqn:L; [|discriminate]. intros E. exists e. split; [now apply lookup_In|auto].
  - (* next *) unfold gen_next. destruct (find_gen g (gens s)) as [y|].
    + destruct (negb _).
      * destruct (gen_end_ok g s W) as (A & B & C). split; [auto|]. split; [auto|]. right. exists (vis s). split; [apply SpNextEnd; auto|]. intros x; now rewrite B.
      * set (pos := if g_ver y =? ver s then _ else _).
        pose proof (scan_ok g (skipn pos (tab s)) pos s W) as P.
        assert (IN : incl (skipn pos (tab s)) (tab s)) by (intros z Z; rewrite <- (firstn_skipn pos (tab s)); apply in_app_iff; auto).
        specialize (P IN). destruct (scan _ _ _ _ _) as [s' x]. destruct P as (A & B & C & D). split; [auto|]. split; [auto|]. right. exists (vis s).
        split; [|intros z; now rewrite B]. destruct D as [-> | (k & o & -> & V)]; [apply SpNextEnd; auto|now apply SpNext].
    + assert (W1 : wf (with_gens ({| g_name := g; g_pos := 0; g_size := length (tab s); g_ver := ver s; g_held := None |} :: gens s) s)).
      { apply with_gens_ok; [auto|]. intros h r [<- | H]; [discriminate|now apply (wf_held _ W)]. }
      pose proof (scan_ok g (tab s) 0 _ W1 (incl_refl _)) as P. destruct (scan _ _ _ _ _) as [s' x]. destruct P as (A & B & C & D). split; [auto|]. split; [auto|]. right. exists (vis s).
      split; [|intros z; now rewrite B]. destruct D as [-> | (k & o & -> & V)]; [apply SpNextEnd; auto|now apply SpNext].
  - (* close *) unfold gen_close. destruct (find_gen g (gens s)).
    + destruct (gen_end_ok g s W) as (A & B & C). split; [auto|]. split; [auto|]. right. exists (vis s). split; [constructor|]. intros x; now rewrite B.
    + split; [auto|]. split; [auto|]. right. exists (vis s). split; [constructor|]. intros x; reflexivity.
  - (* die *) destruct (die_ok l s W) as (A & B & C). split; [auto|]. split; [auto|]. right. eexists. split; [constructor|]. intros x. now rewrite B.
Qed.

Lemma run_refines os : forall s, wf s -> let '(s', xs) := w_run s os in wf s' /\ (~ In WTypeError xs -> spec_run weakable (dead s) (vis s) os xs (vis s')).
Proof.
  induction os as [|o os IH]; intros s W; cbn [WeakDictModel.w_run].
  - split; [auto|]. intros _. constructor. intros x; reflexivity.
  - pose proof (step_good s o W) as G. unfold good in G. destruct (w_step s o) as [s1 x]. destruct G as (W1 & D1 & G).
    specialize (IH s1 W1). destruct (w_run s1 os) as [s2 xs]. destruct IH as (W2 & R). split; [auto|]. intros N.
    destruct G as [(-> & _)|(m & G1 & G2)]; [destruct N; cbn; auto|]. econstructor; [exact G1|exact G2|]. rewrite <- D1. apply R. intros H. apply N. cbn. auto.
Qed.
Lemma run_types os : forall s, wf s -> hybrid = false -> ~ In WTypeError (snd (w_run s os)).
Proof.
  induction os as [|o os IH]; intros s W Hy; cbn [WeakDictModel.w_run]; [intros []|].
  pose proof (step_good s o W) as G. unfold good in G. destruct (w_step s o) as [s1 x] eqn:ST. destruct G as (W1 & D1 & G).
  specialize (IH s1 W1 Hy). destruct (w_run s1 os) as [s2 xs]. cbn in *. intros [-> | H]; [|auto].
  destruct G as [(_ & G & _)|(m & G1 & G2)]; [congruence|]. clear -G1.
  inversion G1; subst; try discriminate;
    repeat match goal with
    | H : WTypeError = match ?x with Some _ => _ | None => _ end |- _ => destruct x; try discriminate
    | H : WTypeError = (if ?b then _ else _) |- _ => destruct b; discriminate
    | H : _ \/ _ |- _ => destruct H
    | H : _ /\ _ |- _ => destruct H
    | H : exists _, _ |- _ => destruct H
    end; try discriminate.
Qed.
Lemma typeerror s o : wf s -> snd (w_step s o) = WTypeError -> hybrid = true /\ exists k, o = WPop k true /\ vis s k = None.
Proof.
  intros W E. pose proof (step_good s o W) as G. unfold good in G. destruct (w_step s o) as [s1 x] eqn:ST. cbn in E. subst. destruct G as (W1 & D1 & [G|(m & G1 & G2)]); [tauto|].
  exfalso. clear -G1.
  inversion G1; subst; try discriminate;
    repeat match goal with
    | H : WTypeError = match ?x with Some _ => _ | None => _ end |- _ => destruct x; try discriminate
    | H : WTypeError = (if ?b then _ else _) |- _ => destruct b; discriminate
    | H : _ \/ _ |- _ => destruct H
    | H : _ /\ _ |- _ => destruct H
    | H : exists _, _ |- _ => destruct H
    end; try discriminate.
Qed.

(** ** The length, without iterations *)
Record clean (s : wdict) : Prop := {
  cl_gens : gens s = []; cl_pend : pend s = [];
  cl_live : forall k e, In (k, e) (tab s) -> deref (dead s) e <> None
}.

Lemma clean_len s : wf s -> clean s -> exists n, len s = WCount n /\ size (vis s) n.
Proof.
  intros W [C1 C2 C3]. exists (length (tab s)). unfold len. rewrite C2. cbn. split; [f_equal; lia|].
  exists (map fst (tab s)). split; [apply W|]. split; [|apply map_length]. intros k. unfold vis. split.
  - intros H. destruct (lookup k (tab s)) as [e|] eqn:L; [apply lookup_In in L; eauto|now apply lookup_None in L].
  - intros H. destruct (lookup k (tab s)) as [e|] eqn:L; [|congruence]. apply lookup_In in L. apply in_map_iff. exists (k, e). auto.
Qed.

Lemma clean_put k o s : clean s -> alive (dead s) o = true -> clean (set_item weakable k o s).
Proof.
  intros [C1 C2 C3] A. split; cbn; auto. intros x e H. apply put_In in H. destruct H as [H|H]; [|eauto]. injection H as -> ->.
  destruct (weakable o); cbn; [rewrite A|]; congruence.
Qed.
Lemma clean_del k s : clean s -> clean (s_del k s).
Proof. intros [C1 C2 C3]. split; cbn; auto. intros x e H. apply del_In in H. eauto. Qed.
Lemma found_clean k e s : clean s -> lookup k (tab s) = Some e -> deref (dead s) e <> None.
Proof. intros C L. apply lookup_In in L. eapply cl_live; eauto. Qed.

Lemma copy_loop_clean t s : (forall k e, In (k, e) t -> deref (dead s) e <> None) -> fst (copy_loop weakable t s) = s.
Proof.
  intros H. induction t as [|[k e] t IH]; cbn; [reflexivity|]. destruct (deref (dead s) e) as [o|] eqn:D; [|destruct (H k e); cbn; auto].
  assert (E : fst (copy_loop weakable t s) = s) by (apply IH; intros; eapply H; cbn; eauto). destruct (copy_loop weakable t s). exact E.
Qed.

Lemma callback_fold_clean rs : forall s, wf s -> gens s = [] -> let s' := fold_left callback rs s in
  wf s' /\ gens s' = [] /\ pend s' = pend s /\ dead s' = dead s /\ incl (tab s') (tab s) /\ forall r, In r rs -> ~ In (r_key r) (map fst (tab s')).
Proof.
  induction rs as [|r rs IH]; intros s W G; cbn.
  - split; [auto|]. split; [auto|]. split; [auto|]. split; [auto|]. split; [intros x; auto|tauto].
  - assert (K : wf (callback s r) /\ gens (callback s r) = [] /\ pend (callback s r) = pend s /\ dead (callback s r) = dead s /\ incl (tab (callback s r)) (tab s) /\ ~ In (r_key r) (map fst (tab (callback s r)))).
    { unfold callback. rewrite G. destruct (lookup (r_key r) (tab s)) as [e|] eqn:L.
      - split; [now apply wf_del|]. split; [exact G|]. split; [auto|]. split; [auto|]. split; [intros x H; now apply del_In in H|].
        apply lookup_None. cbn. rewrite lookup_del by apply W. now rewrite Nat.eqb_refl.
      - split; [auto|]. split; [auto|]. split; [auto|]. split; [auto|]. split; [intros x; auto|]. now apply lookup_None. }
    destruct K as (K1 & K2 & K3 & K4 & K5 & K6). destruct (IH _ K1 K2) as (I1 & I2 & I3 & I4 & I5 & I6).
    split; [auto|]. split; [auto|]. split; [congruence|]. split; [congruence|]. split; [intros x H; auto|].
    intros q [<- | H]; [|auto]. intros X. apply K6. apply in_map_iff in X. destruct X as (y & Y1 & Y2). apply in_map_iff. exists y. auto.
Qed.

Lemma clean_step s o : wf s -> clean s -> no_next o -> clean (fst (w_step s o)).
Proof.
  intros W C N. pose proof C as [C1 C2 C3]. destruct o; cbn [WeakDictModel.w_step fst]; try contradiction.
  - destruct (alive (dead s) o) eqn:A; cbn; [now apply clean_put|auto].
  - unfold del_item. destruct (lookup k (tab s)); cbn; [now apply clean_del|auto].
  - unfold get. destruct (lookup k (tab s)) as [e|] eqn:L; [|auto]. pose proof (found_clean k e s C L). destruct (deref (dead s) e); [auto|congruence].
  - unfold get. destruct (lookup k (tab s)) as [e|] eqn:L; [|auto]. pose proof (found_clean k e s C L). destruct (deref (dead s) e); [auto|congruence].
  - unfold contains. destruct (lookup k (tab s)) as [e|] eqn:L; [|auto]. pose proof (found_clean k e s C L). destruct (deref (dead s) e); [auto|congruence].
  - unfold pop. destruct (lookup k (tab s)); cbn; [now apply clean_del|auto].
  - unfold popitem. assert (P := popitem_loop_ok (dead s) (rev (tab s)) 0 ltac:(rewrite map_rev; apply NoDup_rev, W)).
    destruct (popitem_loop weakable (dead s) (rev (tab s)) 0) as [[r m] x]. cbn. split; cbn; auto. intros k e H.
    destruct P as [(_ & -> & _)|(p & k' & e' & o & E & _)]; [destruct H|]. apply in_rev in H. apply (C3 k e). apply in_rev. rewrite E. apply in_app_iff. cbn. auto.
  - destruct (alive (dead s) o) eqn:A; cbn; [|auto]. unfold setdefault. destruct (lookup k (tab s)) as [e|]; [destruct (deref (dead s) e)|]; cbn; auto; now apply clean_put.
  - split; cbn; auto; tauto.
  - auto.
  - unfold copy. pose proof (copy_loop_clean (tab s) s C3) as E. destruct (copy_loop weakable (tab s) s) as [s1 l]. cbn in *. subst. unfold commit. rewrite C1, C2. cbn. split; cbn; auto.
  - unfold gen_close. rewrite C1. cbn. auto.
  - unfold die. set (s0 := {| tab := tab s |}). set (hit := filter _ _).
    assert (W0 : wf s0).
    { destruct W as [W1 W2 W3 W4]. split; [exact W1|exact W2| |exact W4]. intros p H. specialize (W3 p H). unfold deadp in *. cbn. rewrite alive_app, W3. reflexivity. }
    destruct (callback_fold_clean hit s0 W0 C1) as (K1 & K2 & K3 & K4 & K5 & K6). cbn in K1, K2, K3, K4, K5, K6.
    split; [auto|rewrite K3; exact C2|]. intros k e H. rewrite K4. cbn [dead s0]. destruct e as [r|]; [|discriminate]. cbn.
    destruct (alive (l ++ dead s) (r_target r)) eqn:A; [discriminate|]. exfalso.
    pose proof (C3 k (Weak r) (K5 _ H)) as L. cbn in L. destruct (alive (dead s) (r_target r)) eqn:A2; [|congruence].
    rewrite alive_app, A2 in A. cbn in A. apply negb_false_iff, andb_true_iff in A.
    pose proof (wf_ent _ W _ (K5 _ H)) as (O1 & _). cbn in O1.
    apply (K6 r).
    + unfold hit. apply filter_In. split; [|rewrite A2; apply A]. unfold refs. apply in_app_iff. left. apply in_flat_map. exists (k, Weak r). split; [now apply K5|cbn; auto].
    + rewrite O1. apply in_map_iff. exists (k, Weak r). auto.
Qed.
Lemma clean_run os : forall s, wf s -> clean s -> Forall no_next os -> wf (fst (w_run s os)) /\ clean (fst (w_run s os)).
Proof.
  induction os as [|o os IH]; intros s W C F; cbn [WeakDictModel.w_run]; [auto|]. inversion F; subst.
  pose proof (step_good s o W) as G. unfold good in G. pose proof (clean_step s o W C H1) as K. destruct (w_step s o) as [s1 x]. destruct G as (W1 & _).
  specialize (IH s1 W1 K H2). destruct (w_run s1 os). exact IH.
Qed.

(** ** Iteration *)
Lemma find_drop g h l : g <> h -> find_gen g (drop_gen h l) = find_gen g l.
Proof.
  intros D. induction l as [|x l IH]; cbn; [reflexivity|]. destruct (g_name x =? h) eqn:E; cbn.
  - apply Nat.eqb_eq in E. destruct (g_name x =? g) eqn:F; [apply Nat.eqb_eq in F; congruence|auto].
  - destruct (g_name x =? g); [reflexivity|auto].
Qed.
Lemma find_nonempty g l x : find_gen g l = Some x -> l <> [].
Proof. intros H ->. discriminate. Qed.
Lemma commit_nonempty s : gens s <> [] -> commit s = s.
Proof. unfold commit. destruct (gens s); [congruence|reflexivity]. Qed.

(** [after x s s']: nothing but the pending removals and the generators changed. *)
Definition kept (s s' : wdict) : Prop := tab s' = tab s /\ ver s' = ver s /\ dead s' = dead s.

Lemma scan_next g t : forall pos s, let '(s', x) := scan weakable g t pos s in
  (x = WStop /\ (forall k e, In (k, e) t -> deref (dead s) e = None) /\ dead s' = dead s /\ (forall h, g <> h -> find_gen h (gens s) <> None -> kept s s' /\ find_gen h (gens s') = find_gen h (gens s))) \/
  (exists p k e r o, t = p ++ (k, e) :: r /\ x = WItem k o /\ deref (dead s) e = Some o /\ (forall k e, In (k, e) p -> deref (dead s) e = None) /\
    kept s s' /\ (exists y, find_gen g (gens s') = Some y /\ g_pos y = pos + length p + 1 /\ g_size y = length (tab s) /\ g_ver y = ver s) /\
    (forall h, g <> h -> find_gen h (gens s') = find_gen h (gens s))).
Proof.
  induction t as [|[k e] t IH]; intros pos s; cbn [scan].
  - left. split; [auto|]. split; [intros ? ? []|]. unfold gen_end.
    assert (FD : forall q ps, dead (fold_left commit_one ps q) = dead q).
    { intros q ps. revert q. induction ps as [|p ps IHp]; intros q; cbn; [reflexivity|]. rewrite IHp. unfold commit_one. destruct (lookup _ _) as [e|]; [destruct (same_object e p)|]; reflexivity. }
    split.
    + unfold commit. destruct (gens _); [|reflexivity]. rewrite FD. reflexivity.
    + intros h D F. assert (E : find_gen h (drop_gen g (gens s)) = find_gen h (gens s)) by (apply find_drop; auto).
      rewrite commit_nonempty; [split; [repeat split|exact E]|]. cbn. intros X. rewrite X in E. cbn in E. congruence.
  - destruct (deref (dead s) e) as [o|] eqn:D.
    + right. exists [], k, e, t, o. split; [reflexivity|]. split; [reflexivity|]. split; [auto|]. split; [intros ? ? []|]. split; [repeat split|]. split.
      * eexists. cbn. rewrite Nat.eqb_refl. split; [reflexivity|]. cbn. split; [lia|auto].
      * intros h F. cbn. destruct (g =? h) eqn:E; [apply Nat.eqb_eq in E; congruence|]. apply find_drop. auto.
    + destruct (deref_dead _ _ D) as (r & -> & Dr). specialize (IH (S pos) (add_pending r s)).
      destruct (scan weakable g t (S pos) (add_pending r s)) as [s' x].
      destruct IH as [(-> & A & B & C)|(p & k' & e' & r' & o & -> & -> & A & B & C & E & F)].
      * left. split; [auto|]. split; [intros x f [X|X]; [injection X as <- <-; auto|eapply A; eauto]|]. split; [exact B|]. exact C.
      * right. exists ((k, Weak r) :: p), k', e', r', o. split; [reflexivity|]. split; [auto|]. split; [exact A|]. split; [intros x f [X|X]; [injection X as <- <-; auto|eapply B; eauto]|].
        split; [exact C|]. split; [|exact F]. destruct E as (y & Y1 & Y2 & Y3). exists y. split; [auto|]. split; [cbn in *; lia|auto].
Qed.

Record iterating (g : nat) (t : list (nat * entry)) (v : nat) (ys : list nat) (s : wdict) : Prop := {
  it_tab : tab s = t; it_ver : ver s = v;
  it_gen : exists x, find_gen g (gens s) = Some x /\ g_size x = length t /\ g_ver x = v /\
    incl ys (map fst (firstn (g_pos x) t)) /\ NoDup ys /\
    forall k e, In (k, e) (firstn (g_pos x) t) -> deref (dead s) e <> None -> In k ys
}.

Lemma it_kept g t v ys s s' : iterating g t v ys s -> tab s' = tab s -> ver s' = ver s -> dead s' = dead s -> find_gen g (gens s') = find_gen g (gens s) -> iterating g t v ys s'.
Proof. intros [A B (x & C)] E1 E2 E3 E4. split; [congruence|congruence|]. exists x. now rewrite E3, E4. Qed.

Lemma deref_mono l d e : deref (l ++ d) e <> None -> deref d e <> None.
Proof. destruct e as [r|o]; cbn; [|auto]. rewrite alive_app. destruct (alive d (r_target r)); cbn; [discriminate|auto]. Qed.

Lemma add_kept r s : tab (add_pending r s) = tab s /\ ver (add_pending r s) = ver s /\ dead (add_pending r s) = dead s /\ gens (add_pending r s) = gens s.
Proof. repeat split. Qed.
Lemma found_kept k r s : gens s <> [] -> tab (found_dead k r s) = tab s /\ ver (found_dead k r s) = ver s /\ dead (found_dead k r s) = dead s /\ gens (found_dead k r s) = gens s.
Proof. unfold found_dead. destruct (gens s) eqn:E; [congruence|]. intros _. repeat split. exact E. Qed.
Lemma copy_loop_kept t : forall s, let s' := fst (copy_loop weakable t s) in tab s' = tab s /\ ver s' = ver s /\ dead s' = dead s /\ gens s' = gens s.
Proof.
  induction t as [|[k e] t IH]; intros s; cbn; [auto|]. destruct (deref (dead s) e) as [o|].
  - specialize (IH s). destruct (copy_loop weakable t s). exact IH.
  - destruct e as [r|]; [|apply IH]. destruct (IH (add_pending r s)) as (A & B & C & D). auto.
Qed.
Lemma callback_fold_kept rs : forall s, gens s <> [] -> let s' := fold_left callback rs s in tab s' = tab s /\ ver s' = ver s /\ dead s' = dead s /\ gens s' = gens s.
Proof.
  induction rs as [|r rs IH]; intros s G; cbn; [auto|].
  assert (K : callback s r = add_pending r s) by (unfold callback; destruct (gens s); [congruence|reflexivity]). rewrite K.
  destruct (IH (add_pending r s) G) as (A & B & C & D). auto.
Qed.

(** One quiet step: the iteration ends, or goes on. *)
Lemma quiet_step g t v ys s o : iterating g t v ys s -> quiet g o -> NoDup (map fst t) ->
  let '(s', x) := w_step s o in
  (exists j, o = WNext g j /\ x = WStop /\ dead s' = dead s /\ forall k e, In (k, e) t -> deref (dead s) e <> None -> In k ys) \/
  ((forall j, o = WNext g j -> exists k o, x = WItem k o) /\ iterating g t v (ys ++ yields g [o] [x]) s').
Proof.
  intros It Q N. pose proof It as [T V (y & F & Sz & Ve & In1 & Nd & Cov)]. pose proof (find_nonempty _ _ _ F) as NE.
  assert (K : forall s' x, tab s' = tab s /\ ver s' = ver s /\ dead s' = dead s /\ gens s' = gens s -> (forall h j, o <> WNext h j) ->
    (forall j, o = WNext g j -> exists k o, x = WItem k o) /\ iterating g t v (ys ++ yields g [o] [x]) s').
  { intros s' x (A & B & C & D) E. split; [intros j X; now destruct (E g j)|]. replace (yields g [o] [x]) with (@nil nat) by (destruct o; try reflexivity; now destruct (E g0 jump)).
    rewrite app_nil_r. apply (it_kept g t v ys s); auto. now rewrite D. }
  destruct o; try contradiction; cbn [WeakDictModel.w_step].
  - unfold get. destruct (lookup k (tab s)) as [e|] eqn:L; [|right; apply K; [auto|discriminate]].
    destruct (deref (dead s) e) eqn:D; [right; apply K; [auto|discriminate]|]. destruct (deref_dead _ _ D) as (r & -> & _). right. apply K; [now apply found_kept|discriminate].
  - unfold get. destruct (lookup k (tab s)) as [e|] eqn:L; [|right; apply K; [auto|discriminate]].
    destruct (deref (dead s) e) eqn:D; [right; apply K; [auto|discriminate]|]. destruct (deref_dead _ _ D) as (r & -> & _). right. apply K; [now apply found_kept|discriminate].
  - unfold contains. destruct (lookup k (tab s)) as [e|] eqn:L; [|right; apply K; [auto|discriminate]].
    destruct (deref (dead s) e) eqn:D; [right; apply K; [auto|discriminate]|]. destruct (deref_dead _ _ D) as (r & -> & _). right. apply K; [now apply found_kept|discriminate].
  - right. apply K; [auto|discriminate].
  - unfold copy. pose proof (copy_loop_kept (tab s) s) as C. destruct (copy_loop weakable (tab s) s) as [s1 l]. cbn in C. right.
    rewrite commit_nonempty by (destruct C as (_ & _ & _ & ->); auto). apply K; [auto|discriminate].
  - destruct (Nat.eq_dec g0 g) as [-> | D].
    + unfold gen_next. rewrite F, Sz, T, Nat.eqb_refl. cbn [negb]. rewrite Ve, V, Nat.eqb_refl.
      pose proof (scan_next g (skipn (g_pos y) t) (g_pos y) s) as P. destruct (scan _ _ _ _ _) as [s' x].
      destruct P as [(-> & A & B & C)|(p & k & e & r & o & E & -> & A & B & (C1 & C2 & C3) & (z & Z1 & Z2 & Z3 & Z4) & H)].
      * left. exists jump. split; [auto|]. split; [auto|]. split; [auto|]. intros k e I1 L. rewrite <- (firstn_skipn (g_pos y) t) in I1. apply in_app_iff in I1.
        destruct I1 as [I1|I1]; [eauto|]. apply A in I1. contradiction.
      * right. split; [intros j _; eauto|]. cbn [yields]. rewrite Nat.eqb_refl. split; [congruence|congruence|].
        exists z. split; [auto|]. split; [congruence|]. split; [congruence|].
        assert (FN : firstn (g_pos z) t = firstn (g_pos y) t ++ p ++ [(k, e)]).
        { rewrite <- (firstn_skipn (g_pos y) t) at 1. rewrite E, Z2.
          assert (LY : length (firstn (g_pos y) t) = g_pos y). { apply firstn_length_le. assert (length (skipn (g_pos y) t) > 0) by (rewrite E, app_length; cbn; lia). rewrite skipn_length in H0. lia. }
          rewrite firstn_app. rewrite firstn_all2 by lia. f_equal. rewrite LY. replace (g_pos y + length p + 1 - g_pos y) with (length p + 1) by lia.
          rewrite firstn_app. rewrite firstn_all2 by lia. replace (length p + 1 - length p) with 1 by lia. reflexivity. }
        rewrite FN. split; [|split].
        -- intros q Qn. apply in_app_iff in Qn. rewrite map_app. apply in_app_iff. destruct Qn as [Qn|[<- | []]]; [left; auto|right]. rewrite map_app. apply in_app_iff. cbn. auto.
        -- apply (Permutation_NoDup (Permutation_cons_append _ k)). constructor; [|auto]. intros X. apply In1 in X.
           rewrite <- (firstn_skipn (g_pos y) t), map_app, E, map_app in N. cbn in N. rewrite app_assoc in N. apply NoDup_remove_2 in N. apply N. rewrite !in_app_iff. auto.
        -- intros k2 e2 X L. rewrite C3 in L. apply in_app_iff in X. apply in_app_iff. destruct X as [X|X]; [left; eauto|].
           apply in_app_iff in X. destruct X as [X|[X|[]]]; [apply B in X; contradiction|]. injection X as <- <-. cbn. auto.
    + assert (K2 : forall s' x, tab s' = tab s /\ ver s' = ver s /\ dead s' = dead s /\ find_gen g (gens s') = find_gen g (gens s) ->
        (forall j, WNext g0 jump = WNext g j -> exists k o, x = WItem k o) /\ iterating g t v (ys ++ yields g [WNext g0 jump] [x]) s').
      { intros s' x (A & B & C & E). split; [intros j X; injection X; congruence|]. replace (yields g [WNext g0 jump] [x]) with (@nil nat).
        - rewrite app_nil_r. now apply (it_kept g t v ys s).
        - cbn. destruct x; auto. destruct (g0 =? g) eqn:G; [apply Nat.eqb_eq in G; congruence|auto]. }
      assert (K3 : forall tt pp s0, tab s0 = tab s -> ver s0 = ver s -> dead s0 = dead s -> find_gen g (gens s0) = find_gen g (gens s) ->
        let '(s', x) := scan weakable g0 tt pp s0 in tab s' = tab s /\ ver s' = ver s /\ dead s' = dead s /\ find_gen g (gens s') = find_gen g (gens s)).
      { intros tt pp s0 E1 E2 E3 E4. pose proof (scan_next g0 tt pp s0) as P. destruct (scan _ _ _ _ _) as [s' x].
        destruct P as [(-> & A & B & C)|(p & k & e & r & o & E & -> & A & B & (C1 & C2 & C3) & _ & H)].
        - destruct (C g D) as ((C1 & C2 & C3) & C4); [rewrite E4, F; discriminate|]. repeat split; congruence.
        - rewrite (H g D). repeat split; congruence. }
      unfold gen_next. destruct (find_gen g0 (gens s)) as [z|].
      * destruct (negb _).
        -- right. apply K2. unfold gen_end. assert (FD : find_gen g (drop_gen g0 (gens s)) = find_gen g (gens s)) by (apply find_drop; auto).
           rewrite commit_nonempty; [repeat split; exact FD|]. cbn. intros X. rewrite X in FD. cbn in FD. congruence.
        -- set (pos := if g_ver z =? ver s then _ else _). specialize (K3 (skipn pos (tab s)) pos s eq_refl eq_refl eq_refl eq_refl). destruct (scan _ _ _ _ _) as [s' x]. right. now apply K2.
      * set (s0 := with_gens _ s). assert (FD : find_gen g (gens s0) = find_gen g (gens s)) by (cbn; destruct (g0 =? g) eqn:G; [apply Nat.eqb_eq in G; congruence|reflexivity]).
        specialize (K3 (tab s) 0 s0 eq_refl eq_refl eq_refl FD). destruct (scan _ _ _ _ _) as [s' x]. right. now apply K2.
  - (* close *) cbv beta iota. right. cbn in Q. split; [discriminate|]. cbn [yields]. rewrite app_nil_r. unfold gen_close. destruct (find_gen g0 (gens s)) eqn:F0; [|exact It].
    unfold gen_end. assert (FD : find_gen g (drop_gen g0 (gens s)) = find_gen g (gens s)) by (apply find_drop; auto).
    rewrite commit_nonempty; [now apply (it_kept g t v ys s)|]. cbn. intros X. rewrite X in FD. cbn in FD. congruence.
  - (* die *) cbv beta iota. right. split; [discriminate|]. cbn [yields]. rewrite app_nil_r. unfold die. set (s0 := {| tab := tab s |}).
    destruct (callback_fold_kept (filter (fun r => alive (dead s) (r_target r) && mem (r_target r) l) (refs s)) s0 NE) as (A & B & C & D).
    split; [rewrite A; exact T|rewrite B; exact V|]. exists y. rewrite C, D. split; [exact F|]. split; [auto|]. split; [auto|]. split; [auto|]. split; [auto|].
    intros k e I1 L. apply deref_mono in L. eauto.
Qed.

Lemma yields_app g a : forall b xs ys, length a = length xs -> yields g (a ++ b) (xs ++ ys) = yields g a xs ++ yields g b ys.
Proof.
  induction a as [|o a IH]; intros b [|x xs] ys L; cbn in *; try discriminate; [reflexivity|].
  rewrite IH by lia. destruct o, x; try reflexivity. destruct (g0 =? g); reflexivity.
Qed.
Lemma run_app s a b : w_run s (a ++ b) = let (s1, xs) := w_run s a in let (s2, ys) := w_run s1 b in (s2, xs ++ ys).
Proof.
  revert s. induction a as [|o a IH]; intros s; cbn; [now destruct (w_run s b)|].
  destruct (w_step s o) as [s1 x]. rewrite IH. destruct (w_run s1 a) as [s2 xs], (w_run s2 b); reflexivity.
Qed.
Lemma run_length os : forall s, length (snd (w_run s os)) = length os.
Proof. induction os as [|o os IH]; intros s; cbn; [reflexivity|]. destruct (w_step s o) as [s1 x]. specialize (IH s1). destruct (w_run s1 os). cbn in *. now rewrite IH. Qed.
Lemma run_wf s os : wf s -> wf (fst (w_run s os)).
Proof. intros W. pose proof (run_refines os s W) as R. destruct (w_run s os). apply R. Qed.

Lemma run_iter g t v os : NoDup (map fst t) -> Forall (quiet g) os -> forall s ys, iterating g t v ys s ->
  let '(s', xs) := w_run s os in ~ stopped g os xs -> iterating g t v (ys ++ yields g os xs) s'.
Proof.
  intros N. induction 1 as [|o os Q F IH]; intros s ys It; cbn [WeakDictModel.w_run].
  - intros _. cbn. now rewrite app_nil_r.
  - pose proof (quiet_step g t v ys s o It Q N) as P. destruct (w_step s o) as [s1 x].
    destruct P as [(j & -> & -> & _)|(P1 & P2)].
    + destruct (w_run s1 os). intros X. destruct X. exists j. cbn. auto.
    + specialize (IH s1 _ P2). destruct (w_run s1 os) as [s2 xs]. intros X.
      assert (E : ys ++ yields g (o :: os) (x :: xs) = (ys ++ yields g [o] [x]) ++ yields g os xs).
      { rewrite <- app_assoc. f_equal. apply (yields_app g [o] os [x] xs eq_refl). }
      rewrite E. apply IH. intros (j & J). apply X. exists j. cbn. auto.
Qed.

Lemma iteration s g j mid j' : wf s -> find_gen g (gens s) = None -> Forall (quiet g) mid ->
  let '(s', xs) := w_run s (WNext g j :: mid) in
  ~ stopped g (WNext g j :: mid) xs ->
  let '(s2, x) := w_step s' (WNext g j') in
  NoDup (yields g (WNext g j :: mid) xs) /\
  ((x = WStop /\ forall k, vis s2 k <> None -> In k (yields g (WNext g j :: mid) xs)) \/
   (exists k o, x = WItem k o /\ ~ In k (yields g (WNext g j :: mid) xs))).
Proof.
  intros W NF F. set (x0 := {| g_name := g; g_pos := 0; g_size := length (tab s); g_ver := ver s; g_held := None |}).
  set (s0 := with_gens (x0 :: gens s) s).
  assert (It : iterating g (tab s) (ver s) [] s0).
  { split; [reflexivity|reflexivity|]. exists x0. cbn. rewrite Nat.eqb_refl. split; [auto|]. split; [auto|]. split; [auto|]. split; [intros y []|]. split; [constructor|]. tauto. }
  assert (E : w_step s (WNext g j) = w_step s0 (WNext g j)).
  { cbn. unfold gen_next. rewrite NF. assert (FG : find_gen g (gens s0) = Some x0) by (cbn; now rewrite Nat.eqb_refl). rewrite FG.
    change (g_size x0) with (length (tab s0)). change (g_ver x0) with (ver s0). rewrite !Nat.eqb_refl. reflexivity. }
  assert (W0 : wf s0). { apply with_gens_ok; [auto|]. intros h r [<- | H]; [discriminate|now apply (wf_held _ W)]. }
  assert (ER : w_run s (WNext g j :: mid) = w_run s0 (WNext g j :: mid)) by (cbn [WeakDictModel.w_run]; now rewrite E).
  rewrite ER. pose proof (run_iter g (tab s) (ver s) (WNext g j :: mid) (wf_keys _ W)) as R.
  assert (FQ : Forall (quiet g) (WNext g j :: mid)) by (constructor; cbn; auto). specialize (R FQ s0 [] It).
  pose proof (run_wf s0 (WNext g j :: mid) W0) as W1.
  destruct (w_run s0 (WNext g j :: mid)) as [s1 xs]. cbn [fst] in W1. intros X. specialize (R X). cbn [app] in R.
  pose proof (quiet_step g (tab s) (ver s) _ s1 (WNext g j') R I (wf_keys _ W)) as P.
  pose proof (step_good s1 (WNext g j') W1) as G. unfold good in G. destruct (w_step s1 (WNext g j')) as [s2 x].
  assert (ND : NoDup (yields g (WNext g j :: mid) xs)) by (destruct R as [_ _ (y & _ & _ & _ & _ & Y & _)]; exact Y).
  split; [exact ND|]. destruct P as [(jj & _ & -> & Dd & Cov)|(P1 & P2)].
  - left. split; [auto|]. intros k V. destruct G as (W2 & _ & [(G & _)|(m & G1 & G2)]); [discriminate|].
    inversion G1; subst. rewrite <- G2 in V. unfold vis in V. rewrite (it_tab _ _ _ _ _ R) in V.
    destruct (lookup k (tab s)) as [e|] eqn:L; [|congruence]. apply lookup_In in L. eauto.
  - right. destruct (P1 j' eq_refl) as (k & o & ->). exists k, o. split; [auto|].
    destruct P2 as [_ _ (y & _ & _ & _ & _ & Y & _)]. assert (YE : yields g [WNext g j'] [WItem k o] = [k]) by (cbn; now rewrite Nat.eqb_refl). rewrite YE in Y. intros H. apply NoDup_remove_2 in Y. rewrite app_nil_r in Y. contradiction.
Qed.

Lemma in_vis s k : snd (w_step s (WIn k)) = WBool true <-> vis s k <> None.
Proof.
  cbn. unfold contains, vis. destruct (lookup k (tab s)) as [e|]; [|cbn; split; congruence]. destruct (deref (dead s) e) eqn:D; cbn; [split; congruence|].
  destruct (deref_dead _ _ D) as (r & -> & _). cbn. split; congruence.
Qed.
Lemma iteration_in s g j mid j' : wf s -> find_gen g (gens s) = None -> Forall (quiet g) mid ->
  let '(s', xs) := w_run s (WNext g j :: mid) in
  ~ stopped g (WNext g j :: mid) xs ->
  let '(s2, x) := w_step s' (WNext g j') in
  NoDup (yields g (WNext g j :: mid) xs) /\
  ((x = WStop /\ forall k, snd (w_step s2 (WIn k)) = WBool true -> In k (yields g (WNext g j :: mid) xs)) \/
   (exists k o, x = WItem k o /\ ~ In k (yields g (WNext g j :: mid) xs))).
Proof.
  intros W NF F. pose proof (iteration s g j mid j' W NF F) as P. destruct (w_run s (WNext g j :: mid)) as [s1 xs]. intros X. specialize (P X).
  destruct (w_step s1 (WNext g j')) as [s2 x]. destruct P as (A & [(B & C)|B]); split; auto. left. split; [auto|]. intros k V. now apply C, in_vis.
Qed.
End Proofs.
