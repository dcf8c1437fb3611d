(** Proofs for C60 and C99. *)
From Coq Require Import List Bool Arith Lia.
From Verif Require Import ShieldModel ShieldSpec.
Import ListNotations.

Lemma run_app s a b : s_run s (a ++ b) = let (s1, xs) := s_run s a in let (s2, ys) := s_run s1 b in (s2, xs ++ ys).
Proof.
  revert s. induction a as [|o a IH]; intros s; cbn [s_run app]; [now destruct (s_run s b)|].
  destruct (s_step s o) as [s1 x]. rewrite IH. destruct (s_run s1 a) as [s2 xs], (s_run s2 b); reflexivity.
Qed.
Lemma after_snoc os o : s_after (os ++ [o]) = fst (s_step (s_after os) o).
Proof. unfold s_after. rewrite run_app. destruct (s_run h_init os) as [s xs]. cbn [s_run]. destruct (s_step s o) as [s1 x] eqn:E. cbn [fst]. now rewrite E. Qed.
Lemma outs_snoc os o : s_outs (os ++ [o]) = s_outs os ++ [snd (s_step (s_after os) o)].
Proof. unfold s_outs, s_after. rewrite run_app. destruct (s_run h_init os) as [s xs]. cbn [s_run]. destruct (s_step s o) as [s1 x] eqn:E. cbn [fst snd]. now rewrite E. Qed.
Lemma outs_length os : length (s_outs os) = length os.
Proof. induction os as [|o os IH] using rev_ind; [reflexivity|]. rewrite outs_snoc, !app_length. cbn. lia. Qed.
Lemma combine_app {A B} (a a' : list A) (b b' : list B) : length a = length b -> combine (a ++ a') (b ++ b') = combine a b ++ combine a' b'.
Proof. revert b. induction a as [|x a IH]; intros [|y b] H; cbn in *; try lia; [auto|]. rewrite IH by lia. reflexivity. Qed.

Lemma upd_eq m k v x : upd m k v x = if x =? k then v else m x. Proof. reflexivity. Qed.
Lemma upd_same m k v : upd m k v k = v.
Proof. unfold upd. now rewrite Nat.eqb_refl. Qed.
Lemma upd_other m k v x : x <> k -> upd m k v x = m x.
Proof. intros D. unfold upd. apply Nat.eqb_neq in D. now rewrite D. Qed.

Lemma del_sub p l c : In c (del_first p l) -> In c l.
Proof. induction l as [|d l IH]; cbn; [tauto|]. destruct (p d); cbn; tauto. Qed.
Lemma del_keep p l c : In c l -> p c = false -> In c (del_first p l).
Proof. induction l as [|d l IH]; cbn; [tauto|]. intros [-> | H] P; [rewrite P; cbn; auto|]. destruct (p d); cbn; auto. Qed.
Lemma handles_In f l c g : In (c, g) (handles f l) <-> g = f /\ In c l.
Proof.
  unfold handles. rewrite in_map_iff. split; [intros (d & E & H); injection E as <- <-; rewrite <- in_rev in H; auto|].
  intros (-> & H). exists c. rewrite <- in_rev. auto.
Qed.

Lemma cb_dec (a b : cb) : {a = b} + {a <> b}.
Proof. decide equality; apply Nat.eq_dec. Qed.
Lemma hd_dec (a b : cb * nat) : {a = b} + {a <> b}.
Proof. decide equality; [apply Nat.eq_dec|apply cb_dec]. Qed.

Record inv (pr : list (nat * nat)) (os : list s_op) (s : heap) : Prop := {
  i_lt : forall f g, In (f, g) pr -> f < g /\ g < next s;
  i_fun : forall f f' g, In (f, g) pr -> In (f', g) pr -> f = f';
  i_new : forall x, next s <= x -> mem s x = fut_init;
  i_empty : forall f, out (mem s f) <> None -> cbs (mem s f) = [];
  i_chain : forall f g, In (CChain g) (cbs (mem s f)) -> In (f, g) pr;
  i_hchain : forall f g, In (CChain g, f) (ready s) -> In (f, g) pr /\ out (mem s f) <> None;
  i_hrem : forall f g, In (CRemove f, g) (ready s) -> In (f, g) pr /\ out (mem s g) <> None;
  i_rem : forall f g, In (CRemove f) (cbs (mem s g)) -> In (f, g) pr;
  i_both : forall f g, In (f, g) pr -> out (mem s g) = None -> out (mem s f) = None -> In (CChain g) (cbs (mem s f)) /\ In (CRemove f) (cbs (mem s g));
  i_due : forall f g, In (f, g) pr -> out (mem s g) = None -> out (mem s f) <> None -> In (CChain g, f) (ready s);
  i_one : forall f g, count_occ cb_dec (cbs (mem s f)) (CChain g) <= 1;
  i_leak : forall f g, In (f, g) pr -> out (mem s g) <> None -> In (CRemove f, g) (ready s) \/ ~ In (CChain g) (cbs (mem s f));
  i_src : forall f x, out (mem s f) = Some x -> In (HFinish f x) os \/ exists g, In (g, f) pr /\ out (mem s g) = Some x
}.

Lemma inv_init : inv [] [] h_init.
Proof. split; cbn; try tauto; try discriminate; auto; try lia. Qed.

Lemma inv_more pr os o s : inv pr os s -> inv pr (os ++ [o]) s.
Proof.
  intros [A B C D E F G H I J K L M]. split; auto. intros f x X. destruct (M f x X) as [Y|Y]; [left; apply in_app_iff; auto|auto].
Qed.

(** Giving an outcome to a pending future [f], its callbacks [l] being some of its callbacks which hold all chainers. *)
Lemma inv_set pr os s f x l b :
  inv pr os s -> out (mem s f) = None -> f < next s -> (forall c, In c l -> In c (cbs (mem s f))) ->
  (forall g, In (CChain g) (cbs (mem s f)) -> In (CChain g) l) ->
  (forall g, In (g, f) pr -> out (mem s g) = None -> In (CRemove g) (cbs (mem s f)) -> In (CRemove g) l) ->
  (In (HFinish f x) os \/ exists g, In (g, f) pr /\ out (mem s g) = Some x) ->
  inv pr os {| mem := upd (mem s) f {| out := Some x; cbs := []; silenced := b |}; next := next s; ready := ready s ++ handles f l; log := log s |}.
Proof.
  intros [A B C D E F G H I J K L M] P Fn S1 S2 S3 Src. split; cbn.
  - exact A.
  - exact B.
  - intros y Y. rewrite upd_other by lia. auto.
  - intros y. unfold upd. destruct (y =? f); cbn; auto.
  - intros a g. unfold upd. destruct (a =? f); cbn; [tauto|auto].
  - intros a g X. apply in_app_iff in X. destruct X as [X|X].
    + destruct (F a g X) as (X1 & X2). split; [auto|]. unfold upd. destruct (a =? f); [discriminate|auto].
    + apply handles_In in X. destruct X as (-> & X). split; [auto|]. rewrite upd_same. discriminate.
  - intros a g X. apply in_app_iff in X. destruct X as [X|X].
    + destruct (G a g X) as (X1 & X2). split; [auto|]. unfold upd. destruct (g =? f); [discriminate|auto].
    + apply handles_In in X. destruct X as (-> & X). split; [auto|]. rewrite upd_same. discriminate.
  - intros a g. unfold upd. destruct (g =? f); cbn; [tauto|auto].
  - intros a g X. unfold upd. destruct (g =? f) eqn:Eg; [discriminate|]. destruct (a =? f) eqn:Ea; [discriminate|]. auto.
  - intros a g X. unfold upd. destruct (g =? f) eqn:Eg; [discriminate|]. intros Y Z. apply in_app_iff. destruct (a =? f) eqn:Ea; [|left; auto].
    apply Nat.eqb_eq in Ea. subst a. right. apply handles_In. split; [auto|]. apply S2. now apply I.
  - intros a g. unfold upd. destruct (a =? f); cbn; [lia|auto].
  - intros a g X Y. rewrite in_app_iff. unfold upd in *. destruct (g =? f) eqn:Eg.
    + apply Nat.eqb_eq in Eg. subst g. destruct (a =? f) eqn:Ea; [apply Nat.eqb_eq in Ea; subst; apply A in X; lia|].
      destruct (out (mem s a)) as [y|] eqn:Oa; [right; rewrite D by congruence; auto|]. left. right. apply handles_In. split; [auto|]. apply S3; auto. now apply I.
    + destruct (L a g X Y) as [Z|Z]; [auto|]. destruct (a =? f); [right; cbn; auto|auto].
  - intros a y X. unfold upd in X. destruct (a =? f) eqn:Ea.
    + apply Nat.eqb_eq in Ea. subst a. cbn in X. injection X as <-. destruct Src as [Src|(g & S & T)]; [auto|right]. exists g. split; [auto|]. rewrite upd_other; [auto|congruence].
    + destruct (M a y X) as [Y|(g & Y & Z)]; [auto|right]. exists g. split; [auto|]. rewrite upd_other; [auto|congruence].
Qed.

Lemma inv_finish pr os s f x : inv pr os s -> In (HFinish f x) os -> f < next s -> inv pr os (finish f x s).
Proof. intros H X F. unfold finish. destruct (out (mem s f)) eqn:O; [auto|]. now apply inv_set; auto. Qed.

(** Changing the callbacks and the silencing of a future. *)
Lemma inv_cbs pr os s f l b :
  inv pr os s -> f < next s -> (out (mem s f) <> None -> l = []) ->
  (forall g, In (CChain g) l -> In (f, g) pr) -> (forall g, In (CRemove g) l -> In (g, f) pr) ->
  (forall g, In (f, g) pr -> out (mem s g) = None -> out (mem s f) = None -> In (CChain g) l) ->
  (forall g, In (g, f) pr -> out (mem s g) = None -> out (mem s f) = None -> In (CRemove g) l) ->
  (forall g, count_occ cb_dec l (CChain g) <= 1) ->
  (forall g, In (f, g) pr -> out (mem s g) <> None -> In (CRemove f, g) (ready s) \/ ~ In (CChain g) l) ->
  inv pr os {| mem := upd (mem s) f {| out := out (mem s f); cbs := l; silenced := b |}; next := next s; ready := ready s; log := log s |}.
Proof.
  intros [A B C D E F G H I J K L M] Fn S0 S1 S2 S3 S4 S5 S6.
  assert (O : forall y, out (upd (mem s) f {| out := out (mem s f); cbs := l; silenced := b |} y) = out (mem s y)).
  { intros y. unfold upd. destruct (y =? f) eqn:Y; [|auto]. apply Nat.eqb_eq in Y. now subst. }
  split; cbn.
  - exact A.
  - exact B.
  - intros y Y. rewrite upd_other by lia. auto.
  - intros y. rewrite O. unfold upd. destruct (y =? f) eqn:Y; cbn; [apply Nat.eqb_eq in Y; subst; auto|auto].
  - intros a g. unfold upd. destruct (a =? f) eqn:Y; cbn; [apply Nat.eqb_eq in Y; subst; auto|auto].
  - intros a g. rewrite O. auto.
  - intros a g. rewrite O. auto.
  - intros a g. unfold upd. destruct (g =? f) eqn:Y; cbn; [apply Nat.eqb_eq in Y; subst; auto|auto].
  - intros a g X. rewrite !O. intros Y Z. destruct (I a g X Y Z) as (I1 & I2). unfold upd. split.
    + destruct (a =? f) eqn:T; cbn; [apply Nat.eqb_eq in T; subst; auto|auto].
    + destruct (g =? f) eqn:T; cbn; [apply Nat.eqb_eq in T; subst; auto|auto].
  - intros a g. rewrite !O. auto.
  - intros a g. unfold upd. destruct (a =? f); cbn; auto.
  - intros a g X. rewrite O. intros Y. unfold upd. destruct (a =? f) eqn:T; cbn; [apply Nat.eqb_eq in T; subst; auto|auto].
  - intros a y. rewrite O. intros X. destruct (M a y X) as [Y|(g & Y & Z)]; [auto|right]. exists g. rewrite O. auto.
Qed.

Lemma inv_ready pr os s l : inv pr os s ->
  (forall c h, In (c, h) l -> In (c, h) (ready s) \/ exists n, c = CUser n) ->
  (forall f g, In (f, g) pr -> out (mem s g) = None -> In (CChain g, f) (ready s) -> In (CChain g, f) l) ->
  (forall f g, In (f, g) pr -> In (CRemove f, g) (ready s) -> In (CRemove f, g) l \/ ~ In (CChain g) (cbs (mem s f))) -> forall lg,
  inv pr os {| mem := mem s; next := next s; ready := l; log := lg |}.
Proof.
  intros [A B C D E F G H I J K L M] S1 S2 S3 lg. split; cbn; auto.
  - intros f g X. destruct (S1 _ _ X) as [Y|(n & Y)]; [auto|discriminate].
  - intros f g X. destruct (S1 _ _ X) as [Y|(n & Y)]; [auto|discriminate].
  - intros f g X Y. destruct (L f g X Y) as [Z|Z]; [apply S3; auto|auto].
Qed.

Lemma inv_callback pr os s f n : inv pr os s -> f < next s -> inv pr os (add_callback f (CUser n) s).
Proof.
  intros H F. unfold add_callback. destruct (out (mem s f)) eqn:O.
  - apply inv_ready; auto.
    + intros c h X. apply in_app_iff in X. destruct X as [X|[X|[]]]; [auto|]. injection X as <- <-. right. eauto.
    + intros; apply in_app_iff; auto.
    + intros; left; apply in_app_iff; auto.
  - rewrite <- O. pose proof H as [A B C D E F1 G H1 I J K L M]. apply inv_cbs; auto.
    + congruence.
    + intros g X. apply in_app_iff in X. destruct X as [X|[X|[]]]; [auto|discriminate].
    + intros g X. apply in_app_iff in X. destruct X as [X|[X|[]]]; [auto|discriminate].
    + intros g X Y Z. apply in_app_iff. left. now apply I.
    + intros g X Y Z. apply in_app_iff. left. now apply I.
    + intros g. rewrite count_occ_app. cbn. destruct (cb_dec (CUser n) (CChain g)); [discriminate|]. pose proof (K f g). lia.
    + intros g X Y. destruct (L f g X Y) as [Z|Z]; [auto|right]. intros T. apply in_app_iff in T. destruct T as [T|[T|[]]]; [auto|discriminate].
Qed.

Lemma count_del l f c : count_occ cb_dec (del_first (is_chainer f) l) c <= count_occ cb_dec l c.
Proof. induction l as [|d l IH]; cbn; [lia|]. destruct (is_chainer f d); cbn; destruct (cb_dec d c); lia. Qed.
Lemma count_del_r l f c : count_occ cb_dec (del_first (is_remover f) l) c <= count_occ cb_dec l c.
Proof. induction l as [|d l IH]; cbn; [lia|]. destruct (is_remover f d); cbn; destruct (cb_dec d c); lia. Qed.
Lemma del_one l f : count_occ cb_dec l (CChain f) <= 1 -> ~ In (CChain f) (del_first (is_chainer f) l).
Proof.
  induction l as [|d l IH]; cbn; [tauto|]. destruct (is_chainer f d) eqn:X.
  - destruct d; cbn in X; try discriminate. apply Nat.eqb_eq in X. subst. destruct (cb_dec (CChain f) (CChain f)); [|congruence]. intros Y Z. apply (count_occ_In cb_dec) in Z. lia.
  - intros Y [Z|Z]; [subst d; cbn in X; now rewrite Nat.eqb_refl in X|]. apply IH; [|auto]. destruct (cb_dec d (CChain f)); lia.
Qed.

(** [s] with the handle taken off the queue still has the invariant, but for the handle's work. *)
Lemma inv_chain pr os s g f r : inv pr os s -> ready s = (CChain g, f) :: r ->
  inv pr os (chain g f {| mem := mem s; next := next s; ready := r; log := log s |}).
Proof.
  intros Iv R. pose proof Iv as [A B C D E F G H I J K L M]. rewrite R in F, G, J, L.
  destruct (F f g) as (Pf & Of); [cbn; auto|]. pose proof (A f g Pf) as (Lt & Ln). unfold chain. cbn [mem next ready log].
  destruct (out (mem s g)) as [y|] eqn:Og.
  - (* the target is done *)
    assert (Iv1 : inv pr os {| mem := mem s; next := next s; ready := r; log := log s |}).
    { apply inv_ready; auto; rewrite ?R.
      - intros c h X. left. cbn. auto.
      - intros a b X Y [Z|Z]; [injection Z as <- <-; congruence|auto].
      - intros a b X [Z|Z]; [discriminate|auto]. }
    pose proof (inv_cbs pr os {| mem := mem s; next := next s; ready := r; log := log s |} g (del_first (is_remover f) (cbs (mem s g))) (silenced (mem s g)) Iv1) as Q. cbn in Q. rewrite Og in Q.
    assert (X : cbs (mem s g) = []) by (apply D; congruence). rewrite X in *. cbn in *. apply Q; auto; try tauto; try congruence.
  - destruct (out (mem s f)) as [x|] eqn:Ofx; [|congruence].
    (* first the queue without the handle, the target being set at once *)
    assert (Iv1 : inv pr os {| mem := upd (mem s) g {| out := Some x; cbs := []; silenced := silenced (mem s g) || silenced (mem s f) |}; next := next s;
                              ready := ready s ++ handles g (del_first (is_remover f) (cbs (mem s g))); log := log s |}).
    { apply inv_set; auto.
      - intros c X. now apply del_sub in X.
      - intros h X. apply del_keep; auto.
      - intros h X Y Z. apply del_keep; [auto|]. cbn. apply Nat.eqb_neq. intros ->. congruence.
      - right. exists f. auto. }
    rewrite R in Iv1. apply (inv_ready _ _ _ (r ++ handles g (del_first (is_remover f) (cbs (mem s g))))) with (lg := log s) in Iv1; [exact Iv1|cbn|cbn|cbn].
    + intros c h X. auto.
    + intros a b X Y [Z|Z]; [|auto]. injection Z as <- <-. rewrite upd_same in Y. discriminate.
    + intros a b X [Z|Z]; [discriminate|auto].
Qed.

Lemma existsb_chainer f l : existsb (is_chainer f) l = true <-> In (CChain f) l.
Proof.
  rewrite existsb_exists. split.
  - intros (c & X & Y). destruct c; cbn in Y; try discriminate. apply Nat.eqb_eq in Y. now subst.
  - intros X. exists (CChain f). split; [auto|]. cbn. apply Nat.eqb_refl.
Qed.

Lemma inv_unchain pr os s g f r : inv pr os s -> ready s = (CRemove g, f) :: r ->
  inv pr os (unchain g f {| mem := mem s; next := next s; ready := r; log := log s |}).
Proof.
  intros Iv R. pose proof Iv as [A B C D E F G H I J K L M]. rewrite R in F, G, J, L.
  destruct (G g f) as (Pf & Of); [cbn; auto|]. pose proof (A g f Pf) as (Lt & Ln). unfold unchain. cbn [mem next ready log].
  pose proof (inv_cbs pr os s g (del_first (is_chainer f) (cbs (mem s g))) (silenced (mem s g)) Iv) as Q.
  assert (Iv1 : inv pr os {| mem := upd (mem s) g {| out := out (mem s g); cbs := del_first (is_chainer f) (cbs (mem s g)); silenced := silenced (mem s g) |}; next := next s; ready := ready s; log := log s |}).
  { apply Q; clear Q; auto.
    - lia.
    - intros X. now rewrite D.
    - intros h X. apply E. now apply del_sub in X.
    - intros h X. apply H. now apply del_sub in X.
    - intros h X Y Z. apply del_keep; [now apply I|]. cbn. apply Nat.eqb_neq. intros ->. congruence.
    - intros h X Y Z. apply del_keep; [now apply I|reflexivity].
    - intros h. pose proof (count_del (cbs (mem s g)) f (CChain h)). pose proof (K g h). lia.
    - intros h X Y. rewrite R. destruct (L g h X Y) as [Z|Z]; [auto|right]. intros T. apply Z. now apply del_sub in T. }
  clear Q. apply (inv_ready _ _ _ r) with (lg := log s) in Iv1.
  - destruct (existsb (is_chainer f) (cbs (mem s g))); [|exact Iv1].
    pose proof Iv1 as [A1 B1 C1 D1 E1 F1 G1 H1 I1 J1 K1 L1 M1]. cbn in *.
    match type of Iv1 with inv _ _ ?t => pose proof (inv_cbs pr os t f (cbs (mem t f)) true Iv1) as Q end. cbn in Q. apply Q; auto.
    + intros h X Y Z. now apply I1.
    + intros h X Y Z. now apply I1.
  - cbn. intros c h X. left. rewrite R. cbn. auto.
  - cbn. rewrite R. intros a b X Y [Z|Z]; [discriminate|auto].
  - cbn. rewrite R. intros a b X [Z|Z]; [|auto]. injection Z as <- <-. right. rewrite upd_same. cbn. apply del_one. auto.
Qed.

Definition new_pairs (s : heap) (o : s_op) : list (nat * nat) :=
  match o with HShield f => if exists_in f s then match out (mem s f) with None => [(f, next s)] | Some _ => [] end else [] | _ => [] end.

Lemma inv_shield pr os s f : inv pr os s -> f < next s -> out (mem s f) = None -> inv (pr ++ [(f, next s)]) os (fst (shield f s)).
Proof.
  intros [A B C D E F G H I J K L M] Fn O. unfold shield. rewrite O. cbn [fst].
  set (m := upd (mem s) f _). assert (Ng : f <> next s) by lia.
  assert (MO : forall y, out (upd m (next s) {| out := None; cbs := [CRemove f]; silenced := false |} y) = out (mem s y)).
  { intros y. unfold upd at 1. destruct (y =? next s) eqn:Y; [apply Nat.eqb_eq in Y; subst; rewrite C by lia; reflexivity|]. unfold m, upd. destruct (y =? f) eqn:Z; [apply Nat.eqb_eq in Z; subst; auto|auto]. }
  assert (CB : forall y c, In c (cbs (upd m (next s) {| out := None; cbs := [CRemove f]; silenced := false |} y)) <-> In c (cbs (mem s y)) \/ y = f /\ c = CChain (next s) \/ y = next s /\ c = CRemove f).
  { intros y c. unfold upd at 1. destruct (y =? next s) eqn:Y.
    - apply Nat.eqb_eq in Y. subst. rewrite (C (next s)) by lia. cbn. intuition congruence.
    - apply Nat.eqb_neq in Y. unfold m, upd. destruct (y =? f) eqn:Z; cbn; [apply Nat.eqb_eq in Z; subst; rewrite in_app_iff; cbn; intuition congruence|]. apply Nat.eqb_neq in Z. intuition congruence. }
  assert (Old : forall a b, In (a, b) (pr ++ [(f, next s)]) -> In (a, b) pr \/ a = f /\ b = next s).
  { intros a b X. apply in_app_iff in X. destruct X as [X|[X|[]]]; [auto|]. injection X as <- <-. auto. }
  assert (Inc : forall a b, In (a, b) pr -> In (a, b) (pr ++ [(f, next s)])) by (intros; apply in_app_iff; auto).
  assert (New : In (f, next s) (pr ++ [(f, next s)])) by (apply in_app_iff; cbn; auto).
  split; cbn [mem next ready log].
  - intros a b X. destruct (Old a b X) as [Y|(-> & ->)]; [apply A in Y; lia|lia].
  - intros a a' b X Y. destruct (Old a b X) as [X1|(-> & ->)], (Old a' _ Y) as [Y1|(-> & Y2)]; auto.
    + now apply (B a a' b).
    + subst b. apply A in X1. lia.
    + apply A in Y1. lia.
  - intros y Y. unfold upd at 1. destruct (y =? next s) eqn:Z; [apply Nat.eqb_eq in Z; lia|]. unfold m. rewrite upd_other by lia. apply C. lia.
  - intros y. rewrite MO. intros X. assert (y <> f) by congruence. assert (y <> next s) by (intros ->; apply X; rewrite C by lia; reflexivity).
    rewrite upd_other by auto. unfold m. rewrite upd_other by auto. auto.
  - intros a g X. apply CB in X. destruct X as [X|[(-> & X)|(_ & X)]]; [auto|injection X as ->; auto|discriminate].
  - intros a g X. rewrite MO. destruct (F a g X). auto.
  - intros a g X. rewrite MO. destruct (G a g X). auto.
  - intros a g X. apply CB in X. destruct X as [X|[(_ & X)|(-> & X)]]; [auto|discriminate|injection X as ->; auto].
  - intros a g X. rewrite !MO, !CB. intros Y Z. destruct (Old a g X) as [W|(-> & ->)]; [destruct (I a g W Y Z); auto|]. split; [right; left; auto|right; right; auto].
  - intros a g X. rewrite !MO. intros Y Z. destruct (Old a g X) as [W|(-> & ->)]; [auto|congruence].
  - intros a g. unfold upd at 1. destruct (a =? next s) eqn:Y; cbn; [destruct (cb_dec (CRemove f) (CChain g)); [discriminate|lia]|].
    unfold m, upd. destruct (a =? f) eqn:Z; [|auto]. cbn. rewrite count_occ_app. cbn. destruct (cb_dec (CChain (next s)) (CChain g)) as [X|X]; [|pose proof (K f g); lia].
    injection X as <-. assert (W : ~ In (CChain (next s)) (cbs (mem s f))) by (intros X; apply E, A in X; lia). apply (count_occ_not_In cb_dec) in W. lia.
  - intros a g X. rewrite MO, CB. intros Y. destruct (Old a g X) as [W|(-> & ->)].
    + destruct (L a g W Y) as [Z|Z]; [auto|right]. intros [T|[(-> & T)|(-> & T)]]; [auto| |discriminate]. injection T as ->. apply A in W. lia.
    + exfalso. apply Y. rewrite C by lia. reflexivity.
  - intros a y. rewrite MO. intros X. destruct (M a y X) as [Y|(g & Y & Z)]; [auto|right]. exists g. rewrite MO. auto.
Qed.

Lemma inv_step pr os s o : inv pr os s -> inv (pr ++ new_pairs s o) (os ++ [o]) (fst (s_step s o)).
Proof.
  intros H. pose proof (inv_more _ _ o _ H) as H'. destruct o as [|f|f x|f n|]; cbn [new_pairs s_step]; rewrite ?app_nil_r.
  - destruct H' as [A B C D E F G Hh I J K L M]. split; cbn; auto.
    + intros f g X. apply A in X. lia.
    + intros y Y. apply C. lia.
  - unfold exists_in. destruct (f <? next s) eqn:E; [|cbn [fst]; rewrite app_nil_r; auto]. apply Nat.ltb_lt in E.
    destruct (out (mem s f)) eqn:O; [|now apply inv_shield]. unfold shield. rewrite O, app_nil_r. cbn [fst]. auto.
  - cbn [fst]. unfold exists_in. destruct (f <? next s) eqn:E; [|auto]. apply Nat.ltb_lt in E. apply inv_finish; auto. apply in_app_iff. cbn. auto.
  - cbn [fst]. unfold exists_in. destruct (f <? next s) eqn:E; [|auto]. apply Nat.ltb_lt in E. now apply inv_callback.
  - cbn [fst]. destruct (ready s) as [|[c f] r] eqn:R; [auto|]. destruct c as [g|g|n]; cbn [run_handle].
    + now apply inv_chain.
    + now apply inv_unchain.
    + apply (inv_ready pr (os ++ [HRun]) s r); auto; rewrite ?R.
      * intros c h X. left. cbn. auto.
      * intros a b X Y [Z|Z]; [discriminate|auto].
      * intros a b X [Z|Z]; [discriminate|auto].
Qed.

(** The pairs made in a history. *)
Fixpoint pairs_from (s : heap) (os : list s_op) : list (nat * nat) :=
  match os with [] => [] | o :: r => new_pairs s o ++ pairs_from (fst (s_step s o)) r end.
Definition pairs os := pairs_from h_init os.
Lemma pairs_snoc os o : pairs (os ++ [o]) = pairs os ++ new_pairs (s_after os) o.
Proof.
  unfold pairs, s_after. generalize h_init as s. induction os as [|p os IH]; intros s; cbn [pairs_from app s_run fst].
  - now rewrite app_nil_r.
  - rewrite IH, <- app_assoc. destruct (s_step s p) as [s1 x]. cbn [fst]. destruct (s_run s1 os). reflexivity.
Qed.
Lemma inv_after os : inv (pairs os) os (s_after os).
Proof. induction os as [|o os IH] using rev_ind; [exact inv_init|]. rewrite after_snoc, pairs_snoc. now apply inv_step. Qed.

(** Outcomes stay. *)
Lemma step_out s o f x : (forall y, next s <= y -> mem s y = fut_init) -> out (mem s f) = Some x -> out (mem (fst (s_step s o)) f) = Some x.
Proof.
  intros C X. assert (Nf : f < next s) by (destruct (lt_dec f (next s)); [auto|rewrite C in X by lia; discriminate]).
  destruct o as [|g|g y|g n|]; cbn [s_step].
  - exact X.
  - unfold shield. destruct (exists_in g s); [|exact X]. destruct (out (mem s g)) eqn:O; [exact X|]. cbn. rewrite upd_other by lia. rewrite upd_other; [auto|congruence].
  - cbn [fst]. unfold finish. destruct (exists_in g s); [|exact X]. destruct (out (mem s g)) eqn:O; [exact X|]. cbn. rewrite upd_other; [auto|congruence].
  - cbn [fst]. unfold add_callback. destruct (exists_in g s); [|exact X]. destruct (out (mem s g)) eqn:O; [exact X|]. cbn. rewrite upd_other; [auto|congruence].
  - cbn [fst]. destruct (ready s) as [|[c h] r]; [exact X|]. destruct c as [g|g|n]; cbn [run_handle]; [| |exact X].
    + unfold chain. cbn. destruct (out (mem s g)) as [y|] eqn:O.
      * cbn. unfold upd. destruct (f =? g) eqn:Y; [apply Nat.eqb_eq in Y; subst; cbn; congruence|auto].
      * destruct (out (mem s h)) as [z|]; cbn; rewrite upd_other; congruence.
    + unfold unchain. cbn. destruct (existsb _ _).
      * unfold upd at 1. destruct (f =? h) eqn:Y; [apply Nat.eqb_eq in Y; subst; cbn|]; unfold upd; destruct (_ =? g) eqn:Z; auto; apply Nat.eqb_eq in Z; subst; auto.
      * unfold upd. destruct (f =? g) eqn:Y; [apply Nat.eqb_eq in Y; subst; cbn; congruence|auto].
Qed.
Lemma stable os os' f x : outcome_of os f = Some x -> outcome_of (os ++ os') f = Some x.
Proof.
  intros H. induction os' as [|o os' IH] using rev_ind; [now rewrite app_nil_r|]. rewrite app_assoc. unfold outcome_of in *. rewrite after_snoc.
  apply step_out; [apply (i_new _ _ _ (inv_after (os ++ os')))|auto].
Qed.

(** [made] in terms of the pairs. *)
Lemma made_snoc os o f g : made (os ++ [o]) f g <-> made os f g \/ o = HShield f /\ snd (s_step (s_after os) o) = SId g.
Proof.
  unfold made. rewrite outs_snoc, combine_app by (symmetry; apply outs_length). rewrite in_app_iff. cbn [combine In]. split.
  - intros [H|[H|[]]]; [auto|]. injection H as <- H. auto.
  - intros [H|(-> & H)]; [auto|]. rewrite H. auto.
Qed.
Lemma plain_snoc os o f : plain (os ++ [o]) f <-> plain os f \/ o = HNew /\ snd (s_step (s_after os) o) = SId f.
Proof.
  unfold plain. rewrite outs_snoc, combine_app by (symmetry; apply outs_length). rewrite in_app_iff. cbn [combine In]. split.
  - intros [H|[H|[]]]; [auto|]. injection H as <- H. auto.
  - intros [H|(-> & H)]; [auto|]. rewrite H. auto.
Qed.
Lemma made_pairs os f g : made os f g -> In (f, g) (pairs os) \/ g = f /\ outcome_of os f <> None.
Proof.
  induction os as [|o os IH] using rev_ind; [intros []|]. rewrite made_snoc, pairs_snoc, in_app_iff. intros [H|(-> & H)].
  - destruct (IH H) as [X|(-> & X)]; [auto|right]. split; [auto|]. destruct (outcome_of os f) as [x|] eqn:E; [|congruence]. rewrite (stable os _ f x E). discriminate.
  - cbn [s_step] in H. unfold new_pairs. destruct (exists_in f (s_after os)); [|discriminate]. unfold shield in H. destruct (out (mem (s_after os) f)) as [x|] eqn:O; cbn in H; injection H as <-.
    + right. split; [auto|]. rewrite (stable os _ f x O). discriminate.
    + left. cbn. auto.
Qed.
Lemma pairs_made os f g : In (f, g) (pairs os) -> made os f g /\ f <> g.
Proof.
  intros H. split; [|apply (i_lt _ _ _ (inv_after os)) in H; lia]. revert H.
  induction os as [|o os IH] using rev_ind; [intros []|]. rewrite made_snoc, pairs_snoc, in_app_iff. intros [H|H]; [auto|right].
  destruct o; cbn [new_pairs] in H; try contradiction. cbn [s_step]. destruct (exists_in f0 (s_after os)); [|contradiction]. unfold shield. destruct (out (mem (s_after os) f0)); [contradiction|]. destruct H as [H|[]]. injection H as <- <-. auto.
Qed.
Lemma plain_no_pair os f : plain os f -> f < next (s_after os) /\ forall g, ~ In (g, f) (pairs os).
Proof.
  assert (Nx : forall s o, next s <= next (fst (s_step s o))).
  { intros s o. destruct o as [|h|h y|h n|]; cbn [s_step fst]; try (destruct (exists_in h s)); cbn; auto.
    - unfold shield. destruct (out (mem s h)); cbn; lia.
    - unfold finish. destruct (out (mem s h)); cbn; lia.
    - unfold add_callback. destruct (out (mem s h)); cbn; lia.
    - destruct (ready s) as [|[c h] r]; [auto|]. destruct c; cbn; auto. unfold chain. cbn. destruct (out (mem s target)); [cbn; lia|]. destruct (out (mem s h)); cbn; lia. }
  induction os as [|o os IH] using rev_ind; [intros []|]. rewrite plain_snoc, pairs_snoc, after_snoc. intros [H|(-> & H)].
  - destruct (IH H) as (A & B). split; [pose proof (Nx (s_after os) o); lia|]. intros g X. apply in_app_iff in X. destruct X as [X|X]; [now apply B in X|].
    destruct o; cbn [new_pairs] in X; try contradiction. destruct (exists_in f0 (s_after os)); [|contradiction]. destruct (out _); [contradiction|]. destruct X as [X|[]]. injection X as _ X. lia.
  - cbn in H. injection H as <-. split; [cbn; lia|]. intros g X. cbn in X. rewrite app_nil_r in X. apply (i_lt _ _ _ (inv_after os)) in X. lia.
Qed.

(** ** The theorems *)
Lemma source os f x : outcome_of os f = Some x -> set_by_user os f x \/ exists g, g <> f /\ made os g f /\ outcome_of os g = Some x.
Proof.
  intros H. destruct (i_src _ _ _ (inv_after os) f x H) as [X|(g & X & Y)]; [auto|right]. exists g. apply pairs_made in X. tauto.
Qed.
Lemma isolated os f x : plain os f -> outcome_of os f = Some x -> set_by_user os f x.
Proof.
  intros P H. destruct (i_src _ _ _ (inv_after os) f x H) as [X|(g & X & Y)]; [auto|]. apply plain_no_pair in P. destruct P as (_ & P). now apply P in X.
Qed.
Lemma follows os f g x : made os f g -> (forall y, ~ set_by_user os g y) -> outcome_of os g = Some x -> outcome_of os f = Some x.
Proof.
  intros Md N H. destruct (made_pairs _ _ _ Md) as [P|(-> & _)]; [|auto]. destruct (i_src _ _ _ (inv_after os) g x H) as [X|(h & X & Y)]; [now apply N in X|].
  rewrite (i_fun _ _ _ (inv_after os) f h g P X). auto.
Qed.
Lemma delivered os f g x : made os f g -> idle os -> outcome_of os f = Some x ->
  outcome_of os g = Some x \/ exists y, set_by_user os g y /\ outcome_of os g = Some y.
Proof.
  intros Md Id H. destruct (made_pairs _ _ _ Md) as [P|(-> & _)]; [|auto]. destruct (outcome_of os g) as [y|] eqn:E.
  - destruct (i_src _ _ _ (inv_after os) g y E) as [X|(h & X & Y)]; [right; exists y; auto|]. rewrite (i_fun _ _ _ (inv_after os) f h g P X) in H. left. unfold outcome_of in *. congruence.
  - assert (X : In (CChain g, f) (ready (s_after os))). { apply (i_due _ _ _ (inv_after os) f g P E). unfold outcome_of in H. congruence. }
    unfold idle in Id. rewrite Id in X. contradiction.
Qed.
Lemma no_leak os f g : made os f g -> idle os -> outcome_of os g <> None -> ~ In (CChain g) (cbs (mem (s_after os) f)).
Proof.
  intros Md Id H. destruct (made_pairs _ _ _ Md) as [P|(-> & _)].
  - destruct (i_leak _ _ _ (inv_after os) f g P H) as [X|X]; [|auto]. unfold idle in Id. rewrite Id in X. contradiction.
  - rewrite (i_empty _ _ _ (inv_after os) f H). auto.
Qed.

(** ** Callbacks of the users *)
Definition held (s : heap) (f n : nat) : nat :=
  count_occ pair_dec (log s) (f, n) + count_occ hd_dec (ready s) (CUser n, f) + count_occ cb_dec (cbs (mem s f)) (CUser n).

Lemma count_handles f l g n : count_occ hd_dec (handles g l) (CUser n, f) = if g =? f then count_occ cb_dec l (CUser n) else 0.
Proof.
  unfold handles. assert (R : count_occ cb_dec l (CUser n) = count_occ cb_dec (rev l) (CUser n)) by (clear; induction l as [|c l IH]; cbn [rev count_occ]; [auto|]; rewrite count_occ_app, <- IH; cbn [count_occ]; destruct (cb_dec c (CUser n)); lia).
  rewrite R. clear R. induction (rev l) as [|c r IH]; cbn [map count_occ]; [now destruct (g =? f)|]. rewrite IH.
  destruct (g =? f) eqn:E.
  - apply Nat.eqb_eq in E. subst g. destruct (hd_dec (c, f) (CUser n, f)) as [X|X], (cb_dec c (CUser n)) as [Y|Y]; congruence.
  - apply Nat.eqb_neq in E. destruct (hd_dec (c, g) (CUser n, f)); congruence.
Qed.
Lemma count_del_user p l n : p (CUser n) = false -> count_occ cb_dec (del_first p l) (CUser n) = count_occ cb_dec l (CUser n).
Proof.
  intros P. induction l as [|c l IH]; cbn; [auto|]. destruct (p c) eqn:E; cbn; destruct (cb_dec c (CUser n)); try congruence.
Qed.

Definition now_registered (s : heap) (o : s_op) f n : nat :=
  match o with HCallback g m => if (g =? f) && (m =? n) && (g <? next s) then 1 else 0 | _ => 0 end.

Lemma held_step pr os s o f n : inv pr os s -> held (fst (s_step s o)) f n = held s f n + now_registered s o f n.
Proof.
  intros Iv. pose proof (i_new _ _ _ Iv) as C. pose proof (i_empty _ _ _ Iv) as Em. unfold held. destruct o as [|g|g x|g m|]; cbn [s_step now_registered fst].
  - cbn. lia.
  - unfold exists_in. destruct (g <? next s) eqn:L; [|cbn; lia]. apply Nat.ltb_lt in L. unfold shield. destruct (out (mem s g)); cbn [fst log ready mem]; [lia|].
    unfold upd at 1. destruct (f =? next s) eqn:E.
    + apply Nat.eqb_eq in E. subst f. rewrite (C (next s)) by lia. cbn. destruct (cb_dec (CRemove g) (CUser n)); [discriminate|lia].
    + unfold upd. destruct (f =? g) eqn:E2; cbn [cbs]; [|lia]. apply Nat.eqb_eq in E2. subst f. rewrite count_occ_app. cbn. destruct (cb_dec (CChain (next s)) (CUser n)); [discriminate|lia].
  - unfold exists_in. destruct (g <? next s) eqn:L; [|lia]. unfold finish. destruct (out (mem s g)); [lia|]. cbn [log ready mem]. rewrite count_occ_app, count_handles, upd_eq.
    destruct (Nat.eq_dec f g) as [-> | D]; [rewrite !Nat.eqb_refl; cbn; lia|]. destruct (g =? f) eqn:E; [apply Nat.eqb_eq in E; congruence|]. destruct (f =? g) eqn:E2; [apply Nat.eqb_eq in E2; congruence|]. lia.
  - unfold exists_in. destruct (g <? next s) eqn:L; [|rewrite andb_false_r; lia]. rewrite andb_true_r. unfold add_callback. destruct (out (mem s g)); cbn [log ready mem].
    + rewrite count_occ_app. cbn [count_occ]. destruct (hd_dec (CUser m, g) (CUser n, f)) as [X|X].
      * injection X as <- <-. rewrite !Nat.eqb_refl. cbn. lia.
      * destruct (g =? f) eqn:E1, (m =? n) eqn:E2; cbn; try lia. apply Nat.eqb_eq in E1, E2. congruence.
    + rewrite upd_eq. destruct (f =? g) eqn:E; cbn [cbs].
      * apply Nat.eqb_eq in E. subst g. rewrite Nat.eqb_refl, count_occ_app. cbn. destruct (cb_dec (CUser m) (CUser n)) as [X|X].
        -- injection X as ->. rewrite Nat.eqb_refl. lia.
        -- destruct (m =? n) eqn:E2; [apply Nat.eqb_eq in E2; congruence|lia].
      * apply Nat.eqb_neq in E. destruct (g =? f) eqn:E1; [apply Nat.eqb_eq in E1; congruence|]. cbn. lia.
  - rewrite Nat.add_0_r. destruct (ready s) as [|[c h] r] eqn:R; [now rewrite R|]. destruct c as [g|g|m]; cbn [run_handle].
    + assert (X : count_occ hd_dec ((CChain g, h) :: r) (CUser n, f) = count_occ hd_dec r (CUser n, f)) by (cbn; destruct (hd_dec (CChain g, h) (CUser n, f)); congruence). rewrite X. clear X.
      unfold chain. cbn [mem ready log next]. destruct (out (mem s g)) as [y|] eqn:O; [|destruct (out (mem s h)) as [z|]]; cbn [log ready mem]; rewrite upd_eq.
      * destruct (f =? g) eqn:E; cbn [cbs]; [|lia]. apply Nat.eqb_eq in E. subst f. rewrite count_del_user by reflexivity. lia.
      * rewrite count_occ_app, count_handles, count_del_user by reflexivity.
        destruct (Nat.eq_dec f g) as [-> | D]; [rewrite !Nat.eqb_refl; cbn; lia|]. destruct (g =? f) eqn:E; [apply Nat.eqb_eq in E; congruence|]. destruct (f =? g) eqn:E2; [apply Nat.eqb_eq in E2; congruence|]. lia.
      * destruct (f =? g) eqn:E; cbn [cbs]; [|lia]. apply Nat.eqb_eq in E. subst f. rewrite count_del_user by reflexivity. lia.
    + assert (X : count_occ hd_dec ((CRemove g, h) :: r) (CUser n, f) = count_occ hd_dec r (CUser n, f)) by (cbn; destruct (hd_dec (CRemove g, h) (CUser n, f)); congruence). rewrite X. clear X.
      unfold unchain. cbn [mem ready log next].
      assert (Y : forall t, t = upd (mem s) g {| out := out (mem s g); cbs := del_first (is_chainer h) (cbs (mem s g)); silenced := silenced (mem s g) |} -> count_occ cb_dec (cbs (t f)) (CUser n) = count_occ cb_dec (cbs (mem s f)) (CUser n)).
      { intros t ->. rewrite upd_eq. destruct (f =? g) eqn:E; [|auto]. apply Nat.eqb_eq in E. subst f. cbn. now rewrite count_del_user. }
      destruct (existsb _ _); [|now rewrite (Y _ eq_refl)]. unfold upd at 1. destruct (f =? h) eqn:E; [apply Nat.eqb_eq in E; subst f; cbn [cbs]|]; now rewrite (Y _ eq_refl).
    + cbn [log ready mem count_occ]. destruct (pair_dec (h, m) (f, n)) as [X|X], (hd_dec (CUser m, h) (CUser n, f)) as [Y|Y]; try lia; exfalso; [apply Y|apply X]; congruence.
Qed.

Lemma registered_snoc s os o f n : registered s (os ++ [o]) f n = registered s os f n + now_registered (fst (s_run s os)) o f n.
Proof.
  revert s. induction os as [|p os IH]; intros s; cbn [registered app s_run fst]; [unfold now_registered; lia|]. rewrite IH. destruct (s_step s p) as [s1 x]. cbn [fst]. destruct (s_run s1 os). cbn. lia.
Qed.
Lemma held_after os f n : held (s_after os) f n = registered h_init os f n.
Proof.
  induction os as [|o os IH] using rev_ind; [reflexivity|]. rewrite after_snoc, registered_snoc, (held_step _ _ _ _ _ _ (inv_after os)), IH. reflexivity.
Qed.
Lemma callbacks_run os f n : idle os -> outcome_of os f <> None -> ran os f n = registered h_init os f n.
Proof.
  intros Id H. rewrite <- held_after. unfold held, ran. unfold idle in Id. rewrite Id, (i_empty _ _ _ (inv_after os) f H). cbn. lia.
Qed.
