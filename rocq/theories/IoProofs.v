From Coq Require Import List NArith Arith Bool Lia.
From Verif Require Import IoModel IoSpec.
Import ListNotations.

(** * Generic view of both sides *)

Definition reg (s : io) (fd : nat) (sd : side) : option nat :=
  match i_sel s fd with
  | None => None
  | Some k => match sd with Rd => k_reader k | Wr => k_writer k end
  end.

Definition is_some {A : Type} (o : option A) : bool := match o with Some _ => true | None => false end.

Definition wf (s : io) : Prop :=
  forall fd k, i_sel s fd = Some k ->
    k_read k = is_some (k_reader k) /\ k_write k = is_some (k_writer k) /\ k_read k || k_write k = true.

Definition add (s : io) (fd : nat) (sd : side) (c : cb) : io :=
  match sd with Rd => add_reader s fd c | Wr => add_writer s fd c end.

Definition remove (s : io) (fd : nat) (sd : side) : io * bool :=
  match sd with Rd => remove_reader s fd | Wr => remove_writer s fd end.

Definition opt_is (o : option nat) (h : nat) : bool := match o with Some h' => h =? h' | None => false end.

Definition dead (x : handle) : handle := mk_handle (h_fd x) (h_side x) (h_cb x) true.

Lemma side_eqb_eq a b : side_eqb a b = true <-> a = b.
Proof. destruct a, b; cbn; split; congruence. Qed.

Lemma same_eq fd sd fd' sd' : same fd sd fd' sd' = true <-> fd = fd' /\ sd = sd'.
Proof. unfold same. rewrite andb_true_iff, Nat.eqb_eq, side_eqb_eq. reflexivity. Qed.

Lemma same_neq fd sd fd' sd' : same fd sd fd' sd' = false <-> ~ (fd = fd' /\ sd = sd').
Proof. rewrite <- same_eq. destruct (same fd sd fd' sd'); split; congruence. Qed.

Lemma same_refl fd sd : same fd sd fd sd = true.
Proof. apply same_eq; split; reflexivity. Qed.

Lemma upd_same {A} (f : nat -> A) n v : upd f n v n = v.
Proof. unfold upd. rewrite Nat.eqb_refl. reflexivity. Qed.

Lemma upd_other {A} (f : nat -> A) n v m : m <> n -> upd f n v m = f m.
Proof. intros D. unfold upd. destruct (m =? n) eqn:E; [apply Nat.eqb_eq in E; contradiction | reflexivity]. Qed.

Record eff_add (s s' : io) (fd : nat) (sd : side) (c : cb) : Prop := mk_eff_add {
  ea_wf : wf s';
  ea_reg : forall fd' sd', reg s' fd' sd' = if same fd' sd' fd sd then Some (i_next s) else reg s fd' sd';
  ea_handle : forall h, i_handle s' h =
      if h =? i_next s then mk_handle fd sd c false
      else if opt_is (reg s fd sd) h then dead (i_handle s h) else i_handle s h;
  ea_next : i_next s' = S (i_next s);
  ea_op : i_op s' = i_op s;
  ea_nop : i_nop s' = i_nop s;
  ea_ready : i_ready s' = i_ready s }.

Lemma add_eff s fd sd c :
  wf s -> (forall h, reg s fd sd = Some h -> h <> i_next s) -> eff_add s (add s fd sd c) fd sd c.
Proof.
  intros W F. unfold reg in F.
  destruct sd; unfold add, add_reader, add_writer, new_handle, cancel_opt, cancel_handle, set_sel; cbn [i_sel].
  - destruct (i_sel s fd) as [k |] eqn:E.
    + destruct (W fd k E) as (Wr1 & Wr2 & Wr3).
      destruct (k_reader k) as [h0 |] eqn:K; cbn [i_sel i_handle i_next i_op i_nop i_ready].
      * pose proof (F h0 eq_refl) as D.
        split; cbn [i_sel i_handle i_next i_op i_nop i_ready]; try reflexivity.
        -- intros fd' k' E'. cbn in E'. unfold upd in E'. destruct (fd' =? fd); [| exact (W _ _ E')].
           injection E' as <-. cbn. repeat split; try reflexivity. exact Wr2.
        -- intros fd' sd'. unfold reg; cbn [i_sel]. unfold upd, same. destruct (fd' =? fd) eqn:Q; cbn [andb].
           ++ apply Nat.eqb_eq in Q; subst fd'. rewrite E. destruct sd'; reflexivity.
           ++ reflexivity.
        -- intros h. unfold upd at 1. unfold reg; rewrite E, K. cbn [opt_is].
           destruct (h =? h0) eqn:Q1; destruct (h =? i_next s) eqn:Q2;
             repeat match goal with H : (_ =? _) = true |- _ => apply Nat.eqb_eq in H end; subst; try contradiction.
           ++ rewrite upd_other by assumption. reflexivity.
           ++ apply upd_same.
           ++ apply upd_other. apply Nat.eqb_neq. exact Q2.
      * split; cbn [i_sel i_handle i_next i_op i_nop i_ready]; try reflexivity.
        -- intros fd' k' E'. cbn in E'. unfold upd in E'. destruct (fd' =? fd); [| exact (W _ _ E')].
           injection E' as <-. cbn. repeat split; try reflexivity. exact Wr2.
        -- intros fd' sd'. unfold reg; cbn [i_sel]. unfold upd, same. destruct (fd' =? fd) eqn:Q; cbn [andb].
           ++ apply Nat.eqb_eq in Q; subst fd'. rewrite E. destruct sd'; reflexivity.
           ++ reflexivity.
        -- intros h. unfold reg; rewrite E, K. cbn [opt_is]. reflexivity.
    + split; cbn [i_sel i_handle i_next i_op i_nop i_ready]; try reflexivity.
      * intros fd' k' E'. cbn in E'. unfold upd in E'. destruct (fd' =? fd); [| exact (W _ _ E')].
        injection E' as <-. cbn. repeat split; reflexivity.
      * intros fd' sd'. unfold reg; cbn [i_sel]. unfold upd, same. destruct (fd' =? fd) eqn:Q; cbn [andb].
        -- apply Nat.eqb_eq in Q; subst fd'. rewrite E. destruct sd'; reflexivity.
        -- reflexivity.
      * intros h. unfold reg; rewrite E. reflexivity.
  - destruct (i_sel s fd) as [k |] eqn:E.
    + destruct (W fd k E) as (Wr1 & Wr2 & Wr3).
      destruct (k_writer k) as [h0 |] eqn:K; cbn [i_sel i_handle i_next i_op i_nop i_ready].
      * pose proof (F h0 eq_refl) as D.
        split; cbn [i_sel i_handle i_next i_op i_nop i_ready]; try reflexivity.
        -- intros fd' k' E'. cbn in E'. unfold upd in E'. destruct (fd' =? fd); [| exact (W _ _ E')].
           injection E' as <-. cbn. repeat split; try reflexivity. exact Wr1. apply orb_true_r.
        -- intros fd' sd'. unfold reg; cbn [i_sel]. unfold upd, same. destruct (fd' =? fd) eqn:Q; cbn [andb].
           ++ apply Nat.eqb_eq in Q; subst fd'. rewrite E. destruct sd'; reflexivity.
           ++ reflexivity.
        -- intros h. unfold upd at 1. unfold reg; rewrite E, K. cbn [opt_is].
           destruct (h =? h0) eqn:Q1; destruct (h =? i_next s) eqn:Q2;
             repeat match goal with H : (_ =? _) = true |- _ => apply Nat.eqb_eq in H end; subst; try contradiction.
           ++ rewrite upd_other by assumption. reflexivity.
           ++ apply upd_same.
           ++ apply upd_other. apply Nat.eqb_neq. exact Q2.
      * split; cbn [i_sel i_handle i_next i_op i_nop i_ready]; try reflexivity.
        -- intros fd' k' E'. cbn in E'. unfold upd in E'. destruct (fd' =? fd); [| exact (W _ _ E')].
           injection E' as <-. cbn. repeat split; try reflexivity. exact Wr1. apply orb_true_r.
        -- intros fd' sd'. unfold reg; cbn [i_sel]. unfold upd, same. destruct (fd' =? fd) eqn:Q; cbn [andb].
           ++ apply Nat.eqb_eq in Q; subst fd'. rewrite E. destruct sd'; reflexivity.
           ++ reflexivity.
        -- intros h. unfold reg; rewrite E, K. cbn [opt_is]. reflexivity.
    + split; cbn [i_sel i_handle i_next i_op i_nop i_ready]; try reflexivity.
      * intros fd' k' E'. cbn in E'. unfold upd in E'. destruct (fd' =? fd); [| exact (W _ _ E')].
        injection E' as <-. cbn. repeat split; reflexivity.
      * intros fd' sd'. unfold reg; cbn [i_sel]. unfold upd, same. destruct (fd' =? fd) eqn:Q; cbn [andb].
        -- apply Nat.eqb_eq in Q; subst fd'. rewrite E. destruct sd'; reflexivity.
        -- reflexivity.
      * intros h. unfold reg; rewrite E. reflexivity.
Qed.

Record eff_remove (s s' : io) (b : bool) (fd : nat) (sd : side) : Prop := mk_eff_remove {
  er_wf : wf s';
  er_result : b = is_some (reg s fd sd);
  er_reg : forall fd' sd', reg s' fd' sd' = if same fd' sd' fd sd then None else reg s fd' sd';
  er_handle : forall h, i_handle s' h = if opt_is (reg s fd sd) h then dead (i_handle s h) else i_handle s h;
  er_next : i_next s' = i_next s;
  er_op : i_op s' = i_op s;
  er_nop : i_nop s' = i_nop s;
  er_ready : i_ready s' = i_ready s }.

Lemma remove_eff s fd sd s' b : wf s -> remove s fd sd = (s', b) -> eff_remove s s' b fd sd.
Proof.
  intros W H. destruct sd; unfold remove, remove_reader, remove_writer, cancel_handle, set_sel in H.
  - destruct (i_sel s fd) as [k |] eqn:E.
    + destruct (W fd k E) as (W1 & W2 & W3).
      destruct (k_reader k) as [h0 |] eqn:K; destruct (k_writer k) as [h1 |] eqn:K1; cbn in W1, W2;
        rewrite W2 in H; cbn in H; injection H as <- <-.
      all: split; cbn [i_sel i_handle i_next i_op i_nop i_ready]; try reflexivity;
        try (intros fd' k' E'; cbn in E'; unfold upd in E'; destruct (fd' =? fd); [| exact (W _ _ E')];
             first [discriminate | injection E' as <-; cbn; repeat split; reflexivity]);
        try (unfold reg; rewrite E; rewrite K; reflexivity);
        try (intros fd' sd'; unfold reg; cbn [i_sel]; unfold upd, same; destruct (fd' =? fd) eqn:Q; cbn [andb];
             [apply Nat.eqb_eq in Q; subst fd'; rewrite E; destruct sd'; cbn; congruence | reflexivity]);
        try (intros h; unfold reg; rewrite E, K; cbn [opt_is]; unfold upd; destruct (h =? h0) eqn:Q;
             [apply Nat.eqb_eq in Q; subst; reflexivity | reflexivity]);
        try (intros h; unfold reg; rewrite E, K; cbn [opt_is]; reflexivity).
    + injection H as <- <-. split; try reflexivity; try assumption.
      * unfold reg; rewrite E; reflexivity.
      * intros fd' sd'. destruct (same fd' sd' fd Rd) eqn:Q; [| reflexivity].
        apply same_eq in Q as [-> ->]. unfold reg; rewrite E; reflexivity.
      * intros h. unfold reg; rewrite E; reflexivity.
  - destruct (i_sel s fd) as [k |] eqn:E.
    + destruct (W fd k E) as (W1 & W2 & W3).
      destruct (k_reader k) as [h1 |] eqn:K1; destruct (k_writer k) as [h0 |] eqn:K; cbn in W1, W2;
        rewrite W1 in H; cbn in H; injection H as <- <-.
      all: split; cbn [i_sel i_handle i_next i_op i_nop i_ready]; try reflexivity;
        try (intros fd' k' E'; cbn in E'; unfold upd in E'; destruct (fd' =? fd); [| exact (W _ _ E')];
             first [discriminate | injection E' as <-; cbn; repeat split; reflexivity]);
        try (unfold reg; rewrite E; rewrite K; reflexivity);
        try (intros fd' sd'; unfold reg; cbn [i_sel]; unfold upd, same; destruct (fd' =? fd) eqn:Q; cbn [andb];
             [apply Nat.eqb_eq in Q; subst fd'; rewrite E; destruct sd'; cbn; congruence | reflexivity]);
        try (intros h; unfold reg; rewrite E, K; cbn [opt_is]; unfold upd; destruct (h =? h0) eqn:Q;
             [apply Nat.eqb_eq in Q; subst; reflexivity | reflexivity]);
        try (intros h; unfold reg; rewrite E, K; cbn [opt_is]; reflexivity).
    + injection H as <- <-. split; try reflexivity; try assumption.
      * unfold reg; rewrite E; reflexivity.
      * intros fd' sd'. destruct (same fd' sd' fd Wr) eqn:Q; [| reflexivity].
        apply same_eq in Q as [-> ->]. unfold reg; rewrite E; reflexivity.
      * intros h. unfold reg; rewrite E; reflexivity.
Qed.

(** * How a state and what was seen belong together *)

Record rel (s : io) (tr : list event) : Prop := mk_rel {
  r_wf : wf s;
  r_reg : forall fd sd, reg s fd sd = registered tr fd sd;
  r_own : forall fd sd h, reg s fd sd = Some h ->
      h < i_next s /\ h_fd (i_handle s h) = fd /\ h_side (i_handle s h) = sd;
  r_cancel : forall h, In (EvCancelled h) tr -> h < i_next s /\ is_user (h_cb (i_handle s h)) = true;
  r_alive : forall h, h < i_next s ->
      (h_cancelled (i_handle s h) = false <->
       reg s (h_fd (i_handle s h)) (h_side (i_handle s h)) = Some h /\ ~ In (EvCancelled h) tr);
  r_added : forall fd sd h, In (EvAdd fd sd h) tr -> h < i_next s;
  r_queue : forall h, In (IHandle h) (i_ready s) -> h < i_next s;
  r_cb : forall h o, h < i_next s -> h_cb (i_handle s h) = CRecv o \/ h_cb (i_handle s h) = CSend o ->
      o < i_nop s /\ o_handle (i_op s o) = Some h;
  r_side : forall h o, h < i_next s ->
      (h_cb (i_handle s h) = CRecv o -> h_side (i_handle s h) = Rd) /\
      (h_cb (i_handle s h) = CSend o -> h_side (i_handle s h) = Wr);
  r_op : forall o h, o < i_nop s -> o_handle (i_op s o) = Some h ->
      h < i_next s /\ h_fd (i_handle s h) = o_fd (i_op s o) /\
      (h_cb (i_handle s h) = CRecv o \/ h_cb (i_handle s h) = CSend o) /\ In (EvWait o h) tr;
  r_ended : forall o, o < i_nop s -> (is_done (o_state (i_op s o)) = true <-> ended tr o);
  r_end : forall o r, In (EvEnd o r) tr -> o < i_nop s;
  r_done : forall o, In (IDone o) (i_ready s) -> o < i_nop s /\ is_done (o_state (i_op s o)) = true;
  r_left : forall o h, o < i_nop s -> is_done (o_state (i_op s o)) = true -> o_handle (i_op s o) = Some h ->
      In (IDone o) (i_ready s) \/ h_cancelled (i_handle s h) = true;
  r_wait : forall o h, In (EvWait o h) tr -> o < i_nop s /\ o_handle (i_op s o) = Some h }.

Lemma registered_app tr e fd sd : registered (tr ++ [e]) fd sd = note fd sd (registered tr fd sd) e.
Proof. unfold registered. rewrite fold_left_app. reflexivity. Qed.

Lemma in_snoc {A} (x y : A) l : In x (l ++ [y]) <-> In x l \/ x = y.
Proof. rewrite in_app_iff. cbn. intuition congruence. Qed.

Lemma ended_snoc tr e o : ended (tr ++ [e]) o <-> ended tr o \/ exists r, e = EvEnd o r.
Proof.
  unfold ended. split.
  - intros (r & H). apply in_snoc in H as [H | H]; [left; exists r; exact H | right; exists r; symmetry; exact H].
  - intros [(r & H) | (r & ->)]; exists r; apply in_snoc; tauto.
Qed.

Lemma rel_init : rel io_init [].
Proof.
  split; try (intros; cbn in *; first [lia | contradiction | discriminate | reflexivity]).
Qed.

Lemma rel_live s tr h : rel s tr -> h < i_next s -> (h_cancelled (i_handle s h) = false <-> live tr h).
Proof.
  intros R L. rewrite (r_alive _ _ R h L). unfold live. split.
  - intros [A B]. split; [| exact B]. eexists; eexists. rewrite <- (r_reg _ _ R). exact A.
  - intros [(fd & sd & A) B]. split; [| exact B]. rewrite <- (r_reg _ _ R) in A.
    destruct (r_own _ _ R _ _ _ A) as (_ & -> & ->). exact A.
Qed.

(** Events which change nothing the relation speaks of. *)
Definition neutral (e : event) : bool :=
  match e with
  | EvAdd _ _ _ | EvRemove _ _ _ _ | EvCancelled _ | EvEnd _ _ | EvWait _ _ => false
  | _ => true
  end.

Lemma rel_neutral s tr e : neutral e = true -> rel s tr -> rel s (tr ++ [e]).
Proof.
  intros Q R.
  assert (I : forall x, neutral x = false -> (In x (tr ++ [e]) <-> In x tr)).
  { intros x X. rewrite in_snoc. split; [| tauto]. intros [H | ->]; [exact H | congruence]. }
  assert (G : forall fd sd, registered (tr ++ [e]) fd sd = registered tr fd sd).
  { intros fd sd. rewrite registered_app. destruct e; try reflexivity; discriminate Q. }
  assert (E : forall o, ended (tr ++ [e]) o <-> ended tr o).
  { intros o. rewrite ended_snoc. split; [| tauto]. intros [H | (r & ->)]; [exact H | discriminate Q]. }
  split; try apply R.
  - intros fd sd. rewrite G. apply R.
  - intros h H. apply I in H; [| reflexivity]. exact (r_cancel _ _ R h H).
  - intros h L. rewrite I by reflexivity. exact (r_alive _ _ R h L).
  - intros fd sd h H. apply I in H; [| reflexivity]. exact (r_added _ _ R _ _ _ H).
  - intros o h L H. rewrite I by reflexivity. exact (r_op _ _ R o h L H).
  - intros o L. rewrite E. exact (r_ended _ _ R o L).
  - intros o r H. apply I in H; [| reflexivity]. exact (r_end _ _ R _ _ H).
  - intros o h H. apply I in H; [| reflexivity]. exact (r_wait _ _ R _ _ H).
Qed.

Lemma dead_fields x : h_fd (dead x) = h_fd x /\ h_side (dead x) = h_side x /\ h_cb (dead x) = h_cb x.
Proof. repeat split. Qed.

(** Removing. *)
Lemma rel_remove s tr w fd sd s' b :
  rel s tr -> remove s fd sd = (s', b) -> rel s' (tr ++ [EvRemove w fd sd b]).
Proof.
  intros R H. pose proof (remove_eff s fd sd s' b (r_wf _ _ R) H) as E. destruct E.
  assert (I : forall x, (forall a c d g, x <> EvRemove a c d g) -> (In x (tr ++ [EvRemove w fd sd b]) <-> In x tr)).
  { intros x X. rewrite in_snoc. split; [| tauto]. intros [Y | ->]; [exact Y | exfalso; eapply X; reflexivity]. }
  assert (F : forall h, h_fd (i_handle s' h) = h_fd (i_handle s h) /\ h_side (i_handle s' h) = h_side (i_handle s h) /\
                        h_cb (i_handle s' h) = h_cb (i_handle s h)).
  { intros h. rewrite er_handle0. destruct (opt_is _ h); repeat split. }
  split.
  - exact er_wf0.
  - intros fd' sd'. rewrite er_reg0, registered_app. cbn [note].
    destruct (same fd' sd' fd sd); [reflexivity | apply R].
  - intros fd' sd' h. rewrite er_reg0, er_next0. destruct (F h) as (-> & -> & _).
    destruct (same fd' sd' fd sd); [discriminate | apply R].
  - intros h X. apply I in X; [| congruence]. rewrite er_next0. destruct (F h) as (_ & _ & ->). exact (r_cancel _ _ R h X).
  - intros h L. rewrite er_next0 in L. rewrite I by congruence. destruct (F h) as (F1 & F2 & _). rewrite F1, F2, er_reg0.
    pose proof (r_alive _ _ R h L) as A. rewrite er_handle0.
    destruct (opt_is (reg s fd sd) h) eqn:O.
    + unfold opt_is in O. destruct (reg s fd sd) as [h' |] eqn:G; [| discriminate]. apply Nat.eqb_eq in O. subst h'.
      destruct (r_own _ _ R _ _ _ G) as (_ & -> & ->). rewrite same_refl. cbn. split; [discriminate | intros [X _]; discriminate].
    + destruct (same _ _ fd sd) eqn:X.
      * apply same_eq in X as [X1 X2]. rewrite A. split; [| intros [Y _]; discriminate].
        intros [Y _]. rewrite X1, X2 in Y. rewrite Y in O. cbn in O. rewrite Nat.eqb_refl in O. discriminate.
      * exact A.
  - intros fd' sd' h X. apply I in X; [| congruence]. rewrite er_next0. exact (r_added _ _ R _ _ _ X).
  - intros h X. rewrite er_ready0 in X. rewrite er_next0. exact (r_queue _ _ R h X).
  - intros h o L X. rewrite er_next0 in L. rewrite er_nop0, er_op0. destruct (F h) as (_ & _ & Q). rewrite Q in X.
    exact (r_cb _ _ R h o L X).
  - intros h o L. rewrite er_next0 in L. destruct (F h) as (_ & -> & ->). exact (r_side _ _ R h o L).
  - intros o h L X. rewrite er_nop0 in L. rewrite er_op0 in X |- *. rewrite er_next0, I by congruence.
    destruct (F h) as (-> & _ & ->). exact (r_op _ _ R o h L X).
  - intros o L. rewrite er_nop0 in L. rewrite er_op0, (r_ended _ _ R o L), ended_snoc.
    split; [tauto |]. intros [X | (r & X)]; [exact X | discriminate].
  - intros o r X. apply I in X; [| congruence]. rewrite er_nop0. exact (r_end _ _ R _ _ X).
  - intros o X. rewrite er_ready0 in X. rewrite er_nop0, er_op0. exact (r_done _ _ R o X).
  - intros o h L D X. rewrite er_nop0 in L. rewrite er_op0 in D, X. rewrite er_ready0, er_handle0.
    destruct (r_left _ _ R o h L D X) as [Y | Y]; [left; exact Y | right]. destruct (opt_is _ h); [reflexivity | exact Y].
  - intros o h X. apply I in X; [| congruence]. rewrite er_nop0, er_op0. exact (r_wait _ _ R _ _ X).
Qed.

(** The user registers a callback. *)
Lemma rel_add s tr fd sd n :
  rel s tr -> rel (add s fd sd (CUser n)) (tr ++ [EvAdd fd sd (i_next s)]).
Proof.
  intros R.
  assert (E : eff_add s (add s fd sd (CUser n)) fd sd (CUser n)).
  { apply add_eff; [apply R |]. intros h H. apply (r_own _ _ R) in H. lia. }
  set (s' := add s fd sd (CUser n)) in *. destruct E.
  assert (I : forall x, (forall a c d, x <> EvAdd a c d) -> (In x (tr ++ [EvAdd fd sd (i_next s)]) <-> In x tr)).
  { intros x X. rewrite in_snoc. split; [| tauto]. intros [Y | ->]; [exact Y | exfalso; eapply X; reflexivity]. }
  assert (F : forall h, h < i_next s ->
     h_fd (i_handle s' h) = h_fd (i_handle s h) /\ h_side (i_handle s' h) = h_side (i_handle s h) /\
     h_cb (i_handle s' h) = h_cb (i_handle s h)).
  { intros h L. rewrite ea_handle0. replace (h =? i_next s) with false by (symmetry; apply Nat.eqb_neq; lia).
    destruct (opt_is _ h); repeat split. }
  assert (New : i_handle s' (i_next s) = mk_handle fd sd (CUser n) false).
  { rewrite ea_handle0, Nat.eqb_refl. reflexivity. }
  split.
  - exact ea_wf0.
  - intros fd' sd'. rewrite ea_reg0, registered_app. cbn [note]. destruct (same fd' sd' fd sd); [reflexivity | apply R].
  - intros fd' sd' h. rewrite ea_reg0, ea_next0. destruct (same fd' sd' fd sd) eqn:Q.
    + intros X; injection X as <-. rewrite New. apply same_eq in Q as [-> ->]. cbn. repeat split. lia.
    + intros X. destruct (r_own _ _ R _ _ _ X) as (L & A & B). destruct (F h L) as (-> & -> & _). repeat split; lia || assumption.
  - intros h X. apply I in X; [| congruence]. rewrite ea_next0. destruct (r_cancel _ _ R h X) as [L U].
    destruct (F h L) as (_ & _ & ->). split; [lia | exact U].
  - intros h L. rewrite ea_next0 in L. rewrite I by congruence.
    destruct (Nat.eq_dec h (i_next s)) as [-> | D].
    + rewrite New. cbn. rewrite ea_reg0, same_refl. split; [| reflexivity]. intros _. split; [reflexivity |].
      intros X. apply (r_cancel _ _ R) in X. lia.
    + assert (L' : h < i_next s) by lia. destruct (F h L') as (F1 & F2 & _). rewrite F1, F2, ea_reg0.
      pose proof (r_alive _ _ R h L') as A. rewrite ea_handle0.
      replace (h =? i_next s) with false by (symmetry; apply Nat.eqb_neq; lia).
      destruct (opt_is (reg s fd sd) h) eqn:O.
      * unfold opt_is in O. destruct (reg s fd sd) as [h' |] eqn:G; [| discriminate]. apply Nat.eqb_eq in O. subst h'.
        destruct (r_own _ _ R _ _ _ G) as (_ & -> & ->). rewrite same_refl. cbn.
        split; [discriminate | intros [X _]; injection X; lia].
      * destruct (same _ _ fd sd) eqn:X.
        -- apply same_eq in X as [X1 X2]. rewrite A. split; [| intros [Y _]; injection Y; lia].
           intros [Y _]. rewrite X1, X2 in Y. rewrite Y in O. cbn in O. rewrite Nat.eqb_refl in O. discriminate.
        -- exact A.
  - intros fd' sd' h X. apply in_snoc in X as [X | X]; rewrite ea_next0.
    + apply (r_added _ _ R) in X. lia.
    + injection X as _ _ ->. lia.
  - intros h X. rewrite ea_ready0 in X. rewrite ea_next0. apply (r_queue _ _ R) in X. lia.
  - intros h o L X. rewrite ea_next0 in L. rewrite ea_nop0, ea_op0.
    destruct (Nat.eq_dec h (i_next s)) as [-> | D].
    + rewrite New in X. cbn in X. destruct X; discriminate.
    + assert (L' : h < i_next s) by lia. destruct (F h L') as (_ & _ & Q). rewrite Q in X. exact (r_cb _ _ R h o L' X).
  - intros h o L. rewrite ea_next0 in L. destruct (Nat.eq_dec h (i_next s)) as [-> | D].
    + rewrite New. cbn. split; discriminate.
    + assert (L' : h < i_next s) by lia. destruct (F h L') as (_ & -> & ->). exact (r_side _ _ R h o L').
  - intros o h L X. rewrite ea_nop0 in L. rewrite ea_op0 in X |- *. rewrite ea_next0, I by congruence.
    destruct (r_op _ _ R o h L X) as (A & B & C & D). destruct (F h A) as (-> & _ & ->). repeat split; try assumption; lia.
  - intros o L. rewrite ea_nop0 in L. rewrite ea_op0, (r_ended _ _ R o L), ended_snoc.
    split; [tauto |]. intros [X | (r & X)]; [exact X | discriminate].
  - intros o r X. apply I in X; [| congruence]. rewrite ea_nop0. exact (r_end _ _ R _ _ X).
  - intros o X. rewrite ea_ready0 in X. rewrite ea_nop0, ea_op0. exact (r_done _ _ R o X).
  - intros o h L D X. rewrite ea_nop0 in L. rewrite ea_op0 in D, X. rewrite ea_ready0.
    destruct (r_left _ _ R o h L D X) as [Y | Y]; [left; exact Y | right].
    rewrite ea_handle0. destruct (r_op _ _ R o h L X) as (A & _).
    replace (h =? i_next s) with false by (symmetry; apply Nat.eqb_neq; lia). destruct (opt_is _ h); [reflexivity | exact Y].
  - intros o h X. apply I in X; [| congruence]. rewrite ea_nop0, ea_op0. exact (r_wait _ _ R _ _ X).
Qed.

(** An operation starts to wait. *)
Definition wait_cb (sd : side) (o : nat) : cb := match sd with Rd => CRecv o | Wr => CSend o end.

Definition wait (s : io) (fd : nat) (sd : side) (data : list bytes) (start : nat) : io :=
  new_op (add s fd sd (wait_cb sd (i_nop s))) (mk_op fd (Some (i_next s)) Pending data start).

Lemma rel_waiting s tr fd sd data start :
  rel s tr ->
  rel (wait s fd sd data start) ((tr ++ [EvAdd fd sd (i_next s)]) ++ [EvWait (i_nop s) (i_next s)]).
Proof.
  intros R. unfold wait. set (c := wait_cb sd (i_nop s)).
  assert (E : eff_add s (add s fd sd c) fd sd c).
  { apply add_eff; [apply R |]. intros h H. apply (r_own _ _ R) in H. lia. }
  set (s0 := add s fd sd c) in *. destruct E. unfold new_op. rewrite ea_nop0, ea_op0.
  set (s' := mk_io _ _ _ _ _ _).
  assert (I : forall x, (forall a e d, x <> EvAdd a e d) -> (forall a e, x <> EvWait a e) ->
      (In x ((tr ++ [EvAdd fd sd (i_next s)]) ++ [EvWait (i_nop s) (i_next s)]) <-> In x tr)).
  { intros x X X'. rewrite !in_snoc. split; [| tauto].
    intros [[Y | ->] | ->]; [exact Y | exfalso; eapply X; reflexivity | exfalso; eapply X'; reflexivity]. }
  assert (F : forall h, h < i_next s ->
     h_fd (i_handle s' h) = h_fd (i_handle s h) /\ h_side (i_handle s' h) = h_side (i_handle s h) /\
     h_cb (i_handle s' h) = h_cb (i_handle s h)).
  { intros h L. change (i_handle s' h) with (i_handle s0 h). rewrite ea_handle0.
    replace (h =? i_next s) with false by (symmetry; apply Nat.eqb_neq; lia).
    destruct (opt_is _ h); repeat split. }
  assert (New : i_handle s' (i_next s) = mk_handle fd sd c false).
  { change (i_handle s' (i_next s)) with (i_handle s0 (i_next s)). rewrite ea_handle0, Nat.eqb_refl. reflexivity. }
  assert (Nx : i_next s' = S (i_next s)) by exact ea_next0.
  assert (No : i_nop s' = S (i_nop s)) by reflexivity.
  assert (Op : forall o, o < i_nop s -> i_op s' o = i_op s o).
  { intros o L. unfold s'; cbn. apply upd_other. lia. }
  assert (Opn : i_op s' (i_nop s) = mk_op fd (Some (i_next s)) Pending data start).
  { unfold s'; cbn. apply upd_same. }
  assert (Rg : forall fd' sd', reg s' fd' sd' = if same fd' sd' fd sd then Some (i_next s) else reg s fd' sd').
  { intros. change (reg s' fd' sd') with (reg s0 fd' sd'). apply ea_reg0. }
  assert (Rdy : i_ready s' = i_ready s) by exact ea_ready0.
  assert (En : forall o, ended ((tr ++ [EvAdd fd sd (i_next s)]) ++ [EvWait (i_nop s) (i_next s)]) o <-> ended tr o).
  { intros o. rewrite !ended_snoc. split; [| tauto]. intros [[X | (r & X)] | (r & X)]; [exact X | discriminate | discriminate]. }
  split.
  - exact ea_wf0.
  - intros fd' sd'. rewrite Rg, !registered_app. cbn [note]. destruct (same fd' sd' fd sd); [reflexivity | apply R].
  - intros fd' sd' h. rewrite Rg, Nx. destruct (same fd' sd' fd sd) eqn:Q.
    + intros X; injection X as <-. rewrite New. apply same_eq in Q as [-> ->]. cbn. repeat split. lia.
    + intros X. destruct (r_own _ _ R _ _ _ X) as (L & A & B). destruct (F h L) as (-> & -> & _). repeat split; lia || assumption.
  - intros h X. apply I in X; [| congruence | congruence]. rewrite Nx. destruct (r_cancel _ _ R h X) as [L U].
    destruct (F h L) as (_ & _ & ->). split; [lia | exact U].
  - intros h L. rewrite Nx in L. rewrite I by congruence.
    destruct (Nat.eq_dec h (i_next s)) as [-> | D].
    + rewrite New. cbn [h_fd h_side h_cancelled]. rewrite Rg, same_refl. split; [| reflexivity]. intros _. split; [reflexivity |].
      intros X. apply (r_cancel _ _ R) in X. lia.
    + assert (L' : h < i_next s) by lia. destruct (F h L') as (F1 & F2 & _). rewrite F1, F2, Rg.
      pose proof (r_alive _ _ R h L') as A. change (i_handle s' h) with (i_handle s0 h). rewrite ea_handle0.
      replace (h =? i_next s) with false by (symmetry; apply Nat.eqb_neq; lia).
      destruct (opt_is (reg s fd sd) h) eqn:O.
      * unfold opt_is in O. destruct (reg s fd sd) as [h' |] eqn:G; [| discriminate]. apply Nat.eqb_eq in O. subst h'.
        destruct (r_own _ _ R _ _ _ G) as (_ & -> & ->). rewrite same_refl. cbn.
        split; [discriminate | intros [X _]; injection X; lia].
      * destruct (same _ _ fd sd) eqn:X.
        -- apply same_eq in X as [X1 X2]. rewrite A. split; [| intros [Y _]; injection Y; lia].
           intros [Y _]. rewrite X1, X2 in Y. rewrite Y in O. cbn in O. rewrite Nat.eqb_refl in O. discriminate.
        -- exact A.
  - intros fd' sd' h X. rewrite !in_snoc in X. rewrite Nx. destruct X as [[X | X] | X]; [| | discriminate].
    + apply (r_added _ _ R) in X. lia.
    + injection X as _ _ ->. lia.
  - intros h X. rewrite Rdy in X. rewrite Nx. apply (r_queue _ _ R) in X. lia.
  - intros h o L X. rewrite Nx in L. rewrite No.
    destruct (Nat.eq_dec h (i_next s)) as [-> | D].
    + rewrite New in X. cbn [h_cb] in X. assert (o = i_nop s) as ->.
      { unfold c in X. destruct sd; cbn in X; destruct X; congruence. }
      rewrite Opn. cbn. split; [lia | reflexivity].
    + assert (L' : h < i_next s) by lia. destruct (F h L') as (_ & _ & Q). rewrite Q in X.
      destruct (r_cb _ _ R h o L' X) as [A B]. rewrite Op by exact A. split; [lia | exact B].
  - intros h o L. rewrite Nx in L. destruct (Nat.eq_dec h (i_next s)) as [-> | D].
    + rewrite New. unfold c. destruct sd; cbn; split; congruence.
    + assert (L' : h < i_next s) by lia. destruct (F h L') as (_ & -> & ->). exact (r_side _ _ R h o L').
  - intros o h L X. rewrite No in L. rewrite Nx. destruct (Nat.eq_dec o (i_nop s)) as [-> | D].
    + rewrite Opn in X |- *. cbn [o_handle o_fd] in X |- *. injection X as <-. rewrite New. cbn [h_fd h_cb]. repeat split; [lia | | apply in_snoc; right; reflexivity].
      unfold c. destruct sd; cbn; [left | right]; reflexivity.
    + assert (L' : o < i_nop s) by lia. rewrite Op in X |- * by exact L'.
      destruct (r_op _ _ R o h L' X) as (A & B & C & G). destruct (F h A) as (-> & _ & ->). repeat split; try assumption; try lia.
      rewrite !in_snoc. tauto.
  - intros o L. rewrite No in L. rewrite En. destruct (Nat.eq_dec o (i_nop s)) as [-> | D].
    + rewrite Opn. cbn. split; [discriminate |]. intros (r & X). apply (r_end _ _ R) in X. lia.
    + assert (L' : o < i_nop s) by lia. rewrite Op by exact L'. exact (r_ended _ _ R o L').
  - intros o r X. apply I in X; [| congruence | congruence]. rewrite No. apply (r_end _ _ R) in X. lia.
  - intros o X. rewrite Rdy in X. rewrite No. destruct (r_done _ _ R o X) as [A B]. rewrite Op by exact A. split; [lia | exact B].
  - intros o h L D X. rewrite No in L. rewrite Rdy. destruct (Nat.eq_dec o (i_nop s)) as [-> | Q].
    + rewrite Opn in D. discriminate D.
    + assert (L' : o < i_nop s) by lia. rewrite Op in D, X by exact L'.
      destruct (r_left _ _ R o h L' D X) as [Y | Y]; [left; exact Y | right].
      change (i_handle s' h) with (i_handle s0 h). rewrite ea_handle0. destruct (r_op _ _ R o h L' X) as (A & _).
      replace (h =? i_next s) with false by (symmetry; apply Nat.eqb_neq; lia). destruct (opt_is _ h); [reflexivity | exact Y].
  - intros o h X. rewrite !in_snoc in X. rewrite No. destruct X as [[X | X] | X]; [| discriminate |].
    + destruct (r_wait _ _ R _ _ X) as [A B]. rewrite Op by exact A. split; [lia | exact B].
    + injection X as -> ->. rewrite Opn. split; [lia | reflexivity].
Qed.

(** An operation ends. *)
Lemma rel_finish s tr o r :
  rel s tr -> o < i_nop s -> is_done (o_state (i_op s o)) = false -> is_done r = true ->
  rel (finish s o r) (tr ++ [EvEnd o r]).
Proof.
  intros R L D Dr. unfold finish. set (s' := mk_io _ _ _ _ _ _).
  assert (I : forall x, (forall a e, x <> EvEnd a e) -> (In x (tr ++ [EvEnd o r]) <-> In x tr)).
  { intros x X. rewrite in_snoc. split; [| tauto]. intros [Y | ->]; [exact Y | exfalso; eapply X; reflexivity]. }
  assert (Op : forall o', o' <> o -> i_op s' o' = i_op s o') by (intros; unfold s'; cbn; apply upd_other; assumption).
  assert (Opn : o_handle (i_op s' o) = o_handle (i_op s o) /\ o_fd (i_op s' o) = o_fd (i_op s o) /\ o_state (i_op s' o) = r).
  { unfold s'; cbn. rewrite upd_same. repeat split. }
  assert (Oph : forall o', o_handle (i_op s' o') = o_handle (i_op s o') /\ o_fd (i_op s' o') = o_fd (i_op s o')).
  { intros o'. destruct (Nat.eq_dec o' o) as [-> | Q]; [tauto | rewrite Op by exact Q; tauto]. }
  split.
  - exact (r_wf _ _ R).
  - intros fd sd. rewrite registered_app. apply R.
  - exact (r_own _ _ R).
  - intros h X. apply I in X; [| congruence]. exact (r_cancel _ _ R h X).
  - intros h X. rewrite I by congruence. exact (r_alive _ _ R h X).
  - intros fd sd h X. apply I in X; [| congruence]. exact (r_added _ _ R _ _ _ X).
  - intros h X. apply in_snoc in X as [X | X]; [exact (r_queue _ _ R h X) | discriminate].
  - intros h o' X Y. destruct (Oph o') as [-> _]. exact (r_cb _ _ R h o' X Y).
  - exact (r_side _ _ R).
  - intros o' h X Y. destruct (Oph o') as [Q1 Q2]. rewrite Q1 in Y. rewrite Q2, I by congruence. exact (r_op _ _ R o' h X Y).
  - intros o' X. rewrite ended_snoc. destruct (Nat.eq_dec o' o) as [-> | Q].
    + destruct Opn as (_ & _ & ->). split; [intros _; right; exists r; reflexivity | intros _; exact Dr].
    + rewrite Op by exact Q. rewrite (r_ended _ _ R o' X). split; [tauto |]. intros [Y | (r' & Y)]; [exact Y | congruence].
  - intros o' r' X. apply in_snoc in X as [X | X]; [exact (r_end _ _ R _ _ X) | injection X as -> _; exact L].
  - intros o' X. apply in_snoc in X as [X | X].
    + destruct (r_done _ _ R o' X) as [A B]. split; [exact A |].
      rewrite Op; [exact B |]. intros ->. congruence.
    + injection X as ->. split; [exact L |]. destruct Opn as (_ & _ & ->). exact Dr.
  - intros o' h X Y Z. destruct (Nat.eq_dec o' o) as [-> | Q].
    + left. apply in_snoc. right. reflexivity.
    + rewrite Op in Y, Z by exact Q. destruct (r_left _ _ R o' h X Y Z) as [W | W]; [left; apply in_snoc; left; exact W | right; exact W].
  - intros o' h X. apply I in X; [| congruence]. destruct (Oph o') as [-> _]. exact (r_wait _ _ R _ _ X).
Qed.

Lemma rel_push s tr h : rel s tr -> h < i_next s -> rel (push s (IHandle h)) tr.
Proof.
  intros R L. split; try exact (r_wf _ _ R); try exact (r_reg _ _ R); try exact (r_own _ _ R); try exact (r_cancel _ _ R);
    try exact (r_alive _ _ R); try exact (r_added _ _ R); try exact (r_cb _ _ R); try exact (r_side _ _ R);
    try exact (r_op _ _ R); try exact (r_ended _ _ R); try exact (r_end _ _ R); try exact (r_wait _ _ R).
  - intros h' X. apply in_snoc in X as [X | X]; [exact (r_queue _ _ R h' X) | injection X as ->; exact L].
  - intros o X. apply in_snoc in X as [X | X]; [exact (r_done _ _ R o X) | discriminate].
  - intros o h' X Y Z. destruct (r_left _ _ R o h' X Y Z) as [W | W]; [left; apply in_snoc; left; exact W | right; exact W].
Qed.

(** Taking something from the queue; the callback of an operation can go when the handle of the operation is cancelled. *)
Lemma rel_pop s tr i rest :
  rel s tr -> i_ready s = i :: rest ->
  (forall o h, i = IDone o -> o_handle (i_op s o) = Some h -> h_cancelled (i_handle s h) = true) ->
  rel (pop s rest) tr.
Proof.
  intros R E C. split; try exact (r_wf _ _ R); try exact (r_reg _ _ R); try exact (r_own _ _ R); try exact (r_cancel _ _ R);
    try exact (r_alive _ _ R); try exact (r_added _ _ R); try exact (r_cb _ _ R); try exact (r_side _ _ R);
    try exact (r_op _ _ R); try exact (r_ended _ _ R); try exact (r_end _ _ R); try exact (r_wait _ _ R).
  - intros h X. apply (r_queue _ _ R). rewrite E. right. exact X.
  - intros o X. apply (r_done _ _ R). rewrite E. right. exact X.
  - intros o h X Y Z. destruct (r_left _ _ R o h X Y Z) as [W | W]; [| right; exact W].
    rewrite E in W. destruct W as [W | W]; [right | left; exact W]. exact (C o h W Z).
Qed.

Lemma rel_user_cancel s tr h :
  rel s tr -> h < i_next s -> is_user (h_cb (i_handle s h)) = true ->
  rel (cancel_handle s h) (tr ++ [EvCancelled h]).
Proof.
  intros R L U. unfold cancel_handle. set (s' := mk_io _ _ _ _ _ _).
  assert (I : forall x, (forall a, x <> EvCancelled a) -> (In x (tr ++ [EvCancelled h]) <-> In x tr)).
  { intros x X. rewrite in_snoc. split; [| tauto]. intros [Y | ->]; [exact Y | exfalso; eapply X; reflexivity]. }
  assert (O : forall h', h' <> h -> i_handle s' h' = i_handle s h') by (intros; unfold s'; cbn; apply upd_other; assumption).
  assert (N : i_handle s' h = dead (i_handle s h)) by (unfold s'; cbn; apply upd_same).
  assert (F : forall h', h_fd (i_handle s' h') = h_fd (i_handle s h') /\ h_side (i_handle s' h') = h_side (i_handle s h') /\
     h_cb (i_handle s' h') = h_cb (i_handle s h')).
  { intros h'. destruct (Nat.eq_dec h' h) as [-> | Q]; [rewrite N; repeat split | rewrite O by exact Q; repeat split]. }
  split.
  - exact (r_wf _ _ R).
  - intros fd sd. rewrite registered_app. apply R.
  - intros fd sd h' X. destruct (F h') as (-> & -> & _). exact (r_own _ _ R _ _ _ X).
  - intros h' X. destruct (F h') as (_ & _ & ->). apply in_snoc in X as [X | X]; [exact (r_cancel _ _ R h' X) |].
    injection X as ->. split; [exact L | exact U].
  - intros h' X. destruct (F h') as (-> & -> & _). destruct (Nat.eq_dec h' h) as [-> | Q].
    + rewrite N. cbn. split; [discriminate |]. intros [_ Y]. exfalso. apply Y. apply in_snoc. right. reflexivity.
    + rewrite O by exact Q. rewrite in_snoc, (r_alive _ _ R h' X). change (reg s') with (reg s).
      split; intros [A B]; (split; [exact A |]); [intros [Y | Y]; [exact (B Y) | congruence] | tauto].
  - intros fd sd h' X. apply I in X; [| congruence]. exact (r_added _ _ R _ _ _ X).
  - exact (r_queue _ _ R).
  - intros h' o X Y. destruct (F h') as (_ & _ & Q). rewrite Q in Y. exact (r_cb _ _ R h' o X Y).
  - intros h' o X. destruct (F h') as (_ & -> & ->). exact (r_side _ _ R h' o X).
  - intros o h' X Y. rewrite I by congruence. destruct (F h') as (-> & _ & ->). exact (r_op _ _ R o h' X Y).
  - intros o X. rewrite ended_snoc. change (i_op s' o) with (i_op s o). rewrite (r_ended _ _ R o X). split; [tauto |].
    intros [Y | (r & Y)]; [exact Y | discriminate].
  - intros o r X. apply I in X; [| congruence]. exact (r_end _ _ R _ _ X).
  - exact (r_done _ _ R).
  - intros o h' X Y Z. destruct (r_left _ _ R o h' X Y Z) as [W | W]; [left; exact W | right].
    destruct (Nat.eq_dec h' h) as [-> | Q]; [rewrite N; reflexivity | rewrite O by exact Q; exact W].
  - intros o h' X. apply I in X; [| congruence]. exact (r_wait _ _ R _ _ X).
Qed.

(** The position of a sender moves on. *)
Lemma rel_start s tr o start :
  rel s tr ->
  let x := i_op s o in
  rel (mk_io (i_sel s) (i_handle s) (i_next s) (upd (i_op s) o (mk_op (o_fd x) (o_handle x) (o_state x) (o_data x) start))
             (i_nop s) (i_ready s)) tr.
Proof.
  intros R x. set (s' := mk_io _ _ _ _ _ _).
  assert (F : forall o', o_fd (i_op s' o') = o_fd (i_op s o') /\ o_handle (i_op s' o') = o_handle (i_op s o') /\
                         o_state (i_op s' o') = o_state (i_op s o')).
  { intros o'. destruct (Nat.eq_dec o' o) as [-> | Q]; unfold s'; cbn.
    - rewrite upd_same. repeat split.
    - rewrite upd_other by exact Q. repeat split. }
  split; try exact (r_wf _ _ R); try exact (r_reg _ _ R); try exact (r_own _ _ R); try exact (r_cancel _ _ R);
    try exact (r_alive _ _ R); try exact (r_added _ _ R); try exact (r_queue _ _ R); try exact (r_side _ _ R);
    try exact (r_end _ _ R).
  - intros h o' X Y. destruct (F o') as (_ & -> & _). exact (r_cb _ _ R h o' X Y).
  - intros o' h X Y. destruct (F o') as (-> & Q & _). rewrite Q in Y. exact (r_op _ _ R o' h X Y).
  - intros o' X. destruct (F o') as (_ & _ & ->). exact (r_ended _ _ R o' X).
  - intros o' X. destruct (F o') as (_ & _ & ->). exact (r_done _ _ R o' X).
  - intros o' h X Y Z. destruct (F o') as (_ & Q1 & Q2). rewrite Q1 in Z. rewrite Q2 in Y. exact (r_left _ _ R o' h X Y Z).
  - intros o' h X. destruct (F o') as (_ & -> & _). exact (r_wait _ _ R _ _ X).
Qed.

(** An operation which did not have to wait. *)
Lemma rel_at_once s tr fd data start :
  rel s tr -> rel (new_op s (mk_op fd None Sent data start)) (tr ++ [EvEnd (i_nop s) Sent]).
Proof.
  intros R. unfold new_op. set (s' := mk_io _ _ _ _ _ _).
  assert (I : forall x, (forall a e, x <> EvEnd a e) -> (In x (tr ++ [EvEnd (i_nop s) Sent]) <-> In x tr)).
  { intros x X. rewrite in_snoc. split; [| tauto]. intros [Y | ->]; [exact Y | exfalso; eapply X; reflexivity]. }
  assert (Op : forall o, o < i_nop s -> i_op s' o = i_op s o).
  { intros o X. unfold s'; cbn. apply upd_other. lia. }
  assert (Opn : i_op s' (i_nop s) = mk_op fd None Sent data start) by (unfold s'; cbn; apply upd_same).
  assert (No : i_nop s' = S (i_nop s)) by reflexivity.
  split; try exact (r_wf _ _ R); try exact (r_own _ _ R); try exact (r_queue _ _ R); try exact (r_side _ _ R).
  - intros fd' sd'. rewrite registered_app. apply R.
  - intros h X. apply I in X; [| congruence]. exact (r_cancel _ _ R h X).
  - intros h X. rewrite I by congruence. exact (r_alive _ _ R h X).
  - intros fd' sd' h X. apply I in X; [| congruence]. exact (r_added _ _ R _ _ _ X).
  - intros h o X Y. destruct (r_cb _ _ R h o X Y) as [A B]. rewrite No, Op by exact A. split; [lia | exact B].
  - intros o h X Y. rewrite I by congruence. destruct (Nat.eq_dec o (i_nop s)) as [-> | Q].
    + rewrite Opn in Y. discriminate Y.
    + rewrite No in X. rewrite Op in Y |- * by lia. apply (r_op _ _ R o h); [lia | exact Y].
  - intros o X. rewrite ended_snoc. destruct (Nat.eq_dec o (i_nop s)) as [-> | Q].
    + rewrite Opn. cbn. split; [intros _; right; exists Sent; reflexivity | reflexivity].
    + rewrite No in X. rewrite Op by lia. rewrite (r_ended _ _ R o) by lia. split; [tauto |].
      intros [Y | (r & Y)]; [exact Y | congruence].
  - intros o r X. rewrite No. apply in_snoc in X as [X | X]; [apply (r_end _ _ R) in X; lia | injection X as -> _; lia].
  - intros o X. destruct (r_done _ _ R o X) as [A B]. rewrite No, Op by exact A. split; [lia | exact B].
  - intros o h X Y Z. destruct (Nat.eq_dec o (i_nop s)) as [-> | Q].
    + rewrite Opn in Z. discriminate Z.
    + rewrite No in X. rewrite Op in Y, Z by lia. apply (r_left _ _ R o h); [lia | exact Y | exact Z].
  - intros o h X. apply I in X; [| congruence]. destruct (r_wait _ _ R _ _ X) as [A B]. rewrite No, Op by exact A.
    split; [lia | exact B].
Qed.

(** * Every event is allowed *)

Fixpoint oks (tr : list event) (evs : list event) : Prop :=
  match evs with
  | [] => True
  | e :: rest => allowed tr e /\ oks (tr ++ [e]) rest
  end.

Lemma oks_app evs1 : forall tr evs2, oks tr (evs1 ++ evs2) <-> oks tr evs1 /\ oks (tr ++ evs1) evs2.
Proof.
  induction evs1 as [| e evs1 IH]; intros tr evs2; cbn.
  - rewrite app_nil_r. tauto.
  - rewrite IH, <- app_assoc. cbn. tauto.
Qed.

Lemma oks_at evs : forall tr evs1 e evs2, oks tr evs -> evs = evs1 ++ e :: evs2 -> allowed (tr ++ evs1) e.
Proof.
  intros tr evs1 e evs2 H ->. apply oks_app in H as [_ H]. cbn in H. exact (proj1 H).
Qed.

(** A step keeps the relation and shows only what is allowed. *)
Definition good (s : io) (tr : list event) (s' : io) (evs : list event) : Prop := rel s' (tr ++ evs) /\ oks tr evs.

Lemma good_nil s tr : rel s tr -> good s tr s [].
Proof. intros R. split; [rewrite app_nil_r; exact R | exact I]. Qed.

Lemma good_trans s tr s1 ev1 s2 ev2 : good s tr s1 ev1 -> good s1 (tr ++ ev1) s2 ev2 -> good s tr s2 (ev1 ++ ev2).
Proof.
  intros [_ K] [R K']. split; [rewrite app_assoc; exact R | apply oks_app; split; assumption].
Qed.

Lemma good_one s tr s' e : rel s' (tr ++ [e]) -> allowed tr e -> good s tr s' [e].
Proof. intros R A. split; [exact R | split; [exact A | exact I]]. Qed.

Lemma good_neutral s tr e : neutral e = true -> rel s tr -> allowed tr e -> good s tr s [e].
Proof. intros Q R A. apply good_one; [apply rel_neutral; assumption | exact A]. Qed.

Lemma remove_allowed s tr w fd sd s' b :
  rel s tr -> remove s fd sd = (s', b) -> may_remove tr w fd sd -> allowed tr (EvRemove w fd sd b).
Proof.
  intros R H M. split; [| exact M]. destruct (remove_eff _ _ _ _ _ (r_wf _ _ R) H).
  rewrite er_result0, (r_reg _ _ R). destruct (registered tr fd sd); cbn; split; congruence.
Qed.

Lemma good_remove s tr w fd sd s' b :
  rel s tr -> remove s fd sd = (s', b) -> may_remove tr w fd sd -> good s tr s' [EvRemove w fd sd b].
Proof.
  intros R H M. apply good_one; [eapply rel_remove; eassumption | eapply remove_allowed; eassumption].
Qed.

Lemma push_neutral s tr h : rel s tr -> live tr h -> h < i_next s -> good s tr (push s (IHandle h)) [EvReady h].
Proof.
  intros R A L. apply good_one; [| exact A]. apply rel_push; [| exact L]. apply rel_neutral; [reflexivity | exact R].
Qed.

(** One side of [poll_one]. *)
Definition poll_side (s : io) (fd : nat) (sd : side) (o : option nat) (m : bool) : io * list event :=
  match o with
  | Some h =>
      if m then
        if h_cancelled (i_handle s h)
        then let '(s, b) := remove s fd sd in (s, [EvRemove ByLoop fd sd b])
        else (push s (IHandle h), [EvReady h])
      else (s, [])
  | None => (s, [])
  end.

Lemma poll_one_sides s fd mr mw :
  poll_one s fd mr mw =
  let '(s1, ev1) := poll_side s fd Rd (reg s fd Rd) mr in
  let '(s2, ev2) := poll_side s1 fd Wr (reg s fd Wr) mw in
  (s2, ev1 ++ ev2).
Proof.
  unfold poll_one, poll_side, reg. destruct (i_sel s fd) as [k |]; [| reflexivity]. reflexivity.
Qed.

Lemma not_alive s tr h : rel s tr -> h < i_next s -> h_cancelled (i_handle s h) = true -> ~ live tr h.
Proof. intros R L C A. apply (rel_live s tr h R L) in A. congruence. Qed.

Lemma poll_side_good s tr fd sd m : rel s tr ->
  let '(s', evs) := poll_side s fd sd (reg s fd sd) m in
  good s tr s' evs /\ (forall fd' sd', sd' <> sd -> reg s' fd' sd' = reg s fd' sd') /\
  (forall fd' sd', fd' <> fd -> reg s' fd' sd' = reg s fd' sd').
Proof.
  intros R. unfold poll_side. destruct (reg s fd sd) as [h |] eqn:G; [| split; [apply good_nil; exact R | split; reflexivity]].
  destruct m; [| split; [apply good_nil; exact R | split; reflexivity]].
  destruct (r_own _ _ R _ _ _ G) as (L & F1 & F2).
  destruct (h_cancelled (i_handle s h)) eqn:C.
  - destruct (remove s fd sd) as [s' b] eqn:E. split.
    + apply good_remove; [exact R | exact E |]. exists h. split; [rewrite <- (r_reg _ _ R); exact G |].
      pose proof (r_alive _ _ R h L) as A. rewrite F1, F2, C in A.
      destruct (in_dec (fun x y : event => ltac:(repeat decide equality)) (EvCancelled h) tr) as [Y | Y]; [exact Y |].
      exfalso. assert (true = false) by (apply A; split; assumption). discriminate.
    + destruct (remove_eff _ _ _ _ _ (r_wf _ _ R) E). split; intros fd' sd' D; rewrite er_reg0.
      * replace (same fd' sd' fd sd) with false; [reflexivity |]. symmetry. apply same_neq. tauto.
      * replace (same fd' sd' fd sd) with false; [reflexivity |]. symmetry. apply same_neq. tauto.
  - split; [| split; reflexivity]. apply push_neutral; [exact R | apply (rel_live s tr h R L); exact C | exact L].
Qed.

Lemma poll_one_good s tr fd mr mw : rel s tr -> let '(s', evs) := poll_one s fd mr mw in good s tr s' evs.
Proof.
  intros R. rewrite poll_one_sides. pose proof (poll_side_good s tr fd Rd mr R) as P1.
  destruct (poll_side s fd Rd (reg s fd Rd) mr) as [s1 ev1]. destruct P1 as (G1 & K1 & _).
  pose proof (poll_side_good s1 (tr ++ ev1) fd Wr mw (proj1 G1)) as P2.
  rewrite (K1 fd Wr) in P2 by discriminate.
  destruct (poll_side s1 fd Wr (reg s fd Wr) mw) as [s2 ev2]. destruct P2 as (G2 & _).
  eapply good_trans; eassumption.
Qed.

Lemma poll_good reports : forall s tr, rel s tr -> let '(s', evs) := poll s reports in good s tr s' evs.
Proof.
  induction reports as [| [fd [mr mw]] rest IH]; intros s tr R; cbn [poll].
  - apply good_nil; exact R.
  - pose proof (poll_one_good s tr fd mr mw R) as P1. destruct (poll_one s fd mr mw) as [s1 ev1].
    pose proof (IH s1 (tr ++ ev1) (proj1 P1)) as P2. destruct (poll s1 rest) as [s2 ev2].
    eapply good_trans; eassumption.
Qed.

Lemma live_neutral tr e h : neutral e = true -> live tr h -> live (tr ++ [e]) h.
Proof.
  intros Q [(fd & sd & A) B]. split.
  - exists fd, sd. rewrite registered_app. destruct e; try exact A; discriminate Q.
  - intros X. apply in_snoc in X as [X | X]; [exact (B X) | subst e; discriminate Q].
Qed.

(** Facts about the handle of an operation which is about to run. *)
Lemma own_handle s tr h o :
  rel s tr -> h < i_next s -> h_cancelled (i_handle s h) = false ->
  h_cb (i_handle s h) = CRecv o \/ h_cb (i_handle s h) = CSend o ->
  o < i_nop s /\ In (EvWait o h) tr /\ o_fd (i_op s o) = h_fd (i_handle s h) /\
  registered tr (o_fd (i_op s o)) (h_side (i_handle s h)) = Some h.
Proof.
  intros R L C Q. destruct (r_cb _ _ R h o L Q) as [A B]. destruct (r_op _ _ R o h A B) as (_ & F & _ & W).
  repeat split; try assumption; [symmetry; exact F |].
  apply (r_alive _ _ R h L) in C. rewrite <- F, <- (r_reg _ _ R). exact (proj1 C).
Qed.

Lemma good_end s tr o r h fd sd :
  rel s tr -> o < i_nop s -> is_done (o_state (i_op s o)) = false -> is_done r = true ->
  In (EvWait o h) tr -> registered tr fd sd = Some h -> live tr h ->
  let '(s', b) := remove (finish s o r) fd sd in good s tr s' [EvEnd o r; EvRemove (ByOp o) fd sd b].
Proof.
  intros R L D Dr W G A. destruct (remove (finish s o r) fd sd) as [s' b] eqn:E.
  change [EvEnd o r; EvRemove (ByOp o) fd sd b] with ([EvEnd o r] ++ [EvRemove (ByOp o) fd sd b]).
  assert (R1 : rel (finish s o r) (tr ++ [EvEnd o r])) by (apply rel_finish; assumption).
  eapply good_trans.
  - apply good_one; [exact R1 |]. split.
    + intros X. apply (r_ended _ _ R o L) in X. congruence.
    + right. intros h' W'. destruct (r_wait _ _ R _ _ W) as [_ Q]. destruct (r_wait _ _ R _ _ W') as [_ Q'].
      rewrite Q in Q'. injection Q' as <-. exact A.
  - apply good_remove; [exact R1 | exact E |]. exists h. split; [rewrite registered_app; exact G | apply in_snoc; left; exact W].
Qed.

Lemma on_readable_good s tr h o a :
  rel s tr -> h < i_next s -> h_cancelled (i_handle s h) = false -> h_cb (i_handle s h) = CRecv o ->
  let '(s', evs) := on_readable s o a in good s tr s' evs.
Proof.
  intros R L C Q. destruct (own_handle s tr h o R L C (or_introl Q)) as (A & W & F & G).
  rewrite (proj1 (r_side _ _ R h o L) Q) in G.
  unfold on_readable. destruct (is_done (o_state (i_op s o))) eqn:D; [apply good_nil; exact R |].
  assert (NE : ~ ended tr o) by (intros X; apply (r_ended _ _ R o A) in X; congruence).
  assert (LV : live tr h) by (apply (rel_live _ _ _ R L); exact C).
  destruct a as [d | |].
  - assert (P0 : good s tr s [EvRead o d]) by (apply good_neutral; [reflexivity | exact R | exact NE]).
    pose proof (good_end s (tr ++ [EvRead o d]) o (Result d) h (o_fd (i_op s o)) Rd (proj1 P0) A D eq_refl) as P.
    cbn [remove] in P. destruct (remove_reader (finish s o (Result d)) (o_fd (i_op s o))) as [s' b].
    change [EvRead o d; EvEnd o (Result d); EvRemove (ByOp o) (o_fd (i_op s o)) Rd b]
      with ([EvRead o d] ++ [EvEnd o (Result d); EvRemove (ByOp o) (o_fd (i_op s o)) Rd b]).
    eapply good_trans; [exact P0 |]. apply P; [apply in_snoc; left; exact W | rewrite registered_app; exact G | apply live_neutral; [reflexivity | exact LV]].
  - apply good_nil; exact R.
  - pose proof (good_end s tr o Failed h (o_fd (i_op s o)) Rd R A D eq_refl W G LV) as P.
    cbn [remove] in P. destruct (remove_reader (finish s o Failed) (o_fd (i_op s o))) as [s' b]. exact P.
Qed.

Lemma on_writable_good s tr h o a :
  rel s tr -> h < i_next s -> h_cancelled (i_handle s h) = false -> h_cb (i_handle s h) = CSend o ->
  let '(s', evs) := on_writable s o a in good s tr s' evs.
Proof.
  intros R L C Q. destruct (own_handle s tr h o R L C (or_intror Q)) as (A & W & F & G).
  rewrite (proj2 (r_side _ _ R h o L) Q) in G.
  unfold on_writable. destruct (is_done (o_state (i_op s o))) eqn:D; [apply good_nil; exact R |].
  assert (NE : ~ ended tr o) by (intros X; apply (r_ended _ _ R o A) in X; congruence).
  assert (LV : live tr h) by (apply (rel_live _ _ _ R L); exact C).
  destruct a as [n | |].
  - set (w := taken n _).
    assert (P0 : good s tr s [EvWrote o w]) by (apply good_neutral; [reflexivity | exact R | exact NE]).
    destruct (negb (o_start (i_op s o) + length w =? length (o_data (i_op s o)))).
    + split; [| exact (proj2 P0)]. apply rel_start. exact (proj1 P0).
    + pose proof (good_end s (tr ++ [EvWrote o w]) o Sent h (o_fd (i_op s o)) Wr (proj1 P0) A D eq_refl) as P.
      cbn [remove] in P. destruct (remove_writer (finish s o Sent) (o_fd (i_op s o))) as [s' b].
      change [EvWrote o w; EvEnd o Sent; EvRemove (ByOp o) (o_fd (i_op s o)) Wr b]
        with ([EvWrote o w] ++ [EvEnd o Sent; EvRemove (ByOp o) (o_fd (i_op s o)) Wr b]).
      eapply good_trans; [exact P0 |]. apply P; [apply in_snoc; left; exact W | rewrite registered_app; exact G | apply live_neutral; [reflexivity | exact LV]].
  - apply good_nil; exact R.
  - pose proof (good_end s tr o Failed h (o_fd (i_op s o)) Wr R A D eq_refl W G LV) as P.
    cbn [remove] in P. destruct (remove_writer (finish s o Failed) (o_fd (i_op s o))) as [s' b]. exact P.
Qed.

Lemma remove_pop s rest fd sd :
  remove (pop s rest) fd sd = (pop (fst (remove s fd sd)) rest, snd (remove s fd sd)).
Proof.
  destruct sd; unfold remove, remove_reader, remove_writer, pop, cancel_handle, set_sel; cbn [i_sel];
    (destruct (i_sel s fd) as [k |]; [| reflexivity]).
  - destruct (k_write k); destruct (k_reader k); reflexivity.
  - destruct (k_read k); destruct (k_writer k); reflexivity.
Qed.

Lemma on_done_sides s o :
  on_done s o =
  match o_handle (i_op s o) with
  | None => (s, [])
  | Some n =>
      if h_cancelled (i_handle s n) then (s, [])
      else let sd := h_side (i_handle s n) in
           let '(s', b) := remove s (o_fd (i_op s o)) sd in (s', [EvRemove (ByOp o) (o_fd (i_op s o)) sd b])
  end.
Proof.
  unfold on_done. destruct (o_handle (i_op s o)); [| reflexivity]. destruct (h_cancelled _); [reflexivity |].
  destruct (h_side _); reflexivity.
Qed.

Lemma run_one_good s tr ra sa : rel s tr -> let '(s', evs) := run_one s ra sa in good s tr s' evs.
Proof.
  intros R. unfold run_one. destruct (i_ready s) as [| i rest] eqn:E; [apply good_nil; exact R |]. destruct i as [h | o].
  - assert (R' : rel (pop s rest) tr) by (eapply rel_pop; [exact R | exact E | intros o h' X; discriminate X]).
    assert (L : h < i_next (pop s rest)) by (apply (r_queue _ _ R); rewrite E; left; reflexivity).
    assert (g : forall s' evs, good (pop s rest) tr s' evs -> good s tr s' evs) by (intros s' evs X; exact X).
    destruct (h_cancelled (i_handle (pop s rest) h)) eqn:C.
    + apply g. apply good_neutral; [reflexivity | exact R' |]. exact (not_alive _ _ _ R' L C).
    + assert (A : live tr h) by (apply (rel_live _ _ _ R' L); exact C).
      assert (P0 : good (pop s rest) tr (pop s rest) [EvRan h]) by (apply good_neutral; [reflexivity | exact R' | exact A]).
      destruct (h_cb (i_handle (pop s rest) h)) as [n | o | o] eqn:Q.
      * apply g. exact P0.
      * pose proof (on_readable_good (pop s rest) (tr ++ [EvRan h]) h o ra (proj1 P0) L C Q) as P.
        destruct (on_readable (pop s rest) o ra) as [s' evs]. apply g.
        change (EvRan h :: evs) with ([EvRan h] ++ evs). eapply good_trans; eassumption.
      * pose proof (on_writable_good (pop s rest) (tr ++ [EvRan h]) h o sa (proj1 P0) L C Q) as P.
        destruct (on_writable (pop s rest) o sa) as [s' evs]. apply g.
        change (EvRan h :: evs) with ([EvRan h] ++ evs). eapply good_trans; eassumption.
  - rewrite on_done_sides. change (i_op (pop s rest) o) with (i_op s o).
    destruct (r_done _ _ R o) as [Lo Do]; [rewrite E; left; reflexivity |].
    destruct (o_handle (i_op s o)) as [n |] eqn:H.
    + change (i_handle (pop s rest) n) with (i_handle s n). destruct (h_cancelled (i_handle s n)) eqn:C.
      * apply good_nil with (s := pop s rest). eapply rel_pop; [exact R | exact E |].
        intros o' h' X Y. injection X as <-. congruence.
      * cbn zeta. rewrite remove_pop. destruct (remove s (o_fd (i_op s o)) (h_side (i_handle s n))) as [s' b] eqn:Er. cbn [fst snd].
        destruct (r_op _ _ R o n Lo H) as (L & F & Q & W).
        assert (G : registered tr (o_fd (i_op s o)) (h_side (i_handle s n)) = Some n).
        { apply (r_alive _ _ R n L) in C. rewrite <- F, <- (r_reg _ _ R). exact (proj1 C). }
        destruct (good_remove s tr (ByOp o) (o_fd (i_op s o)) (h_side (i_handle s n)) s' b R Er) as [R1 K];
          [exists n; split; assumption |].
        split; [| exact K]. destruct (remove_eff _ _ _ _ _ (r_wf _ _ R) Er).
        eapply rel_pop; [exact R1 | rewrite er_ready0; exact E |].
        intros o' h' X Y. injection X as <-. rewrite er_op0, H in Y. injection Y as <-.
        rewrite er_handle0, (r_reg _ _ R), G. cbn. rewrite Nat.eqb_refl. reflexivity.
    + apply good_nil with (s := pop s rest). eapply rel_pop; [exact R | exact E |].
      intros o' h' X Y. injection X as <-. congruence.
Qed.

Lemma good_wait s tr fd sd data start :
  rel s tr -> good s tr (wait s fd sd data start) [EvAdd fd sd (i_next s); EvWait (i_nop s) (i_next s)].
Proof.
  intros R. split.
  - change [EvAdd fd sd (i_next s); EvWait (i_nop s) (i_next s)]
      with ([EvAdd fd sd (i_next s)] ++ [EvWait (i_nop s) (i_next s)]). rewrite app_assoc. apply rel_waiting. exact R.
  - cbn. repeat split. intros fd' sd' X. apply (r_added _ _ R) in X. lia.
Qed.

Lemma not_ended s tr : rel s tr -> ~ ended tr (i_nop s).
Proof. intros R (r & X). apply (r_end _ _ R) in X. lia. Qed.

Lemma step_good s tr a : rel s tr -> let '(s', evs) := step s a in good s tr s' evs.
Proof.
  intros R. destruct a; cbn [step].
  - apply good_one; [exact (rel_add s tr fd Rd n R) |]. cbn. intros fd' sd' X. apply (r_added _ _ R) in X. lia.
  - apply good_one; [exact (rel_add s tr fd Wr n R) |]. cbn. intros fd' sd' X. apply (r_added _ _ R) in X. lia.
  - destruct (remove_reader s fd) as [s' b] eqn:E. apply good_remove; [exact R | exact E | exact I].
  - destruct (remove_writer s fd) as [s' b] eqn:E. apply good_remove; [exact R | exact E | exact I].
  - destruct (h <? i_next s) eqn:L; cbn [andb]; [| apply good_nil; exact R].
    destruct (is_user (h_cb (i_handle s h))) eqn:U; [| apply good_nil; exact R].
    apply good_one; [| exact I]. apply rel_user_cancel; [exact R | apply Nat.ltb_lt; exact L | exact U].
  - apply poll_good; exact R.
  - apply run_one_good; exact R.
  - unfold receive. destruct a as [d | |].
    + apply good_neutral; [reflexivity | exact R | exact I].
    + exact (good_wait s tr fd Rd [] 0 R).
    + apply good_neutral; [reflexivity | exact R | exact I].
  - unfold send_all. destruct data as [| x data]; [apply good_neutral; [reflexivity | exact R | exact I] |].
    set (dt := x :: data).
    assert (P0 : good s tr s [EvSend (i_nop s) dt]) by (apply good_neutral; [reflexivity | exact R | exact I]).
    destruct a as [n | |].
    + set (w := taken n dt).
      assert (P1 : good s tr s ([EvSend (i_nop s) dt] ++ [EvWrote (i_nop s) w])).
      { eapply good_trans; [exact P0 |]. apply good_neutral; [reflexivity | exact (proj1 P0) |].
        exact (not_ended _ _ (proj1 P0)). }
      destruct (length w =? length dt).
      * change [EvSend (i_nop s) dt; EvWrote (i_nop s) w; EvEnd (i_nop s) Sent]
          with (([EvSend (i_nop s) dt] ++ [EvWrote (i_nop s) w]) ++ [EvEnd (i_nop s) Sent]).
        eapply good_trans; [exact P1 |]. apply good_one.
        -- apply rel_at_once. exact (proj1 P1).
        -- split; [exact (not_ended _ _ (proj1 P1)) |]. right. intros h X.
           destruct (r_wait _ _ (proj1 P1) _ _ X) as [Y _]. lia.
      * change [EvSend (i_nop s) dt; EvWrote (i_nop s) w; EvAdd fd Wr (i_next s); EvWait (i_nop s) (i_next s)]
          with (([EvSend (i_nop s) dt] ++ [EvWrote (i_nop s) w]) ++ [EvAdd fd Wr (i_next s); EvWait (i_nop s) (i_next s)]).
        eapply good_trans; [exact P1 |]. exact (good_wait s _ fd Wr dt (length w) (proj1 P1)).
    + change [EvSend (i_nop s) dt; EvAdd fd Wr (i_next s); EvWait (i_nop s) (i_next s)]
        with ([EvSend (i_nop s) dt] ++ [EvAdd fd Wr (i_next s); EvWait (i_nop s) (i_next s)]).
      eapply good_trans; [exact P0 |]. exact (good_wait s _ fd Wr dt 0 (proj1 P0)).
    + apply good_neutral; [reflexivity | exact R | exact I].
  - destruct (o <? i_nop s) eqn:L; [| apply good_nil; exact R]. apply Nat.ltb_lt in L.
    unfold cancel_op. destruct (is_done (o_state (i_op s o))) eqn:D; [apply good_nil; exact R |].
    apply good_one; [apply rel_finish; [exact R | exact L | exact D | reflexivity] |].
    split; [| left; reflexivity]. intros X. apply (r_ended _ _ R o L) in X. congruence.
Qed.

Lemma run_good l : forall s tr, rel s tr -> let '(s', evs) := run s l in good s tr s' evs.
Proof.
  induction l as [| a l IH]; intros s tr R; cbn [run].
  - apply good_nil; exact R.
  - pose proof (step_good s tr a R) as P1. destruct (step s a) as [s1 ev1].
    pose proof (IH s1 (tr ++ ev1) (proj1 P1)) as P2. destruct (run s1 l) as [s2 ev2].
    eapply good_trans; eassumption.
Qed.

Lemma reach l s tr : run io_init l = (s, tr) -> rel s tr /\ oks [] tr.
Proof. intros H. pose proof (run_good l io_init [] rel_init) as P. rewrite H in P. exact P. Qed.

(** Everything that is seen is allowed by what was seen before. *)
Lemma all_allowed l s tr tr1 e tr2 : run io_init l = (s, tr) -> tr = tr1 ++ e :: tr2 -> allowed tr1 e.
Proof.
  intros H E. destruct (reach l s tr H) as [_ K]. exact (oks_at tr [] tr1 e tr2 K E).
Qed.

(** * Callbacks *)

Lemma runs_live l s tr tr1 h tr2 : run io_init l = (s, tr) -> tr = tr1 ++ EvRan h :: tr2 -> live tr1 h.
Proof. intros H E. exact (all_allowed _ _ _ _ _ _ H E). Qed.

Lemma skipped_dead l s tr tr1 h tr2 : run io_init l = (s, tr) -> tr = tr1 ++ EvSkipped h :: tr2 -> ~ live tr1 h.
Proof. intros H E. exact (all_allowed _ _ _ _ _ _ H E). Qed.

Definition handles (l : list item) : list nat :=
  flat_map (fun i => match i with IHandle h => [h] | IDone _ => [] end) l.

Lemma queued_app a b : queued (a ++ b) = queued a ++ queued b.
Proof. apply flat_map_app. Qed.

Lemma served_app a b : served (a ++ b) = served a ++ served b.
Proof. apply flat_map_app. Qed.

Lemma handles_app a b : handles (a ++ b) = handles a ++ handles b.
Proof. apply flat_map_app. Qed.

Lemma remove_ready s fd sd : i_ready (fst (remove s fd sd)) = i_ready s.
Proof.
  destruct sd; unfold remove, remove_reader, remove_writer; (destruct (i_sel s fd) as [k |]; [| reflexivity]).
  - destruct (k_write k), (k_reader k); reflexivity.
  - destruct (k_read k), (k_writer k); reflexivity.
Qed.

Lemma add_ready s fd sd c : i_ready (add s fd sd c) = i_ready s.
Proof.
  destruct sd; unfold add, add_reader, add_writer, new_handle, set_sel; cbn [i_sel]; (destruct (i_sel s fd) as [k |]; [| reflexivity]).
  - destruct (k_reader k); reflexivity.
  - destruct (k_writer k); reflexivity.
Qed.

Lemma poll_one_ready s fd mr mw : let '(s', evs) := poll_one s fd mr mw in
  handles (i_ready s') = handles (i_ready s) ++ queued evs /\ served evs = [].
Proof.
  rewrite poll_one_sides. unfold poll_side. set (a := reg s fd Rd). set (b := reg s fd Wr).
  assert (Sd : forall s0 sd o m, let '(s', evs) := poll_side s0 fd sd o m in
     handles (i_ready s') = handles (i_ready s0) ++ queued evs /\ served evs = []).
  { intros s0 sd o m. unfold poll_side. destruct o as [h |]; [| cbn; rewrite app_nil_r; split; reflexivity].
    destruct m; [| cbn; rewrite app_nil_r; split; reflexivity].
    destruct (h_cancelled (i_handle s0 h)).
    - pose proof (remove_ready s0 fd sd) as Q. destruct (remove s0 fd sd) as [s' r]. cbn in Q |- *. rewrite Q, app_nil_r. split; reflexivity.
    - cbn. rewrite handles_app. split; reflexivity. }
  pose proof (Sd s Rd a mr) as P1. unfold poll_side in P1.
  destruct (match a with Some h => _ | None => _ end) as [s1 ev1]. destruct P1 as [P1 Q1].
  pose proof (Sd s1 Wr b mw) as P2. unfold poll_side in P2.
  destruct (match b with Some h => _ | None => _ end) as [s2 ev2]. destruct P2 as [P2 Q2].
  rewrite queued_app, served_app, P2, P1, Q1, Q2, app_assoc. split; reflexivity.
Qed.

Lemma poll_ready reports : forall s, let '(s', evs) := poll s reports in
  handles (i_ready s') = handles (i_ready s) ++ queued evs /\ served evs = [].
Proof.
  induction reports as [| [fd [mr mw]] rest IH]; intros s; cbn [poll].
  - cbn. rewrite app_nil_r. split; reflexivity.
  - pose proof (poll_one_ready s fd mr mw) as P1. destruct (poll_one s fd mr mw) as [s1 ev1].
    pose proof (IH s1) as P2. destruct (poll s1 rest) as [s2 ev2]. destruct P1 as [P1 Q1], P2 as [P2 Q2].
    rewrite queued_app, served_app, P2, P1, Q1, Q2, app_assoc. split; reflexivity.
Qed.

Lemma finish_ready s o r : handles (i_ready (finish s o r)) = handles (i_ready s).
Proof. cbn. rewrite handles_app. cbn. apply app_nil_r. Qed.

Lemma end_ready s o r fd sd : handles (i_ready (fst (remove (finish s o r) fd sd))) = handles (i_ready s).
Proof. rewrite remove_ready. apply finish_ready. Qed.

Lemma on_readable_ready s o a : let '(s', evs) := on_readable s o a in
  handles (i_ready s') = handles (i_ready s) /\ queued evs = [] /\ served evs = [].
Proof.
  unfold on_readable. destruct (is_done _); [repeat split |]. destruct a as [d | |]; [| repeat split |].
  - pose proof (end_ready s o (Result d) (o_fd (i_op s o)) Rd) as P. cbn [remove] in P.
    destruct (remove_reader _ _) as [s' b]. repeat split. exact P.
  - pose proof (end_ready s o Failed (o_fd (i_op s o)) Rd) as P. cbn [remove] in P.
    destruct (remove_reader _ _) as [s' b]. repeat split. exact P.
Qed.

Lemma on_writable_ready s o a : let '(s', evs) := on_writable s o a in
  handles (i_ready s') = handles (i_ready s) /\ queued evs = [] /\ served evs = [].
Proof.
  unfold on_writable. destruct (is_done _); [repeat split |]. destruct a as [n | |]; [| repeat split |].
  - destruct (negb _); [repeat split |].
    pose proof (end_ready s o Sent (o_fd (i_op s o)) Wr) as P. cbn [remove] in P.
    destruct (remove_writer _ _) as [s' b]. repeat split. exact P.
  - pose proof (end_ready s o Failed (o_fd (i_op s o)) Wr) as P. cbn [remove] in P.
    destruct (remove_writer _ _) as [s' b]. repeat split. exact P.
Qed.

Lemma step_queue s a : let '(s', evs) := step s a in
  handles (i_ready s) ++ queued evs = served evs ++ handles (i_ready s').
Proof.
  destruct a; cbn [step].
  - change (add_reader s fd (CUser n)) with (add s fd Rd (CUser n)). rewrite add_ready. cbn. apply app_nil_r.
  - change (add_writer s fd (CUser n)) with (add s fd Wr (CUser n)). rewrite add_ready. cbn. apply app_nil_r.
  - pose proof (remove_ready s fd Rd) as P. cbn [remove] in P. destruct (remove_reader s fd) as [s' b]. cbn in P |- *.
    rewrite P. apply app_nil_r.
  - pose proof (remove_ready s fd Wr) as P. cbn [remove] in P. destruct (remove_writer s fd) as [s' b]. cbn in P |- *.
    rewrite P. apply app_nil_r.
  - destruct (_ && _); cbn; apply app_nil_r.
  - pose proof (poll_ready reports s) as P. destruct (poll s reports) as [s' evs]. destruct P as [P ->].
    symmetry. exact P.
  - unfold run_one. destruct (i_ready s) as [| [h | o] rest] eqn:E.
    + cbn. rewrite E. reflexivity.
    + destruct (h_cancelled _).
      * cbn. apply (f_equal (cons h)). apply app_nil_r.
      * destruct (h_cb _) as [n | o | o].
        -- cbn. apply (f_equal (cons h)). apply app_nil_r.
        -- pose proof (on_readable_ready (pop s rest) o ra) as P. destruct (on_readable (pop s rest) o ra) as [s' evs].
           destruct P as (P & Q1 & Q2). cbn [queued served flat_map]. fold (queued evs). fold (served evs).
           rewrite Q1, Q2, P. cbn. apply (f_equal (cons h)). apply app_nil_r.
        -- pose proof (on_writable_ready (pop s rest) o sa) as P. destruct (on_writable (pop s rest) o sa) as [s' evs].
           destruct P as (P & Q1 & Q2). cbn [queued served flat_map]. fold (queued evs). fold (served evs).
           rewrite Q1, Q2, P. cbn. apply (f_equal (cons h)). apply app_nil_r.
    + rewrite on_done_sides. destruct (o_handle _) as [n |]; [| cbn; apply app_nil_r].
      destruct (h_cancelled _); [cbn; apply app_nil_r |]. cbn zeta.
      set (sd := h_side _). set (fd := o_fd _).
      pose proof (remove_ready (pop s rest) fd sd) as P. destruct (remove (pop s rest) fd sd) as [s' b].
      cbn in P |- *. rewrite P. apply app_nil_r.
  - unfold receive. destruct a as [d | |]; try (cbn; apply app_nil_r).
    cbn [new_op i_ready]. change (add_reader s fd (CRecv (i_nop s))) with (add s fd Rd (CRecv (i_nop s))).
    rewrite add_ready. cbn. apply app_nil_r.
  - unfold send_all. destruct data as [| x data]; [cbn; apply app_nil_r |].
    destruct a as [n | |]; try (cbn; apply app_nil_r).
    + destruct (_ =? _); [cbn; apply app_nil_r |].
      cbn [new_op i_ready]. change (add_writer s fd (CSend (i_nop s))) with (add s fd Wr (CSend (i_nop s))).
      rewrite add_ready. cbn. apply app_nil_r.
    + cbn [new_op i_ready]. change (add_writer s fd (CSend (i_nop s))) with (add s fd Wr (CSend (i_nop s))).
      rewrite add_ready. cbn. apply app_nil_r.
  - destruct (o <? i_nop s); [| cbn; apply app_nil_r]. unfold cancel_op. destruct (is_done _); [cbn; apply app_nil_r |].
    rewrite finish_ready. cbn. apply app_nil_r.
Qed.

Lemma run_queue l : forall s, let '(s', evs) := run s l in
  handles (i_ready s) ++ queued evs = served evs ++ handles (i_ready s').
Proof.
  induction l as [| a l IH]; intros s; cbn [run].
  - cbn. apply app_nil_r.
  - pose proof (step_queue s a) as P1. destruct (step s a) as [s1 ev1]. pose proof (IH s1) as P2.
    destruct (run s1 l) as [s2 ev2]. rewrite queued_app, served_app, app_assoc, P1, <- app_assoc, P2, app_assoc. reflexivity.
Qed.

(** Callbacks are served in the order they got ready, each once. *)
Lemma queue_order l s tr : run io_init l = (s, tr) -> queued tr = served tr ++ handles (i_ready s).
Proof. intros H. pose proof (run_queue l io_init) as P. rewrite H in P. exact P. Qed.

(** What the selector reports gets ready. *)
Lemma cancelled_in_true tr h : cancelled_in tr h = true <-> In (EvCancelled h) tr.
Proof.
  unfold cancelled_in. rewrite existsb_exists. split.
  - intros (e & I & Q). destruct e; try discriminate. apply Nat.eqb_eq in Q. subst. exact I.
  - intros I. exists (EvCancelled h). split; [exact I | apply Nat.eqb_refl].
Qed.

Lemma cancelled_alive s tr fd sd h : rel s tr -> reg s fd sd = Some h -> h_cancelled (i_handle s h) = cancelled_in tr h.
Proof.
  intros R G. destruct (r_own _ _ R _ _ _ G) as (L & F1 & F2). pose proof (r_alive _ _ R h L) as A. rewrite F1, F2 in A.
  destruct (cancelled_in tr h) eqn:C.
  - apply cancelled_in_true in C. destruct (h_cancelled _); [reflexivity |]. destruct (proj1 A eq_refl) as [_ X]. contradiction.
  - apply A. split; [exact G |]. intros X. apply cancelled_in_true in X. congruence.
Qed.

Definition report_side (tr : list event) (fd : nat) (sd : side) (m : bool) : list nat :=
  match registered tr fd sd with
  | Some h => if m && negb (cancelled_in tr h) then [h] else []
  | None => []
  end.

Lemma poll_side_report s tr fd sd m : rel s tr ->
  let '(s', evs) := poll_side s fd sd (reg s fd sd) m in queued evs = report_side tr fd sd m.
Proof.
  intros R. unfold report_side, poll_side. rewrite <- (r_reg _ _ R). destruct (reg s fd sd) as [h |] eqn:G; [| reflexivity].
  rewrite (cancelled_alive _ _ _ _ _ R G). destruct m; [| reflexivity]. cbn [andb].
  destruct (cancelled_in tr h); cbn [negb]; [| reflexivity]. destruct (remove s fd sd); reflexivity.
Qed.

(** Polling one descriptor adds no cancellation and touches no other descriptor. *)
Lemma poll_side_events s fd sd o m : let '(s', evs) := poll_side s fd sd o m in
  forall tr h fd' sd', (cancelled_in (tr ++ evs) h = cancelled_in tr h) /\
    (fd' <> fd \/ sd' <> sd -> registered (tr ++ evs) fd' sd' = registered tr fd' sd').
Proof.
  unfold poll_side. destruct o as [n |]; [| intros; rewrite app_nil_r; split; reflexivity].
  destruct m; [| intros; rewrite app_nil_r; split; reflexivity].
  destruct (h_cancelled _).
  - destruct (remove s fd sd) as [s' b]. intros tr h fd' sd'. split.
    + unfold cancelled_in. rewrite existsb_app. cbn. apply orb_false_r.
    + intros D. rewrite registered_app. cbn. replace (same fd' sd' fd sd) with false; [reflexivity |].
      symmetry. apply same_neq. tauto.
  - intros tr h fd' sd'. split.
    + unfold cancelled_in. rewrite existsb_app. cbn. apply orb_false_r.
    + intros D. rewrite registered_app. reflexivity.
Qed.

Lemma poll_one_report s tr fd mr mw : rel s tr ->
  let '(s', evs) := poll_one s fd mr mw in
  queued evs = reported tr (fd, (mr, mw)) /\
  forall h fd' sd', cancelled_in (tr ++ evs) h = cancelled_in tr h /\
    (fd' <> fd -> registered (tr ++ evs) fd' sd' = registered tr fd' sd').
Proof.
  intros R. rewrite poll_one_sides.
  pose proof (poll_side_report s tr fd Rd mr R) as A1. pose proof (poll_side_good s tr fd Rd mr R) as B1.
  pose proof (poll_side_events s fd Rd (reg s fd Rd) mr) as C1.
  destruct (poll_side s fd Rd (reg s fd Rd) mr) as [s1 ev1]. destruct B1 as (G1 & K1 & _).
  assert (R1 : rel s1 (tr ++ ev1)) by exact (proj1 G1).
  pose proof (poll_side_report s1 (tr ++ ev1) fd Wr mw R1) as A2. rewrite (K1 fd Wr) in A2 by discriminate.
  pose proof (poll_side_events s1 fd Wr (reg s fd Wr) mw) as C2.
  destruct (poll_side s1 fd Wr (reg s fd Wr) mw) as [s2 ev2].
  split.
  - rewrite queued_app, A1, A2. unfold reported, report_side; cbn [fst snd]. apply f_equal.
    destruct (C1 tr 0 fd Wr) as [_ Q]. rewrite Q by (right; discriminate).
    destruct (registered tr fd Wr) as [h |]; [| reflexivity]. rewrite (proj1 (C1 tr h fd Wr)). reflexivity.
  - intros h fd' sd'. rewrite app_assoc. destruct (C2 (tr ++ ev1) h fd' sd') as [X Y]. destruct (C1 tr h fd' sd') as [X' Y'].
    split; [congruence |]. intros D. rewrite Y, Y' by tauto. reflexivity.
Qed.

Lemma poll_report reports : forall s tr, rel s tr -> NoDup (map fst reports) ->
  let '(s', evs) := poll s reports in queued evs = flat_map (reported tr) reports.
Proof.
  induction reports as [| [fd [mr mw]] rest IH]; intros s tr R D; cbn [poll]; [reflexivity |].
  cbn in D. apply NoDup_cons_iff in D as [Ni D].
  pose proof (poll_one_report s tr fd mr mw R) as P1. pose proof (poll_one_good s tr fd mr mw R) as G1.
  destruct (poll_one s fd mr mw) as [s1 ev1]. destruct P1 as [A1 C1].
  pose proof (IH s1 (tr ++ ev1) (proj1 G1) D) as P2. destruct (poll s1 rest) as [s2 ev2].
  rewrite queued_app, A1, P2. cbn [flat_map]. apply f_equal.
  assert (E : forall l, (forall x, In x l -> fst x <> fd) -> flat_map (reported (tr ++ ev1)) l = flat_map (reported tr) l).
  { induction l as [| [f [a b]] l IHl]; intros X; [reflexivity |]. cbn [flat_map].
    assert (Q : f <> fd) by (apply (X (f, (a, b))); left; reflexivity).
    rewrite IHl by (intros x Y; apply X; right; exact Y). apply (f_equal (fun z => z ++ _)).
    unfold reported; cbn [fst snd].
    rewrite (proj2 (C1 0 f Rd) Q), (proj2 (C1 0 f Wr) Q).
    destruct (registered tr f Rd) as [h |]; destruct (registered tr f Wr) as [h' |]; try reflexivity;
      rewrite ?(proj1 (C1 h f Rd)), ?(proj1 (C1 h' f Rd)); reflexivity. }
  apply E. intros x Y Z. apply Ni. rewrite <- Z. apply in_map. exact Y.
Qed.

Lemma report l s tr reports : run io_init l = (s, tr) -> NoDup (map fst reports) ->
  queued (snd (step s (OPoll reports))) = flat_map (reported tr) reports.
Proof.
  intros H D. destruct (reach l s tr H) as [R _]. pose proof (poll_report reports s tr R D) as P. cbn [step].
  destruct (poll s reports) as [s' evs]. exact P.
Qed.

(** * Registration *)

Lemma remove_tells l s tr tr1 w fd sd b tr2 :
  run io_init l = (s, tr) -> tr = tr1 ++ EvRemove w fd sd b :: tr2 -> (b = true <-> registered tr1 fd sd <> None).
Proof. intros H E. exact (proj1 (all_allowed _ _ _ _ _ _ H E)). Qed.

Lemma removes_own l s tr tr1 w fd sd b tr2 :
  run io_init l = (s, tr) -> tr = tr1 ++ EvRemove w fd sd b :: tr2 -> may_remove tr1 w fd sd.
Proof. intros H E. exact (proj2 (all_allowed _ _ _ _ _ _ H E)). Qed.

Lemma handles_fresh l s tr tr1 fd sd h tr2 fd' sd' :
  run io_init l = (s, tr) -> tr = tr1 ++ EvAdd fd sd h :: tr2 -> ~ In (EvAdd fd' sd' h) tr1.
Proof. intros H E. exact (all_allowed _ _ _ _ _ _ H E fd' sd'). Qed.

Lemma registered_added tr fd sd h : registered tr fd sd = Some h -> In (EvAdd fd sd h) tr.
Proof.
  induction tr as [| e tr IH] using rev_ind; [discriminate |]. rewrite registered_app. intros H. apply in_snoc.
  destruct e; cbn in H; try (left; exact (IH H)).
  - destruct (same fd sd fd0 s) eqn:Q; [| left; exact (IH H)]. apply same_eq in Q as [<- <-]. injection H as ->. right. reflexivity.
  - destruct (same fd sd fd0 s); [discriminate | left; exact (IH H)].
Qed.

(** Once replaced, removed or cancelled, a callback stays so. *)
Lemma stays_dead evs : forall tr fd sd h, oks tr evs -> In (EvAdd fd sd h) tr -> ~ live tr h -> ~ live (tr ++ evs) h.
Proof.
  induction evs as [| e evs IH]; intros tr fd sd h K A D; [rewrite app_nil_r; exact D |].
  cbn in K. destruct K as [Ae K]. replace (tr ++ e :: evs) with ((tr ++ [e]) ++ evs) by (rewrite <- app_assoc; reflexivity).
  apply (IH (tr ++ [e]) fd sd h K); [apply in_snoc; left; exact A |].
  intros [(fd' & sd' & X) Y]. apply D. split; [| intros Z; apply Y; apply in_snoc; left; exact Z].
  rewrite registered_app in X. destruct e; cbn in X; try (exists fd', sd'; exact X).
  - destruct (same fd' sd' fd0 s); [| exists fd', sd'; exact X]. injection X as ->. exfalso. exact (Ae fd sd A).
  - destruct (same fd' sd' fd0 s); [discriminate | exists fd', sd'; exact X].
Qed.

Lemma oks_split tr1 tr2 : oks [] (tr1 ++ tr2) -> oks tr1 tr2.
Proof. intros K. apply oks_app in K as [_ K]. exact K. Qed.

Lemma never_again l s tr tr1 tr2 fd sd h :
  run io_init l = (s, tr) -> tr = tr1 ++ tr2 -> In (EvAdd fd sd h) tr1 -> ~ live tr1 h -> ~ In (EvRan h) tr2.
Proof.
  intros H E A D X. destruct (reach l s tr H) as [_ K]. apply in_split in X as (t1 & t2 & ->).
  subst tr. assert (L : live (tr1 ++ t1) h).
  { eapply (runs_live l s _ (tr1 ++ t1) h t2 H). rewrite <- app_assoc. reflexivity. }
  revert L. eapply stays_dead; [| exact A | exact D]. apply oks_split. rewrite app_assoc in K. apply oks_app in K. exact (proj1 K).
Qed.

(** * Operations *)

Lemma quiet_after_end l s tr tr1 o r tr2 :
  run io_init l = (s, tr) -> tr = tr1 ++ EvEnd o r :: tr2 ->
  forall d r', ~ In (EvRead o d) tr2 /\ ~ In (EvWrote o d) tr2 /\ ~ In (EvEnd o r') tr2.
Proof.
  intros H E d r'.
  assert (X : forall e, In e tr2 -> exists t, In (EvEnd o r) t /\ allowed t e).
  { intros e I. apply in_split in I as (a & b & ->). exists (tr1 ++ EvEnd o r :: a). split; [apply in_app_iff; right; left; reflexivity |].
    eapply (all_allowed l s tr _ e b H). rewrite E, <- app_assoc. reflexivity. }
  repeat split; intros I; destruct (X _ I) as (t & A & B); cbn in B; [| | destruct B as [B _]]; apply B; exists r; exact A.
Qed.

Lemma nothing_left l s tr o h :
  run io_init l = (s, tr) -> i_ready s = [] -> ended tr o -> In (EvWait o h) tr ->
  forall fd sd, registered tr fd sd <> Some h.
Proof.
  intros H Q E W fd sd G. destruct (reach l s tr H) as [R _]. destruct (r_wait _ _ R _ _ W) as [L Ho].
  destruct (r_left _ _ R o h L (proj2 (r_ended _ _ R o L) E) Ho) as [X | X]; [rewrite Q in X; contradiction |].
  destruct (r_op _ _ R o h L Ho) as (Lh & _ & Cb & _).
  rewrite <- (r_reg _ _ R) in G. rewrite (cancelled_alive _ _ _ _ _ R G) in X. apply cancelled_in_true in X.
  apply (r_cancel _ _ R) in X as [_ U]. destruct Cb as [C | C]; rewrite C in U; discriminate U.
Qed.

Lemma superseded l s tr o h l' s' tr' :
  run io_init l = (s, tr) -> In (EvWait o h) tr -> ~ live tr h -> run s l' = (s', tr') ->
  forall r, In (EvEnd o r) tr' -> r = Cancelled.
Proof.
  intros H W D H' r I. destruct (reach l s tr H) as [R K]. pose proof (run_good l' s tr R) as P. rewrite H' in P.
  destruct P as [_ K']. apply in_split in I as (a & b & ->).
  pose proof (oks_at _ tr a (EvEnd o r) b K' eq_refl) as [_ [X | X]]; [exact X |].
  exfalso. assert (L : live (tr ++ a) h) by (apply X; apply in_app_iff; left; exact W).
  destruct (r_wait _ _ R _ _ W) as [Lo Ho]. destruct (r_op _ _ R o h Lo Ho) as (Lh & _).
  (* the handle was added *)
  assert (A : exists fd sd, In (EvAdd fd sd h) (tr ++ a)).
  { destruct L as [(fd & sd & G) _]. exists fd, sd. apply registered_added. exact G. }
  apply oks_app in K' as [Ka _].
  destruct A as (fd & sd & A). apply in_app_iff in A as [A | A].
  - revert L. eapply stays_dead; eassumption.
  - apply in_split in A as (a1 & a2 & ->). pose proof (run_good l' s tr R) as P. rewrite H' in P. destruct P as [_ K''].
    clear Ka. (* a later registration has a newer handle *)
    assert (N : forall evs s0 t0 l0 s1, rel s0 t0 -> run s0 l0 = (s1, evs) -> forall f d g, In (EvAdd f d g) evs -> i_next s0 <= g).
    { clear. intros evs s0 t0 l0. revert evs s0 t0.
      assert (Mono : forall s0 t0 a0, rel s0 t0 -> i_next s0 <= i_next (fst (step s0 a0)) /\
         forall f d g, In (EvAdd f d g) (snd (step s0 a0)) -> i_next s0 <= g).
      { intros s0 t0 a0 R0.
        assert (Nr : forall sx fd sd, i_next (fst (remove sx fd sd)) = i_next sx).
        { intros sx fd sd. destruct sd; unfold remove, remove_reader, remove_writer; (destruct (i_sel sx fd) as [k |]; [| reflexivity]).
          - destruct (k_write k), (k_reader k); reflexivity.
          - destruct (k_read k), (k_writer k); reflexivity. }
        assert (Na : forall fd sd c, i_next (add s0 fd sd c) = S (i_next s0)).
        { intros fd sd c. destruct (add_eff s0 fd sd c (r_wf _ _ R0)); [| assumption].
          intros h H. apply (r_own _ _ R0) in H. lia. }
        assert (Np : forall rs sx, i_next (fst (poll sx rs)) = i_next sx /\ forall f d g, ~ In (EvAdd f d g) (snd (poll sx rs))).
        { assert (Ns : forall sx fd sd o m, i_next (fst (poll_side sx fd sd o m)) = i_next sx /\
             forall f d g, ~ In (EvAdd f d g) (snd (poll_side sx fd sd o m))).
          { intros sx fd sd o m. unfold poll_side. destruct o as [h |]; [| cbn; tauto]. destruct m; [| cbn; tauto].
            destruct (h_cancelled _).
            - pose proof (Nr sx fd sd) as Q. destruct (remove sx fd sd) as [s' b]. cbn in Q |- *. split; [exact Q |].
              intros f d g [X | []]. discriminate X.
            - cbn. split; [reflexivity |]. intros f d g [X | []]. discriminate X. }
          induction rs as [| [fd [mr mw]] rs IH]; intros sx; cbn [poll]; [cbn; tauto |].
          rewrite poll_one_sides. pose proof (Ns sx fd Rd (reg sx fd Rd) mr) as N1.
          destruct (poll_side sx fd Rd (reg sx fd Rd) mr) as [s1 ev1].
          pose proof (Ns s1 fd Wr (reg sx fd Wr) mw) as N2. destruct (poll_side s1 fd Wr (reg sx fd Wr) mw) as [s2 ev2].
          pose proof (IH s2) as N3. destruct (poll s2 rs) as [s3 ev3]. cbn in *. destruct N1 as [N1 M1], N2 as [N2 M2], N3 as [N3 M3].
          split; [congruence |]. intros f d g X. rewrite !in_app_iff in X. firstorder. }
        destruct a0; cbn [step].
        - cbn [fst snd]. change (add_reader s0 fd (CUser n)) with (add s0 fd Rd (CUser n)). rewrite Na. split; [lia |].
          intros f d g [X | []]. injection X as _ _ <-. lia.
        - cbn [fst snd]. change (add_writer s0 fd (CUser n)) with (add s0 fd Wr (CUser n)). rewrite Na. split; [lia |].
          intros f d g [X | []]. injection X as _ _ <-. lia.
        - pose proof (Nr s0 fd Rd) as Q. cbn [remove] in Q. destruct (remove_reader s0 fd) as [s' b]. cbn in Q |- *.
          split; [lia |]. intros f d g [X | []]. discriminate X.
        - pose proof (Nr s0 fd Wr) as Q. cbn [remove] in Q. destruct (remove_writer s0 fd) as [s' b]. cbn in Q |- *.
          split; [lia |]. intros f d g [X | []]. discriminate X.
        - destruct (_ && _); cbn; (split; [lia |]); [intros f d g [X | []]; discriminate X | tauto].
        - destruct (Np reports s0) as [Q1 Q2]. split; [lia |]. intros f d g X. exfalso. exact (Q2 f d g X).
        - unfold run_one. destruct (i_ready s0) as [| [h | o] rest]; [cbn; split; [lia | tauto] | |].
          + destruct (h_cancelled _); [cbn; split; [lia |]; intros f d g [X | []]; discriminate X |].
            destruct (h_cb _) as [n | o | o]; [cbn; split; [lia |]; intros f d g [X | []]; discriminate X | |].
            * unfold on_readable. destruct (is_done _); [cbn; split; [lia |]; intros f d g [X | []]; discriminate X |].
              destruct ra as [dd | |]; [| cbn; split; [lia |]; intros f d g [X | []]; discriminate X |].
              -- pose proof (Nr (finish (pop s0 rest) o (Result dd)) (o_fd (i_op (pop s0 rest) o)) Rd) as Q. cbn [remove] in Q.
                 destruct (remove_reader _ _) as [s' b]. cbn in Q |- *. split; [lia |].
                 intros f d g X. repeat (destruct X as [X | X]; [discriminate X |]). contradiction.
              -- pose proof (Nr (finish (pop s0 rest) o Failed) (o_fd (i_op (pop s0 rest) o)) Rd) as Q. cbn [remove] in Q.
                 destruct (remove_reader _ _) as [s' b]. cbn in Q |- *. split; [lia |].
                 intros f d g X. repeat (destruct X as [X | X]; [discriminate X |]). contradiction.
            * unfold on_writable. destruct (is_done _); [cbn; split; [lia |]; intros f d g [X | []]; discriminate X |].
              destruct sa as [nn | |]; [| cbn; split; [lia |]; intros f d g [X | []]; discriminate X |].
              -- destruct (negb _).
                 ++ cbn. split; [lia |]. intros f d g X. repeat (destruct X as [X | X]; [discriminate X |]). contradiction.
                 ++ pose proof (Nr (finish (pop s0 rest) o Sent) (o_fd (i_op (pop s0 rest) o)) Wr) as Q. cbn [remove] in Q.
                    destruct (remove_writer _ _) as [s' b]. cbn in Q |- *. split; [lia |].
                    intros f d g X. repeat (destruct X as [X | X]; [discriminate X |]). contradiction.
              -- pose proof (Nr (finish (pop s0 rest) o Failed) (o_fd (i_op (pop s0 rest) o)) Wr) as Q. cbn [remove] in Q.
                 destruct (remove_writer _ _) as [s' b]. cbn in Q |- *. split; [lia |].
                 intros f d g X. repeat (destruct X as [X | X]; [discriminate X |]). contradiction.
          + rewrite on_done_sides. destruct (o_handle _) as [n |]; [| cbn; split; [lia | tauto]].
            destruct (h_cancelled _); [cbn; split; [lia | tauto] |]. cbn zeta. set (sd := h_side _). set (fd := o_fd _).
            pose proof (Nr (pop s0 rest) fd sd) as Q. destruct (remove (pop s0 rest) fd sd) as [s' b]. cbn in Q |- *.
            split; [lia |]. intros f d g [X | []]. discriminate X.
        - unfold receive. destruct a as [d | |]; try (cbn; split; [lia |]; intros f d' g [X | []]; discriminate X).
          cbn [fst snd new_op i_next]. change (add_reader s0 fd (CRecv (i_nop s0))) with (add s0 fd Rd (CRecv (i_nop s0))).
          rewrite Na. split; [lia |]. intros f d g X. destruct X as [X | [X | []]]; [injection X as _ _ <-; lia | discriminate X].
        - unfold send_all. destruct data as [| x data]; [cbn; split; [lia |]; intros f d' g [X | []]; discriminate X |].
          destruct a as [n | |]; [| | cbn; split; [lia |]; intros f d' g [X | []]; discriminate X].
          + destruct (_ =? _).
            * cbn. split; [lia |]. intros f d g X. repeat (destruct X as [X | X]; [discriminate X |]). contradiction.
            * cbn [fst snd new_op i_next]. change (add_writer s0 fd (CSend (i_nop s0))) with (add s0 fd Wr (CSend (i_nop s0))).
              rewrite Na. split; [lia |]. intros f d g X.
              repeat (destruct X as [X | X]; [first [discriminate X | injection X as _ _ <-; lia] |]). contradiction.
          + cbn [fst snd new_op i_next]. change (add_writer s0 fd (CSend (i_nop s0))) with (add s0 fd Wr (CSend (i_nop s0))).
            rewrite Na. split; [lia |]. intros f d g X.
            repeat (destruct X as [X | X]; [first [discriminate X | injection X as _ _ <-; lia] |]). contradiction.
        - destruct (o <? i_nop s0); [| cbn; split; [lia | tauto]]. unfold cancel_op. destruct (is_done _); [cbn; split; [lia | tauto] |].
          cbn. split; [lia |]. intros f d g [X | []]. discriminate X. }
      induction l0 as [| a0 l0 IH]; intros evs s0 t0 s1 R0 E f d g X; cbn [run] in E.
      - injection E as <- <-. contradiction.
      - pose proof (Mono s0 t0 a0 R0) as M. pose proof (step_good s0 t0 a0 R0) as G.
        destruct (step s0 a0) as [sx ex]. cbn [fst snd] in M. destruct M as [M1 M2].
        destruct (run sx l0) as [sy ey] eqn:E'. injection E as <- <-. apply in_app_iff in X as [X | X]; [exact (M2 _ _ _ X) |].
        pose proof (IH ey sx (t0 ++ ex) sy (proj1 G) E' _ _ _ X). lia. }
    assert (i_next s <= h).
    { eapply (N _ s tr l' s' R H'). apply in_app_iff. left. apply in_app_iff. right. left. reflexivity. }
    lia.
Qed.

(** When the turn of a waiting receive comes and the socket has data, it gets the data. *)
Lemma receives l s tr o h d sa :
  run io_init l = (s, tr) -> In (EvWait o h) tr -> ~ ended tr o -> (exists fd, registered tr fd Rd = Some h) ->
  let evs := snd (step s (ORun (RData d) sa)) in
  In (EvRan h) evs -> In (EvEnd o (Result d)) evs.
Proof.
  intros H W E (fd & G) evs I. destruct (reach l s tr H) as [R _]. destruct (r_wait _ _ R _ _ W) as [L Ho].
  destruct (r_op _ _ R o h L Ho) as (Lh & _ & Cb & _).
  assert (Sd : h_side (i_handle s h) = Rd) by (rewrite <- (r_reg _ _ R) in G; apply (r_own _ _ R) in G; tauto).
  assert (C : h_cb (i_handle s h) = CRecv o).
  { destruct Cb as [C | C]; [exact C |]. rewrite (proj2 (r_side _ _ R h o Lh) C) in Sd. discriminate. }
  unfold evs in *. cbn [step] in *. unfold run_one in *. destruct (i_ready s) as [| [h' | o'] rest]; [contradiction | |].
  - destruct (h_cancelled (i_handle (pop s rest) h')); [destruct I as [I | []]; discriminate |].
    assert (h' = h) as ->.
    { destruct (h_cb (i_handle (pop s rest) h')) as [n | q | q].
      - destruct I as [I | []]. injection I as ->. reflexivity.
      - pose proof (on_readable_ready (pop s rest) q (RData d)) as P. destruct (on_readable (pop s rest) q (RData d)) as [s' e].
        destruct P as (_ & _ & P). destruct I as [I | I]; [injection I as ->; reflexivity |].
        exfalso. apply in_split in I as (a & b & ->). rewrite served_app in P. apply app_eq_nil in P as [_ P]. discriminate P.
      - pose proof (on_writable_ready (pop s rest) q sa) as P. destruct (on_writable (pop s rest) q sa) as [s' e].
        destruct P as (_ & _ & P). destruct I as [I | I]; [injection I as ->; reflexivity |].
        exfalso. apply in_split in I as (a & b & ->). rewrite served_app in P. apply app_eq_nil in P as [_ P]. discriminate P. }
    change (i_handle (pop s rest) h) with (i_handle s h) in *. rewrite C in *. unfold on_readable.
    change (i_op (pop s rest) o) with (i_op s o) in *.
    destruct (is_done (o_state (i_op s o))) eqn:D; [exfalso; apply E; apply (r_ended _ _ R o L); exact D |].
    destruct (remove_reader _ _) as [s' b]. cbn. tauto.
  - exfalso. rewrite on_done_sides in I. destruct (o_handle _) as [n |]; [| contradiction].
    destruct (h_cancelled _); [contradiction |]. cbn zeta in I. destruct (remove _ _ _). destruct I as [I | []]. discriminate.
Qed.

(** * Sending *)

Lemma octets_concat_length data : octets data -> length (concat data) = length data.
Proof.
  induction 1 as [| x data E _ IH]; [reflexivity |]. cbn. rewrite app_length, E, IH. reflexivity.
Qed.

Lemma octets_skipn n data : octets data -> octets (skipn n data).
Proof.
  revert data. induction n as [| n IH]; intros data O; [exact O |]. destruct O; [constructor | cbn; apply IH; assumption].
Qed.

Lemma octets_firstn n data : octets data -> firstn n (concat data) = concat (firstn n data).
Proof.
  intros O. revert n. induction O as [| x data E _ IH]; intros n; [rewrite !firstn_nil; reflexivity |].
  destruct n as [| n]; [reflexivity |]. cbn [concat firstn]. destruct x as [| b [| c x]]; try discriminate E. cbn. rewrite IH. reflexivity.
Qed.

Lemma taken_octets n data : octets data ->
  taken n data = concat (firstn n data) /\ length (taken n data) = Nat.min n (length data).
Proof.
  intros O. unfold taken. split; [apply octets_firstn; exact O |]. rewrite firstn_length, octets_concat_length by exact O. reflexivity.
Qed.

Lemma firstn_more {A} (k n : nat) (l : list A) : firstn k l ++ firstn n (skipn k l) = firstn (k + n) l.
Proof.
  revert l. induction k as [| k IH]; intros l; [reflexivity |]. destruct l; cbn; [rewrite firstn_nil; reflexivity |].
  rewrite IH. reflexivity.
Qed.

Definition progress (s : io) (tr : list event) (o : nat) (data : list bytes) : Prop :=
  In (EvEnd o Sent) tr /\ wrote tr o = concat data \/
  ~ In (EvEnd o Sent) tr /\ o_start (i_op s o) < length data /\ wrote tr o = concat (firstn (o_start (i_op s o)) data).

Definition sent (s : io) (tr : list event) : Prop :=
  (forall o data, In (EvSend o data) tr -> octets data ->
     o < i_nop s /\ o_data (i_op s o) = data /\ progress s tr o data) /\
  (forall o w, In (EvWrote o w) tr -> o < i_nop s).

Definition unsent (e : event) : bool :=
  match e with EvSend _ _ | EvWrote _ _ => false | EvEnd _ Sent => false | _ => true end.

Lemma wrote_app a b o : wrote (a ++ b) o = wrote a o ++ wrote b o.
Proof. apply flat_map_app. Qed.

Lemma wrote_none evs o : forallb unsent evs = true -> wrote evs o = [].
Proof.
  intros H. induction evs as [| e evs IH]; [reflexivity |]. cbn in H. apply andb_true_iff in H as [H1 H2].
  unfold wrote in *. cbn [flat_map]. rewrite IH by exact H2. destruct e; try reflexivity. discriminate H1.
Qed.

Lemma unsent_not evs e : forallb unsent evs = true -> unsent e = false -> ~ In e evs.
Proof. intros H U I. rewrite forallb_forall in H. apply H in I. congruence. Qed.

Lemma sent_quiet s tr s' evs :
  forallb unsent evs = true -> i_nop s <= i_nop s' ->
  (forall o, o < i_nop s -> o_data (i_op s' o) = o_data (i_op s o) /\ o_start (i_op s' o) = o_start (i_op s o)) ->
  sent s tr -> sent s' (tr ++ evs).
Proof.
  intros U N P [A B].
  assert (Q : forall e, unsent e = false -> (In e (tr ++ evs) <-> In e tr)).
  { intros e Ue. rewrite in_app_iff. split; [| tauto]. intros [X | X]; [exact X | exfalso; exact (unsent_not _ _ U Ue X)]. }
  split.
  - intros o data I O. apply Q in I; [| reflexivity].
    destruct (A o data I O) as (L & D & G). destruct (P o L) as [P1 P2]. unfold progress in *.
    rewrite P1, P2, (Q (EvEnd o Sent) eq_refl), wrote_app, (wrote_none evs o U), app_nil_r.
    repeat split; try assumption; lia.
  - intros o w I. apply Q in I; [| reflexivity]. apply B in I. lia.
Qed.

Lemma remove_op s fd sd : i_op (fst (remove s fd sd)) = i_op s /\ i_nop (fst (remove s fd sd)) = i_nop s.
Proof.
  destruct sd; unfold remove, remove_reader, remove_writer; (destruct (i_sel s fd) as [k |]; [| split; reflexivity]).
  - destruct (k_write k), (k_reader k); split; reflexivity.
  - destruct (k_read k), (k_writer k); split; reflexivity.
Qed.

Lemma add_op s fd sd c : i_op (add s fd sd c) = i_op s /\ i_nop (add s fd sd c) = i_nop s.
Proof.
  destruct sd; unfold add, add_reader, add_writer, new_handle, set_sel; cbn [i_sel]; (destruct (i_sel s fd) as [k |]; [| split; reflexivity]).
  - destruct (k_reader k); split; reflexivity.
  - destruct (k_writer k); split; reflexivity.
Qed.

Lemma poll_op reports : forall s, let '(s', evs) := poll s reports in
  i_op s' = i_op s /\ i_nop s' = i_nop s /\ forallb unsent evs = true.
Proof.
  assert (Sd : forall s0 fd sd o m, let '(s', evs) := poll_side s0 fd sd o m in
     i_op s' = i_op s0 /\ i_nop s' = i_nop s0 /\ forallb unsent evs = true).
  { intros s0 fd sd o m. unfold poll_side. destruct o as [h |]; [| repeat split]. destruct m; [| repeat split].
    destruct (h_cancelled _); [| repeat split].
    pose proof (remove_op s0 fd sd) as [P Q]. destruct (remove s0 fd sd) as [s' b]. repeat split; assumption. }
  induction reports as [| [fd [mr mw]] rest IH]; intros s; cbn [poll]; [repeat split |].
  rewrite poll_one_sides. pose proof (Sd s fd Rd (reg s fd Rd) mr) as P1.
  destruct (poll_side s fd Rd (reg s fd Rd) mr) as [s1 ev1].
  pose proof (Sd s1 fd Wr (reg s fd Wr) mw) as P2. destruct (poll_side s1 fd Wr (reg s fd Wr) mw) as [s2 ev2].
  pose proof (IH s2) as P3. destruct (poll s2 rest) as [s3 ev3].
  destruct P1 as (A1 & B1 & C1), P2 as (A2 & B2 & C2), P3 as (A3 & B3 & C3).
  repeat split; try congruence. rewrite !forallb_app, C1, C2, C3. reflexivity.
Qed.

Lemma finish_op s o r : i_nop (finish s o r) = i_nop s /\
  forall o', o_data (i_op (finish s o r) o') = o_data (i_op s o') /\ o_start (i_op (finish s o r) o') = o_start (i_op s o').
Proof.
  split; [reflexivity |]. intros o'. cbn. destruct (Nat.eq_dec o' o) as [-> | D].
  - rewrite upd_same. split; reflexivity.
  - rewrite upd_other by exact D. split; reflexivity.
Qed.

Lemma sent_same s tr : sent s tr -> sent s (tr ++ []).
Proof. rewrite app_nil_r. tauto. Qed.

Lemma on_readable_sent s tr o a h : rel s tr -> h < i_next s -> h_cb (i_handle s h) = CRecv o -> sent s tr ->
  let '(s', evs) := on_readable s o a in sent s' (tr ++ evs).
Proof.
  intros R L Q X. unfold on_readable. destruct (is_done _); [apply sent_same; exact X |].
  destruct a as [d | |]; [| apply sent_same; exact X |].
  - pose proof (remove_op (finish s o (Result d)) (o_fd (i_op s o)) Rd) as [P1 P2]. cbn [remove] in *.
    destruct (remove_reader _ _) as [s' b]. cbn [fst] in *. destruct (finish_op s o (Result d)) as [F1 F2].
    eapply sent_quiet; [| | | exact X]; [reflexivity | rewrite P2, F1; lia | intros o' _; rewrite P1; apply F2].
  - pose proof (remove_op (finish s o Failed) (o_fd (i_op s o)) Rd) as [P1 P2]. cbn [remove] in *.
    destruct (remove_reader _ _) as [s' b]. cbn [fst] in *. destruct (finish_op s o Failed) as [F1 F2].
    eapply sent_quiet; [| | | exact X]; [reflexivity | rewrite P2, F1; lia | intros o' _; rewrite P1; apply F2].
Qed.

Lemma on_writable_sent s tr o a h : rel s tr -> h < i_next s -> h_cb (i_handle s h) = CSend o -> sent s tr ->
  let '(s', evs) := on_writable s o a in sent s' (tr ++ evs).
Proof.
  intros R L Q X. destruct (r_cb _ _ R h o L (or_intror Q)) as [Lo Ho].
  unfold on_writable. destruct (is_done (o_state (i_op s o))) eqn:D; [apply sent_same; exact X |].
  destruct a as [n | |]; [| apply sent_same; exact X |].
  - set (x := i_op s o) in *. set (w := taken n (skipn (o_start x) (o_data x))). set (start := o_start x + length w).
    assert (NE : ~ ended tr o) by (intros Y; apply (r_ended _ _ R o Lo) in Y; unfold x in D; congruence).
    destruct X as [A B].
    assert (Core : forall s' evs1,
       (evs1 = [] /\ start <> length (o_data x) /\ o_start (i_op s' o) = start \/
        (exists b, evs1 = [EvEnd o Sent; EvRemove (ByOp o) (o_fd x) Wr b]) /\ start = length (o_data x)) ->
       i_nop s' = i_nop s -> (forall o', o' <> o -> i_op s' o' = i_op s o') -> o_data (i_op s' o) = o_data x ->
       sent s' (tr ++ EvWrote o w :: evs1)).
    { intros s' evs1 Ev No Oth Dt.
      assert (Wz : forall o', wrote evs1 o' = []) by (intros o'; destruct Ev as [(-> & _) | [(b & ->) _]]; reflexivity).
      assert (Wa : forall o', wrote (tr ++ EvWrote o w :: evs1) o' = wrote tr o' ++ if o' =? o then w else []).
      { intros o'. rewrite wrote_app. apply f_equal. change (EvWrote o w :: evs1) with ([EvWrote o w] ++ evs1).
        rewrite wrote_app, Wz, app_nil_r. cbn. apply app_nil_r. }
      assert (Qs : forall e, unsent e = false -> (forall q, e <> EvWrote o q) -> (forall r, e <> EvEnd o r) ->
         (In e (tr ++ EvWrote o w :: evs1) <-> In e tr)).
      { intros e Ue Ne Ne'. rewrite in_app_iff. split; [| tauto]. intros [Y | Y]; [exact Y |]. exfalso.
        destruct Y as [Y | Y]; [exact (Ne w (eq_sym Y)) |]. destruct Ev as [(-> & _) | [(b & ->) _]]; [contradiction |].
        destruct Y as [Y | [Y | []]]; [exact (Ne' Sent (eq_sym Y)) | subst e; discriminate Ue]. }
      split.
      - intros o' data I O.
        assert (I' : In (EvSend o' data) tr) by (apply Qs in I; [exact I | reflexivity | discriminate | discriminate]).
        destruct (A o' data I' O) as (L' & Dd & G). rewrite No. split; [exact L' |]. unfold progress. rewrite Wa.
        destruct (Nat.eq_dec o' o) as [-> | Qo].
        + unfold progress in G. fold x in Dd, G. split; [rewrite Dt; exact Dd |]. rewrite Nat.eqb_refl.
          destruct G as [[G _] | (_ & B1 & W)]; [exfalso; apply NE; exists Sent; exact G |].
          destruct (taken_octets n (skipn (o_start x) data) (octets_skipn _ _ O)) as [T1 T2].
          rewrite skipn_length in T2.
          assert (Ww : w = taken n (skipn (o_start x) data)) by (unfold w; rewrite Dd; reflexivity). rewrite <- Ww in T1, T2.
          assert (We : wrote tr o ++ w = concat (firstn start data)).
          { etransitivity; [apply (f_equal2 (@app N) W T1) |]. rewrite <- concat_app. apply f_equal. unfold start. rewrite T2.
            destruct (Nat.le_gt_cases n (length data - o_start x)) as [Y | Y].
            - rewrite Nat.min_l by exact Y. apply firstn_more.
            - rewrite Nat.min_r by lia. rewrite (firstn_all2 (n := n)) by (rewrite skipn_length; lia).
              rewrite firstn_skipn, firstn_all2 by lia. reflexivity. }
          assert (start <= length data) by (unfold start; rewrite T2; lia). rewrite Dd in Ev.
          destruct Ev as [(-> & E1 & E2) | [(b & ->) E]].
          * right. rewrite E2. split; [| split; [lia | exact We]].
            intros Y. apply in_app_iff in Y as [Y | [Y | []]]; [apply NE; exists Sent; exact Y | discriminate].
          * left. split; [apply in_app_iff; right; right; left; reflexivity |].
            etransitivity; [exact We |]. rewrite E, firstn_all. reflexivity.
        + rewrite Oth by exact Qo. split; [exact Dd |]. replace (o' =? o) with false by (symmetry; apply Nat.eqb_neq; exact Qo).
          rewrite app_nil_r, (Qs (EvEnd o' Sent)); [exact G | reflexivity | discriminate | intros r Y; congruence].
      - intros o' w' I. rewrite No. apply in_app_iff in I as [I | I]; [exact (B _ _ I) |]. destruct I as [I | I].
        + injection I as <- _. exact Lo.
        + exfalso. destruct Ev as [(-> & _) | [(b & ->) _]]; [contradiction |]. destruct I as [I | [I | []]]; discriminate. }
    destruct (start =? length (o_data x)) eqn:Es; cbn [negb].
    + apply Nat.eqb_eq in Es. pose proof (remove_op (finish s o Sent) (o_fd x) Wr) as [P1 P2]. cbn [remove] in *.
      destruct (remove_writer _ _) as [s' b]. cbn [fst] in *. destruct (finish_op s o Sent) as [F1 F2].
      (* the position is not updated when the end is reached: the operation is done and never looks at it again *)
      apply (Core s' [EvEnd o Sent; EvRemove (ByOp o) (o_fd x) Wr b]).
      * right. split; [exists b; reflexivity | exact Es].
      * rewrite P2. exact F1.
      * intros o' Y. rewrite P1. cbn. apply upd_other. exact Y.
      * rewrite P1. apply F2.
    + apply Nat.eqb_neq in Es. apply (Core _ []).
      * left. split; [reflexivity |]. split; [exact Es |]. cbn. rewrite upd_same. reflexivity.
      * reflexivity.
      * intros o' Y. cbn. apply upd_other. exact Y.
      * cbn. rewrite upd_same. reflexivity.
  - pose proof (remove_op (finish s o Failed) (o_fd (i_op s o)) Wr) as [P1 P2]. cbn [remove] in *.
    destruct (remove_writer _ _) as [s' b]. cbn [fst] in *. destruct (finish_op s o Failed) as [F1 F2].
    eapply sent_quiet; [| | | exact X]; [reflexivity | rewrite P2, F1; lia | intros o' _; rewrite P1; apply F2].
Qed.

Lemma fresh_wrote s tr : sent s tr -> wrote tr (i_nop s) = [].
Proof.
  intros [_ B].
  assert (G : forall l, (forall o w, In (EvWrote o w) l -> o < i_nop s) -> wrote l (i_nop s) = []).
  { induction l as [| e l IH]; intros X; [reflexivity |]. unfold wrote in *. cbn [flat_map].
    rewrite IH by (intros o w I; apply (X o w); right; exact I). rewrite app_nil_r. destruct e; try reflexivity.
    assert (o < i_nop s) by (apply (X o data); left; reflexivity).
    replace (i_nop s =? o) with false by (symmetry; apply Nat.eqb_neq; lia). reflexivity. }
  apply G. exact B.
Qed.

(** A call of [socket_send_all] with a view which is not empty. *)
Lemma send_call_sent s tr s' data start evs w x :
  rel s tr -> sent s tr ->
  i_nop s' = S (i_nop s) -> (forall o, o < i_nop s -> i_op s' o = i_op s o) ->
  i_op s' (i_nop s) = x -> o_data x = data -> o_start x = start ->
  (forall o, wrote evs o = if o =? i_nop s then w else []) ->
  (forall o d, In (EvSend o d) evs -> o = i_nop s /\ d = data) ->
  (forall o d, In (EvWrote o d) evs -> o = i_nop s) ->
  (forall o, In (EvEnd o Sent) evs -> o = i_nop s) ->
  (octets data -> w = concat (firstn start data) /\
     (In (EvEnd (i_nop s) Sent) evs /\ start = length data \/ ~ In (EvEnd (i_nop s) Sent) evs /\ start < length data)) ->
  sent s' (tr ++ evs).
Proof.
  intros R X No Old New Dt St W Es Ew Ee Core. pose proof (fresh_wrote _ _ X) as F. destruct X as [A B]. split.
  - intros o d I O. rewrite No. unfold progress. rewrite wrote_app, W.
    assert (NE : ~ In (EvEnd (i_nop s) Sent) tr) by (intros Y; apply (r_end _ _ R) in Y; lia).
    apply in_app_iff in I as [I | I].
    + destruct (A o d I O) as (L & D & G). rewrite Old by exact L. split; [lia |]. split; [exact D |].
      replace (o =? i_nop s) with false by (symmetry; apply Nat.eqb_neq; lia). rewrite app_nil_r.
      assert (Q : In (EvEnd o Sent) (tr ++ evs) <-> In (EvEnd o Sent) tr).
      { rewrite in_app_iff. split; [| tauto]. intros [Y | Y]; [exact Y |]. apply Ee in Y. lia. }
      rewrite Q. exact G.
    + destruct (Es o d I) as [-> ->]. rewrite New. split; [lia |]. split; [exact Dt |]. rewrite Nat.eqb_refl.
      rewrite F. cbn [app]. destruct (Core O) as [-> [[Y Z] | [Y Z]]]; rewrite St.
      * left. split; [apply in_app_iff; right; exact Y |]. rewrite Z, firstn_all. reflexivity.
      * right. split; [| split; [exact Z | reflexivity]]. rewrite in_app_iff. tauto.
  - intros o d I. rewrite No. apply in_app_iff in I as [I | I]; [apply B in I; lia | apply Ew in I; lia].
Qed.

Lemma step_sent s tr a : rel s tr -> sent s tr -> let '(s', evs) := step s a in sent s' (tr ++ evs).
Proof.
  intros R X. destruct a; cbn [step].
  - destruct (add_op s fd Rd (CUser n)) as [P1 P2]. cbn [add] in *.
    eapply sent_quiet; [| | | exact X]; [reflexivity | rewrite P2; lia | intros o _; rewrite P1; split; reflexivity].
  - destruct (add_op s fd Wr (CUser n)) as [P1 P2]. cbn [add] in *.
    eapply sent_quiet; [| | | exact X]; [reflexivity | rewrite P2; lia | intros o _; rewrite P1; split; reflexivity].
  - pose proof (remove_op s fd Rd) as [P1 P2]. cbn [remove] in *. destruct (remove_reader s fd) as [s' b]. cbn [fst] in *.
    eapply sent_quiet; [| | | exact X]; [reflexivity | rewrite P2; lia | intros o _; rewrite P1; split; reflexivity].
  - pose proof (remove_op s fd Wr) as [P1 P2]. cbn [remove] in *. destruct (remove_writer s fd) as [s' b]. cbn [fst] in *.
    eapply sent_quiet; [| | | exact X]; [reflexivity | rewrite P2; lia | intros o _; rewrite P1; split; reflexivity].
  - destruct (_ && _); [| apply sent_same; exact X].
    eapply sent_quiet; [| | | exact X]; [reflexivity | apply Nat.le_refl | intros o _; split; reflexivity].
  - pose proof (poll_op reports s) as P. destruct (poll s reports) as [s' evs]. destruct P as (P1 & P2 & P3).
    eapply sent_quiet; [| | | exact X]; [exact P3 | rewrite P2; lia | intros o _; rewrite P1; split; reflexivity].
  - unfold run_one. destruct (i_ready s) as [| [h | o] rest] eqn:E; [apply sent_same; exact X | |].
    + assert (R' : rel (pop s rest) tr) by (eapply rel_pop; [exact R | exact E | intros o h' Y; discriminate Y]).
      assert (L : h < i_next (pop s rest)) by (apply (r_queue _ _ R); rewrite E; left; reflexivity).
      assert (X' : forall e, unsent e = true -> sent (pop s rest) (tr ++ [e])).
      { intros e U. eapply sent_quiet; [| | | exact X]; [cbn; rewrite U; reflexivity | apply Nat.le_refl | intros o _; split; reflexivity]. }
      destruct (h_cancelled _) eqn:C; [apply X'; reflexivity |].
      destruct (h_cb (i_handle (pop s rest) h)) as [n | o | o] eqn:Q; [apply X'; reflexivity | |].
      * pose proof (on_readable_sent (pop s rest) (tr ++ [EvRan h]) o ra h (rel_neutral _ _ (EvRan h) eq_refl R') L Q (X' (EvRan h) eq_refl)) as P.
        destruct (on_readable (pop s rest) o ra) as [s' evs]. rewrite <- app_assoc in P. exact P.
      * pose proof (on_writable_sent (pop s rest) (tr ++ [EvRan h]) o sa h (rel_neutral _ _ (EvRan h) eq_refl R') L Q (X' (EvRan h) eq_refl)) as P.
        destruct (on_writable (pop s rest) o sa) as [s' evs]. rewrite <- app_assoc in P. exact P.
    + rewrite on_done_sides. destruct (o_handle _) as [n |]; [| apply sent_same; exact X].
      destruct (h_cancelled _); [apply sent_same; exact X |]. cbn zeta. set (sd := h_side _). set (fd := o_fd _).
      pose proof (remove_op (pop s rest) fd sd) as [P1 P2]. destruct (remove (pop s rest) fd sd) as [s' b]. cbn [fst] in *.
      eapply sent_quiet; [| | | exact X]; [reflexivity | rewrite P2; apply Nat.le_refl | intros o' _; rewrite P1; split; reflexivity].
  - unfold receive. destruct a as [d | |].
    + eapply sent_quiet; [| | | exact X]; [reflexivity | lia | intros o _; split; reflexivity].
    + destruct (add_op s fd Rd (CRecv (i_nop s))) as [P1 P2]. cbn [add] in *.
      eapply sent_quiet; [| | | exact X]; [reflexivity | cbn; rewrite P2; lia |].
      intros o L. cbn. rewrite P1, P2, upd_other by lia. split; reflexivity.
    + eapply sent_quiet; [| | | exact X]; [reflexivity | lia | intros o _; split; reflexivity].
  - unfold send_all. destruct data as [| item data].
    { eapply sent_quiet; [| | | exact X]; [reflexivity | lia | intros o _; split; reflexivity]. }
    set (dt := item :: data). assert (Pos : 0 < length dt) by (cbn; lia).
    destruct (add_op s fd Wr (CSend (i_nop s))) as [P1 P2]. cbn [add] in *.
    destruct a as [n | |].
    + set (w := taken n dt).
      assert (Cw : octets dt -> w = concat (firstn (length w) dt) /\ length w <= length dt).
      { intros O. destruct (taken_octets n dt O) as [T1 T2]. fold w in T1, T2. rewrite T2. split; [| lia]. rewrite T1.
        apply f_equal. destruct (Nat.le_gt_cases n (length dt)) as [Y | Y].
        - rewrite Nat.min_l by exact Y. reflexivity.
        - rewrite Nat.min_r by lia. rewrite firstn_all, firstn_all2 by lia. reflexivity. }
      destruct (length w =? length dt) eqn:E.
      * apply Nat.eqb_eq in E.
        eapply (send_call_sent s tr _ dt (length w) _ w); try exact R; try exact X.
        -- reflexivity.
        -- intros o L. cbn. apply upd_other. lia.
        -- cbn. rewrite upd_same. reflexivity.
        -- reflexivity.
        -- reflexivity.
        -- intros o. cbn. destruct (o =? i_nop s); cbn; rewrite ?app_nil_r; reflexivity.
        -- intros o d I. destruct I as [I | [I | [I | []]]]; try discriminate. injection I as <- <-. split; reflexivity.
        -- intros o d I. destruct I as [I | [I | [I | []]]]; try discriminate. injection I as <- _. reflexivity.
        -- intros o I. destruct I as [I | [I | [I | []]]]; try discriminate. injection I as <-. reflexivity.
        -- intros O. split; [apply Cw; exact O |]. left. split; [cbn; tauto | exact E].
      * apply Nat.eqb_neq in E.
        eapply (send_call_sent s tr _ dt (length w) _ w); try exact R; try exact X.
        -- cbn. rewrite P2. reflexivity.
        -- intros o L. cbn. rewrite P1, P2. apply upd_other. lia.
        -- cbn. rewrite P2, upd_same. reflexivity.
        -- reflexivity.
        -- reflexivity.
        -- intros o. cbn. destruct (o =? i_nop s); cbn; rewrite ?app_nil_r; reflexivity.
        -- intros o d I. destruct I as [I | [I | [I | [I | []]]]]; try discriminate. injection I as <- <-. split; reflexivity.
        -- intros o d I. destruct I as [I | [I | [I | [I | []]]]]; try discriminate. injection I as <- _. reflexivity.
        -- intros o I. destruct I as [I | [I | [I | [I | []]]]]; discriminate.
        -- intros O. destruct (Cw O) as [C1 C2]. split; [exact C1 |]. right. split; [| lia].
           intros I. destruct I as [I | [I | [I | [I | []]]]]; discriminate.
    + eapply (send_call_sent s tr _ dt 0 _ []); try exact R; try exact X.
      * cbn. rewrite P2. reflexivity.
      * intros o L. cbn. rewrite P1, P2. apply upd_other. lia.
      * cbn. rewrite P2, upd_same. reflexivity.
      * reflexivity.
      * reflexivity.
      * intros o. cbn. destruct (o =? i_nop s); reflexivity.
      * intros o d I. destruct I as [I | [I | [I | []]]]; try discriminate. injection I as <- <-. split; reflexivity.
      * intros o d I. destruct I as [I | [I | [I | []]]]; discriminate.
      * intros o I. destruct I as [I | [I | [I | []]]]; discriminate.
      * intros O. split; [reflexivity |]. right. split; [| exact Pos].
        intros I. destruct I as [I | [I | [I | []]]]; discriminate.
    + eapply sent_quiet; [| | | exact X]; [reflexivity | lia | intros o _; split; reflexivity].
  - destruct (o <? i_nop s); [| apply sent_same; exact X]. unfold cancel_op. destruct (is_done _); [apply sent_same; exact X |].
    destruct (finish_op s o Cancelled) as [F1 F2].
    eapply sent_quiet; [| | | exact X]; [reflexivity | rewrite F1; lia | intros o' _; apply F2].
Qed.

Lemma run_sent l : forall s tr, rel s tr -> sent s tr -> let '(s', evs) := run s l in sent s' (tr ++ evs).
Proof.
  induction l as [| a l IH]; intros s tr R X; cbn [run].
  - apply sent_same; exact X.
  - pose proof (step_good s tr a R) as G. pose proof (step_sent s tr a R X) as P. destruct (step s a) as [s1 ev1].
    pose proof (IH s1 (tr ++ ev1) (proj1 G) P) as Q. destruct (run s1 l) as [s2 ev2]. rewrite app_assoc. exact Q.
Qed.

Lemma sends l s tr o data :
  run io_init l = (s, tr) -> In (EvSend o data) tr -> octets data ->
  (exists rest, wrote tr o ++ rest = concat data) /\ (In (EvEnd o Sent) tr <-> wrote tr o = concat data).
Proof.
  intros H I O. pose proof (run_sent l io_init [] rel_init) as P. rewrite H in P.
  destruct P as [A _]; [split; intros; contradiction |].
  destruct (A o data I O) as (_ & _ & [[E W] | (E & L & W)]).
  - split; [exists []; rewrite app_nil_r; exact W | tauto].
  - set (k := o_start (i_op s o)) in *. split.
    + exists (concat (skipn k data)).
      etransitivity; [apply (f_equal (fun z => z ++ _) W) |]. rewrite <- concat_app, firstn_skipn. reflexivity.
    + split; [contradiction |]. intros Y. exfalso. assert (Z : concat (firstn k data) = concat data) by (rewrite <- W; exact Y).
      apply (f_equal (@length N)) in Z.
      assert (Of : octets (firstn k data)).
      { unfold octets in *. rewrite Forall_forall in *. intros x Ix. apply O.
        rewrite <- (firstn_skipn k data). apply in_app_iff. left. exact Ix. }
      rewrite !octets_concat_length in Z by assumption. rewrite firstn_length in Z. lia.
Qed.

(** ** A sender which counted too far *)

Definition over (s : io) (o : nat) : Prop := o < i_nop s /\ length (o_data (i_op s o)) < o_start (i_op s o).

Lemma over_same s s' o :
  i_nop s <= i_nop s' -> o_data (i_op s' o) = o_data (i_op s o) -> o_start (i_op s' o) = o_start (i_op s o) -> over s o -> over s' o.
Proof. intros N D St [A B]. split; [lia | rewrite D, St; exact B]. Qed.

Lemma over_step s tr a o : rel s tr -> over s o ->
  let '(s', evs) := step s a in over s' o /\ ~ In (EvEnd o Sent) evs.
Proof.
  intros R X.
  assert (U : forall evs, forallb unsent evs = true -> ~ In (EvEnd o Sent) evs) by (intros evs Q; exact (unsent_not evs (EvEnd o Sent) Q eq_refl)).
  destruct X as [L B]. assert (X : over s o) by (split; assumption).
  destruct a; cbn [step].
  - destruct (add_op s fd Rd (CUser n)) as [P1 P2]. cbn [add] in *. split; [| apply U; reflexivity].
    eapply over_same; [| | | exact X]; [rewrite P2; lia | rewrite P1; reflexivity | rewrite P1; reflexivity].
  - destruct (add_op s fd Wr (CUser n)) as [P1 P2]. cbn [add] in *. split; [| apply U; reflexivity].
    eapply over_same; [| | | exact X]; [rewrite P2; lia | rewrite P1; reflexivity | rewrite P1; reflexivity].
  - pose proof (remove_op s fd Rd) as [P1 P2]. cbn [remove] in *. destruct (remove_reader s fd) as [s' b]. cbn [fst] in *.
    split; [| apply U; reflexivity]. eapply over_same; [| | | exact X]; [rewrite P2; lia | rewrite P1; reflexivity | rewrite P1; reflexivity].
  - pose proof (remove_op s fd Wr) as [P1 P2]. cbn [remove] in *. destruct (remove_writer s fd) as [s' b]. cbn [fst] in *.
    split; [| apply U; reflexivity]. eapply over_same; [| | | exact X]; [rewrite P2; lia | rewrite P1; reflexivity | rewrite P1; reflexivity].
  - destruct (_ && _); (split; [exact X | apply U; reflexivity]).
  - pose proof (poll_op reports s) as P. destruct (poll s reports) as [s' evs]. destruct P as (P1 & P2 & P3).
    split; [| apply U; exact P3]. eapply over_same; [| | | exact X]; [rewrite P2; lia | rewrite P1; reflexivity | rewrite P1; reflexivity].
  - unfold run_one. destruct (i_ready s) as [| [h | o'] rest] eqn:E; [split; [exact X | apply U; reflexivity] | |].
    + destruct (h_cancelled _); [split; [exact X | apply U; reflexivity] |].
      destruct (h_cb _) as [n | o' | o']; [split; [exact X | apply U; reflexivity] | |].
      * unfold on_readable. destruct (is_done _); [split; [exact X | apply U; reflexivity] |].
        destruct ra as [d | |]; [| split; [exact X | apply U; reflexivity] |].
        -- pose proof (remove_op (finish (pop s rest) o' (Result d)) (o_fd (i_op (pop s rest) o')) Rd) as [P1 P2]. cbn [remove] in *.
           destruct (remove_reader _ _) as [s' b]. cbn [fst] in *. destruct (finish_op (pop s rest) o' (Result d)) as [F1 F2].
           split; [| apply U; reflexivity].
           eapply over_same; [| | | exact X]; [rewrite P2, F1; apply Nat.le_refl | rewrite P1; apply F2 | rewrite P1; apply F2].
        -- pose proof (remove_op (finish (pop s rest) o' Failed) (o_fd (i_op (pop s rest) o')) Rd) as [P1 P2]. cbn [remove] in *.
           destruct (remove_reader _ _) as [s' b]. cbn [fst] in *. destruct (finish_op (pop s rest) o' Failed) as [F1 F2].
           split; [| apply U; reflexivity].
           eapply over_same; [| | | exact X]; [rewrite P2, F1; apply Nat.le_refl | rewrite P1; apply F2 | rewrite P1; apply F2].
      * unfold on_writable. destruct (is_done _); [split; [exact X | apply U; reflexivity] |].
        destruct sa as [n | |]; [| split; [exact X | apply U; reflexivity] |].
        -- change (i_op (pop s rest) o') with (i_op s o'). set (w := taken n _).
           destruct (o_start (i_op s o') + length w =? length (o_data (i_op s o'))) eqn:Es; cbn [negb].
           ++ apply Nat.eqb_eq in Es.
              pose proof (remove_op (finish (pop s rest) o' Sent) (o_fd (i_op s o')) Wr) as [P1 P2]. cbn [remove] in *.
              destruct (remove_writer _ _) as [s' b]. cbn [fst] in *. destruct (finish_op (pop s rest) o' Sent) as [F1 F2].
              split.
              ** eapply over_same; [| | | exact X]; [rewrite P2, F1; apply Nat.le_refl | rewrite P1; apply F2 | rewrite P1; apply F2].
              ** intros I. destruct I as [I | [I | [I | [I | []]]]]; try discriminate. injection I as ->. lia.
           ++ split.
              ** destruct (Nat.eq_dec o o') as [<- | D].
                 --- split; [exact L |]. cbn. rewrite upd_same. cbn. lia.
                 --- split; [exact L |]. cbn. rewrite upd_other by exact D. exact B.
              ** intros I. destruct I as [I | [I | []]]; discriminate.
        -- pose proof (remove_op (finish (pop s rest) o' Failed) (o_fd (i_op (pop s rest) o')) Wr) as [P1 P2]. cbn [remove] in *.
           destruct (remove_writer _ _) as [s' b]. cbn [fst] in *. destruct (finish_op (pop s rest) o' Failed) as [F1 F2].
           split; [| apply U; reflexivity].
           eapply over_same; [| | | exact X]; [rewrite P2, F1; apply Nat.le_refl | rewrite P1; apply F2 | rewrite P1; apply F2].
    + rewrite on_done_sides. destruct (o_handle _) as [n |]; [| split; [exact X | apply U; reflexivity]].
      destruct (h_cancelled _); [split; [exact X | apply U; reflexivity] |]. cbn zeta. set (sd := h_side _). set (fd := o_fd _).
      pose proof (remove_op (pop s rest) fd sd) as [P1 P2]. destruct (remove (pop s rest) fd sd) as [s' b]. cbn [fst] in *.
      split; [| apply U; reflexivity].
      eapply over_same; [| | | exact X]; [rewrite P2; apply Nat.le_refl | rewrite P1; reflexivity | rewrite P1; reflexivity].
  - unfold receive. destruct a as [d | |]; try (split; [exact X | apply U; reflexivity]).
    destruct (add_op s fd Rd (CRecv (i_nop s))) as [P1 P2]. cbn [add] in *. split; [| apply U; reflexivity].
    eapply over_same; [| | | exact X]; cbn; rewrite ?P1, ?P2, ?upd_other by lia; [lia | reflexivity | reflexivity].
  - unfold send_all. destruct data as [| item data]; [split; [exact X | apply U; reflexivity] |].
    destruct (add_op s fd Wr (CSend (i_nop s))) as [P1 P2]. cbn [add] in *.
    destruct a as [n | |]; [| | split; [exact X | apply U; reflexivity]].
    + set (w := taken n (item :: data)). destruct (length w =? length (item :: data)).
      * split.
        -- eapply over_same; [| | | exact X]; cbn; rewrite ?upd_other by lia; [lia | reflexivity | reflexivity].
        -- intros I. destruct I as [I | [I | [I | []]]]; try discriminate. injection I as <-. lia.
      * split.
        -- eapply over_same; [| | | exact X]; cbn; rewrite ?P1, ?P2, ?upd_other by lia; [lia | reflexivity | reflexivity].
        -- intros I. destruct I as [I | [I | [I | [I | []]]]]; discriminate.
    + split.
      * eapply over_same; [| | | exact X]; cbn; rewrite ?P1, ?P2, ?upd_other by lia; [lia | reflexivity | reflexivity].
      * intros I. destruct I as [I | [I | [I | []]]]; discriminate.
  - destruct (o0 <? i_nop s); [| split; [exact X | apply U; reflexivity]]. unfold cancel_op.
    destruct (is_done _); [split; [exact X | apply U; reflexivity] |]. destruct (finish_op s o0 Cancelled) as [F1 F2].
    split; [| apply U; reflexivity]. eapply over_same; [| | | exact X]; [rewrite F1; lia | apply F2 | apply F2].
Qed.

Lemma over_run l : forall s tr o, rel s tr -> over s o -> ~ In (EvEnd o Sent) (snd (run s l)).
Proof.
  induction l as [| a l IH]; intros s tr o R X; cbn [run]; [cbn; tauto |].
  pose proof (step_good s tr a R) as G. pose proof (over_step s tr a o R X) as P. destruct (step s a) as [s1 ev1].
  destruct P as [X1 N1]. pose proof (IH s1 (tr ++ ev1) o (proj1 G) X1) as Q. destruct (run s1 l) as [s2 ev2]. cbn in *.
  rewrite in_app_iff. tauto.
Qed.

Definition wide : list act := [OSend 7 [[1%N; 2%N; 3%N; 4%N]] (STake 4)].

Lemma wide_hangs : forall l, ~ In (EvEnd 0 Sent) (snd (run io_init (wide ++ l))).
Proof.
  intros l. cbn [wide app run]. pose proof (step_good io_init [] (OSend 7 [[1%N; 2%N; 3%N; 4%N]] (STake 4)) rel_init) as G.
  assert (X : over (fst (step io_init (OSend 7 [[1%N; 2%N; 3%N; 4%N]] (STake 4)))) 0) by (cbn; split; cbn; lia).
  destruct (step io_init _) as [s1 ev1] eqn:E. cbn [fst] in X. pose proof (over_run l s1 _ 0 (proj1 G) X) as N.
  destruct (run s1 l) as [s2 ev2]. cbn in *. rewrite in_app_iff. intros [I | I]; [| contradiction].
  injection E as _ <-. cbn in I. repeat (destruct I as [I | I]; [discriminate |]). contradiction.
Qed.

(** * Accepting *)

Lemma accept_tasks backlog : forall answers, tasks (accept_loop backlog answers) = accepted (accept_loop backlog answers).
Proof.
  induction backlog as [| n IH]; intros answers; [reflexivity |]. cbn [accept_loop].
  destruct answers as [| a rest]; [reflexivity |]. destruct a; try reflexivity; cbn; try (apply f_equal); apply IH.
Qed.

Lemma accept_bound backlog : forall answers, accepts (accept_loop backlog answers) <= backlog.
Proof.
  induction backlog as [| n IH]; intros answers; [apply Nat.le_refl |]. cbn [accept_loop].
  destruct answers as [| a rest]; [cbn; lia |]. pose proof (IH rest) as P.
  destruct a; unfold accepts in *; cbn in *; lia.
Qed.

(** As long as there are connections, and at most [backlog] of them, all of them are served. *)
Lemma accept_all conns : forall backlog rest, length conns <= backlog -> 
  (forall x, hd_error rest = Some x -> x = AEmpty) ->
  tasks (accept_loop backlog (map AConnection conns ++ rest)) = conns.
Proof.
  induction conns as [| c conns IH]; intros backlog rest L H.
  - cbn. destruct backlog as [| n]; [reflexivity |]. cbn [accept_loop]. destruct rest as [| x rest]; [reflexivity |].
    rewrite (H x eq_refl). reflexivity.
  - destruct backlog as [| n]; cbn in L; [lia |]. cbn. apply (f_equal (cons c)). apply IH; [lia | exact H].
Qed.

Definition twice : list act := [OReceive 7 RBlock; OReceive 7 RBlock].

(** Two receivers on one socket: the first one never gets anything. *)
Lemma twice_starves : forall l r, In (EvEnd 0 r) (snd (run io_init (twice ++ l))) -> r = Cancelled.
Proof.
  intros l r I. assert (A : forall l1 l2 s, run s (l1 ++ l2) =
    let '(s1, e1) := run s l1 in let '(s2, e2) := run s1 l2 in (s2, e1 ++ e2)).
  { induction l1 as [| a l1 IH]; intros l2 s; cbn [run app]; [destruct (run s l2); reflexivity |].
    destruct (step s a) as [s1 e1]. rewrite IH. destruct (run s1 l1) as [s2 e2]. destruct (run s2 l2) as [s3 e3].
    rewrite app_assoc. reflexivity. }
  rewrite A in I. destruct (run io_init twice) as [s tr] eqn:E. destruct (run s l) as [s' tr'] eqn:E'. cbn [snd] in I.
  assert (T : tr = [EvAdd 7 Rd 0; EvWait 0 0; EvAdd 7 Rd 1; EvWait 1 1]) by (injection E as _ <-; reflexivity).
  apply in_app_iff in I as [I | I].
  - exfalso. rewrite T in I. repeat (destruct I as [I | I]; [discriminate |]). contradiction.
  - eapply (superseded twice s tr 0 0 l s' tr' E); [rewrite T; cbn; tauto | | exact E' | exact I].
    rewrite T. intros [(fd & sd & G) _]. unfold registered in G. cbn in G.
    destruct (same fd sd 7 Rd); [discriminate | discriminate].
Qed.

(** * Calls which end at once *)

Lemma run_snoc l a : forall s0 s tr, run s0 l = (s, tr) -> run s0 (l ++ [a]) = (fst (step s a), tr ++ snd (step s a)).
Proof.
  induction l as [| b l IH]; intros s0 s tr H; cbn [run app] in *.
  - injection H as <- <-. destruct (step s0 a) as [s1 ev]. cbn. rewrite app_nil_r. reflexivity.
  - destruct (step s0 b) as [s1 ev1]. destruct (run s1 l) as [s2 ev2] eqn:E. injection H as <- <-.
    rewrite (IH _ _ _ E). rewrite app_assoc. reflexivity.
Qed.

Theorem receives_at_once l s tr fd d : run io_init l = (s, tr) ->
  run io_init (l ++ [OReceive fd (RData d)]) = (s, tr ++ [EvReturned (Result d)]) /\
  run io_init (l ++ [OReceive fd RError]) = (s, tr ++ [EvReturned Failed]).
Proof. intros H. split; rewrite (run_snoc _ _ _ _ _ H); reflexivity. Qed.

Theorem send_refused l s tr fd data : run io_init l = (s, tr) -> data <> [] ->
  run io_init (l ++ [OSend fd data SError]) = (s, tr ++ [EvReturned Failed]).
Proof. intros H D. rewrite (run_snoc _ _ _ _ _ H). destruct data; [congruence |]. reflexivity. Qed.

Theorem accept_raises backlog : forall answers,
  In (AeAccept AError) (accept_loop backlog answers) <-> In AeRaise (accept_loop backlog answers).
Proof.
  induction backlog as [| n IH]; intros answers; [cbn; tauto |]. cbn [accept_loop]. specialize (IH (tl answers)).
  destruct (match answers with [] => AEmpty | a :: _ => a end); cbn [In]; split; intros H;
    repeat (destruct H as [H | H]; try discriminate H); try contradiction; tauto.
Qed.
