From Coq Require Import List Arith Bool Lia.
From Verif Require Import DgramModel DgramSpec.
Import ListNotations.

Lemma sub_refl {A} (l : list A) : sub l l.
Proof. induction l; constructor; assumption. Qed.
Lemma sub_app_r {A} (a b c : list A) : sub a b -> sub a (b ++ c).
Proof. induction 1; cbn; constructor; assumption. Qed.
Lemma sub_app {A} (a b c : list A) : sub a b -> sub (a ++ c) (b ++ c).
Proof. induction 1 as [l|x a b H IH|x a b H IH]; cbn; try (constructor; assumption). induction l; cbn; [apply sub_refl|constructor; assumption]. Qed.
Lemma sub_drop {A} (a : list A) : forall x b c, sub (a ++ x :: b) c -> sub (a ++ b) c.
Proof.
  induction a as [|y a IH]; intros x b c H; cbn in *.
  - remember (x :: b) as xb eqn:E. revert E. induction H; intros E; [discriminate| |].
    + injection E as -> ->. constructor. exact H.
    + constructor. apply IHsub. exact E.
  - remember (y :: a ++ x :: b) as z eqn:E. revert E. induction H; intros E; [discriminate| |].
    + injection E as -> ->. constructor. eapply IH. exact H.
    + constructor. apply IHsub. exact E.
Qed.
Lemma sub_prefix {A} (b : list A) : forall a c, sub (a ++ b) c -> sub a c.
Proof.
  induction b as [|x b IH]; intros a c H; [rewrite app_nil_r in H; exact H|]. apply sub_drop in H. apply IH. exact H.
Qed.

Definition keeps (s t : transport) : Prop := peer t = peer s /\ fixed t = fixed s.

(** How one step changes what is or will be sent. *)
Lemma fatal_keep s : keeps s (fatal s) /\ wire (fatal s) = wire s /\ (buffer (fatal s) = [] \/ buffer (fatal s) = buffer s).
Proof. unfold fatal, force_close, keeps. cbn. destruct (lost s); cbn; auto. Qed.

Lemma ready_keep : forall b s l, keeps s (ready_loop s b l) /\ exists c, (forall r, sub ((wire s) ++ b) r -> sub (wire (ready_loop s b l) ++ c) r) /\
  (buffer (ready_loop s b l) = c \/ buffer (ready_loop s b l) = []).
Proof.
  induction b as [|[d a] b IH]; intros s l; cbn [ready_loop].
  - destruct (closing (put s [] false)); (split; [split; reflexivity|]); exists []; auto.
  - destruct (attempt s a (hd Again l)) eqn:X.
    + destruct (IH (took s (d, a)) (tl l)) as [K (c & H & B)]. split; [exact K|]. exists c. split; [|exact B]. intros r R. apply H. cbn. rewrite <- app_assoc. exact R.
    + split; [split; reflexivity|]. exists ((d, a) :: b). auto.
    + split; [split; reflexivity|]. exists b. split; [|auto]. intros r R. cbn. apply sub_drop in R. exact R.
    + destruct (fatal_keep (put s b (writer s))) as (K & W & B). split; [destruct K; split; assumption|]. exists b. split; [|destruct B as [B|B]; auto]. rewrite W. intros r R. cbn. apply sub_drop in R. exact R.
Qed.

Lemma keep_fixed s a : keeps s (fst (step s a)).
Proof.
  destruct a; cbn [step]; try (split; reflexivity).
  - unfold send_to. destruct (d =? 0); [split; reflexivity|]. destruct (target s a); [|split; reflexivity]. destruct (lost s); [split; reflexivity|].
    destruct (buffer s); [|split; reflexivity]. destruct (attempt s o x); try (split; reflexivity). apply fatal_keep.
  - cbn [fst]. destruct (writer s); [|split; reflexivity]. apply ready_keep.
  - destruct (closing s); [split; reflexivity|]. destruct (buffer s); split; reflexivity.
  - unfold force_close, keeps. cbn. destruct (lost s); cbn; auto.
  - destruct (soon s); split; reflexivity.
Qed.

Lemma asked_target s d a x : d <> 0 -> asked (fixed s) (SendTo d a x) = match target s a with Some t => [(d, t)] | None => [] end.
Proof.
  intros D. unfold asked, target. destruct d; [contradiction|]. destruct a as [g|]; destruct (fixed s) as [f|]; try reflexivity. destruct (g =? f); reflexivity.
Qed.

Lemma step_sub s a r : sub (wire s ++ buffer s) r -> sub (wire (fst (step s a)) ++ buffer (fst (step s a))) (r ++ asked (fixed s) a).
Proof.
  intros H. assert (H0 : forall q, sub (wire s ++ buffer s) (r ++ q)) by (intros q; apply sub_app_r; exact H). destruct a; cbn [step].
  - unfold send_to. destruct (Nat.eqb_spec d 0) as [->|D]; [apply H0|]. rewrite asked_target by exact D. destruct (target s a) as [t|]; [|apply H0].
    destruct (lost s); [apply H0|]. destruct (buffer s) as [|e b] eqn:B.
    + rewrite app_nil_r in H. destruct (attempt s t x); cbn.
      * rewrite B, app_nil_r. apply sub_app. exact H.
      * apply sub_app. exact H.
      * rewrite B, app_nil_r. apply sub_app_r. exact H.
      * destruct (fatal_keep s) as (_ & W & [E|E]); rewrite W, E, ?B, app_nil_r; apply sub_app_r; exact H.
    + cbn. rewrite app_comm_cons, app_assoc. apply sub_app. exact H.
  - cbn [fst]. destruct (writer s); [|apply H0]. destruct (ready_keep (buffer s) s l) as (_ & c & S1 & B). cbn [asked]. rewrite app_nil_r.
    specialize (S1 r H). destruct B as [->| ->]; [exact S1|]. rewrite app_nil_r. eapply sub_prefix. exact S1.
  - apply H0.
  - cbn [asked]. rewrite app_nil_r. destruct (closing s); [exact H|]. destruct (buffer s) eqn:B; cbn; exact H.
  - cbn [asked fst]. rewrite app_nil_r. unfold force_close. destruct (lost s); [exact H|]. cbn. rewrite app_nil_r. eapply sub_prefix. exact H.
  - cbn [asked]. rewrite app_nil_r. destruct (soon s); exact H.
Qed.

Lemma run_sub l : forall s r, sub (wire s ++ buffer s) r -> sub (wire (run s l) ++ buffer (run s l)) (r ++ requests (fixed s) l).
Proof.
  induction l as [|a l IH]; intros s r H; cbn; [rewrite app_nil_r; exact H|].
  rewrite app_assoc. destruct (keep_fixed s a) as [_ K]. rewrite <- K at 2. apply IH. apply step_sub. exact H.
Qed.

Lemma in_order p f l : sub (wire (run (opened p f) l)) (requests f l).
Proof. eapply sub_prefix. apply (run_sub l (opened p f) []). constructor. Qed.

(** * Nothing is lost *)

Lemma tame_attempt s a x : socket s = true -> (peer s = true \/ a <> None) -> attempt s a x = x.
Proof. intros S1 H. unfold attempt. rewrite S1. destruct (peer s); [reflexivity|]. destruct a; [reflexivity|]. destruct H as [H|H]; [discriminate|contradiction]. Qed.

Record calm (s : transport) : Prop := mk_calm {
  m_socket : socket s = true; m_closing : closing s = false; m_lost : lost s = false;
  m_buffer : forall d a, In (d, a) (buffer s) -> peer s = true \/ a <> None;
  m_writer : buffer s <> [] -> writer s = true;
  m_logged : logged s = 0; m_soon : soon s = 0
}.

Lemma ready_calm : forall b s l, socket s = true -> closing s = false -> lost s = false -> logged s = 0 -> soon s = 0 -> writer s = true -> (forall d a, In (d, a) b -> peer s = true \/ a <> None) -> ~ In Fatal l ->
  let t := ready_loop s b l in calm t /\ length (wire t) + length (buffer t) + errors t = length (wire s) + length b + errors s /\
  (~ In OSError l -> errors t = errors s /\ wire t ++ buffer t = wire s ++ b).
Proof.
  induction b as [|[d a] b IH]; intros s l S1 C L G Z W B F; cbn [ready_loop].
  - cbn. rewrite C. split; [constructor; cbn; auto; try (intros ? ? []); try congruence|]. cbn. split; [reflexivity|auto].
  - rewrite tame_attempt by (try exact S1; apply (B d); left; reflexivity).
    assert (FT : ~ In Fatal (tl l)) by (intros X; apply F; destruct l; [destruct X|right; exact X]).
    destruct (hd Again l) eqn:X.
    + destruct (IH (took s (d, a)) (tl l)) as (M & E & O1); auto; [intros e c Y; apply (B e c); right; exact Y|]. split; [exact M|].
      cbn in E. rewrite app_length in E. cbn in E. split; [cbn; lia|]. intros O0. destruct O1 as [O2 O3]; [intros Y; apply O0; destruct l; [destruct Y|right; exact Y]|].
      split; [exact O2|]. rewrite O3. cbn. rewrite <- app_assoc. reflexivity.
    + split; [constructor; cbn; auto; intros e c Y; apply (B e c Y)|]. cbn. auto.
    + split; [constructor; cbn; auto; intros e c Y; apply (B e c); right; exact Y|]. cbn. split; [lia|]. intros O0. exfalso. apply O0. destruct l; [discriminate|]. cbn in X. subst. left. reflexivity.
    + exfalso. apply F. destruct l; [discriminate|]. cbn in X. subst. left. reflexivity.
Qed.

Lemma tame_step s a : calm s -> tame (peer s) (fixed s) a -> let t := fst (step s a) in
  calm t /\ length (wire t) + length (buffer t) + errors t = length (wire s) + length (buffer s) + errors s + length (asked (fixed s) a) /\
  (smooth (peer s) (fixed s) a -> errors t = errors s /\ wire t ++ buffer t = (wire s ++ buffer s) ++ asked (fixed s) a).
Proof.
  intros [S1 C L B W G Z] T. destruct a; cbn [step]; cbn in T; try contradiction.
  - destruct T as [X1 X2]. unfold send_to. destruct (Nat.eqb_spec d 0) as [->|D].
    { cbn. split; [constructor; assumption|]. rewrite app_nil_r. split; [lia|auto]. }
    rewrite asked_target by exact D. destruct (target s a) as [t|] eqn:E.
    2: { cbn. split; [constructor; assumption|]. rewrite app_nil_r. split; [lia|auto]. }
    assert (Tn : peer s = true \/ t <> None).
    { unfold target in E. destruct (fixed s) as [f|]; [right; destruct a as [g|]; [destruct (g =? f); [|discriminate]|]; injection E as <-; discriminate|].
      injection E as <-. destruct X2 as [X2|[X2|X2]]; auto; contradiction. }
    rewrite L. destruct (buffer s) as [|e b] eqn:Bf.
    + rewrite tame_attempt by assumption. destruct x; cbn.
      * split; [constructor; cbn; try rewrite Bf; auto; try (intros ? ? []); try congruence|]. rewrite Bf, app_length, !app_nil_r. cbn. split; [lia|auto].
      * split; [constructor; cbn; auto; intros e c [Y|[]]; injection Y as <- <-; exact Tn|]. split; [lia|]. rewrite app_nil_r. auto.
      * split; [constructor; cbn; try rewrite Bf; auto; try (intros ? ? []); try congruence|]. rewrite Bf. cbn. split; [lia|]. intros [_ Y]. cbn in Y. congruence.
      * congruence.
    + cbn [fst put wire buffer errors]. split.
      * constructor; cbn; auto. 2: { intros _. apply W. discriminate. }
        intros e' c Y. destruct Y as [Y|Y]; [apply (B e' c); left; exact Y|]. apply in_app_iff in Y. destruct Y as [Y|[Y|[]]]; [apply (B e' c); right; exact Y|]. injection Y as <- <-. exact Tn.
      * cbn. rewrite app_length. cbn. split; [lia|]. intros _. rewrite <- app_assoc. auto.
  - cbn [fst asked]. rewrite app_nil_r, Nat.add_0_r. destruct (writer s) eqn:Wr.
    + destruct (ready_calm (buffer s) s l S1 C L G Z Wr B T) as (M & E & O1). split; [exact M|]. split; [exact E|]. intros [_ Y]. apply O1. exact Y.
    + split; [constructor; auto; intros Y; apply W in Y; congruence|]. auto.
  - cbn [fst asked]. rewrite app_nil_r, Nat.add_0_r. split; [constructor; auto|]. auto.
  - rewrite Z. cbn [fst asked]. rewrite app_nil_r, Nat.add_0_r. split; [constructor; auto|auto].
Qed.

Lemma opened_calm p f : calm (opened p f).
Proof. constructor; cbn; auto; try (intros ? ? []); try congruence. Qed.

Lemma tame_run l : forall s, calm s -> Forall (tame (peer s) (fixed s)) l -> let t := run s l in
  calm t /\ length (wire t) + length (buffer t) + errors t = length (wire s) + length (buffer s) + errors s + length (requests (fixed s) l) /\
  (Forall (smooth (peer s) (fixed s)) l -> errors t = errors s /\ wire t ++ buffer t = (wire s ++ buffer s) ++ requests (fixed s) l).
Proof.
  induction l as [|a l IH]; intros s M T; cbn.
  - rewrite app_nil_r, Nat.add_0_r. auto.
  - inversion T as [|? ? Ta Tl]; subst. destruct (tame_step s a M Ta) as (M1 & E1 & O1). destruct (keep_fixed s a) as [K1 K2].
    destruct (IH (fst (step s a)) M1) as (M2 & E2 & O2); [rewrite K1, K2; exact Tl|]. rewrite K1, K2 in *. split; [exact M2|]. split.
    + fold (run (fst (step s a)) l). rewrite E2, E1, app_length. unfold requests. lia.
    + intros Sm. inversion Sm as [|? ? Sa Sl]; subst. destruct (O1 Sa) as [F1 F2]. destruct (O2 Sl) as [G1 G2]. fold (run (fst (step s a)) l). split; [congruence|].
      rewrite G2, F2, <- app_assoc. reflexivity.
Qed.

Lemma all_sent p f l : Forall (smooth p f) l -> let t := run (opened p f) l in
  wire t ++ buffer t = requests f l /\ errors t = 0 /\ (buffer t <> [] -> writer t = true).
Proof.
  intros H. destruct (tame_run l (opened p f) (opened_calm p f)) as (M & _ & O1); [eapply Forall_impl; [|exact H]; intros a []; assumption|].
  destruct (O1 H) as [E W]. split; [exact W|]. split; [exact E|]. apply m_writer. exact M.
Qed.

Lemma counted p f l : Forall (tame p f) l -> let t := run (opened p f) l in length (requests f l) = length (wire t) + length (buffer t) + errors t.
Proof. intros H. destruct (tame_run l (opened p f) (opened_calm p f) H) as (M & E & _). cbn in *. lia. Qed.

(** * Closing *)

Lemma drain : forall b s n, socket s = true -> closing s = true -> (forall d a, In (d, a) b -> peer s = true \/ a <> None) -> length b <= n ->
  let t := ready_loop s b (repeat Sent n) in wire t = wire s ++ b /\ buffer t = [] /\ socket t = false /\ told t = S (told s) /\ soon t = soon s.
Proof.
  induction b as [|[d a] b IH]; intros s n S1 C B L; cbn [ready_loop].
  - cbn. rewrite C, app_nil_r. cbn. rewrite S1. auto.
  - rewrite tame_attempt by (try exact S1; apply (B d); left; reflexivity). destruct n; [cbn in L; lia|]. cbn [hd tl repeat].
    destruct (IH (took s (d, a)) n) as (W & E & K & X & Y); auto; [intros e c Z; apply (B e c); right; exact Z|cbn in L; lia|].
    cbv zeta. rewrite W. cbn. rewrite <- app_assoc. auto.
Qed.

Lemma flushed p f l n : Forall (smooth p f) l -> length (requests f l) <= n ->
  let t := run (opened p f) (l ++ [Close; Ready (repeat Sent n); Soon]) in wire t = requests f l /\ socket t = false /\ told t = 1.
Proof.
  intros H N. destruct (tame_run l (opened p f) (opened_calm p f)) as (M & _ & O1); [eapply Forall_impl; [|exact H]; intros a []; assumption|].
  destruct (O1 H) as [_ W]. cbn [opened wire buffer app fixed] in W. unfold run. rewrite fold_left_app. fold (run (opened p f) l).
  assert (T0 : told (run (opened p f) l) = 0).
  { clear - H. assert (G : forall l s, calm s -> told s = 0 -> Forall (tame (peer s) (fixed s)) l -> told (run s l) = 0).
    { clear. induction l as [|a l IH]; intros s M Z T; cbn; [exact Z|]. inversion T as [|? ? Ta Tl]; subst. destruct (keep_fixed s a) as [K1 K2]. apply IH; [apply tame_step; assumption| |rewrite K1, K2; exact Tl].
      assert (R : forall b s l, closing s = false -> told (ready_loop s b l) = told s).
      { clear. induction b as [|[d a] b IH]; intros s l C; cbn; [rewrite C; reflexivity|]. destruct (attempt s a (hd Again l)); try reflexivity; [rewrite IH by exact C; reflexivity|].
        unfold fatal, force_close. cbn. destruct (lost s); reflexivity. }
      destruct M as [S1 C L B W G Y]. destruct a; cbn [step] in *; try (cbn in Ta; contradiction); try exact Z.
      - unfold send_to. destruct (d =? 0); [exact Z|]. destruct (target s a); [|exact Z]. rewrite L. destruct (buffer s); [|exact Z]. destruct (attempt s o x); try exact Z. unfold fatal, force_close. cbn. rewrite L. exact Z.
      - cbn [fst]. destruct (writer s); [|exact Z]. rewrite R by exact C. exact Z.
      - rewrite Y. exact Z. }
    apply G; [apply opened_calm|reflexivity|]. eapply Forall_impl; [|exact H]; intros a []; assumption. }
  destruct (run (opened p f) l) as [p1 f1 b c lo so w sn wi er lg td] eqn:R. destruct M as [S1 C L B Wr G Y]. cbn in S1, C, L, B, Wr, G, Y, W, T0. subst so c lo td sn.
  cbn [fold_left step closing buffer]. destruct b as [|e b].
  - rewrite app_nil_r in W. cbn. auto.
  - pose proof (Wr ltac:(discriminate)) as Wt. subst w. cbn [fst step writer buffer peer fixed closing lost socket soon wire errors logged told].
    edestruct (drain (e :: b) (mk_transport p1 f1 (e :: b) true false true true 0 wi er lg 0) n) as (D1 & D2 & D3 & D4 & D5); [reflexivity|reflexivity|exact B| |].
    { rewrite <- W, app_length in N. lia. }
    cbn [wire told soon] in D1, D4, D5. cbv zeta. rewrite D5. cbn [fst]. rewrite D1, D3, D4. auto.
Qed.

(** * Receiving *)

Lemma give_content l a d : forall b, flat_map (fun e => if fst e =? b then snd e else []) (give l a d) = flat_map (fun e : nat * list nat => if fst e =? b then snd e else []) l ++ (if a =? b then [d] else []) \/ ~ NoDup (map fst l).
Proof.
  induction l as [|[c ds] l IH]; intros b; cbn.
  - left. destruct (a =? b); reflexivity.
  - destruct (Nat.eqb_spec c a) as [->|N].
    + cbn. destruct (Nat.eqb_spec a b) as [->|N2]; [|left; rewrite app_nil_r; reflexivity].
      destruct (in_dec Nat.eq_dec b (map fst l)) as [I1|I1]; [right; intros X; inversion X; contradiction|]. left.
      replace (flat_map _ l) with (@nil nat); [rewrite !app_nil_r; reflexivity|]. clear IH. induction l as [|[x y] l IH]; [reflexivity|]. cbn in *.
      destruct (Nat.eqb_spec x b); [exfalso; auto|]. apply IH. tauto.
    + cbn. destruct (IH b) as [E|E]; [left; rewrite E, app_assoc; reflexivity|]. right. intros X. inversion X; contradiction.
Qed.

Lemma give_keys l a d : forall x, In x (map fst (give l a d)) <-> x = a \/ In x (map fst l).
Proof.
  induction l as [|[c ds] l IH]; intros x; cbn; [split; intros H; intuition|]. destruct (Nat.eqb_spec c a) as [->|N]; cbn; [intuition|]. rewrite IH. intuition.
Qed.
Lemma give_nodup l a d : NoDup (map fst l) -> NoDup (map fst (give l a d)).
Proof.
  induction l as [|[c ds] l IH]; intros H; cbn; [constructor; [intros []|constructor]|]. cbn in H. inversion H as [|? ? X Y]; subst. destruct (Nat.eqb_spec c a) as [->|N]; cbn; [constructor; assumption|].
  constructor; [|apply IH; exact Y]. rewrite give_keys. intros [Z|Z]; [congruence|contradiction].
Qed.

Record right (l : list pop) (r : readers) : Prop := mk_right {
  r_nodup : NoDup (map fst (by_address r));
  r_keys : forall a, In a (map fst (by_address r)) <-> sender a l;
  r_content : forall a, content r a = from a l;
  r_results : forall i x, In (i, x) (results r) -> match x with Pair a p => p = a /\ sender a l /\ In (Wait i None) l | Protocol p => sender p l /\ exists a, In (Wait i (Some a)) l | TimedOut => In (Expire i) l end;
  r_waiters : forall i a, In (i, a) (waiters r) -> In (Wait i a) l
}.

Lemma from_app a l m : from a (l ++ m) = from a l ++ from a m.
Proof. apply flat_map_app. Qed.

Lemma known_in l a : known l a = true <-> In a (map fst l).
Proof.
  unfold known. rewrite existsb_exists, in_map_iff. split.
  - intros (e & I1 & E). apply Nat.eqb_eq in E. exists e. auto.
  - intros (e & E & I1). exists e. split; [exact I1|apply Nat.eqb_eq; exact E].
Qed.

Lemma sender_more a l m : sender a l -> sender a (l ++ m).
Proof. intros (d & H). exists d. apply in_or_app. left. exact H. Qed.

Lemma right_weaken l r e : right l r -> (forall d a, e <> Receive d a) -> right (l ++ [e]) r.
Proof.
  intros [D K C R W] N. constructor; auto.
  - intros a. rewrite K. split; [apply sender_more|]. intros (d & H). apply in_app_iff in H. destruct H as [H|[H|[]]]; [exists d; exact H|]. destruct (N _ _ H).
  - intros a. rewrite C, from_app. destruct e; cbn; rewrite ?app_nil_r; try reflexivity. destruct (N d a0 eq_refl).
  - intros i x H. specialize (R i x H). destruct x.
    + destruct R as (R1 & R2 & R3). split; [exact R1|]. split; [apply sender_more; exact R2|apply in_or_app; left; exact R3].
    + destruct R as (R1 & a & R2). split; [apply sender_more; exact R1|exists a; apply in_or_app; left; exact R2].
    + apply in_or_app. left. exact R.
  - intros i a H. apply in_or_app. left. apply W. exact H.
Qed.

Lemma right_step l r e : right l r -> right (l ++ [e]) (pstep r e).
Proof.
  intros H. destruct e as [d a|i [a|]|i|]; cbn [pstep].
  - destruct H as [D K C R W]. constructor; cbn [by_address results waiters].
    + apply give_nodup. exact D.
    + intros b. rewrite give_keys, K. split.
      * intros [->|X]; [exists d; apply in_or_app; right; left; reflexivity|apply sender_more; exact X].
      * intros (d' & X). apply in_app_iff in X. destruct X as [X|[X|[]]]; [right; exists d'; exact X|]. injection X as _ ->. left. reflexivity.
    + intros b. unfold content in *. cbn. destruct (give_content (by_address r) a d b) as [E|E]; [|contradiction]. rewrite E, C, from_app. cbn. rewrite app_nil_r. reflexivity.
    + intros i x X. apply in_app_iff in X. destruct X as [X|X].
      * specialize (R i x X). destruct x.
        -- destruct R as (R1 & R2 & R3). split; [exact R1|]. split; [apply sender_more; exact R2|apply in_or_app; left; exact R3].
        -- destruct R as (R1 & c & R2). split; [apply sender_more; exact R1|exists c; apply in_or_app; left; exact R2].
        -- apply in_or_app. left. exact R.
      * apply in_map_iff in X. destruct X as ([j b] & X & Y). unfold woken in X. cbn in X. injection X as -> <-. apply W in Y.
        assert (Z : sender a (l ++ [Receive d a])) by (exists d; apply in_or_app; right; left; reflexivity).
        destruct b as [b|]; [split; [exact Z|exists b; apply in_or_app; left; exact Y]|]. split; [reflexivity|]. split; [exact Z|apply in_or_app; left; exact Y].
    + intros i b [].
  - pose proof (right_weaken l r (Wait i (Some a)) H ltac:(intros; discriminate)) as [D K C R W]. assert (I1 : In (Wait i (Some a)) (l ++ [Wait i (Some a)])) by (apply in_or_app; right; left; reflexivity).
    destruct (known (by_address r) a) eqn:E; constructor; cbn [by_address results waiters]; auto.
    + intros j x X. apply in_app_iff in X. destruct X as [X|[X|[]]]; [apply R; exact X|]. injection X as <- <-. split; [apply K; apply known_in; exact E|exists a; exact I1].
    + intros j x X. apply in_app_iff in X. destruct X as [X|[X|[]]]; [apply W; exact X|]. injection X as <- <-. exact I1.
  - pose proof (right_weaken l r (Wait i None) H ltac:(intros; discriminate)) as [D K C R W]. assert (I1 : In (Wait i None) (l ++ [Wait i None])) by (apply in_or_app; right; left; reflexivity).
    unfold content in C. destruct (by_address r) as [|[a ds] b] eqn:E; constructor; cbn [by_address results waiters]; auto.
    + intros j x X. apply in_app_iff in X. destruct X as [X|[X|[]]]; [apply W; exact X|]. injection X as <- <-. exact I1.
    + intros j x X. apply in_app_iff in X. destruct X as [X|[X|[]]]; [apply R; exact X|]. injection X as <- <-. split; [reflexivity|]. split; [apply K; left; reflexivity|exact I1].
  - pose proof (right_weaken l r (Expire i) H ltac:(intros; discriminate)) as [D K C R W]. destruct (existsb (fun w => fst w =? i) (waiters r)); [|constructor; auto]. constructor; cbn [by_address results waiters]; auto.
    + intros j x X. apply in_app_iff in X. destruct X as [X|[X|[]]]; [apply R; exact X|]. injection X as <- <-. apply in_or_app. right. left. reflexivity.
    + intros j x X. apply filter_In in X. apply W. apply X.
  - pose proof (right_weaken l r Lose H ltac:(intros; discriminate)) as [D K C R W]. constructor; auto.
Qed.

Lemma right_run m : forall l r, right l r -> right (l ++ m) (prun r m).
Proof.
  induction m as [|e m IH]; intros l r H; cbn; [rewrite app_nil_r; exact H|].
  replace (l ++ e :: m) with ((l ++ [e]) ++ m) by (rewrite <- app_assoc; reflexivity). apply IH. apply right_step. exact H.
Qed.
Lemma always_right l : right l (prun no_readers l).
Proof.
  apply (right_run l []). constructor; cbn; auto; try (intros ? ? []); [constructor|]. intros a. split; [intros []|intros (d & [])].
Qed.

Lemma separate l a : content (prun no_readers l) a = from a l.
Proof. apply always_right. Qed.

Lemma pairs l i a p : In (i, Pair a p) (results (prun no_readers l)) -> p = a /\ sender a l.
Proof. intros H. apply always_right in H. cbn in H. tauto. Qed.

Lemma own l i b a : call_of i a l -> In (i, b) (results (prun no_readers l)) -> match b with Pair _ _ => a = None | Protocol _ => a <> None | TimedOut => In (Expire i) l end.
Proof.
  intros C H. apply always_right in H. destruct b; [|destruct H as (_ & c & H); apply C in H; congruence|exact H]. destruct H as (_ & _ & H). apply C in H. congruence.
Qed.

(** A call for an address which has sent already, and one for any address once something came, return at once. *)
Lemma at_once l i a : sender a l -> In (i, Protocol a) (results (prun no_readers (l ++ [Wait i (Some a)]))).
Proof.
  intros H. unfold prun. rewrite fold_left_app. fold (prun no_readers l). cbn. pose proof (always_right l) as [_ K _ _ _]. apply K in H. apply known_in in H. rewrite H. cbn. apply in_or_app. right. left. reflexivity.
Qed.
Lemma at_once_any l i b : sender b l -> exists a, sender a l /\ In (i, Pair a a) (results (prun no_readers (l ++ [Wait i None]))).
Proof.
  intros H. unfold prun. rewrite fold_left_app. fold (prun no_readers l). cbn. pose proof (always_right l) as [_ K _ _ _]. apply K in H.
  destruct (by_address (prun no_readers l)) as [|[a ds] r] eqn:E; [destruct H|]. exists a. split; [apply K; left; reflexivity|]. apply in_or_app. right. left. reflexivity.
Qed.

(** What comes next ends every waiting call. *)
Lemma next_wakes l d a i : In (i, None) (waiters (prun no_readers l)) -> In (i, Pair a a) (results (prun no_readers (l ++ [Receive d a]))) /\ waiters (prun no_readers (l ++ [Receive d a])) = [].
Proof.
  intros H. unfold prun. rewrite fold_left_app. fold (prun no_readers l). cbn. split; [|reflexivity]. apply in_or_app. right. apply in_map_iff. exists (i, None). auto.
Qed.
Lemma waits_for_any l i : (forall a, ~ sender a l) -> In (i, None) (waiters (prun no_readers (l ++ [Wait i None]))).
Proof.
  intros H. unfold prun. rewrite fold_left_app. fold (prun no_readers l). cbn. pose proof (always_right l) as [_ K _ _ _].
  destruct (by_address (prun no_readers l)) as [|[a ds] r] eqn:E; [|destruct (H a); apply K; left; reflexivity]. cbn. apply in_or_app. right. left. reflexivity.
Qed.

Lemma wrong_address : exists l i a b, call_of i (Some a) l /\ a <> b /\ ~ sender a l /\ In (i, Protocol b) (results (prun no_readers l)).
Proof.
  exists [Wait 1 (Some 5); Receive 9 6], 1, 5, 6. split; [|split; [discriminate|split]].
  - intros b [H|[H|[]]]; [congruence|discriminate].
  - intros (d & [H|[H|[]]]); discriminate.
  - cbn. left. reflexivity.
Qed.

(** Once the connection is lost nothing is received any more: who waits, waits for ever. *)
Lemma lost_waits l m i a : In (i, a) (waiters (prun no_readers l)) -> (forall e, In e m -> e = Lose \/ exists j b, e = Wait j b) -> In (i, a) (waiters (prun no_readers (l ++ Lose :: m))).
Proof.
  intros H M. unfold prun. rewrite fold_left_app. fold (prun no_readers l). cbn [fold_left].
  assert (G : forall m r, In (i, a) (waiters r) -> (forall e, In e m -> e = Lose \/ exists j b, e = Wait j b) -> In (i, a) (waiters (fold_left pstep m r))).
  { clear. induction m as [|e m IH]; intros r H M; [exact H|]. cbn. apply IH; [|intros e' X; apply M; right; exact X]. destruct (M e (or_introl eq_refl)) as [->|(j & [b|] & ->)]; cbn; [exact H| |].
    - destruct (known (by_address r) b); cbn; [exact H|]. apply in_or_app. left. exact H.
    - destruct (by_address r) as [|[? ?] ?]; cbn; [apply in_or_app; left|]; exact H. }
  apply G; [exact H|exact M].
Qed.
Lemma lost_refuted : exists l i, In (Wait i None) l /\ In Lose l /\ (forall m, (forall e, In e m -> e = Lose \/ exists j b, e = Wait j b) -> In (i, None) (waiters (prun no_readers (l ++ m)))).
Proof.
  exists [Wait 1 None; Lose], 1. split; [left; reflexivity|]. split; [right; left; reflexivity|]. intros m M.
  apply (lost_waits [Wait 1 None] m 1 None); [left; reflexivity|exact M].
Qed.

(** * After the connection is lost *)

Definition one (s : transport) : Prop := told s = if socket s then 0 else 1.
Lemma fatal_one s : one s -> one (fatal s) /\ socket (fatal s) = socket s.
Proof. unfold one, fatal, force_close. cbn. destruct (lost s); cbn; auto. Qed.
Lemma lost_one s : one s -> one (call_lost s).
Proof. unfold one. cbn. destruct (socket s); lia. Qed.
Lemma ready_one : forall b s l, one s -> one (ready_loop s b l).
Proof.
  induction b as [|[d a] b IH]; intros s l H; cbn [ready_loop].
  - destruct (closing (put s [] false)); [apply lost_one|]; exact H.
  - destruct (attempt s a (hd Again l)); [apply IH; exact H|exact H|exact H|apply fatal_one; exact H].
Qed.
Lemma step_one s a : one s -> one (fst (step s a)).
Proof.
  intros H. destruct a; cbn [step fst]; try exact H.
  - unfold send_to. destruct (d =? 0); [exact H|]. destruct (target s a); [|exact H]. destruct (lost s); [exact H|]. destruct (buffer s); [|exact H].
    destruct (attempt s o x); try exact H. apply fatal_one. exact H.
  - destruct (writer s); [apply ready_one|]; exact H.
  - destruct (closing s); [exact H|]. destruct (buffer s); exact H.
  - unfold force_close. destruct (lost s); exact H.
  - destruct (soon s); [exact H|]. apply lost_one. exact H.
Qed.
Lemma run_one l : forall s, one s -> one (run s l).
Proof. induction l as [|a l IH]; intros s H; [exact H|]. apply (IH (fst (step s a))). apply step_one. exact H. Qed.

Lemma told_once p f l : told (run (opened p f) l) <= 1.
Proof. assert (H : one (run (opened p f) l)) by (apply run_one; reflexivity). unfold one in H. rewrite H. destruct (socket _); lia. Qed.

Lemma dead_ready : forall b s l, socket s = false -> wire (ready_loop s b l) = wire s /\ socket (ready_loop s b l) = false.
Proof.
  intros [|[d a] b] s l S1; cbn [ready_loop].
  - destruct (closing (put s [] false)); cbn; auto.
  - unfold attempt. rewrite S1. unfold fatal, force_close. cbn. destruct (lost s); cbn; auto.
Qed.
Lemma dead_step s a : socket s = false -> wire (fst (step s a)) = wire s /\ socket (fst (step s a)) = false.
Proof.
  intros S1. destruct a; cbn [step fst]; auto.
  - unfold send_to. destruct (d =? 0); [auto|]. destruct (target s a); [|auto]. destruct (lost s) eqn:L; [auto|]. destruct (buffer s); [|cbn; auto].
    unfold attempt. rewrite S1. unfold fatal, force_close. cbn. rewrite L. cbn. auto.
  - destruct (writer s); [apply dead_ready|]; auto.
  - destruct (closing s); [auto|]. destruct (buffer s); cbn; auto.
  - unfold force_close. destruct (lost s); cbn; auto.
  - destruct (soon s); cbn; auto.
Qed.
Lemma silent p f l m : 1 <= told (run (opened p f) l) -> wire (run (opened p f) (l ++ m)) = wire (run (opened p f) l).
Proof.
  intros T. assert (H : one (run (opened p f) l)) by (apply run_one; reflexivity). unfold one in H.
  assert (S1 : socket (run (opened p f) l) = false) by (destruct (socket _); [lia|reflexivity]). clear H T.
  unfold run at 1. rewrite fold_left_app. fold (run (opened p f) l). revert S1. generalize (run (opened p f) l). induction m as [|a m IH]; intros s S1; [reflexivity|].
  cbn. destruct (dead_step s a S1) as [W S2]. rewrite <- W. apply IH. exact S2.
Qed.
