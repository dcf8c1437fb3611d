From Coq Require Import List Arith Bool Lia Permutation.
From Verif Require Import PoolModel PoolSpec.
Import ListNotations.

(** * The basket dictionary *)

Section Flat.
  Context {A : Type} (f : basket -> list A) (f_empty : f empty_basket = []).

  Definition all (d : baskets) : list A := flat_map (fun kb => f (snd kb)) d.

  Lemma all_set d k b : Permutation (all (bset d k b)) (f b ++ all (bdel d k)).
  Proof.
    induction d as [|[k' b'] d IH]; cbn [bset bdel]; [unfold all; cbn; now rewrite app_nil_r |].
    destruct (keq k' k); [reflexivity|]. cbn. fold (all (bset d k b)) (all (bdel d k)).
    rewrite IH, !app_assoc. apply Permutation_app_tail, Permutation_app_comm.
  Qed.

  Lemma all_get d k b : bget d k = Some b -> Permutation (all d) (f b ++ all (bdel d k)).
  Proof.
    induction d as [|[k' b'] d IH]; cbn [bget bdel]; [discriminate|].
    destruct (keq k' k) eqn:E; intros H; [injection H as ->; reflexivity|].
    cbn. fold (all d) (all (bdel d k)). rewrite (IH H), !app_assoc. apply Permutation_app_tail, Permutation_app_comm.
  Qed.

  Lemma bdel_none d k : bget d k = None -> bdel d k = d.
  Proof.
    induction d as [|[k' b'] d IH]; cbn [bget bdel]; [reflexivity|]. destruct (keq k' k); [discriminate|]. intros H. now rewrite IH.
  Qed.

  Lemma all_get_new d k : Permutation (all d) (f (bget_new d k) ++ all (bdel d k)).
  Proof.
    unfold bget_new. destruct (bget d k) eqn:E; [now apply all_get|]. now rewrite f_empty, bdel_none.
  Qed.

  Lemma all_keep d k b : (basket_bool b = false -> f b = []) -> Permutation (all (bkeep d k b)) (f b ++ all (bdel d k)).
  Proof.
    intros H. unfold bkeep. destruct (basket_bool b); [apply all_set|]. now rewrite H.
  Qed.
End Flat.
Arguments all : simpl never.

Definition ids (b : basket) : list nat := map proto_of (available b).

Lemma bool_false b : basket_bool b = false -> available b = [] /\ used b = [].
Proof. unfold basket_bool. destruct (available b), (used b); cbn; now intros. Qed.

Lemma bool_ids b : basket_bool b = false -> ids b = [].
Proof. intros H. unfold ids. now rewrite (proj1 (bool_false b H)). Qed.

Lemma bool_used b : basket_bool b = false -> used b = [].
Proof. intros H. now apply bool_false. Qed.

(** * Taking from the pool *)

Lemma take_lowest_perm l i l' : take_lowest l = Some (i, l') -> Permutation l (i :: l').
Proof.
  revert i l'; induction l as [|x l IH]; intros i l'; cbn [take_lowest]; [discriminate|].
  destruct (take_lowest l) as [[h r]|] eqn:E.
  - specialize (IH _ _ eq_refl). destruct (Nat.ltb _ _); intros H; injection H as <- <-; [|reflexivity].
    rewrite IH. apply perm_swap.
  - intros H; injection H as <- <-. destruct l; [reflexivity|]. cbn [take_lowest] in E. destruct (take_lowest l) as [[? ?]|]; [destruct (Nat.ltb _ _)|]; discriminate.
Qed.

Lemma take_lowest_min l i l' : take_lowest l = Some (i, l') -> forall j, In j l' -> expiration i <= expiration j.
Proof.
  revert i l'; induction l as [|x l IH]; intros i l'; cbn [take_lowest]; [discriminate|].
  destruct (take_lowest l) as [[h r]|] eqn:E.
  - specialize (IH _ _ eq_refl). pose proof (take_lowest_perm _ _ _ E) as P.
    destruct (Nat.ltb (expiration h) (expiration x)) eqn:L; intros H; injection H as <- <-; intros j J.
    + apply Nat.ltb_lt in L. destruct J as [<-|J]; [lia|auto].
    + apply Nat.ltb_ge in L. apply (Permutation_in _ P) in J as [<-|J]; [lia|]. specialize (IH j J). lia.
  - intros H; injection H as <- <-. intros j [].
Qed.

Lemma take_lowest_none l : take_lowest l = None -> l = [].
Proof. destruct l; [reflexivity|]. cbn [take_lowest]. destruct (take_lowest l) as [[? ?]|]; [destruct (Nat.ltb _ _)|]; discriminate. Qed.

Lemma close_one_same s i : close_one s i i = closed_proto (s i).
Proof. unfold close_one, update. now rewrite Nat.eqb_refl. Qed.
Lemma close_one_other s i j : j <> i -> close_one s i j = s j.
Proof. intros H. unfold close_one, update. now rewrite (proj2 (Nat.eqb_neq j i)). Qed.

(** Closing a protocol changes no more than that. *)
Definition same_but_closing (s t : protos) : Prop :=
  forall i, transport (t i) = transport (s i) /\ payload (t i) = payload (s i) /\ exception (t i) = exception (s i) /\
    at_eof (t i) = at_eof (s i) /\ buffered (t i) = buffered (s i) /\ lost (t i) = lost (s i) /\ (closing (s i) = true -> closing (t i) = true).

Lemma sbc_refl s : same_but_closing s s.
Proof. intros i. repeat split; auto. Qed.
Lemma sbc_trans s t u : same_but_closing s t -> same_but_closing t u -> same_but_closing s u.
Proof.
  intros A B i. specialize (A i). specialize (B i). destruct A as (?&?&?&?&?&?&?), B as (?&?&?&?&?&?&?).
  repeat split; try congruence. auto.
Qed.
Lemma sbc_close s i : same_but_closing s (close_one s i).
Proof.
  intros j. destruct (Nat.eq_dec j i) as [->|N]; [rewrite close_one_same|rewrite (close_one_other _ _ _ N); repeat split; auto].
  unfold closed_proto; cbn. repeat split; auto. now intros ->.
Qed.
Lemma sbc_should s t i : same_but_closing s t -> should_close (t i) = should_close (s i).
Proof. intros H. destruct (H i) as (A&B&C&D&E&_). unfold should_close. now rewrite B, C, D, E. Qed.

Lemma pop_items_sbc n k now s l s' l' r : pop_items n k now s l = (s', l', r) -> same_but_closing s s'.
Proof.
  revert s l; induction n as [|n IH]; intros s l; cbn [pop_items].
  - intros H; injection H as <- <- <-. apply sbc_refl.
  - destruct (take_lowest l) as [[h q]|]; [|intros H; injection H as <- <- <-; apply sbc_refl].
    destruct (negb _); [apply IH|]. destruct (_ || _); [|intros H; injection H as <- <- <-; apply sbc_refl].
    intros H. eapply sbc_trans; [apply sbc_close|]. eapply IH, H.
Qed.

(** What it takes out: a usable one of the lowest expiration among the usable ones; all others it takes out it closes. *)
Definition dropped_ok (s s' : protos) (now : nat) (i : item) : Prop :=
  ~ usable s now i /\ (transport (s (proto_of i)) = true -> closing (s' (proto_of i)) = true).

Lemma pop_items_spec n k now : forall s l s' l' r, length l <= n -> pop_items n k now s l = (s', l', r) ->
  exists dropped,
    match r with
    | None => l' = [] /\ Permutation l dropped
    | Some (p, m) => exists i, p = proto_of i /\ m = performed i /\ Permutation l (i :: dropped ++ l') /\ usable s now i /\
        forall j, In j l' -> expiration i <= expiration j
    end /\ Forall (dropped_ok s s' now) dropped.
Proof.
  induction n as [|n IH]; intros s l s' l' r L; cbn [pop_items].
  - destruct l; [|cbn in L; lia]. intros H; injection H as <- <- <-. exists []. repeat split; auto.
  - destruct (take_lowest l) as [[h q]|] eqn:E.
    2:{ intros H; injection H as <- <- <-. apply take_lowest_none in E as ->. exists []. repeat split; auto. }
    pose proof (take_lowest_perm _ _ _ E) as P. pose proof (take_lowest_min _ _ _ E) as M.
    assert (Q : length q <= n) by (apply Permutation_length in P; cbn in P; lia).
    assert (G : forall t, same_but_closing s t -> (transport (s (proto_of h)) = true -> closing (t (proto_of h)) = true) ->
      ~ usable s now h -> pop_items n k now t q = (s', l', r) ->
      exists dropped,
        match r with
        | None => l' = [] /\ Permutation l dropped
        | Some (p, m) => exists i, p = proto_of i /\ m = performed i /\ Permutation l (i :: dropped ++ l') /\ usable s now i /\
            forall j, In j l' -> expiration i <= expiration j
        end /\ Forall (dropped_ok s s' now) dropped).
    { intros t ST HC HU HP. pose proof (pop_items_sbc _ _ _ _ _ _ _ _ HP) as ST'.
      assert (UU : forall i, usable t now i <-> usable s now i).
      { intros i. unfold usable. rewrite (sbc_should _ _ _ ST). destruct (ST (proto_of i)) as (->&_). tauto. }
      apply IH in HP; [|assumption]. destruct HP as (dr & HR & HF). exists (h :: dr). split.
      - destruct r as [[p m]|].
        + destruct HR as (i & -> & -> & HPm & HUi & HM). exists i. split; [reflexivity|]. split; [reflexivity|].
          split; [rewrite P, HPm; apply perm_swap|]. split; [now apply UU|assumption].
        + destruct HR as (-> & HPm). split; [reflexivity|]. now rewrite P, HPm.
      - constructor.
        + split; [assumption|]. intros TR. destruct (ST' (proto_of h)) as (_&_&_&_&_&_&C). auto.
        + eapply Forall_impl; [|exact HF]. intros i [A B]. split; [now rewrite <- UU|]. intros TR. apply B.
          destruct (ST (proto_of i)) as (->&_). assumption. }
    destruct (transport (s (proto_of h))) eqn:TR; cbn [negb].
    2:{ apply G; [apply sbc_refl|discriminate|]. intros (U&_). congruence. }
    destruct (Nat.ltb (expiration h) now || should_close (s (proto_of h))) eqn:EX.
    + apply G; [apply sbc_close| |].
      * intros _. rewrite close_one_same. unfold closed_proto; cbn. rewrite TR. apply orb_true_r.
      * intros (_&SC&LE). rewrite SC in EX. rewrite orb_false_r in EX. apply Nat.ltb_lt in EX. lia.
    + intros H; injection H as <- <- <-. apply orb_false_iff in EX as [EX SC]. apply Nat.ltb_ge in EX.
      exists []. split; [|constructor]. exists h. repeat split; auto.
Qed.

(** * Who has which protocol *)

Definition conn_ids (l : list connection) : list nat := flat_map (fun c => match conn_proto c with Some p => [p] | None => [] end) l.
Definition avail (s : state) : list nat := all ids (hosts s).
Definition everyone (s : state) : list nat := avail s ++ conn_ids (conns s) ++ detached s.

(** The ids which the pool, the connections and the detached have. [P]: none was added; each one which left satisfies [Q]. *)
Definition inv (s : state) : Prop := NoDup (everyone s) /\ Forall (fun p => p < next s) (everyone s).

Definition shrinks (l l' : list nat) : Prop := exists gone, Permutation l (gone ++ l').

Lemma shrinks_refl l : shrinks l l.
Proof. now exists []. Qed.
Lemma shrinks_perm l l' : Permutation l l' -> shrinks l l'.
Proof. now exists []. Qed.
Lemma shrinks_app a b a' b' : shrinks a a' -> shrinks b b' -> shrinks (a ++ b) (a' ++ b').
Proof.
  intros [g G] [h H]. exists (g ++ h). rewrite G, H, <- !app_assoc. apply Permutation_app_head.
  rewrite !app_assoc. apply Permutation_app_tail, Permutation_app_comm.
Qed.
Lemma shrinks_trans a b c : shrinks a b -> shrinks b c -> shrinks a c.
Proof. intros [g G] [h H]. exists (g ++ h). rewrite G, H. now rewrite app_assoc. Qed.

Lemma NoDup_app_r {A} (a b : list A) : NoDup (a ++ b) -> NoDup b.
Proof. induction a; [auto|]. intros H. inversion H; subst. auto. Qed.

Lemma inv_shrinks s s' : shrinks (everyone s) (everyone s') -> next s <= next s' -> inv s -> inv s'.
Proof.
  intros [g G] N [A B]. split.
  - apply (Permutation_NoDup G) in A. now apply NoDup_app_r in A.
  - apply Forall_forall. intros p P. rewrite Forall_forall in B. assert (X : p < next s); [|lia].
    apply B. apply (Permutation_in _ (Permutation_sym G)), in_app_iff. now right.
Qed.

Lemma conn_ids_app a b : conn_ids (a ++ b) = conn_ids a ++ conn_ids b.
Proof. apply flat_map_app. Qed.

Lemma conn_ids_clear l c k p : nth_error l c = Some k -> conn_proto k = Some p ->
  Permutation (conn_ids l) (p :: conn_ids (nth_update l c {| conn_key := conn_key k; conn_proto := None; conn_performed := conn_performed k |})).
Proof.
  revert c; induction l as [|x l IH]; intros [|c]; cbn; try discriminate.
  - intros H; injection H as ->. intros ->. reflexivity.
  - intros H P. specialize (IH c H P). unfold conn_ids in IH. rewrite IH. destruct (conn_proto x); [apply perm_swap|reflexivity].
Qed.

Lemma held_by_spec s c k p n : held_by s c = Some (k, p, n) ->
  Permutation (conn_ids (conns s)) (p :: conn_ids (conns (clear_conn s c))) /\ hosts (clear_conn s c) = hosts s /\ stat (clear_conn s c) = stat s /\
  next (clear_conn s c) = next s /\ closed (clear_conn s c) = closed s /\ detached (clear_conn s c) = detached s /\ handle (clear_conn s c) = handle s.
Proof.
  unfold held_by, clear_conn. destruct (nth_error (conns s) c) as [x|] eqn:E; [|discriminate].
  destruct (conn_proto x) eqn:P; [|discriminate]. intros H; injection H as <- <- <-. cbn. split; [|auto 7]. now apply conn_ids_clear.
Qed.

(** ** The parts of the operations *)

Lemma avail_set d k b : Permutation (all ids (bset d k b)) (ids b ++ all ids (bdel d k)).
Proof. apply all_set. Qed.

Lemma pop_available_spec s k now s' r : pop_available s k now = (s', r) ->
  exists dropped, Permutation (avail s) (match r with Some (p, _) => [p] | None => [] end ++ dropped ++ avail s') /\
  conns s' = conns s /\ detached s' = detached s /\ next s' = next s /\ closed s' = closed s /\ handle s' = handle s /\
  Permutation (all used (hosts s')) (all used (hosts s)) /\ same_but_closing (stat s) (stat s') /\
  Forall (fun p => transport (stat s p) = true -> closing (stat s' p) = true) dropped.
Proof.
  unfold pop_available. destruct (bget (hosts s) k) as [b|] eqn:E.
  2:{ intros H; injection H as <- <-. exists []. cbn. repeat split; auto; apply sbc_refl. }
  destruct (pop_items (length (available b)) k now (stat s) (available b)) as [[t l] r'] eqn:P.
  intros H; injection H as <- <-. pose proof (pop_items_sbc _ _ _ _ _ _ _ _ P) as SB.
  apply pop_items_spec in P; [|reflexivity]. destruct P as (dr & HR & HF). exists (map proto_of dr). cbn. split; [|split; [reflexivity|]; split; [reflexivity|]; split; [reflexivity|]; split; [reflexivity|]; split; [reflexivity|]; split; [|split; [exact SB|]]].
  - unfold avail; cbn [hosts with_hosts]. rewrite (all_get ids _ _ _ E), (all_keep ids) by (apply bool_ids). unfold ids at 1 3; cbn [available].
    destruct r' as [[p m]|].
    + destruct HR as (i & -> & -> & HP & _). rewrite HP. cbn. rewrite map_app, <- app_assoc. reflexivity.
    + destruct HR as (-> & HP). rewrite HP. reflexivity.
  - rewrite (all_keep used) by (apply bool_used). cbn. symmetry. now apply all_get.
  - apply Forall_map. eapply Forall_impl; [|exact HF]. intros i [_ A]. exact A.
Qed.

Lemma connected_avail s k p n : Permutation (avail (connected s k p n)) (avail s).
Proof.
  unfold avail, connected; cbn. rewrite all_set. rewrite (all_get_new ids eq_refl (hosts s) k). reflexivity.
Qed.

Lemma release_used_avail s k p : Permutation (avail (release_used s k p)) (avail s).
Proof.
  unfold release_used. destruct (closed s); [reflexivity|]. destruct (bget (hosts s) k) as [b|] eqn:E; [|reflexivity].
  unfold avail; cbn. rewrite (all_keep ids) by (apply bool_ids). symmetry. now rewrite (all_get ids _ _ _ E).
Qed.

Lemma release_used_same s k p :
  let s' := release_used s k p in
  stat s' = stat s /\ next s' = next s /\ closed s' = closed s /\ handle s' = handle s /\ conns s' = conns s /\ detached s' = detached s.
Proof. unfold release_used. destruct (closed s) eqn:C; [repeat split; assumption|]. destruct (bget (hosts s) k); cbn; repeat split; try assumption; reflexivity. Qed.

Lemma release_spec force s k p close timeout n now :
  let s' := release force s k p close timeout n now in
  next s' = next s /\ conns s' = conns s /\ detached s' = detached s /\ shrinks (p :: avail s) (avail s').
Proof.
  unfold release. destruct (closed s); [repeat split; auto; now exists [p]|].
  destruct (release_used_same s k p) as (A&B&C&D&E&F). pose proof (release_used_avail s k p) as G.
  set (t := release_used s k p) in *. clearbody t. cbn zeta.
  destruct (close || force || should_close (stat t p)); cbn; repeat split; auto.
  - exists [p]. unfold avail at 2; cbn. fold (avail t). now rewrite G.
  - apply shrinks_perm. unfold avail at 2; cbn. rewrite all_set. unfold add_available, ids at 1; cbn. rewrite map_app; cbn.
    rewrite <- app_assoc. cbn. rewrite <- Permutation_middle. constructor. rewrite <- G. apply (all_get_new ids eq_refl).
Qed.

Lemma clean_items_shrinks k now s l : shrinks (map proto_of l) (map proto_of (snd (clean_items k now s l))).
Proof.
  induction l as [|i l IH]; [apply shrinks_refl|]. cbn [clean_items]. destruct (clean_items k now s l) as [t r]; cbn [snd map] in *.
  destruct (Nat.ltb now (expiration i)); cbn; destruct IH as [g G].
  - exists g. rewrite G. apply Permutation_middle.
  - exists (proto_of i :: g). now rewrite G.
Qed.

Lemma clean_hosts_shrinks now s d : shrinks (all ids d) (all ids (snd (clean_hosts now s d))).
Proof.
  revert s; induction d as [|[k b] d IH]; intros s; [apply shrinks_refl|]. cbn.
  pose proof (clean_items_shrinks k now s (available b)) as H. destruct (clean_items k now s (available b)) as [t l]; cbn in H.
  specialize (IH t). destruct (clean_hosts now t d) as [u d']; cbn in IH.
  set (b' := {| available := l; used := used b |}).
  cbn [snd]. change (all ids ((k, b) :: d)) with (ids b ++ all ids d).
  assert (X : shrinks (ids b ++ all ids d) (ids b' ++ all ids d')) by (now apply shrinks_app).
  destruct (basket_bool b') eqn:E; [exact X|]. now rewrite (bool_ids _ E) in X.
Qed.

Lemma inv_perm s l : inv s -> Permutation (everyone s) l -> NoDup l /\ Forall (fun p => p < next s) l.
Proof.
  intros [A B] P. split; [now apply (Permutation_NoDup P)|]. now apply (Permutation_Forall P).
Qed.

Lemma release_inv force s c k p n cl tm m now : held_by s c = Some (k, p, n) -> inv s -> inv (release force (clear_conn s c) k p cl tm m now).
Proof.
  intros E V. apply held_by_spec in E as (P & H & T & N & CL & D & _).
  destruct (release_spec force (clear_conn s c) k p cl tm m now) as (A & B & C & [g G]).
  apply (inv_shrinks s); [|lia|exact V]. exists g. unfold everyone. rewrite B, C, D, P.
  unfold avail in G at 1. rewrite H in G. fold (avail s) in G.
  rewrite <- app_comm_cons, <- Permutation_middle, app_comm_cons, G. now rewrite <- !app_assoc.
Qed.

Lemma step_inv force s o : inv s -> inv (fst (step force s o)).
Proof.
  intros V. destruct o; cbn [step].
  - destruct (pop_available s k now) as [s1 r] eqn:E. apply pop_available_spec in E as (dr & P & C & D & N & _).
    destruct r as [[p n]|]; cbn [fst]; eapply inv_shrinks; try exact V.
    + exists dr. unfold everyone. rewrite connected_avail, P. cbn. rewrite C, D, conn_ids_app. cbn.
      rewrite <- !app_assoc. cbn. rewrite <- !Permutation_middle. reflexivity.
    + cbn. lia.
    + exists dr. unfold everyone. rewrite C, D, P. cbn. now rewrite <- !app_assoc.
    + lia.
  - destruct (closed s) eqn:E; cbn [closed]; rewrite ?E.
    + cbn [fst]. eapply inv_shrinks; try exact V; [|cbn; lia]. apply shrinks_refl.
    + cbn [fst]. destruct V as [A B]. set (s1 := {| stat := _ |}) in *.
      assert (P : Permutation (everyone (connected s1 k (next s) 0)) (next s :: everyone s)).
      { unfold everyone. rewrite connected_avail. cbn. rewrite conn_ids_app. cbn. rewrite <- !app_assoc. cbn.
        rewrite <- !Permutation_middle. reflexivity. }
      split.
      * apply (Permutation_NoDup (Permutation_sym P)). constructor; [|assumption]. intros I0. rewrite Forall_forall in B. specialize (B _ I0). lia.
      * apply (Permutation_Forall (Permutation_sym P)). constructor; [cbn; lia|]. eapply Forall_impl; [|exact B]. cbn. lia.
  - destruct (held_by s c) as [[[k p] n]|] eqn:E; [|exact V]. destruct (if should_close _ then _ else _) as [cl tm]. eapply release_inv; eassumption.
  - destruct (held_by s c) as [[[k p] n]|] eqn:E; [|exact V]. eapply release_inv; eassumption.
  - destruct (held_by s c) as [[[k p] n]|] eqn:E; [|exact V]. apply held_by_spec in E as (P & H & T & N & CL & D & _).
    cbn [fst]. destruct (release_used_same (clear_conn s c) k p) as (A1&A2&A3&A4&A5&A6). pose proof (release_used_avail (clear_conn s c) k p) as G.
    apply (inv_shrinks s); [|cbn [next]; rewrite A2, N; auto|exact V]. apply shrinks_perm. unfold everyone; cbn.
    unfold avail at 2; cbn. fold (avail (release_used (clear_conn s c) k p)). rewrite G, A5, A6, D, P. cbn.
    unfold avail. rewrite H. rewrite <- !Permutation_middle. reflexivity.
  - destruct (held_by s c) as [[[k p] n]|] eqn:E; [|exact V]. pose proof (held_by_spec _ _ _ _ _ E) as (P & H & T & N & CL & D & _).
    destruct running; cbn [fst].
    + eapply release_inv; eassumption.
    + apply (inv_shrinks s); [|rewrite N; auto|exact V]. exists [p]. unfold everyone, avail. rewrite D, H, P. cbn. now rewrite <- Permutation_middle.
  - unfold clean_up. pose proof (clean_hosts_shrinks now (stat s) (hosts s)) as G. destruct (clean_hosts now (stat s) (hosts s)) as [t d]; cbn in *.
    apply (inv_shrinks s); [|cbn; auto|exact V]. unfold everyone, avail; cbn. apply shrinks_app; [exact G|apply shrinks_refl].
  - unfold close_connector. destruct (closed s); [exact V|]. cbn [fst]. apply (inv_shrinks s); [|cbn; auto|exact V]. exists (avail s). reflexivity.
  - destruct (Nat.ltb p (next s)); [|exact V]. exact V.
Qed.

Lemma inv_initial : inv initial.
Proof. split; constructor. Qed.

Lemma run_snd force s os : fst (run force s os) = fold_left (fun s o => fst (step force s o)) os s.
Proof.
  revert s; induction os as [|o os IH]; intros s; [reflexivity|]. cbn. rewrite <- IH. destruct (step force s o) as [s1 r]. cbn.
  destruct (run force s1 os). reflexivity.
Qed.

Lemma run_inv force os s : inv s -> inv (fst (run force s os)).
Proof. rewrite run_snd. revert s; induction os as [|o os IH]; intros s V; [exact V|]. cbn. apply IH, step_inv, V. Qed.

Lemma reachable_inv force s : reachable force s -> inv s.
Proof. intros [os ->]. apply run_inv, inv_initial. Qed.

(** ** C37 *)

Lemma holds_in s c p : holds s c p -> In p (conn_ids (conns s)).
Proof.
  intros (k & E & P). unfold conn_ids. apply in_flat_map. exists k. split; [eapply nth_error_In, E|]. rewrite P. now left.
Qed.

Lemma nodup_holds l c c' k k' p : NoDup (conn_ids l) -> nth_error l c = Some k -> nth_error l c' = Some k' ->
  conn_proto k = Some p -> conn_proto k' = Some p -> c = c'.
Proof.
  revert c c'; induction l as [|x l IH]; intros [|c] [|c']; cbn; try discriminate; auto.
  - intros H E E' P P'. injection E as ->. rewrite P in H. inversion H; subst. exfalso. apply H2. apply in_flat_map.
    exists k'. split; [eapply nth_error_In, E'|]. rewrite P'. now left.
  - intros H E E' P P'. injection E' as ->. rewrite P' in H. inversion H; subst. exfalso. apply H2. apply in_flat_map.
    exists k. split; [eapply nth_error_In, E|]. rewrite P. now left.
  - intros H E E' P P'. f_equal. apply NoDup_app_r in H. eauto.
Qed.

Lemma idle_in s k i : idle s k i -> In (proto_of i) (avail s).
Proof. intros (b & B & J). unfold avail, all. apply in_flat_map. exists (k, b). split; [assumption|]. now apply in_map. Qed.

Lemma NoDup_apart {A} (a b : list A) x : NoDup (a ++ b) -> In x a -> In x b -> False.
Proof.
  induction a as [|y a IH]; cbn; [tauto|]. intros H. inversion H; subst. intros [->|J] K; [apply H2, in_app_iff; now right|auto].
Qed.

Lemma exclusive force s : reachable force s ->
  (forall c c' p, holds s c p -> holds s c' p -> c = c') /\
  (forall c p k i, holds s c p -> idle s k i -> proto_of i <> p) /\
  (forall c p, holds s c p -> ~ In p (detached s)) /\ (forall k i, idle s k i -> ~ In (proto_of i) (detached s)).
Proof.
  intros R. destruct (reachable_inv _ _ R) as [V _]. unfold everyone in V. split; [|split; [|split]].
  - intros c c' p (k & E & P) (k' & E' & P'). apply NoDup_app_r in V. eapply (nodup_holds (conns s)); eauto.
    clear - V. revert V. generalize (detached s). induction (conn_ids (conns s)); intros l'; [constructor|]. intros H. inversion H; subst.
    constructor; [|eauto]. intros J. apply H2, in_app_iff. now left.
  - intros c p k i H J <-. apply holds_in in H. apply idle_in in J. eapply NoDup_apart; [exact V|exact J|]. apply in_app_iff. now left.
  - intros c p H J. apply holds_in in H. apply NoDup_app_r in V. eapply NoDup_apart; eauto.
  - intros k i H J. apply idle_in in H. eapply NoDup_apart; [exact V|exact H|]. apply in_app_iff. now right.
Qed.

Lemma keq_eq a b : keq a b = true -> a = b.
Proof.
  unfold keq. intros H. apply andb_true_iff in H as [A B]. apply Nat.eqb_eq in A. apply eqb_prop in B. destruct a, b; cbn in *; congruence.
Qed.
Lemma keq_refl a : keq a a = true.
Proof. unfold keq. now rewrite Nat.eqb_refl, eqb_reflx. Qed.

Lemma bget_in d k b : bget d k = Some b -> In (k, b) d.
Proof.
  induction d as [|[k' b'] d IH]; cbn; [discriminate|]. destruct (keq k' k) eqn:E; intros H; [|auto].
  injection H as ->. apply keq_eq in E as ->. now left.
Qed.
Lemma in_bget d k b : NoDup (map fst d) -> In (k, b) d -> bget d k = Some b.
Proof.
  induction d as [|[k' b'] d IH]; cbn; [tauto|]. intros H. inversion H; subst. intros [E|J].
  - injection E as -> ->. now rewrite keq_refl.
  - destruct (keq k' k) eqn:E; [|auto]. apply keq_eq in E as ->. exfalso. apply H2. change k with (fst (k, b)). now apply in_map.
Qed.

(** Each host has one basket. *)
Lemma keys_set d k b : NoDup (map fst d) -> NoDup (map fst (bset d k b)) /\ forall k', In k' (map fst (bset d k b)) -> k' = k \/ In k' (map fst d).
Proof.
  induction d as [|[k' b'] d IH]; cbn; intros H.
  - split; [constructor; [tauto|constructor]|]. intros k' [->|[]]. now left.
  - destruct (keq k' k) eqn:E; cbn; [split; auto|]. inversion H; subst. destruct (IH H3) as [A B]. split.
    + constructor; [|assumption]. intros J. apply B in J as [->|J]; [now rewrite keq_refl in E|auto].
    + intros q [->|J]; [auto|]. apply B in J as [->|J]; auto.
Qed.
Lemma keys_del d k : NoDup (map fst d) -> NoDup (map fst (bdel d k)) /\ forall k', In k' (map fst (bdel d k)) -> In k' (map fst d).
Proof.
  induction d as [|[k' b'] d IH]; cbn; intros H; [auto|]. inversion H; subst. destruct (IH H3) as [A B].
  destruct (keq k' k) eqn:E; cbn; [split; auto|]. split; [constructor; auto|]. intros q [->|J]; auto.
Qed.
Lemma keys_keep d k b : NoDup (map fst d) -> NoDup (map fst (bkeep d k b)).
Proof. intros H. unfold bkeep. destruct (basket_bool b); [now apply keys_set|now apply keys_del]. Qed.
Lemma keys_clean now d : forall s, NoDup (map fst d) ->
  NoDup (map fst (snd (clean_hosts now s d))) /\ forall k', In k' (map fst (snd (clean_hosts now s d))) -> In k' (map fst d).
Proof.
  induction d as [|[k b] d IH]; cbn; intros s H; [auto|]. inversion H; subst. destruct (clean_items k now s (available b)) as [t l].
  destruct (IH t H3) as [A B]. destruct (clean_hosts now t d) as [u d']. cbn [snd] in *. destruct (basket_bool _); cbn.
  - split; [constructor; auto|]. intros q [->|J]; auto.
  - split; auto.
Qed.

Definition one_basket (s : state) : Prop := NoDup (map fst (hosts s)).

Lemma release_used_keys s k p : one_basket s -> one_basket (release_used s k p).
Proof. unfold one_basket, release_used. destruct (closed s); [auto|]. destruct (bget (hosts s) k); [|auto]. apply keys_keep. Qed.
Lemma release_keys force s k p a b c d : one_basket s -> one_basket (release force s k p a b c d).
Proof.
  unfold release. intros H. destruct (closed s); [assumption|]. apply (release_used_keys s k p) in H. cbn zeta.
  destruct (_ || _); [assumption|]. now apply keys_set.
Qed.
Lemma clear_conn_hosts s c : hosts (clear_conn s c) = hosts s.
Proof. unfold clear_conn. now destruct (nth_error (conns s) c). Qed.
Lemma clear_keys s c : one_basket s -> one_basket (clear_conn s c).
Proof. unfold one_basket. now rewrite clear_conn_hosts. Qed.

Lemma step_keys force s o : one_basket s -> one_basket (fst (step force s o)).
Proof.
  intros V. destruct o; cbn [step].
  - unfold pop_available. destruct (bget (hosts s) k) as [b|]; [|exact V]. destruct (pop_items _ _ _ _ _) as [[t l] r].
    destruct r as [[p n]|]; cbn; [apply keys_set|]; now apply keys_keep.
  - cbn [closed]. destruct (closed s); [exact V|]. now apply keys_set.
  - destruct (held_by s c) as [[[k p] n]|]; [|exact V]. destruct (if should_close _ then _ else _) as [cl tm]. now apply release_keys, clear_keys.
  - destruct (held_by s c) as [[[k p] n]|]; [|exact V]. now apply release_keys, clear_keys.
  - destruct (held_by s c) as [[[k p] n]|]; [|exact V]. cbn. now apply release_used_keys, clear_keys.
  - destruct (held_by s c) as [[[k p] n]|]; [|exact V]. destruct running; [now apply release_keys, clear_keys|now apply clear_keys].
  - unfold clean_up, one_basket. pose proof (proj1 (keys_clean now (hosts s) (stat s) V)) as K. destruct (clean_hosts now (stat s) (hosts s)). exact K.
  - unfold close_connector. destruct (closed s); [exact V|]. constructor.
  - destruct (Nat.ltb p (next s)); exact V.
Qed.

Lemma reachable_keys force s : reachable force s -> one_basket s.
Proof.
  intros [os ->]. rewrite run_snd. assert (G : one_basket initial) by constructor. revert G. generalize initial.
  induction os as [|o os IH]; intros s V; [exact V|]. cbn. apply IH, step_keys, V.
Qed.

(** ** C38 *)

Lemma connect_spec force s k now s' r : reachable force s -> step force s (Connect k now) = (s', r) ->
  match r with
  | Got p n => exists i, idle s k i /\ proto_of i = p /\ performed i = n /\ usable (stat s) now i /\
      (forall j, idle s k j -> usable (stat s) now j -> expiration i <= expiration j) /\ holds s' (length (conns s)) p
  | Creating => forall i, idle s k i -> ~ usable (stat s) now i
  | _ => False
  end.
Proof.
  intros R. pose proof (reachable_keys _ _ R) as K. cbn [step]. unfold pop_available.
  destruct (bget (hosts s) k) as [b|] eqn:E.
  2:{ intros H; injection H as <- <-. intros i (b & B & _). apply in_bget in B; [congruence|assumption]. }
  destruct (pop_items (length (available b)) k now (stat s) (available b)) as [[t l] r'] eqn:P.
  apply pop_items_spec in P; [|reflexivity]. destruct P as (dr & HR & HF). rewrite Forall_forall in HF.
  assert (ID : forall i, idle s k i <-> In i (available b)).
  { intros i. split; [intros (b' & B & J)|intros J; exists b; split; [now apply bget_in|assumption]].
    apply in_bget in B; [|assumption]. replace b with b' by congruence. assumption. }
  destruct r' as [[p m]|]; intros H; injection H as <- <-.
  - destruct HR as (i & -> & -> & HP & HU & HM). exists i. split; [apply ID, (Permutation_in _ (Permutation_sym HP)); now left|].
    split; [reflexivity|]. split; [reflexivity|]. split; [assumption|]. split.
    + intros j J U. apply ID in J. apply (Permutation_in _ HP) in J as [<-|J]; [lia|]. apply in_app_iff in J as [J|J]; [|auto].
      destruct (HF _ J). contradiction.
    + unfold holds, connected, with_hosts; cbn [conns]. eexists. split; [rewrite nth_error_app2, Nat.sub_diag by lia; reflexivity|]. reflexivity.
  - destruct HR as (-> & HP). intros i J. apply ID in J. apply (Permutation_in _ HP) in J. now destruct (HF _ J).
Qed.

Lemma usable_quiet s now i : usable s now i ->
  exception (s (proto_of i)) = false /\ payload (s (proto_of i)) = false /\ (at_eof (s (proto_of i)) = false -> buffered (s (proto_of i)) = false).
Proof.
  intros (_ & H & _). unfold should_close in H. destruct (payload _); [discriminate|]. destruct (exception _); [discriminate|].
  split; [reflexivity|]. split; [reflexivity|]. intros A. rewrite A in H. cbn in H. now destruct (buffered _).
Qed.

(** ** C39 *)

Lemma sbc_dead s t i : same_but_closing s t -> dead (s i) -> dead (t i).
Proof. intros H [D|D]; destruct (H i) as (_&_&_&_&_&L&C); [left; auto|right; congruence]. Qed.
Lemma sbc_transport s t i : same_but_closing s t -> transport (t i) = transport (s i).
Proof. intros H. apply H. Qed.
Lemma close_one_dead s i : transport (s i) = true -> dead (close_one s i i).
Proof. intros H. left. rewrite close_one_same. unfold closed_proto; cbn. rewrite H. apply orb_true_r. Qed.
Lemma happens_dead p e : dead p -> dead (happens p e).
Proof. intros [D|D]; destruct e as [| |[]| |]; cbn; unfold dead; cbn; auto. Qed.

Lemma clean_items_dead k now s l : secure k = true -> (forall i, transport (s i) = true) ->
  let '(s', l') := clean_items k now s l in same_but_closing s s' /\ forall i, In i l -> In i l' \/ dead (s' (proto_of i)).
Proof.
  intros SK TR. induction l as [|x l IH]; cbn [clean_items]; [split; [apply sbc_refl|intros i []]|].
  destruct (clean_items k now s l) as [t r]. destruct IH as [A B]. destruct (Nat.ltb now (expiration x)).
  - split; [assumption|]. intros i [<-|J]; [left; now left|]. destruct (B i J); [left; now right|now right].
  - rewrite SK, (sbc_transport _ _ _ A), TR. cbn [andb]. split; [eapply sbc_trans; [exact A|apply sbc_close]|].
    intros i [<-|J]; [right; apply close_one_dead; now rewrite (sbc_transport _ _ _ A)|].
    destruct (B i J) as [X|X]; [now left|right]. eapply sbc_dead; [apply sbc_close|assumption].
Qed.

Lemma clean_hosts_dead now d : forall s, (forall kb, In kb d -> secure (fst kb) = true) -> (forall i, transport (s i) = true) ->
  let '(s', d') := clean_hosts now s d in
  same_but_closing s s' /\ (forall p, In p (all ids d) -> In p (all ids d') \/ dead (s' p)) /\ (forall p, In p (all used d) -> In p (all used d')) /\
  (forall kb, In kb d' -> secure (fst kb) = true).
Proof.
  induction d as [|[k b] d IH]; intros s SK TR; cbn [clean_hosts].
  - repeat split; auto; apply sbc_refl.
  - pose proof (clean_items_dead k now s (available b) (SK (k, b) (or_introl eq_refl)) TR) as H.
    destruct (clean_items k now s (available b)) as [t l]. destruct H as [A B].
    specialize (IH t (fun kb J => SK kb (or_intror J))). destruct (clean_hosts now t d) as [u d'].
    destruct IH as (C & D & E & F); [intros i; now rewrite (sbc_transport _ _ _ A)|].
    set (b' := {| available := l; used := used b |}).
    assert (X : forall p, In p (ids b') \/ In p (all ids d') -> In p (all ids (if basket_bool b' then (k, b') :: d' else d'))).
    { intros p. rewrite <- in_app_iff. destruct (basket_bool b') eqn:Q; [auto|]. now rewrite (bool_ids _ Q). }
    assert (Y : forall p, In p (used b) \/ In p (all used d') -> In p (all used (if basket_bool b' then (k, b') :: d' else d'))).
    { intros p. rewrite <- in_app_iff. destruct (basket_bool b') eqn:Q; [auto|]. apply bool_used in Q. cbn in Q. now rewrite Q. }
    split; [eapply sbc_trans; eauto|]. split; [|split].
    + intros p J. change (all ids ((k, b) :: d)) with (ids b ++ all ids d) in J. apply in_app_iff in J as [J|J].
      * apply in_map_iff in J as (i & <- & J). destruct (B i J) as [Z|Z]; [left; apply X; left; now apply (in_map proto_of)|].
        right. eapply sbc_dead; eauto.
      * destruct (D p J); [left; apply X; now right|now right].
    + intros p J. apply Y. change (all used ((k, b) :: d)) with (used b ++ all used d) in J. apply in_app_iff in J.
      destruct J as [J|J]; [now left|right; auto].
    + destruct (basket_bool b'); [|assumption]. intros kb [<-|J]; [apply (SK (k, b)); now left|auto].
Qed.

Lemma fold_close_dead {A} (f : A -> nat) l : forall s, (forall i, transport (s i) = true) ->
  let s' := fold_left (fun s x => close_one s (f x)) l s in same_but_closing s s' /\ forall x, In x l -> dead (s' (f x)).
Proof.
  induction l as [|x l IH]; intros s TR; cbn [fold_left]; [split; [apply sbc_refl|intros x []]|].
  destruct (IH (close_one s (f x))) as [P Q]; [intros i; now rewrite (sbc_transport _ _ _ (sbc_close s (f x)))|].
  split; [eapply sbc_trans; [apply sbc_close|exact P]|]. intros y [<-|J]; [|auto]. eapply sbc_dead; [exact P|]. now apply close_one_dead.
Qed.

Lemma close_basket_dead s b : (forall i, transport (s i) = true) ->
  same_but_closing s (close_basket s b) /\ (forall p, In p (ids b) -> dead (close_basket s b p)) /\ (forall p, In p (used b) -> dead (close_basket s b p)).
Proof.
  intros TR. unfold close_basket. destruct (fold_close_dead proto_of (available b) s TR) as [A B].
  set (t := fold_left (fun s i => close_one s (proto_of i)) (available b) s) in *.
  destruct (fold_close_dead (fun x => x) (used b) t) as [C D]; [intros i; now rewrite (sbc_transport _ _ _ A)|].
  split; [eapply sbc_trans; eauto|]. split; [|exact D]. intros p J. apply in_map_iff in J as (i & <- & J). eapply sbc_dead; [exact C|auto].
Qed.

Lemma close_all_dead d : forall s, (forall i, transport (s i) = true) ->
  let s' := fold_left (fun p kb => close_basket p (snd kb)) d s in
  same_but_closing s s' /\ (forall p, In p (all ids d) -> dead (s' p)) /\ (forall p, In p (all used d) -> dead (s' p)).
Proof.
  induction d as [|[k b] d IH]; intros s TR; cbn [fold_left snd]; [split; [apply sbc_refl|split; intros p []]|].
  destruct (close_basket_dead s b TR) as (A & B & C).
  destruct (IH (close_basket s b)) as (P & Q & R); [intros i; now rewrite (sbc_transport _ _ _ A)|].
  split; [eapply sbc_trans; eauto|]. split; intros p J.
  - change (all ids ((k, b) :: d)) with (ids b ++ all ids d) in J. apply in_app_iff in J as [J|J]; [|auto]. eapply sbc_dead; eauto.
  - change (all used ((k, b) :: d)) with (used b ++ all used d) in J. apply in_app_iff in J as [J|J]; [|auto]. eapply sbc_dead; eauto.
Qed.

Definition secure_hosts (d : baskets) : Prop := forall kb, In kb d -> secure (fst kb) = true.

Lemma secure_set d k b : secure k = true -> secure_hosts d -> secure_hosts (bset d k b).
Proof.
  intros SK. induction d as [|[k' b'] d IH]; cbn; intros H kb.
  - intros [<-|[]]. assumption.
  - destruct (keq k' k); intros [<-|J].
    + exact (H (k', b') (or_introl eq_refl)).
    + exact (H kb (or_intror J)).
    + exact (H (k', b') (or_introl eq_refl)).
    + apply IH; [|assumption]. intros q Q. apply H. now right.
Qed.
Lemma secure_del d k : secure_hosts d -> secure_hosts (bdel d k).
Proof.
  induction d as [|[k' b'] d IH]; cbn; intros H kb; [intros []|]. destruct (keq k' k).
  - intros J. apply H. now right.
  - intros [<-|J]; [exact (H (k', b') (or_introl eq_refl))|]. apply IH; [|assumption]. intros q Q. apply H. now right.
Qed.
Lemma secure_keep d k b : secure k = true -> secure_hosts d -> secure_hosts (bkeep d k b).
Proof. intros A B. unfold bkeep. destruct (basket_bool b); [now apply secure_set|now apply secure_del]. Qed.

Record linv (s : state) : Prop := {
  l_transport : forall i, transport (stat s i) = true;
  l_hosts : secure_hosts (hosts s);
  l_conns : forall c, In c (conns s) -> secure (conn_key c) = true;
  l_kept : forall p, p < next s -> In p (everyone s) \/ dead (stat s p);
  l_used : closed s = false -> forall p, In p (conn_ids (conns s)) -> In p (all used (hosts s));
  l_closed : closed s = true -> forall p, In p (conn_ids (conns s)) -> dead (stat s p);
  l_empty : closed s = true -> hosts s = []
}.

Lemma connected_used s k p n : forall q, In q (all used (hosts (connected s k p n))) <-> q = p \/ In q (all used (hosts s)).
Proof.
  intros q. cbn. split.
  - intros J. apply (Permutation_in _ (all_set used _ _ _)) in J. apply in_app_iff in J. cbn in J.
    rewrite (or_intror (A:=q = p)) || idtac.
    destruct J as [J|J].
    + destruct (existsb (Nat.eqb p) (used (bget_new (hosts s) k))).
      * right. apply (Permutation_in _ (Permutation_sym (all_get_new used eq_refl (hosts s) k))), in_app_iff. now left.
      * destruct J as [->|J]; [now left|]. right. apply (Permutation_in _ (Permutation_sym (all_get_new used eq_refl (hosts s) k))), in_app_iff. now left.
    + right. apply (Permutation_in _ (Permutation_sym (all_get_new used eq_refl (hosts s) k))), in_app_iff. now right.
  - intros J. apply (Permutation_in _ (Permutation_sym (all_set used _ _ _))), in_app_iff. cbn. destruct J as [->|J].
    + left. destruct (existsb (Nat.eqb p) (used (bget_new (hosts s) k))) eqn:E; [|now left].
      apply existsb_exists in E as (x & X & Y). apply Nat.eqb_eq in Y as ->. assumption.
    + apply (Permutation_in _ (all_get_new used eq_refl (hosts s) k)), in_app_iff in J. destruct J as [J|J]; [left|now right].
      destruct (existsb _ _); [assumption|now right].
Qed.

Lemma release_used_used s k p q : q <> p -> In q (all used (hosts s)) -> In q (all used (hosts (release_used s k p))).
Proof.
  intros N J. unfold release_used. destruct (closed s); [assumption|]. destruct (bget (hosts s) k) as [b|] eqn:E; [|assumption]. cbn.
  apply (Permutation_in _ (Permutation_sym (all_keep used _ _ _ (bool_used _)))), in_app_iff. cbn.
  apply (Permutation_in _ (all_get used _ _ _ E)), in_app_iff in J. destruct J as [J|J]; [left|now right].
  apply filter_In. split; [assumption|]. now rewrite (proj2 (Nat.eqb_neq q p)).
Qed.

Lemma release_used_secure s k p : secure k = true -> secure_hosts (hosts s) -> secure_hosts (hosts (release_used s k p)).
Proof.
  intros A B. unfold release_used. destruct (closed s); [assumption|]. destruct (bget (hosts s) k); [|assumption]. now apply secure_keep.
Qed.

Lemma clear_conn_in s c k : In k (conns (clear_conn s c)) -> exists k', In k' (conns s) /\ conn_key k' = conn_key k.
Proof.
  unfold clear_conn. destruct (nth_error (conns s) c) as [x|] eqn:E; [|eauto]. cbn. revert c E.
  induction (conns s) as [|y l IH]; intros [|c]; cbn; try discriminate.
  - intros H; injection H as ->. intros [<-|J]; [exists x; cbn; auto|exists k; auto].
  - intros H [<-|J]; [exists y; auto|]. destruct (IH c H J) as (k' & ? & ?). exists k'. auto.
Qed.

Lemma held_key s c k p n : held_by s c = Some (k, p, n) -> exists x, In x (conns s) /\ conn_key x = k.
Proof.
  unfold held_by. destruct (nth_error (conns s) c) as [x|] eqn:E; [|discriminate]. destruct (conn_proto x); [|discriminate].
  intros H; injection H as <- <- <-. exists x. split; [eapply nth_error_In, E|reflexivity].
Qed.

(** Releasing what the connection had. *)
Lemma release_linv force s c k p n cl tm m now : held_by s c = Some (k, p, n) -> inv s -> linv s ->
  linv (release force (clear_conn s c) k p cl tm m now).
Proof.
  intros E V [T H C K U D P0]. pose proof (held_by_spec _ _ _ _ _ E) as (P & EH & ET & EN & EC & ED & _).
  pose proof (held_key _ _ _ _ _ E) as (x & X & XK). pose proof (C _ X) as SK. rewrite XK in SK.
  assert (NP : ~ In p (conn_ids (conns (clear_conn s c)))).
  { intros J. destruct V as [V _]. unfold everyone in V. apply NoDup_app_r in V. apply (Permutation_NoDup (Permutation_app_tail _ P)) in V.
    cbn in V. inversion V; subst. apply H2, in_app_iff. now left. }
  assert (INP : In p (conn_ids (conns s))) by (apply (Permutation_in _ (Permutation_sym P)); now left).
  assert (SUB : forall q, In q (conn_ids (conns (clear_conn s c))) -> In q (conn_ids (conns s)) /\ q <> p).
  { intros q J. split; [apply (Permutation_in _ (Permutation_sym P)); now right|]. now intros ->. }
  assert (CC : forall y, In y (conns (clear_conn s c)) -> secure (conn_key y) = true).
  { intros y J. apply clear_conn_in in J as (y' & J & <-). auto. }
  unfold release. rewrite EC. destruct (closed s) eqn:CL.
  - split; rewrite ?ET, ?EH, ?EN; auto.
    + intros q Q. destruct (K q Q) as [J|J]; [|now right]. destruct (Nat.eq_dec q p) as [->|NE]; [right; auto|left].
      unfold everyone, avail in *. rewrite EH, ED. apply (Permutation_in _ (Permutation_app_head _ (Permutation_app_tail _ P))) in J.
      apply in_app_iff in J as [J|J]; [apply in_app_iff; now left|]. apply in_app_iff. right. destruct J as [J|J]; [congruence|assumption].
    + rewrite EC. congruence.
    + intros _ q J. apply D; [reflexivity|]. now apply SUB.
  - destruct (release_used_same (clear_conn s c) k p) as (A1&A2&A3&A4&A5&A6). pose proof (release_used_avail (clear_conn s c) k p) as AV.
    pose proof (fun q => release_used_used (clear_conn s c) k p q) as RU. pose proof (release_used_secure (clear_conn s c) k p SK) as RS.
    rewrite EH in RU, RS. set (t := release_used (clear_conn s c) k p) in *. clearbody t. cbn zeta.
    assert (EV : forall q, q <> p -> In q (everyone s) -> In q (avail t ++ conn_ids (conns t) ++ detached t)).
    { intros q NE J. rewrite A5, A6, ED. unfold everyone in J. apply in_app_iff in J as [J|J].
      - apply in_app_iff. left. apply (Permutation_in _ (Permutation_sym AV)). unfold avail. now rewrite EH.
      - apply in_app_iff. right. apply (Permutation_in _ (Permutation_app_tail _ P)) in J. destruct J as [J|J]; [congruence|assumption]. }
    destruct (cl || force || should_close (stat t p)).
    + pose proof (sbc_close (stat t) p) as SB. split; cbn.
      * intros i. rewrite (sbc_transport _ _ _ SB). now rewrite A1, ET.
      * now apply RS.
      * rewrite A5. assumption.
      * rewrite A2, EN. intros q Q. destruct (Nat.eq_dec q p) as [->|NE]; [right; apply close_one_dead; now rewrite A1, ET|].
        destruct (K q Q) as [J|J]; [left; now apply EV|right]. eapply sbc_dead; [exact SB|]. now rewrite A1, ET.
      * intros _ q J. rewrite A5 in J. apply SUB in J as [J1 J2]. apply RU; auto.
      * rewrite A3, EC. discriminate.
      * rewrite A3, EC. discriminate.
    + assert (AV2 : forall q, q = p \/ In q (avail t) ->
        In q (all ids (bset (hosts t) k (add_available (bget_new (hosts t) k) p now tm m)))).
      { intros q J. apply (Permutation_in _ (Permutation_sym (all_set ids _ _ _))), in_app_iff. unfold ids at 1; cbn. rewrite map_app, in_app_iff. cbn.
        destruct J as [->|J]; [auto|]. apply (Permutation_in _ (all_get_new ids eq_refl (hosts t) k)), in_app_iff in J. unfold ids in J at 1. tauto. }
      split; cbn.
      * now rewrite A1, ET.
      * apply secure_set; [assumption|]. now apply RS.
      * rewrite A5. assumption.
      * rewrite A2, EN, A1, ET. intros q Q. destruct (Nat.eq_dec q p) as [->|NE].
        { left. unfold everyone, avail; cbn. apply in_app_iff. left. apply AV2. now left. }
        destruct (K q Q) as [J|J]; [|now right]. left. apply (EV _ NE) in J. unfold everyone, avail; cbn. apply in_app_iff in J. apply in_app_iff.
        destruct J as [J|J]; [left; apply AV2; now right|now right].
      * intros _ q J. rewrite A5 in J. apply SUB in J as [J1 J2]. apply (Permutation_in _ (Permutation_sym (all_set used _ _ _))). cbn.
        apply (Permutation_in _ (all_get_new used eq_refl (hosts t) k)). apply RU; auto.
      * rewrite A3, EC. discriminate.
      * rewrite A3, EC. discriminate.
Qed.

Lemma step_linv force s o : careful o -> inv s -> linv s -> linv (fst (step force s o)).
Proof.
  intros CA V L. pose proof L as [T H C K U D P0]. destruct o; cbn [step careful] in *.
  - destruct (pop_available s k now) as [s1 r] eqn:E. assert (SH : secure_hosts (hosts s1)).
    { unfold pop_available in E. destruct (bget (hosts s) k) as [b|]; [|injection E as <- <-; assumption].
      destruct (pop_items _ _ _ _ _) as [[? ?] ?]. injection E as <- <-. cbn. now apply secure_keep. }
    assert (EH1 : hosts s = [] -> hosts s1 = []).
    { unfold pop_available in E. intros Z. rewrite Z in E. cbn in E. now injection E as <- <-. }
    apply pop_available_spec in E as (dr & P & EC & ED & EN & EL & _ & EU & SB & DR). rewrite Forall_forall in DR.
    assert (KK : forall p, p < next s -> In p (match r with Some (p, _) => [p] | None => [] end) \/ In p (everyone s1) \/ dead (stat s1 p)).
    { intros p Q. destruct (K p Q) as [J|J]; [|right; right; eapply sbc_dead; eauto]. unfold everyone in *. rewrite EC, ED.
      apply in_app_iff in J as [J|J]; [|right; left; apply in_app_iff; now right].
      apply (Permutation_in _ P) in J. apply in_app_iff in J as [J|J]; [now left|right]. apply in_app_iff in J as [J|J].
      - right. left. apply DR; auto.
      - left. apply in_app_iff. now left. }
    destruct r as [[p n]|]; cbn [fst].
    + assert (CLF : closed s = false).
      { destruct (closed s) eqn:CL; [|reflexivity]. exfalso. specialize (P0 eq_refl). unfold avail in P. rewrite P0 in P. cbn in P.
        now apply Permutation_nil in P. }
      split; cbn.
      * intros i. now rewrite (sbc_transport _ _ _ SB).
      * now apply secure_set.
      * intros c J. apply in_app_iff in J as [J|[<-|[]]]; [|assumption]. rewrite EC in J. auto.
      * rewrite EN. intros q Q. unfold everyone, avail. cbn. rewrite conn_ids_app, !in_app_iff. cbn.
        destruct (KK q Q) as [[->|[]]|[J|J]]; [tauto| |tauto]. left. unfold everyone in J. rewrite !in_app_iff in J.
        destruct J as [J|J]; [|tauto]. left. apply (Permutation_in _ (Permutation_sym (connected_avail s1 k p n))). assumption.
      * intros _ q J. apply (connected_used s1 k p n). rewrite conn_ids_app, in_app_iff in J. cbn in J. rewrite EC in J.
        destruct J as [J|[<-|[]]]; [|auto]. right. apply (Permutation_in _ (Permutation_sym EU)). auto.
      * rewrite EL, CLF. discriminate.
      * rewrite EL, CLF. discriminate.
    + split.
      * intros i. now rewrite (sbc_transport _ _ _ SB).
      * assumption.
      * now rewrite EC.
      * rewrite EN. intros q Q. destruct (KK q Q) as [[]|J]. exact J.
      * rewrite EL, EC. intros X q J. apply (Permutation_in _ (Permutation_sym EU)). auto.
      * rewrite EL, EC. intros X q J. eapply sbc_dead; eauto.
      * rewrite EL. intros X. specialize (P0 X). now apply EH1.
  - cbn [closed]. destruct (closed s) eqn:CL; cbn [fst].
    + pose proof (sbc_close (stat s) (next s)) as SB. split; cbn; auto.
      * intros i. now rewrite (sbc_transport _ _ _ SB).
      * intros q Q. destruct (Nat.eq_dec q (next s)) as [->|NE]; [right; now apply close_one_dead|].
        destruct (K q) as [J|J]; [lia|left; exact J|right; eapply sbc_dead; eauto].
      * intros _ q J. eapply sbc_dead; [exact SB|auto].
    + set (s1 := {| stat := _ |}). split; cbn; auto.
      * now apply secure_set.
      * intros c J. apply in_app_iff in J as [J|[<-|[]]]; auto.
      * intros q Q. unfold everyone, avail. cbn. rewrite conn_ids_app, !in_app_iff. cbn.
        destruct (Nat.eq_dec q (next s)) as [->|NE]; [tauto|]. destruct (K q) as [J|J]; [lia| |tauto]. left. unfold everyone in J. rewrite !in_app_iff in J.
        destruct J as [J|J]; [|tauto]. left. apply (Permutation_in _ (Permutation_sym (connected_avail s1 k (next s) 0))). exact J.
      * intros _ q J. apply (connected_used s1 k (next s) 0). rewrite conn_ids_app, in_app_iff in J. cbn in J.
        destruct J as [J|[<-|[]]]; [right; apply U; auto|auto].
      * intros; congruence.
      * intros; congruence.
  - destruct (held_by s c) as [[[k p] n]|] eqn:E; [|exact L]. destruct (if should_close _ then _ else _) as [cl tm]. eapply release_linv; eassumption.
  - destruct (held_by s c) as [[[k p] n]|] eqn:E; [|exact L]. eapply release_linv; eassumption.
  - destruct (held_by s c) as [[[k p] n]|] eqn:E; [|exact L]. pose proof (held_by_spec _ _ _ _ _ E) as (P & EH & ET & EN & EC & ED & _).
    pose proof (held_key _ _ _ _ _ E) as (x & X & XK). pose proof (C _ X) as SK. rewrite XK in SK.
    assert (NP : ~ In p (conn_ids (conns (clear_conn s c)))).
    { intros J. destruct V as [V _]. unfold everyone in V. apply NoDup_app_r in V. apply (Permutation_NoDup (Permutation_app_tail _ P)) in V.
      cbn in V. inversion V; subst. apply H2, in_app_iff. now left. }
    destruct (release_used_same (clear_conn s c) k p) as (A1&A2&A3&A4&A5&A6). pose proof (release_used_avail (clear_conn s c) k p) as AV.
    pose proof (fun q => release_used_used (clear_conn s c) k p q) as RU. pose proof (release_used_secure (clear_conn s c) k p SK) as RS.
    assert (RE : closed s = true -> hosts (release_used (clear_conn s c) k p) = []).
    { intros CL. unfold release_used. rewrite EC, CL, EH. auto. }
    rewrite EH in RU, RS. set (t := release_used (clear_conn s c) k p) in *. clearbody t. cbn [fst].
    assert (SUB : forall q, In q (conn_ids (conns t)) -> In q (conn_ids (conns s)) /\ q <> p).
    { intros q J. rewrite A5 in J. split; [apply (Permutation_in _ (Permutation_sym P)); now right|]. now intros ->. }
    split; cbn.
    + now rewrite A1, ET.
    + now apply RS.
    + rewrite A5. intros y J. apply clear_conn_in in J as (y' & J & <-). auto.
    + rewrite A2, EN, A1, ET. intros q Q. destruct (K q Q) as [J|J]; [left|now right]. unfold everyone, avail in *; cbn. rewrite !in_app_iff. cbn.
      rewrite A5, A6, ED. apply in_app_iff in J as [J|J].
      * left. apply (Permutation_in _ (Permutation_sym AV)). unfold avail. now rewrite EH.
      * apply (Permutation_in _ (Permutation_app_tail _ P)) in J. cbn in J. rewrite in_app_iff in J. tauto.
    + intros CL q J. apply SUB in J as [J1 J2]. apply RU; [assumption|]. apply U; [|assumption]. congruence.
    + intros CL q J. apply SUB in J as [J1 J2]. rewrite A1, ET. apply D; [congruence|assumption].
    + intros CL. apply RE. congruence.
  - subst running. destruct (held_by s c) as [[[k p] n]|] eqn:E; [|exact L]. eapply release_linv; eassumption.
  - unfold clean_up. pose proof (clean_hosts_dead now (hosts s) (stat s) H T) as G.
    assert (CE : hosts s = [] -> snd (clean_hosts now (stat s) (hosts s)) = []) by (now intros ->).
    destruct (clean_hosts now (stat s) (hosts s)) as [t d].
    destruct G as (SB & A & B & SD). cbn [fst]. split; cbn; auto.
    + intros i. now rewrite (sbc_transport _ _ _ SB).
    + intros q Q. destruct (K q Q) as [J|J]; [|right; eapply sbc_dead; eauto]. unfold everyone, avail in *; cbn. apply in_app_iff in J as [J|J].
      * destruct (A q J); [left; apply in_app_iff; now left|now right].
      * left. apply in_app_iff. now right.
    + intros X q J. eapply sbc_dead; eauto.
  - subst running. unfold close_connector. destruct (closed s) eqn:CL; [exact L|]. cbn [fst].
    destruct (close_all_dead (hosts s) (stat s) T) as (SB & A & B). split; cbn; auto.
    + intros i. now rewrite (sbc_transport _ _ _ SB).
    + intros kb [].
    + intros q Q. destruct (K q Q) as [J|J]; [|right; eapply sbc_dead; eauto]. unfold everyone, avail in *; cbn. apply in_app_iff in J as [J|J].
      * right. auto.
      * now left.
    + discriminate.
  - destruct (Nat.ltb p (next s)) eqn:LT; [|exact L]. cbn [fst]. split; cbn; auto.
    + intros i. unfold update. destruct (Nat.eqb i p) eqn:Q; [|auto]. destruct e as [| |[]| |]; cbn; auto.
    + intros q Q. destruct (K q Q) as [J|J]; [now left|right]. unfold update. destruct (Nat.eqb q p) eqn:Z; [|assumption].
      apply Nat.eqb_eq in Z as ->. now apply happens_dead.
    + intros X q J. specialize (D X q J). unfold update. destruct (Nat.eqb q p) eqn:Z; [|assumption].
      apply Nat.eqb_eq in Z as ->. now apply happens_dead.
Qed.

Lemma initial_linv : linv initial.
Proof.
  split; cbn; try easy; try lia.
Qed.

Lemma careful_linv force os : Forall careful os -> linv (fst (run force initial os)).
Proof.
  rewrite run_snd. assert (G : inv initial /\ linv initial) by (split; [apply inv_initial|apply initial_linv]). revert G. generalize initial.
  induction os as [|o os IH]; intros s [V L] F; [exact L|]. inversion F; subst. cbn. apply IH; [|assumption].
  split; [now apply step_inv|now apply step_linv].
Qed.

Lemma in_avail s p : In p (avail s) -> exists k i, idle s k i /\ proto_of i = p.
Proof.
  intros J. unfold avail, all in J. apply in_flat_map in J as ([k b] & B & J). apply in_map_iff in J as (i & <- & J).
  exists k, i. split; [now exists b|reflexivity].
Qed.
Lemma in_conn_ids s p : In p (conn_ids (conns s)) -> exists c, holds s c p.
Proof.
  intros J. unfold conn_ids in J. apply in_flat_map in J as (k & K & J). apply In_nth_error in K as [c C]. exists c, k. split; [assumption|].
  destruct (conn_proto k); [|destruct J]. destruct J as [->|[]]. reflexivity.
Qed.

Lemma no_leak force os p : Forall careful os ->
  let s := fst (run force initial os) in
  p < next s -> (exists c, holds s c p) \/ (closed s = false /\ exists k i, idle s k i /\ proto_of i = p) \/ In p (detached s) \/ dead (stat s p).
Proof.
  intros F. pose proof (careful_linv force os F) as L. cbn zeta. set (s := fst (run force initial os)) in *. clearbody s. intros P.
  destruct (l_kept _ L p P) as [J|J]; [|auto]. unfold everyone in J. rewrite !in_app_iff in J. destruct J as [J|[J|J]]; [right; left|left; now apply in_conn_ids|auto].
  split; [|now apply in_avail]. destruct (closed s) eqn:E; [|reflexivity]. pose proof (l_empty _ L E) as Z. unfold avail in J. rewrite Z in J. destruct J.
Qed.

(** ** C80 *)

Lemma lowest_fold l : forall a, exists m, fold_left lowest l (Some a) = Some m /\ m <= a /\ forall x, In x l -> m <= x.
Proof.
  induction l as [|x l IH]; intros a; cbn [fold_left lowest]; [exists a; repeat split; [lia|intros x []]|].
  destruct (IH (if Nat.ltb x a then x else a)) as (m & E & L & B). exists m. split; [exact E|].
  destruct (Nat.ltb x a) eqn:C; [apply Nat.ltb_lt in C|apply Nat.ltb_ge in C]; (split; [lia|]; intros y [<-|J]; [lia|auto]).
Qed.

Lemma lowest_fold_opt l a : match fold_left lowest l a with
  | None => a = None /\ l = []
  | Some m => (forall x, In x l -> m <= x) /\ forall y, a = Some y -> m <= y
  end.
Proof.
  destruct a as [a|].
  - destruct (lowest_fold l a) as (m & -> & L & B). split; [assumption|]. intros y H; injection H as <-. assumption.
  - destruct l as [|x l]; [now cbn|]. cbn [fold_left lowest]. destruct (lowest_fold l x) as (m & -> & L & B). split; [|discriminate].
    intros y [<-|J]; auto.
Qed.

Lemma closest_spec d : match closest d with
  | None => forall kb, In kb d -> available (snd kb) = []
  | Some m => forall kb i, In kb d -> In i (available (snd kb)) -> m <= expiration i
  end.
Proof.
  unfold closest. assert (G : forall a, match fold_left (fun a kb => fold_left lowest (map expiration (available (snd kb))) a) d a with
    | None => a = None /\ forall kb, In kb d -> available (snd kb) = []
    | Some m => (forall kb i, In kb d -> In i (available (snd kb)) -> m <= expiration i) /\ forall y, a = Some y -> m <= y
    end).
  { induction d as [|kb d IH]; intros a; cbn [fold_left].
    - destruct a as [a|]; [split; [intros kb i []|intros y H; injection H as ->; lia]|split; [reflexivity|intros kb []]].
    - pose proof (lowest_fold_opt (map expiration (available (snd kb))) a) as L.
      specialize (IH (fold_left lowest (map expiration (available (snd kb))) a)).
      destruct (fold_left (fun a kb => _) d _) as [m|].
      + destruct IH as [A B]. destruct (fold_left lowest _ a) as [z|].
        * destruct L as [L1 L2]. pose proof (B z eq_refl) as Z. split; [|intros y Y; specialize (L2 y Y); lia].
          intros q i [<-|J] K; [|eauto]. specialize (L1 (expiration i) (in_map _ _ _ K)). lia.
        * destruct L as [-> L]. split; [|discriminate]. intros q i [<-|J] K; [|eauto]. apply (in_map expiration) in K. rewrite L in K. destruct K.
      + destruct IH as [A B]. rewrite A in L. destruct L as [-> L]. split; [reflexivity|]. intros q [<-|J]; [|auto].
        destruct (available (snd kb)); [reflexivity|discriminate]. }
  specialize (G None). destruct (fold_left _ d None); tauto.
Qed.

Lemma closest_none d : closest d = None -> all ids d = [].
Proof.
  intros H. pose proof (closest_spec d) as C. rewrite H in C. clear H. induction d as [|[k b] d IH]; [reflexivity|].
  change (all ids ((k, b) :: d)) with (map proto_of (available b) ++ all ids d). pose proof (C (k, b) (or_introl eq_refl)) as Z. cbn in Z.
  rewrite Z. cbn [map app]. apply IH. intros kb J. apply C. now right.
Qed.

Definition hinv (s : state) : Prop := handle s = None -> avail s = [].

Lemma shrinks_nil a b : shrinks a b -> a = [] -> b = [].
Proof. intros [g G] ->. apply Permutation_nil in G. now apply app_eq_nil in G. Qed.

Lemma release_hinv force s k p a b c d : hinv s -> hinv (release force s k p a b c d).
Proof.
  unfold release. intros H. destruct (closed s); [exact H|]. destruct (release_used_same s k p) as (A1&A2&A3&A4&A5&A6).
  pose proof (release_used_avail s k p) as AV. set (t := release_used s k p) in *. clearbody t. cbn zeta.
  destruct (a || force || should_close (stat t p)).
  - unfold hinv; cbn. rewrite A4. intros E. unfold avail; cbn. fold (avail t). apply (shrinks_nil (avail s)); [|now apply H].
    apply shrinks_perm. now symmetry.
  - unfold hinv; cbn. destruct (handle t); discriminate.
Qed.

Lemma hinv_clear s c : hinv s -> hinv (clear_conn s c).
Proof. unfold hinv, avail. rewrite clear_conn_hosts. unfold clear_conn. now destruct (nth_error (conns s) c). Qed.

Lemma step_hinv force s o : hinv s -> hinv (fst (step force s o)).
Proof.
  intros V. destruct o; cbn [step].
  - destruct (pop_available s k now) as [s1 r] eqn:E. apply pop_available_spec in E as (dr & P & _ & _ & _ & _ & EH & _).
    assert (V1 : hinv s1).
    { unfold hinv. rewrite EH. intros Z. specialize (V Z). rewrite V in P. apply Permutation_nil in P. apply app_eq_nil in P as [_ P].
      now apply app_eq_nil in P as [_ P]. }
    destruct r as [[p n]|]; cbn [fst]; [|exact V1]. unfold hinv. cbn [connected handle]. intros Z. apply (shrinks_nil (avail s1)); [|now apply V1].
    apply shrinks_perm. symmetry. apply connected_avail.
  - cbn [closed]. destruct (closed s); [exact V|]. cbn [fst]. unfold hinv. cbn [connected handle]. intros Z.
    apply (shrinks_nil (avail s)); [|now apply V]. apply shrinks_perm. symmetry.
    exact (connected_avail {| stat := stat s; next := S (next s); hosts := hosts s; closed := closed s; handle := handle s; conns := conns s; detached := detached s |} k (next s) 0).
  - destruct (held_by s c) as [[[k p] n]|]; [|exact V]. destruct (if should_close _ then _ else _) as [cl tm]. now apply release_hinv, hinv_clear.
  - destruct (held_by s c) as [[[k p] n]|]; [|exact V]. now apply release_hinv, hinv_clear.
  - destruct (held_by s c) as [[[k p] n]|]; [|exact V]. apply (hinv_clear s c) in V. cbn [fst]. unfold hinv; cbn [handle].
    destruct (release_used_same (clear_conn s c) k p) as (_&_&_&A4&_). rewrite A4. intros Z. apply (shrinks_nil (avail (clear_conn s c))); [|now apply V].
    apply shrinks_perm. symmetry. exact (release_used_avail (clear_conn s c) k p).
  - destruct (held_by s c) as [[[k p] n]|]; [|exact V]. destruct running; [now apply release_hinv, hinv_clear|now apply hinv_clear].
  - unfold clean_up. destruct (clean_hosts now (stat s) (hosts s)) as [t d]. cbn. unfold hinv; cbn. apply closest_none.
  - unfold close_connector. destruct (closed s); [exact V|]. intros _. reflexivity.
  - destruct (Nat.ltb p (next s)); exact V.
Qed.

Lemma clean_items_left k now s l i : In i (snd (clean_items k now s l)) -> now < expiration i.
Proof.
  revert s; induction l as [|x l IH]; intros s; cbn [clean_items]; [intros []|]. specialize (IH s). destruct (clean_items k now s l) as [t r].
  destruct (Nat.ltb now (expiration x)) eqn:E; cbn [snd] in *; [|auto]. apply Nat.ltb_lt in E. intros [<-|J]; auto.
Qed.

Lemma clean_hosts_left now d kb i : forall s, In kb (snd (clean_hosts now s d)) -> In i (available (snd kb)) -> now < expiration i.
Proof.
  induction d as [|[k b] d IH]; intros s; cbn [clean_hosts]; [intros []|].
  pose proof (fun j => clean_items_left k now s (available b) j) as L. destruct (clean_items k now s (available b)) as [t l].
  specialize (IH t). destruct (clean_hosts now t d) as [u d']. cbn [snd] in *. destruct (basket_bool _); [|auto].
  intros [<-|J]; [exact (L i)|auto].
Qed.

Lemma handle_set force s k i : reachable force s -> idle s k i -> handle s <> None.
Proof.
  intros [os ->] J. assert (G : hinv (fst (run force initial os))).
  { clear J. rewrite run_snd. assert (G : hinv initial) by (intros _; reflexivity). revert G. generalize initial.
    induction os as [|o os IH]; intros s V; [exact V|]. cbn. apply IH, step_hinv, V. }
  intros Z. apply idle_in in J. rewrite (G Z) in J. destruct J.
Qed.

Lemma clean_up_spec force s now k i : idle (fst (step force s (Clean_up now))) k i ->
  now < expiration i /\ exists h, handle (fst (step force s (Clean_up now))) = Some h /\ h <= expiration i.
Proof.
  cbn [step fst]. unfold clean_up. pose proof (fun kb i => clean_hosts_left now (hosts s) kb i (stat s)) as L.
  destruct (clean_hosts now (stat s) (hosts s)) as [t d]. intros (b & B & J). cbn in *. split; [exact (L _ _ B J)|].
  pose proof (closest_spec d) as C. destruct (closest d) as [h|]; [exists h; split; [reflexivity|exact (C _ _ B J)]|].
  specialize (C _ B). cbn in C. rewrite C in J. destruct J.
Qed.

(** ** C81 *)


Record cinv (s : state) (cnt : nat -> nat) : Prop := {
  c_conn : forall k p, In k (conns s) -> conn_proto k = Some p -> conn_performed k + 1 = cnt p;
  c_item : forall i, In i (all available (hosts s)) -> performed i = cnt (proto_of i);
  c_next : forall p, next s <= p -> cnt p = 0
}.

Lemma all_items_in d i : In i (all available d) -> In (proto_of i) (all ids d).
Proof.
  intros J. unfold all in *. apply in_flat_map in J as (kb & K & J). apply in_flat_map. exists kb. split; [assumption|]. now apply in_map.
Qed.

Lemma pop_available_items s k now s' r : pop_available s k now = (s', r) ->
  (forall i, In i (all available (hosts s')) -> In i (all available (hosts s))) /\
  match r with Some (p, n) => exists i, In i (all available (hosts s)) /\ p = proto_of i /\ n = performed i | None => True end.
Proof.
  unfold pop_available. destruct (bget (hosts s) k) as [b|] eqn:E; [|intros H; injection H as <- <-; auto].
  destruct (pop_items (length (available b)) k now (stat s) (available b)) as [[t l] r'] eqn:P.
  apply pop_items_spec in P; [|reflexivity]. destruct P as (dr & HR & _). intros H; injection H as <- <-. cbn. split.
  - intros i J. apply (Permutation_in _ (all_keep available _ _ _ (fun B => proj1 (bool_false _ B)))) in J. apply in_app_iff in J. cbn in J.
    apply (Permutation_in _ (Permutation_sym (all_get available _ _ _ E))), in_app_iff. destruct J as [J|J]; [left|now right].
    destruct r' as [[p m]|]; [destruct HR as (i0 & _ & _ & HP & _)|destruct HR as (-> & _); destruct J].
    apply (Permutation_in _ (Permutation_sym HP)). right. apply in_app_iff. now right.
  - destruct r' as [[p m]|]; [|exact I]. destruct HR as (i & -> & -> & HP & _). exists i. split; [|auto].
    apply (Permutation_in _ (Permutation_sym (all_get available _ _ _ E))), in_app_iff. left. apply (Permutation_in _ (Permutation_sym HP)). now left.
Qed.

Lemma release_used_items s k p i : In i (all available (hosts (release_used s k p))) -> In i (all available (hosts s)).
Proof.
  unfold release_used. destruct (closed s); [auto|]. destruct (bget (hosts s) k) as [b|] eqn:E; [|auto]. cbn. intros J.
  apply (Permutation_in _ (all_keep available _ _ _ (fun B => proj1 (bool_false _ B)))) in J.
  now apply (Permutation_in _ (Permutation_sym (all_get available _ _ _ E))).
Qed.

Lemma connected_items s k p n i : In i (all available (hosts (connected s k p n))) -> In i (all available (hosts s)).
Proof.
  cbn. intros J. apply (Permutation_in _ (all_set available _ _ _)) in J. now apply (Permutation_in _ (Permutation_sym (all_get_new available eq_refl (hosts s) k))).
Qed.

Lemma release_cinv force s k p close tm n now cnt : cinv s cnt -> n = cnt p \/ close = true -> cinv (release force s k p close tm n now) cnt.
Proof.
  intros L N. unfold release. destruct (closed s); [exact L|]. destruct L as [A B C].
  destruct (release_used_same s k p) as (A1&A2&A3&A4&A5&A6). pose proof (release_used_items s k p) as RI.
  set (t := release_used s k p) in *. clearbody t. cbn zeta. destruct (close || force || should_close (stat t p)) eqn:CL.
  - split; cbn; rewrite ?A5, ?A2; auto.
  - split; cbn; rewrite ?A5, ?A2; auto. intros i J. apply (Permutation_in _ (all_set available _ _ _)) in J. cbn in J. rewrite <- app_assoc in J.
    apply in_app_iff in J as [J|J]; [|apply in_app_iff in J as [J|J]].
    + apply B, RI, (Permutation_in _ (Permutation_sym (all_get_new available eq_refl (hosts t) k))), in_app_iff. now left.
    + destruct J as [<-|[]]. cbn. destruct N as [N| ->]; [assumption|discriminate].
    + apply B, RI, (Permutation_in _ (Permutation_sym (all_get_new available eq_refl (hosts t) k))), in_app_iff. now right.
Qed.

Lemma nth_update_in {A} (l : list A) n x y : In y (nth_update l n x) -> y = x \/ In y l.
Proof.
  revert n; induction l as [|z l IH]; intros [|n]; cbn; try tauto; intros [<-|J]; auto. destruct (IH n J); auto.
Qed.

Lemma clear_cinv s c cnt : cinv s cnt -> cinv (clear_conn s c) cnt.
Proof.
  intros [A B C]. split.
  - unfold clear_conn. destruct (nth_error (conns s) c) as [x|] eqn:E; [|exact A]. cbn. intros k p J P.
    apply nth_update_in in J as [->|J]; [discriminate|auto].
  - now rewrite clear_conn_hosts.
  - unfold clear_conn. destruct (nth_error (conns s) c); exact C.
Qed.

Lemma cinv_got s s1 cnt p n k : inv s -> cinv s cnt ->
  (forall i, In i (all available (hosts s1)) -> In i (all available (hosts s)) /\ proto_of i <> p) ->
  conns s1 = conns s -> (forall c, In c (conns s) -> conn_proto c <> Some p) -> p < next s1 -> next s <= next s1 -> n = cnt p ->
  cinv (connected s1 k p n) (fun q => cnt q + gets q (Got p n)).
Proof.
  intros V [A B C] I1 EC NC LT LE ->. split.
  - cbn. rewrite EC. intros x q J P. apply in_app_iff in J as [J|[<-|[]]].
    + rewrite (A _ _ J P). destruct (Nat.eqb p q) eqn:E; [|lia]. apply Nat.eqb_eq in E as <-. now destruct (NC _ J).
    + cbn in P. injection P as <-. cbn. now rewrite Nat.eqb_refl.
  - intros i J. apply connected_items in J. apply I1 in J as [J NE]. rewrite (B _ J). cbn. rewrite (proj2 (Nat.eqb_neq p (proto_of i))); [lia|congruence].
  - cbn. intros q Q. rewrite C by lia. rewrite (proj2 (Nat.eqb_neq p q)); lia.
Qed.

Lemma step_cinv force s o cnt : inv s -> cinv s cnt ->
  let '(s', r) := step force s o in
  cinv s' (fun q => cnt q + gets q r) /\ (forall p n, r = Got p n -> n = cnt p).
Proof.
  intros V L.
  assert (TRIV : forall s', cinv s' cnt -> cinv s' (fun q => cnt q + 0)).
  { intros s' [A B C]. split; intros; rewrite ?Nat.add_0_r; auto. }
  assert (HELD : forall c k p n, held_by s c = Some (k, p, n) -> n + 1 = cnt p).
  { intros c k p n. unfold held_by. destruct (nth_error (conns s) c) as [x|] eqn:E; [|discriminate]. destruct (conn_proto x) as [q|] eqn:Q; [|discriminate].
    intros H; injection H as <- <- <-. eapply c_conn; [exact L| |exact Q]. eapply nth_error_In, E. }
  destruct o; cbn [step].
  - destruct (pop_available s k now) as [s1 r] eqn:E. pose proof (pop_available_items _ _ _ _ _ E) as [I1 I2].
    apply pop_available_spec in E as (dr & P & EC & ED & EN & _). destruct r as [[p n]|]; cbn [gets].
    + destruct I2 as (i & II & -> & ->). assert (NP : performed i = cnt (proto_of i)) by (eapply c_item; eauto).
      split; [|intros p n H; injection H as <- <-; assumption].
      pose proof V as [V1 V2]. unfold everyone in V1, V2.
      assert (ND : NoDup ([proto_of i] ++ dr ++ avail s1)).
      { apply (Permutation_NoDup P). revert V1. clear. generalize (conn_ids (conns s) ++ detached s). induction (avail s); intros l'; [constructor|].
        cbn. intros H. inversion H; subst. constructor; [intros J; apply H2, in_app_iff; now left|eauto]. }
      assert (PI : In (proto_of i) (avail s)) by (apply all_items_in; assumption).
      eapply (cinv_got s); eauto.
      * intros j J. split; [auto|]. intros EQ. apply all_items_in in J. rewrite EQ in J. cbn in ND. inversion ND; subst. apply H1, in_app_iff. now right.
      * intros c J Q. eapply NoDup_apart; [exact V1|exact PI|]. apply in_app_iff. left. apply in_flat_map. exists c. split; [assumption|]. rewrite Q. now left.
      * rewrite EN. rewrite Forall_forall in V2. apply V2, in_app_iff. now left.
      * lia.
    + split; [|discriminate]. apply TRIV. destruct L as [A B C]. split; rewrite ?EC, ?EN; auto.
  - cbn [closed]. destruct (closed s).
    + split; [|discriminate]. cbn [gets]. apply TRIV. destruct L as [A B C]. split; cbn; auto. intros p Q. apply C. lia.
    + pose proof (c_next _ _ L (next s) (le_n _)) as Z. split; [|intros p n H; injection H as <- <-; now rewrite Z].
      destruct V as [V1 V2]. unfold everyone in V2. rewrite Forall_forall in V2. eapply (cinv_got s); cbn; eauto; try lia.
      * split; [|]; [exact V1|apply Forall_forall; exact V2].
      * intros i J. split; [assumption|]. apply all_items_in in J. intros EQ. assert (X : proto_of i < next s); [|lia]. apply V2, in_app_iff. now left.
      * intros c J Q. assert (X : next s < next s); [|lia]. apply V2, in_app_iff. right. apply in_app_iff. left. apply in_flat_map.
        exists c. split; [assumption|]. rewrite Q. now left.
  - destruct (held_by s c) as [[[k p] n]|] eqn:E; [|split; [now apply TRIV|discriminate]].
    destruct (if should_close _ then _ else _) as [cl tm]. split; [|discriminate]. apply TRIV, release_cinv; [now apply clear_cinv|]. left. eauto.
  - destruct (held_by s c) as [[[k p] n]|] eqn:E; [|split; [now apply TRIV|discriminate]]. split; [|discriminate].
    apply TRIV, release_cinv; [now apply clear_cinv|now right].
  - destruct (held_by s c) as [[[k p] n]|] eqn:E; [|split; [now apply TRIV|discriminate]]. split; [|discriminate].
    apply TRIV. apply (clear_cinv s c) in L as [A B C]. destruct (release_used_same (clear_conn s c) k p) as (A1&A2&A3&A4&A5&A6).
    split; cbn; rewrite ?A5, ?A2; auto. intros i J. apply B. eapply release_used_items, J.
  - destruct (held_by s c) as [[[k p] n]|] eqn:E; [|split; [now apply TRIV|discriminate]]. split; [|discriminate].
    destruct running; [|now apply TRIV, clear_cinv]. apply TRIV, release_cinv; [now apply clear_cinv|now right].
  - split; [|discriminate]. apply TRIV. unfold clean_up.
    assert (CI : forall i, In i (all available (snd (clean_hosts now (stat s) (hosts s)))) -> In i (all available (hosts s))).
    { assert (CI : forall k b t i, In i (snd (clean_items k now t b)) -> In i b).
      { intros k b. induction b as [|x b IH]; intros t i; cbn [clean_items]; [auto|]. specialize (IH t i). destruct (clean_items k now t b) as [u r].
        destruct (Nat.ltb now (expiration x)); cbn [snd] in *; [intros [<-|J]; [now left|right; auto]|intros J; right; auto]. }
      generalize (stat s). induction (hosts s) as [|[k b] d IH]; intros t i; cbn [clean_hosts]; [auto|].
      specialize (CI k (available b) t i). destruct (clean_items k now t (available b)) as [u l]. specialize (IH u i).
      destruct (clean_hosts now u d) as [w d']. cbn [snd] in *. intros J. unfold all; cbn. apply in_app_iff. destruct (basket_bool _).
      - unfold all in J; cbn in J. apply in_app_iff in J as [J|J]; [left; auto|right; apply IH; exact J].
      - right. apply IH; exact J. }
    destruct (clean_hosts now (stat s) (hosts s)) as [t d]. destruct L as [A B C]. split; cbn; auto.
  - split; [|discriminate]. apply TRIV. unfold close_connector. destruct (closed s); [exact L|]. destruct L as [A B C]. split; cbn; auto. intros i [].
  - split; [|discriminate]. apply TRIV. destruct (Nat.ltb p (next s)); [|exact L]. destruct L as [A B C]. split; cbn; auto.
Qed.

Lemma run_counts force : forall os s cnt, inv s -> cinv s cnt ->
  let '(s', rs) := run force s os in
  cinv s' (fun q => cnt q + count q rs) /\ forall a b p n, rs = a ++ Got p n :: b -> n = cnt p + count p a.
Proof.
  induction os as [|o os IH]; intros s cnt V L; cbn [run].
  - split; [|intros [|? ?]; discriminate]. destruct L as [A B C]. split; intros; cbn [count]; rewrite ?Nat.add_0_r; auto.
  - pose proof (step_cinv force s o cnt V L) as H. pose proof (step_inv force s o V) as V1. destruct (step force s o) as [s1 r]. destruct H as [L1 G].
    specialize (IH s1 _ V1 L1). destruct (run force s1 os) as [s2 rs]. destruct IH as [L2 G2]. split.
    + destruct L2 as [A B C]. split; intros; cbn [count]; rewrite ?Nat.add_assoc; eauto.
    + intros [|x a] b p n; cbn; intros H; injection H as -> ->.
      * rewrite Nat.add_0_r. now apply G.
      * rewrite Nat.add_assoc. eapply G2. reflexivity.
Qed.

Lemma cinv_initial : cinv initial (fun _ => 0).
Proof. split; cbn; [intros k p []|intros i []|reflexivity]. Qed.

Lemma counts force os a b p n : snd (run force initial os) = a ++ Got p n :: b -> n = count p a.
Proof.
  intros H. pose proof (run_counts force os initial (fun _ => 0) inv_initial cinv_initial) as G. destruct (run force initial os) as [s rs].
  destruct G as [_ G]. cbn in H. now apply G in H.
Qed.

(** A released connection waits for another request only when fewer than the allowed number were made. *)
Lemma release_max force os c m tm now k i p : let s := fst (run force initial os) in
  holds s c p -> idle (fst (step force s (Release c (Some {| max_requests := Some m; connection_timeout := tm |}) now))) k i -> proto_of i = p ->
  count p (snd (run force initial os)) < m.
Proof.
  pose proof (run_counts force os initial (fun _ => 0) inv_initial cinv_initial) as G. pose proof (run_inv force os initial inv_initial) as V.
  destruct (run force initial os) as [s rs]. destruct G as [L _]. cbn in *.
  intros (x & X & XP) H EP. unfold held_by in H. rewrite X, XP in H.
  pose proof (c_conn _ _ L x p (nth_error_In _ _ X) XP) as CN.
  destruct (Nat.leb m (conn_performed x + 1)) eqn:LE; [|apply Nat.leb_gt in LE; lia]. exfalso.
  assert (E : held_by s c = Some (conn_key x, p, conn_performed x)) by (unfold held_by; now rewrite X, XP).
  pose proof (held_by_spec _ _ _ _ _ E) as (P & EH & ET & EN & EC & ED & _).
  replace (if should_close (stat (clear_conn s c) p) then (true, 0) else (true, 0)) with (true, 0) in H by (now destruct (should_close _)).
  cbn [fst] in H. apply idle_in in H. rewrite EP in H.
  assert (NP : ~ In p (avail s)).
  { intros J. destruct V as [V _]. eapply NoDup_apart; [exact V|exact J|]. apply in_app_iff. left. apply (Permutation_in _ (Permutation_sym P)). now left. }
  apply NP. clear - H EH. unfold release in H. destruct (closed (clear_conn s c)).
  - unfold avail in *. now rewrite EH in H.
  - cbn in H. apply (Permutation_in _ (release_used_avail (clear_conn s c) (conn_key x) p)) in H. unfold avail in *. now rewrite EH in H.
Qed.

(** ** When a released connection expires *)
Lemma bset_items d k b k' b' : In (k', b') (bset d k b) -> b' = b \/ In (k', b') d.
Proof.
  induction d as [|[k0 b0] d IH]; cbn; [intros [[= <- <-]|[]]; now left|].
  destruct (keq k0 k); cbn; intros [[= <- <-]|H]; auto. destruct (IH H); auto.
Qed.

Lemma bget_items d k b : bget d k = Some b -> exists k', In (k', b) d.
Proof.
  induction d as [|[k0 b0] d IH]; cbn; [discriminate|]. destruct (keq k0 k); [intros [= <-]; exists k0; now left|].
  intros H. destruct (IH H) as [k' K]. exists k'. now right.
Qed.

Lemma release_expires force s c i info now k : reachable force s -> forall p, holds s c p ->
  idle (fst (step force s (Release c (Some info) now))) k i -> proto_of i = p -> expiration i = now + connection_timeout info.
Proof.
  intros [os ->] p. set (s := fst (run force initial os)). pose proof (run_inv force os initial inv_initial) as V. fold s in V.
  intros (x & X & XP) H EP. cbn [step] in H.
  assert (E : held_by s c = Some (conn_key x, p, conn_performed x)) by (unfold held_by; now rewrite X, XP).
  rewrite E in H. pose proof (held_by_spec _ _ _ _ _ E) as (P & EH & ET & EN & EC & ED & _).
  assert (NP : ~ In p (avail s)).
  { intros J. destruct V as [V _]. eapply NoDup_apart; [exact V|exact J|]. apply in_app_iff. left. apply (Permutation_in _ (Permutation_sym P)). now left. }
  assert (NP' : forall t, Permutation (avail t) (avail (clear_conn s c)) -> ~ In p (avail t)).
  { intros t PT J. apply NP. apply (Permutation_in _ PT) in J. unfold avail in *. now rewrite EH in J. }
  destruct (should_close _) eqn:SC; [|destruct (match max_requests info with None => false | Some m => _ end)]; cbn [fst] in H; unfold release in H.
  all: destruct (closed (clear_conn s c)); [exfalso; apply (NP' _ (Permutation_refl _)); apply idle_in in H; rewrite EP in H; exact H|].
  1,2: exfalso; cbn [orb] in H; apply (NP' _ (release_used_avail (clear_conn s c) (conn_key x) p)); apply idle_in in H; rewrite EP in H; exact H.
  pose proof (NP' _ (release_used_avail (clear_conn s c) (conn_key x) p)) as Q.
  destruct (_ || _) eqn:CL in H; [exfalso; apply Q; apply idle_in in H; rewrite EP in H; exact H|].
  destruct H as (b & B & I0). cbn [hosts] in B. destruct (bset_items _ _ _ _ _ B) as [->|B'].
  - unfold add_available in I0. cbn [available] in I0. apply in_app_iff in I0 as [I0|[<-|[]]]; [|reflexivity].
    exfalso. apply Q. unfold bget_new in I0. destruct (bget _ _) eqn:BG in I0; [|destruct I0].
    destruct (bget_items _ _ _ BG) as [k' K]. assert (J : idle (release_used (clear_conn s c) (conn_key x) p) k' i) by (eexists; split; eassumption).
    apply idle_in in J. now rewrite EP in J.
  - exfalso. apply Q. assert (J : idle (release_used (clear_conn s c) (conn_key x) p) k i) by (eexists; split; eassumption).
    apply idle_in in J. now rewrite EP in J.
Qed.
