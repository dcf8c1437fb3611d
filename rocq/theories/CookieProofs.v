(** Proofs about the cookie jar. *)

From Coq Require Import List Arith Bool NArith ZArith Lia.
From Verif Require Import Bytes Text CookieModel CookieSpec.
Import ListNotations.

(** * Texts *)
Lemma ends_with_app p d : ends_with p d = true <-> exists r, d = r ++ p.
Proof.
  unfold ends_with. rewrite starts_with_app. split; intros [r E].
  - exists (rev r). rewrite <- (rev_involutive d), E, rev_app_distr, rev_involutive. reflexivity.
  - exists (rev r). rewrite E, rev_app_distr. reflexivity.
Qed.

Lemma pair_eqb_eq a b : pair_eqb a b = true <-> a = b.
Proof. destruct a, b. unfold pair_eqb. cbn. rewrite andb_true_iff, !beqb_eq. split; [intros [-> ->]; reflexivity|intros [= -> ->]; auto]. Qed.

Section Rules.
Variable is_ip : str -> bool.

Lemma domains_match d h : d <> [] -> do_domains_match is_ip d h = true <-> domain_match is_ip d h.
Proof.
  intros ND. unfold do_domains_match, domain_match. destruct (beqb h d) eqn:E; [apply beqb_eq in E; split; auto|].
  assert (NE : h <> d) by (intros ->; now rewrite beqb_refl in E). clear E. destruct (ends_with d h) eqn:E1; cbn [negb].
  - apply ends_with_app in E1 as [p ->]. replace (length (p ++ d) - length d) with (length p) by (rewrite app_length; unfold str in *; lia).
    rewrite firstn_app, Nat.sub_diag, firstn_all, app_nil_r. destruct (ends_with [46%N] p) eqn:E2; cbn [negb].
    + apply ends_with_app in E2 as [q ->]. destruct (is_ip ((q ++ [46%N]) ++ d)); cbn; split; try discriminate.
      * intros [E|[_ ?]]; [contradiction|discriminate].
      * intros _. right. split; [|reflexivity]. exists q. exact (eq_sym (app_assoc q [46%N] d)).
      * reflexivity.
    + split; [discriminate|]. intros [E|[[q E] _]]; [contradiction|]. exfalso.
      assert (E' : p = q ++ [46%N]). { apply (app_inv_tail d). rewrite E. now rewrite <- app_assoc. }
      assert (ends_with [46%N] p = true) by (apply ends_with_app; now exists q). congruence.
  - split; [discriminate|]. intros [->|[[q E] _]]; [contradiction|]. exfalso.
    assert (ends_with d h = true) by (apply ends_with_app; exists (q ++ [46%N]); rewrite E; now rewrite <- app_assoc). congruence.
Qed.

Lemma domains_match_self h : do_domains_match is_ip h h = true.
Proof. unfold do_domains_match. now rewrite beqb_refl. Qed.

Lemma request_path_is u : (if starts_with [47%N] (u_path u) then u_path u else [47%N]) = request_path u.
Proof.
  unfold request_path. destruct (u_path u) as [|c p]; [reflexivity|]. cbn. rewrite andb_true_r. destruct (N.eqb_spec 47 c) as [<-|NE]; [reflexivity|].
  destruct c as [|c]; [reflexivity|]. do 6 (destruct c as [c|c|]; try reflexivity).
Qed.

Lemma paths_match u c : do_paths_match (u_path u) c = true <-> path_match c (request_path u).
Proof.
  unfold do_paths_match, path_match. rewrite request_path_is. set (r := request_path u). destruct (beqb r c) eqn:E; [apply beqb_eq in E; split; auto|].
  assert (NE : r <> c) by (intros ->; now rewrite beqb_refl in E). clear E. clearbody r. destruct (starts_with c r) eqn:E1; cbn [negb].
  - apply starts_with_app in E1 as [t ->]. destruct (ends_with [47%N] c) eqn:E2.
    + apply ends_with_app in E2 as [c' ->]. split; [|reflexivity]. intros _. right. exists t. split; [reflexivity|]. left. now exists c'.
    + assert (NC : forall c', c <> c' ++ [47%N]).
      { intros c' ->. assert (ends_with [47%N] (c' ++ [47%N]) = true) by (apply ends_with_app; now exists c'). congruence. }
      destruct t as [|x t]; [rewrite app_nil_r in NE; contradiction|].
      destruct (_ <=? _) eqn:LB; [apply Nat.leb_le in LB; rewrite app_length in LB; cbn [length] in LB; exfalso; revert LB; apply Nat.lt_nge; apply Nat.lt_add_pos_r, Nat.lt_0_succ|].
      rewrite nth_error_app2, Nat.sub_diag by apply Nat.le_refl. cbn [nth_error]. rewrite N.eqb_eq. split.
      * intros ->. right. exists (47%N :: t). split; [reflexivity|]. right. now exists t.
      * intros [E|(r & E & [[c' C]|[r' ->]])]; [contradiction|now apply NC in C|]. apply app_inv_head in E. now injection E.
  - split; [discriminate|]. intros [->|(t & -> & _)]; [contradiction|]. exfalso. assert (starts_with c (c ++ t) = true) by (apply starts_with_app; now exists t). congruence.
Qed.

Lemma rfind_spec : forall p, (exists q r, p = q ++ 47%N :: r /\ ~ In 47%N r /\ rfind_slash p = length q) \/ ~ In 47%N p.
Proof.
  induction p as [|c p IH]; [right; intros []|]. cbn [rfind_slash]. destruct (existsb (N.eqb 47) p) eqn:E.
  - destruct IH as [(q & r & -> & NR & L)|N0].
    + left. exists (c :: q), r. cbn. repeat split; auto.
    + exfalso. apply existsb_exists in E as (x & X & Y). apply N.eqb_eq in Y as <-. contradiction.
  - assert (NP : ~ In 47%N p).
    { intros J. assert (existsb (N.eqb 47) p = true) by (apply existsb_exists; exists 47%N; split; [exact J|reflexivity]). congruence. }
    destruct (N.eq_dec c 47) as [->|NE].
    + left. exists [], p. repeat split; auto.
    + right. intros [J|J]; [congruence|contradiction].
Qed.

Lemma default_directory p : directory p (default_path p).
Proof.
  unfold default_path, directory. destruct (starts_with [47%N] p) eqn:E.
  - apply starts_with_app in E as [t ->]. cbn [app]. unfold byte, str in *. destruct (rfind_spec (47%N :: t)) as [(q & r & E & NR & L)|N0]; [|exfalso; apply N0; now left].
    rewrite L. destruct q as [|c q].
    + cbn in E. injection E as ->. right. split; [|reflexivity]. intros (q & r' & E). injection E as ->. apply NR. apply in_app_iff. right. now left.
    + cbn in E. injection E as <- ->. left. exists q, r. repeat split; auto. cbn [length skipn Nat.sub]. rewrite Nat.sub_0_r, firstn_app, Nat.sub_diag, firstn_all. cbn. now rewrite app_nil_r.
  - right. split; [|reflexivity]. intros (q & r & ->). discriminate.
Qed.

Lemma set_path_of u m m1 : m_path m1 = m_path m -> path_of u m (m_path (set_path u m1)).
Proof.
  intros EP. unfold set_path, path_of. rewrite <- EP. destruct (starts_with [47%N] (m_path m1)) eqn:E.
  - left. apply starts_with_app in E as [t E]. now exists t.
  - right. cbn. split; [|apply default_directory]. intros (r & R). rewrite R in E. discriminate.
Qed.
End Rules.

(** * Dictionaries *)
Section Assoc.
Context {K V : Type}.
Variable eqb : K -> K -> bool.
Hypothesis eqb_eq : forall a b, eqb a b = true <-> a = b.

Lemma aset_In k (v : V) : forall l e, In e (aset eqb k v l) -> e = (k, v) \/ In e l.
Proof.
  induction l as [|[k' v'] l IH]; intros e; cbn.
  - intros [<-|[]]. now left.
  - destruct (eqb k' k) eqn:E; cbn.
    + apply eqb_eq in E as ->. intros [<-|J]; auto.
    + intros [<-|J]; [auto|]. destruct (IH e J); auto.
Qed.

Lemma aset_keys k (v : V) : forall l x, In x (map fst (aset eqb k v l)) <-> x = k \/ In x (map fst l).
Proof.
  induction l as [|[k' v'] l IH]; intros x; cbn.
  - split; [intros [<-|[]]; auto|intros [->|[]]; auto].
  - destruct (eqb k' k) eqn:E; cbn.
    + apply eqb_eq in E as ->. split; [tauto|]. intros [->|J]; auto.
    + rewrite IH. tauto.
Qed.

Lemma aset_NoDup k (v : V) : forall l, NoDup (map fst l) -> NoDup (map fst (aset eqb k v l)).
Proof.
  induction l as [|[k' v'] l IH]; cbn; intros N0; [repeat constructor; intros []|]. inversion N0; subst. destruct (eqb k' k) eqn:E; cbn.
  - constructor; assumption.
  - constructor; [|auto]. rewrite aset_keys. intros [->|J]; [|contradiction]. rewrite (proj2 (eqb_eq k k) eq_refl) in E. discriminate.
Qed.

Lemma aset_In_NoDup k (v : V) : forall l k' v', NoDup (map fst l) -> In (k', v') (aset eqb k v l) -> k' = k /\ v' = v \/ k' <> k /\ In (k', v') l.
Proof.
  induction l as [|[k0 v0] l IH]; intros k' v' N0; cbn.
  - intros [[= <- <-]|[]]. now left.
  - inversion N0 as [|? ? NI N1]; subst. destruct (eqb k0 k) eqn:E; cbn.
    + apply eqb_eq in E as ->. intros [[= <- <-]|J]; [now left|]. right. split; [|now right]. intros ->. apply NI. apply in_map_iff. now exists (k, v').
    + intros [[= <- <-]|J].
      * right. split; [|now left]. intros ->. rewrite (proj2 (eqb_eq k k) eq_refl) in E. discriminate.
      * destruct (IH k' v' N1 J) as [?|[? ?]]; auto.
Qed.

Lemma aset_has k (v : V) : forall l, In (k, v) (aset eqb k v l).
Proof. induction l as [|[k' v'] l IH]; cbn; [now left|]. destruct (eqb k' k) eqn:E; [apply eqb_eq in E as ->; now left|now right]. Qed.

Lemma aset_keep k (v : V) : forall l k' v', In (k', v') l -> k' <> k -> In (k', v') (aset eqb k v l).
Proof.
  induction l as [|[k0 v0] l IH]; intros k' v' J NE; [destruct J|]. cbn. destruct J as [[= <- <-]|J].
  - destruct (eqb k0 k) eqn:E; [apply eqb_eq in E; contradiction|now left].
  - destruct (eqb k0 k); right; auto.
Qed.

Lemma aget_In k : forall (l : list (K * V)) v, aget eqb k l = Some v -> In (k, v) l.
Proof.
  induction l as [|[k' v'] l IH]; intros v; cbn; [discriminate|]. destruct (eqb k' k) eqn:E; [apply eqb_eq in E as ->; intros [= <-]; now left|]. intros J. right. now apply IH.
Qed.

Lemma In_aget k : forall (l : list (K * V)) v, NoDup (map fst l) -> In (k, v) l -> aget eqb k l = Some v.
Proof.
  induction l as [|[k' v'] l IH]; intros v N0 J; [destruct J|]. inversion N0; subst. cbn. destruct J as [[= -> ->]|J].
  - now rewrite (proj2 (eqb_eq k k) eq_refl).
  - destruct (eqb k' k) eqn:E; [|now apply IH]. apply eqb_eq in E as ->. exfalso. apply H1. apply in_map_iff. now exists (k, v).
Qed.

Lemma adel_In k (l : list (K * V)) k' v' : In (k', v') (adel eqb k l) <-> In (k', v') l /\ k' <> k.
Proof.
  unfold adel. rewrite filter_In. cbn. rewrite negb_true_iff. split; intros [A B]; split; auto.
  - intros ->. rewrite (proj2 (eqb_eq k k) eq_refl) in B. discriminate.
  - destruct (eqb k' k) eqn:E; [apply eqb_eq in E; contradiction|reflexivity].
Qed.

Lemma adel_NoDup k (l : list (K * V)) : NoDup (map fst l) -> NoDup (map fst (adel eqb k l)).
Proof.
  induction l as [|[k' v'] l IH]; cbn; intros N0; [constructor|]. inversion N0; subst. destruct (negb (eqb k' k)); cbn; [|auto]. constructor; [|auto].
  intros J. apply H1. apply in_map_iff in J as (x & X & Y). apply filter_In in Y as [Y _]. apply in_map_iff. now exists x.
Qed.
End Assoc.

(** * The cookies of a jar *)
Definition table := list (str * list (str * morsel)).
Definition wf (cs : table) : Prop := NoDup (map fst cs) /\ Forall (fun e => NoDup (map fst (snd e))) cs.
Definition has (cs : table) (d n : str) (m : morsel) : Prop := exists l, In (d, l) cs /\ In (n, m) l.

Lemma of_domain_In d (cs : table) n m : In (n, m) (of_domain d cs) -> has cs d n m.
Proof. unfold of_domain. destruct (aget beqb d cs) as [l|] eqn:E; [|intros []]. intros J. exists l. split; [|exact J]. now apply (aget_In beqb beqb_eq). Qed.

Lemma of_domain_NoDup d (cs : table) : wf cs -> NoDup (map fst (of_domain d cs)).
Proof.
  intros [_ F]. unfold of_domain. destruct (aget beqb d cs) as [l|] eqn:E; [|constructor]. rewrite Forall_forall in F.
  apply (F (d, l)). now apply (aget_In beqb beqb_eq).
Qed.

Lemma has_of_domain d (cs : table) n m : wf cs -> has cs d n m -> In (n, m) (of_domain d cs).
Proof. intros [W _] (l & A & B). unfold of_domain. now rewrite (In_aget beqb beqb_eq d cs l W A). Qed.

Lemma replace_wf d l (cs : table) : wf cs -> NoDup (map fst l) -> wf (aset beqb d l cs).
Proof.
  intros [W F] N0. split; [now apply (aset_NoDup beqb beqb_eq)|]. rewrite Forall_forall in *. intros [d' l'] J. destruct (aset_In beqb beqb_eq _ _ _ _ J) as [[= -> ->]|J']; [exact N0|].
  exact (F _ J').
Qed.

Lemma put_wf d n m cs : wf cs -> wf (put d n m cs).
Proof. intros W. apply replace_wf; [exact W|]. apply (aset_NoDup beqb beqb_eq). now apply of_domain_NoDup. Qed.
Lemma pop_wf d n cs : wf cs -> wf (pop d n cs).
Proof. intros W. apply replace_wf; [exact W|]. apply adel_NoDup. now apply of_domain_NoDup. Qed.

Lemma put_has d n m cs d' n' m' : wf cs -> has (put d n m cs) d' n' m' <-> (d' = d /\ n' = n /\ m' = m) \/ ((d', n') <> (d, n) /\ has cs d' n' m').
Proof.
  intros W. pose proof W as [W1 W2]. split.
  - intros (l & A & B). destruct (aset_In_NoDup beqb beqb_eq _ _ _ _ _ W1 A) as [[-> ->]|[NE J]].
    + destruct (aset_In_NoDup beqb beqb_eq _ _ _ _ _ (of_domain_NoDup d cs W) B) as [[-> ->]|[NE J]]; [now left|]. right. split; [congruence|now apply of_domain_In].
    + right. split; [congruence|]. now exists l.
  - intros [(-> & -> & ->)|[NE J]].
    + exists (aset beqb n m (of_domain d cs)). split; apply (aset_has beqb beqb_eq).
    + destruct (list_eq_dec N.eq_dec d' d) as [->|ND].
      * exists (aset beqb n m (of_domain d cs)). split; [apply (aset_has beqb beqb_eq)|]. apply (aset_keep beqb beqb_eq); [now apply has_of_domain|congruence].
      * destruct J as (l & A & B). exists l. split; [|exact B]. now apply (aset_keep beqb beqb_eq).
Qed.

Lemma pop_has d n cs d' n' m' : wf cs -> has (pop d n cs) d' n' m' <-> (d', n') <> (d, n) /\ has cs d' n' m'.
Proof.
  intros W. pose proof W as [W1 W2]. split.
  - intros (l & A & B). destruct (aset_In_NoDup beqb beqb_eq _ _ _ _ _ W1 A) as [[-> ->]|[NE J]].
    + apply (adel_In beqb beqb_eq) in B as [B NE]. split; [congruence|now apply of_domain_In].
    + split; [congruence|]. now exists l.
  - intros [NE J]. destruct (list_eq_dec N.eq_dec d' d) as [->|ND].
    + exists (adel beqb n (of_domain d cs)). split; [apply (aset_has beqb beqb_eq)|]. apply (adel_In beqb beqb_eq). split; [now apply has_of_domain|congruence].
    + destruct J as (l & A & B). exists l. split; [|exact B]. now apply (aset_keep beqb beqb_eq).
Qed.

Lemma pops_wf : forall (es : list ((str * str) * Z)) cs, wf cs -> wf (fold_left (fun cs e => pop (fst (fst e)) (snd (fst e)) cs) es cs).
Proof. induction es as [|e es IH]; intros cs W; cbn [fold_left]; [exact W|]. apply IH. now apply pop_wf. Qed.

Lemma pops_has : forall (es : list ((str * str) * Z)) cs d n m, wf cs ->
  has (fold_left (fun cs e => pop (fst (fst e)) (snd (fst e)) cs) es cs) d n m <-> ~ In (d, n) (map fst es) /\ has cs d n m.
Proof.
  induction es as [|[[d0 n0] w] es IH]; intros cs d n m W; cbn [fold_left map fst snd].
  - split; [intros J; split; [intros []|exact J]|tauto].
  - rewrite IH by (now apply pop_wf). rewrite pop_has by exact W. cbn [In]. split.
    + intros (A & B & C). split; [|exact C]. intros [E|J]; [now apply B; symmetry|contradiction].
    + intros (A & C). repeat split; [tauto| |exact C]. intros E. apply A. left. now symmetry.
Qed.

(** * Expirations *)
Lemma ceil_le t : (t <= ceil t)%Z.
Proof. unfold ceil. pose proof (Z.div_mod (t + 999) 1000 ltac:(lia)). pose proof (Z.mod_pos_bound (t + 999) 1000 ltac:(lia)). lia. Qed.
Lemma ceil_lt t : (ceil t < t + 1000)%Z.
Proof. unfold ceil. pose proof (Z.div_mod (t + 999) 1000 ltac:(lia)). pose proof (Z.mod_pos_bound (t + 999) 1000 ltac:(lia)). lia. Qed.
Lemma ceil_mono a b : (a <= b)%Z -> (ceil a <= ceil b)%Z.
Proof. intros L. unfold ceil. assert ((a + 999) / 1000 <= (b + 999) / 1000)%Z by (apply Z.div_le_mono; lia). lia. Qed.

Lemma fold_min : forall (l : list ((str * str) * Z)) n, (fold_left (fun n e => Z.min n (snd e)) l n <= n)%Z /\
  forall e, In e l -> (fold_left (fun n e => Z.min n (snd e)) l n <= snd e)%Z.
Proof.
  induction l as [|x l IH]; intros n; cbn [fold_left].
  - split; [lia|intros e []].
  - destruct (IH (Z.min n (snd x))) as [A B]. split; [lia|]. intros e [<-|J]; [lia|auto].
Qed.

Definition timely (j : jar) : Prop := forall k w, In (k, w) (expirations j) -> (next_expiration j <= ceil w)%Z.

Lemma do_expiration_spec now j : wf (cookies j) -> timely j ->
  let j' := do_expiration now j in
  wf (cookies j') /\ timely j' /\ unsafe j' = unsafe j /\
  (forall d n m, has (cookies j') d n m -> has (cookies j) d n m /\
     (In (d, n) (host_only j) -> In (d, n) (host_only j')) /\
     (forall w, In ((d, n), w) (expirations j) -> In ((d, n), w) (expirations j') /\ (now <= w \/ now < ceil w)%Z)) /\
  (forall k, In k (host_only j') -> In k (host_only j)) /\
  (forall k w, In (k, w) (expirations j') -> In (k, w) (expirations j)) /\
  (forall d n m, has (cookies j) d n m -> (forall w, In ((d, n), w) (expirations j) -> (now <= w)%Z) -> has (cookies j') d n m).
Proof.
  intros W T. unfold do_expiration. destruct (Z.ltb_spec now (next_expiration j)) as [L|L].
  - cbv zeta. repeat split; auto; try apply W. right. specialize (T _ _ H0). lia.
  - destruct (expirations j) as [|e0 es0] eqn:EE.
    + cbv zeta. rewrite EE. repeat split; auto; try apply W; destruct H0.
    + rewrite <- EE. set (es := expirations j) in *. cbv zeta. cbn [cookies host_only unsafe next_expiration expirations].
      split; [now apply pops_wf|]. split; [|split; [reflexivity|split; [|split; [|split]]]].
      * intros k w J. cbn in *. apply ceil_mono. destruct (fold_min (filter (fun e => negb (expired now e)) es) max_time) as [_ B]. exact (B _ J).
      * intros d n m J. rewrite pops_has in J by exact W. destruct J as [NG J]. split; [exact J|]. split.
        -- intros HO. apply filter_In. split; [exact HO|]. apply negb_true_iff. destruct (existsb _ _) eqn:E; [|reflexivity]. apply existsb_exists in E as ([k w] & E1 & E2).
           apply pair_eqb_eq in E2. cbn in E2. subst k. exfalso. apply NG. apply in_map_iff. now exists ((d, n), w).
        -- intros w JW. assert (X : expired now ((d, n), w) = false).
           { destruct (expired now ((d, n), w)) eqn:X; [|reflexivity]. exfalso. apply NG. apply in_map_iff. exists ((d, n), w). split; [reflexivity|]. now apply filter_In. }
           split; [apply filter_In; split; [exact JW|now rewrite X]|]. left. unfold expired in X. cbn in X. apply Z.ltb_ge in X. exact X.
      * intros k J. now apply filter_In in J as [J _].
      * intros k w J. now apply filter_In in J as [J _].
      * intros d n m J F. apply pops_has; [exact W|]. split; [|exact J]. intros G. apply in_map_iff in G as ([k w] & E & G). cbn in E. subst k.
        apply filter_In in G as [G X]. unfold expired in X. cbn in X. apply Z.ltb_lt in X. specialize (F w G). lia.
Qed.

(** * Updates *)
Section Updates.
Variable is_ip : str -> bool.
Variable parse_int : str -> option Z.
Variable parse_date : str -> option (option Z).

Notation update_one := (update_one is_ip parse_int parse_date).
Notation update_loop := (update_loop is_ip parse_int parse_date).
Notation update_cookies := (update_cookies is_ip parse_int parse_date).
Notation step := (step is_ip parse_int parse_date).
Notation run := (run is_ip parse_int parse_date).
Notation max_age := (max_age parse_int).
Notation lifetime := (lifetime parse_int parse_date).
Notation session := (session parse_int parse_date).
Notation total_dates := (total_dates parse_date).


(** How [m] of [u] is stored as [m'] for [d]. *)
Definition placed (u : url) (m : morsel) (d : str) (m' : morsel) : Prop :=
  match wanted m, u_host u with
  | None, None => d = [] /\ (m_domain m' = Some [] \/ m_domain m' = None)
  | None, Some h => d = h /\ m_domain m' = Some h
  | Some d', h => d = d' /\ m_domain m' = Some d' /\ d' <> [] /\ match h with None => True | Some h => domain_match is_ip d' h end
  end.
Definition derived (u : url) (m : morsel) (d : str) (m' : morsel) : Prop :=
  placed u m d m' /\ m_value m' = m_value m /\ m_secure m' = m_secure m /\ path_of u m (m_path m').


Lemma set_lifetime_spec now d n m j : let '(m', j', ok) := set_lifetime parse_int parse_date now d n m j in
  m_domain m' = m_domain m /\ m_value m' = m_value m /\ m_secure m' = m_secure m /\ m_path m' = m_path m /\ cookies j' = cookies j /\ host_only j' = host_only j /\ unsafe j' = unsafe j /\
  match lifetime now m with
  | Some w => ok = true /\ j' = expire w d n j
  | None => j' = j
  end.
Proof.
  unfold set_lifetime, lifetime. destruct (m_max_age m) as [|c a] eqn:A.
  - destruct (parse_date (m_expires m)) as [[t|]|]; cbn; repeat split; auto.
  - destruct (parse_int (c :: a)) as [s|]; cbn; repeat split; auto.
Qed.

Lemma no_dot c t : c <> 46%N -> starts_with [46%N] (c :: t) = false.
Proof. intros NC. destruct (starts_with [46%N] (c :: t)) eqn:E; [|reflexivity]. apply starts_with_app in E as [r E]. cbn in E. congruence. Qed.

Lemma wanted_none m : wanted m = None -> ends_with [46%N] (attribute m) = true \/ attribute m = [].
Proof.
  unfold wanted, attribute. destruct (m_domain m) as [[|c d]|]; auto. destruct (N.eqb_spec (last (c :: d) 0%N) 46) as [E|E].
  - intros _. left. apply ends_with_app. exists (removelast (c :: d)). rewrite <- E. apply app_removelast_last. discriminate.
  - destruct c as [|p]; try discriminate. do 6 (destruct p as [p|p|]; try discriminate).
Qed.

Lemma wanted_cases m : (wanted m = None /\ (ends_with [46%N] (attribute m) = true \/ attribute m = [])) \/
  (exists c t, attribute m = c :: t /\ c <> 46%N /\ ends_with [46%N] (attribute m) = false /\ wanted m = Some (attribute m) /\ m_domain m = Some (attribute m)) \/
  (exists t, attribute m = 46%N :: t /\ t <> [] /\ ends_with [46%N] (attribute m) = false /\ wanted m = Some t).
Proof.
  destruct (wanted m) as [w|] eqn:WM; [right|left; split; [reflexivity|now apply wanted_none]].
  unfold wanted, attribute in *. destruct (m_domain m) as [[|c d]|] eqn:MD; try discriminate.
  destruct (N.eqb_spec (last (c :: d) 0%N) 46) as [E|E]; [discriminate|].
  assert (NE : ends_with [46%N] (c :: d) = false).
  { destruct (ends_with [46%N] (c :: d)) eqn:X; [|reflexivity]. apply ends_with_app in X as [r X]. exfalso. apply E. rewrite X. now rewrite last_last. }
  destruct (N.eq_dec c 46) as [->|NC].
  - right. exists d. repeat split; auto. intros ->. now apply E.
  - left. exists c, d. repeat split; auto. destruct c as [|p]; [now injection WM as <-|]. do 6 (destruct p as [p|p|]; try (now injection WM as <-)).
Qed.

Lemma update_one_spec now u n m j : proper u -> let '(j', ok) := update_one now u n m j in
  (forall k, In k (host_only j) -> In k (host_only j')) /\ unsafe j' = unsafe j /\
  ((cookies j' = cookies j /\ expirations j' = expirations j /\ next_expiration j' = next_expiration j /\
      (ok = false \/ exists d h, wanted m = Some d /\ u_host u = Some h /\ ~ domain_match is_ip d h)) \/
   (exists d m', ok = true /\ derived u m d m' /\ cookies j' = put d n m' (cookies j) /\ (forall h, wanted m = None -> u_host u = Some h -> In (h, n) (host_only j')) /\
      match lifetime now m with
      | None => expirations j' = expirations j /\ next_expiration j' = next_expiration j
      | Some w => expirations j' = aset pair_eqb (d, n) w (expirations j) /\ next_expiration j' = Z.min (next_expiration j) w
      end)).
Proof.
  intros PU.
  assert (STORE : forall d m1 j1, lifetime now m1 = lifetime now m -> (forall k, In k (host_only j) -> In k (host_only j1)) -> unsafe j1 = unsafe j -> cookies j1 = cookies j ->
    expirations j1 = expirations j -> next_expiration j1 = next_expiration j ->
    (forall h, wanted m = None -> u_host u = Some h -> In (h, n) (host_only j1)) ->
    (forall m', m_domain m' = m_domain m1 -> m_value m' = m_value m1 -> m_secure m' = m_secure m1 -> m_path m' = m_path (set_path u m1) -> derived u m d m') ->
    let '(j', ok) := (let m := set_path u m1 in let '(m, j, ok) := set_lifetime parse_int parse_date now d n m j1 in if ok then (store d n m j, true) else (j, false)) in
    (forall k, In k (host_only j) -> In k (host_only j')) /\ unsafe j' = unsafe j /\
    ((cookies j' = cookies j /\ expirations j' = expirations j /\ next_expiration j' = next_expiration j /\
       (ok = false \/ exists d h, wanted m = Some d /\ u_host u = Some h /\ ~ domain_match is_ip d h)) \/
     (exists d m', ok = true /\ derived u m d m' /\ cookies j' = put d n m' (cookies j) /\ (forall h, wanted m = None -> u_host u = Some h -> In (h, n) (host_only j')) /\
      match lifetime now m with
      | None => expirations j' = expirations j /\ next_expiration j' = next_expiration j
      | Some w => expirations j' = aset pair_eqb (d, n) w (expirations j) /\ next_expiration j' = Z.min (next_expiration j) w
      end))).
  { intros d m1 j1 LT HO US CO EX NX HN DER. cbv zeta. pose proof (set_lifetime_spec now d n (set_path u m1) j1) as G.
    destruct (set_lifetime parse_int parse_date now d n (set_path u m1) j1) as [[m2 j2] ok]. destruct G as (G1 & G2 & G3 & G4 & G5 & G6 & G7 & G8).
    assert (LT' : lifetime now (set_path u m1) = lifetime now m) by (rewrite <- LT; unfold set_path; now destruct (starts_with _ _)).
    rewrite LT' in G8.
    assert (E2 : match lifetime now m with None => expirations j2 = expirations j /\ next_expiration j2 = next_expiration j
              | Some w => expirations j2 = aset pair_eqb (d, n) w (expirations j) /\ next_expiration j2 = Z.min (next_expiration j) w end).
    { destruct (lifetime now m) as [w|]; [destruct G8 as [_ ->]|subst j2]; cbn; rewrite EX, NX; auto. }
    destruct ok.
    - cbn. split; [intros k K; rewrite G6; auto|]. split; [congruence|]. right. exists d, m2. split; [reflexivity|]. split; [|split; [|split]].
      + apply DER; try congruence.
        * rewrite G1. unfold set_path. now destruct (starts_with _ _).
        * rewrite G2. unfold set_path. now destruct (starts_with _ _).
        * rewrite G3. unfold set_path. now destruct (starts_with _ _).
      + now rewrite G5, CO.
      + intros h A B. rewrite G6. now apply HN.
      + exact E2.
    - split; [intros k K; rewrite G6; auto|]. split; [congruence|]. left. split; [congruence|].
      destruct (lifetime now m) as [w|]; [destruct G8 as [? _]; discriminate|]. destruct E2. repeat split; auto. }
  assert (SKIP : forall h d j1, wanted m = Some d -> u_host u = Some h -> d <> [] -> do_domains_match is_ip d h = false -> j1 = j ->
    (forall k, In k (host_only j) -> In k (host_only j1)) /\ unsafe j1 = unsafe j /\
    ((cookies j1 = cookies j /\ expirations j1 = expirations j /\ next_expiration j1 = next_expiration j /\
       (true = false \/ exists d h, wanted m = Some d /\ u_host u = Some h /\ ~ domain_match is_ip d h)) \/
     (exists d m', true = true /\ derived u m d m' /\ cookies j1 = put d n m' (cookies j) /\ (forall h, wanted m = None -> u_host u = Some h -> In (h, n) (host_only j1)) /\
      match lifetime now m with
      | None => expirations j1 = expirations j /\ next_expiration j1 = next_expiration j
      | Some w => expirations j1 = aset pair_eqb (d, n) w (expirations j) /\ next_expiration j1 = Z.min (next_expiration j) w
      end))).
  { intros h d j1 WM UH ND DM ->. repeat split; auto. left. repeat split; auto. right. exists d, h. repeat split; auto. intros X. apply (domains_match is_ip d h ND) in X. congruence. }
  unfold CookieModel.update_one. destruct (wanted_cases m) as [(WM & AT)|[(c & t & AT & NC & EW & WM & MD)|(t & AT & NT & EW & WM)]].
  - (* no domain *)
    assert (E : (if ends_with [46%N] (attribute m) then ([], with_domain m None) else (attribute m, m)) = (@nil N, with_domain m None) /\ True \/
                (if ends_with [46%N] (attribute m) then ([], with_domain m None) else (attribute m, m)) = (@nil N, m) /\ (m_domain m = None \/ m_domain m = Some [])).
    { destruct (ends_with [46%N] (attribute m)) eqn:EW; [left; auto|]. destruct AT as [AT|AT]; [discriminate|]. right. rewrite AT. split; [reflexivity|].
      unfold attribute in AT. destruct (m_domain m); [right; now rewrite AT|now left]. }
    destruct (u_host u) as [h|] eqn:UH.
    + unfold proper in PU. rewrite UH in PU. destruct PU as (c & t & -> & NC).
      assert (SW : starts_with [46%N] (c :: t) = false) by (now apply no_dot).
      destruct E as [[-> _]|[-> _]].
      * rewrite SW, domains_match_self. cbn [negb].
        apply STORE; auto; [intros k K; now right|intros h _ [= <-]; now left|]. intros m' A1 A2 A3 A4. unfold derived, placed. rewrite WM, UH. repeat split; auto.
        rewrite A4. now apply set_path_of.
      * rewrite SW, domains_match_self. cbn [negb].
        apply STORE; auto; [intros k K; now right|intros h _ [= <-]; now left|]. intros m' A1 A2 A3 A4. unfold derived, placed. rewrite WM, UH. repeat split; auto.
        rewrite A4. now apply set_path_of.
    + destruct E as [[-> _]|[-> MD]].
      * cbn [starts_with]. apply STORE; auto; [intros h _ [=]|]. intros m' A1 A2 A3 A4. unfold derived, placed. rewrite WM, UH. repeat split; auto.
        rewrite A4. now apply set_path_of.
      * cbn [starts_with]. apply STORE; auto; [intros h _ [=]|]. intros m' A1 A2 A3 A4. unfold derived, placed. rewrite WM, UH. repeat split; auto.
        -- rewrite A1. tauto.
        -- rewrite A4. now apply set_path_of.
  - (* a domain *)
    rewrite EW, AT. assert (SW : starts_with [46%N] (c :: t) = false) by (now apply no_dot). rewrite SW.
    rewrite AT in WM, MD. destruct (u_host u) as [h|] eqn:UH.
    + destruct (do_domains_match is_ip (c :: t) h) eqn:DM; cbn [negb].
      * apply STORE; auto; [intros h' WN; congruence|]. intros m' A1 A2 A3 A4. unfold derived, placed. rewrite WM, UH. repeat split; try congruence.
        -- apply domains_match; [discriminate|exact DM].
        -- rewrite A4. now apply set_path_of.
      * apply (SKIP h (c :: t)); auto. discriminate.
    + apply STORE; auto; [intros h' WN; congruence|]. intros m' A1 A2 A3 A4. unfold derived, placed. rewrite WM, UH. repeat split; try congruence.
      rewrite A4. now apply set_path_of.
  - (* with a leading dot *)
    rewrite EW, AT. cbn [starts_with]. rewrite N.eqb_refl. cbn [andb skipn]. destruct (u_host u) as [h|] eqn:UH.
    + destruct (do_domains_match is_ip t h) eqn:DM; cbn [negb].
      * apply STORE; auto; [intros h' WN; congruence|]. intros m' A1 A2 A3 A4. unfold derived, placed. rewrite WM, UH. repeat split; auto.
        -- now apply domains_match.
        -- rewrite A4. now apply set_path_of.
      * apply (SKIP h t); auto.
    + apply STORE; auto; [intros h' WN; congruence|]. intros m' A1 A2 A3 A4. unfold derived, placed. rewrite WM, UH. repeat split; auto.
      rewrite A4. now apply set_path_of.
Qed.

(** * Histories *)

Definition origin (os : list op) (j : jar) (d n : str) (m' : morsel) : Prop :=
  exists t u m, updates os t u n m /\ derived u m d m' /\ (forall h, wanted m = None -> u_host u = Some h -> In (h, n) (host_only j)) /\
    (forall s, max_age m = Some s -> In ((d, n), (t + 1000 * s)%Z) (expirations j)).
Definition inv (os : list op) (j : jar) : Prop := wf (cookies j) /\ timely j /\ forall d n m', has (cookies j) d n m' -> origin os j d n m'.

Lemma derived_domain u m d m' h : derived u m d m' -> wanted m = None -> u_host u = Some h -> d = h.
Proof. intros [P _] WM UH. unfold placed in P. rewrite WM, UH in P. apply P. Qed.

Lemma inv_expiration os now j : inv os j -> inv os (do_expiration now j).
Proof.
  intros (W & T & O). destruct (do_expiration_spec now j W T) as (W' & T' & _ & K & _). split; [exact W'|]. split; [exact T'|]. intros d n m' X.
  destruct (K d n m' X) as (Y & KH & KE). destruct (O d n m' Y) as (t & u & m & U & D & HO & E). exists t, u, m. repeat split; auto; try apply D.
  - intros h WM UH. pose proof (derived_domain _ _ _ _ _ D WM UH) as ->. auto.
  - intros s S0. apply KE. now apply E.
Qed.

Lemma max_age_lifetime now m s : max_age m = Some s -> lifetime now m = Some (now + 1000 * s)%Z.
Proof. unfold CookieSpec.max_age, CookieSpec.lifetime. destruct (m_max_age m); [discriminate|]. now intros ->. Qed.

Lemma inv_update_one os now u n m j : proper u -> updates os now u n m -> inv os j -> inv os (fst (update_one now u n m j)).
Proof.
  intros PU UP (W & T & O). pose proof (update_one_spec now u n m j PU) as G. destruct (update_one now u n m j) as [j' ok]. cbn [fst].
  destruct G as (HM & US & [(C & E & NX & _)|(d & m' & _ & DER & C & HO & LT)]).
  - split; [now rewrite C|]. split; [intros k w; rewrite E, NX; apply T|]. intros d' n' m1 X. rewrite C in X. destruct (O _ _ _ X) as (t & u1 & m2 & A1 & A2 & A3 & A4).
    exists t, u1, m2. repeat split; auto; try apply A2. rewrite E. exact A4.
  - split; [rewrite C; now apply put_wf|]. split.
    + intros k w J. destruct (lifetime now m) as [w0|]; destruct LT as [E NX]; rewrite E in J; rewrite NX.
      * destruct (aset_In pair_eqb pair_eqb_eq _ _ _ _ J) as [[= -> ->]|J']; [pose proof (ceil_le w0); lia|]. specialize (T _ _ J'). lia.
      * now apply (T k).
    + intros d' n' m1 X. rewrite C in X. apply put_has in X as [(-> & -> & ->)|[NE X]]; [| |exact W].
      * exists now, u, m. repeat split; auto; try apply DER. intros s S0. rewrite (max_age_lifetime now m s S0) in LT. destruct LT as [-> _]. apply (aset_has pair_eqb pair_eqb_eq).
      * destruct (O _ _ _ X) as (t & u1 & m2 & A1 & A2 & A3 & A4). exists t, u1, m2. repeat split; auto; try apply A2. intros s S0. specialize (A4 s S0).
        destruct (lifetime now m); destruct LT as [-> _]; [|exact A4]. now apply (aset_keep pair_eqb pair_eqb_eq).
Qed.

Lemma inv_update_loop os now u : proper u -> forall cs j, (forall n m, In (n, m) cs -> updates os now u n m) -> inv os j -> inv os (fst (update_loop now u cs j)).
Proof.
  intros PU. induction cs as [|[n m] cs IH]; intros j UP I0; cbn [CookieModel.update_loop].
  - now apply inv_expiration.
  - pose proof (inv_update_one os now u n m j PU (UP n m (or_introl eq_refl)) I0) as I1. destruct (update_one now u n m j) as [j' ok]. cbn [fst] in I1.
    destruct ok; [|exact I1]. apply IH; [|exact I1]. intros n' m' J. apply UP. now right.
Qed.

Lemma inv_more os os' j : (forall o, In o os -> In o os') -> inv os j -> inv os' j.
Proof.
  intros S0 (W & T & O). split; [exact W|]. split; [exact T|]. intros d n m' X. destruct (O _ _ _ X) as (t & u & m & (cs & A & B) & R). exists t, u, m. split; [|exact R].
  exists cs. auto.
Qed.

Lemma inv_empty os now us : inv os (new_jar now us).
Proof. split; [split; constructor|]. split; [intros k w []|]. intros d n m' (l & [] & _). Qed.

Lemma inv_step os o j : op_proper o -> In o os -> inv os j -> inv os (step j o).
Proof.
  intros P J I0. destruct o as [now u cs|now u|now]; cbn [CookieModel.step].
  - unfold CookieModel.update_cookies. destruct (negb _ && _); [exact I0|]. apply inv_update_loop; auto. intros n m K. now exists cs.
  - now apply inv_expiration.
  - split; [split; constructor|]. split; [intros k w []|]. intros d n m' (l & [] & _).
Qed.

Lemma run_snoc j os o : run j (os ++ [o]) = step (run j os) o.
Proof. unfold CookieModel.run. now rewrite fold_left_app. Qed.

Lemma inv_run now us os : Forall op_proper os -> inv os (run (new_jar now us) os).
Proof.
  induction os as [|o os IH] using rev_ind; intros F; [apply inv_empty|]. apply Forall_app in F as [F1 F2]. inversion F2; subst. rewrite run_snoc.
  apply inv_step; [assumption|apply in_app_iff; right; now left|]. apply (inv_more os); [intros x X; apply in_app_iff; now left|]. now apply IH.
Qed.

Lemma unsafe_expiration now j : unsafe (do_expiration now j) = unsafe j.
Proof. unfold do_expiration. destruct (_ <? _)%Z; [reflexivity|]. now destruct (expirations j). Qed.

Lemma unsafe_update_one now u n m j : proper u -> unsafe (fst (update_one now u n m j)) = unsafe j.
Proof. intros PU. pose proof (update_one_spec now u n m j PU) as G. destruct (update_one now u n m j) as [j' ok]. apply G. Qed.

Lemma unsafe_loop now u : proper u -> forall cs j, unsafe (fst (update_loop now u cs j)) = unsafe j.
Proof.
  intros PU. induction cs as [|[n m] cs IH]; intros j; cbn [CookieModel.update_loop]; [apply unsafe_expiration|].
  pose proof (unsafe_update_one now u n m j PU) as E. destruct (update_one now u n m j) as [j' ok]. cbn [fst] in E. destruct ok; [now rewrite IH|exact E].
Qed.

Lemma unsafe_run now us os : Forall op_proper os -> unsafe (run (new_jar now us) os) = us.
Proof.
  induction os as [|o os IH] using rev_ind; intros F; [reflexivity|]. apply Forall_app in F as [F1 F2]. inversion F2; subst. rewrite run_snoc.
  specialize (IH F1). destruct o as [t u cs|t u|t]; cbn [CookieModel.step].
  - unfold CookieModel.update_cookies. destruct (negb _ && _); [exact IH|]. now rewrite unsafe_loop.
  - cbn. now rewrite unsafe_expiration.
  - exact IH.
Qed.

(** * Filtering *)
Lemma filter_loop_sound j u : forall l acc r n v, filter_loop is_ip j u l acc = Some r -> In (n, v) r ->
  In (n, v) acc \/ exists m, In (n, m) l /\ sends is_ip j u n m = Some true /\ v = m_value m.
Proof.
  induction l as [|[n0 m0] l IH]; intros acc r n v; cbn [filter_loop].
  - intros [= <-]. auto.
  - destruct (sends is_ip j u n0 m0) as [[|]|] eqn:E; [| |discriminate]; intros R J.
    + destruct (IH _ _ _ _ R J) as [K|(m & A & B & C)].
      * destruct (aset_In beqb beqb_eq _ _ _ _ K) as [[= -> ->]|K']; [|now left]. right. exists m0. repeat split; auto. now left.
      * right. exists m. repeat split; auto. now right.
    + destruct (IH _ _ _ _ R J) as [K|(m & A & B & C)]; [now left|]. right. exists m. repeat split; auto. now right.
Qed.

Lemma filter_loop_complete j u : forall l acc r n, filter_loop is_ip j u l acc = Some r ->
  In n (map fst acc) \/ (exists m, In (n, m) l /\ sends is_ip j u n m = Some true) -> In n (map fst r).
Proof.
  induction l as [|[n0 m0] l IH]; intros acc r n; cbn [filter_loop].
  - intros [= <-] [K|(m & [] & _)]. exact K.
  - destruct (sends is_ip j u n0 m0) as [[|]|] eqn:E; [| |discriminate]; intros R [K|(m & [[= -> ->]|A] & B)]; apply (IH _ _ _ R).
    + left. apply (aset_keys beqb beqb_eq). now right.
    + left. apply (aset_keys beqb beqb_eq). now left.
    + right. now exists m.
    + now left.
    + congruence.
    + right. now exists m.
Qed.

Lemma values_has (cs : table) n m : In (n, m) (flat_map snd cs) <-> exists d, has cs d n m.
Proof.
  rewrite in_flat_map. split.
  - intros ([d l] & A & B). exists d, l. auto.
  - intros (d & l & A & B). exists (d, l). auto.
Qed.

Lemma secure_ok a b : a || negb b = true -> b = true -> a = true.
Proof. now destruct a, b. Qed.

Lemma sent now0 us os now u r n v : Forall op_proper os -> snd (filter_cookies is_ip now u (run (new_jar now0 us) os)) = Some r -> In (n, v) r ->
  exists t from m, updates os t from n m /\ m_value m = v /\ may_reach is_ip from u m /\
    (shared from m \/ (exists p, path_of from m p /\ path_match p (request_path u)) /\ (m_secure m = true -> u_secure u = true) /\
      (us = false -> forall h, u_host u = Some h -> is_ip h = false)) /\ lives parse_int t now m.
Proof.
  intros F R J. pose proof (inv_run now0 us os F) as I0. pose proof (unsafe_run now0 us os F) as UR. set (j := run (new_jar now0 us) os) in *. cbn in R.
  pose proof (inv_expiration os now j I0) as (_ & _ & O'). pose proof (unsafe_expiration now j) as UE. destruct I0 as (W & T & _).
  destruct (do_expiration_spec now j W T) as (_ & _ & _ & K & _ & KE & _). set (j' := do_expiration now j) in *.
  destruct (filter_loop_sound _ _ _ _ _ _ _ R J) as [[]|(m' & A & S0 & ->)]. apply values_has in A as [d A].
  destruct (O' _ _ _ A) as (t & from & m & U & (PL & V & SE & PA) & HO & EX). destruct (K _ _ _ A) as (_ & _ & KX).
  exists t, from, m. split; [exact U|]. split; [now rewrite V|].
  assert (LV : lives parse_int t now m).
  { unfold lives. destruct (max_age m) as [s|]; [|exact Logic.I]. cbv zeta. specialize (EX s eq_refl). apply KE in EX. destruct (KX _ EX) as [_ [L|L]]; [now left|].
    right. exists ((t + 1000 * s + 999) / 1000)%Z. unfold ceil in L. split; [exact L|]. apply (ceil_lt (t + 1000 * s)). }
  assert (REST : forall d', m_domain m' = Some d' -> d' <> [] -> (if negb (unsafe j') && is_ip (match u_host u with Some h => h | None => [] end) then false
      else if existsb (pair_eqb (d', n)) (host_only j') then beqb d' (match u_host u with Some h => h | None => [] end) && do_paths_match (u_path u) (m_path m') && (u_secure u || negb (m_secure m'))
      else do_domains_match is_ip d' (match u_host u with Some h => h | None => [] end) && do_paths_match (u_path u) (m_path m') && (u_secure u || negb (m_secure m'))) = true ->
    ((existsb (pair_eqb (d', n)) (host_only j') = true -> u_host u = Some d') /\ exists h, u_host u = Some h /\ domain_match is_ip d' h) /\
    (exists p, path_of from m p /\ path_match p (request_path u)) /\ (m_secure m = true -> u_secure u = true) /\ (us = false -> forall h, u_host u = Some h -> is_ip h = false)).
  { intros d' MD ND. destruct (negb (unsafe j') && is_ip _) eqn:IP; [discriminate|].
    assert (IP' : us = false -> forall h, u_host u = Some h -> is_ip h = false).
    { intros -> h UH. rewrite UH in IP. rewrite UE, UR in IP. exact IP. }
    destruct (existsb (pair_eqb (d', n)) (host_only j')) eqn:HE; intros X; apply andb_prop in X as [X X3]; apply andb_prop in X as [X1 X2]; rewrite SE in X3; apply paths_match in X2.
    - apply beqb_eq in X1. destruct (u_host u) as [h|] eqn:UH; [|exfalso; now apply ND]. subst h. split; [split; [auto|exists d'; split; [reflexivity|now left]]|].
      split; [exists (m_path m'); auto|]. split; [now apply secure_ok|exact IP'].
    - apply (domains_match is_ip) in X1; [|exact ND]. split; [split; [discriminate|]|].
      + destruct (u_host u) as [h|] eqn:UH; [now exists h|]. exfalso. destruct X1 as [X1|[[p X1] _]]; [now apply ND|]. destruct p; discriminate.
      + split; [exists (m_path m'); auto|]. split; [now apply secure_ok|exact IP']. }
  unfold placed in PL. unfold may_reach. destruct (wanted m) as [dm|] eqn:WM.
  - destruct PL as (-> & MD & ND & DM). unfold sends in S0. rewrite MD in S0. destruct dm as [|c dm]; [contradiction|]. injection S0 as S0.
    destruct (REST (c :: dm) MD ND S0) as [[_ RE] R3]. split; [split; [destruct (u_host from); auto|exact RE]|]. split; [right; exact R3|exact LV].
  - destruct (u_host from) as [h|] eqn:FH.
    + destruct PL as (-> & MD). unfold sends in S0. rewrite MD in S0.
      assert (NH : h <> []).
      { destruct U as (cs & U1 & U2). rewrite Forall_forall in F. specialize (F _ U1). cbn in F. unfold proper in F. rewrite FH in F. destruct F as (c & t' & -> & _). discriminate. }
      destruct h as [|c h]; [contradiction|]. injection S0 as S0. destruct (REST (c :: h) MD NH S0) as [[RH _] R3]. split; [|split; [right; exact R3|exact LV]].
      apply RH. apply existsb_exists. exists (c :: h, n). split; [now apply HO|]. now apply pair_eqb_eq.
    + split; [exact Logic.I|]. split; [|exact LV]. left. now split.
Qed.

Lemma not_after now0 us os now u r n v : Forall op_proper os -> snd (filter_cookies is_ip now u (run (new_jar now0 us) os)) = Some r -> In (n, v) r ->
  exists t from m, updates os t from n m /\ m_value m = v /\ forall s, max_age m = Some s -> (now < t + 1000 * s + 1000)%Z.
Proof.
  intros F R J. destruct (sent now0 us os now u r n v F R J) as (t & from & m & U & V & _ & _ & L). exists t, from, m. repeat split; auto.
  intros s S0. unfold lives in L. rewrite S0 in L. cbv zeta in L. destruct L as [L|(k & L)]; lia.
Qed.

(** * Session cookies *)

Definition inv_session (n : str) (j : jar) : Prop := forall d w, ~ In ((d, n), w) (expirations j).

Lemma update_one_ok now u n m j : proper u -> parse_date (m_expires m) <> None -> snd (update_one now u n m j) = true.
Proof.
  intros PU PD. unfold CookieModel.update_one. destruct (if ends_with _ _ then _ else _) as [d m1] eqn:E1.
  assert (M1 : m_max_age m1 = m_max_age m /\ m_expires m1 = m_expires m) by (destruct (ends_with _ _); injection E1 as <- <-; auto).
  destruct (match d with [] => _ | _ => _ end) as [[d2 m2] j2] eqn:E2.
  assert (M2 : m_max_age m2 = m_max_age m /\ m_expires m2 = m_expires m) by (destruct d, (u_host u); injection E2 as <- <- <-; auto).
  destruct (if starts_with _ _ then _ else _) as [d3 m3] eqn:E3.
  assert (M3 : m_max_age m3 = m_max_age m /\ m_expires m3 = m_expires m) by (destruct (starts_with _ _); injection E3 as <- <-; auto).
  destruct (match u_host u with None => false | Some h => negb (do_domains_match is_ip d3 h) end); [reflexivity|]. cbv zeta.
  assert (ME : m_expires (set_path u m3) = m_expires m) by (unfold set_path; destruct (starts_with [47%N] (m_path m3)); apply M3).
  unfold set_lifetime. rewrite ME. destruct (m_max_age (set_path u m3)) as [|c a].
  - destruct (parse_date (m_expires m)) as [[t|]|]; [reflexivity|reflexivity|contradiction].
  - destruct (parse_int (c :: a)); reflexivity.
Qed.

Lemma session_update_one now u n m j n0 : proper u -> (n = n0 -> lifetime now m = None) -> inv_session n0 j -> inv_session n0 (fst (update_one now u n m j)).
Proof.
  intros PU SE IS. pose proof (update_one_spec now u n m j PU) as G. destruct (update_one now u n m j) as [j' ok]. cbn [fst].
  destruct G as (_ & _ & [(_ & E & _)|(d & m' & _ & _ & _ & _ & LT)]); intros d' w; [rewrite E; apply IS|].
  destruct (lifetime now m) as [w0|]; destruct LT as [-> _]; [|apply IS]. intros J. destruct (aset_In pair_eqb pair_eqb_eq _ _ _ _ J) as [[= -> -> ->]|J']; [|now apply (IS d' w)].
  specialize (SE eq_refl). discriminate.
Qed.

Lemma session_expiration now j n : wf (cookies j) -> timely j -> inv_session n j -> inv_session n (do_expiration now j).
Proof. intros W T IS d w J. destruct (do_expiration_spec now j W T) as (_ & _ & _ & _ & _ & KE & _). apply (IS d w). now apply KE. Qed.

Lemma session_loop os now u n : proper u -> forall cs j, (forall n m, In (n, m) cs -> updates os now u n m) -> session os n -> inv os j -> inv_session n j ->
  inv_session n (fst (update_loop now u cs j)).
Proof.
  intros PU. induction cs as [|[n' m] cs IH]; intros j UP SE I0 IS; cbn [CookieModel.update_loop].
  - destruct I0 as (W & T & _). now apply session_expiration.
  - pose proof (inv_update_one os now u n' m j PU (UP n' m (or_introl eq_refl)) I0) as I1.
    pose proof (session_update_one now u n' m j n PU) as S1. destruct (update_one now u n' m j) as [j' ok]. cbn [fst] in *.
    assert (IS' : inv_session n j') by (apply S1; auto; intros ->; exact (SE now u m (UP n m (or_introl eq_refl)))).
    destruct ok; [|exact IS']. apply IH; auto. intros n1 m1 J. apply UP. now right.
Qed.

Lemma session_step os o j n : op_proper o -> In o os -> session os n -> inv os j -> inv_session n j -> inv_session n (step j o).
Proof.
  intros P J SE I0 IS. destruct o as [now u cs|now u|now]; cbn [CookieModel.step].
  - unfold CookieModel.update_cookies. destruct (negb _ && _); [exact IS|]. apply (session_loop os); auto. intros n' m K. now exists cs.
  - destruct I0 as (W & T & _). now apply session_expiration.
  - intros d w [].
Qed.

(** A key which is there stays, as long as it has no lifetime. *)
Definition present (j : jar) (d n : str) : Prop := exists m', has (cookies j) d n m'.

Lemma present_expiration now j d n : wf (cookies j) -> timely j -> inv_session n j -> present j d n -> present (do_expiration now j) d n.
Proof.
  intros W T IS [m' X]. exists m'. destruct (do_expiration_spec now j W T) as (_ & _ & _ & _ & _ & _ & KK). apply KK; [exact X|]. intros w J. now apply (IS d w) in J.
Qed.

Lemma str_pair_dec (a b : str * str) : {a = b} + {a <> b}.
Proof. decide equality; apply (list_eq_dec N.eq_dec). Qed.

Lemma present_update_one now u n m j d n0 : proper u -> wf (cookies j) -> present j d n0 -> present (fst (update_one now u n m j)) d n0.
Proof.
  intros PU W [m' X]. pose proof (update_one_spec now u n m j PU) as G. destruct (update_one now u n m j) as [j' ok]. cbn [fst].
  destruct G as (_ & _ & [(C & _)|(d' & m1 & _ & _ & C & _)]); unfold present; rewrite C; [now exists m'|].
  destruct (str_pair_dec (d, n0) (d', n)) as [[= -> ->]|NE].
  - exists m1. apply put_has; [exact W|]. now left.
  - exists m'. apply put_has; [exact W|]. now right.
Qed.

Lemma present_loop os now u n d : proper u -> forall cs j, (forall n m, In (n, m) cs -> updates os now u n m) -> session os n -> inv os j -> inv_session n j ->
  present j d n -> present (fst (update_loop now u cs j)) d n.
Proof.
  intros PU. induction cs as [|[n' m] cs IH]; intros j UP SE I0 IS X; cbn [CookieModel.update_loop].
  - destruct I0 as (W & T & _). now apply present_expiration.
  - pose proof (inv_update_one os now u n' m j PU (UP n' m (or_introl eq_refl)) I0) as I1.
    pose proof (session_update_one now u n' m j n PU) as S1. pose proof (present_update_one now u n' m j d n PU (proj1 I0) X) as X1.
    destruct (update_one now u n' m j) as [j' ok]. cbn [fst] in *.
    assert (IS' : inv_session n j') by (apply S1; auto; intros ->; exact (SE now u m (UP n m (or_introl eq_refl)))).
    destruct ok; [|exact X1]. apply IH; auto. intros n1 m1 J. apply UP. now right.
Qed.

Lemma gains_loop os now u n m d : proper u -> (forall m', derived u m d m' -> True) -> forall cs j, (forall n m, In (n, m) cs -> updates os now u n m) -> total_dates os ->
  session os n -> inv os j -> inv_session n j -> In (n, m) cs -> (forall d', wanted m = Some d' -> d = d' /\ forall h, u_host u = Some h -> domain_match is_ip d' h) ->
  (wanted m = None -> d = match u_host u with Some h => h | None => [] end) -> present (fst (update_loop now u cs j)) d n.
Proof.
  intros PU _. induction cs as [|[n' m1] cs IH]; intros j UP TD SE I0 IS J W1 W2; [destruct J|]. cbn [CookieModel.update_loop].
  pose proof (inv_update_one os now u n' m1 j PU (UP n' m1 (or_introl eq_refl)) I0) as I1.
  pose proof (session_update_one now u n' m1 j n PU) as S1. pose proof (update_one_ok now u n' m1 j PU (TD _ _ _ _ (UP n' m1 (or_introl eq_refl)))) as OK.
  pose proof (update_one_spec now u n' m1 j PU) as G. destruct (update_one now u n' m1 j) as [j' ok]. cbn [fst snd] in *. subst ok.
  assert (IS' : inv_session n j') by (apply S1; auto; intros ->; exact (SE now u m1 (UP n m1 (or_introl eq_refl)))).
  assert (UP' : forall n m, In (n, m) cs -> updates os now u n m) by (intros n1 m2 K; apply UP; now right).
  destruct J as [[= -> ->]|J]; [|now apply IH].
  apply (present_loop os); auto. destruct G as (_ & _ & [(_ & _ & _ & [?|(d' & h & A & B & C)])|(d' & m' & _ & (PL & _) & C & _)]); [discriminate| |].
  - exfalso. apply C. destruct (W1 d' A) as [_ W]. now apply W.
  - assert (d' = d).
    { unfold placed in PL. destruct (wanted m) as [dm|] eqn:WM; [destruct (W1 dm eq_refl) as [-> _]; apply PL|]. rewrite (W2 eq_refl). destruct (u_host u); apply PL. }
    subst d'. exists m'. rewrite C. apply put_has; [apply I0|]. now left.
Qed.


Lemma run_session now us os n : Forall op_proper os -> session os n -> inv_session n (run (new_jar now us) os).
Proof.
  induction os as [|o os IH] using rev_ind; intros F SE; [intros d w []|]. pose proof F as F'. apply Forall_app in F as [F1 F2]. inversion F2; subst. rewrite run_snoc.
  apply (session_step (os ++ [o])); auto.
  - apply in_app_iff. right. now left.
  - apply (inv_more os); [intros x X; apply in_app_iff; now left|]. now apply inv_run.
  - apply IH; [exact F1|]. intros t u m (cs & A & B). apply (SE t u m). exists cs. split; [apply in_app_iff; now left|exact B].
Qed.

Lemma stays now us a t u cs b n m d : let os := a ++ Update t u cs :: b in
  Forall op_proper os -> session os n -> total_dates os -> existsb is_clear b = false -> In (n, m) cs ->
  us = true \/ host_is_ip is_ip (u_host u) = false ->
  (forall d', wanted m = Some d' -> d = d' /\ forall h, u_host u = Some h -> domain_match is_ip d' h) ->
  (wanted m = None -> d = match u_host u with Some h => h | None => [] end) ->
  present (run (new_jar now us) os) d n.
Proof.
  cbv zeta. induction b as [|o b IH] using rev_ind; intros F SE TD NC J IP W1 W2.
  - rewrite run_snoc. pose proof F as F'. apply Forall_app in F as [F1 F2]. inversion F2; subst. cbn [CookieModel.step]. unfold CookieModel.update_cookies.
    rewrite unsafe_run by exact F1. replace (negb us && host_is_ip is_ip (u_host u)) with false.
    2:{ destruct IP as [-> | ->]; [reflexivity|now rewrite andb_false_r]. }
    apply (gains_loop (a ++ [Update t u cs]) t u n m d); auto.
    + intros n' m' K. exists cs. split; [apply in_app_iff; right; now left|exact K].
    + apply (inv_more a); [intros x X; apply in_app_iff; now left|]. now apply inv_run.
    + apply run_session; [exact F1|]. intros t' u' m' (cs' & A & B). apply (SE t' u' m'). exists cs'. split; [apply in_app_iff; now left|exact B].
  - rewrite app_comm_cons, app_assoc in *. set (os := a ++ Update t u cs :: b) in *. rewrite run_snoc. pose proof F as F'. apply Forall_app in F as [F1 F2]. inversion F2; subst.
    assert (X : present (run (new_jar now us) os) d n).
    { rewrite existsb_app in NC. apply orb_false_iff in NC as [NC _]. apply IH; auto.
      - intros t' u' m' (cs' & A & B). apply (SE t' u' m'). exists cs'. split; [apply in_app_iff; now left|exact B].
      - intros t' u' n' m' (cs' & A & B). apply (TD t' u' n' m'). exists cs'. split; [apply in_app_iff; now left|exact B]. }
    assert (I0 : inv (os ++ [o]) (run (new_jar now us) os)) by (apply (inv_more os); [intros x Y; apply in_app_iff; now left|]; now apply inv_run).
    assert (IS : inv_session n (run (new_jar now us) os)).
    { apply run_session; [exact F1|]. intros t' u' m' (cs' & A & B). apply (SE t' u' m'). exists cs'. split; [apply in_app_iff; now left|exact B]. }
    destruct o as [t' u' cs'|t' u'|t']; cbn [CookieModel.step].
    + unfold CookieModel.update_cookies. destruct (negb _ && _); [exact X|]. apply (present_loop (os ++ [Update t' u' cs'])); auto.
      intros n' m' K. exists cs'. split; [apply in_app_iff; right; now left|exact K].
    + destruct I0 as (W & T & _). now apply present_expiration.
    + exfalso. rewrite existsb_app in NC. cbn in NC. rewrite orb_true_r in NC. discriminate.
Qed.

(** It is sent to its domain, if it has been set like this only. *)
Lemma session_sent now us a t u cs b n m d now' to r : let os := a ++ Update t u cs :: b in
  Forall op_proper os -> session os n -> total_dates os -> existsb is_clear b = false -> In (n, m) cs ->
  us = true \/ host_is_ip is_ip (u_host u) = false ->
  (forall d', wanted m = Some d' -> d = d' /\ forall h, u_host u = Some h -> domain_match is_ip d' h) ->
  (wanted m = None -> u_host u = Some d) ->
  (forall t' u' m', updates os t' u' n m' -> u' = u /\ m' = m) ->
  u_host to = Some d -> us = true \/ is_ip d = false -> (forall p, path_of u m p -> path_match p (request_path to)) -> (m_secure m = true -> u_secure to = true) ->
  snd (filter_cookies is_ip now' to (run (new_jar now us) os)) = Some r -> In n (map fst r).
Proof.
  cbv zeta. intros F SE TD NC J IP W1 W2 ON TH TI TP TS R.
  assert (W2' : wanted m = None -> d = match u_host u with Some h => h | None => [] end) by (intros WN; now rewrite (W2 WN)).
  pose proof (stays now us a t u cs b n m d F SE TD NC J IP W1 W2') as X. set (os := a ++ Update t u cs :: b) in *. set (j := run (new_jar now us) os) in *.
  pose proof (inv_run now us os F) as I0. fold j in I0. pose proof (run_session now us os n F SE) as IS. fold j in IS.
  pose proof (present_expiration now' j d n (proj1 I0) (proj1 (proj2 I0)) IS X) as [m' X'].
  pose proof (inv_expiration os now' j I0) as (_ & _ & O'). cbn in R. apply (filter_loop_complete _ _ _ _ _ n R). right. exists m'. split; [apply values_has; now exists d|].
  destruct (O' _ _ _ X') as (t' & u' & m1 & U & (PL & V & SC & PA) & HO & _). destruct (ON _ _ _ U) as [-> ->].
  assert (MD : m_domain m' = Some d).
  { unfold placed in PL. destruct (wanted m) as [dm|] eqn:WM; [destruct PL as (-> & MD & _); exact MD|]. rewrite (W2 eq_refl) in PL. apply PL. }
  unfold sends. rewrite MD. destruct d as [|c d]; [reflexivity|]. rewrite TH. f_equal.
  pose proof (unsafe_run now us os F) as UR. rewrite unsafe_expiration. fold j in UR. rewrite UR.
  replace (negb us && is_ip (c :: d)) with false by (destruct TI as [-> | ->]; [reflexivity|now rewrite andb_false_r]).
  rewrite domains_match_self, beqb_refl. rewrite (proj2 (paths_match to (m_path m')) (TP _ PA)). rewrite SC.
  assert (u_secure to || negb (m_secure m) = true) as -> by (destruct (m_secure m); [rewrite TS by reflexivity; reflexivity|apply orb_true_r]). match goal with |- (if ?b then _ else _) = true => now destruct b end.
Qed.
End Updates.

(** * Nothing has expired *)
Lemma do_expiration_none now j : forallb (fun e => (now <=? snd e)%Z) (expirations j) = true ->
  cookies (do_expiration now j) = cookies j /\ host_only (do_expiration now j) = host_only j /\ unsafe (do_expiration now j) = unsafe j /\ expirations (do_expiration now j) = expirations j.
Proof.
  intros F. unfold do_expiration. destruct (_ <? _)%Z; [auto|]. destruct (expirations j) as [|e es] eqn:E; [auto|]. rewrite <- E in *. clear E e es.
  assert (G : filter (expired now) (expirations j) = [] /\ filter (fun e => negb (expired now e)) (expirations j) = expirations j).
  { induction (expirations j) as [|e es IH]; [auto|]. cbn [forallb] in F. apply andb_prop in F as [F1 F2]. destruct (IH F2) as [A B]. unfold expired in *. cbn [filter].
    apply Z.leb_le in F1. replace (snd e <? now)%Z with false by (symmetry; apply Z.ltb_ge; lia). cbn [negb]. rewrite A, B. auto. }
  destruct G as [-> ->]. cbn. repeat split; auto. clear F. induction (host_only j) as [|k l IH]; [reflexivity|]. cbn. now rewrite IH.
Qed.

Lemma filter_same is_ip now u j : forallb (fun e => (now <=? snd e)%Z) (expirations j) = true ->
  snd (filter_cookies is_ip now u j) = filter_loop is_ip j u (flat_map snd (cookies j)) [].
Proof.
  intros F. destruct (do_expiration_none now j F) as (A & B & C & _). cbn. rewrite A.
  assert (S0 : forall n m, sends is_ip (do_expiration now j) u n m = sends is_ip j u n m) by (intros n m; unfold sends; now rewrite B, C).
  generalize ([] : list (str * str)). induction (flat_map snd (cookies j)) as [|[n m] l IH]; intros acc; [reflexivity|]. cbn [filter_loop]. rewrite S0. now rewrite !IH.
Qed.
