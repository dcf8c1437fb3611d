From Coq Require Import List Arith Bool NArith Lia Sorted.
From Verif Require Import Bytes Text QuoteModel QuoteSpec QuoteProofs NameModel NameSpec.
Import ListNotations.

(** * Names *)

Lemma ascii_forall (P : N -> bool) : forallb P (map N.of_nat (seq 0 128)) = true -> forall c, ascii c -> P c = true.
Proof.
  intros H c Hc. rewrite forallb_forall in H. apply H. apply in_map_iff. exists (N.to_nat c). split; [lia|].
  apply in_seq. unfold ascii in Hc. lia.
Qed.

Definition ddd (c : N) : str := [48 + c / 100; 48 + c / 10 mod 10; 48 + c mod 10]%N.

Lemma padded c : ascii c -> (if N.ltb c 100 then [48%N] else []) ++ (if N.ltb c 10 then [48%N] else []) ++ dec c = ddd c.
Proof.
  intros H. apply beqb_eq. revert c H.
  apply (ascii_forall (fun c => beqb ((if N.ltb c 100 then [48%N] else []) ++ (if N.ltb c 10 then [48%N] else []) ++ dec c) (ddd c))).
  vm_compute. reflexivity.
Qed.

Lemma ddd_digits c : ascii c ->
  (ascii_digit (48 + c / 100) && ascii_digit (48 + c / 10 mod 10) && ascii_digit (48 + c mod 10) &&
   N.eqb ((N.land (48 + c / 100) 15 * 10 + N.land (48 + c / 10 mod 10) 15) * 10 + N.land (48 + c mod 10) 15) c)%N = true.
Proof.
  revert c. apply (ascii_forall (fun c => ascii_digit (48 + c / 100) && ascii_digit (48 + c / 10 mod 10) && ascii_digit (48 + c mod 10) &&
   N.eqb ((N.land (48 + c / 100) 15 * 10 + N.land (48 + c / 10 mod 10) 15) * 10 + N.land (48 + c mod 10) 15) c)%N).
  vm_compute. reflexivity.
Qed.

Section Names.
Variable isdigit isalnum isprintable : N -> bool.
Hypothesis Hdigit : agrees isdigit ascii_digit.
Hypothesis Halnum : agrees isalnum ascii_alnum.
Hypothesis Hprint : agrees isprintable ascii_printable.

Lemma split_escape c part rest : ascii c ->
  split_name isdigit part (escape_character isalnum isprintable c ++ rest) = split_name isdigit (part ++ [c]) rest.
Proof.
  intros A. unfold escape_character. destruct (mem c _) eqn:M.
  - cbn [app split_name N.eqb Pos.eqb negb]. rewrite (Hdigit c A).
    assert (D : ascii_digit c = false).
    { apply mem_In in M. cbn in M. repeat destruct M as [<-|M]; try reflexivity. destruct M. }
    rewrite D. reflexivity.
  - assert (Q : c <> 46%N /\ c <> 92%N).
    { split; intros ->; discriminate. }
    destruct Q as [Q1 Q2].
    assert (Plain : split_name isdigit part ([c] ++ rest) = split_name isdigit (part ++ [c]) rest).
    { cbn [app split_name]. apply N.eqb_neq in Q1, Q2. rewrite Q1, Q2. reflexivity. }
    destruct (isalnum c); [exact Plain|]. destruct (_ || _); [|exact Plain].
    rewrite padded by exact A. unfold ddd. cbn [app split_name N.eqb Pos.eqb negb].
    pose proof (ddd_digits c A) as D. apply andb_prop in D. destruct D as [D T]. apply andb_prop in D. destruct D as [D D3].
    apply andb_prop in D. destruct D as [D1 D2].
    assert (B : forall d, ascii_digit d = true -> isdigit d = true).
    { intros d Hd. rewrite Hdigit; [exact Hd|]. unfold ascii_digit in Hd. apply andb_prop in Hd. destruct Hd as [_ Hd]. apply N.leb_le in Hd. unfold ascii. lia. }
    rewrite (B _ D1), (B _ D2), (B _ D3). cbn [negb andb]. apply N.eqb_eq in T. rewrite T.
    destruct (N.ltb_spec 255 c) as [L|_]; [unfold ascii in A; lia|]. reflexivity.
Qed.

Lemma split_label l part rest : Forall ascii l ->
  split_name isdigit part (flat_map (escape_character isalnum isprintable) l ++ rest) = split_name isdigit (part ++ l) rest.
Proof.
  intros H. revert part. induction H as [|c l Hc _ IH]; intros part; [rewrite app_nil_r; reflexivity|].
  cbn [flat_map]. rewrite <- app_assoc, split_escape, IH, <- app_assoc by exact Hc. reflexivity.
Qed.

Variable idna_encode : str -> option bytes.
Variable idna_decode : bytes -> option str.
Hypothesis Hdecode : decodes idna_decode.

Lemma build_ok labels : forall first, Forall plain_label labels -> exists name,
  build_characters isalnum isprintable idna_decode first labels = Some name /\
  (first = false -> labels <> [] -> exists n, name = 46%N :: n) /\
  forall l0, l0 <> [] -> first = false -> split_name isdigit l0 name = Some (l0 :: labels).
Proof.
  induction labels as [|l labels IH]; intros first H.
  - exists []. split; [reflexivity|]. split; [congruence|]. intros l0 N _. cbn [split_name]. destruct l0; [contradiction|reflexivity].
  - inversion H as [|? ? (HL & HA & HP) Hr]; subst. destruct (IH false Hr) as (r & R1 & R2 & R3).
    eexists. cbn [build_characters]. rewrite Hdecode by assumption. rewrite R1. split; [reflexivity|]. split.
    + intros -> _. cbn [app]. eexists. reflexivity.
    + intros l0 N ->. cbn [app split_name N.eqb Pos.eqb]. rewrite split_label by exact HA. cbn [app].
      rewrite R3; [reflexivity| |reflexivity]. intros ->. cbn in HL. lia.
Qed.

Lemma encode_ok labels : Forall plain_label labels -> encode_parts idna_encode labels = Some labels.
Proof.
  induction 1 as [|l labels (HL & HA & _) _ IH]; [reflexivity|]. cbn [encode_parts].
  assert (F : forallb (fun c => N.ltb c 128) l = true).
  { apply forallb_forall. intros c Hc. apply N.ltb_lt. rewrite Forall_forall in HA. apply HA. exact Hc. }
  rewrite F, IH. match goal with |- context[Nat.ltb ?a ?b] => destruct (Nat.ltb_spec a b) as [Q|Q] end; [unfold bytes, byte, str in *; lia|reflexivity].
Qed.

Theorem name_round_trip labels : Forall plain_label labels -> labels <> [[64%N]] -> exists name,
  build_name_from_labels isalnum isprintable idna_decode labels = Some name /\
  parse_labels_from_name isdigit idna_encode name = Some labels.
Proof.
  intros H N. destruct labels as [|l labels].
  - exists [64%N]. split; reflexivity.
  - inversion H as [|? ? (HL & HA & HP) Hr]; subst. destruct (build_ok labels false Hr) as (r & R1 & _ & R3).
    unfold build_name_from_labels. cbn [build_characters]. rewrite Hdecode by assumption. rewrite R1. cbn [app].
    eexists. split; [reflexivity|]. unfold parse_labels_from_name. rewrite split_label by exact HA. cbn [app].
    rewrite R3; [|intros ->; cbn in HL; lia|reflexivity].
    destruct labels as [|l2 labels].
    + destruct (beqb l [64%N]) eqn:E; [apply beqb_eq in E; destruct N; rewrite E; reflexivity|]. destruct (beqb l []) eqn:E2.
      * apply beqb_eq in E2. subst l. cbn in HL. lia.
      * cbn [orb]. apply encode_ok. exact H.
    + assert (X : existsb (fun part => beqb part []) (l :: l2 :: labels) = false).
      { apply not_true_is_false. intros Q. apply existsb_exists in Q. destruct Q as (x & Hx & Q). apply beqb_eq in Q. subst x.
        rewrite Forall_forall in H. destruct (H _ Hx) as ((L & _) & _). cbn in L. lia. }
      lazymatch goal with |- (if ?b then _ else _) = _ => change b with (existsb (fun part => beqb part []) (l :: l2 :: labels)) end.
      rewrite X. apply encode_ok. exact H.
Qed.
End Names.

(** * Order of addresses *)

Lemma matches_iff e a : matches e a = true <-> entry_matches e a.
Proof.
  unfold matches, entry_matches. destruct (N.eqb_spec (a_type a) (s_type e)), (N.eqb_spec (N.land (a_value a) (s_mask e)) (s_value e)); cbn; intuition congruence.
Qed.

Lemma matches_not e a : matches e a = false <-> ~ entry_matches e a.
Proof. rewrite <- matches_iff. destruct (matches e a); intuition congruence. Qed.

Lemma scan_filter e l : scan e l = (filter (matches e) l, filter (fun a => negb (matches e a)) l).
Proof. induction l as [|a l IH]; [reflexivity|]. cbn [scan filter]. rewrite IH. destruct (matches e a); reflexivity. Qed.

Lemma ordered_concat e s l : iter_addresses_ordered (e :: s) l =
  filter (matches e) l ++ iter_addresses_ordered s (filter (fun a => negb (matches e a)) l).
Proof.
  cbn [iter_addresses_ordered]. rewrite scan_filter. destruct (filter (matches e) l) as [|y ys]; [reflexivity|].
  destruct (filter (fun a => negb (matches e a)) l) as [|k ks]; [|reflexivity].
  assert (E : forall s, iter_addresses_ordered s [] = []) by (induction s0; [reflexivity|assumption]). rewrite E, app_nil_r. reflexivity.
Qed.

Lemma ordered_in s : forall l a, In a (iter_addresses_ordered s l) -> In a l.
Proof.
  induction s as [|e s IH]; intros l a H; [exact H|]. rewrite ordered_concat in H. apply in_app_iff in H.
  destruct H as [H|H]; [apply filter_In in H; tauto|]. apply IH in H. apply filter_In in H. tauto.
Qed.

Lemma rank_unique s a i j : rank s a i -> rank s a j -> i = j.
Proof. intros H. revert j. induction H; intros j Q; inversion Q; subst; try contradiction; auto. Qed.

Fixpoint rank_of (s : list sort_element) (a : address) : nat :=
  match s with [] => 0 | e :: s' => if matches e a then 0 else S (rank_of s' a) end.

Lemma rank_of_ok s a : rank s a (rank_of s a).
Proof.
  induction s as [|e s IH]; [apply Rank_end|]. cbn [rank_of]. destruct (matches e a) eqn:M.
  - apply Rank_here, matches_iff, M.
  - apply Rank_next; [apply matches_not, M|exact IH].
Qed.

Lemma StronglySorted_app {A} (R : A -> A -> Prop) l1 l2 : StronglySorted R l1 -> StronglySorted R l2 ->
  (forall x y, In x l1 -> In y l2 -> R x y) -> StronglySorted R (l1 ++ l2).
Proof.
  induction 1 as [|x l1 H1 IH H2]; intros S2 H; [exact S2|]. cbn [app]. constructor.
  - apply IH; [exact S2|]. intros u v Hu Hv. apply H; [right; exact Hu|exact Hv].
  - apply Forall_app. split; [exact H2|]. apply Forall_forall. intros v Hv. apply H; [left; reflexivity|exact Hv].
Qed.

Lemma same_rank_sorted {A} (R : A -> A -> Prop) l : (forall x y, In x l -> In y l -> R x y) -> StronglySorted R l.
Proof.
  induction l as [|x l IH]; intros H; constructor.
  - apply IH. intros u v Hu Hv. apply H; right; assumption.
  - apply Forall_forall. intros v Hv. apply H; [left; reflexivity|right; exact Hv].
Qed.

Theorem addresses_ordered s : forall l, ordered_by s l (iter_addresses_ordered s l).
Proof.
  induction s as [|e s IH]; intros l.
  - split.
    + apply same_rank_sorted. intros x y _ _ i j Hi Hj. inversion Hi. inversion Hj. lia.
    + reflexivity.
  - rewrite ordered_concat. destruct (IH (filter (fun a => negb (matches e a)) l)) as [S F]. split.
    + apply StronglySorted_app.
      * apply same_rank_sorted. intros x y Hx Hy i j Hi Hj. apply filter_In in Hx. destruct Hx as [_ Hx]. apply matches_iff in Hx.
        inversion Hi; subst; [lia|contradiction].
      * remember (iter_addresses_ordered s (filter (fun a => negb (matches e a)) l)) as out eqn:E.
        assert (I : forall a, In a out -> ~ entry_matches e a).
        { intros a Ha. subst out. apply ordered_in in Ha. apply filter_In in Ha. destruct Ha as [_ Ha]. apply negb_true_iff in Ha. apply matches_not. exact Ha. }
        clear E F IH. induction S as [|x out S IHS H]; constructor.
        -- apply IHS. intros a Ha. apply I. right. exact Ha.
        -- apply Forall_forall. intros y Hy i j Hi Hj. rewrite Forall_forall in H. specialize (H y Hy).
           assert (Nx : ~ entry_matches e x) by (apply I; left; reflexivity).
           assert (Ny : ~ entry_matches e y) by (apply I; right; exact Hy).
           inversion Hi as [|? ? ? i' _ Hi'|]; subst; [contradiction|]. inversion Hj as [|? ? ? j' _ Hj'|]; subst; [contradiction|].
           specialize (H _ _ Hi' Hj'). lia.
      * intros x y Hx Hy i j Hi Hj. apply filter_In in Hx. destruct Hx as [_ Hx]. apply matches_iff in Hx.
        inversion Hi; subst; [lia|contradiction].
    + intros f k Hf. rewrite filter_app. destruct k as [|k].
      * assert (E : forall a, f a = matches e a).
        { intros a. destruct (f a) eqn:Q.
          - apply Hf in Q. symmetry. apply matches_iff. inversion Q; subst. assumption.
          - destruct (matches e a) eqn:M; [|reflexivity]. apply matches_iff in M. assert (rank (e :: s) a 0) by (apply Rank_here; exact M).
            apply Hf in H. congruence. }
        rewrite !(filter_ext f (matches e) E).
        assert (Z : filter (matches e) (iter_addresses_ordered s (filter (fun a => negb (matches e a)) l)) = []).
        { rewrite <- (filter_ext _ _ E). destruct (filter f _) as [|x r] eqn:Q; [reflexivity|]. exfalso.
          assert (Hx : In x (filter f (iter_addresses_ordered s (filter (fun a => negb (matches e a)) l)))) by (rewrite Q; left; reflexivity).
          apply filter_In in Hx. destruct Hx as [Hx Fx]. apply ordered_in in Hx. apply filter_In in Hx. destruct Hx as [_ Hx].
          rewrite E in Fx. rewrite Fx in Hx. discriminate. }
        rewrite Z, app_nil_r. clear. induction l as [|a l IH]; [reflexivity|]. cbn [filter]. destruct (matches e a) eqn:M; cbn [filter]; rewrite ?M, IH; reflexivity.
      * (* the addresses of this rank do not match [e] *)
        assert (NM : forall a, f a = true -> matches e a = false).
        { intros a Ha. apply Hf in Ha. apply matches_not. inversion Ha; subst. assumption. }
        assert (Z : filter f (filter (matches e) l) = []).
        { clear -NM. induction l as [|a l IH]; [reflexivity|]. cbn [filter]. destruct (matches e a) eqn:M; [|exact IH]. cbn [filter].
          destruct (f a) eqn:Q; [apply NM in Q; congruence|exact IH]. }
        rewrite Z. cbn [app].
        assert (R : forall a, (rank_of s a =? k) = true <-> rank s a k).
        { intros a. rewrite Nat.eqb_eq. split; [intros <-; apply rank_of_ok|apply rank_unique, rank_of_ok]. }
        assert (Same : forall a, matches e a = false -> f a = (rank_of s a =? k)).
        { intros a M. apply matches_not in M. destruct (f a) eqn:Q; symmetry.
          - apply Hf in Q. inversion Q; subst. apply R. assumption.
          - apply not_true_is_false. intros T. apply R in T. apply (Rank_next e) in T; [|exact M]. apply Hf in T. congruence. }
        rewrite (filter_ext_in f (fun a => rank_of s a =? k)).
        -- rewrite (F _ k R). clear -NM Same. induction l as [|a l IH]; [reflexivity|]. cbn [filter]. destruct (matches e a) eqn:M; cbn [negb filter].
           ++ rewrite IH. destruct (f a) eqn:Q; [apply NM in Q; congruence|reflexivity].
           ++ rewrite <- (Same a M), IH. reflexivity.
        -- intros a Ha. apply Same. apply ordered_in in Ha. apply filter_In in Ha. destruct Ha as [_ Ha]. apply negb_true_iff in Ha. exact Ha.
Qed.
