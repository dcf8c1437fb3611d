From Coq Require Import List Arith Bool NArith Lia.
From Verif Require Import Bytes Text QuoteModel QuoteProofs FrameProofs IpModel IpSpec.
Import ListNotations.

(** * Splitting *)

Lemma split_app sep a b : split_on sep (a ++ sep :: b) = split_on sep a ++ split_on sep b.
Proof.
  induction a as [|c a IH]; cbn [app split_on].
  - rewrite N.eqb_refl. reflexivity.
  - destruct (N.eqb c sep); [rewrite IH; reflexivity|]. rewrite IH. destruct (split_on sep a) as [|x r] eqn:E; [|reflexivity].
    destruct a as [|d a]; cbn in E; [discriminate|]. destruct (N.eqb d sep); [discriminate|]. destruct (split_on sep a); discriminate.
Qed.

Lemma split_none sep p : ~ In sep p -> split_on sep p = [p].
Proof.
  induction p as [|c p IH]; intros H; [reflexivity|]. cbn [split_on].
  destruct (N.eqb_spec c sep) as [->|_]; [destruct H; left; reflexivity|]. rewrite IH by (intros Q; apply H; right; exact Q). reflexivity.
Qed.

Lemma joined_cons sep p q l : joined sep (p :: q :: l) = p ++ sep :: joined sep (q :: l).
Proof. reflexivity. Qed.

Lemma split_joined sep ps : ps <> [] -> Forall (fun p => ~ In sep p) ps -> split_on sep (joined sep ps) = ps.
Proof.
  induction ps as [|p ps IH]; intros N H; [contradiction|]. inversion H as [|? ? Hp Hps]; subst. destruct ps as [|q ps].
  - apply split_none. exact Hp.
  - rewrite joined_cons, split_app, (split_none sep p Hp). apply (f_equal (cons p)). apply IH; [discriminate|exact Hps].
Qed.

Lemma split_nonempty sep l : split_on sep l <> [].
Proof. destruct l as [|c l]; [discriminate|]. cbn. destruct (N.eqb c sep); [discriminate|]. destruct (split_on sep l); discriminate. Qed.

Lemma joined_split sep l : joined sep (split_on sep l) = l.
Proof.
  induction l as [|c l IH]; [reflexivity|]. cbn [split_on]. pose proof (split_nonempty sep l) as N. destruct (N.eqb_spec c sep) as [->|_].
  - destruct (split_on sep l) as [|x r]; [contradiction|]. cbn [joined app]. apply (f_equal (cons sep)). exact IH.
  - destruct (split_on sep l) as [|x r]; [contradiction|]. rewrite <- IH. destruct r; reflexivity.
Qed.

Lemma split_no_sep sep l : Forall (fun p => ~ In sep p) (split_on sep l).
Proof.
  induction l as [|c l IH]; [repeat constructor; auto|]. cbn [split_on]. destruct (N.eqb_spec c sep) as [->|N].
  - constructor; [auto|exact IH].
  - destruct (split_on sep l) as [|x r]; [repeat constructor; intros [H|[]]; congruence|]. inversion IH; subst. constructor; [|assumption].
    intros [Q|Q]; [congruence|contradiction].
Qed.

(** * IPv4 *)

Lemma digits_forall (P : N -> bool) : forallb P (map N.of_nat (seq 48 10)) = true -> forall c, between 48 57 c = true -> P c = true.
Proof.
  intros H c Hc. rewrite forallb_forall in H. apply H. apply in_map_iff. exists (N.to_nat c). split; [lia|].
  apply in_seq. unfold between in Hc. apply andb_prop in Hc. rewrite !N.leb_le in Hc. lia.
Qed.

Lemma between_weak a b a' b' c : between a b c = true -> (a' <= a)%N -> (b <= b')%N -> between a' b' c = true.
Proof. unfold between. intros H H1 H2. apply andb_prop in H. rewrite !N.leb_le in H. apply andb_true_intro. rewrite !N.leb_le. lia. Qed.

Definition ok_octet (p : str) : bool :=
  match octet p with None => true | Some n => N.ltb n 256 && beqb (dec n) p end.

Lemma octet_dec p n : octet p = Some n -> (n < 256)%N /\ p = dec n.
Proof.
  assert (G : ok_octet p = true -> octet p = Some n -> (n < 256)%N /\ p = dec n).
  { unfold ok_octet. intros H E. rewrite E in H. apply andb_prop in H. destruct H as [H1 H2]. apply N.ltb_lt in H1. apply beqb_eq in H2. auto. }
  destruct p as [|a [|b [|c [|d p]]]]; try discriminate; intros H; apply G; try exact H; clear G; cbn [octet] in H.
  - destruct (between 48 57 a) eqn:A; [|discriminate]. revert a A H. intros a A _. revert a A.
    apply (digits_forall (fun a => ok_octet [a])). vm_compute. reflexivity.
  - destruct (between 49 57 a) eqn:A; [|discriminate]. destruct (between 48 57 b) eqn:B; [|discriminate].
    apply (between_weak 49 57 48 57) in A; [|lia|lia]. clear H. revert a A b B.
    assert (Q : forall a, between 48 57 a = true -> forallb (fun b => ok_octet [a; b]) (map N.of_nat (seq 48 10)) = true).
    { apply (digits_forall (fun a => forallb (fun b => ok_octet [a; b]) (map N.of_nat (seq 48 10)))). vm_compute. reflexivity. }
    intros a A. apply (digits_forall (fun b => ok_octet [a; b])). apply Q. exact A.
  - assert (A : between 48 57 a = true /\ between 48 57 b = true /\ between 48 57 c = true).
    { destruct (N.eqb a 49 && between 48 57 b && between 48 57 c) eqn:Q1.
      - apply andb_prop in Q1. destruct Q1 as [Q1 Q3]. apply andb_prop in Q1. destruct Q1 as [Q1 Q2]. apply N.eqb_eq in Q1. subst a. auto.
      - cbn [orb] in H. destruct (N.eqb a 50 && _) eqn:Q2; [|discriminate]. apply andb_prop in Q2. destruct Q2 as [Q2 Q3]. apply N.eqb_eq in Q2. subst a.
        split; [reflexivity|]. apply orb_prop in Q3. destruct Q3 as [Q3|Q3]; apply andb_prop in Q3; destruct Q3 as [Q3 Q4].
        + split; [|exact Q4]. eapply between_weak; [exact Q3|lia|lia].
        + apply N.eqb_eq in Q3. subst b. split; [reflexivity|]. eapply between_weak; [exact Q4|lia|lia]. }
    destruct A as (A & B & C). clear H. revert a A b B c C.
    assert (Q : forall a, between 48 57 a = true ->
      forallb (fun b => forallb (fun c => ok_octet [a; b; c]) (map N.of_nat (seq 48 10))) (map N.of_nat (seq 48 10)) = true).
    { apply (digits_forall (fun a => forallb (fun b => forallb (fun c => ok_octet [a; b; c]) (map N.of_nat (seq 48 10))) (map N.of_nat (seq 48 10)))).
      vm_compute. reflexivity. }
    intros a A b B. apply (digits_forall (fun c => ok_octet [a; b; c])). revert b B.
    apply (digits_forall (fun b => forallb (fun c => ok_octet [a; b; c]) (map N.of_nat (seq 48 10)))). apply Q. exact A.
Qed.

Lemma dec_octet n : (n < 256)%N -> octet (dec n) = Some n /\ ~ In 46%N (dec n).
Proof.
  intros H. apply (byte_forall (fun n => match octet (dec n) with Some m => N.eqb m n | None => false end && negb (mem 46 (dec n)))) in H.
  - apply andb_prop in H. destruct H as [H1 H2]. destruct (octet (dec n)) as [m|]; [|discriminate]. apply N.eqb_eq in H1. subst m.
    split; [reflexivity|]. apply negb_true_iff in H2. apply mem_not_In. exact H2.
  - vm_compute. reflexivity.
Qed.

Lemma lor_place w s A v : (v < 2 ^ w)%N -> N.lor (N.shiftl A (s + w)) (N.shiftl v s) = N.shiftl (A * 2 ^ w + v) s.
Proof.
  intros H. rewrite N.add_comm, <- N.shiftl_shiftl, <- N.shiftl_lor, lor_add by exact H. reflexivity.
Qed.

Lemma value_v4 a b c d : (a < 256)%N -> (b < 256)%N -> (c < 256)%N -> (d < 256)%N ->
  fold_left (fun v p => N.lor v (N.shiftl (fst p) (snd p))) (combine [a; b; c; d] [24; 16; 8; 0]%N) 0%N = horner 256 [a; b; c; d].
Proof.
  intros Ha Hb Hc Hd. cbn [combine fold_left fst snd]. rewrite N.lor_0_l.
  pose proof (lor_place 8 16 a b Hb) as E1. pose proof (lor_place 8 8 (a * 2 ^ 8 + b) c Hc) as E2.
  pose proof (lor_place 8 0 ((a * 2 ^ 8 + b) * 2 ^ 8 + c) d Hd) as E3. change (16 + 8)%N with 24%N in E1. change (8 + 8)%N with 16%N in E2.
  change (0 + 8)%N with 8%N in E3. rewrite E1, E2, E3.
  rewrite N.shiftl_0_r. unfold horner. cbn [fold_left]. change (2 ^ 8)%N with 256%N. rewrite N.mul_0_l, N.add_0_l. reflexivity.
Qed.

Lemma unit_mod v s k : N.land (N.shiftr v s) (N.ones k) = (v / 2 ^ s mod 2 ^ k)%N.
Proof. rewrite N.land_ones, N.shiftr_div_pow2. reflexivity. Qed.

Definition v4_units (v : N) : list N := [v / 16777216 mod 256; v / 65536 mod 256; v / 256 mod 256; v mod 256]%N.

Lemma produce_v4_units v : produce_ip_v4_string v = joined 46 (map dec (v4_units v)).
Proof.
  unfold produce_ip_v4_string, v4_units. cbn [map joined]. change 255%N with (N.ones 8).
  rewrite !unit_mod, N.land_ones. reflexivity.
Qed.

Lemma units_v4 v : (v < 4294967296)%N -> horner 256 (v4_units v) = v.
Proof.
  intros H. unfold horner, v4_units. cbn [fold_left].
  replace (v / 16777216)%N with (v / 256 / 256 / 256)%N by (rewrite !N.div_div by lia; reflexivity).
  replace (v / 65536)%N with (v / 256 / 256)%N by (rewrite !N.div_div by lia; reflexivity).
  pose proof (N.div_mod' v 256) as E1. pose proof (N.div_mod' (v / 256) 256) as E2. pose proof (N.div_mod' (v / 256 / 256) 256) as E3.
  rewrite (N.mod_small (v / 256 / 256 / 256)) by (rewrite !N.div_div by lia; apply N.div_lt_upper_bound; lia).
  generalize dependent (v mod 256)%N. generalize dependent (v / 256)%N. intros q E2 E3 r E1.
  generalize dependent (q mod 256)%N. generalize dependent (q / 256)%N. intros q2 E3 r2 E2.
  generalize dependent (q2 mod 256)%N. generalize dependent (q2 / 256)%N. intros. lia.
Qed.

Theorem v4_round_trip v : (v < 4294967296)%N -> parse_ip_v4_string (produce_ip_v4_string v) = Some v.
Proof.
  intros H. rewrite produce_v4_units. unfold parse_ip_v4_string.
  assert (U : Forall (fun n => (n < 256)%N) (v4_units v)) by (unfold v4_units; repeat constructor; apply N.mod_lt; lia).
  rewrite split_joined.
  - pose proof (units_v4 v H) as E. unfold v4_units in *. cbn [map].
    inversion U as [|? ? U1 U']; subst. inversion U' as [|? ? U2 U'']; subst. inversion U'' as [|? ? U3 U3']; subst. inversion U3' as [|? ? U4 _]; subst.
    rewrite (proj1 (dec_octet _ U1)), (proj1 (dec_octet _ U2)), (proj1 (dec_octet _ U3)), (proj1 (dec_octet _ U4)).
    rewrite value_v4 by assumption. f_equal. exact E.
  - discriminate.
  - apply Forall_forall. intros p Hp. apply in_map_iff in Hp. destruct Hp as (n & <- & Hn). apply dec_octet. rewrite Forall_forall in U. apply U. exact Hn.
Qed.

Theorem v4_canonical s v : parse_ip_v4_string s = Some v -> (v < 4294967296)%N /\ s = produce_ip_v4_string v.
Proof.
  unfold parse_ip_v4_string. intros H. pose proof (joined_split 46 s) as J.
  destruct (split_on 46 s) as [|a [|b [|c [|d [|? ?]]]]]; try discriminate.
  destruct (octet a) as [na|] eqn:Ea; [|discriminate]. destruct (octet b) as [nb|] eqn:Eb; [|discriminate].
  destruct (octet c) as [nc|] eqn:Ec; [|discriminate]. destruct (octet d) as [nd|] eqn:Ed; [|discriminate].
  apply octet_dec in Ea, Eb, Ec, Ed. destruct Ea as [La ->], Eb as [Lb ->], Ec as [Lc ->], Ed as [Ld ->].
  rewrite value_v4 in H by assumption. injection H as <-. unfold horner. cbn [fold_left]. split; [lia|].
  rewrite produce_v4_units. rewrite <- J. unfold v4_units. cbn [map]. rewrite N.mul_0_l, N.add_0_l.
  assert (Q : forall x y, (y < 256)%N -> ((x * 256 + y) mod 256 = y /\ (x * 256 + y) / 256 = x)%N).
  { intros x y Hy. rewrite N.add_comm. rewrite N.mod_add, N.div_add, N.mod_small, N.div_small by lia. split; [reflexivity|lia]. }
  set (v1 := (na * 256 + nb)%N). set (v2 := (v1 * 256 + nc)%N). set (v3 := (v2 * 256 + nd)%N).
  assert (E1 : (v3 / 256)%N = v2) by (apply Q; exact Ld). assert (E2 : (v2 / 256)%N = v1) by (apply Q; exact Lc). assert (E3 : (v1 / 256)%N = na) by (apply Q; exact Lb).
  replace (v3 / 16777216)%N with (v3 / 256 / 256 / 256)%N by (rewrite !N.div_div by lia; reflexivity).
  replace (v3 / 65536)%N with (v3 / 256 / 256)%N by (rewrite !N.div_div by lia; reflexivity).
  rewrite E1, E2, E3. rewrite (N.mod_small na) by exact La. rewrite (proj1 (Q na nb Lb) : (v1 mod 256 = nb)%N).
  rewrite (proj1 (Q v1 nc Lc) : (v2 mod 256 = nc)%N), (proj1 (Q v2 nd Ld) : (v3 mod 256 = nd)%N). reflexivity.
Qed.

(** * Numbers of a base *)

Lemma horner_acc base l : forall a, fold_left (fun a x => (a * base + x)%N) l a = (a * base ^ N.of_nat (length l) + horner base l)%N.
Proof.
  unfold horner. induction l as [|x l IH]; intros a; cbn [fold_left length]; [cbn; lia|].
  rewrite (IH (a * base + x)%N), (IH (0 * base + x)%N). rewrite Nat2N.inj_succ, N.pow_succ_r'. nia.
Qed.

Lemma horner_app base a b : horner base (a ++ b) = (horner base a * base ^ N.of_nat (length b) + horner base b)%N.
Proof. unfold horner at 1. rewrite fold_left_app, horner_acc. reflexivity. Qed.

Lemma horner_cons base x l : horner base (x :: l) = (x * base ^ N.of_nat (length l) + horner base l)%N.
Proof. unfold horner at 1. cbn [fold_left]. rewrite horner_acc, N.mul_0_l, N.add_0_l. reflexivity. Qed.

Lemma horner_zeros base n : horner base (repeat 0%N n) = 0%N.
Proof. induction n as [|n IH]; [reflexivity|]. cbn [repeat]. rewrite horner_cons, IH. lia. Qed.

Lemma horner_bound base l : Forall (fun x => (x < base)%N) l -> (horner base l < base ^ N.of_nat (length l))%N.
Proof.
  induction 1 as [|x l Hx Hl IH]; [cbn; lia|]. rewrite horner_cons. cbn [length]. rewrite Nat2N.inj_succ, N.pow_succ_r'. nia.
Qed.

(** * Placing the groups *)

Fixpoint steps (n : nat) (off : N) : list N := match n with 0 => [] | S n => (16 * N.of_nat n + off)%N :: steps n off end.

Definition the (o : option N) : N := match o with Some g => g | None => 0%N end.

Lemma place_lor gs : forall shifts v, place v gs shifts = N.lor v (place 0 gs shifts).
Proof.
  unfold place. induction gs as [|o gs IH]; intros shifts v; [symmetry; apply N.lor_0_r|]. destruct shifts as [|s shifts]; [symmetry; apply N.lor_0_r|].
  cbn [combine fold_left fst snd]. destruct o as [g|]; [|apply IH]. rewrite IH, (IH shifts (N.lor 0 _)), N.lor_0_l, N.lor_assoc. reflexivity.
Qed.

Lemma place_steps off opts : Forall (fun o => (the o < 65536)%N) opts -> forall A,
  place (N.shiftl A (16 * N.of_nat (length opts) + off)) opts (steps (length opts) off) =
  N.shiftl (fold_left (fun a x => (a * 65536 + x)%N) (map the opts) A) off.
Proof.
  unfold place. induction 1 as [|o opts Ho Hos IH]; intros A; [reflexivity|]. cbn [length steps combine fold_left fst snd map].
  rewrite <- IH. f_equal. change 65536%N with (2 ^ 16)%N. rewrite <- lor_place by exact Ho.
  replace (16 * N.of_nat (length opts) + off + 16)%N with (16 * N.of_nat (S (length opts)) + off)%N by lia.
  destruct o as [g|]; [reflexivity|]. cbn [the]. rewrite N.shiftl_0_l, N.lor_0_r. reflexivity.
Qed.

Lemma place_zero n off opts : length opts = n -> Forall (fun o => (the o < 65536)%N) opts ->
  place 0 opts (steps n off) = N.shiftl (horner 65536 (map the opts)) off.
Proof. intros <- H. pose proof (place_steps off opts H 0%N) as E. rewrite N.shiftl_0_l in E. exact E. Qed.

(** * Groups *)

Lemma same_length {A B} (R : A -> B -> Prop) l m : Forall2 R l m -> length l = length m.
Proof. induction 1; cbn [length]; congruence. Qed.

Lemma digit_hex c d : hex_digit c = Some d <-> digit c d.
Proof.
  unfold hex_digit, between. split.
  - intros H. destruct (N.leb_spec 48 c), (N.leb_spec c 57), (N.leb_spec 97 c), (N.leb_spec c 102); cbn in H; try discriminate; injection H as <-;
      (apply Digit_09; lia) || (apply Digit_af; lia).
  - intros H. inversion H as [c' Hc|c' Hc]; subst.
    + rewrite !(proj2 (N.leb_le _ _)) by lia. reflexivity.
    + rewrite (proj2 (N.leb_le 48 c)), (proj2 (N.leb_gt c 57)), (proj2 (N.leb_le 97 c)), (proj2 (N.leb_le c 102)) by lia. reflexivity.
Qed.

Lemma digit_small c d : digit c d -> (d < 16)%N.
Proof. inversion 1; lia. Qed.

Lemma hex_number_ok p : forall acc v, hex_number acc p = Some v <->
  exists ds, Forall2 digit p ds /\ v = fold_left (fun a x => (a * 16 + x)%N) ds acc.
Proof.
  induction p as [|c p IH]; intros acc v; cbn [hex_number].
  - split; [intros H; injection H as <-; exists []; split; [constructor|reflexivity]|]. intros (ds & H & ->). inversion H. reflexivity.
  - split.
    + intros H. destruct (hex_digit c) as [d|] eqn:D; [|discriminate]. apply IH in H. destruct H as (ds & H & ->). apply digit_hex in D.
      exists (d :: ds). split; [constructor; assumption|]. cbn [fold_left]. rewrite (N.mul_comm 16). reflexivity.
    + intros (ds & H & ->). inversion H as [|? d ? ds' D Hds]; subst. rewrite (proj2 (digit_hex c d) D). apply IH. exists ds'. split; [assumption|].
      cbn [fold_left]. rewrite (N.mul_comm 16). reflexivity.
Qed.

Lemma group_ok p v : group p = Some v <-> group_text digit p v.
Proof.
  unfold group, group_text. split.
  - intros H. destruct p as [|c p]; [discriminate|]. destruct (Nat.ltb_spec 4 (length (c :: p))) as [|L]; [discriminate|].
    apply hex_number_ok in H. split; [cbn [length] in *; lia|exact H].
  - intros ([L1 L2] & H). destruct p as [|c p]; [cbn in L1; lia|]. destruct (Nat.ltb_spec 4 (length (c :: p))) as [|_]; [lia|].
    apply hex_number_ok. exact H.
Qed.

Lemma group_small p v : group_text digit p v -> (v < 65536)%N.
Proof.
  intros ([L1 L2] & ds & H & ->).
  assert (B : Forall (fun x => (x < 16)%N) ds) by (clear -H; induction H as [|c d p ds D _ IH]; constructor; [eapply digit_small; exact D|exact IH]).
  apply horner_bound in B. apply same_length in H.
  assert (LE : (16 ^ N.of_nat (length ds) <= 16 ^ 4)%N) by (apply N.pow_le_mono_r; [lia|nlia]). change (16 ^ 4)%N with 65536%N in LE. lia.
Qed.

Lemma group_chars p v c : group_text digit p v -> In c p -> c <> 58%N /\ c <> 37%N.
Proof.
  intros (_ & ds & H & _) Hc. clear v. induction H as [|x d p ds D _ IH]; [destruct Hc|]. destruct Hc as [->|Hc]; [|apply IH; exact Hc].
  inversion D; lia.
Qed.

Lemma groups_ok ps : forall gs, groups ps = Some gs <-> Forall2 (group_text digit) ps gs.
Proof.
  induction ps as [|p ps IH]; intros gs; cbn [groups].
  - split; [intros H; injection H as <-; constructor|]. inversion 1. reflexivity.
  - split.
    + intros H. destruct (group p) as [v|] eqn:E; [|discriminate]. destruct (groups ps) as [r|]; [|discriminate]. injection H as <-.
      constructor; [apply group_ok; exact E|apply IH; reflexivity].
    + inversion 1 as [|? v ? r Hv Hr]; subst. rewrite (proj2 (group_ok p v) Hv), (proj2 (IH r) Hr). reflexivity.
Qed.

Lemma groups_none ps : In [] ps -> groups ps = None.
Proof.
  induction ps as [|p ps IH]; intros H; [destruct H|]. cbn [groups]. destruct H as [->|H]; [reflexivity|]. rewrite IH by exact H. destruct (group p); reflexivity.
Qed.

Lemma groups_small ps gs : Forall2 (group_text digit) ps gs -> Forall (fun g => (g < 65536)%N) gs.
Proof. induction 1; constructor; [eapply group_small; eassumption|assumption]. Qed.

Lemma groups_clean ps gs : Forall2 (group_text digit) ps gs -> Forall (fun p => ~ In 58%N p) ps /\ Forall (fun p => ~ In 37%N p) ps /\ Forall (fun p => p <> []) ps.
Proof.
  induction 1 as [|p g ps gs H _ (I1 & I2 & I3)]; [repeat split; constructor|]. repeat split; constructor; try assumption.
  - intros Q. destruct (group_chars p g _ H Q) as [X _]. apply X. reflexivity.
  - intros Q. destruct (group_chars p g _ H Q) as [_ X]. apply X. reflexivity.
  - intros ->. destruct H as [[L _] _]. cbn in L. lia.
Qed.

Lemma the_some gs : map the (map Some gs) = gs.
Proof. rewrite map_map. apply map_id. Qed.

Lemma the_padding n gs : map the (padding n gs) = repeat 0%N (n - length gs).
Proof. unfold padding. generalize (n - length gs). intros k. induction k as [|k IH]; [reflexivity|]. cbn. rewrite IH. reflexivity. Qed.

Lemma small_some gs : Forall (fun g => (g < 65536)%N) gs -> Forall (fun o => (the o < 65536)%N) (map Some gs).
Proof. induction 1; constructor; assumption. Qed.

Lemma small_padding n gs : Forall (fun o => (the o < 65536)%N) (padding n gs).
Proof. apply Forall_forall. intros o H. apply repeat_spec in H. subst o. cbn. lia. Qed.

Lemma place_full gs : length gs = 8 -> Forall (fun g => (g < 65536)%N) gs ->
  place 0 (map Some gs) [112; 96; 80; 64; 48; 32; 16; 0]%N = horner 65536 gs.
Proof.
  intros L S. change [112; 96; 80; 64; 48; 32; 16; 0]%N with (steps 8 0). rewrite place_zero.
  - rewrite the_some. apply N.shiftl_0_r.
  - rewrite map_length. exact L.
  - apply small_some. exact S.
Qed.

Lemma place_start gs : length gs <= 7 -> Forall (fun g => (g < 65536)%N) gs ->
  place 0 (padding 7 gs ++ map Some gs) [96; 80; 64; 48; 32; 16; 0]%N = horner 65536 (repeat 0%N (8 - length gs) ++ gs).
Proof.
  intros L S. change [96; 80; 64; 48; 32; 16; 0]%N with (steps 7 0). rewrite place_zero.
  - rewrite map_app, the_some, the_padding, N.shiftl_0_r, !horner_app, !horner_zeros, !N.mul_0_l. reflexivity.
  - rewrite app_length, map_length. unfold padding. rewrite repeat_length. lia.
  - apply Forall_app. split; [apply small_padding|apply small_some; exact S].
Qed.

Lemma place_end gs : length gs <= 7 -> Forall (fun g => (g < 65536)%N) gs ->
  place 0 (map Some gs ++ padding 7 gs) [112; 96; 80; 64; 48; 32; 16]%N = horner 65536 (gs ++ repeat 0%N (8 - length gs)).
Proof.
  intros L Sm. change [112; 96; 80; 64; 48; 32; 16]%N with (steps 7 16). rewrite place_zero.
  - rewrite map_app, the_some, the_padding, N.shiftl_mul_pow2, !horner_app, !horner_zeros, !N.add_0_r, !repeat_length.
    change (2 ^ 16)%N with 65536%N. replace (8 - length gs) with (S (7 - length gs)) by lia. rewrite Nat2N.inj_succ, N.pow_succ_r'. nia.
  - rewrite app_length, map_length. unfold padding. rewrite repeat_length. lia.
  - apply Forall_app. split; [apply small_some; exact Sm|apply small_padding].
Qed.

Lemma place_middle a b : 1 <= length a -> 1 <= length b -> length a + length b < 8 ->
  Forall (fun g => (g < 65536)%N) a -> Forall (fun g => (g < 65536)%N) b ->
  place (place 0 (map Some a ++ padding 6 a) [112; 96; 80; 64; 48; 32]%N) (padding 6 b ++ map Some b) [80; 64; 48; 32; 16; 0]%N =
  horner 65536 (a ++ repeat 0%N (8 - (length a + length b)) ++ b).
Proof.
  intros La Lb L Sa Sb. rewrite place_lor. change [112; 96; 80; 64; 48; 32]%N with (steps 6 32). change [80; 64; 48; 32; 16; 0]%N with (steps 6 0).
  rewrite !place_zero.
  - rewrite !map_app, !the_some, !the_padding, N.shiftl_0_r, !horner_app, !horner_zeros, N.add_0_r, !N.mul_0_l, N.add_0_l, app_length, !repeat_length.
    assert (E : N.shiftl (horner 65536 a * 65536 ^ N.of_nat (6 - length a)) 32 = N.shiftl (horner 65536 a) (16 * N.of_nat (8 - length a))).
    { rewrite !N.shiftl_mul_pow2. replace (8 - length a) with (S (S (6 - length a))) by lia. generalize (6 - length a). intros k.
      rewrite (N.pow_mul_r 2 16). change (2 ^ 16)%N with 65536%N. rewrite !Nat2N.inj_succ, !N.pow_succ_r'. change (2 ^ 32)%N with (65536 * 65536)%N.
      generalize (65536 ^ N.of_nat k)%N. intros. nia. }
    rewrite E, lor_add.
    + rewrite (N.pow_mul_r 2 16). change (2 ^ 16)%N with 65536%N. do 4 f_equal. lia.
    + apply horner_bound in Sb. rewrite (N.pow_mul_r 2 16). change (2 ^ 16)%N with 65536%N.
      eapply N.lt_le_trans; [exact Sb|]. apply N.pow_le_mono_r; lia.
  - rewrite app_length, map_length. unfold padding. rewrite repeat_length. lia.
  - apply Forall_app. split; [apply small_padding|apply small_some; exact Sb].
  - rewrite app_length, map_length. unfold padding. rewrite repeat_length. lia.
  - apply Forall_app. split; [apply small_some; exact Sa|apply small_padding].
Qed.

(** * Reading *)

Lemma joined_app sep a b : a <> [] -> b <> [] -> joined sep (a ++ b) = joined sep a ++ sep :: joined sep b.
Proof.
  induction a as [|p a IH]; intros Na Nb; [contradiction|]. destruct a as [|q a].
  - destruct b as [|q b]; [contradiction|]. reflexivity.
  - cbn [app]. rewrite !joined_cons, <- app_assoc. cbn [app]. apply (f_equal (fun x => p ++ sep :: x)). apply IH; [discriminate|exact Nb].
Qed.

Lemma cut_empty_app parts a b : cut_empty parts = Some (a, b) -> parts = a ++ [] :: b.
Proof.
  revert a. induction parts as [|p parts IH]; intros a H; [discriminate|]. destruct p as [|c p]; cbn [cut_empty] in H.
  - injection H as <- <-. reflexivity.
  - destruct (cut_empty parts) as [[x y]|]; [|discriminate]. cbn in H. injection H as <- <-. cbn [app]. f_equal. apply IH. reflexivity.
Qed.

Lemma cut_empty_here a b : Forall (fun p => p <> []) a -> cut_empty (a ++ [] :: b) = Some (a, b).
Proof.
  induction 1 as [|p a Hp _ IH]; [reflexivity|]. cbn [app]. destruct p as [|c p]; [contradiction|]. cbn [cut_empty]. rewrite IH. reflexivity.
Qed.

Lemma no_percent_body s : ~ In 37%N s -> (match find [37%N] s with None => s | Some i => firstn i s end) = s.
Proof. intros H. rewrite find_absent' by exact H. reflexivity. Qed.

Lemma count_ok a b {A} (l : list A) : count_in a b l = true <-> a <= length l <= b.
Proof. unfold count_in. rewrite andb_true_iff, !Nat.leb_le. reflexivity. Qed.

Lemma nonempty_length {A} (l : list A) : 1 <= length l -> l <> [].
Proof. destruct l; [cbn; lia|discriminate]. Qed.

Lemma v6_sound s v : ~ In 37%N s -> parse_ip_v6_string s = Some v -> denotes digit s v.
Proof.
  intros NP. unfold parse_ip_v6_string. rewrite no_percent_body by exact NP. destruct (beqb s [58; 58]%N) eqn:E.
  { intros H. injection H as <-. apply beqb_eq in E. subst s. apply (Denotes_short digit [] [] [] []); [constructor|constructor|cbn; lia]. }
  clear E. pose proof (joined_split 58 s) as J. set (parts := split_on 58 s) in *. clearbody parts. subst s.
  destruct (match_full parts) as [gs|] eqn:C1.
  { unfold match_full in C1. destruct (Nat.eqb_spec (length parts) 8) as [L|]; [|discriminate]. apply groups_ok in C1. intros H. injection H as <-.
    pose proof (same_length _ _ _ C1) as SL. rewrite place_full; [|congruence|eapply groups_small; exact C1].
    apply Denotes_full; [exact C1|congruence]. }
  clear C1. destruct (match_start parts) as [gs|] eqn:C2.
  { unfold match_start in C2. destruct parts as [|[|? ?] [|[|? ?] r]]; try discriminate. destruct (count_in 1 7 r) eqn:CI; [|discriminate].
    apply count_ok in CI. apply groups_ok in C2. pose proof (same_length _ _ _ C2) as SL. intros H. injection H as <-.
    rewrite place_start; [|lia|eapply groups_small; exact C2].
    assert (R : r <> []) by (apply nonempty_length; lia). destruct r as [|p r]; [contradiction|].
    apply (Denotes_short digit [] [] (p :: r) gs); [constructor|exact C2|cbn [length]; cbn [length] in *; lia]. }
  clear C2. destruct (match_end parts) as [gs|] eqn:C3.
  { unfold match_end in C3. destruct (rev parts) as [|[|? ?] [|[|? ?] r]] eqn:RV; try discriminate. destruct (count_in 1 7 r) eqn:CI; [|discriminate].
    apply count_ok in CI. apply groups_ok in C3. pose proof (same_length _ _ _ C3) as SL. rewrite rev_length in SL. intros H. injection H as <-.
    rewrite place_end; [|lia|eapply groups_small; exact C3].
    assert (P : parts = rev r ++ [[]; []]) by (rewrite <- (rev_involutive parts), RV; cbn [rev]; rewrite <- app_assoc; reflexivity). subst parts.
    rewrite joined_app; [|intros Q; apply (f_equal (@length _)) in Q; rewrite rev_length in Q; cbn in Q; lia|discriminate].
    pose proof (Denotes_short digit (rev r) gs [] [] C3 (Forall2_nil _)) as D. cbn [length app] in D. rewrite app_nil_r, Nat.add_0_r in D.
    apply D. lia. }
  clear C3. unfold match_middle. destruct (cut_empty parts) as [[a b]|] eqn:CE; [|discriminate]. apply cut_empty_app in CE. subst parts.
  destruct (count_in 1 6 a) eqn:CA; [|discriminate]. destruct (count_in 1 6 b) eqn:CB; [|discriminate]. cbn [andb]. apply count_ok in CA, CB.
  destruct (groups a) as [ga|] eqn:GA; [|discriminate]. destruct (groups b) as [gb|] eqn:GB; [|discriminate]. apply groups_ok in GA, GB.
  destruct (Nat.ltb_spec (length ga + length gb) 8) as [L|]; [|discriminate]. intros H. injection H as <-.
  pose proof (same_length _ _ _ GA) as SA. pose proof (same_length _ _ _ GB) as SB.
  rewrite place_middle; [|lia|lia|exact L|eapply groups_small; exact GA|eapply groups_small; exact GB].
  rewrite joined_app; [|apply nonempty_length; lia|discriminate].
  assert (NB : b <> []) by (apply nonempty_length; lia). destruct b as [|q b]; [contradiction|].
  exact (Denotes_short digit a ga (q :: b) gb GA GB L).
Qed.

Lemma joined_no sep c ps : c <> sep -> Forall (fun p => ~ In c p) ps -> ~ In c (joined sep ps).
Proof.
  intros N. induction 1 as [|p ps Hp Hps IH]; [intros []|]. destruct ps as [|q ps]; [exact Hp|]. rewrite joined_cons. intros Q.
  apply in_app_or in Q. destruct Q as [Q|[Q|Q]]; [contradiction|congruence|contradiction].
Qed.

Lemma denotes_no_percent s v : denotes digit s v -> ~ In 37%N s.
Proof.
  intros H. inversion H as [ps gs F L|ps gs qs hs F G L]; subst.
  - apply joined_no; [discriminate|]. eapply groups_clean. exact F.
  - intros Q. apply in_app_or in Q. destruct Q as [Q|Q]; [revert Q; apply joined_no; [discriminate|]; eapply groups_clean; exact F|].
    cbn [app] in Q. destruct Q as [Q|[Q|Q]]; [discriminate|discriminate|]. revert Q. apply joined_no; [discriminate|]. eapply groups_clean. exact G.
Qed.

Lemma full_none parts : In [] parts -> match_full parts = None.
Proof. intros H. unfold match_full. rewrite groups_none by exact H. destruct (_ =? 8); reflexivity. Qed.

Lemma start_none (ps r : list str) : Forall (fun p => p <> []) ps -> ps <> [] -> match_start (ps ++ r) = None.
Proof. intros H N. destruct H as [|p ps Hp _]; [contradiction|]. cbn [app]. destruct p; [contradiction|reflexivity]. Qed.

Lemma start_ok qs hs : 1 <= length qs <= 7 -> Forall2 (group_text digit) qs hs -> match_start ([] :: [] :: qs) = Some hs.
Proof. intros L F. unfold match_start. rewrite (proj2 (count_ok 1 7 qs)) by exact L. apply groups_ok. exact F. Qed.

Lemma end_none (qs r : list str) : Forall (fun p => p <> []) qs -> qs <> [] -> match_end (r ++ [] :: qs) = None.
Proof.
  intros H N. unfold match_end. rewrite rev_app_distr. cbn [rev]. apply Forall_rev in H.
  assert (M : rev qs <> []) by (intros Q; apply N; rewrite <- (rev_involutive qs); rewrite Q; reflexivity).
  change (Forall (fun p : str => p <> []) (rev qs)) in H. set (x := rev qs) in *. clearbody x. destruct x as [|[|c q] l]; [destruct M; reflexivity| |reflexivity].
  rewrite Forall_forall in H. destruct (H []); [left|]; reflexivity.
Qed.

Lemma end_ok ps gs : 1 <= length ps <= 7 -> Forall2 (group_text digit) ps gs -> match_end (ps ++ [[]; []]) = Some gs.
Proof.
  intros L F. unfold match_end. rewrite rev_app_distr. cbn [rev app]. rewrite (proj2 (count_ok 1 7 (rev ps))) by (rewrite rev_length; exact L).
  rewrite rev_involutive. apply groups_ok. exact F.
Qed.

Lemma middle_ok ps gs qs hs : 1 <= length ps <= 6 -> 1 <= length qs <= 6 -> Forall2 (group_text digit) ps gs -> Forall2 (group_text digit) qs hs ->
  match_middle (ps ++ [] :: qs) = Some (gs, hs).
Proof.
  intros L M F G. unfold match_middle. rewrite cut_empty_here by (eapply groups_clean; exact F).
  rewrite (proj2 (count_ok 1 6 ps)), (proj2 (count_ok 1 6 qs)) by assumption. cbn [andb].
  rewrite (proj2 (groups_ok ps gs) F), (proj2 (groups_ok qs hs) G). reflexivity.
Qed.

Lemma split_short ps qs : Forall (fun p => ~ In 58%N p) ps -> Forall (fun p => ~ In 58%N p) qs ->
  split_on 58 (joined 58 ps ++ [58; 58]%N ++ joined 58 qs) =
  (match ps with [] => [[]] | _ => ps end) ++ [] :: (match qs with [] => [[]] | _ => qs end).
Proof.
  intros Hp Hq. cbn [app]. rewrite split_app. f_equal.
  - destruct ps as [|p ps]; [reflexivity|]. apply split_joined; [discriminate|exact Hp].
  - cbn [split_on]. rewrite N.eqb_refl. apply (f_equal (cons [])). destruct qs as [|q qs]; [reflexivity|]. apply split_joined; [discriminate|exact Hq].
Qed.

Ltac slia := unfold str in *; lia.

Lemma v6_complete s v : denotes digit s v -> parse_ip_v6_string s = Some v.
Proof.
  intros D. pose proof (denotes_no_percent s v D) as NP. unfold parse_ip_v6_string. rewrite no_percent_body by exact NP.
  inversion D as [ps gs F L|ps gs qs hs F G L]; subst.
  - pose proof (same_length _ _ _ F) as SL. destruct (groups_clean ps gs F) as (K1 & _ & K3).
    assert (SP : split_on 58 (joined 58 ps) = ps) by (apply split_joined; [apply nonempty_length; slia|exact K1]).
    destruct (beqb (joined 58 ps) [58; 58]%N) eqn:E.
    { apply beqb_eq in E. rewrite E in SP. cbn in SP. subst ps. cbn in SL. slia. }
    cbv zeta. rewrite SP. unfold match_full. rewrite (proj2 (Nat.eqb_eq (length ps) 8)) by congruence.
    rewrite (proj2 (groups_ok ps gs) F). rewrite place_full; [reflexivity|exact L|eapply groups_small; exact F].
  - pose proof (same_length _ _ _ F) as SF. pose proof (same_length _ _ _ G) as SG.
    destruct (groups_clean ps gs F) as (K1 & _ & K3). destruct (groups_clean qs hs G) as (M1 & _ & M3).
    pose proof (split_short ps qs K1 M1) as SP.
    destruct (beqb (joined 58 ps ++ [58; 58]%N ++ joined 58 qs) [58; 58]%N) eqn:E.
    { apply beqb_eq in E. rewrite E in SP. cbn [split_on N.eqb Pos.eqb] in SP.
      destruct ps as [|p ps].
      - destruct qs as [|q qs]; [inversion F; inversion G; subst; reflexivity|]. cbn [app] in SP. injection SP as <- _. inversion M3; contradiction.
      - cbn [app] in SP. injection SP as <- _. inversion K3; contradiction. }
    cbv zeta. set (parts := split_on 58 (joined 58 ps ++ [58; 58]%N ++ joined 58 qs)) in *. clearbody parts.
    assert (GN : match_full parts = None) by (rewrite SP; apply full_none; apply in_or_app; right; left; reflexivity). rewrite GN.
    destruct ps as [|p ps].
    + inversion F; subst gs. destruct qs as [|q qs]; [inversion G; subst; cbn in E; discriminate|].
      rewrite (eq_trans (f_equal match_start SP) (start_ok (q :: qs) hs ltac:(cbn [length] in *; lia) G)).
      rewrite place_start; [reflexivity|cbn [length] in *; lia|eapply groups_small; exact G].
    + rewrite (eq_trans (f_equal match_start SP) (start_none (p :: ps) _ K3 ltac:(discriminate))). destruct qs as [|q qs].
      * inversion G; subst hs. rewrite (eq_trans (f_equal match_end SP) (end_ok (p :: ps) gs ltac:(cbn [length] in *; lia) F)).
        rewrite place_end; [|cbn [length] in *; lia|eapply groups_small; exact F]. cbn [length]. rewrite Nat.add_0_r, app_nil_r. reflexivity.
      * rewrite (eq_trans (f_equal match_end SP) (end_none (q :: qs) (p :: ps) M3 ltac:(discriminate))).
        rewrite (eq_trans (f_equal match_middle SP) (middle_ok (p :: ps) gs (q :: qs) hs ltac:(cbn [length] in *; lia) ltac:(cbn [length] in *; lia) F G)).
        rewrite (proj2 (Nat.ltb_lt _ _) L).
        rewrite place_middle; [reflexivity|cbn [length] in *; lia|cbn [length] in *; lia|exact L|eapply groups_small; exact F|eapply groups_small; exact G].
Qed.

Theorem v6_exact s v : ~ In 37%N s -> (parse_ip_v6_string s = Some v <-> denotes digit s v).
Proof. intros H. split; [apply v6_sound; exact H|apply v6_complete]. Qed.

(** * Writing *)

Lemma hex_char_digit d : (d < 16)%N -> digit (hex_char d) d.
Proof.
  intros H. unfold hex_char. destruct (N.ltb_spec d 10) as [L|L].
  - replace d with (48 + d - 48)%N at 2 by lia. apply Digit_09. lia.
  - replace d with (87 + d - 87)%N at 2 by lia. apply Digit_af. lia.
Qed.

Lemma hex_group v : (v < 65536)%N -> group_text digit (hex v) v.
Proof.
  intros H. unfold hex, group_text.
  assert (E1 : (v = 16 * (v / 16) + v mod 16 /\ v mod 16 < 16)%N) by (split; [apply N.div_mod'|apply N.mod_lt; lia]).
  assert (E2 : (v / 16 = 16 * (v / 256) + v / 16 mod 16 /\ v / 16 mod 16 < 16)%N).
  { replace (v / 256)%N with (v / 16 / 16)%N by (rewrite N.div_div by lia; reflexivity). split; [apply N.div_mod'|apply N.mod_lt; lia]. }
  assert (E3 : (v / 256 = 16 * (v / 4096) + v / 256 mod 16 /\ v / 256 mod 16 < 16)%N).
  { replace (v / 4096)%N with (v / 256 / 16)%N by (rewrite N.div_div by lia; reflexivity). split; [apply N.div_mod'|apply N.mod_lt; lia]. }
  destruct E1 as [E1 B1], E2 as [E2 B2], E3 as [E3 B3].
  generalize dependent (v mod 16)%N. generalize dependent (v / 16 mod 16)%N. generalize dependent (v / 256 mod 16)%N.
  generalize dependent (v / 4096)%N. generalize dependent (v / 256)%N. generalize dependent (v / 16)%N. intros q1 q2 q3 r3 E3 B3 r2 E2 B2 r1 E1 B1.
  destruct (N.ltb_spec v 16); [|destruct (N.ltb_spec v 256); [|destruct (N.ltb_spec v 4096)]]; (split; [cbn; lia|]).
  - exists [v]. split; [repeat constructor; apply hex_char_digit; lia|]. cbn [horner fold_left]. unfold horner. cbn [fold_left]. lia.
  - exists [q1; r1]. split; [repeat constructor; apply hex_char_digit; lia|]. unfold horner. cbn [fold_left]. lia.
  - exists [q2; r2; r1]. split; [repeat constructor; apply hex_char_digit; lia|]. unfold horner. cbn [fold_left]. lia.
  - exists [q3; r3; r2; r1]. split; [repeat constructor; apply hex_char_digit; lia|]. unfold horner. cbn [fold_left]. lia.
Qed.

Definition units (v : N) : list N := map (unit_at v) all_shifts.

Lemma unit_small v s : (unit_at v s < 65536)%N.
Proof. unfold unit_at. change 65535%N with (N.ones 16). rewrite N.land_ones. apply N.mod_lt. cbn. lia. Qed.

Lemma units_steps v off n : horner 65536 (map (unit_at v) (steps n off)) = ((v / 2 ^ off) mod 65536 ^ N.of_nat n)%N.
Proof.
  induction n as [|n IH]; [symmetry; apply N.mod_1_r|]. cbn [steps map]. rewrite horner_cons, IH.
  assert (L : length (map (unit_at v) (steps n off)) = n) by (rewrite map_length; clear; induction n; cbn [steps length]; congruence).
  rewrite L, Nat2N.inj_succ, N.pow_succ_r', (N.mul_comm 65536), N.mod_mul_r by (try apply N.pow_nonzero; lia).
  unfold unit_at. change 65535%N with (N.ones 16). rewrite unit_mod. change (2 ^ 16)%N with 65536%N at 1.
  replace (v / 2 ^ (16 * N.of_nat n + off))%N with (v / 2 ^ off / 65536 ^ N.of_nat n)%N; [lia|].
  rewrite N.div_div by (apply N.pow_nonzero; lia). f_equal. change 65536%N with (2 ^ 16)%N. rewrite <- N.pow_mul_r, <- N.pow_add_r. f_equal. lia.
Qed.

Lemma units_value v : (v < 2 ^ 128)%N -> horner 65536 (units v) = v.
Proof.
  intros H. unfold units. change all_shifts with (steps 8 0). rewrite units_steps. rewrite N.pow_0_r, N.div_1_r. apply N.mod_small. exact H.
Qed.

(** The text of a run. *)
Definition render (text : N -> str) (start len : N) : str :=
  (if N.eqb len 0 then flat_map (fun shift => text shift ++ if N.eqb shift 0 then [] else [58]) all_shifts
   else if N.eqb len 128 then [58; 58]
   else if N.eqb start 112 then
     [58] ++ flat_map (fun shift => [58] ++ text shift) (filter (fun shift => N.leb shift (112 - len)) all_shifts)
   else if N.eqb (start + 16) len then
     flat_map (fun shift => text shift ++ [58]) (filter (fun shift => N.ltb (len - 16) shift) all_shifts) ++ [58]
   else
     flat_map (fun shift => text shift ++ [58]) (filter (fun shift => N.ltb start shift) all_shifts) ++
     flat_map (fun shift => [58] ++ text shift) (filter (fun shift => N.leb shift (start - len)) all_shifts))%N.

Lemma produce_render v : produce_ip_v6_string v =
  let '(start, len) := largest_run (combine all_shifts (map (N.eqb 0) (units v))) in render (fun shift => hex (unit_at v shift)) start len.
Proof.
  unfold produce_ip_v6_string, units. rewrite map_map.
  replace (combine all_shifts (map (fun x => N.eqb 0 (unit_at v x)) all_shifts)) with (map (fun shift => (shift, N.eqb (unit_at v shift) 0)) all_shifts); [reflexivity|].
  unfold all_shifts. cbn [map combine]. rewrite !(N.eqb_sym 0). reflexivity.
Qed.

Lemma render_full text start : render text start 0 = joined 58 (map text all_shifts).
Proof. unfold render, all_shifts. cbn [N.eqb flat_map joined map]. rewrite !app_nil_r, <- !app_assoc. reflexivity. Qed.

Lemma render_short text k j : 1 <= j -> k + j <= 8 ->
  render text (112 - 16 * N.of_nat k) (16 * N.of_nat j) =
  joined 58 (map text (firstn k all_shifts)) ++ [58; 58]%N ++ joined 58 (map text (skipn (k + j) all_shifts)).
Proof.
  intros Hj Hk.
  do 8 (destruct k as [|k]; [do 9 (destruct j as [|j]; [try lia; cbv -[app]; cbn [app]; repeat (rewrite <- ?app_assoc, ?app_nil_r; cbn [app]; try reflexivity)|]); exfalso; lia|]).
  exfalso. lia.
Qed.

Definition run_ok (z : list bool) : bool :=
  let '(start, len) := largest_run (combine all_shifts z) in
  let k := N.to_nat ((112 - start) / 16) in
  let j := N.to_nat (len / 16) in
  N.eqb len 0 ||
  N.eqb start (112 - 16 * N.of_nat k) && N.eqb len (16 * N.of_nat j) && Nat.leb 1 j && Nat.leb (k + j) 8 && forallb (fun b => b) (firstn j (skipn k z)).

Fixpoint bool_lists (n : nat) : list (list bool) :=
  match n with 0 => [[]] | S n => map (cons true) (bool_lists n) ++ map (cons false) (bool_lists n) end.

Lemma bool_lists_all z : In z (bool_lists (length z)).
Proof.
  induction z as [|b z IH]; [left; reflexivity|]. cbn [length bool_lists]. apply in_or_app.
  destruct b; [left|right]; apply in_map; exact IH.
Qed.

Lemma runs_ok z : length z = 8 -> run_ok z = true.
Proof.
  assert (C : forallb run_ok (bool_lists 8) = true) by (vm_compute; reflexivity).
  intros L. rewrite forallb_forall in C. apply C. rewrite <- L. apply bool_lists_all.
Qed.

Lemma texts_groups v l : Forall2 (group_text digit) (map (fun s => hex (unit_at v s)) l) (map (unit_at v) l).
Proof. induction l as [|s l IH]; constructor; [apply hex_group, unit_small|exact IH]. Qed.

Lemma all_zero j : forall l, length l = j -> forallb (fun b => b) (map (N.eqb 0) l) = true -> l = repeat 0%N j.
Proof.
  induction j as [|j IH]; intros [|x l] L H; try discriminate; [reflexivity|]. cbn [map forallb] in H. apply andb_prop in H. destruct H as [H1 H2].
  apply N.eqb_eq in H1. cbn [repeat]. rewrite <- H1. f_equal. apply IH; [injection L; auto|exact H2].
Qed.

Theorem v6_produced v : (v < 2 ^ 128)%N -> denotes digit (produce_ip_v6_string v) v.
Proof.
  intros H. pose proof (units_value v H) as U. rewrite produce_render.
  pose proof (runs_ok (map (N.eqb 0) (units v)) eq_refl) as R. unfold run_ok in R.
  destruct (largest_run (combine all_shifts (map (N.eqb 0) (units v)))) as [start len]. apply orb_prop in R. destruct R as [R|R].
  - apply N.eqb_eq in R. subst len. rewrite render_full. refine (eq_ind (horner 65536 (units v)) (denotes digit _) _ v U). unfold units.
    apply Denotes_full; [|reflexivity]. apply texts_groups.
  - apply andb_prop in R. destruct R as [R R5]. apply andb_prop in R. destruct R as [R R4]. apply andb_prop in R. destruct R as [R R3].
    apply andb_prop in R. destruct R as [R1 R2]. apply N.eqb_eq in R1, R2. apply Nat.leb_le in R3, R4.
    set (k := N.to_nat ((112 - start) / 16)) in *. set (j := N.to_nat (len / 16)) in *. clearbody k j. subst start len.
    rewrite render_short by assumption.
    assert (S : units v = map (unit_at v) (firstn k all_shifts) ++ repeat 0%N j ++ map (unit_at v) (skipn (k + j) all_shifts)).
    { unfold units in *. rewrite !skipn_map, !firstn_map in R5. rewrite <- (firstn_skipn k all_shifts) at 1. rewrite map_app. f_equal.
      rewrite <- (firstn_skipn j (skipn k all_shifts)). rewrite map_app. f_equal.
      - apply all_zero; [|exact R5]. rewrite map_length, firstn_length, skipn_length. cbn [length all_shifts]. lia.
      - f_equal. clear. revert k. generalize all_shifts. intros l k. revert l. induction k as [|k IH]; intros l; [reflexivity|].
        destruct l as [|x l]; [rewrite !skipn_nil; reflexivity|]. cbn [skipn plus]. apply IH. }
    assert (LE : 8 - (length (map (unit_at v) (firstn k all_shifts)) + length (map (unit_at v) (skipn (k + j) all_shifts))) = j).
    { rewrite !map_length, firstn_length, skipn_length. cbn [length all_shifts]. lia. }
    refine (eq_ind (horner 65536 (units v)) (denotes digit _) _ v U). rewrite S. rewrite <- LE at 2. apply Denotes_short; [apply texts_groups|apply texts_groups|].
    rewrite !map_length, firstn_length, skipn_length. cbn [length all_shifts]. lia.
Qed.

Theorem v6_round_trip v : (v < 2 ^ 128)%N -> parse_ip_v6_string (produce_ip_v6_string v) = Some v.
Proof. intros H. apply v6_complete, v6_produced, H. Qed.

Lemma denotes_bound s v : denotes digit s v -> (v < 2 ^ 128)%N.
Proof.
  intros D. inversion D as [ps gs F L|ps gs qs hs F G L]; subst.
  - pose proof (horner_bound 65536 gs (groups_small ps gs F)) as B. rewrite L in B. exact B.
  - assert (S : Forall (fun g => (g < 65536)%N) (gs ++ repeat 0%N (8 - (length gs + length hs)) ++ hs)).
    { apply Forall_app. split; [eapply groups_small; exact F|]. apply Forall_app. split; [|eapply groups_small; exact G].
      apply Forall_forall. intros x Hx. apply repeat_spec in Hx. subst x. lia. }
    apply horner_bound in S. rewrite !app_length, repeat_length in S.
    replace (length gs + (8 - (length gs + length hs) + length hs)) with 8 in S by lia. exact S.
Qed.

(** A zone after the address is not looked at, but of "::". *)
Theorem v6_zone s z v : denotes digit s v -> s <> [58; 58]%N -> parse_ip_v6_string (s ++ 37%N :: z) = Some v.
Proof.
  intros D N. pose proof (denotes_no_percent s v D) as NP. pose proof (v6_complete s v D) as C. revert C. unfold parse_ip_v6_string.
  rewrite no_percent_body by exact NP. rewrite find_here' by exact NP. rewrite firstn_here.
  destruct (beqb s [58; 58]%N) eqn:E; [apply beqb_eq in E; contradiction|]. cbv zeta.
  destruct (beqb (s ++ 37%N :: z) [58; 58]%N) eqn:E'; [|intros C; exact C].
  apply beqb_eq in E'. assert (Q : In 37%N (s ++ 37%N :: z)) by (apply in_or_app; right; left; reflexivity). rewrite E' in Q.
  destruct Q as [Q|[Q|[]]]; discriminate.
Qed.

Theorem v6_forms s v : denotes digit s v ->
  parse_ip_v6_string s = Some v /\ (s <> [58; 58]%N -> forall z, parse_ip_v6_string (s ++ 37%N :: z) = Some v).
Proof. intros D. split; [apply v6_complete; exact D|]. intros N z. apply v6_zone; assumption. Qed.

Theorem v4_accepted s v : parse_ip_v4_string s = Some v <->
  exists a b c d, (a < 256)%N /\ (b < 256)%N /\ (c < 256)%N /\ (d < 256)%N /\ s = joined 46 (map dec [a; b; c; d]) /\ v = horner 256 [a; b; c; d].
Proof.
  unfold parse_ip_v4_string. split.
  - intros H. pose proof (joined_split 46 s) as J.
    destruct (split_on 46 s) as [|a [|b [|c [|d [|? ?]]]]]; try discriminate.
    destruct (octet a) as [na|] eqn:Ea; [|discriminate]. destruct (octet b) as [nb|] eqn:Eb; [|discriminate].
    destruct (octet c) as [nc|] eqn:Ec; [|discriminate]. destruct (octet d) as [nd|] eqn:Ed; [|discriminate].
    apply octet_dec in Ea, Eb, Ec, Ed. destruct Ea as [La ->], Eb as [Lb ->], Ec as [Lc ->], Ed as [Ld ->].
    rewrite value_v4 in H by assumption. injection H as <-. exists na, nb, nc, nd. repeat split; try assumption. symmetry. exact J.
  - intros (a & b & c & d & Ha & Hb & Hc & Hd & -> & ->). rewrite split_joined.
    + cbn [map]. rewrite (proj1 (dec_octet _ Ha)), (proj1 (dec_octet _ Hb)), (proj1 (dec_octet _ Hc)), (proj1 (dec_octet _ Hd)).
      rewrite value_v4 by assumption. reflexivity.
    + discriminate.
    + repeat constructor; apply dec_octet; assumption.
Qed.
