(** Text helpers shared by the models: decimal numbers, stripping. Strings are lists of code points or of octets. *)

From Coq Require Import List Arith Bool NArith Lia Ascii String ZArith.
From Verif Require Import Bytes.
Import ListNotations.

(** The characters of a string of ascii characters. *)
Fixpoint text (s : string) : list N :=
  match s with EmptyString => [] | String a s' => N_of_ascii a :: text s' end.

Definition is_digit (c : N) : bool := ((48 <=? c) && (c <=? 57))%N.

(** Python [str(n)] of a non negative integer. *)
Fixpoint dec_fuel (fuel : nat) (n : N) (acc : list N) : list N :=
  match fuel with
  | 0 => acc
  | S f => let acc := (48 + n mod 10)%N :: acc in if (n <? 10)%N then acc else dec_fuel f (n / 10) acc
  end.
Definition dec (n : N) : list N := dec_fuel (S (N.to_nat (N.log2 n))) n [].

(** Python [int(s)] of a string of digits. *)
Definition undec (l : list N) : N := fold_left (fun a c => a * 10 + (c - 48))%N l 0%N.

(** White space of [bytes.strip]: space, \t, \n, \r, \v, \f. *)
Definition is_space (c : N) : bool := ((c =? 32) || ((9 <=? c) && (c <=? 13)))%N.
Fixpoint lstrip (l : list N) : list N :=
  match l with [] => [] | c :: l' => if is_space c then lstrip l' else l end.
Definition strip (l : list N) : list N := rev (lstrip (rev (lstrip l))).

Fixpoint drop_while (p : N -> bool) (l : list N) : list N :=
  match l with [] => [] | c :: l' => if p c then drop_while p l' else l end.
Fixpoint take_while (p : N -> bool) (l : list N) : list N :=
  match l with [] => [] | c :: l' => if p c then c :: take_while p l' else [] end.

Lemma undec_fold : forall l a, fold_left (fun a c => a * 10 + (c - 48))%N l a = (a * 10 ^ N.of_nat (List.length l) + undec l)%N.
Proof.
  unfold undec. induction l as [|c l IH]; intros a; cbn [fold_left List.length].
  - cbn. lia.
  - rewrite (IH (a * 10 + (c - 48))%N), (IH (0 * 10 + (c - 48))%N), Nat2N.inj_succ, N.pow_succ_r'.
    generalize (c - 48)%N (10 ^ N.of_nat (List.length l))%N. intros. ring.
Qed.

Lemma dec_fuel_spec : forall fuel n acc, N.to_nat (N.log2 n) < fuel ->
  exists d, dec_fuel fuel n acc = d ++ acc /\ d <> [] /\ Forall (fun c => is_digit c = true) d /\ undec d = n.
Proof.
  induction fuel as [|f IH]; intros n acc Hf; [lia|]. cbn [dec_fuel]. cbv zeta.
  assert (Hm : (n mod 10 < 10)%N) by (apply N.mod_lt; lia).
  assert (Hd : is_digit (48 + n mod 10) = true).
  { revert Hm. generalize (n mod 10)%N. intros m Hm. unfold is_digit. apply andb_true_iff. rewrite !N.leb_le. lia. }
  destruct (N.ltb_spec n 10) as [L|L].
  - exists [(48 + n mod 10)%N]. split; [reflexivity|]. split; [discriminate|]. split; [constructor; [exact Hd|constructor]|].
    unfold undec. cbn [fold_left]. rewrite N.mod_small by lia. lia.
  - destruct (IH (n / 10)%N ((48 + n mod 10)%N :: acc)) as (d & E & Hne & Hall & Hu).
    + assert (N.log2 (n / 10) < N.log2 n)%N; [|lia].
      apply N.log2_lt_pow2; [apply N.div_str_pos; lia|].
      pose proof (N.log2_spec n ltac:(lia)) as [_ Hs]. rewrite N.pow_succ_r' in Hs.
      apply N.div_lt_upper_bound; lia.
    + exists (d ++ [(48 + n mod 10)%N]). split; [rewrite E, <- app_assoc; reflexivity|].
      split; [destruct d; discriminate|]. split; [apply Forall_app; split; [assumption|constructor; [exact Hd|constructor]]|].
      unfold undec in *. rewrite fold_left_app, Hu. cbn [fold_left]. pose proof (N.div_mod' n 10) as H. clear - H.
      revert H. generalize (n / 10)%N, (n mod 10)%N. intros. lia.
Qed.

Theorem dec_spec n : dec n <> [] /\ Forall (fun c => is_digit c = true) (dec n) /\ undec (dec n) = n.
Proof.
  unfold dec. destruct (dec_fuel_spec (S (N.to_nat (N.log2 n))) n []) as (d & E & H); [lia|].
  rewrite app_nil_r in E. rewrite E. exact H.
Qed.

Lemma take_while_app p a b : Forall (fun c => p c = true) a -> match b with [] => True | c :: _ => p c = false end ->
  take_while p (a ++ b) = a.
Proof.
  induction 1 as [|c l Hc _ IH]; intros Hb; cbn [app take_while].
  - destruct b as [|c b]; [reflexivity|]. cbn [take_while]. rewrite Hb. reflexivity.
  - rewrite Hc, IH by assumption. reflexivity.
Qed.
Lemma drop_while_app p a b : Forall (fun c => p c = true) a -> match b with [] => True | c :: _ => p c = false end ->
  drop_while p (a ++ b) = b.
Proof.
  induction 1 as [|c l Hc _ IH]; intros Hb; cbn [app drop_while].
  - destruct b as [|c b]; [reflexivity|]. cbn [drop_while]. rewrite Hb. reflexivity.
  - rewrite Hc, IH by assumption. reflexivity.
Qed.
Lemma take_drop p l : take_while p l ++ drop_while p l = l.
Proof. induction l as [|c l IH]; [reflexivity|]. cbn. destruct (p c); cbn; [rewrite IH|]; reflexivity. Qed.

Lemma lstrip_fix l : match l with [] => True | c :: _ => is_space c = false end -> lstrip l = l.
Proof. destruct l as [|c l]; [reflexivity|]. cbn. intros ->. reflexivity. Qed.

Lemma strip_sp l c : is_space c = true -> strip (c :: l) = strip l.
Proof. intros H. unfold strip. cbn [lstrip]. rewrite H. reflexivity. Qed.
