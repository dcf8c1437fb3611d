(** Proofs for C52. *)

From Coq Require Import List Arith Bool Lia Permutation.
From Verif Require Import RotationModel RotationSpec.
Import ListNotations.

Section Rotation.
Context {A : Type}.

Lemma rotated_small (l : list A) : forall n, n <= length l -> rotated n l = skipn n l ++ firstn n l.
Proof.
  induction n as [|n IH]; intros L; [cbn; now rewrite app_nil_r|]. cbn [rotated]. rewrite IH by lia. destruct (skipn n l) as [|x r] eqn:E.
  - pose proof (skipn_length n l) as SL. rewrite E in SL. cbn in SL. lia.
  - assert (F : firstn (S n) l = firstn n l ++ [x] /\ skipn (S n) l = r).
    { clear IH L. revert n E. induction l as [|y l IHl]; intros [|n] E; cbn in *; try discriminate; [injection E as -> ->; auto|]. destruct (IHl n E) as [-> ->]. auto. }
    destruct F as [-> ->]. cbn. now rewrite app_assoc.
Qed.
Lemma rotated_nil n : rotated n (@nil A) = [].
Proof. induction n as [|n IH]; cbn [rotated]; [reflexivity|now rewrite IH]. Qed.
Lemma rotated_full (l : list A) : rotated (length l) l = l.
Proof. rewrite rotated_small by lia. now rewrite skipn_all, firstn_all. Qed.
Lemma rotated_add (l : list A) m : forall n, rotated (n + m) l = rotated n (rotated m l).
Proof. induction n as [|n IH]; cbn [rotated Nat.add]; [reflexivity|now rewrite IH]. Qed.
Lemma rotated_perm (l : list A) : forall n, Permutation (rotated n l) l.
Proof.
  induction n as [|n IH]; cbn [rotated]; [reflexivity|]. destruct (rotated n l) as [|x r]; [exact IH|]. rewrite <- IH. symmetry. apply Permutation_cons_append.
Qed.

Lemma iterate_infos : forall n (b : @basket A), host_infos (iterate n b) = host_infos b.
Proof. induction n as [|n IH]; intros b; cbn [iterate]; [reflexivity|]. now rewrite IH. Qed.

Lemma turn (b : @basket A) : rotation_start_index b < length (host_infos b) -> let '(b', out) := @iter_next_rotation A b in
  out = rotated (rotation_start_index b) (host_infos b) /\ rotation_start_index b' < length (host_infos b') /\ rotated (rotation_start_index b') (host_infos b') = rotated (S (rotation_start_index b)) (host_infos b).
Proof.
  intros L. cbn. destruct b as [l k]. cbn [host_infos rotation_start_index] in *. split; [|split].
  - rewrite rotated_small by lia. unfold islice. cbn [skipn]. rewrite Nat.sub_0_r. f_equal. rewrite firstn_all2; [reflexivity|]. rewrite skipn_length. lia.
  - destruct (Nat.eqb_spec (k + 1) (length l)); lia.
  - destruct (Nat.eqb_spec (k + 1) (length l)) as [E|E].
    + replace (match rotated k l with [] => [] | x :: r => r ++ [x] end) with (rotated (length l) l); [symmetry; apply rotated_full|]. rewrite <- E, Nat.add_1_r. reflexivity.
    + rewrite Nat.add_1_r. reflexivity.
Qed.

Lemma nth_turn : forall n (b : @basket A), rotation_start_index b < length (host_infos b) ->
  snd (@iter_next_rotation A (iterate n b)) = rotated n (rotated (rotation_start_index b) (host_infos b)).
Proof.
  induction n as [|n IH]; intros b L; cbn [iterate].
  - pose proof (turn b L) as T. destruct (iter_next_rotation b) as [b' out]. now destruct T as [-> _].
  - pose proof (turn b L) as T. destruct (iter_next_rotation b) as [b' out]. destruct T as (_ & L' & R). cbn [fst]. rewrite IH by exact L'. rewrite R, <- !rotated_add. f_equal. lia.
Qed.

Lemma fair (l : list A) n : snd (iter_next_rotation (iterate n (new_basket l))) = rotated n l.
Proof.
  destruct l as [|x l]; [|apply nth_turn; cbn; lia]. rewrite rotated_nil. unfold iter_next_rotation. cbn [snd]. rewrite iterate_infos. cbn. unfold islice. cbn. now destruct (rotation_start_index _).
Qed.
End Rotation.
