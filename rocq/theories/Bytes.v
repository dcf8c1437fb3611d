(** Byte strings (python [bytes] / [memoryview]) as lists of numbers, shared by the protocol models. *)

From Coq Require Import List Arith Bool NArith.
Import ListNotations.

Definition byte := N.
Definition bytes := list byte.

(** Python [==] of byte strings. *)
Fixpoint beqb (x y : bytes) : bool :=
  match x, y with
  | [], [] => true
  | a :: x', b :: y' => N.eqb a b && beqb x' y'
  | _, _ => false
  end.

(** Python [d.startswith(p)]. *)
Fixpoint starts_with (p d : bytes) : bool :=
  match p, d with
  | [], _ => true
  | _, [] => false
  | a :: p', b :: d' => N.eqb a b && starts_with p' d'
  end.

(** Python [d.find(p)]; [None] is -1. *)
Fixpoint find (p d : bytes) : option nat :=
  if starts_with p d then Some 0
  else match d with [] => None | _ :: d' => option_map S (find p d') end.

(** Python [d.find(p, start)]; beyond the end nothing is found. *)
Definition find_from (p d : bytes) (start : nat) : option nat :=
  if length d <? start then None else option_map (fun i => start + i) (find p (skipn start d)).

Definition all_bytes (d : bytes) : Prop := Forall (fun x => (x < 256)%N) d.

Lemma beqb_eq : forall x y, beqb x y = true <-> x = y.
Proof.
  induction x as [|a x IH]; destruct y as [|b y]; cbn; split; intro H; try discriminate; try reflexivity.
  - apply andb_true_iff in H. destruct H as [H1 H2]. apply N.eqb_eq in H1. apply IH in H2. congruence.
  - injection H as -> ->. rewrite N.eqb_refl. apply IH. reflexivity.
Qed.

Lemma beqb_refl : forall x, beqb x x = true.
Proof. intro x. apply beqb_eq. reflexivity. Qed.

Lemma starts_with_spec : forall p d, starts_with p d = true <-> firstn (length p) d = p.
Proof.
  induction p as [|a p IH]; intro d; cbn.
  - split; reflexivity.
  - destruct d as [|b d]; cbn.
    + split; discriminate.
    + rewrite andb_true_iff, N.eqb_eq, IH. split.
      * intros [-> ->]. reflexivity.
      * intro H. injection H as <- H. rewrite H. split; reflexivity.
Qed.

Lemma starts_with_app : forall p d, starts_with p d = true <-> exists r, d = p ++ r.
Proof.
  intros p d. rewrite starts_with_spec. split.
  - intro H. exists (skipn (length p) d). rewrite <- H at 1. rewrite firstn_skipn. reflexivity.
  - intros [r ->]. rewrite firstn_app, Nat.sub_diag. cbn. rewrite firstn_all, app_nil_r. reflexivity.
Qed.

(** [find] is the least position. *)
Lemma find_some : forall p d i, find p d = Some i ->
  firstn (length p) (skipn i d) = p /\ (forall j, j < i -> firstn (length p) (skipn j d) <> p).
Proof.
  induction d as [|b d IH]; intros i H; cbn in H.
  - destruct (starts_with p []) eqn:E; [|discriminate]. injection H as <-. apply starts_with_spec in E.
    split; [exact E|]. intros j Hj. inversion Hj.
  - destruct (starts_with p (b :: d)) eqn:E.
    + injection H as <-. apply starts_with_spec in E. split; [exact E|]. intros j Hj. inversion Hj.
    + destruct (find p d) as [k|] eqn:F; [|discriminate]. injection H as <-. destruct (IH k eq_refl) as [H1 H2].
      split; [exact H1|]. intros [|j] Hj.
      * intro Q. apply starts_with_spec in Q. cbn in Q. congruence.
      * cbn. apply H2. apply Nat.succ_lt_mono. exact Hj.
Qed.

Lemma find_none : forall p d, find p d = None -> forall j, j <= length d -> firstn (length p) (skipn j d) <> p.
Proof.
  induction d as [|b d IH]; intros H j Hj; cbn in H.
  - destruct (starts_with p []) eqn:E; [discriminate|]. cbn in Hj. assert (j = 0) by (inversion Hj; auto). subst j.
    intro Q. apply starts_with_spec in Q. cbn in Q. congruence.
  - destruct (starts_with p (b :: d)) eqn:E; [discriminate|]. destruct (find p d) eqn:F; [discriminate|].
    destruct j as [|j].
    + intro Q. apply starts_with_spec in Q. cbn in Q. congruence.
    + cbn. apply IH; auto. cbn in Hj. apply le_S_n in Hj. exact Hj.
Qed.

Lemma skipn_add : forall {A} a b (l : list A), skipn a (skipn b l) = skipn (b + a) l.
Proof. intros A a b. induction b as [|b IH]; intro l; [reflexivity|]. destruct l; cbn; [destruct a; reflexivity|apply IH]. Qed.

(** Split conjunctions only (not records). *)
Ltac csplit := repeat match goal with |- _ /\ _ => split end.

Lemma firstn_add : forall {A} a b (l : list A), firstn (a + b) l = firstn a l ++ firstn b (skipn a l).
Proof. intros A a b. induction a as [|a IH]; intro l; [reflexivity|]. destruct l; cbn; [destruct b; reflexivity|]. rewrite IH. reflexivity. Qed.
