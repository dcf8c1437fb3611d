(** C46: names in zip archives. *)

From Coq Require Import List Arith Bool NArith.
From Verif Require Import Bytes Text DedupModel DedupSpec DedupProofs.
Import ListNotations.

(** No name is given twice, if no name has two numbers following each other, or a newline. Missing: the names of the refutations. *)
Theorem C46_unique_partial : forall names, Forall simple names -> NoDup (deduplicate names).
Proof. exact unique. Qed.
Print Assumptions C46_unique_partial.

(** Only the number of a name changes, and there is one result per name. *)
Theorem C46_renumbered : forall names, Forall2 renumbered names (deduplicate names).
Proof. intros names. exact (all_renumbered names []). Qed.
Print Assumptions C46_renumbered.

(** Names which are distinct already are not changed, if their numbers have no leading zeros. *)
Theorem C46_kept : forall names, NoDup names -> Forall natural names -> deduplicate names = names.
Proof. exact distinct_kept. Qed.
Print Assumptions C46_kept.

(** ["a (1) (2)"] twice and ["a (1)"]: the second is numbered 0, which is ["a (1)"]. *)
Definition a12 : name := [97; 32; 40; 49; 41; 32; 40; 50; 41]%N.
Definition a1 : name := [97; 32; 40; 49; 41]%N.
Theorem C46_refuted : exists names, deduplicate names = [a12; a1; a1] /\ ~ NoDup (deduplicate names).
Proof.
  exists [a12; a12; a1]. assert (E : deduplicate [a12; a12; a1] = [a12; a1; a1]) by (vm_compute; reflexivity).
  split; [exact E|]. rewrite E. intros H. inversion H as [|? ? _ H']; subst. inversion H' as [|? ? H2 _]; subst. apply H2. now left.
Qed.
Print Assumptions C46_refuted.

(** Names with newlines are not parsed: the number given to the second is the third's. *)
Definition line : name := [97; 10; 98]%N.
Definition line1 : name := [97; 10; 98; 32; 40; 49; 41]%N.
Theorem C46_newline_refuted : deduplicate [line; line; line1] = [line; line1; line1].
Proof. vm_compute. reflexivity. Qed.
Print Assumptions C46_newline_refuted.

(** ["d.e/a.gz", "d.e/a.gz", "d.e/a (1).gz", "d.e/a.gz", "a (0)", "a"]. *)
Definition dir : name := [100; 46; 101; 47; 97]%N.
Definition gz : name := [46; 103; 122]%N.
Definition numb (n : N) : name := [32; 40; 48 + n; 41]%N.
Example C46_nonvacuous :
  deduplicate [dir ++ gz; dir ++ gz; dir ++ numb 1 ++ gz; dir ++ gz; [97] ++ numb 0; [97]; dir ++ numb 7 ++ gz; dir ++ numb 7 ++ gz]%N =
    [dir ++ gz; dir ++ numb 1 ++ gz; dir ++ numb 2 ++ gz; dir ++ numb 3 ++ gz; [97] ++ numb 0; [97] ++ numb 1; dir ++ numb 7 ++ gz; dir ++ numb 4 ++ gz]%N.
Proof. vm_compute. reflexivity. Qed.

Lemma simple_check l : ~ In 10%N l -> ~ In 41%N l \/ (exists a b, l = a ++ b /\ ~ In 40%N a /\ ~ In 32%N b) -> simple l.
Proof.
  intros NL H. split; [exact NL|]. intros a n m b (d & -> & D1 & D2) (e & -> & E1 & E2) E. destruct H as [H|(u & v & E' & H1 & H2)].
  - apply H. rewrite E. rewrite !in_app_iff. cbn. tauto.
  - rewrite E in E'. assert (F : a ++ [32%N] ++ (40%N :: d ++ [41%N]) ++ [32; 40]%N ++ e ++ [41%N] ++ b = u ++ v) by (rewrite <- E'; cbn; now rewrite <- !app_assoc).
    clear E E'. revert a F. induction u as [|x u IH]; intros a F.
    + cbn in F. apply H2. rewrite <- F. apply in_app_iff. right. now left.
    + destruct a as [|y a].
      * cbn in F. injection F as <- F. destruct u as [|z u]; cbn in F; [|injection F as <- _; apply H1; right; now left].
        apply H2. rewrite <- F. right. apply in_app_iff. right. now left.
      * cbn in F. injection F as <- F. apply (IH ltac:(intros J; apply H1; now right) a F).
Qed.

Example C46_simple : Forall simple [dir ++ gz; dir ++ numb 1 ++ gz; [97] ++ numb 0; [97]]%N.
Proof.
  repeat (apply Forall_cons; [apply simple_check; [cbn; intuition discriminate|]|]); [left|right|right|left|constructor]; try (cbn; intuition discriminate).
  - exists (dir ++ [32%N]), ([40; 49; 41]%N ++ gz). repeat split; cbn; intuition discriminate.
  - exists [97; 32]%N, [40; 48; 41]%N. repeat split; cbn; intuition discriminate.
Qed.
