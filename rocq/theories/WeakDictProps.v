(** C54, C55: dictionaries with weakly referenced values. *)
From Coq Require Import List ZArith Bool Arith Lia.
From Verif Require Import WeakDictModel WeakDictSpec WeakDictProofs.
Import ListNotations.

Definition reach hybrid weakable os := fst (w_run hybrid weakable w_init os).
Definition results hybrid weakable os := snd (w_run hybrid weakable w_init os).

(** Whatever is done, however iterations and garbage collections interleave, a [WeakValueDictionary] gives the
    results of a map from which a key disappears when its value dies. *)
Theorem C54_weak weakable os : exists m, spec_run weakable [] empty os (results false weakable os) m.
Proof.
  pose proof (run_refines false weakable os w_init (wf_init weakable)) as R. pose proof (run_types false weakable os w_init (wf_init weakable) eq_refl) as T.
  unfold results. destruct (w_run false weakable w_init os) as [s xs]. destruct R as (_ & R). exists (vis weakable s). exact (R T).
Qed.
Print Assumptions C54_weak.

(** So does a [HybridValueDictionary] as long as it does not raise TypeError (see C55). *)
Theorem C54_hybrid weakable os : ~ In WTypeError (results true weakable os) -> exists m, spec_run weakable [] empty os (results true weakable os) m.
Proof.
  intros T. pose proof (run_refines true weakable os w_init (wf_init weakable)) as R.
  unfold results in *. destruct (w_run true weakable w_init os) as [s xs]. destruct R as (_ & R). exists (vis weakable s). exact (R T).
Qed.
Print Assumptions C54_hybrid.

(** An iteration during which no key is added or removed explicitly gives no key twice, does not raise, and when it
    ends it gave every key which is still there. *)
Theorem C54_iteration hybrid weakable os g j mid j' : find_gen g (gens (reach hybrid weakable os)) = None -> Forall (quiet g) mid ->
  let '(s', xs) := w_run hybrid weakable (reach hybrid weakable os) (WNext g j :: mid) in
  ~ stopped g (WNext g j :: mid) xs ->
  let '(s2, x) := w_step hybrid weakable s' (WNext g j') in
  NoDup (yields g (WNext g j :: mid) xs) /\
  ((x = WStop /\ forall k, snd (w_step hybrid weakable s2 (WIn k)) = WBool true -> In k (yields g (WNext g j :: mid) xs)) \/
   (exists k o, x = WItem k o /\ ~ In k (yields g (WNext g j :: mid) xs))).
Proof. exact (iteration_in hybrid weakable _ g j mid j' (run_wf hybrid weakable w_init os (wf_init weakable))). Qed.
Print Assumptions C54_iteration.

(** As long as no iteration was started, [len] is the number of keys. *)
Theorem C54_len_partial weakable os : Forall no_next os ->
  exists m n, spec_run weakable [] empty os (results false weakable os) m /\ len (reach false weakable os) = WCount n /\ size m n.
Proof.
  intros F. pose proof (run_refines false weakable os w_init (wf_init weakable)) as R. pose proof (run_types false weakable os w_init (wf_init weakable) eq_refl) as T.
  assert (C : clean weakable w_init) by (split; cbn; tauto).
  destruct (clean_run false weakable os w_init (wf_init weakable) C F) as (W & K). destruct (clean_len weakable _ W K) as (n & L & Sz).
  unfold results, reach in *. destruct (w_run false weakable w_init os) as [s xs]. destruct R as (_ & R). exists (vis weakable s), n. auto.
Qed.
Print Assumptions C54_len_partial.

Definition all_weak : nat -> bool := fun _ => true.

(** In general it is not: a value which dies during an iteration is counted forever after the iteration ended,
    although no iteration gives its key. *)
Theorem C54_len_refuted : exists os, results false all_weak os = [WDone; WItem 5 1; WDone; WStop; WCount 1; WItems []; WStop; WCount 1] /\
  os = [WSet 5 1; WNext 0 0; WDie [1]; WNext 0 0; WLen; WCopy; WNext 1 0; WLen].
Proof. eexists. split; [|reflexivity]. vm_compute. reflexivity. Qed.
Print Assumptions C54_len_refuted.

(** And during an iteration [len] may miss keys which were set again, or raise ValueError. *)
Theorem C54_len_low_refuted :
  (exists os, results false all_weak os = [WDone; WItem 5 1; WDone; WDone; WCount 0; WBool true] /\
    os = [WSet 5 1; WNext 0 0; WDie [1]; WSet 5 2; WLen; WIn 5]) /\
  (exists os, results false all_weak os = [WDone; WItem 5 1; WDone; WDefault; WValueError] /\
    os = [WSet 5 1; WNext 0 0; WDie [1]; WPop 5 true; WLen]).
Proof. split; eexists; (split; [|reflexivity]); vm_compute; reflexivity. Qed.
Print Assumptions C54_len_low_refuted.

Example C54_nonvacuous : results false all_weak [WSet 5 1; WSet 6 2; WSet 7 1; WNext 0 0; WGet 6; WDie [1]; WGet 5; WNext 0 0; WNext 0 0; WGet 7; WPopItem; WPopItem]
  = [WDone; WDone; WDone; WItem 5 1; WValue 2; WDone; WDefault; WItem 6 2; WStop; WDefault; WItem 6 2; WKeyError]
  /\ results true Nat.even [WSet 5 1; WSet 6 2; WDie [1; 2]; WGet 5; WGet 6; WLen] = [WDone; WDone; WDone; WValue 1; WDefault; WCount 1].
Proof. split; vm_compute; reflexivity. Qed.

(** [pop] of a [HybridValueDictionary] gives the value and removes it if the key is there; it raises TypeError at most
    if the key is not there and a default was given. *)
Theorem C55_pop_partial weakable os k d :
  let s := reach true weakable os in
  (forall o, snd (w_step true weakable s (WGet k)) = WValue o -> snd (w_step true weakable s (WPop k d)) = WValue o) /\
  snd (w_step true weakable (fst (w_step true weakable s (WPop k d))) (WIn k)) = WBool false /\
  (snd (w_step true weakable s (WPop k d)) = WTypeError -> d = true /\ snd (w_step true weakable s (WIn k)) = WBool false).
Proof.
  intros s. assert (W : wf weakable s) by (apply run_wf, wf_init).
  split; [|split].
  - cbn. unfold get, pop. intros o. destruct (lookup k (tab s)) as [e|]; [|cbn; discriminate]. destruct (deref weakable (dead s) e) eqn:D; cbn; [auto|].
    destruct (deref_dead _ _ _ D) as (r & -> & _). discriminate.
  - cbn. unfold pop. destruct (lookup k (tab s)) as [e|] eqn:L; cbn; unfold contains.
    + cbn. rewrite (lookup_del weakable) by exact (wf_keys _ _ W). now rewrite Nat.eqb_refl.
    + now rewrite L.
  - intros E. destruct (typeerror true weakable s _ W E) as (_ & k' & X & V). injection X as <- ->. split; [auto|].
    cbn. unfold contains. unfold vis in V. destruct (lookup k (tab s)) as [e|]; [|auto]. rewrite V. destruct (deref_dead _ _ _ V) as (r & -> & _). reflexivity.
Qed.
Print Assumptions C55_pop_partial.

(** With a default and a key which was never there it always does. *)
Theorem C55_missing : forall weakable os k, lookup k (tab (reach true weakable os)) = None ->
  snd (w_step true weakable (reach true weakable os) (WPop k true)) = WTypeError.
Proof. intros weakable os k L. cbn. unfold pop. now rewrite L. Qed.
Print Assumptions C55_missing.

Theorem C55_refuted : exists os, results true Nat.even os = [WDone; WTypeError] /\ os = [WSet 6 2; WPop 5 true].
Proof. eexists. split; [|reflexivity]. vm_compute. reflexivity. Qed.
Print Assumptions C55_refuted.

Example C55_nonvacuous : results true Nat.even [WPop 5 true] = [WTypeError] /\ results true Nat.even [WSet 5 2; WPop 5 true; WSet 5 1; WPop 5 false; WPop 5 false] = [WDone; WValue 2; WDone; WValue 1; WKeyError]
  /\ results false Nat.even [WPop 5 true] = [WDefault].
Proof. split; [|split]; vm_compute; reflexivity. Qed.
