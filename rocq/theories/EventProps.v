(** C50: [Event]. Model in EventModel.v, vocabulary in EventSpec.v. *)

From Coq Require Import List Arith Bool Lia.
From Verif Require Import EventModel EventSpec EventProofs.
Import ListNotations.

(** C50. Every [await event] behaves, whatever the others do, as its own automaton says: it passes at once when the event
    is set, and otherwise waits for the next [set] or its cancellation. *)
Theorem C50_waiter_automaton : forall before after, let t := waits before in
  let s := fst (exec init (before ++ OWait :: after)) in
  e_stat s t = if flag before then Passed else waiter t after.
Proof. exact waiter_automaton. Qed.
Print Assumptions C50_waiter_automaton.

(** C50. It is woken once if [set] comes before its cancellation, and never otherwise. *)
Theorem C50_woken_once : forall before after, flag before = false -> let t := waits before in
  count t (snd (exec init (before ++ OWait :: after))) = if set_first t after then 1 else 0.
Proof. exact wakes_once. Qed.
Print Assumptions C50_woken_once.

(** C50. Nobody passes without a [set]. *)
Theorem C50_no_pass_before_set : forall before after, let t := waits before in
  e_stat (fst (exec init (before ++ OWait :: after))) t = Passed -> flag before = true \/ set_first t after = true.
Proof. exact pass_needs_set. Qed.
Print Assumptions C50_no_pass_before_set.

(** C50. While the event is set nobody waits. *)
Theorem C50_set_leaves_no_waiter : forall ops t, flag ops = true -> e_stat (fst (exec init ops)) t <> Pending.
Proof. exact no_waiter_left. Qed.
Print Assumptions C50_set_leaves_no_waiter.

Example C50_nonvacuous :
  let ops := [OWait; OWait; OWait; OCancel 1; OSet; OSet; OResume 0; OWait; OClear; OWait; OCancel 2; OResume 2; OResume 1; OSet] in
  let '(s, l) := exec init ops in
  map (e_stat s) [0; 1; 2; 3; 4] = [Passed; Raised; Raised; Passed; Woken] /\ l = [0; 2; 4].
Proof. vm_compute. auto. Qed.
