(** Specification of the future properties in terms of the calls and their outputs only. *)

From Coq Require Import List Arith Bool.
From Verif Require Import FutureModel.
Import ListNotations.

(** Did this call report that it completed the future? *)
Definition wins (x : op * output) : bool :=
  match x with
  | (OpSetResult _, OutNone) => true
  | (OpSetException _, OutNone) => true
  | (OpSetResultIfPending _, OutInt 1) => true
  | (OpSetExceptionIfPending _, OutInt 1) => true
  | (OpCancel, OutInt 1) => true
  | (OpCancelWith _, OutInt 1) => true
  | _ => false
  end.

(** What [get_result()] has to report after the call won. *)
Definition outcome_of (o : op) : output :=
  match o with
  | OpSetResult v | OpSetResultIfPending v => OutValue (SVal v)
  | OpSetException a | OpSetExceptionIfPending a | OpCancelWith a => OutError (ErrUser (instantiate a))
  | OpCancel => OutError ErrCancelled
  | _ => OutError ErrInvalidState
  end.

(** Calls that were made to complete the future; such a call is "refused" when it does not win. *)
Definition completing (o : op) : bool :=
  match o with
  | OpSetResult _ | OpSetException _ | OpSetResultIfPending _ | OpSetExceptionIfPending _
  | OpCancel | OpCancelWith _ => true
  | _ => false
  end.

Definition winners (tr : list (op * output)) : list op := map fst (filter wins tr).

(** Expected bookkeeping of callbacks: [done], the outstanding registrations in order and the schedule so far,
    computed from the calls alone. *)
Record cb_spec := mk_cb { cb_done : bool; cb_out : list nat; cb_sched : list nat }.

Definition cb_step (s : cb_spec) (x : op * output) : cb_spec :=
  match fst x with
  | OpAddCallback c =>
      if cb_done s then mk_cb true (cb_out s) (cb_sched s ++ [c])
      else mk_cb false (cb_out s ++ [c]) (cb_sched s)
  | OpRemoveCallback c => mk_cb (cb_done s) (filter (fun x => negb (Nat.eqb x c)) (cb_out s)) (cb_sched s)
  | _ =>
      if wins x then mk_cb true [] (cb_sched s ++ rev (cb_out s)) else s
  end.

Definition cb_run (tr : list (op * output)) : cb_spec := fold_left cb_step tr (mk_cb false [] []).

(** Counting version of the exactly-once property: how often must [c] be scheduled after the trace? Before the
    winning call every addition since the last removal of [c] counts, after it every addition. *)
Fixpoint due (c : nat) (pending : nat) (done : bool) (tr : list (op * output)) : nat :=
  match tr with
  | [] => 0
  | x :: tr' =>
      match fst x with
      | OpAddCallback c' =>
          if Nat.eqb c' c then
            if done then S (due c pending done tr') else due c (S pending) done tr'
          else due c pending done tr'
      | OpRemoveCallback c' =>
          if Nat.eqb c' c then due c 0 done tr' else due c pending done tr'
      | _ => if wins x then pending + due c 0 true tr' else due c pending done tr'
      end
  end.
