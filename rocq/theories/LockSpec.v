(** What C10-C12 say about the locks, in terms of the calls of [acquire]. *)

From Coq Require Import List Arith Bool.
From Verif Require Import LockModel.
Import ListNotations.

(** A call owns a slot of the lock from the moment [acquire] is going to return for it: it holds the lock, or its
    future got its result and the task was not cancelled since. *)
Definition owns (s : lock) (c : call) : bool :=
  match c_phase c with
  | Holding => true
  | Waiting f false => match l_stat s f with Finished => true | _ => false end
  | Waiting _ true => false
  end.

(** A call is blocked if the future it waits for is still pending. *)
Definition blocked (s : lock) (c : call) : bool :=
  match c_phase c with
  | Holding => false
  | Waiting f _ => is_pending (l_stat s f)
  end.

Definition owners (s : lock) : list call := filter (owns s) (l_calls s).
Definition holders (s : lock) : list call :=
  filter (fun c => match c_phase c with Holding => true | _ => false end) (l_calls s).

(** A call that will raise [CancelledError] when it gets resumed. *)
Definition doomed (s : lock) (c : call) : bool :=
  match c_phase c with
  | Holding => false
  | Waiting f m => match l_stat s f, m with Cancelled, _ => true | Finished, true => true | _, _ => false end
  end.

(** Histories in which a cancelled task runs before anything else touches the lock, and only blocked tasks get
    cancelled. *)
Inductive calm : lock -> list op -> Prop :=
  | calm_nil : forall s, calm s []
  | calm_cancel : forall s t c h,
      In c (l_calls s) -> c_ticket c = t -> blocked s c = true ->
      calm (run s [OpCancel t; OpResume t]) h ->
      calm s (OpCancel t :: OpResume t :: h)
  | calm_other : forall s o h,
      (forall t, o <> OpCancel t) ->
      calm (fst (step s o)) h ->
      calm s (o :: h).

(** The calls for which [acquire] returned, in this order. Calls are numbered in the order in which [acquire] is called. *)
Definition acquired (evs : list event) : list nat :=
  flat_map (fun e => match e with EvAcquired t => [t] | _ => [] end) evs.
