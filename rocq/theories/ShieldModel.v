(** Model of [shield] (scarletio/core/traps/future_chaining.py) on futures of a running event loop.

    A future is its outcome, its callbacks and whether it is silenced
    (core/traps/future.py 85-100; the state bits are modelled in FutureModel.v, here the bits
    RESULT_RETURN, RESULT_RAISE and CANCELLED together with [_result] are the outcome).
    A task which is shielded is a future which gets its outcome some time. *)
From Coq Require Import List Bool Arith Lia.
Import ListNotations.

(** set_result, set_exception, cancel, cancel_with. *)
Inductive outcome := Value (v : nat) | Raised (e : nat) | Cancelled | CancelledWith (e : nat).

(** The callbacks: _FutureChainer 6-51, _ChainRemover 54-77, and any other. *)
Inductive cb := CChain (target : nat) | CRemove (target : nat) | CUser (n : nat).

Record fut := { out : option outcome; cbs : list cb; silenced : bool }.

(** [log]: the other callbacks which were run, with their futures. *)
Record heap := { mem : nat -> fut; next : nat; ready : list (cb * nat); log : list (nat * nat) }.

(** Future.__new__, future.py 85-100. *)
Definition fut_init : fut := {| out := None; cbs := []; silenced := false |}.
Definition h_init : heap := {| mem := fun _ => fut_init; next := 0; ready := []; log := [] |}.

Definition upd (m : nat -> fut) (k : nat) (v : fut) : nat -> fut := fun x => if x =? k then v else m x.

(** The callbacks with the future as argument, from the last: event_loop.py 469-490, of a running loop. *)
Definition handles (f : nat) (l : list cb) : list (cb * nat) := map (fun c => (c, f)) (rev l).

(** The future gets an outcome, if it is pending: future.py 116-169, 390-506. *)
Definition finish (f : nat) (x : outcome) (s : heap) : heap :=
  match out (mem s f) with
  | Some _ => s
  | None => {| mem := upd (mem s) f {| out := Some x; cbs := []; silenced := silenced (mem s f) |};
               next := next s; ready := ready s ++ handles f (cbs (mem s f)); log := log s |}
  end.

(** add_done_callback, future.py 343-361. *)
Definition add_callback (f : nat) (c : cb) (s : heap) : heap :=
  match out (mem s f) with
  | Some _ => {| mem := mem s; next := next s; ready := ready s ++ [(c, f)]; log := log s |}
  | None => {| mem := upd (mem s) f {| out := None; cbs := cbs (mem s f) ++ [c]; silenced := silenced (mem s f) |};
               next := next s; ready := ready s; log := log s |}
  end.

Definition is_remover (f : nat) (c : cb) : bool := match c with CRemove g => g =? f | _ => false end.
Definition is_chainer (f : nat) (c : cb) : bool := match c with CChain g => g =? f | _ => false end.

(** The loops 40-44 and 71-77: the first which matches is deleted. *)
Fixpoint del_first (p : cb -> bool) (l : list cb) : list cb :=
  match l with [] => [] | c :: r => if p c then r else c :: del_first p r end.

(** _FutureChainer.__call__, 28-51; [f] is the future which is done, [g] the target. *)
Definition chain (g f : nat) (s : heap) : heap :=
  let t := mem s g in
  let l := del_first (is_remover f) (cbs t) in
  match out t, out (mem s f) with
  | None, Some x =>
      {| mem := upd (mem s) g {| out := Some x; cbs := []; silenced := silenced t || silenced (mem s f) |};
         next := next s; ready := ready s ++ handles g l; log := log s |}
  | o, _ => {| mem := upd (mem s) g {| out := o; cbs := l; silenced := silenced t |}; next := next s; ready := ready s; log := log s |}
  end.

(** _ChainRemover.__call__, 68-77; [f] is the future which is done, [g] the target, the protected future. *)
Definition unchain (g f : nat) (s : heap) : heap :=
  let l := cbs (mem s g) in
  let m := upd (mem s) g {| out := out (mem s g); cbs := del_first (is_chainer f) l; silenced := silenced (mem s g) |} in
  {| mem := if existsb (is_chainer f) l then upd m f {| out := out (m f); cbs := cbs (m f); silenced := true |} else m;
     next := next s; ready := ready s; log := log s |}.

(** One handle of the event loop. *)
Definition run_handle (h : cb * nat) (s : heap) : heap :=
  match h with
  | (CChain g, f) => chain g f s
  | (CRemove g, f) => unchain g f s
  | (CUser n, f) => {| mem := mem s; next := next s; ready := ready s; log := (f, n) :: log s |}
  end.

Inductive s_op :=
| HNew                            (* Future(loop), or a task *)
| HShield (f : nat)               (* shield(f, loop) *)
| HFinish (f : nat) (x : outcome) (* set_result, set_exception, cancel, cancel_with, or the end of a task *)
| HCallback (f n : nat)           (* add_done_callback *)
| HRun.                           (* the event loop runs the next callback *)

(** The future given by the operation. *)
Inductive s_out := SNone | SId (f : nat).

Definition exists_in (f : nat) (s : heap) : bool := f <? next s.

(** shield, 80-109. *)
Definition shield (f : nat) (s : heap) : heap * s_out :=
  match out (mem s f) with
  | Some _ => (s, SId f)
  | None =>
      let g := next s in
      let m := upd (mem s) f {| out := None; cbs := cbs (mem s f) ++ [CChain g]; silenced := silenced (mem s f) |} in
      ({| mem := upd m g {| out := None; cbs := [CRemove f]; silenced := false |}; next := S g; ready := ready s; log := log s |}, SId g)
  end.

(** Operations on futures which do not exist do nothing. *)
Definition s_step (s : heap) (o : s_op) : heap * s_out :=
  match o with
  | HNew => ({| mem := mem s; next := S (next s); ready := ready s; log := log s |}, SId (next s))
  | HShield f => if exists_in f s then shield f s else (s, SNone)
  | HFinish f x => (if exists_in f s then finish f x s else s, SNone)
  | HCallback f n => (if exists_in f s then add_callback f (CUser n) s else s, SNone)
  | HRun => (match ready s with
             | [] => s
             | h :: r => run_handle h {| mem := mem s; next := next s; ready := r; log := log s |}
             end, SNone)
  end.

Fixpoint s_run (s : heap) (os : list s_op) : heap * list s_out :=
  match os with
  | [] => (s, [])
  | o :: r => let (s1, x) := s_step s o in let (s2, xs) := s_run s1 r in (s2, x :: xs)
  end.
Definition s_after (os : list s_op) : heap := fst (s_run h_init os).
Definition s_outs (os : list s_op) : list s_out := snd (s_run h_init os).
