(** What is expected of readers, writers and socket operations, told by the sequence of what could be seen so far. *)

From Coq Require Import List NArith Arith Bool.
From Verif Require Import IoModel.
Import ListNotations.

Definition side_eqb (a b : side) : bool :=
  match a, b with Rd, Rd => true | Wr, Wr => true | _, _ => false end.

(** The call concerns this side of this descriptor. *)
Definition same (fd : nat) (sd : side) (fd' : nat) (sd' : side) : bool := (fd =? fd') && side_eqb sd sd'.

Definition note (fd : nat) (sd : side) (current : option nat) (e : event) : option nat :=
  match e with
  | EvAdd fd' sd' h => if same fd sd fd' sd' then Some h else current
  | EvRemove _ fd' sd' _ => if same fd sd fd' sd' then None else current
  | _ => current
  end.

(** Who is registered for this side of this descriptor: the last one added which was not removed since. Calls which
    concern other descriptors or the other side do not matter. *)
Definition registered (tr : list event) (fd : nat) (sd : side) : option nat := fold_left (note fd sd) tr None.

(** The callback is registered and was not cancelled. *)
Definition live (tr : list event) (h : nat) : Prop :=
  (exists fd sd, registered tr fd sd = Some h) /\ ~ In (EvCancelled h) tr.

Definition ended (tr : list event) (o : nat) : Prop := exists r, In (EvEnd o r) tr.

(** Who may remove what: the event loop only what was cancelled, an operation only its own registration. *)
Definition may_remove (tr : list event) (w : who) (fd : nat) (sd : side) : Prop :=
  match w with
  | ByUser => True
  | ByLoop => exists h, registered tr fd sd = Some h /\ In (EvCancelled h) tr
  | ByOp o => exists h, registered tr fd sd = Some h /\ In (EvWait o h) tr
  end.

(** What may come after [tr]. *)
Definition allowed (tr : list event) (e : event) : Prop :=
  match e with
  | EvAdd _ _ h => forall fd sd, ~ In (EvAdd fd sd h) tr
  | EvRemove w fd sd b => (b = true <-> registered tr fd sd <> None) /\ may_remove tr w fd sd
  | EvReady h => live tr h
  | EvRan h => live tr h
  | EvSkipped h => ~ live tr h
  | EvRead o _ => ~ ended tr o
  | EvWrote o _ => ~ ended tr o
  | EvEnd o r => ~ ended tr o /\ (r = Cancelled \/ forall h, In (EvWait o h) tr -> live tr h)
  | _ => True
  end.

(** The handles which were put into the queue, and which were taken out, in order. *)
Definition queued (tr : list event) : list nat :=
  flat_map (fun e => match e with EvReady h => [h] | _ => [] end) tr.

Definition served (tr : list event) : list nat :=
  flat_map (fun e => match e with EvRan h => [h] | EvSkipped h => [h] | _ => [] end) tr.

(** What a report of the selector should lead to: the live callbacks of the reported sides, reader first. *)
Definition cancelled_in (tr : list event) (h : nat) : bool :=
  existsb (fun e => match e with EvCancelled h' => h =? h' | _ => false end) tr.

Definition reported (tr : list event) (r : nat * (bool * bool)) : list nat :=
  let one (mask : bool) (sd : side) :=
    match registered tr (fst r) sd with
    | Some h => if mask && negb (cancelled_in tr h) then [h] else []
    | None => []
    end in
  one (fst (snd r)) Rd ++ one (snd (snd r)) Wr.

(** The bytes an operation gave to its socket. *)
Definition wrote (tr : list event) (o : nat) : bytes :=
  flat_map (fun e => match e with EvWrote o' d => if o =? o' then d else [] | _ => [] end) tr.

(** The view has items of one byte, like those of [bytes] and [bytearray]. *)
Definition octets (data : list bytes) : Prop := Forall (fun item => length item = 1) data.

(** The connections which were accepted, and which got a task. *)
Definition accepted (tr : list accept_event) : list nat :=
  flat_map (fun e => match e with AeAccept (AConnection c) => [c] | _ => [] end) tr.

Definition tasks (tr : list accept_event) : list nat :=
  flat_map (fun e => match e with AeTask c => [c] | _ => [] end) tr.

Definition accepts (tr : list accept_event) : nat :=
  length (filter (fun e => match e with AeAccept _ => true | _ => false end) tr).

Definition restarts (tr : list accept_event) : nat :=
  length (filter (fun e => match e with AeRestart => true | _ => false end) tr).
