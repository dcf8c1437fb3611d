(** Model of the reading half of [ReadProtocolBase], /repo/scarletio/core/protocols_and_transports/protocol.py, together
    with the part of [PayloadStream] (payload_stream.py) that an [await]ed read uses.

    A read starts a generator (the payload reader) which consumes the buffered chunks and then suspends in
    [_wait_for_data]; [data_received] resumes it with the new chunk. One operation of the model is one call of the
    transport or one call of the user; everything a resumed generator does before it suspends again is one step, as in
    the source (the generators yield their chunks to [PayloadStream.add_received_chunk] synchronously).

    Simplifications: a consumer that awaits the payload stream collects [b''.join] of its chunks
    (payload_stream.py:416-454), so the stream's chunk list is represented by its concatenation [acc]; [held_back] lists are
    represented by their concatenation; pausing and resuming the transport (552-557, 540-550) is not modelled here. *)

From Coq Require Import List Arith Bool NArith.
From Verif Require Import Bytes.
Import ListNotations.

(** * The readers, on the buffered chunks

    [Fin out cs o]: the generator returned after yielding [out]; [_chunks] is [cs] and [_offset] is [o].
    [Wait out k o]: all chunks are used up; it would suspend in [_wait_for_data] in the state [k]. *)

(** Where a payload reader is suspended. *)
Inductive susp :=
  | WExactFirst (n : nat)                             (* _read_exactly_by_chunk:825 *)
  | WExactLoop (n : nat)                              (* _read_exactly_by_chunk:872 *)
  | WUntil (b : bytes) (sizes : list nat) (held : bytes)    (* _read_until_by_chunk:976 *)
  | WAll                                              (* _read_until_eof:1127 *)
  | WOnce.                                            (* _read_once:1168 *)

Inductive outcome :=
  | Fin (out : bytes) (cs : list bytes) (o : nat)
  | Wait (out : bytes) (k : susp) (o : nat).

(** protocol.py:864-890, [n] bytes still needed; [o] is [self._offset]. *)
Fixpoint exact_loop (n : nat) (cs : list bytes) (o : nat) : outcome :=
  match cs with
  | [] => Wait [] (WExactLoop n) o
  | c :: cs' =>
      if length c <? n then
        match exact_loop (n - length c) cs' o with
        | Fin out r o' => Fin (c ++ out) r o'
        | Wait out k o' => Wait (c ++ out) k o'
        end
      else if length c =? n then Fin c cs' 0
      else Fin (firstn n c) (c :: cs') n
  end.

Definition prepend (p : bytes) (x : outcome) : outcome :=
  match x with Fin out r o => Fin (p ++ out) r o | Wait out k o => Wait (p ++ out) k o end.

(** protocol.py:828-862 on the first chunk [c]; [l] is the local [offset], [o] is [self._offset]. *)
Definition exact_first (n : nat) (c : bytes) (cs : list bytes) (l o : nat) : outcome :=
  if l =? 0 then
    if n <? length c then Fin (firstn n c) (c :: cs) n
    else if length c =? n then Fin c cs o
    else prepend c (exact_loop (n - length c) cs o)
  else
    if l + n <? length c then Fin (firstn n (skipn l c)) (c :: cs) (l + n)
    else if length c =? l + n then Fin (skipn l c) cs 0
    else prepend (skipn l c) (exact_loop (l + n - length c) cs o).

(** protocol.py:817-826. *)
Definition exact_start (n : nat) (cs : list bytes) (o : nat) : outcome :=
  match cs with
  | [] => Wait [] (WExactFirst n) o
  | c :: cs' => exact_first n c cs' o o
  end.

(** [_get_end_intersection_sizes], protocol.py:17-58. [[]] stands for [None]. *)
Definition end_sizes (c : bytes) (offset : nat) (b : bytes) : list nat :=
  let start := Nat.max (length c - (length b - 1)) offset in
  map (fun s => length c - s) (filter (fun s => starts_with (skipn s c) b) (seq start (length c - start))).

(** [_finish_intersection_sizes], protocol.py:61-104: [inl leftover] when the boundary is completed, [inr continued]
    otherwise. *)
Fixpoint finish_sizes (c b : bytes) (sizes : list nat) : nat + list nat :=
  match sizes with
  | [] => inr []
  | s :: rest =>
      let leftover := length b - s in
      if length c <? leftover then
        match finish_sizes c b rest with inl i => inl i | inr l => inr (s :: l) end
      else if beqb (firstn leftover c) (skipn s b) then inl leftover
      else finish_sizes c b rest
  end.

(** [_continue_intersection_sizes], protocol.py:107-141. *)
Definition continue_sizes (c b : bytes) (sizes : list nat) : list nat :=
  map (fun s => s + length c) (filter (fun s => beqb (firstn (length c) (skipn s b)) c) sizes).

(** [_get_released_from_held_back], protocol.py:144-203: the released part and the part kept. *)
Definition release (held : bytes) (keep : nat) : bytes * bytes :=
  (firstn (length held - keep) held, skipn (length held - keep) held).

(** protocol.py:1021-1054: search in the chunk [c] from the local offset [l]; [again] is the next pass of the loop with
    the given intersection sizes and held back bytes. *)
Definition until_search (b c : bytes) (cs : list bytes) (again : list nat -> bytes -> outcome) (held : bytes) (l : nat)
  : outcome :=
  match find_from b c l with
  | Some i =>
      let e := i + length b in
      if e =? length c then Fin (firstn (i - l) (skipn l c)) cs 0
      else Fin (firstn (i - l) (skipn l c)) (c :: cs) e
  | None =>
      let c' := skipn l c in
      match end_sizes c' l b with
      | [] => prepend c' (again [] held)
      | s :: ss =>
          let p := length c' - s in
          prepend (firstn p c') (again (s :: ss) (skipn p c'))
      end
  end.

(** [_read_until_by_chunk], protocol.py:968-1054. [sizes = []] is [intersection_sizes = None]; [o] is [self._offset];
    every pass of the loop removes [chunks[0]] or returns. [held_back] is not reset when the merged sizes are [None]
    (1009-1019). *)
Fixpoint until_loop (b : bytes) (sizes : list nat) (held : bytes) (cs : list bytes) (o : nat) : outcome :=
  match cs with
  | [] => Wait [] (WUntil b sizes held) o
  | c :: cs' =>
      let again (sizes : list nat) (held : bytes) := until_loop b sizes held cs' 0 in
      match sizes with
      | [] => until_search b c cs' again held o
      | _ =>
          match finish_sizes c b sizes with
          | inl e =>
              let '(r, e') := if e =? length c then (cs', 0) else (c :: cs', e) in
              Fin (fst (release held (length b - e'))) r e'
          | inr [] => prepend held (until_search b c cs' again [] 0)
          | inr (s :: ss) =>
              let '(out, kept) := release (held ++ c) (length b) in
              prepend out (again (continue_sizes c b (s :: ss) ++ end_sizes c 0 b) kept)
          end
      end
  end.

(** [_read_until_eof], protocol.py:1114-1125. *)
Definition all_start (cs : list bytes) (o : nat) : outcome :=
  match cs with
  | [] => Wait [] WAll 0
  | c :: cs' => Wait (skipn o c ++ concat cs') WAll 0
  end.

(** [_read_once], protocol.py:1152-1162. *)
Definition once_start (cs : list bytes) (o : nat) : outcome :=
  match cs with
  | [] => Wait [] WOnce o
  | c :: cs' => Fin (skipn o c) cs' 0
  end.

(** Resuming a reader suspended in [_wait_for_data] with a received chunk: 792-794 appends it to the (empty) deque. *)
Definition resume (k : susp) (c : bytes) (o : nat) : outcome :=
  match k with
  | WExactFirst n => exact_first n c [] 0 o
  | WExactLoop n => exact_loop n [c] o
  | WUntil b sizes held =>
      (* the local offset is 0 after a wait (977) *)
      until_loop b sizes held [c] 0
  | WAll => Wait c WAll o
  | WOnce => Fin c [] o
  end.

(** * The protocol *)

Inductive request :=
  | RExact (n : nat)       (* read_exactly(n), 695-728 *)
  | RUpTo (n : nat)        (* read(n) with n >= 0, 662-692 *)
  | RAll                   (* read(-1) *)
  | ROnce                  (* read_once() *)
  | RUntil (b : bytes).    (* read_until(b), 735-757 *)

Definition start (r : request) (cs : list bytes) (o : nat) : outcome :=
  match r with
  | RExact n | RUpTo n => exact_start n cs o
  | RAll => all_start cs o
  | ROnce => once_start cs o
  | RUntil b => until_loop b [] [] cs o
  end.

(** The requests answered without a reader: 685-690, 723-728, 750-755. *)
Definition trivial (r : request) : bool :=
  match r with
  | RExact n | RUpTo n => n =? 0
  | RUntil b => length b =? 0
  | _ => false
  end.

Inductive answer :=
  | AData (d : bytes)
  | AError            (* ConnectionError or the exception of the connection *)
  | AAssertion.       (* set_payload_reader: a reader is already set *)

Record world := mk_world {
  w_chunks : list bytes;         (* _chunks *)
  w_offset : nat;                (* _offset *)
  w_eof : bool;                  (* _at_eof *)
  w_failed : bool;               (* _exception is not None *)
  w_reader : option (request * susp);    (* _payload_reader *)
  w_acc : bytes;                 (* chunks of _payload_stream, joined *)
  w_aborted : bool               (* the stream's consumer is gone: STREAM_FLAG_DONE_ABORTED *)
}.

Definition init : world := mk_world [] 0 false false None [] false.

Inductive op :=
  | OData (d : bytes)      (* data_received *)
  | OEof                   (* eof_received / connection_lost(None) *)
  | OLost                  (* connection_lost(exception) *)
  | ORead (r : request)    (* a user coroutine awaits a read *)
  | OCancelReader          (* cancel_current_reader *)
  | OAbort.                (* the task awaiting the read is cancelled, payload_stream.py:445-449, 337-359 *)

(** What a reader does with [EOFError] raised at its suspension point (918-922, 1128-1138, 1169-1170). *)
Definition eof_answer (r : request) (acc : bytes) : answer :=
  match r with
  | RExact _ | RUntil _ => AError
  | RUpTo _ | RAll | ROnce => AData acc
  end.

(** The offset after [EOFError] is raised because the reader finds [_at_eof] set (822-823, 868-870, 973-974, 1125, 1164). *)
Definition eof_offset (k : susp) (o : nat) : nat := match k with WExactLoop _ => 0 | _ => o end.

Definition answers := list (request * answer).

Definition emit (aborted : bool) (r : request) (a : answer) : answers := if aborted then [] else [(r, a)].

(** A reader ran on the buffered chunks: it is finished, or it suspends, or it sees the end of the stream
    (set_payload_reader, 607-633; data_received, 479-520). *)
Definition settle (w : world) (r : request) (acc : bytes) (x : outcome) : world * answers :=
  match x with
  | Fin out cs o =>
      (mk_world cs o (w_eof w) (w_failed w) None [] false, emit (w_aborted w) r (AData (acc ++ out)))
  | Wait out k o =>
      if w_eof w then
        (mk_world [] (eof_offset k o) true (w_failed w) None [] false, emit (w_aborted w) r (eof_answer r (acc ++ out)))
      else
        (mk_world [] o false (w_failed w) (Some (r, k)) (acc ++ out) (w_aborted w), [])
  end.

Definition step (w : world) (x : op) : world * answers :=
  match x with
  | OData d =>
      (* data_received, 472-523 *)
      if length d =? 0 then (w, [])
      else match w_reader w with
      | None => (mk_world (w_chunks w ++ [d]) (w_offset w) (w_eof w) (w_failed w) None (w_acc w) (w_aborted w), [])
      | Some (r, k) => settle w r (w_acc w) (resume k d (w_offset w))
      end
  | OEof =>
      (* eof_received, 436-469 *)
      match w_reader w with
      | None => (mk_world (w_chunks w) (w_offset w) true (w_failed w) None (w_acc w) (w_aborted w), [])
      | Some (r, k) =>
          (mk_world (w_chunks w) (w_offset w) true (w_failed w) None [] false,
           emit (w_aborted w) r (eof_answer r (w_acc w)))
      end
  | OLost =>
      (* set_exception, 420-432 *)
      match w_reader w with
      | None => (mk_world (w_chunks w) (w_offset w) (w_eof w) true None (w_acc w) (w_aborted w), [])
      | Some (r, k) =>
          (mk_world (w_chunks w) (w_offset w) (w_eof w) true None [] false, emit (w_aborted w) r AError)
      end
  | ORead r =>
      if trivial r then (w, [(r, if w_failed w then AError else AData [])])
      else match w_reader w with
      | Some _ => (w, [(r, AAssertion)])
      | None =>
          if w_failed w then (w, [(r, AError)])
          else settle (mk_world (w_chunks w) (w_offset w) (w_eof w) false None [] false) r []
                 (start r (w_chunks w) (w_offset w))
      end
  | OCancelReader =>
      (* cancel_current_reader, 559-577 *)
      match w_reader w with
      | None => (w, [])
      | Some (r, k) =>
          (mk_world (w_chunks w) (w_offset w) (w_eof w) (w_failed w) None [] false, emit (w_aborted w) r AError)
      end
  | OAbort =>
      match w_reader w with
      | None => (w, [])
      | Some (r, k) =>
          (mk_world (w_chunks w) (w_offset w) (w_eof w) (w_failed w) (Some (r, k)) (w_acc w) true, [])
      end
  end.

Fixpoint exec (w : world) (ops : list op) : world * answers :=
  match ops with
  | [] => (w, [])
  | x :: ops' => let '(w1, e1) := step w x in let '(w2, e2) := exec w1 ops' in (w2, e1 ++ e2)
  end.
