(** Model of the readers and writers of [EventThread] and of the socket operations built on them,
    /repo/scarletio/core/event_loop/event_loop.py: [add_reader], [remove_reader], [add_writer], [remove_writer]
    (1128-1280), the part of [runner] which turns what the selector reports into callbacks (682-710), [socket_receive],
    [socket_send_all] and their callbacks (2315-2373, 2438-2554), and [_accept_connection] (1006-1057).

    The selector is a map from file descriptors to keys; a key has the mask of events and, separately, the pair of
    handles the loop stores in [key.data]. What the selector reports is an input of the operation [OPoll] and what a
    socket answers is an input of the operations which touch it: both are arbitrary. What the callback of a user does is
    not fixed: after [ORun] any operations may follow. [socket_receive_into] and [socket_accept] have the same shape as
    [socket_receive] (2170-2234, 2376-2435): what is read is then a number of bytes or a connection.

    The data given to [socket_send_all] is a [memoryview]: a list of items which all have the same number of bytes.
    [len] and slicing count items, [socket.send] counts bytes.

    Not modelled: a loop which is not running, closing of sockets and the reuse of their descriptors, the tasks which
    wait for the futures, connecting (2237-2312). *)

From Coq Require Import List NArith Arith Bool.
Import ListNotations.

Definition bytes : Type := list N.

Inductive side := Rd | Wr.

(** What a handle calls: a callback of the user, [_socket_receive] (2348) or [_socket_send_all] (2481). *)
Inductive cb := CUser (n : nat) | CRecv (o : nat) | CSend (o : nat).

(** handles.py:29-44, with the descriptor and the side it was created for. *)
Record handle := mk_handle { h_fd : nat; h_side : side; h_cb : cb; h_cancelled : bool }.

(** [selectors.SelectorKey]: [events] (two bits) and [data] (a pair). *)
Record key := mk_key { k_read : bool; k_write : bool; k_reader : option nat; k_writer : option nat }.

(** State of the future of an operation. *)
Inductive outcome := Pending | Result (data : bytes) | Sent | Failed | Cancelled.

(** An operation: the state of its future, its handle (none if it never had to wait) and, for sending, the view and
    [start_reference]. *)
Record op := mk_op { o_fd : nat; o_handle : option nat; o_state : outcome; o_data : list bytes; o_start : nat }.

(** What can be in [_ready]: the handle of a reader or writer, the callback of the future of an operation. *)
Inductive item := IHandle (h : nat) | IDone (o : nat).

Record io := mk_io {
  i_sel : nat -> option key;      (* self.selector *)
  i_handle : nat -> handle;       (* the handles which were created *)
  i_next : nat;                   (* number of the next handle *)
  i_op : nat -> op;               (* the operations *)
  i_nop : nat;                    (* number of the next operation *)
  i_ready : list item             (* self._ready *)
}.

Definition upd {A : Type} (f : nat -> A) (n : nat) (v : A) : nat -> A := fun m => if m =? n then v else f m.

Definition io_init : io :=
  mk_io (fun _ => None) (fun _ => mk_handle 0 Rd (CUser 0) true) 0 (fun _ => mk_op 0 None Cancelled [] 0) 0 [].

(** What can be seen from outside: calls which register and unregister, callbacks which run, what is read from and
    written to sockets, what operations end with. *)
Inductive who := ByUser | ByLoop | ByOp (o : nat).

Inductive event :=
  | EvAdd (fd : nat) (s : side) (h : nat)           (* add_reader / add_writer was called and returned [h] *)
  | EvRemove (w : who) (fd : nat) (s : side) (result : bool)  (* remove_reader / remove_writer was called *)
  | EvCancelled (h : nat)                           (* the user cancelled this handle *)
  | EvReady (h : nat)                               (* the handle was put into _ready *)
  | EvRan (h : nat)                                 (* the callback of the handle was called *)
  | EvSkipped (h : nat)                             (* the handle was taken from _ready but is cancelled *)
  | EvSend (o : nat) (data : list bytes)            (* socket_send_all was called with this view *)
  | EvWait (o h : nat)                              (* the operation waits with this handle *)
  | EvRead (o : nat) (data : bytes)                 (* socket.recv, called for a waiting operation, returned this *)
  | EvWrote (o : nat) (data : bytes)                (* socket.send, called for an operation, took these bytes *)
  | EvEnd (o : nat) (r : outcome)                   (* the operation ended *)
  | EvReturned (r : outcome).                       (* socket_receive / socket_send_all ended without waiting *)

(** [Handle.cancel], handles.py:129-134. *)
Definition cancel_handle (s : io) (h : nat) : io :=
  let x := i_handle s h in
  mk_io (i_sel s) (upd (i_handle s) h (mk_handle (h_fd x) (h_side x) (h_cb x) true)) (i_next s) (i_op s) (i_nop s)
        (i_ready s).

Definition cancel_opt (s : io) (h : option nat) : io :=
  match h with None => s | Some h => cancel_handle s h end.

Definition set_sel (s : io) (fd : nat) (k : option key) : io :=
  mk_io (upd (i_sel s) fd k) (i_handle s) (i_next s) (i_op s) (i_nop s) (i_ready s).

(** [Handle(callback, parameters)], 1152 and 1228. *)
Definition new_handle (s : io) (fd : nat) (sd : side) (c : cb) : io :=
  mk_io (i_sel s) (upd (i_handle s) (i_next s) (mk_handle fd sd c false)) (S (i_next s)) (i_op s) (i_nop s) (i_ready s).

(** [add_reader], 1152-1165; the handle is the number [i_next s]. *)
Definition add_reader (s : io) (fd : nat) (c : cb) : io :=
  let h := i_next s in
  let s := new_handle s fd Rd c in
  match i_sel s fd with
  | None => set_sel s fd (Some (mk_key true false (Some h) None))
  | Some k => cancel_opt (set_sel s fd (Some (mk_key true (k_write k) (Some h) (k_writer k)))) (k_reader k)
  end.

(** [add_writer], 1228-1242. *)
Definition add_writer (s : io) (fd : nat) (c : cb) : io :=
  let h := i_next s in
  let s := new_handle s fd Wr c in
  match i_sel s fd with
  | None => set_sel s fd (Some (mk_key false true None (Some h)))
  | Some k => cancel_opt (set_sel s fd (Some (mk_key (k_read k) true (k_reader k) (Some h)))) (k_writer k)
  end.

(** [remove_reader], 1186-1203. *)
Definition remove_reader (s : io) (fd : nat) : io * bool :=
  match i_sel s fd with
  | None => (s, false)
  | Some k =>
      let s := if k_write k then set_sel s fd (Some (mk_key false (k_write k) None (k_writer k))) else set_sel s fd None in
      match k_reader k with
      | Some h => (cancel_handle s h, true)
      | None => (s, false)
      end
  end.

(** [remove_writer], 1263-1280. *)
Definition remove_writer (s : io) (fd : nat) : io * bool :=
  match i_sel s fd with
  | None => (s, false)
  | Some k =>
      let s := if k_read k then set_sel s fd (Some (mk_key (k_read k) false (k_reader k) None)) else set_sel s fd None in
      match k_writer k with
      | Some h => (cancel_handle s h, true)
      | None => (s, false)
      end
  end.

(** [self._ready.append]. *)
Definition push (s : io) (i : item) : io :=
  mk_io (i_sel s) (i_handle s) (i_next s) (i_op s) (i_nop s) (i_ready s ++ [i]).

Definition pop (s : io) (rest : list item) : io :=
  mk_io (i_sel s) (i_handle s) (i_next s) (i_op s) (i_nop s) rest.

(** 685-697 for one element of the list of events; the key is the one at the time of the [select], which nothing
    changes before the loop over the events gets to it, as a descriptor is reported once. *)
Definition poll_one (s : io) (fd : nat) (mr mw : bool) : io * list event :=
  match i_sel s fd with
  | None => (s, [])
  | Some k =>
      let '(s, ev1) :=
        match k_reader k with
        | Some h =>
            if mr then
              if h_cancelled (i_handle s h)
              then let '(s, b) := remove_reader s fd in (s, [EvRemove ByLoop fd Rd b])
              else (push s (IHandle h), [EvReady h])
            else (s, [])
        | None => (s, [])
        end in
      let '(s, ev2) :=
        match k_writer k with
        | Some h =>
            if mw then
              if h_cancelled (i_handle s h)
              then let '(s, b) := remove_writer s fd in (s, [EvRemove ByLoop fd Wr b])
              else (push s (IHandle h), [EvReady h])
            else (s, [])
        | None => (s, [])
        end in
      (s, ev1 ++ ev2)
  end.

Fixpoint poll (s : io) (reports : list (nat * (bool * bool))) : io * list event :=
  match reports with
  | [] => (s, [])
  | (fd, (mr, mw)) :: rest =>
      let '(s, ev1) := poll_one s fd mr mw in
      let '(s, ev2) := poll s rest in
      (s, ev1 ++ ev2)
  end.

(** Sets the state of the future of an operation and schedules its callback ([Future.set_result], [set_exception],
    [cancel]: traps/future.py:116-136, 404-410, [_schedule_callbacks]: 483-491). *)
Definition finish (s : io) (o : nat) (r : outcome) : io :=
  let x := i_op s o in
  mk_io (i_sel s) (i_handle s) (i_next s) (upd (i_op s) o (mk_op (o_fd x) (o_handle x) r (o_data x) (o_start x)))
        (i_nop s) (i_ready s ++ [IDone o]).

Definition is_done (r : outcome) : bool := match r with Pending => false | _ => true end.

(** What [socket.recv] does: data, [BlockingIOError] / [InterruptedError], any other exception. *)
Inductive recv_answer := RData (data : bytes) | RBlock | RError.

(** What [socket.send] does: takes at most so many bytes of what it is given. *)
Inductive send_answer := STake (n : nat) | SBlock | SError.

(** [_socket_receive], 2361-2373. *)
Definition on_readable (s : io) (o : nat) (a : recv_answer) : io * list event :=
  let x := i_op s o in
  if is_done (o_state x) then (s, [])
  else
    match a with
    | RBlock => (s, [])
    | RError =>
        let '(s, b) := remove_reader (finish s o Failed) (o_fd x) in (s, [EvEnd o Failed; EvRemove (ByOp o) (o_fd x) Rd b])
    | RData d =>
        let '(s, b) := remove_reader (finish s o (Result d)) (o_fd x) in
        (s, [EvRead o d; EvEnd o (Result d); EvRemove (ByOp o) (o_fd x) Rd b])
    end.

(** What [socket.send] takes of a view. *)
Definition taken (n : nat) (view : list bytes) : bytes := firstn n (concat view).

(** [_socket_send_all], 2496-2515. *)
Definition on_writable (s : io) (o : nat) (a : send_answer) : io * list event :=
  let x := i_op s o in
  if is_done (o_state x) then (s, [])
  else
    match a with
    | SBlock => (s, [])
    | SError =>
        let '(s, b) := remove_writer (finish s o Failed) (o_fd x) in (s, [EvEnd o Failed; EvRemove (ByOp o) (o_fd x) Wr b])
    | STake n =>
        let w := taken n (skipn (o_start x) (o_data x)) in
        let start := o_start x + length w in
        if negb (start =? length (o_data x))
        then
          (mk_io (i_sel s) (i_handle s) (i_next s)
                 (upd (i_op s) o (mk_op (o_fd x) (o_handle x) (o_state x) (o_data x) start)) (i_nop s) (i_ready s),
           [EvWrote o w])
        else
          let '(s, b) := remove_writer (finish s o Sent) (o_fd x) in
          (s, [EvWrote o w; EvEnd o Sent; EvRemove (ByOp o) (o_fd x) Wr b])
    end.

(** [_socket_read_done_callback] and [_socket_write_done_callback], 2518-2554. *)
Definition on_done (s : io) (o : nat) : io * list event :=
  let x := i_op s o in
  match o_handle x with
  | None => (s, [])
  | Some n =>
  let h := i_handle s n in
  if h_cancelled h then (s, [])
  else
    match h_side h with
    | Rd => let '(s, b) := remove_reader s (o_fd x) in (s, [EvRemove (ByOp o) (o_fd x) Rd b])
    | Wr => let '(s, b) := remove_writer s (o_fd x) in (s, [EvRemove (ByOp o) (o_fd x) Wr b])
    end
  end.

(** One turn of [while ready], 707-710. *)
Definition run_one (s : io) (ra : recv_answer) (sa : send_answer) : io * list event :=
  match i_ready s with
  | [] => (s, [])
  | IDone o :: rest => on_done (pop s rest) o
  | IHandle h :: rest =>
      let s := pop s rest in
      let x := i_handle s h in
      if h_cancelled x then (s, [EvSkipped h])
      else
        match h_cb x with
        | CUser _ => (s, [EvRan h])
        | CRecv o => let '(s, ev) := on_readable s o ra in (s, EvRan h :: ev)
        | CSend o => let '(s, ev) := on_writable s o sa in (s, EvRan h :: ev)
        end
  end.

Definition new_op (s : io) (x : op) : io :=
  mk_io (i_sel s) (i_handle s) (i_next s) (upd (i_op s) (i_nop s) x) (S (i_nop s)) (i_ready s).

(** [socket_receive], 2333-2345. *)
Definition receive (s : io) (fd : nat) (a : recv_answer) : io * list event :=
  match a with
  | RData d => (s, [EvReturned (Result d)])
  | RError => (s, [EvReturned Failed])
  | RBlock =>
      let o := i_nop s in
      let h := i_next s in
      (new_op (add_reader s fd (CRecv o)) (mk_op fd (Some h) Pending [] 0), [EvAdd fd Rd h; EvWait o h])
  end.

(** [socket_send_all], 2457-2478. *)
Definition send_all (s : io) (fd : nat) (data : list bytes) (a : send_answer) : io * list event :=
  match data with
  | [] => (s, [EvReturned Sent])
  | _ =>
      let o := i_nop s in
      let h := i_next s in
      match a with
      | SError => (s, [EvReturned Failed])
      | SBlock => (new_op (add_writer s fd (CSend o)) (mk_op fd (Some h) Pending data 0),
                   [EvSend o data; EvAdd fd Wr h; EvWait o h])
      | STake n =>
          let w := taken n data in
          if length w =? length data
          then (new_op s (mk_op fd None Sent data (length w)), [EvSend o data; EvWrote o w; EvEnd o Sent])
          else (new_op (add_writer s fd (CSend o)) (mk_op fd (Some h) Pending data (length w)),
                [EvSend o data; EvWrote o w; EvAdd fd Wr h; EvWait o h])
      end
  end.

(** [Future.cancel] of the future of an operation. *)
Definition cancel_op (s : io) (o : nat) : io * list event :=
  if is_done (o_state (i_op s o)) then (s, []) else (finish s o Cancelled, [EvEnd o Cancelled]).

Inductive act :=
  | OAddReader (fd n : nat)
  | OAddWriter (fd n : nat)
  | ORemoveReader (fd : nat)
  | ORemoveWriter (fd : nat)
  | OCancelHandle (h : nat)     (* .cancel() of a handle which add_reader / add_writer returned to the user *)
  | OPoll (reports : list (nat * (bool * bool)))
  | ORun (ra : recv_answer) (sa : send_answer)
  | OReceive (fd : nat) (a : recv_answer)
  | OSend (fd : nat) (data : list bytes) (a : send_answer)
  | OCancel (o : nat).

Definition is_user (c : cb) : bool := match c with CUser _ => true | _ => false end.

Definition step (s : io) (a : act) : io * list event :=
  match a with
  | OAddReader fd n => (add_reader s fd (CUser n), [EvAdd fd Rd (i_next s)])
  | OAddWriter fd n => (add_writer s fd (CUser n), [EvAdd fd Wr (i_next s)])
  | ORemoveReader fd => let '(s, b) := remove_reader s fd in (s, [EvRemove ByUser fd Rd b])
  | ORemoveWriter fd => let '(s, b) := remove_writer s fd in (s, [EvRemove ByUser fd Wr b])
  | OCancelHandle h => if (h <? i_next s) && is_user (h_cb (i_handle s h)) then (cancel_handle s h, [EvCancelled h]) else (s, [])
  | OPoll reports => poll s reports
  | ORun ra sa => run_one s ra sa
  | OReceive fd a => receive s fd a
  | OSend fd data a => send_all s fd data a
  | OCancel o => if o <? i_nop s then cancel_op s o else (s, [])
  end.

Fixpoint run (s : io) (l : list act) : io * list event :=
  match l with
  | [] => (s, [])
  | a :: l => let '(s, ev1) := step s a in let '(s, ev2) := run s l in (s, ev1 ++ ev2)
  end.

(** What [socket.accept] does (1030-1039): a connection; the buffer is empty; there are no resources ([EMFILE],
    [ENFILE], [ENOBUFS], [ENOMEM]); any other exception. *)
Inductive accept_answer := AConnection (c : nat) | AEmpty | AExhausted | AError.

(** What [_accept_connection] does to the outside. *)
Inductive accept_event :=
  | AeAccept (a : accept_answer)   (* socket.accept() was called *)
  | AeTask (c : nat)               (* a task was created which serves the connection *)
  | AeStop                         (* the reader was removed *)
  | AeRestart                      (* _start_serving is scheduled to be called in a second *)
  | AeRaise.                       (* the exception gets to the event loop *)

(** [_accept_connection], 1028-1057; [answers] says what the calls of [socket.accept] do, one after the other (when the
    list is over, the buffer is empty). *)
Fixpoint accept_loop (backlog : nat) (answers : list accept_answer) : list accept_event :=
  match backlog with
  | 0 => []
  | S n =>
      let a := match answers with [] => AEmpty | a :: _ => a end in
      AeAccept a ::
      match a with
      | AEmpty => []
      | AError => [AeRaise]
      | AExhausted => AeStop :: AeRestart :: accept_loop n (tl answers)
      | AConnection c => AeTask c :: accept_loop n (tl answers)
      end
  end.
