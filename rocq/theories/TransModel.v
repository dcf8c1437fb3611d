(** Model of the write half of a socket transport:
    /repo/scarletio/core/protocols_and_transports/transport_layer.py:120-494 (SocketTransportLayerBase), :497-812 (SocketTransportLayer).

    The socket is the other party: each [send] is given an answer. [sent] is what the socket took, [shut] that it was shut down for writing,
    [calls] what was called on the protocol (latest first), [soon] the scheduled [_call_connection_lost] calls. Data is a bytes-like of [width]
    bytes per item ([bytes] and [bytearray] have 1; a [memoryview] may have more), its content does not change after it is passed.
    Not here: the read half beyond what closes the transport, the reading pause, the server's count, exceptions raised by the protocol. *)

From Coq Require Import List Arith Bool NArith.
From Verif Require Import Bytes.
Import ListNotations.

Record chunk := { width : nat; content : bytes }.
(** len(data), memoryview(data)[n:] *)
Definition len (c : chunk) : nat := Nat.div (length (content c)) (width c).
Definition drop (n : nat) (c : chunk) : chunk := {| width := width c; content := skipn (n * width c) (content c) |}.

(** What a send gives: the number of bytes taken (never more than offered), BlockingIOError / InterruptedError, other exception. *)
Inductive answer := Took (n : nat) | Again | Failed.
Inductive call := Pause_writing | Resume_writing | Connection_lost (error : bool).

Record state := {
  buffer : list chunk;
  at_eof : bool;
  closing : bool;
  lost : bool;          (* _connection_lost *)
  socket : bool;        (* _socket is not None *)
  protocol : bool;      (* _protocol is not None *)
  paused : bool;        (* _protocol_paused *)
  high : nat; low : nat;
  writer : bool;        (* add_writer / remove_writer *)
  sent : bytes;
  shut : bool;
  calls : list call;
  soon : list bool
}.

(** 65536 and 16384, :416-417 *)
Definition default_high : nat := 2 ^ 16.
Definition default_low : nat := 2 ^ 14.

Definition initial : state :=
  {| buffer := []; at_eof := false; closing := false; lost := false; socket := true; protocol := true; paused := false;
     high := default_high; low := default_low; writer := false; sent := []; shut := false; calls := []; soon := [] |}.

(** get_write_buffer_size, :651-656 *)
Definition size (b : list chunk) : nat := fold_left (fun n c => n + len c) b 0.

(** _maybe_pause_protocol, :368-394 *)
Definition maybe_pause (s : state) : state :=
  if Nat.leb (size (buffer s)) (high s) then s
  else if paused s then s
  else {| buffer := buffer s; at_eof := at_eof s; closing := closing s; lost := lost s; socket := socket s; protocol := protocol s; paused := true;
          high := high s; low := low s; writer := writer s; sent := sent s; shut := shut s;
          calls := if protocol s then Pause_writing :: calls s else calls s; soon := soon s |}.

(** _maybe_resume_protocol, :473-494 *)
Definition maybe_resume (s : state) : state :=
  if negb (paused s) || Nat.ltb (low s) (size (buffer s)) then s
  else {| buffer := buffer s; at_eof := at_eof s; closing := closing s; lost := lost s; socket := socket s; protocol := protocol s; paused := false;
          high := high s; low := low s; writer := writer s; sent := sent s; shut := shut s;
          calls := if protocol s then Resume_writing :: calls s else calls s; soon := soon s |}.

(** _call_connection_lost, :338-360 *)
Definition call_lost (s : state) (error : bool) : state :=
  {| buffer := buffer s; at_eof := at_eof s; closing := closing s; lost := lost s; socket := false; protocol := false; paused := paused s;
     high := high s; low := low s; writer := writer s; sent := sent s; shut := shut s;
     calls := if protocol s then Connection_lost error :: calls s else calls s; soon := soon s |}.

(** _force_close, :434-461 *)
Definition force_close (s : state) (error : bool) : state :=
  if lost s then s
  else {| buffer := []; at_eof := at_eof s; closing := true; lost := true; socket := socket s; protocol := protocol s; paused := paused s;
          high := high s; low := low s; writer := match buffer s with [] => writer s | _ => false end; sent := sent s; shut := shut s;
          calls := calls s; soon := soon s ++ [error] |}.

(** close, :315-324 *)
Definition close (s : state) : state :=
  if closing s then s
  else
    let empty := match buffer s with [] => true | _ => false end in
    {| buffer := buffer s; at_eof := at_eof s; closing := true; lost := lost s || empty; socket := socket s; protocol := protocol s;
       paused := paused s; high := high s; low := low s; writer := writer s && negb empty; sent := sent s; shut := shut s; calls := calls s;
       soon := if empty then soon s ++ [false] else soon s |}.

Definition with_buffer (s : state) (b : list chunk) (w : bool) (t : bytes) : state :=
  {| buffer := b; at_eof := at_eof s; closing := closing s; lost := lost s; socket := socket s; protocol := protocol s; paused := paused s;
     high := high s; low := low s; writer := w; sent := t; shut := shut s; calls := calls s; soon := soon s |}.

(** socket.send / sendmsg of some bytes; a socket which is None or failed raises *)
Definition send (s : state) (offered : bytes) (a : answer) : option (option nat) :=
  if negb (socket s) then None
  else match a with Took n => Some (Some (Nat.min n (length offered))) | Again => Some None | Failed => None end.

(** write, :590-630; [false]: it raises *)
Definition write (s : state) (data : chunk) (a : answer) : state * bool :=
  if at_eof s then (s, false)
  else if Nat.eqb (len data) 0 then (s, true)
  else if lost s then (s, true)
  else match buffer s with
       | _ :: _ => (maybe_pause (with_buffer s (buffer s ++ [data]) (writer s) (sent s)), true)
       | [] =>
           match send s (content data) a with
           | None => (force_close s true, true)
           | Some None => (maybe_pause (with_buffer s [data] true (sent s)), true)
           | Some (Some n) =>
               let t := sent s ++ firstn n (content data) in
               if Nat.leb (len data) n then (with_buffer s [] (writer s) t, true)
               else (maybe_pause (with_buffer s [drop n data] true t), true)
           end
       end.

Definition shutdown (s : state) : state :=
  {| buffer := buffer s; at_eof := at_eof s; closing := closing s; lost := lost s; socket := socket s; protocol := protocol s; paused := paused s;
     high := high s; low := low s; writer := writer s; sent := sent s; shut := true; calls := calls s; soon := soon s |}.

(** write_eof, :635-642; shutdown of a socket which is None raises *)
Definition write_eof (s : state) : state * bool :=
  if at_eof s then (s, true)
  else
    let s := {| buffer := buffer s; at_eof := true; closing := closing s; lost := lost s; socket := socket s; protocol := protocol s;
                paused := paused s; high := high s; low := low s; writer := writer s; sent := sent s; shut := shut s; calls := calls s; soon := soon s |} in
    match buffer s with
    | [] => if socket s then (shutdown s, true) else (s, false)
    | _ => (s, true)
    end.

(** The loop which removes the sent bytes from the buffer, :785-801 *)
Fixpoint advance (b : list chunk) (n : nat) : list chunk :=
  match b with
  | [] => []
  | data :: b' => if Nat.ltb n (len data) then drop n data :: b' else if Nat.eqb (len data) n then b' else advance b' (n - len data)
  end.

Definition bytes_of (b : list chunk) : bytes := flat_map content b.

(** _write_ready, :725-761 ([limit] = 0: one chunk is sent at once) and :764-812 (at most [limit] chunks) *)
Definition write_ready (limit : nat) (s : state) (a : answer) : state :=
  if lost s then s
  else
    let offered := bytes_of (firstn (match limit with 0 => 1 | _ => limit end) (buffer s)) in
    match send s offered a with
    | None => force_close (with_buffer s [] false (sent s)) true
    | Some None => s
    | Some (Some n) =>
        let t := sent s ++ firstn n offered in
        let b := if Nat.eqb n 0 then buffer s
                 else match limit with
                      | 0 => match buffer s with
                             | [] => []
                             | data :: b' => if Nat.leb (len data) n then b' else drop n data :: b'
                             end
                      | _ => advance (buffer s) n
                      end in
        let s := maybe_resume (with_buffer s b (writer s) t) in
        match buffer s with
        | _ :: _ => s
        | [] =>
            let s := with_buffer s [] false (sent s) in
            if closing s then call_lost s false else if at_eof s then shutdown s else s
        end
    end.

(** _set_write_buffer_limits, :397-431 (negative values raise, as here [high < low]); set_write_buffer_limits, :333-335 *)
Definition limits (h l : option nat) : option (nat * nat) :=
  let '(h, l) := match h, l with
                 | None, None => (default_high, default_low)
                 | None, Some l => (4 * l, l)
                 | Some h, None => (h, Nat.div h 4)
                 | Some h, Some l => (h, l)
                 end in
  if Nat.ltb h l then None else Some (h, l).
Definition set_limits (s : state) (h l : option nat) : state * bool :=
  match limits h l with
  | None => (s, false)
  | Some (h, l) =>
      (maybe_pause {| buffer := buffer s; at_eof := at_eof s; closing := closing s; lost := lost s; socket := socket s; protocol := protocol s;
                      paused := paused s; high := h; low := l; writer := writer s; sent := sent s; shut := shut s; calls := calls s; soon := soon s |}, true)
  end.

Inductive op :=
| Write (data : chunk) (a : answer) | Write_eof | Close | Abort (error : bool) | Writable (a : answer) | Run_soon
| Read_eof (keep : bool) | Read_failed | Set_limits (h l : option nat).

Definition step (limit : nat) (s : state) (o : op) : state * bool :=
  match o with
  | Write data a => write s data a
  | Write_eof => write_eof s
  | Close => (close s, true)
  | Abort error => (force_close s error, true)
  | Writable a => (if writer s then write_ready limit s a else s, true)   (* the loop calls it only while it is registered *)
  | Run_soon =>
      match soon s with
      | [] => (s, true)
      | e :: l =>
          (call_lost {| buffer := buffer s; at_eof := at_eof s; closing := closing s; lost := lost s; socket := socket s; protocol := protocol s;
                        paused := paused s; high := high s; low := low s; writer := writer s; sent := sent s; shut := shut s; calls := calls s;
                        soon := l |} e, true)
      end
  | Read_eof keep => (* _read_ready, :700-722 *) if lost s then (s, true) else if keep then (s, true) else (close s, true)
  | Read_failed => if lost s then (s, true) else (force_close s true, true)
  | Set_limits h l => set_limits s h l
  end.

Fixpoint run (limit : nat) (s : state) (os : list op) : state * list bool :=
  match os with
  | [] => (s, [])
  | o :: os' => let '(s1, r) := step limit s o in let '(s2, rs) := run limit s1 os' in (s2, r :: rs)
  end.
