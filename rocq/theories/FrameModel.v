(** Model of web socket frames: /repo/scarletio/web_common/web_socket_frame.py, [read_web_socket_frame] and
    [write_web_socket_frame] of /repo/scarletio/web_common/http_protocol.py (on top of the readers of ReadModel.v) and the
    message level of /repo/scarletio/web_socket/web_socket_common_protocol.py without extensions.

    As in ChunkModel.v the reader is given all segments that are ever received ([C24_exact_resume]). Decoding text messages
    as utf-8 is left out: a text message is its bytes. *)

From Coq Require Import List Arith Bool NArith.
From Verif Require Import Bytes ReadModel.
Import ListNotations.

(** * Frames *)

(** web_socket_frame.py:45-56 *)
Record frame := mk_frame { f_head : N; f_data : bytes }.

(** [WebSocketFrame.__new__], web_socket_frame.py:94-97: [(final << 7) | operation_code]. *)
Definition new_frame (final : bool) (op : N) (data : bytes) : frame :=
  mk_frame (N.lor (N.shiftl (N.b2n final) 7) op) data.

(** web_socket_frame.py:132-141, 198-223 *)
Definition f_final (f : frame) : bool := negb (N.eqb (N.land (f_head f) 128) 0).
Definition f_op (f : frame) : N := N.land (f_head f) 15.

(** web_socket_frame.py:18-19 *)
Definition is_data (op : N) : bool := existsb (N.eqb op) [0; 1; 2]%N.
Definition is_control (op : N) : bool := existsb (N.eqb op) [8; 9; 10]%N.

(** [check], web_socket_frame.py:226-252; [true] when it does not raise. *)
Definition check (f : frame) : bool :=
  if negb (N.eqb (N.land (f_head f) 112) 0) then false
  else if is_data (f_op f) then true
  else if is_control (f_op f) then
    if 125 <? length (f_data f) then false
    else if N.eqb (N.land (f_head f) 128) 0 then false
    else true
  else false.

(** One turn of the loop of [apply_web_socket_mask], web_socket_frame.py:39-40: the bytes at [index], [index + 4], ... are
    translated by the xor table of the mask byte; [i] is the position of the head of the list. *)
Fixpoint mask_slice (k : N) (index i : nat) (data : bytes) : bytes :=
  match data with
  | [] => []
  | x :: l => (if i mod 4 =? index then N.lxor x k else x) :: mask_slice k index (S i) l
  end.

(** web_socket_frame.py:28-42; a mask has four bytes. *)
Definition apply_mask (mask data : bytes) : bytes :=
  fold_left (fun d index => mask_slice (nth index mask 0%N) index 0 d) [0; 1; 2; 3] data.

(** Big endian of [Struct('!H')] and [Struct('!Q')], http_protocol.py:27-32. *)
Fixpoint be (k : nat) (n : N) : bytes :=
  match k with 0 => [] | S k' => be k' (N.shiftr n 8) ++ [N.land n 255] end.
Definition unbe (l : bytes) : N := fold_left (fun a x => N.lor (N.shiftl a 8) x) l 0%N.

(** * Writing *)

(** [write_web_socket_frame], http_protocol.py:789-811: what the transport is given; [mask]: the four random bytes. *)
Definition write_frame (client : bool) (mask : bytes) (f : frame) : bytes :=
  let head_1 := N.shiftl (N.b2n client) 7 in
  let len := N.of_nat (length (f_data f)) in
  (if N.ltb len 126 then [f_head f; N.lor head_1 len]
   else if N.ltb len 65536 then [f_head f; N.lor head_1 126] ++ be 2 len
   else [f_head f; N.lor head_1 127] ++ be 8 len) ++
  (if client then mask ++ apply_mask mask (f_data f) else f_data f).

(** * Reading *)

(** [read_exactly], protocol.py:717-728. *)
Definition read_n (n : nat) (cs : list bytes) (o : nat) : outcome :=
  if n =? 0 then Fin [] cs o else exact_start n cs o.

Inductive fres :=
  | FFrame (f : frame) (cs : list bytes) (o : nat)
  | FWait                       (* waits for data *)
  | FMask                       (* WebSocketProtocolError: incorrect masking *)
  | FTooBig.                    (* PayloadError: over the limit *)

(** http_protocol.py:383-391 *)
Definition read_payload (client : bool) (head_0 : N) (len : N) (cs : list bytes) (o : nat) : fres :=
  if client then
    match read_n (N.to_nat len) cs o with Wait _ _ _ => FWait | Fin d cs1 o1 => FFrame (mk_frame head_0 d) cs1 o1 end
  else
    match read_n 4 cs o with
    | Wait _ _ _ => FWait
    | Fin mask cs1 o1 =>
        match read_n (N.to_nat len) cs1 o1 with
        | Wait _ _ _ => FWait
        | Fin d cs2 o2 => FFrame (mk_frame head_0 (apply_mask mask d)) cs2 o2
        end
    end.

(** http_protocol.py:379-380 *)
Definition limited (max_size : option N) (len : N) (k : fres) : fres :=
  match max_size with Some m => if N.ltb m len then FTooBig else k | None => k end.

(** [read_web_socket_frame], http_protocol.py:346-391. *)
Definition read_frame (client : bool) (max_size : option N) (cs : list bytes) (o : nat) : fres :=
  match read_n 2 cs o with
  | Wait _ _ _ => FWait
  | Fin h cs1 o1 =>
      let head_0 := nth 0 h 0%N in
      let head_1 := nth 1 h 0%N in
      if N.eqb (N.shiftr (N.land head_1 128) 7) (N.b2n client) then FMask
      else
        let len := N.land head_1 127 in
        let go := fun len cs o => limited max_size len (read_payload client head_0 len cs o) in
        if N.eqb len 126 then
          match read_n 2 cs1 o1 with Wait _ _ _ => FWait | Fin d cs2 o2 => go (unbe d) cs2 o2 end
        else if N.eqb len 127 then
          match read_n 8 cs1 o1 with Wait _ _ _ => FWait | Fin d cs2 o2 => go (unbe d) cs2 o2 end
        else go len cs1 o1
  end.

(** * Messages *)

(** web_socket_common_protocol.py:31 *)
Definition external_close_codes : list N := [1000; 1001; 1002; 1003; 1007; 1008; 1009; 1010; 1011; 1013]%N.
Definition close_code_ok (code : N) : bool :=
  existsb (N.eqb code) external_close_codes || (N.ltb 2999 code && N.ltb code 5000).

(** What happened while reading. *)
Inductive event :=
  | Pong (data : bytes)                     (* a pong with this payload was sent *)
  | Closed (code : N) (reason : bytes).     (* [close_code] and [close_reason] were set and a close frame was sent *)

Inductive error := EMasking | ETooBig | ECheck | EOpcode | EIncomplete | EClose | EAttribute.

Inductive dres :=
  | DFrame (f : frame) (cs : list bytes) (o : nat)
  | DClose (cs : list bytes) (o : nat)
  | DWait
  | DError (e : error)
  | DFuel.

(** [_process_control_frame], web_socket_common_protocol.py:768-823: inl: whether reading goes on. The attribute error is
    [pong_waiter.set_resultd_if_pending] (821): raised for the first popped ping when the pong answers an outstanding ping.
    [pings]: payloads of the outstanding pings. The state is open. *)
Definition process_control (pings : list bytes) (f : frame) : (bool * list event) + error :=
  if N.eqb (f_op f) 8 then
    match f_data f with
    | a :: b :: reason =>
        let code := unbe [a; b] in
        if close_code_ok code then inl (false, [Closed code reason]) else inr EClose
    | [] => inl (false, [Closed 1005 []])
    | _ => inr EClose
    end
  else if N.eqb (f_op f) 9 then inl (true, [Pong (f_data f)])
  else if existsb (beqb (f_data f)) pings then inr EAttribute
  else inl (true, []).

(** [read_data_frame], web_socket_common_protocol.py:746-765; one unit of fuel per pass of the loop. *)
Fixpoint read_data_frame (fuel : nat) (client : bool) (pings : list bytes) (max_size : N) (cs : list bytes) (o : nat)
  : dres * list event :=
  match fuel with
  | 0 => (DFuel, [])
  | S fuel' =>
      match read_frame client (Some max_size) cs o with
      | FWait => (DWait, [])
      | FMask => (DError EMasking, [])
      | FTooBig => (DError ETooBig, [])
      | FFrame f cs1 o1 =>
          if check f then
            if is_data (f_op f) then (DFrame f cs1 o1, [])
            else
              match process_control pings f with
              | inr e => (DError e, [])
              | inl (true, es) => let '(r, es') := read_data_frame fuel' client pings max_size cs1 o1 in (r, es ++ es')
              | inl (false, es) => (DClose cs1 o1, es)
              end
          else (DError ECheck, [])
      end
  end.

Inductive mres :=
  | MMessage (text : bool) (data : bytes) (cs : list bytes) (o : nat)
  | MClose
  | MWait
  | MError (e : error)
  | MFuel.

(** The loop of [read_message], web_socket_common_protocol.py:690-706. [acc]: payloads of the collected frames. *)
Fixpoint read_fragments (fuel : nat) (client : bool) (pings : list bytes) (max_size : N) (text : bool) (acc : bytes) (f : frame)
  (cs : list bytes) (o : nat) : mres * list event :=
  match fuel with
  | 0 => (MFuel, [])
  | S fuel' =>
      let max_size := (max_size - N.of_nat (length (f_data f)))%N in
      let acc := acc ++ f_data f in
      if f_final f then (MMessage text acc cs o, [])
      else
        let '(r, es) := read_data_frame fuel client pings max_size cs o in
        match r with
        | DClose _ _ => (MError EIncomplete, es)
        | DWait => (MWait, es)
        | DError e => (MError e, es)
        | DFuel => (MFuel, es)
        | DFrame f cs1 o1 =>
            if N.eqb (f_op f) 0
            then let '(m, es') := read_fragments fuel' client pings max_size text acc f cs1 o1 in (m, es ++ es')
            else (MError EOpcode, es)
        end
  end.

(** [read_message], web_socket_common_protocol.py:665-717. *)
Definition read_message (fuel : nat) (client : bool) (pings : list bytes) (max_size : N) (cs : list bytes) (o : nat)
  : mres * list event :=
  let '(r, es) := read_data_frame fuel client pings max_size cs o in
  match r with
  | DClose _ _ => (MClose, es)
  | DWait => (MWait, es)
  | DError e => (MError e, es)
  | DFuel => (MFuel, es)
  | DFrame f cs1 o1 =>
      let text := N.eqb (f_op f) 1 in
      if text || N.eqb (f_op f) 2 then
        if f_final f then (MMessage text (f_data f) cs1 o1, es)
        else let '(m, es') := read_fragments fuel client pings max_size text [] f cs1 o1 in (m, es ++ es')
      else (MError EOpcode, es)
  end.

(** [_serialize_close], web_socket_common_protocol.py:433-438; the reason as utf-8 bytes. [None]: raises. *)
Definition serialize_close (code : N) (reason : bytes) : option bytes :=
  if close_code_ok code then Some (be 2 code ++ reason) else None.

(** [write_frame], web_socket_common_protocol.py:900-911 without extensions: the frame is not checked. *)
Definition send (client : bool) (mask : bytes) (op : N) (data : bytes) : bytes :=
  write_frame client mask (new_frame true op data).
