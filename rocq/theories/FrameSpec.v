(** Vocabulary for C20, C21, C22, C58, C66, C67: RFC 6455 section 5.2 in plain arithmetic. *)

From Coq Require Import List Arith Bool NArith.
From Verif Require Import Bytes ReadModel ReadSpec ReadProofs FrameModel.
Import ListNotations.

Definition is_byte (x : N) : Prop := (x < 256)%N.
Definition all_byte (d : bytes) : Prop := Forall is_byte d.

(** Big endian number of the bytes. *)
Definition number (l : bytes) : N := fold_left (fun a x => (a * 256 + x)%N) l 0%N.

(** [len_field len seven ext]: [seven] and [ext] are a length field that says [len], the shortest one. *)
Inductive len_field (len : N) : N -> bytes -> Prop :=
  | len_short : (len <= 125)%N -> len_field len len []
  | len_two : forall e, (126 <= len < 2 ^ 16)%N -> length e = 2 -> all_byte e -> number e = len -> len_field len 126 e
  | len_eight : forall e, (2 ^ 16 <= len < 2 ^ 64)%N -> length e = 8 -> all_byte e -> number e = len -> len_field len 127 e.

(** The payload xored with the repeated key. *)
Definition xored (key data wire : bytes) : Prop :=
  length wire = length data /\
  forall i, i < length data -> nth i wire 0%N = N.lxor (nth i data 0%N) (nth (i mod 4) key 0%N).

(** [wire masked key final op data w]: [w] is a frame on the wire. *)
Definition wire (masked : bool) (key : bytes) (final : bool) (op : N) (data w : bytes) : Prop :=
  exists seven ext body,
    w = ((if final then 128 else 0) + op)%N :: ((if masked then 128 else 0) + seven)%N :: ext ++ body /\
    len_field (N.of_nat (length data)) seven ext /\
    if masked then exists p, body = key ++ p /\ xored key data p else body = data.

(** Header byte and payload length of a valid frame. *)
Definition valid (head : N) (len : nat) : Prop :=
  exists (final : bool) op, head = ((if final then 128 else 0) + op)%N /\
    (In op [0; 1; 2]%N \/ In op [8; 9; 10]%N /\ final = true /\ len <= 125).

(** A frame on the wire in the long forms need not have the shortest length field. *)
Definition len_read (seven : N) (ext : bytes) (len : N) : Prop :=
  ((seven <= 125 /\ ext = [] /\ len = seven) \/
   (seven = 126 /\ length ext = 2%nat /\ len = number ext) \/
   (seven = 127 /\ length ext = 8%nat /\ len = number ext))%N.

(** The payload [data] of [len] bytes as it is on the wire: [body]. *)
Definition body_ok (client : bool) (len : N) (data body : bytes) : Prop :=
  if client then body = data /\ N.of_nat (length data) = len
  else exists key p, body = key ++ p /\ length key = 4 /\ N.of_nat (length p) = len /\ xored key p data.

(** Over the limit. *)
Definition over (max_size : option N) (len : N) : Prop := match max_size with Some m => (m < len)%N | None => False end.

(** What a call does, in terms of the unread bytes. *)
Definition frame_result (client : bool) (max_size : option N) (s : bytes) (r : fres) : Prop :=
  match r with
  | FFrame f cs' o' => exists seven ext body len,
      s = f_head f :: ((if client then 0 else 128) + seven)%N :: ext ++ body ++ unread cs' o' /\
      len_read seven ext len /\ ~ over max_size len /\ body_ok client len (f_data f) body /\ chunks_ok cs' /\ off_ok cs' o'
  | FMask => exists h0 seven t, s = h0 :: ((if client then 128 else 0) + seven)%N :: t /\ (seven < 128)%N
  | FTooBig => exists h0 seven ext t len, s = h0 :: ((if client then 0 else 128) + seven)%N :: ext ++ t /\ len_read seven ext len /\ over max_size len
  | FWait =>
      (forall h0 seven t, (seven < 128)%N -> s <> h0 :: ((if client then 128 else 0) + seven)%N :: t) /\
      (forall h0 seven ext len t, s = h0 :: ((if client then 0 else 128) + seven)%N :: ext ++ t -> len_read seven ext len ->
        ~ over max_size len /\ (N.of_nat (length t) < (if client then 0 else 4) + len)%N)
  end.

(** A sender of pings, pongs, and a message in fragments: what is on the wire, with its keys. *)
Record sent := mk_sent { s_key : bytes; s_final : bool; s_op : N; s_data : bytes }.
Definition sent_ok (s : sent) : Prop :=
  length (s_key s) = 4 /\ all_byte (s_key s) /\ all_byte (s_data s) /\ (N.of_nat (length (s_data s)) < 2 ^ 64)%N /\ (s_op s < 16)%N.

Inductive on_wire (masked : bool) : list sent -> bytes -> Prop :=
  | on_wire_nil : on_wire masked [] []
  | on_wire_cons : forall s l w ws, wire masked (s_key s) (s_final s) (s_op s) (s_data s) w -> on_wire masked l ws -> on_wire masked (s :: l) (w ++ ws).

(** Pings and unasked pongs. *)
Definition harmless (pings : list bytes) (s : sent) : Prop :=
  s_final s = true /\ length (s_data s) <= 125 /\ (s_op s = 9%N \/ s_op s = 10%N /\ ~ In (s_data s) pings).

(** [message op parts]: the frames of one message: each fragment behind its control frames. *)
Inductive fragments (pings : list bytes) : N -> list (list sent * sent) -> Prop :=
  | frag_last : forall op cs s, Forall (harmless pings) cs -> s_final s = true -> s_op s = op -> fragments pings op [(cs, s)]
  | frag_more : forall op cs s l, Forall (harmless pings) cs -> s_final s = false -> s_op s = op ->
      fragments pings 0 l -> fragments pings op ((cs, s) :: l).

Definition frames_of (l : list (list sent * sent)) : list sent := concat (map (fun p => fst p ++ [snd p]) l).
Definition payload (l : list (list sent * sent)) : bytes := concat (map (fun p => s_data (snd p)) l).
Definition pongs_for (l : list (list sent * sent)) : list event :=
  concat (map (fun p => concat (map (fun s => if N.eqb (s_op s) 9 then [Pong (s_data s)] else []) (fst p))) l).

(** Every control frame fits into what the fragments before it leave of the limit. *)
Fixpoint control_fits (budget : N) (l : list (list sent * sent)) : Prop :=
  match l with
  | [] => True
  | (cs, s) :: l' =>
      Forall (fun c => (N.of_nat (length (s_data c)) <= budget)%N) cs /\
      control_fits (budget - N.of_nat (length (s_data s))) l'
  end.
