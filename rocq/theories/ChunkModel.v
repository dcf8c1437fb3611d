(** Model of the chunked transfer coding: [HTTPStreamWriter] (/repo/scarletio/web_common/http_stream_writer.py) without
    compressor, and [_read_chunked_by_chunk] (/repo/scarletio/web_common/http_protocol.py:459-506) on top of the readers of
    ReadModel.v.

    The reader is given the list of all segments that are ever received; a reader that would suspend with no segment left
    is [CWait]. Resuming a suspended reader with a segment is running it with that segment buffered behind the others:
    [exact_resume] and [until_resume] in ChunkProofs.v. *)

From Coq Require Import List Arith Bool NArith ZArith.
From Verif Require Import Bytes ReadModel.
Import ListNotations.

Definition CR : byte := 13%N.
Definition LF : byte := 10%N.
Definition CRLF : bytes := [CR; LF].

(** * Writing *)

(** One digit of python [format(n, 'x')]. *)
Definition hex_digit (d : nat) : byte := if d <? 10 then N.of_nat (48 + d) else N.of_nat (87 + d).

(** Python [format(n, 'x').encode('ascii')]; [fuel] bounds the number of digits. *)
Fixpoint hex_fuel (fuel n : nat) : bytes :=
  match fuel with
  | 0 => []
  | S f => if n <? 16 then [hex_digit n] else hex_fuel f (n / 16) ++ [hex_digit (n mod 16)]
  end.
Definition hex (n : nat) : bytes := hex_fuel (S n) n.

Record writer := mk_writer { h_eof : bool; h_out : bytes (* what transport.write got *) }.
Definition writer_init : writer := mk_writer false [].

Inductive wop := HWrite (d : bytes) | HWriteEof (d : bytes).

(** [b''.join([format(len(chunk), 'x').encode('ascii'), b'\r\n', chunk, b'\r\n'])] *)
Definition frame (d : bytes) : bytes := hex (length d) ++ CRLF ++ d ++ CRLF.

(** b'0\r\n\r\n' *)
Definition terminator : bytes := [48%N] ++ CRLF ++ CRLF.

(** http_stream_writer.py:87-121, 124-163 with [chunked = True], [compressor = None] and an open transport. After
    [write_eof] the transport is dropped (163) and [write] raises (81-82). *)
Definition wstep (w : writer) (x : wop) : writer :=
  match x with
  | HWrite d => if (length d =? 0) || h_eof w then w else mk_writer (h_eof w) (h_out w ++ frame d)
  | HWriteEof d =>
      if h_eof w then w
      else mk_writer true (h_out w ++ (if length d =? 0 then terminator else hex (length d) ++ CRLF ++ d ++ CRLF ++ terminator))
  end.

(** * Reading *)

(** Python whitespace of [bytes] as stripped by [int]. *)
Definition is_space (x : byte) : bool := (N.eqb x 32 || (N.leb 9 x && N.leb x 13))%N.
Fixpoint lstrip (l : bytes) : bytes := match l with x :: l' => if is_space x then lstrip l' else l | [] => [] end.
Definition strip (l : bytes) : bytes := rev (lstrip (rev (lstrip l))).

Definition digit_value (x : byte) : option nat :=
  (if (N.leb 48 x && N.leb x 57) then Some (N.to_nat (x - 48))
   else if (N.leb 97 x && N.leb x 102) then Some (N.to_nat (x - 87))
   else if (N.leb 65 x && N.leb x 70) then Some (N.to_nat (x - 55))
   else None)%N.

(** The digits of [int(_, 16)] with single underscores between digits; [us]: an underscore may not come next (or end). *)
Fixpoint int_digits (l : bytes) (acc : nat) (us : bool) : option nat :=
  match l with
  | [] => if us then None else Some acc
  | x :: l' =>
      if N.eqb x 95 then (if us then None else int_digits l' acc true)
      else match digit_value x with
           | None => None
           | Some d => int_digits l' (acc * 16 + d) false
           end
  end.

(** Python [int(line, 16)]; [None] is [ValueError]. *)
Definition int16_unsigned (l : bytes) : option nat :=
  match l with
  | [] => None
  | a :: b :: l' =>
      if (N.eqb a 48 && (N.eqb b 120 || N.eqb b 88))%bool
      then match l' with [] => None | u :: l'' => if N.eqb u 95 then int_digits l'' 0 true else int_digits l' 0 true end
      else int_digits l 0 true
  | _ => int_digits l 0 true
  end.

Definition int16 (line : bytes) : option Z :=
  match strip line with
  | [] => None
  | x :: l =>
      if N.eqb x 45 then option_map (fun n => Z.opp (Z.of_nat n)) (int16_unsigned l)
      else if N.eqb x 43 then option_map Z.of_nat (int16_unsigned l)
      else option_map Z.of_nat (int16_unsigned (x :: l))
  end.

(** http_protocol.py:480-482: strip the chunk extension. *)
Definition strip_extension (line : bytes) : bytes :=
  match find [59%N] line with Some i => firstn i line | None => line end.

Inductive cres :=
  | CDone (body : bytes) (cs : list bytes) (o : nat)   (* the generator returned *)
  | CWait (body : bytes)                               (* waits for data, [body] was yielded *)
  | CBad (body : bytes)                                (* PayloadError *)
  | CNegative                                          (* the size line is a negative number: not followed further *)
  | CFuel.

Definition cprepend (d : bytes) (x : cres) : cres :=
  match x with CDone r cs o => CDone (d ++ r) cs o | CWait r => CWait (d ++ r) | CBad r => CBad (d ++ r) | y => y end.

(** http_protocol.py:477-506; one unit of fuel per pass of the loop. *)
Fixpoint read_chunked (fuel : nat) (cs : list bytes) (o : nat) : cres :=
  match fuel with
  | 0 => CFuel
  | S f =>
      match until_loop CRLF [] [] cs o with
      | Wait _ _ _ => CWait []
      | Fin line cs1 o1 =>
          match int16 (strip_extension line) with
          | None => CBad []
          | Some (Zneg _) => CNegative
          | Some Z0 =>
              match exact_start 2 cs1 o1 with
              | Wait _ _ _ => CWait []
              | Fin e cs2 o2 => if beqb e CRLF then CDone [] cs2 o2 else CBad []
              end
          | Some (Zpos n) =>
              match exact_start (Pos.to_nat n) cs1 o1 with
              | Wait out _ _ => CWait out
              | Fin d cs2 o2 =>
                  match exact_start 2 cs2 o2 with
                  | Wait _ _ _ => CWait d
                  | Fin e cs3 o3 => if beqb e CRLF then cprepend d (read_chunked f cs3 o3) else CBad d
                  end
              end
          end
      end
  end.
