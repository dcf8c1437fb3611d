(** Vocabulary for C23, C24, C65: the chunked coding of RFC 9112 section 7.1 without extensions and trailers. *)

From Coq Require Import List Arith Bool NArith ZArith.
From Verif Require Import Bytes ReadModel ReadSpec ChunkModel.
Import ListNotations.

(** Hexadecimal digits and their values. *)
Definition hexdig : list byte :=
  [48; 49; 50; 51; 52; 53; 54; 55; 56; 57; 65; 66; 67; 68; 69; 70; 97; 98; 99; 100; 101; 102]%N.
Definition hexval (x : byte) : N :=
  if N.leb x 57 then (x - 48)%N else if N.leb x 70 then (x - 55)%N else (x - 87)%N.
Definition hex_line (l : bytes) : Prop := l <> [] /\ Forall (fun x => In x hexdig) l.
Definition line_value (l : bytes) : N := fold_left (fun a x => (a * 16 + hexval x)%N) l 0%N.

(** [coded size_line chunks]: one chunk after the other, each with its size line, then the last chunk. *)
Definition coded_chunk (size_line : nat -> bytes) (d : bytes) : bytes := size_line (length d) ++ [13; 10]%N ++ d ++ [13; 10]%N.
Definition coded (size_line : nat -> bytes) (ds : list bytes) : bytes :=
  concat (map (coded_chunk size_line) ds) ++ [48; 13; 10; 13; 10]%N.

(** A segment border between CR and LF of a size line, where the segment begins before that size line: [ds0] are the
    segments before it and [c] is the segment. *)
Definition bad_cut (size_line : nat -> bytes) (ds : list bytes) (ds0 : list bytes) (c : bytes) : Prop :=
  exists xs ys, ds = xs ++ ys /\
    length (concat ds0) < length (concat (map (coded_chunk size_line) xs)) /\
    concat (ds0 ++ [c]) =
      concat (map (coded_chunk size_line) xs) ++ (match ys with [] => [48%N] | d :: _ => size_line (length d) end) ++ [13%N].

Definition no_bad_cut (size_line : nat -> bytes) (ds : list bytes) (segments : list bytes) : Prop :=
  forall ds0 c ds1, segments = ds0 ++ c :: ds1 -> ~ bad_cut size_line ds ds0 c.
