(** Model of the zip streaming: /repo/scarletio/streaming/zip_streaming/zip_stream.py, compression.py, constants.py and file_state.py.

    The output is the concatenation of the yielded chunks; [None] is an exception. The deflate compressor of zlib is a parameter, its crc32 is
    written out. Not here: generators which raise, and generators shared by two files. *)

From Coq Require Import List Arith Bool NArith ZArith.
From Verif Require Import Bytes QuoteModel DedupModel.
Import ListNotations.

(** * zlib.crc32 *)
Fixpoint crc_bits (n : nat) (c : N) : N :=
  match n with 0 => c | S m => crc_bits m (if N.odd c then N.lxor (N.shiftr c 1) 3988292384 else N.shiftr c 1) end.
Definition crc_byte (c : N) (b : byte) : N := crc_bits 8 (N.lxor c b).
Definition ones : N := 4294967295.
Definition crc32 (chunk : bytes) (start : N) : N := N.lxor (fold_left crc_byte chunk (N.lxor start ones)) ones.

(** * struct.Struct.pack for little endian formats, constants.py:28-176; [None] is struct.error *)
Fixpoint le_bytes (w : nat) (v : N) : bytes := match w with 0 => [] | S w' => (v mod 256)%N :: le_bytes w' (v / 256) end.
Definition limit (w : nat) : N := (256 ^ N.of_nat w)%N.
Fixpoint pack_ints (l : list (nat * N)) : option bytes :=
  match l with
  | [] => Some []
  | (w, v) :: l' => if N.ltb v (limit w) then option_map (app (le_bytes w v)) (pack_ints l') else None
  end.
Definition pack (signature : bytes) (l : list (nat * N)) : option bytes := option_map (app signature) (pack_ints l).
Definition H := 2. Definition L := 4. Definition Q := 8.

(** * file.py:11-68 and file_state.py:44-83 *)
Record date_time := { year : Z; month : Z; day : Z; hour : Z; minute : Z; second : Z }.
Record file := { f_name : name; f_method : N; f_modified : date_time; f_chunks : list bytes }.

(** :57-59 *)
Definition modification_date (d : date_time) : N :=
  Z.to_N (Z.land (Z.lor (Z.lor (Z.shiftl (year d - 1980) 9) (Z.shiftl (month d) 5)) (day d)) 65535).
Definition modification_time (d : date_time) : N :=
  Z.to_N (Z.land (Z.lor (Z.lor (Z.shiftl (hour d) 11) (Z.shiftl (minute d) 5)) (Z.shiftr (second d) 1)) 65535).

Record state := { s_crc : N; s_flags : N; s_date : N; s_time : N; s_name : bytes; s_offset : N; s_compressed : N; s_uncompressed : N }.

Definition surrogate (c : N) : bool := (55296 <=? c)%N && (c <? 57344)%N.
(** [n] is the name which the deduplicator returned, or that of the file. *)
Definition new_state (f : file) (n : name) : option state :=
  if existsb surrogate n then None
  else let b := utf8 n in
       Some {| s_crc := 0; s_flags := if Nat.eqb (length n) (length b) then 8 else N.lor 8 2048; s_date := modification_date (f_modified f);
               s_time := modification_time (f_modified f); s_name := b; s_offset := 0; s_compressed := 0; s_uncompressed := 0 |}.
Fixpoint new_states (fs : list file) (ns : list name) : option (list (file * state)) :=
  match fs, ns with
  | f :: fs', n :: ns' => match new_state f n, new_states fs' ns' with Some s, Some l => Some ((f, s) :: l) | _, _ => None end
  | _, _ => Some []
  end.

(** * Headers, zip_stream.py:19-208 *)
Definition max32 : N := 4294967295.
Definition size_of (l : bytes) : N := N.of_nat (length l).

(** :19-47 *)
Definition local_file_header (f : file) (s : state) : option bytes :=
  pack [80; 75; 3; 4]%N [(H, 45); (H, s_flags s); (H, f_method f); (H, s_time s); (H, s_date s); (L, 0); (L, 0); (L, 0); (H, size_of (s_name s)); (H, 0)]%N.
(** :50-68 *)
Definition data_descriptor (s : state) : option bytes :=
  pack [80; 75; 7; 8]%N [(L, s_crc s); (Q, s_compressed s); (Q, s_uncompressed s)].
(** :71-105 *)
Definition central_header (f : file) (s : state) : option bytes :=
  pack [80; 75; 1; 2]%N [(H, 2629); (H, 45); (H, s_flags s); (H, f_method f); (H, s_time s); (H, s_date s); (L, s_crc s); (L, max32); (L, max32);
                         (H, size_of (s_name s)); (H, 28); (H, 0); (H, 0); (H, 0); (L, 0); (L, max32)]%N.
(** :108-127 *)
Definition extra_field (s : state) : option bytes :=
  pack [1; 0]%N [(H, 24%N); (Q, s_uncompressed s); (Q, s_compressed s); (Q, s_offset s)].
(** :130-162 *)
Definition end64_record (count offset size : N) : option bytes :=
  pack [80; 75; 6; 6]%N [(Q, 44); (H, 2629); (H, 45); (L, 0); (L, 0); (Q, count); (Q, count); (Q, size); (Q, offset)]%N.
(** :165-183 *)
Definition end64_locator (offset : N) : option bytes := pack [80; 75; 6; 7]%N [(L, 0); (Q, offset); (L, 1)]%N.
(** :186-208 *)
Definition end_record (count : N) : option bytes :=
  pack [80; 75; 5; 6]%N [(H, 0); (H, 0); (H, count); (H, count); (L, max32); (L, max32); (H, 0)]%N.

Definition cat (a b : option bytes) : option bytes := match a, b with Some a, Some b => Some (a ++ b) | _, _ => None end.

Section Deflate.

(** zlib.compressobj(5, DEFLATED, -15) *)
Context {D : Type}.
Variable fresh : D.
Variable compress : D -> bytes -> D * bytes.
Variable flush : D -> bytes.

Definition add_sizes (s : state) (chunk : bytes) (u c : N) : state :=
  {| s_crc := crc32 chunk (s_crc s); s_flags := s_flags s; s_date := s_date s; s_time := s_time s; s_name := s_name s; s_offset := s_offset s;
     s_compressed := c; s_uncompressed := u |}.
Definition grow (s : state) (n : N) : state :=
  {| s_crc := s_crc s; s_flags := s_flags s; s_date := s_date s; s_time := s_time s; s_name := s_name s; s_offset := s_offset s;
     s_compressed := s_compressed s + n; s_uncompressed := s_uncompressed s |}.
Definition at_offset (s : state) (o : N) : state :=
  {| s_crc := s_crc s; s_flags := s_flags s; s_date := s_date s; s_time := s_time s; s_name := s_name s; s_offset := o;
     s_compressed := s_compressed s; s_uncompressed := s_uncompressed s |}.

(** compression.py:23-52 and zip_stream.py:263-270 *)
Fixpoint store (s : state) (chunks : list bytes) : state * bytes :=
  match chunks with
  | [] => (s, [])
  | chunk :: chunks' =>
      let n := (s_uncompressed s + size_of chunk)%N in
      let '(s, out) := store (add_sizes s chunk n n) chunks' in (s, chunk ++ out)
  end.
(** compression.py:78-91 *)
Fixpoint deflate (s : state) (d : D) (chunks : list bytes) : state * bytes :=
  match chunks with
  | [] => let out := flush d in (grow s (size_of out), out)
  | chunk :: chunks' =>
      let '(d, out) := compress d chunk in
      let s := add_sizes s chunk (s_uncompressed s + size_of chunk) (s_compressed s + size_of out) in
      let '(s, rest) := deflate s d chunks' in (s, out ++ rest)
  end.
(** compression.py:122-141 *)
Definition body (f : file) (s : state) : state * bytes :=
  if N.eqb (f_method f) 8 then deflate s fresh (f_chunks f) else store s (f_chunks f).

(** zip_stream.py:250-281: the states after it, the output and the offset *)
Fixpoint stream_files (offset : N) (l : list (file * state)) : option (list (file * state) * bytes * N) :=
  match l with
  | [] => Some ([], [], offset)
  | (f, s) :: l' =>
      let s := at_offset s offset in
      match local_file_header f s with
      | None => None
      | Some h =>
          let '(s', data) := body f s in
          match data_descriptor s' with
          | None => None
          | Some d =>
              match stream_files (offset + (30 + size_of (s_name s') + s_compressed s' + 24)) l' with
              | None => None
              | Some (l'', out, o) => Some ((f, s') :: l'', (h ++ s_name s' ++ data ++ d) ++ out, o)
              end
          end
      end
  end.

(** zip_stream.py:292-296 *)
Fixpoint stream_entries (l : list (file * state)) : option bytes :=
  match l with
  | [] => Some []
  | (f, s) :: l' => cat (cat (central_header f s) (cat (Some (s_name s)) (extra_field s))) (stream_entries l')
  end.
Definition directory_size (l : list (file * state)) : N :=
  fold_left (fun n fs => n + size_of (s_name (snd fs)))%N l ((46 + 28) * N.of_nat (length l))%N.

(** stream_zip, zip_stream.py:211-301, without a deduplicator *)
Definition stream_named (fs : list file) (ns : list name) : option bytes :=
  match new_states fs ns with
  | None => None
  | Some l =>
      match stream_files 0 l with
      | None => None
      | Some (l, out, offset) =>
          let n := N.of_nat (length l) in
          cat (Some out) (cat (stream_entries l)
            (cat (end64_record n offset (directory_size l)) (cat (end64_locator (offset + directory_size l)) (end_record n))))
      end
  end.
Definition stream_zip (deduplicating : bool) (fs : list file) : option bytes :=
  stream_named fs (if deduplicating then deduplicate (map f_name fs) else map f_name fs).

End Deflate.
