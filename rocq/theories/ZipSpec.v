(** C45: a reader of zip archives, after the zip64 format of the APPNOTE of PKWARE (4.3). It is a strict one: the files fill the archive up to the central
    directory, and every record has to agree with the others. *)

From Coq Require Import List Arith Bool NArith ZArith.
From Verif Require Import Bytes QuoteModel QuoteSpec DedupModel ZipModel.
Import ListNotations.

Fixpoint le (l : bytes) : N := match l with [] => 0%N | b :: l' => (b + 256 * le l')%N end.
Definition take (n : N) (l : bytes) : option (bytes * bytes) :=
  if N.ltb (N.of_nat (length l)) n then None else Some (firstn (N.to_nat n) l, skipn (N.to_nat n) l).
Definition from (o : N) (l : bytes) : option bytes := option_map snd (take o l).
(** Numbers of the given widths, least significant byte first. *)
Fixpoint ints (ws : list nat) (l : bytes) : option (list N * bytes) :=
  match ws with
  | [] => Some ([], l)
  | w :: ws' =>
      match take (N.of_nat w) l with
      | None => None
      | Some (b, l) => match ints ws' l with None => None | Some (vs, l) => Some (le b :: vs, l) end
      end
  end.
Definition all_eqb (l : list (N * N)) : bool := forallb (fun p => N.eqb (fst p) (snd p)) l.

Record entry := { e_name : bytes; e_flags : N; e_method : N; e_time : N; e_date : N; e_crc : N; e_size : N; e_data : bytes }.
Record central := { c_entry : entry; c_compressed : N; c_offset : N }.

(** 4.3.12: a file header of the central directory, with the sizes and the offset in the zip64 extra field (4.5.3) *)
Definition read_central (l : bytes) : option (central * bytes) :=
  match ints [4; 2; 2; 2; 2; 2; 2; 4; 4; 4; 2; 2; 2; 2; 2; 4; 4] l with
  | Some ([signature; made; need; flags; method; time; date; crc; c; u; name_length; extra_length; comment_length; disk; ia; ea; offset], l) =>
      if all_eqb [(signature, 33639248); (c, 4294967295); (u, 4294967295); (offset, 4294967295); (comment_length, 0); (disk, 0)]%N then
        match take name_length l with
        | None => None
        | Some (name, l) =>
            match take extra_length l with
            | None => None
            | Some (extra, l) =>
                match ints [2; 2; 8; 8; 8] extra with
                | Some ([id; size; u; c; offset], []) =>
                    if all_eqb [(id, 1); (size, 24)]%N then
                      Some ({| c_entry := {| e_name := name; e_flags := flags; e_method := method; e_time := time; e_date := date; e_crc := crc; e_size := u;
                                             e_data := [] |};
                               c_compressed := c; c_offset := offset |}, l)
                    else None
                | _ => None
                end
            end
        end
      else None
  | _ => None
  end.
Fixpoint read_directory (n : nat) (l : bytes) : option (list central) :=
  match n with
  | 0 => match l with [] => Some [] | _ => None end
  | S n' =>
      match read_central l with
      | None => None
      | Some (c, l) => option_map (cons c) (read_directory n' l)
      end
  end.

(** 4.3.7: local header, 4.3.9: data descriptor (zip64). The file starts at [l]; what follows it is returned. *)
Definition read_file (c : central) (l : bytes) : option (entry * bytes) :=
  let e := c_entry c in
  match ints [4; 2; 2; 2; 2; 2; 4; 4; 4; 2; 2] l with
  | Some ([signature; need; flags; method; time; date; crc; cs; us; name_length; extra_length], l) =>
      if all_eqb [(signature, 67324752); (flags, e_flags e); (method, e_method e); (time, e_time e); (date, e_date e); (N.land flags 8, 8); (crc, 0); (cs, 0); (us, 0);
                  (extra_length, 0)]%N then
        match take name_length l with
        | None => None
        | Some (name, l) =>
            match take (c_compressed c) l with
            | None => None
            | Some (data, l) =>
                match ints [4; 4; 8; 8] l with
                | Some ([signature; crc; cs; us], l) =>
                    if beqb name (e_name e) && all_eqb [(signature, 134695760); (crc, e_crc e); (cs, c_compressed c); (us, e_size e)]%N then
                      Some ({| e_name := name; e_flags := flags; e_method := method; e_time := time; e_date := date; e_crc := crc; e_size := us; e_data := data |}, l)
                    else None
                | _ => None
                end
            end
        end
      else None
  | _ => None
  end.
(** The files follow each other from [at_] on, up to the end of [l]. *)
Fixpoint read_files (at_ : N) (cs : list central) (archive : bytes) (directory : N) : option (list entry) :=
  match cs with
  | [] => if N.eqb at_ directory then Some [] else None
  | c :: cs' =>
      if N.eqb (c_offset c) at_ then
        match from at_ archive with
        | None => None
        | Some l =>
            match read_file c l with
            | None => None
            | Some (e, rest) => option_map (cons e) (read_files (N.of_nat (length archive) - N.of_nat (length rest)) cs' archive directory)
            end
        end
      else None
  end.

(** 4.3.14 - 4.3.16: the end record without a comment is the end of the archive, the locator is before it. *)
Definition read_zip (archive : bytes) : option (list entry) :=
  let size := N.of_nat (length archive) in
  if N.ltb size 98 then None else
  match from (size - 22) archive, from (size - 42) archive with
  | Some end_, Some locator =>
      match ints [4; 2; 2; 2; 2; 4; 4; 2] end_, ints [4; 4; 8; 4] locator with
      | Some ([signature; disk; start; count; total; cd_size; cd_offset; comment_length], []), Some ([signature'; disk'; end64; disks], _) =>
          if all_eqb [(signature, 101010256); (disk, 0); (start, 0); (count, total); (cd_size, 4294967295); (cd_offset, 4294967295); (comment_length, 0);
                      (signature', 117853008); (disk', 0); (disks, 1); (end64, size - 98)]%N then
            match from end64 archive with
            | None => None
            | Some l =>
                match ints [4; 8; 2; 2; 4; 4; 8; 8; 8; 8] l with
                | Some ([signature; record_size; made; need; disk; start; count'; total'; cd_size; cd_offset], _) =>
                    if all_eqb [(signature, 101075792); (record_size, 44); (disk, 0); (start, 0); (count', count); (total', count); (cd_offset + cd_size, end64)]%N then
                      match from cd_offset archive with
                      | None => None
                      | Some l =>
                          match take cd_size l with
                          | None => None
                          | Some (l, _) =>
                              match read_directory (N.to_nat count) l with
                              | None => None
                              | Some cs => read_files 0 cs archive cd_offset
                              end
                          end
                      end
                    else None
                | _ => None
                end
            end
          else None
      | _, _ => None
      end
  | _, _ => None
  end.

(** 4.4.6: the date and the time in MS-DOS format *)
Definition date_of (d : N) : N * N * N := (1980 + d / 512, (d / 32) mod 16, d mod 32)%N.
Definition time_of (t : N) : N * N * N := (t / 2048, (t / 32) mod 64, 2 * (t mod 32))%N.

Definition real (d : date_time) : Prop := (1 <= month d <= 12 /\ 1 <= day d <= 31 /\ 0 <= hour d < 24 /\ 0 <= minute d < 60 /\ 0 <= second d < 60)%Z.

(** * What the archive has to contain *)
Definition content (f : file) : bytes := concat (f_chunks f).
Section Deflate.
Context {D : Type}.
Variable fresh : D.
Variable compress : D -> bytes -> D * bytes.
Variable flush : D -> bytes.
(** What the compressor makes of the chunks. *)
Fixpoint deflated (d : D) (chunks : list bytes) : bytes :=
  match chunks with [] => flush d | c :: cs => snd (compress d c) ++ deflated (fst (compress d c)) cs end.
Definition data_of (f : file) : bytes := if N.eqb (f_method f) 8 then deflated fresh (f_chunks f) else content f.
Definition contains (f : file) (e : entry) : Prop :=
  e_method e = f_method f /\ e_time e = modification_time (f_modified f) /\ e_date e = modification_date (f_modified f) /\ e_crc e = crc32 (content f) 0 /\
  e_size e = N.of_nat (length (content f)) /\ e_data e = data_of f.
(** Fields of the format have 16, 32 or 64 bits. *)
Definition within_limits (f : file) (n : name) : Prop :=
  Forall scalar n /\ (f_method f = 0 \/ f_method f = 8)%N /\ (N.of_nat (length (utf8 n)) < 65536)%N /\ all_bytes (content f) /\ (N.of_nat (length (content f)) < 2 ^ 64)%N.
Fixpoint weight (fs : list file) (ns : list name) : N :=
  match fs, ns with
  | f :: fs', n :: ns' => (128 + 2 * N.of_nat (length (utf8 n)) + N.of_nat (length (data_of f)) + weight fs' ns')%N
  | _, _ => 0%N
  end.
End Deflate.
(** The name, and flag 11 for those which are not ascii (appendix D). *)
Definition carries (n : name) (e : entry) : Prop :=
  e_name e = utf8 n /\ (N.testbit (e_flags e) 11 = true <-> ~ Forall (fun c => (c < 128)%N) n).
Definition extracted (inflate : bytes -> option bytes) (e : entry) : option bytes :=
  if N.eqb (e_method e) 0 then Some (e_data e) else if N.eqb (e_method e) 8 then inflate (e_data e) else None.
