(** C45, C84, C85: zip archives. *)

From Coq Require Import List Arith Bool NArith ZArith.
From Verif Require Import Bytes QuoteModel QuoteSpec DedupModel DedupSpec ZipModel ZipSpec ZipProofs.
Import ListNotations.

(** Every archive is read back: the end records locate the directory, whose entries locate the files, and all of them agree about names, sizes and crc. The contents are
    extracted, for every compressor which has an inverse. *)
Theorem C45_archive : forall (D : Type) (fresh : D) compress flush inflate dedup fs archive,
  (forall chunks, inflate (deflated compress flush fresh chunks) = Some (concat chunks)) ->
  Forall (fun f => f_method f = 0 \/ f_method f = 8)%N fs ->
  stream_zip fresh compress flush dedup fs = Some archive ->
  exists es, read_zip archive = Some es /\
    Forall2 (fun f e => extracted inflate e = Some (content f) /\ e_crc e = crc32 (content f) 0 /\ e_size e = N.of_nat (length (content f))) fs es /\
    Forall2 carries (if dedup then deduplicate (map f_name fs) else map f_name fs) es.
Proof.
  intros D fresh compress flush inflate dedup fs archive INV M E. destruct (archive_spec fresh compress flush dedup fs archive E) as (es & R & C & A).
  exists es. split; [exact R|]. split; [|exact A]. clear - INV M C. induction C as [|f e fs es (C1 & _ & _ & C2 & C3 & C4) C IH]; constructor; inversion M; subst; auto.
  split; [|now split]. unfold extracted. rewrite C1, C4. unfold data_of. destruct H1 as [-> | ->]; cbn; [reflexivity|apply INV].
Qed.
Print Assumptions C45_archive.

(** The dates and times in it are those of the files. *)
Theorem C45_fields : forall (D : Type) (fresh : D) compress flush dedup fs archive, stream_zip fresh compress flush dedup fs = Some archive ->
  exists es, read_zip archive = Some es /\ Forall2 (contains fresh compress flush) fs es.
Proof. intros D fresh compress flush dedup fs archive E. destruct (archive_spec _ _ _ _ _ _ E) as (es & R & C & _). now exists es. Qed.
Print Assumptions C45_fields.

(** With the default deduplicator the names in the archive are distinct, for the names of C46. *)
Theorem C45_names : forall (D : Type) (fresh : D) compress flush fs archive es, Forall simple (map f_name fs) -> Forall (Forall scalar) (map f_name fs) ->
  stream_zip fresh compress flush true fs = Some archive -> read_zip archive = Some es -> NoDup (map e_name es).
Proof. intros D fresh compress flush. exact (unique_names fresh compress flush). Qed.
Print Assumptions C45_names.

(** Archives are produced for less than 65536 files, if the sizes fit into the fields. Missing: more files. *)
Theorem C84_limits_partial : forall (D : Type) (fresh : D) compress flush (dedup : bool) fs, let ns := if dedup then deduplicate (map f_name fs) else map f_name fs in
  length fs < 2 ^ 16 -> Forall2 within_limits fs ns -> (weight fresh compress flush fs ns < 2 ^ 64)%N ->
  exists archive, stream_zip fresh compress flush dedup fs = Some archive.
Proof. intros D fresh compress flush dedup fs. exact (limits_enough fresh compress flush dedup fs). Qed.
Print Assumptions C84_limits_partial.

(** More files are always refused, after all of them were streamed. *)
Theorem C84_refuted : forall (D : Type) (fresh : D) compress flush dedup fs, 2 ^ 16 <= length fs -> stream_zip fresh compress flush dedup fs = None.
Proof. intros D fresh compress flush. exact (too_many fresh compress flush). Qed.
Print Assumptions C84_refuted.

(** Dates from 1980 to 2107 are kept, and times but for odd seconds. *)
Theorem C85_date_partial : forall d, real d -> (1980 <= year d < 2108)%Z ->
  date_of (modification_date d) = (Z.to_N (year d), Z.to_N (month d), Z.to_N (day d)).
Proof. exact date_spec. Qed.
Print Assumptions C85_date_partial.
Theorem C85_time : forall d, real d -> time_of (modification_time d) = (Z.to_N (hour d), Z.to_N (minute d), (2 * (Z.to_N (second d) / 2))%N).
Proof. exact time_spec. Qed.
Print Assumptions C85_time.

(** Earlier dates wrap around: 1979-12-31 is 2107-12-31. *)
Theorem C85_refuted : exists d, real d /\ year d = 1979%Z /\ date_of (modification_date d) = (2107, 12, 31)%N.
Proof.
  exists {| year := 1979; month := 12; day := 31; hour := 0; minute := 0; second := 0 |}. split; [|split; vm_compute; reflexivity].
  unfold real. cbn. repeat split; discriminate.
Qed.
Print Assumptions C85_refuted.

(** Two files; the compressor of the example keeps everything until it is flushed. *)
Definition keep (d c : bytes) : bytes * bytes := (d ++ c, []).
Definition out (d : bytes) : bytes := 7%N :: d.
Definition unout (d : bytes) : option bytes := match d with [] => None | _ :: r => Some r end.
Lemma keep_inverse : forall chunks, unout (deflated keep out [] chunks) = Some (concat chunks).
Proof.
  assert (G : forall chunks d, deflated keep out d chunks = 7%N :: d ++ concat chunks).
  { induction chunks as [|c chunks IH]; intros d; cbn; [now rewrite app_nil_r|]. now rewrite IH, app_assoc. }
  intros chunks. now rewrite G.
Qed.
Definition example : list file :=
  [{| f_name := [97]%N; f_method := 8; f_modified := {| year := 2024; month := 2; day := 29; hour := 23; minute := 59; second := 58 |}; f_chunks := [[1; 2]; []; [3]]%N |};
   {| f_name := [97]%N; f_method := 0; f_modified := {| year := 1980; month := 1; day := 1; hour := 0; minute := 0; second := 1 |}; f_chunks := [[49; 50; 51; 52]; [53; 54; 55; 56; 57]]%N |};
   {| f_name := [233]%N; f_method := 0; f_modified := {| year := 1980; month := 1; day := 1; hour := 0; minute := 0; second := 1 |}; f_chunks := [] |}].
Example C45_nonvacuous : option_map (fun a => (length a, option_map (map (fun e => (e_name e, e_data e, e_crc e, date_of (e_date e), time_of (e_time e)))) (read_zip a)))
    (stream_zip [] keep out true example) =
  Some (511, Some [([97], [7; 1; 2; 3], 1438416925, (2024, 2, 29), (23, 59, 58));
                   ([97; 32; 40; 49; 41], [49; 50; 51; 52; 53; 54; 55; 56; 57], 3421780262, (1980, 1, 1), (0, 0, 0));
                   ([195; 169], [], 0, (1980, 1, 1), (0, 0, 0))]%N).
Proof. vm_compute. reflexivity. Qed.
Example C84_nonvacuous : exists archive, stream_zip [] keep out false example = Some archive.
Proof. eexists. vm_compute. reflexivity. Qed.
