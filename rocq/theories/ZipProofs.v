(** Proofs about the zip streaming. *)

From Coq Require Import List Arith Bool NArith ZArith Lia.
From Verif Require Import Bytes Text QuoteModel QuoteSpec QuoteProofs HeadProofs DedupModel DedupSpec DedupProofs ZipModel ZipSpec.
Import ListNotations.

Lemma Forall2_length {A B} {R : A -> B -> Prop} {l m} : Forall2 R l m -> length l = length m.
Proof. induction 1; cbn; congruence. Qed.
Lemma Forall2_impl {A B} (R S : A -> B -> Prop) l m : (forall a b, R a b -> S a b) -> Forall2 R l m -> Forall2 S l m.
Proof. intros X. induction 1; constructor; auto. Qed.

(** * Numbers *)
Arguments limit : simpl never.
Lemma limit_S w : limit (S w) = (256 * limit w)%N.
Proof. unfold limit. now rewrite Nat2N.inj_succ, N.pow_succ_r'. Qed.

Lemma le_bytes_length w : forall v, length (le_bytes w v) = w.
Proof. induction w as [|w IH]; intros v; cbn [le_bytes length]; [reflexivity|]. now rewrite IH. Qed.

Lemma le_le_bytes w : forall v, (v < limit w)%N -> le (le_bytes w v) = v.
Proof.
  induction w as [|w IH]; intros v V.
  - unfold limit in V. cbn in V. cbn. lia.
  - rewrite limit_S in V. cbn [le_bytes le]. rewrite IH.
    + pose proof (N.div_mod' v 256). lia.
    + apply N.div_lt_upper_bound; lia.
Qed.

Lemma size_app a b : size_of (a ++ b) = (size_of a + size_of b)%N.
Proof. unfold size_of. rewrite app_length. lia. Qed.

Lemma take_app a b n : n = size_of a -> take n (a ++ b) = Some (a, b).
Proof.
  intros ->. unfold take, size_of. rewrite app_length. destruct (N.ltb_spec (N.of_nat (length a + length b)) (N.of_nat (length a))); [lia|].
  rewrite Nat2N.id, firstn_app, skipn_app, Nat.sub_diag, firstn_all, skipn_all. cbn. now rewrite app_nil_r.
Qed.

Lemma from_app a b n : n = size_of a -> from n (a ++ b) = Some b.
Proof. intros E. unfold from. now rewrite (take_app a b n E). Qed.

Definition total (l : list (nat * N)) : nat := fold_right (fun p n => fst p + n) 0 l.

Lemma pack_ints_spec : forall l b, pack_ints l = Some b -> length b = total l /\ forall r, ints (map fst l) (b ++ r) = Some (map snd l, r).
Proof.
  induction l as [|[w v] l IH]; intros b; cbn [pack_ints].
  - intros [= <-]. split; reflexivity.
  - destruct (N.ltb_spec v (limit w)); [|discriminate]. destruct (pack_ints l) as [b'|]; [|discriminate]. intros [= <-].
    destruct (IH b' eq_refl) as [I1 I2]. split; [rewrite app_length, le_bytes_length; unfold total in *; cbn [fold_right fst]; f_equal; exact I1|]. intros r. cbn [map ints fst snd].
    rewrite <- app_assoc, take_app by (unfold size_of; now rewrite le_bytes_length). rewrite I2, le_le_bytes by assumption. reflexivity.
Qed.

Lemma pack_spec sig l b : pack sig l = Some b -> length b = length sig + total l /\ forall r, ints (length sig :: map fst l) (b ++ r) = Some (le sig :: map snd l, r).
Proof.
  unfold pack. destruct (pack_ints l) as [b'|] eqn:E; [|discriminate]. intros [= <-]. destruct (pack_ints_spec l b' E) as [I1 I2].
  split; [rewrite app_length; lia|]. intros r. cbn [ints]. rewrite <- app_assoc, take_app by reflexivity. now rewrite I2.
Qed.

Lemma all_eqb_cons a b l : a = b -> all_eqb l = true -> all_eqb ((a, b) :: l) = true.
Proof. intros -> A. unfold all_eqb in *. cbn. now rewrite N.eqb_refl. Qed.
Lemma all_eqb_nil : all_eqb [] = true.
Proof. reflexivity. Qed.

(** * crc32 *)
Lemma crc32_app a b s : crc32 (a ++ b) s = crc32 b (crc32 a s).
Proof. unfold crc32. rewrite fold_left_app. now rewrite N.lxor_assoc, N.lxor_nilpotent, N.lxor_0_r. Qed.

Definition fits32 (c : N) : Prop := (c < 2 ^ 32)%N.

Lemma lxor_fits a b : fits32 a -> fits32 b -> fits32 (N.lxor a b).
Proof.
  unfold fits32. intros A B. destruct (N.eq_dec (N.lxor a b) 0) as [->|NE]; [reflexivity|]. apply N.log2_lt_pow2; [lia|].
  assert (LA : (N.log2 a < 32)%N) by (destruct (N.eq_dec a 0) as [->|]; [reflexivity|apply N.log2_lt_pow2; [lia|exact A]]).
  assert (LB : (N.log2 b < 32)%N) by (destruct (N.eq_dec b 0) as [->|]; [reflexivity|apply N.log2_lt_pow2; [lia|exact B]]).
  pose proof (N.log2_lxor a b). lia.
Qed.

Lemma crc_bits_fits n : forall c, fits32 c -> fits32 (crc_bits n c).
Proof.
  induction n as [|n IH]; intros c C; cbn [crc_bits]; [exact C|]. apply IH.
  assert (SH : fits32 (N.shiftr c 1)).
  { unfold fits32 in *. rewrite N.shiftr_div_pow2. change (2 ^ 1)%N with 2%N. apply N.div_lt_upper_bound; lia. }
  destruct (N.odd c); [|exact SH]. apply lxor_fits; [exact SH|]. unfold fits32. lia.
Qed.

Lemma crc32_fits chunk s : fits32 s -> all_bytes chunk -> fits32 (crc32 chunk s).
Proof.
  intros HS B. unfold crc32. apply lxor_fits; [|unfold fits32, ones; lia].
  assert (G : fits32 (N.lxor s ones)) by (apply lxor_fits; [exact HS|unfold fits32, ones; lia]). revert B G. generalize (N.lxor s ones).
  induction chunk as [|b chunk IH]; intros c B G; cbn [fold_left]; [exact G|]. inversion B; subst. apply IH; [assumption|]. unfold crc_byte. apply crc_bits_fits.
  apply lxor_fits; [exact G|]. unfold fits32. change (2 ^ 32)%N with 4294967296%N. lia.
Qed.

(** * Bodies *)
Section Deflate.
Context {D : Type}.
Variable fresh : D.
Variable compress : D -> bytes -> D * bytes.
Variable flush : D -> bytes.

Notation deflated := (deflated compress flush).
Notation body := (body fresh compress flush).
Notation stream_files := (stream_files fresh compress flush).
Notation stream_named := (stream_named fresh compress flush).
Notation stream_zip := (stream_zip fresh compress flush).

Notation data_of := (data_of fresh compress flush).

Definition same_file (s s' : state) : Prop :=
  s_flags s' = s_flags s /\ s_date s' = s_date s /\ s_time s' = s_time s /\ s_name s' = s_name s /\ s_offset s' = s_offset s.

Lemma store_spec : forall chunks s, s_compressed s = s_uncompressed s -> exists s', store s chunks = (s', concat chunks) /\ same_file s s' /\
  s_crc s' = fold_left (fun c b => crc32 b c) chunks (s_crc s) /\ s_uncompressed s' = (s_uncompressed s + size_of (concat chunks))%N /\ s_compressed s' = s_uncompressed s'.
Proof.
  induction chunks as [|c chunks IH]; intros s E; cbn [store].
  - exists s. cbn. repeat split; try lia.
  - cbv zeta. destruct (IH (add_sizes s c (s_uncompressed s + size_of c) (s_uncompressed s + size_of c)) eq_refl) as (s' & -> & SF & C & U & Q0).
    exists s'. split; [reflexivity|]. split; [exact SF|]. split; [exact C|]. split; [|exact Q0]. rewrite U. cbn. rewrite size_app. lia.
Qed.

Lemma deflate_spec : forall chunks s d, exists s', deflate compress flush s d chunks = (s', deflated d chunks) /\ same_file s s' /\
  s_crc s' = fold_left (fun c b => crc32 b c) chunks (s_crc s) /\ s_uncompressed s' = (s_uncompressed s + size_of (concat chunks))%N /\
  s_compressed s' = (s_compressed s + size_of (deflated d chunks))%N.
Proof.
  induction chunks as [|c chunks IH]; intros s d; cbn [deflate ZipSpec.deflated].
  - eexists. split; [reflexivity|]. repeat split; try lia. cbn. lia.
  - destruct (compress d c) as [d' out]. cbn [fst snd]. cbv zeta.
    destruct (IH (add_sizes s c (s_uncompressed s + size_of c) (s_compressed s + size_of out)) d') as (s' & -> & SF & C & U & Q0).
    exists s'. split; [reflexivity|]. split; [exact SF|]. split; [exact C|]. rewrite U, Q0. cbn. rewrite !size_app. lia.
Qed.

Lemma crc_chunks : forall chunks c, fold_left (fun c b => crc32 b c) chunks c = crc32 (concat chunks) c.
Proof.
  induction chunks as [|b chunks IH]; intros c; cbn [fold_left concat].
  - unfold crc32. cbn. now rewrite N.lxor_assoc, N.lxor_nilpotent, N.lxor_0_r.
  - rewrite IH. now rewrite crc32_app.
Qed.

Definition new (s : state) : Prop := s_crc s = 0%N /\ s_compressed s = 0%N /\ s_uncompressed s = 0%N.

Lemma body_spec f s : new s -> exists s', body f s = (s', data_of f) /\ same_file s s' /\ s_crc s' = crc32 (content f) 0 /\
  s_uncompressed s' = size_of (content f) /\ s_compressed s' = size_of (data_of f).
Proof.
  intros (N1 & N2 & N3). unfold ZipModel.body, ZipSpec.data_of, content. destruct (N.eqb (f_method f) 8).
  - destruct (deflate_spec (f_chunks f) s fresh) as (s' & E & SF & C & U & Q0). exists s'. split; [exact E|]. split; [exact SF|].
    rewrite C, U, Q0, N1, N2, N3, crc_chunks. repeat split.
  - destruct (store_spec (f_chunks f) s ltac:(congruence)) as (s' & E & SF & C & U & Q0). exists s'. split; [exact E|]. split; [exact SF|].
    rewrite Q0, C, U, N1, N3, crc_chunks. repeat split.
Qed.

(** * The files *)
(** What an entry has to be for a file. *)
Definition entry_of (f : file) (s : state) : entry :=
  {| e_name := s_name s; e_flags := s_flags s; e_method := f_method f; e_time := s_time s; e_date := s_date s; e_crc := crc32 (content f) 0;
     e_size := size_of (content f); e_data := data_of f |}.
Definition central_of (fs : file * state) : central :=
  let (f, s) := fs in
  {| c_entry := {| e_name := s_name s; e_flags := s_flags s; e_method := f_method f; e_time := s_time s; e_date := s_date s; e_crc := s_crc s;
                   e_size := s_uncompressed s; e_data := [] |};
     c_compressed := s_compressed s; c_offset := s_offset s |}.

Definition flagged (s : state) : Prop := N.land (s_flags s) 8 = 8%N.

Lemma stream_files_length : forall l o l' out o', stream_files o l = Some (l', out, o') -> length l' = length l.
Proof.
  induction l as [|[f s] l IH]; intros o l' out o'; cbn [ZipModel.stream_files].
  - intros [= <- _ _]. reflexivity.
  - destruct (local_file_header _ _); [|discriminate]. destruct (body _ _) as [s' data]. destruct (data_descriptor s'); [|discriminate].
    destruct (stream_files _ l) as [[[l'' out'] o'']|] eqn:E; [|discriminate]. intros [= <- _ _]. cbn. now rewrite (IH _ _ _ _ E).
Qed.

Lemma read_files_spec : forall l pre post l' out o' archive, Forall (fun fs => new (snd fs) /\ flagged (snd fs)) l ->
  stream_files (size_of pre) l = Some (l', out, o') -> archive = pre ++ out ++ post ->
  o' = (size_of pre + size_of out)%N /\ read_files (size_of pre) (map central_of l') archive o' = Some (map (fun fs => entry_of (fst fs) (snd fs)) l).
Proof.
  induction l as [|[f s] l IH]; intros pre post l' out o' archive F; cbn [ZipModel.stream_files].
  - intros [= <- <- <-] ->. change (size_of []) with 0%N. rewrite N.add_0_r. cbn [map read_files]. now rewrite N.eqb_refl.
  - inversion F as [|? ? [NW FL] F']; subst. cbn [snd] in NW, FL.
    destruct (local_file_header f (at_offset s (size_of pre))) as [h|] eqn:EH; [|discriminate].
    destruct (body_spec f (at_offset s (size_of pre)) NW) as (s' & -> & (F1 & F2 & F3 & F4 & F5) & C & U & CO). cbn in F1, F2, F3, F4, F5.
    destruct (data_descriptor s') as [d|] eqn:ED; [|discriminate].
    destruct (pack_spec _ _ _ EH) as [LH RH]. destruct (pack_spec _ _ _ ED) as [LD RD]. unfold total, H, L, Q in LH, RH, LD, RD. cbn [length fold_right fst map snd Nat.add] in LH, RH, LD, RD.
    set (whole := h ++ s_name s' ++ data_of f ++ d).
    assert (SW : (size_of pre + (30 + size_of (s_name s') + s_compressed s' + 24))%N = size_of (pre ++ whole)).
    { assert (S1 : size_of h = 30%N) by (unfold size_of; rewrite LH; reflexivity). assert (S2 : size_of d = 24%N) by (unfold size_of; rewrite LD; reflexivity).
      unfold whole. rewrite !size_app, CO. lia. }
    rewrite SW. destruct (stream_files _ l) as [[[l'' out'] o'']|] eqn:E; [|discriminate]. intros [= <- <- <-] EA.
    assert (EA' : archive = (pre ++ whole) ++ out' ++ post) by (rewrite EA, <- !app_assoc; reflexivity).
    destruct (IH (pre ++ whole) post l'' out' o'' archive F' E EA') as [IO IR]. split; [rewrite IO, !size_app; lia|].
    cbn [map read_files central_of c_offset]. rewrite F5, N.eqb_refl. rewrite EA at 1. rewrite from_app by reflexivity.
    assert (RF : read_file {| c_entry := {| e_name := s_name s'; e_flags := s_flags s'; e_method := f_method f; e_time := s_time s'; e_date := s_date s'; e_crc := s_crc s';
                   e_size := s_uncompressed s'; e_data := [] |}; c_compressed := s_compressed s'; c_offset := size_of pre |} ((whole ++ out') ++ post) =
             Some (entry_of f s, out' ++ post)).
    { unfold whole, read_file. cbn [c_entry c_compressed e_name e_flags e_method e_time e_date e_crc e_size]. rewrite <- !app_assoc.
      rewrite (RH (s_name s' ++ data_of f ++ d ++ out' ++ post)). cbn [app].
      assert (A1 : all_eqb [(67324752, 67324752); (s_flags s, s_flags s'); (f_method f, f_method f); (s_time s, s_time s'); (s_date s, s_date s');
        (N.land (s_flags s) 8, 8); (0, 0); (0, 0); (0, 0); (0, 0)]%N = true).
      { repeat apply all_eqb_cons; try reflexivity; auto. }
      cbn [le s_flags s_time s_date s_name at_offset]. change (80 + 256 * (75 + 256 * (3 + 256 * (4 + 256 * 0))))%N with 67324752%N. rewrite A1.
      rewrite take_app by (now rewrite F4). rewrite take_app by exact CO. rewrite (RD (out' ++ post)).
      assert (A2 : all_eqb [(le [80; 75; 7; 8], 134695760); (s_crc s', s_crc s'); (s_compressed s', s_compressed s'); (s_uncompressed s', s_uncompressed s')]%N = true).
      { repeat apply all_eqb_cons; reflexivity. }
      rewrite A2, beqb_refl. cbn [andb]. unfold entry_of. now rewrite F4, C, U. }
    rewrite RF. cbn [option_map fst snd].
    replace (N.of_nat (length archive) - N.of_nat (length (out' ++ post)))%N with (size_of (pre ++ whole)).
    2:{ rewrite EA'. unfold size_of. rewrite !app_length. lia. }
    now rewrite IR.
Qed.

(** * The directory *)
Lemma central_spec f s b : cat (central_header f s) (cat (Some (s_name s)) (extra_field s)) = Some b ->
  size_of b = (74 + size_of (s_name s))%N /\ forall r, read_central (b ++ r) = Some (central_of (f, s), r).
Proof.
  destruct (central_header f s) as [h|] eqn:EH; [|discriminate]. destruct (extra_field s) as [x|] eqn:EX; [|discriminate]. intros [= <-].
  destruct (pack_spec _ _ _ EH) as [LH RH]. destruct (pack_spec _ _ _ EX) as [LX RX]. unfold total, H, L, Q in LH, RH, LX, RX. cbn [length fold_right fst map snd Nat.add] in LH, RH, LX, RX. split.
  - assert (S1 : size_of h = 46%N) by (unfold size_of; rewrite LH; reflexivity). assert (S2 : size_of x = 28%N) by (unfold size_of; rewrite LX; reflexivity).
    rewrite !size_app. lia.
  - intros r. unfold read_central. rewrite <- !app_assoc, (RH (s_name s ++ x ++ r)).
    change (all_eqb [(le [80; 75; 1; 2], 33639248); (max32, 4294967295); (max32, 4294967295); (max32, 4294967295); (0, 0); (0, 0)]%N) with true. cbv iota.
    rewrite take_app by reflexivity. rewrite take_app by (unfold size_of; now rewrite LX). specialize (RX []). rewrite app_nil_r in RX. rewrite RX. reflexivity.
Qed.

Lemma directory_spec : forall l b, stream_entries l = Some b -> read_directory (length l) b = Some (map central_of l).
Proof.
  induction l as [|[f s] l IH]; intros b; cbn [stream_entries].
  - intros [= <-]. reflexivity.
  - destruct (cat (central_header f s) _) as [c|] eqn:EC; [|discriminate]. destruct (stream_entries l) as [b'|]; [|discriminate]. intros [= <-].
    destruct (central_spec _ _ _ EC) as [_ R]. cbn [length read_directory]. rewrite R, (IH b' eq_refl). reflexivity.
Qed.

Lemma fold_sizes : forall (l : list (file * state)) n, fold_left (fun n fs => n + size_of (s_name (snd fs)))%N l n = (n + fold_left (fun n fs => n + size_of (s_name (snd fs)))%N l 0)%N.
Proof.
  induction l as [|fs l IH]; intros n; cbn [fold_left]; [lia|]. rewrite IH, (IH (0 + _)%N). lia.
Qed.

Lemma directory_size_spec : forall l b, stream_entries l = Some b -> size_of b = directory_size l.
Proof.
  induction l as [|[f s] l IH]; intros b; cbn [stream_entries].
  - intros [= <-]. reflexivity.
  - destruct (cat (central_header f s) _) as [c|] eqn:EC; [|discriminate]. destruct (stream_entries l) as [b'|]; [|discriminate]. intros [= <-].
    destruct (central_spec _ _ _ EC) as [SC _]. rewrite size_app, SC, (IH b' eq_refl). unfold directory_size. cbn [fold_left length snd].
    rewrite (fold_sizes l (_ * _)), (fold_sizes l (_ + _)). lia.
Qed.

Lemma cat_some a b c : cat a b = Some c -> exists x y, a = Some x /\ b = Some y /\ c = x ++ y.
Proof. destruct a as [x|], b as [y|]; try discriminate. intros [= <-]. now exists x, y. Qed.

Lemma read_zip_spec l archive : Forall (fun fs => new (snd fs) /\ flagged (snd fs)) l ->
  match stream_files 0 l with
  | None => None
  | Some (l, out, offset) =>
      let n := N.of_nat (length l) in
      cat (Some out) (cat (stream_entries l)
        (cat (end64_record n offset (directory_size l)) (cat (end64_locator (offset + directory_size l)) (end_record n))))
  end = Some archive ->
  read_zip archive = Some (map (fun fs => entry_of (fst fs) (snd fs)) l).
Proof.
  intros F. destruct (stream_files 0 l) as [[[l' out] o]|] eqn:ES; [|discriminate]. cbv zeta. intros E.
  apply cat_some in E as (a & t & [= <-] & E & ->). apply cat_some in E as (dir & t' & ED & E & ->). apply cat_some in E as (e64 & t2 & E64 & E & ->).
  apply cat_some in E as (loc & e & EL & EE & ->).
  destruct (read_files_spec l [] (dir ++ e64 ++ loc ++ e) l' out o _ F ES eq_refl) as [EO RF]. cbn [app] in RF. change (size_of []) with 0%N in EO, RF.
  pose proof (directory_spec _ _ ED) as RD. pose proof (directory_size_spec _ _ ED) as SD.
  destruct (pack_spec _ _ _ E64) as [L64 R64]. destruct (pack_spec _ _ _ EL) as [LL RL]. destruct (pack_spec _ _ _ EE) as [LE RE].
  unfold total, H, L, Q in L64, R64, LL, RL, LE, RE. cbn [length fold_right fst map snd Nat.add] in L64, R64, LL, RL, LE, RE.
  assert (SE : size_of e = 22%N) by (unfold size_of; now rewrite LE). assert (SL : size_of loc = 20%N) by (unfold size_of; now rewrite LL).
  assert (S64 : size_of e64 = 56%N) by (unfold size_of; now rewrite L64).
  set (archive := out ++ dir ++ e64 ++ loc ++ e) in *.
  assert (SA : N.of_nat (length archive) = (size_of out + size_of dir + 98)%N).
  { change (size_of archive = (size_of out + size_of dir + 98)%N). unfold archive. rewrite !size_app. lia. }
  unfold read_zip. rewrite SA. destruct (N.ltb_spec (size_of out + size_of dir + 98) 98); [lia|].
  assert (A1 : from (size_of out + size_of dir + 98 - 22) archive = Some e).
  { replace archive with ((out ++ dir ++ e64 ++ loc) ++ e) by (unfold archive; now rewrite <- !app_assoc). apply from_app. rewrite !size_app. lia. }
  assert (A2 : from (size_of out + size_of dir + 98 - 42) archive = Some (loc ++ e)).
  { replace archive with ((out ++ dir ++ e64) ++ loc ++ e) by (unfold archive; now rewrite <- !app_assoc). apply from_app. rewrite !size_app. lia. }
  assert (A3 : from (size_of out + size_of dir) archive = Some (e64 ++ loc ++ e)).
  { replace archive with ((out ++ dir) ++ e64 ++ loc ++ e) by (unfold archive; now rewrite <- !app_assoc). apply from_app. rewrite !size_app. lia. }
  assert (A4 : from o archive = Some (dir ++ e64 ++ loc ++ e)).
  { apply from_app. rewrite EO. lia. }
  rewrite A1, A2. specialize (RE []). rewrite app_nil_r in RE. rewrite RE, RL.
  assert (C1 : all_eqb [(le [80; 75; 5; 6], 101010256); (0, 0); (0, 0); (N.of_nat (length l'), N.of_nat (length l')); (max32, 4294967295); (max32, 4294967295); (0, 0);
     (le [80; 75; 6; 7], 117853008); (0, 0); (1, 1); (o + directory_size l', size_of out + size_of dir + 98 - 98)]%N = true).
  { repeat apply all_eqb_cons; try reflexivity. rewrite EO, SD. lia. }
  rewrite C1. replace (o + directory_size l')%N with (size_of out + size_of dir)%N by (rewrite EO, SD; lia). rewrite A3, R64.
  assert (C2 : all_eqb [(le [80; 75; 6; 6], 101075792); (44, 44); (0, 0); (0, 0); (N.of_nat (length l'), N.of_nat (length l')); (N.of_nat (length l'), N.of_nat (length l'));
     (o + directory_size l', size_of out + size_of dir)]%N = true).
  { repeat apply all_eqb_cons; try reflexivity. rewrite EO, SD. lia. }
  rewrite C2, A4, take_app by (now rewrite SD). rewrite Nat2N.id, RD. exact RF.
Qed.

(** * Names *)
Lemma new_states_spec : forall fs ns l, new_states fs ns = Some l -> length fs = length ns ->
  Forall (fun s => new (snd s) /\ flagged (snd s)) l /\
  Forall2 (fun f fs => fst fs = f /\ s_time (snd fs) = modification_time (f_modified f) /\ s_date (snd fs) = modification_date (f_modified f)) fs l /\
  Forall2 (fun n fs => s_name (snd fs) = utf8 n /\ existsb surrogate n = false /\ (N.testbit (s_flags (snd fs)) 11 = negb (Nat.eqb (length n) (length (utf8 n))))) ns l.
Proof.
  induction fs as [|f fs IH]; intros [|n ns] l E LE; try discriminate.
  - cbn in E. injection E as <-. repeat constructor.
  - cbn [new_states] in E. unfold new_state in E at 1. destruct (existsb surrogate n) eqn:SG; [discriminate|]. destruct (new_states fs ns) as [l'|] eqn:EN; [|discriminate].
    injection E as <-. destruct (IH ns l' EN ltac:(now injection LE)) as (I1 & I2 & I3). repeat split; constructor; auto; cbn.
    + split; [repeat split|]. unfold flagged. cbn. destruct (Nat.eqb _ _); reflexivity.
    + repeat split; auto. destruct (Nat.eqb _ _); reflexivity.
Qed.


(** * Archives *)
Definition named (dedup : bool) (fs : list file) : list name := if dedup then deduplicate (map f_name fs) else map f_name fs.

Lemma Forall2_map_r {A B C} (R : A -> B -> Prop) (g : C -> B) l m : Forall2 (fun a c => R a (g c)) l m -> Forall2 R l (map g m).
Proof. induction 1; constructor; assumption. Qed.

Lemma utf8_length_ascii n : length (utf8 n) = length n <-> Forall (fun c => (c < 128)%N) n.
Proof.
  assert (G : forall n, length n <= length (utf8 n)).
  { induction n0 as [|c n0 IH]; [cbn; lia|]. cbn [utf8 flat_map]. fold (utf8 n0). rewrite app_length. cbn [length]. unfold encode1.
    destruct (N.ltb c 128), (N.ltb c 2048), (N.ltb c 65536); cbn [length]; lia. }
  split.
  - induction n as [|c n IH]; [constructor|]. cbn [utf8 flat_map]. fold (utf8 n). rewrite app_length. cbn [length]. specialize (G n). unfold encode1.
    destruct (N.ltb_spec c 128); cbn [length]; intros E.
    + constructor; [assumption|apply IH; lia].
    + destruct (N.ltb c 2048), (N.ltb c 65536); cbn [length] in E; lia.
  - intros F. now rewrite utf8_ascii.
Qed.

Lemma archive_spec dedup fs archive : stream_zip dedup fs = Some archive ->
  exists es, read_zip archive = Some es /\ Forall2 (contains fresh compress flush) fs es /\ Forall2 carries (named dedup fs) es.
Proof.
  unfold ZipModel.stream_zip, ZipModel.stream_named. fold (named dedup fs).
  assert (LN : length fs = length (named dedup fs)).
  { unfold named. destruct dedup; [|now rewrite map_length]. pose proof (Forall2_length (all_renumbered (map f_name fs) [])) as E. rewrite map_length in E. exact E. }
  destruct (new_states fs (named dedup fs)) as [l|] eqn:EN; [|discriminate]. destruct (new_states_spec _ _ _ EN LN) as (I1 & I2 & I3).
  intros E. eexists. split; [apply (read_zip_spec l archive I1 E)|]. split; apply Forall2_map_r.
  - revert I2. apply Forall2_impl. intros f [f' s] (-> & T & DA). unfold contains, entry_of. cbn in *. repeat split; assumption.
  - revert I3. apply Forall2_impl. intros n [f s] (EN' & _ & T). unfold carries, entry_of. cbn in *. split; [exact EN'|]. rewrite T.
    rewrite negb_true_iff, Nat.eqb_neq, <- utf8_length_ascii. split; intros X Y; apply X; now symmetry.
Qed.

(** ** Unique names *)
Lemma digit_scalar c : is_digit c = true -> scalar c.
Proof. intros X. apply digit_range in X. unfold scalar. lia. Qed.

Lemma renumbered_scalar l r : renumbered l r -> Forall scalar l -> Forall scalar r.
Proof.
  intros (p & n & m & x & -> & -> & _ & M & _). rewrite !Forall_app. intros (P & _ & X). repeat split; auto. destruct M as [-> | (d & -> & _ & Dd)]; [constructor|].
  repeat (constructor; [unfold scalar; lia|]). rewrite Forall_app. split; [|repeat constructor; unfold scalar; lia]. revert Dd. apply Forall_impl, digit_scalar.
Qed.

Lemma utf8_inj a b : Forall scalar a -> Forall scalar b -> utf8 a = utf8 b -> a = b.
Proof. intros A B E. pose proof (decode_utf8 a A) as X. rewrite E, (decode_utf8 b B) in X. now injection X. Qed.

Lemma unique_names fs archive es : Forall simple (map f_name fs) -> Forall (Forall scalar) (map f_name fs) -> stream_zip true fs = Some archive ->
  read_zip archive = Some es -> NoDup (map e_name es).
Proof.
  intros SI SC E R. destruct (archive_spec true fs archive E) as (es' & R' & _ & NA). rewrite R in R'. injection R' as <-. cbn in NA.
  pose proof (unique (map f_name fs) SI) as ND. assert (SD : Forall (Forall scalar) (deduplicate (map f_name fs))).
  { pose proof (all_renumbered (map f_name fs) []) as RN. revert SC. clear - RN. change (run [] (map f_name fs)) with (deduplicate (map f_name fs)) in RN.
    induction RN; intros SC; [constructor|]. inversion SC; subst. constructor; [eapply renumbered_scalar; eassumption|auto]. }
  clear - NA ND SD. revert ND SD. induction NA as [|n e ns es [EN _] NA IH]; intros ND SD; [constructor|]. cbn [map]. inversion ND; subst. inversion SD; subst.
  constructor; [|now apply IH]. intros J. apply in_map_iff in J as (e' & E' & J). apply H1.
  clear - NA E' J EN H3 H4. induction NA as [|n' e2 ns es [EN' _] NA IH]; [destruct J|]. inversion H4; subst. destruct J as [<-|J]; [left|right; now apply IH].
  apply utf8_inj; auto. congruence.
Qed.

(** * Limits *)
Lemma pack_some sig l : Forall (fun p => (snd p < limit (fst p))%N) l -> exists b, pack sig l = Some b.
Proof.
  unfold pack. induction l as [|[w v] l IH]; intros F; cbn [pack_ints]; [eexists; reflexivity|]. inversion F as [|? ? F1 F2]; subst. cbn [fst snd] in F1.
  apply N.ltb_lt in F1. rewrite F1. destruct (IH F2) as [b E]. destruct (pack_ints l); [|discriminate]. cbn. eexists. reflexivity.
Qed.

Definition cost (fs : file * state) : N := (54 + size_of (s_name (snd fs)) + size_of (data_of (fst fs)))%N.
Definition costs (l : list (file * state)) : N := fold_right (fun fs n => cost fs + n)%N 0%N l.
Definition fits (fs : file * state) : Prop :=
  new (snd fs) /\ (s_flags (snd fs) < 65536)%N /\ (s_date (snd fs) < 65536)%N /\ (s_time (snd fs) < 65536)%N /\ (f_method (fst fs) < 65536)%N /\
  (size_of (s_name (snd fs)) < 65536)%N /\ all_bytes (content (fst fs)) /\ (size_of (content (fst fs)) < 2 ^ 64)%N.
Definition packs (fs : file * state) : Prop :=
  exists b, cat (central_header (fst fs) (snd fs)) (cat (Some (s_name (snd fs))) (extra_field (snd fs))) = Some b.

Lemma limit_H : limit H = 65536%N. Proof. reflexivity. Qed.
Lemma limit_L : limit L = 4294967296%N. Proof. reflexivity. Qed.
Lemma limit_Q : limit Q = 18446744073709551616%N. Proof. reflexivity. Qed.
Ltac limits := repeat (constructor; [cbn [fst snd]; rewrite ?limit_H, ?limit_L, ?limit_Q; try (change (2 ^ 32)%N with 4294967296%N in *; unfold max32; lia)|]); constructor.

Lemma all_bytes_crc f : all_bytes (content f) -> (crc32 (content f) 0 < 4294967296)%N.
Proof. intros B. apply (crc32_fits (content f) 0); [reflexivity|exact B]. Qed.

Lemma stream_files_some : forall l o, Forall fits l -> (o + costs l < 18446744073709551616)%N ->
  exists l' out, stream_files o l = Some (l', out, (o + costs l)%N) /\ Forall packs l' /\ Forall2 (fun a b => s_name (snd a) = s_name (snd b)) l l'.
Proof.
  induction l as [|[f s] l IH]; intros o F B; cbn [ZipModel.stream_files].
  - exists [], []. cbn. rewrite N.add_0_r. repeat split; constructor.
  - inversion F as [|? ? (X1 & X2 & X3 & X4 & X5 & X6 & X7 & X8) F']; subst. cbn [fst snd] in *. cbn [costs fold_right] in B. fold (costs l) in B. unfold cost in B. cbn [fst snd] in B.
    destruct (pack_some [80; 75; 3; 4]%N [(H, 45); (H, s_flags s); (H, f_method f); (H, s_time s); (H, s_date s); (L, 0); (L, 0); (L, 0); (H, size_of (s_name s)); (H, 0)]%N) as [h EH].
    { limits. }
    unfold local_file_header at 1. cbn [s_flags s_time s_date s_name at_offset]. rewrite EH.
    destruct (body_spec f (at_offset s o) X1) as (s' & -> & (F1 & F2 & F3 & F4 & F5) & C & U & CO). cbn in F1, F2, F3, F4, F5.
    pose proof (all_bytes_crc f X7) as CF. change (2 ^ 64)%N with 18446744073709551616%N in X8.
    destruct (pack_some [80; 75; 7; 8]%N [(L, s_crc s'); (Q, s_compressed s'); (Q, s_uncompressed s')]) as [d ED].
    { rewrite C, U, CO. limits. }
    unfold data_descriptor at 1. rewrite ED.
    destruct (IH (o + (30 + size_of (s_name s') + s_compressed s' + 24))%N F') as (l' & out & E & P & NM).
    { rewrite F4, CO. lia. }
    rewrite E. exists ((f, s') :: l'), ((h ++ s_name s' ++ data_of f ++ d) ++ out). split; [|split].
    + do 2 f_equal. rewrite F4, CO. cbn [costs fold_right]. fold (costs l). unfold cost. cbn [fst snd]. lia.
    + constructor; [|exact P]. unfold packs. cbn [fst snd].
      destruct (pack_some [80; 75; 1; 2]%N [(H, 2629); (H, 45); (H, s_flags s'); (H, f_method f); (H, s_time s'); (H, s_date s'); (L, s_crc s'); (L, max32); (L, max32);
         (H, size_of (s_name s')); (H, 28); (H, 0); (H, 0); (H, 0); (L, 0); (L, max32)]%N) as [b1 E1].
      { rewrite C, F1, F2, F3, F4. limits. }
      destruct (pack_some [1; 0]%N [(H, 24%N); (Q, s_uncompressed s'); (Q, s_compressed s'); (Q, s_offset s')]) as [b2 E2].
      { rewrite U, CO, F5. limits. }
      unfold central_header, extra_field. rewrite E1, E2. cbn. eexists. reflexivity.
    + constructor; [cbn; now rewrite F4|exact NM].
Qed.

Lemma entries_some : forall l, Forall packs l -> exists b, stream_entries l = Some b.
Proof.
  induction l as [|[f s] l IH]; intros F; cbn [stream_entries]; [eexists; reflexivity|]. inversion F as [|? ? [b EB] F']; subst. cbn [fst snd] in EB. rewrite EB.
  destruct (IH F') as [b' ->]. eexists. reflexivity.
Qed.

Lemma land_65535 z : (Z.to_N (Z.land z 65535) < 65536)%N.
Proof. change 65535%Z with (Z.ones 16). rewrite Z.land_ones by lia. pose proof (Z.mod_pos_bound z (2 ^ 16) ltac:(lia)). change (2 ^ 16)%Z with 65536%Z in *. lia. Qed.

Lemma new_states_some : forall fs ns, Forall (fun n => existsb surrogate n = false) ns -> exists l, new_states fs ns = Some l.
Proof.
  induction fs as [|f fs IH]; intros ns F; cbn [new_states]; [eexists; reflexivity|]. destruct ns as [|n ns]; [eexists; reflexivity|]. inversion F as [|? ? F1 F2]; subst.
  unfold new_state. rewrite F1. destruct (IH ns F2) as [l ->]. eexists. reflexivity.
Qed.

Lemma scalar_surrogate n : Forall scalar n -> existsb surrogate n = false.
Proof.
  induction 1 as [|c n [_ C] _ IH]; [reflexivity|]. cbn. rewrite IH, orb_false_r. unfold surrogate. apply andb_false_iff. rewrite N.leb_gt, N.ltb_ge. lia.
Qed.

Lemma states_fit : forall fs ns l, new_states fs ns = Some l -> length fs = length ns -> Forall2 within_limits fs ns ->
  Forall fits l /\ (costs l + directory_size l <= weight fresh compress flush fs ns)%N /\ length l = length fs.
Proof.
  induction fs as [|f fs IH]; intros [|n ns] l E LE F; try discriminate.
  - cbn in E. injection E as <-. repeat constructor. reflexivity.
  - cbn [new_states] in E. unfold new_state in E at 1. destruct (existsb surrogate n) eqn:SG; [discriminate|]. destruct (new_states fs ns) as [l'|] eqn:EN; [|discriminate].
    injection E as <-. inversion F as [|? ? ? ? (W1 & W2 & W3 & W4 & W5) F']; subst. destruct (IH ns l' EN ltac:(now injection LE) F') as (I1 & I2 & I3). split; [|split].
    + constructor; [|exact I1]. unfold fits. cbn. repeat split; try apply land_65535; auto.
      * destruct (Nat.eqb _ _); reflexivity.
      * destruct W2 as [-> | ->]; reflexivity.
    + revert I2. unfold directory_size. cbn [costs fold_right fold_left length snd weight]. fold (costs l'). unfold cost. cbn [fst snd s_name].
      rewrite (fold_sizes l' (_ * _)), (fold_sizes l' (_ + _)). unfold size_of. lia.
    + cbn. now rewrite I3.
Qed.

Lemma limits_enough dedup fs : length fs < 2 ^ 16 -> Forall2 within_limits fs (named dedup fs) ->
  (weight fresh compress flush fs (named dedup fs) < 2 ^ 64)%N -> exists archive, stream_zip dedup fs = Some archive.
Proof.
  intros LF F W. unfold ZipModel.stream_zip, ZipModel.stream_named. fold (named dedup fs).
  assert (LN : length fs = length (named dedup fs)) by (eapply Forall2_length; exact F).
  destruct (new_states_some fs (named dedup fs)) as [l EN].
  { clear - F. induction F as [|f n fs ns (W1 & _) F IH]; constructor; [now apply scalar_surrogate|exact IH]. }
  rewrite EN. destruct (states_fit _ _ _ EN LN F) as (I1 & I2 & I3). change (2 ^ 64)%N with 18446744073709551616%N in W.
  destruct (stream_files_some l 0 I1 ltac:(lia)) as (l' & out & -> & P & NM). pose proof (Forall2_length NM) as LL. destruct (entries_some l' P) as [dir ED]. rewrite ED.
  assert (DS : directory_size l' = directory_size l).
  { unfold directory_size. rewrite LL. generalize ((46 + 28) * N.of_nat (length l'))%N. clear - NM. induction NM as [|a b l l' E NM IH]; intros n; cbn [fold_left]; [reflexivity|]. now rewrite E, IH. }
  assert (NB : (N.of_nat (length l') < 65536)%N).
  { rewrite <- LL, I3. change (2 ^ 16) with (N.to_nat 65536) in LF. lia. }
  cbv zeta. rewrite N.add_0_l, DS.
  destruct (pack_some [80; 75; 6; 6]%N [(Q, 44); (H, 2629); (H, 45); (L, 0); (L, 0); (Q, N.of_nat (length l')); (Q, N.of_nat (length l')); (Q, directory_size l); (Q, costs l)]%N) as [b1 E1]; [limits|].
  destruct (pack_some [80; 75; 6; 7]%N [(L, 0); (Q, costs l + directory_size l); (L, 1)]%N) as [b2 E2]; [limits|].
  destruct (pack_some [80; 75; 5; 6]%N [(H, 0); (H, 0); (H, N.of_nat (length l')); (H, N.of_nat (length l')); (L, max32); (L, max32); (H, 0)]%N) as [b3 E3]; [limits|].
  unfold end64_record, end64_locator, end_record. rewrite E1, E2, E3. cbn. eexists. reflexivity.
Qed.

Lemma too_many dedup fs : 2 ^ 16 <= length fs -> stream_zip dedup fs = None.
Proof.
  intros LF. unfold ZipModel.stream_zip, ZipModel.stream_named. fold (named dedup fs).
  destruct (new_states fs (named dedup fs)) as [l|] eqn:EN; [|reflexivity].
  assert (LN : length fs = length (named dedup fs)).
  { unfold named. destruct dedup; [|now rewrite map_length]. pose proof (Forall2_length (all_renumbered (map f_name fs) [])) as E. rewrite map_length in E. exact E. }
  destruct (new_states_spec _ _ _ EN LN) as (_ & I2 & _). apply Forall2_length in I2. destruct (stream_files 0 l) as [[[l' out] o]|] eqn:ES; [|reflexivity].
  pose proof (stream_files_length _ _ _ _ _ ES) as LL. cbv zeta.
  assert (E : end_record (N.of_nat (length l')) = None).
  { unfold end_record, pack. cbn [pack_ints]. rewrite limit_H. destruct (N.ltb_spec (N.of_nat (length l')) 65536) as [X|X]; [|reflexivity].
    rewrite LL, <- I2 in X. change (2 ^ 16) with (N.to_nat 65536) in LF. lia. }
  rewrite E. destruct (stream_entries l'), (end64_record _ _ _), (end64_locator _); reflexivity.
Qed.

End Deflate.

(** * Dates *)
Lemma lor_shift a b k : (0 <= k)%Z -> (0 <= b < 2 ^ k)%Z -> Z.lor (Z.shiftl a k) b = (a * 2 ^ k + b)%Z.
Proof.
  intros K B. rewrite <- Z.shiftl_mul_pow2 by exact K. assert (A : Z.land (Z.shiftl a k) b = 0%Z); [|now rewrite <- Z.lxor_lor, Z.add_nocarry_lxor].
  apply Z.bits_inj'. intros n Hn. rewrite Z.land_spec, Z.bits_0.
  destruct (Z.lt_ge_cases n k) as [X|X].
  - now rewrite Z.shiftl_spec_low.
  - rewrite <- (Z.mod_small b (2 ^ k)) by exact B. rewrite Z.mod_pow2_bits_high by lia. apply andb_false_r.
Qed.

Lemma three a b c : (0 <= a < 128)%Z -> (0 <= b < 16)%Z -> (0 <= c < 32)%Z ->
  Z.to_N (Z.land (Z.lor (Z.lor (Z.shiftl a 9) (Z.shiftl b 5)) c) 65535) = (Z.to_N a * 512 + Z.to_N b * 32 + Z.to_N c)%N.
Proof.
  intros A B C. rewrite <- Z.lor_assoc, (lor_shift b c 5) by (try lia; exact C). change (2 ^ 5)%Z with 32%Z. rewrite lor_shift by (change (2 ^ 9)%Z with 512%Z; lia).
  change 65535%Z with (Z.ones 16). rewrite Z.land_ones by lia. change (2 ^ 9)%Z with 512%Z. change (2 ^ 16)%Z with 65536%Z. rewrite Z.mod_small by lia. lia.
Qed.

Lemma three_time a b c : (0 <= a < 32)%Z -> (0 <= b < 64)%Z -> (0 <= c < 32)%Z ->
  Z.to_N (Z.land (Z.lor (Z.lor (Z.shiftl a 11) (Z.shiftl b 5)) c) 65535) = (Z.to_N a * 2048 + Z.to_N b * 32 + Z.to_N c)%N.
Proof.
  intros A B C. rewrite <- Z.lor_assoc, (lor_shift b c 5) by (try lia; exact C). change (2 ^ 5)%Z with 32%Z. rewrite lor_shift by (change (2 ^ 11)%Z with 2048%Z; lia).
  change 65535%Z with (Z.ones 16). rewrite Z.land_ones by lia. change (2 ^ 11)%Z with 2048%Z. change (2 ^ 16)%Z with 65536%Z. rewrite Z.mod_small by lia. lia.
Qed.

Lemma date_spec d : real d -> (1980 <= year d < 2108)%Z -> date_of (modification_date d) = (Z.to_N (year d), Z.to_N (month d), Z.to_N (day d)).
Proof.
  intros (M & Dd & _) Y. unfold modification_date. rewrite three by lia. unfold date_of.
  set (y := Z.to_N (year d - 1980)). set (m := Z.to_N (month d)). set (x := Z.to_N (day d)). assert (m < 16 /\ x < 32)%N by lia.
  f_equal; [f_equal|].
  - replace ((y * 512 + m * 32 + x) / 512)%N with y; [lia|]. apply (N.div_unique _ 512 y (m * 32 + x)); lia.
  - replace ((y * 512 + m * 32 + x) / 32)%N with (y * 16 + m)%N; [|apply (N.div_unique _ 32 _ x); lia]. symmetry. apply (N.mod_unique _ 16 y m); lia.
  - symmetry. apply (N.mod_unique _ 32 (y * 16 + m) x); lia.
Qed.

Lemma time_spec d : real d -> time_of (modification_time d) = (Z.to_N (hour d), Z.to_N (minute d), (2 * (Z.to_N (second d) / 2))%N).
Proof.
  intros (_ & _ & A & B & C). unfold modification_time. rewrite Z.shiftr_div_pow2 by lia. change (2 ^ 1)%Z with 2%Z.
  assert (0 <= second d / 2 < 32)%Z by (split; [apply Z.div_pos; lia|apply Z.div_lt_upper_bound; lia]). rewrite three_time by lia. unfold time_of.
  replace (Z.to_N (second d) / 2)%N with (Z.to_N (second d / 2)) by (rewrite Z2N.inj_div by lia; reflexivity).
  set (y := Z.to_N (hour d)). set (m := Z.to_N (minute d)). set (x := Z.to_N (second d / 2)). assert (m < 64 /\ x < 32)%N by lia.
  f_equal; [f_equal|f_equal].
  - symmetry. apply (N.div_unique _ 2048 y (m * 32 + x)); lia.
  - replace ((y * 2048 + m * 32 + x) / 32)%N with (y * 64 + m)%N; [|apply (N.div_unique _ 32 _ x); lia]. symmetry. apply (N.mod_unique _ 64 y m); lia.
  - symmetry. apply (N.mod_unique _ 32 (y * 64 + m) x); lia.
Qed.
