From Coq Require Import List Arith Bool NArith Lia Relations.
From Verif Require Import Bytes FrameSpec FrameModel FrameProofs DnsModel DnsSpec.
Import ListNotations.

(** * Slices *)

Lemma slice_mid data pre x post a b : data = pre ++ x ++ post -> length pre = a -> b = a + length x -> slice data a b = x.
Proof.
  intros -> <- ->. unfold slice. replace (length pre + length x - length pre) with (length x) by blia.
  rewrite skipn_app, skipn_all, Nat.sub_diag. cbn [skipn app]. rewrite firstn_app, firstn_all, Nat.sub_diag. cbn [firstn]. apply app_nil_r.
Qed.

Lemma skipn_plus {A} a b (l : list A) : skipn a (skipn b l) = skipn (b + a) l.
Proof. revert l. induction b as [|b IH]; intros l; [reflexivity|]. destruct l; [destruct a; reflexivity|]. apply IH. Qed.

Lemma slice_split data a b : a <= b -> b <= length data ->
  data = firstn a data ++ slice data a b ++ skipn b data /\ length (firstn a data) = a /\ length (slice data a b) = b - a.
Proof.
  intros H1 H2. unfold slice. split; [|split].
  - rewrite <- (firstn_skipn a data) at 1. f_equal. rewrite <- (firstn_skipn (b - a) (skipn a data)) at 1. f_equal.
    rewrite skipn_plus. f_equal. blia.
  - rewrite firstn_length. blia.
  - rewrite firstn_length, skipn_length. blia.
Qed.

Lemma byte_of data i b : all_byte data -> nth_error data i = Some b -> is_byte b.
Proof. intros H E. apply nth_error_In in E. unfold all_byte in H. rewrite Forall_forall in H. apply H. exact E. Qed.

(** * One step of the reader *)

Lemma label_step data i b : nth_error data i = Some b -> (0 < b < 64)%N -> S i + N.to_nat b <= length data ->
  label_at data i (slice data (S i) (S i + N.to_nat b)).
Proof.
  intros E Hb L. destruct (slice_split data (S i) (S i + N.to_nat b)) as (D & _ & D2); [blia|exact L|].
  exists (firstn i data), (skipn (S i + N.to_nat b) data). split; [|split].
  - rewrite D2. replace (S i + N.to_nat b - S i) with (N.to_nat b) by blia. rewrite N2Nat.id.
    rewrite <- (firstn_skipn i data) at 1. f_equal.
    assert (Q : skipn i data = b :: skipn (S i) data).
    { clear -E. revert i E. induction data as [|x d IH]; intros [|i] E; try discriminate; cbn in *; [congruence|]. apply IH. exact E. }
    rewrite Q. cbn [app]. f_equal. unfold slice.
    replace (S i + N.to_nat b - S i) with (N.to_nat b) by blia. rewrite <- (firstn_skipn (N.to_nat b) (skipn (S i) data)) at 1. f_equal.
    rewrite skipn_plus. reflexivity.
  - rewrite firstn_length. assert (i < length data) by (apply nth_error_Some; congruence). blia.
  - rewrite D2. blia.
Qed.

Lemma pointer_value b c : is_byte b -> is_byte c -> (192 <= b)%N ->
  N.lor (N.shiftl (N.land b 63) 8) c = (256 * (b - 192) + c)%N.
Proof.
  intros Hb Hc L. rewrite lor_add by exact Hc. change 63%N with (N.ones 6). rewrite N.land_ones. change (2 ^ 6)%N with 64%N. change (2 ^ 8)%N with 256%N.
  unfold is_byte in *. assert (E : (b mod 64 = b - 192)%N).
  { symmetry. apply (N.mod_unique b 64 3); blia. }
  rewrite E. blia.
Qed.

Lemma pointer_step data i b c : all_byte data -> nth_error data i = Some b -> (192 <= b)%N -> nth_error data (S i) = Some c ->
  points data i (N.to_nat (N.lor (N.shiftl (N.land b 63) 8) c)).
Proof.
  intros A E L E2. pose proof (byte_of _ _ _ A E) as Hb. pose proof (byte_of _ _ _ A E2) as Hc. unfold is_byte in *.
  exists (b - 192)%N, c. split; [unfold at_; rewrite E; f_equal; blia|]. split; [blia|]. split; [exact E2|].
  rewrite pointer_value by assumption. reflexivity.
Qed.

Lemma label_at_inv data i label : label_at data i label ->
  nth_error data i = Some (N.of_nat (length label)) /\ (0 < N.of_nat (length label) < 64)%N /\
  S i + length label <= length data /\ slice data (S i) (S i + length label) = label.
Proof.
  intros (pre & post & -> & <- & L). split; [|split; [blia|split]].
  - rewrite nth_error_app2, Nat.sub_diag by blia. reflexivity.
  - rewrite !app_length. cbn [length]. blia.
  - apply (slice_mid _ (pre ++ [N.of_nat (length label)]) label post); [rewrite <- app_assoc; reflexivity|rewrite app_length; cbn; blia|reflexivity].
Qed.

Lemma points_inv data i t : all_byte data -> points data i t -> exists b c, nth_error data i = Some b /\ (192 <= b)%N /\
  nth_error data (S i) = Some c /\ t = N.to_nat (N.lor (N.shiftl (N.land b 63) 8) c).
Proof.
  intros A (b & c & E1 & L & E2 & ->). exists (192 + b)%N, c. split; [exact E1|]. split; [blia|]. split; [exact E2|].
  rewrite pointer_value; [f_equal; blia|exact (byte_of _ _ _ A E1)|exact (byte_of _ _ _ A E2)|blia].
Qed.

(** * Soundness *)

Lemma parse_sound : forall fuel data i f acc ls top, all_byte data -> parse_labels fuel data i f acc = Ok (ls, top) ->
  exists labels next, ls = acc ++ labels /\ name_at data i labels next /\ next <= top /\ f <= top.
Proof.
  induction fuel as [|fuel IH]; intros data i f acc ls top A H; [discriminate|]. cbn [parse_labels] in H.
  destruct (nth_error data i) as [b|] eqn:E; [|discriminate].
  destruct (N.eqb_spec b 0) as [->|N0].
  { injection H as <- <-. exists [], (S i). rewrite app_nil_r. split; [reflexivity|]. split; [apply Name_root; exact E|]. blia. }
  destruct (N.ltb_spec b 64) as [L|L].
  { destruct (Nat.ltb_spec (length data) (S i + N.to_nat b)) as [Q|Q]; [discriminate|].
    apply IH in H; [|exact A]. destruct H as (labels & next & -> & H1 & H2 & H3).
    exists (slice data (S i) (S i + N.to_nat b) :: labels), next. rewrite <- app_assoc. split; [reflexivity|].
    assert (LA : label_at data i (slice data (S i) (S i + N.to_nat b))) by (apply label_step; [exact E|blia|exact Q]).
    split; [|split; [exact H2|blia]]. apply Name_label; [exact LA|].
    destruct (slice_split data (S i) (S i + N.to_nat b)) as (_ & _ & D); [blia|exact Q|]. rewrite D.
    replace (S i + (S i + N.to_nat b - S i)) with (S i + N.to_nat b) by blia. exact H1. }
  destruct (N.ltb_spec b 192) as [L2|L2]; [discriminate|].
  destruct (nth_error data (S i)) as [c|] eqn:E2; [|discriminate].
  destruct (Nat.ltb _ _); [discriminate|].
  apply IH in H; [|exact A]. destruct H as (labels & next & -> & H1 & H2 & H3).
  exists labels, (S (S i)). split; [reflexivity|]. split; [|blia].
  eapply Name_pointer; [apply pointer_step; eassumption|exact H1].
Qed.

(** * Completeness *)

Lemma prior_after data i labels next : prior_name data i labels next -> i < next.
Proof. induction 1; blia. Qed.

Lemma prior_complete data i labels next : all_byte data -> prior_name data i labels next ->
  exists n, forall fuel f acc, n <= fuel -> parse_labels fuel data i f acc = Ok (acc ++ labels, Nat.max f next).
Proof.
  intros A. induction 1 as [i H|i label labels next H P [n IH]|i t labels next H P [n IH] L].
  - exists 1. intros [|fuel] f acc Hf; [blia|]. cbn [parse_labels]. unfold at_ in H. rewrite H. cbn [N.eqb]. rewrite app_nil_r. reflexivity.
  - exists (S n). intros [|fuel] f acc Hf; [blia|]. cbn [parse_labels]. destruct (label_at_inv _ _ _ H) as (E & R & B & S_).
    rewrite E. destruct (N.eqb_spec (N.of_nat (length label)) 0); [blia|]. destruct (N.ltb_spec (N.of_nat (length label)) 64); [|blia].
    rewrite Nat2N.id. destruct (Nat.ltb_spec (length data) (S i + length label)); [blia|].
    rewrite S_, IH, <- app_assoc by blia. apply prior_after in P. cbn [app]. f_equal. f_equal. blia.
  - exists (S n). intros [|fuel] f acc Hf; [blia|]. cbn [parse_labels]. destruct (points_inv _ _ _ A H) as (b & c & E & R & E2 & T).
    rewrite E. destruct (N.eqb_spec b 0); [blia|]. destruct (N.ltb_spec b 64); [blia|]. destruct (N.ltb_spec b 192); [blia|].
    rewrite E2, <- T. apply prior_after in P. destruct (Nat.ltb_spec (Nat.max (Nat.max f (S i)) (S (S i))) t); [blia|].
    rewrite IH by blia. f_equal. f_equal. blia.
Qed.

(** * Termination *)

Inductive chain (data : bytes) : nat -> list nat -> Prop :=
| Chain_nil : forall i, chain data i []
| Chain_cons : forall i j l, i < length data -> goes data i j -> chain data j l -> chain data i (i :: l).

Lemma spin_chain : forall fuel data i f acc, all_byte data -> parse_labels fuel data i f acc = Spin ->
  exists l, length l = fuel /\ chain data i l.
Proof.
  induction fuel as [|fuel IH]; intros data i f acc A H; [exists []; split; [reflexivity|apply Chain_nil]|]. cbn [parse_labels] in H.
  destruct (nth_error data i) as [b|] eqn:E; [|discriminate].
  assert (Li : i < length data) by (apply nth_error_Some; congruence).
  destruct (N.eqb_spec b 0) as [->|N0]; [discriminate|].
  destruct (N.ltb_spec b 64) as [L|L].
  { destruct (Nat.ltb_spec (length data) (S i + N.to_nat b)) as [Q|Q]; [discriminate|].
    apply IH in H; [|exact A]. destruct H as (l & Hl & C). exists (i :: l). split; [cbn; congruence|].
    eapply Chain_cons; [exact Li| |exact C]. left. exists (slice data (S i) (S i + N.to_nat b)).
    split; [apply label_step; [exact E|blia|exact Q]|].
    destruct (slice_split data (S i) (S i + N.to_nat b)) as (_ & _ & D); [blia|exact Q|]. rewrite D. blia. }
  destruct (N.ltb_spec b 192) as [L2|L2]; [discriminate|].
  destruct (nth_error data (S i)) as [c|] eqn:E2; [|discriminate].
  destruct (Nat.ltb _ _); [discriminate|].
  apply IH in H; [|exact A]. destruct H as (l & Hl & C). exists (i :: l). split; [cbn; congruence|].
  eapply Chain_cons; [exact Li| |exact C]. right. apply pointer_step; assumption.
Qed.

Lemma chain_below data i l : chain data i l -> forall x, In x l -> x < length data.
Proof. induction 1; intros x Hx; [destruct Hx|]. destruct Hx as [<-|Hx]; auto. Qed.

Lemma chain_reach data i l : chain data i l -> forall x, In x l -> x = i \/ clos_trans nat (goes data) i x.
Proof.
  induction 1 as [i|i j l L G C IH]; intros x Hx; [destruct Hx|]. destruct Hx as [<-|Hx]; [left; reflexivity|]. right.
  destruct (IH x Hx) as [->|R]; [apply t_step; exact G|]. eapply t_trans; [apply t_step; exact G|exact R].
Qed.

Lemma chain_nodup data i l : acyclic data -> chain data i l -> NoDup l.
Proof.
  intros A. induction 1 as [i|i j l L G C IH]; [constructor|]. constructor; [|exact IH]. intros Hx.
  apply (A i). destruct (chain_reach _ _ _ C i Hx) as [<-|R]; [apply t_step; exact G|].
  eapply t_trans; [apply t_step; exact G|exact R].
Qed.

Theorem labels_terminate data i f acc fuel : all_byte data -> acyclic data -> length data < fuel ->
  parse_labels fuel data i f acc <> Spin.
Proof.
  intros A AC L H. apply spin_chain in H; [|exact A]. destruct H as (l & Hl & C).
  assert (Q : length l <= length (seq 0 (length data))).
  { apply NoDup_incl_length; [eapply chain_nodup; eassumption|]. intros x Hx. apply in_seq. pose proof (chain_below _ _ _ C x Hx). blia. }
  rewrite seq_length in Q. blia.
Qed.

Lemma bind_spin {A B} (r : result A) (f : A -> result B) : r <> Spin -> (forall a, f a <> Spin) -> bind r f <> Spin.
Proof. intros H1 H2. destruct r; cbn; [apply H2|discriminate|contradiction]. Qed.

Lemma questions_terminate data fuel : all_byte data -> acyclic data -> length data < fuel ->
  forall count index, parse_questions fuel data index count <> Spin.
Proof.
  intros A AC L. induction count as [|count IH]; intros index; [discriminate|]. cbn [parse_questions].
  apply bind_spin; [apply labels_terminate; assumption|]. intros [labels j]. destruct (Nat.ltb _ _); [discriminate|].
  apply bind_spin; [apply IH|]. intros [r k]. discriminate.
Qed.

Lemma records_terminate data fuel : all_byte data -> acyclic data -> length data < fuel ->
  forall count index, parse_resource_records fuel data index count <> Spin.
Proof.
  intros A AC L. induction count as [|count IH]; intros index; [discriminate|]. cbn [parse_resource_records].
  apply bind_spin; [apply labels_terminate; assumption|]. intros [labels j]. destruct (Nat.ltb _ _); [discriminate|].
  destruct (_ && _); [discriminate|]. apply bind_spin; [apply IH|]. intros [r k]. discriminate.
Qed.

Theorem result_terminates data fuel : all_byte data -> acyclic data -> length data < fuel -> parse_result_data fuel data <> Spin.
Proof.
  intros A AC L. unfold parse_result_data. destruct (Nat.ltb _ _); [discriminate|].
  apply bind_spin; [apply questions_terminate; assumption|]. intros [qs i1].
  apply bind_spin; [apply records_terminate; assumption|]. intros [an i2].
  apply bind_spin; [apply records_terminate; assumption|]. intros [au i3].
  apply bind_spin; [apply records_terminate; assumption|]. intros [ad i4]. discriminate.
Qed.

(** A pointer to itself. *)
Lemma self_pointer (data : bytes) i (b c : byte) f acc : nth_error data i = Some b -> (192 <= b)%N -> nth_error data (S i) = Some c ->
  N.to_nat (N.lor (N.shiftl (N.land b 63) 8) c) = i -> forall fuel, parse_labels fuel data i f acc = Spin.
Proof.
  intros E L E2 T fuel. revert f. induction fuel as [|fuel IH]; intros f; [reflexivity|]. cbn [parse_labels]. rewrite E.
  destruct (N.eqb_spec b 0); [blia|]. destruct (N.ltb_spec b 64); [blia|]. destruct (N.ltb_spec b 192); [blia|]. rewrite E2, T.
  destruct (Nat.ltb_spec (Nat.max (Nat.max f (S i)) (S (S i))) i); [blia|]. apply IH.
Qed.

(** * Round trip *)

Lemma join_app a b : join (a ++ b) = match join a, join b with Some x, Some y => Some (x ++ y) | _, _ => None end.
Proof.
  induction a as [|p a IH]; cbn [join app]; [destruct (join b); reflexivity|]. rewrite IH. destruct p; [|reflexivity].
  destruct (join a), (join b); rewrite ?app_assoc; reflexivity.
Qed.

Lemma to_bytes_ok k v : (v < 2 ^ (8 * N.of_nat k))%N -> to_bytes k v = Some (be k v).
Proof. intros H. unfold to_bytes. destruct (N.ltb_spec v (2 ^ (8 * N.of_nat k))); [reflexivity|blia]. Qed.

Lemma be_1 n : (n < 256)%N -> be 1 n = [n].
Proof. intros H. cbn [be app]. change 255%N with (N.ones 8). rewrite N.land_ones, N.mod_small by exact H. reflexivity. Qed.

Lemma label_parts_built labels : valid_labels labels -> join (label_parts labels) = Some (built labels).
Proof.
  unfold label_parts, built. induction 1 as [|l labels H _ IH]; [reflexivity|]. cbn [flat_map app join].
  rewrite to_bytes_ok by (unfold size; cbn; blia). rewrite IH. unfold size. rewrite be_1 by blia. cbn [app]. rewrite <- app_assoc. reflexivity.
Qed.

Lemma parse_built labels : valid_labels labels -> forall pre post f acc fuel, length labels < fuel ->
  parse_labels fuel (pre ++ built labels ++ post) (length pre) f acc =
  Ok (acc ++ labels, Nat.max f (length pre + length (built labels))).
Proof.
  induction 1 as [|l labels H _ IH]; intros pre post f acc [|fuel] L; try (cbn in L; blia).
  - cbn [parse_labels]. unfold built. cbn [flat_map app length]. rewrite nth_error_app2, Nat.sub_diag by blia. cbn [nth_error N.eqb].
    rewrite app_nil_r, Nat.add_1_r. reflexivity.
  - cbn [parse_labels].
    assert (D : pre ++ built (l :: labels) ++ post = pre ++ (N.of_nat (length l) :: l) ++ (built labels ++ post)).
    { unfold built. cbn [flat_map]. rewrite <- !app_assoc. reflexivity. }
    assert (LA : label_at (pre ++ built (l :: labels) ++ post) (length pre) l) by (exists pre, (built labels ++ post); rewrite D; auto).
    destruct (label_at_inv _ _ _ LA) as (E & R & B & S_). rewrite E.
    destruct (N.eqb_spec (N.of_nat (length l)) 0); [blia|]. destruct (N.ltb_spec (N.of_nat (length l)) 64); [|blia].
    rewrite Nat2N.id. destruct (Nat.ltb_spec (length (pre ++ built (l :: labels) ++ post)) (S (length pre) + length l)); [blia|].
    rewrite S_, D. rewrite (app_assoc pre).
    replace (S (length pre) + length l) with (length (pre ++ N.of_nat (length l) :: l)) by (rewrite app_length; cbn; blia).
    rewrite IH by (cbn in L; blia). rewrite <- app_assoc. cbn [app]. f_equal. f_equal.
    unfold built. cbn [flat_map]. rewrite !app_length. cbn [length]. blia.
Qed.

Lemma number_at_be data pre k v post a b : data = pre ++ be k v ++ post -> length pre = a -> b = a + k ->
  (v < 2 ^ (8 * N.of_nat k))%N -> number_at data a b = v.
Proof.
  intros D L E H. unfold number_at. rewrite (slice_mid data pre (be k v) post) by (auto; rewrite be_length; exact E).
  rewrite unbe_number by apply be_byte. apply be_number. exact H.
Qed.

Definition q_bytes (q : question) : bytes := built (q_labels q) ++ be 2 (q_type q) ++ be 2 (q_class q).
Definition r_bytes (r : resource_record) : bytes :=
  built (r_labels r) ++ be 2 (r_type r) ++ be 2 (r_class r) ++ be 4 (r_validity r) ++ be 2 (size (r_data r)) ++ r_data r.

Lemma question_parts_ok qs : Forall valid_question qs -> join (flat_map question_parts qs) = Some (flat_map q_bytes qs).
Proof.
  induction 1 as [|q qs (H1 & H2 & H3) _ IH]; [reflexivity|]. cbn [flat_map]. rewrite join_app, IH. unfold question_parts.
  rewrite join_app, label_parts_built by exact H1. cbn [join]. rewrite !to_bytes_ok by assumption. unfold q_bytes.
  rewrite app_nil_r. reflexivity.
Qed.

Lemma record_parts_ok rs : Forall valid_record rs -> join (flat_map record_parts rs) = Some (flat_map r_bytes rs).
Proof.
  induction 1 as [|r rs (H1 & H2 & H3 & H4 & H5) _ IH]; [reflexivity|]. cbn [flat_map]. rewrite join_app, IH. unfold record_parts.
  rewrite join_app, label_parts_built by exact H1. cbn [join]. rewrite !to_bytes_ok by assumption. unfold r_bytes.
  rewrite app_nil_r. reflexivity.
Qed.

Lemma built_length labels : valid_labels labels -> length labels < length (built labels).
Proof.
  unfold built. induction 1 as [|l labels H _ IH]; cbn [flat_map length app]; [blia|]. rewrite !app_length in *. cbn [length] in *. blia.
Qed.

Lemma parse_questions_ok qs : Forall valid_question qs -> forall pre post fuel, length (pre ++ flat_map q_bytes qs ++ post) <= fuel ->
  parse_questions fuel (pre ++ flat_map q_bytes qs ++ post) (length pre) (length qs) = Ok (qs, length pre + length (flat_map q_bytes qs)).
Proof.
  induction 1 as [|q qs (H1 & H2 & H3) _ IH]; intros pre post fuel L.
  - cbn. rewrite Nat.add_0_r. reflexivity.
  - cbn [flat_map length parse_questions] in *.
    assert (D : pre ++ (q_bytes q ++ flat_map q_bytes qs) ++ post =
                pre ++ built (q_labels q) ++ be 2 (q_type q) ++ be 2 (q_class q) ++ flat_map q_bytes qs ++ post).
    { unfold q_bytes. rewrite <- !app_assoc. reflexivity. }
    pose proof (built_length _ H1) as BL.
    assert (LD : length (pre ++ (q_bytes q ++ flat_map q_bytes qs) ++ post) =
                 length pre + length (built (q_labels q)) + 4 + length (flat_map q_bytes qs) + length post).
    { rewrite D. rewrite !app_length, !be_length. blia. }
    rewrite D at 1. rewrite (app_assoc pre), <- (app_assoc pre). rewrite parse_built by (try exact H1; blia). cbn [bind app].
    rewrite Nat.max_r by blia. rewrite LD.
    destruct (Nat.ltb_spec (length pre + length (built (q_labels q)) + 4 + length (flat_map q_bytes qs) + length post)
                (length pre + length (built (q_labels q)) + 4)); [blia|].
    specialize (IH (pre ++ q_bytes q) post fuel). rewrite <- !app_assoc in IH. rewrite <- app_assoc.
    replace (length pre + length (built (q_labels q)) + 4) with (length (pre ++ q_bytes q))
      by (unfold q_bytes; rewrite !app_length, !be_length; blia).
    rewrite IH by (rewrite <- app_assoc in L; exact L). cbn [bind].
    rewrite (app_assoc (q_bytes q)), D.
    rewrite (number_at_be _ (pre ++ built (q_labels q)) 2 (q_type q) (be 2 (q_class q) ++ flat_map q_bytes qs ++ post))
      by (try exact H2; rewrite ?app_length, <- ?app_assoc; reflexivity || blia).
    rewrite (number_at_be _ (pre ++ built (q_labels q) ++ be 2 (q_type q)) 2 (q_class q) (flat_map q_bytes qs ++ post))
      by (try exact H3; unfold q_bytes; rewrite ?app_length, ?be_length, <- ?app_assoc; reflexivity || blia).
    destruct q as [ql qt qc]. cbn [q_labels q_type q_class]. f_equal. f_equal. rewrite !app_length. blia.
Qed.

Lemma parse_records_ok rs : Forall valid_record rs -> forall pre post fuel, length (pre ++ flat_map r_bytes rs ++ post) <= fuel ->
  parse_resource_records fuel (pre ++ flat_map r_bytes rs ++ post) (length pre) (length rs) =
  Ok (rs, length pre + length (flat_map r_bytes rs)).
Proof.
  induction 1 as [|r rs (H1 & H2 & H3 & H4 & H5) _ IH]; intros pre post fuel L.
  - cbn. rewrite Nat.add_0_r. reflexivity.
  - cbn [flat_map length parse_resource_records] in *.
    set (rest := flat_map r_bytes rs ++ post) in *.
    assert (D : pre ++ (r_bytes r ++ flat_map r_bytes rs) ++ post =
                pre ++ built (r_labels r) ++ be 2 (r_type r) ++ be 2 (r_class r) ++ be 4 (r_validity r) ++ be 2 (size (r_data r)) ++ r_data r ++ rest).
    { unfold r_bytes, rest. rewrite <- !app_assoc. reflexivity. }
    pose proof (built_length _ H1) as BL.
    set (k := length pre + length (built (r_labels r))) in *.
    assert (LD : length (pre ++ (r_bytes r ++ flat_map r_bytes rs) ++ post) = k + 10 + length (r_data r) + length rest).
    { rewrite D. rewrite !app_length, !be_length. unfold k. blia. }
    assert (LP : length (pre ++ r_bytes r) = k + 10 + length (r_data r)).
    { unfold r_bytes. rewrite !app_length, !be_length. unfold k. blia. }
    rewrite D at 1. rewrite parse_built by (try exact H1; blia). cbn [bind app].
    rewrite Nat.max_r by blia. fold k. rewrite LD.
    destruct (Nat.ltb_spec (k + 10 + length (r_data r) + length rest) (k + 10)); [blia|].
    assert (NL : number_at (pre ++ (r_bytes r ++ flat_map r_bytes rs) ++ post) (k + 8) (k + 10) = size (r_data r)).
    { rewrite D. apply (number_at_be _ (pre ++ built (r_labels r) ++ be 2 (r_type r) ++ be 2 (r_class r) ++ be 4 (r_validity r)) 2 _ (r_data r ++ rest));
        [rewrite <- !app_assoc; reflexivity|rewrite !app_length, !be_length; unfold k; blia|blia|exact H5]. }
    rewrite NL. unfold size at 1 2 3 4. rewrite Nat2N.id.
    destruct (Nat.ltb_spec (k + 10 + length (r_data r) + length rest) (k + 10 + length (r_data r))) as [Q|_]; [blia|]. rewrite andb_false_r.
    specialize (IH (pre ++ r_bytes r) post fuel). rewrite LP in IH. rewrite <- !app_assoc in IH. rewrite <- app_assoc in L. rewrite <- app_assoc in *.
    rewrite IH by exact L. cbn [bind].
    assert (D' : pre ++ r_bytes r ++ flat_map r_bytes rs ++ post =
                pre ++ built (r_labels r) ++ be 2 (r_type r) ++ be 2 (r_class r) ++ be 4 (r_validity r) ++ be 2 (size (r_data r)) ++ r_data r ++ rest).
    { rewrite <- D. reflexivity. }
    rewrite D'.
    rewrite (number_at_be _ (pre ++ built (r_labels r)) 2 (r_type r) (be 2 (r_class r) ++ be 4 (r_validity r) ++ be 2 (size (r_data r)) ++ r_data r ++ rest))
      by (try exact H2; rewrite ?app_length, <- ?app_assoc; reflexivity || blia).
    rewrite (number_at_be _ (pre ++ built (r_labels r) ++ be 2 (r_type r)) 2 (r_class r) (be 4 (r_validity r) ++ be 2 (size (r_data r)) ++ r_data r ++ rest))
      by (try exact H3; rewrite ?app_length, ?be_length, <- ?app_assoc; unfold k; reflexivity || blia).
    rewrite (number_at_be _ (pre ++ built (r_labels r) ++ be 2 (r_type r) ++ be 2 (r_class r)) 4 (r_validity r) (be 2 (size (r_data r)) ++ r_data r ++ rest))
      by (try exact H4; rewrite ?app_length, ?be_length, <- ?app_assoc; unfold k; reflexivity || blia).
    rewrite (slice_mid _ (pre ++ built (r_labels r) ++ be 2 (r_type r) ++ be 2 (r_class r) ++ be 4 (r_validity r) ++ be 2 (size (r_data r))) (r_data r) rest)
      by (rewrite ?app_length, ?be_length, <- ?app_assoc; unfold k; reflexivity || blia).
    destruct r as [rl rt rc rv rd]. cbn [r_labels r_type r_class r_validity r_data] in *. f_equal. f_equal.
    rewrite app_length in LP. rewrite app_length. blia.
Qed.

Definition query_flags (verified : bool) (q : query) : N :=
  N.lor (N.lor (N.lor (N.shiftl 0 11) (N.shiftl (N.b2n (recursion_desired q)) 8)) (N.shiftl (N.b2n verified) 5))
        (N.shiftl (N.b2n (data_verification_desired q)) 4).

Theorem query_round_trip verified q : valid_query q -> exists data, build_query_data verified q = Some data /\
  forall fuel, length data <= fuel -> parse_result_data fuel data =
    Ok ({| a_transaction_id := transaction_id q; data_verified := verified; truncated := false; recursion_available := false;
           response_code := 0; a_questions := questions q; answers := []; authority := []; a_additional := additional q |},
        length data).
Proof.
  intros (H1 & H2 & H3 & H4 & H5).
  set (head := be 2 (transaction_id q) ++ be 2 (query_flags verified q) ++ be 2 (size (questions q)) ++ [0; 0; 0; 0]%N ++ be 2 (size (additional q))).
  assert (LH : length head = 12) by (unfold head; rewrite !app_length, !be_length; reflexivity).
  assert (F : (query_flags verified q < 65536)%N) by (unfold query_flags; destruct (recursion_desired q), verified, (data_verification_desired q); reflexivity).
  set (data := head ++ flat_map q_bytes (questions q) ++ flat_map r_bytes (additional q)).
  exists data. split.
  - unfold build_query_data. rewrite join_app, join_app, question_parts_ok, record_parts_ok by assumption. cbn [join].
    fold (query_flags verified q). rewrite !to_bytes_ok by assumption. unfold data, head. rewrite <- !app_assoc. reflexivity.
  - intros fuel L. unfold parse_result_data.
    assert (LD : length data = 12 + length (flat_map q_bytes (questions q)) + length (flat_map r_bytes (additional q)))
      by (unfold data; rewrite !app_length, LH; blia).
    destruct (Nat.ltb_spec (length data) 12); [blia|].
    set (body := flat_map q_bytes (questions q) ++ flat_map r_bytes (additional q)) in *.
    assert (D : data = be 2 (transaction_id q) ++ be 2 (query_flags verified q) ++ be 2 (size (questions q)) ++ be 2 0 ++ be 2 0 ++ be 2 (size (additional q)) ++ body).
    { unfold data, head. rewrite <- !app_assoc. reflexivity. }
    rewrite (number_at_be data [] 2 (transaction_id q) (be 2 (query_flags verified q) ++ be 2 (size (questions q)) ++ be 2 0 ++ be 2 0 ++ be 2 (size (additional q)) ++ body) 0 2) by (assumption || reflexivity).
    rewrite (number_at_be data (be 2 (transaction_id q)) 2 (query_flags verified q) (be 2 (size (questions q)) ++ be 2 0 ++ be 2 0 ++ be 2 (size (additional q)) ++ body) 2 4) by (assumption || reflexivity).
    rewrite (number_at_be data (be 2 (transaction_id q) ++ be 2 (query_flags verified q)) 2 (size (questions q)) (be 2 0 ++ be 2 0 ++ be 2 (size (additional q)) ++ body) 4 6) by (assumption || reflexivity).
    rewrite (number_at_be data (be 2 (transaction_id q) ++ be 2 (query_flags verified q) ++ be 2 (size (questions q))) 2 0 (be 2 0 ++ be 2 (size (additional q)) ++ body) 6 8) by (assumption || reflexivity).
    rewrite (number_at_be data (be 2 (transaction_id q) ++ be 2 (query_flags verified q) ++ be 2 (size (questions q)) ++ be 2 0) 2 0 (be 2 (size (additional q)) ++ body) 8 10) by (assumption || reflexivity).
    rewrite (number_at_be data (be 2 (transaction_id q) ++ be 2 (query_flags verified q) ++ be 2 (size (questions q)) ++ be 2 0 ++ be 2 0) 2 (size (additional q)) body 10 12) by (assumption || reflexivity).
    change (N.to_nat 0) with 0. unfold size. rewrite !Nat2N.id.
    pose proof (parse_questions_ok _ H4 head (flat_map r_bytes (additional q)) fuel L) as PQ. rewrite LH in PQ. fold body data in PQ. rewrite PQ. cbn [bind parse_resource_records].
    pose proof (parse_records_ok _ H5 (head ++ flat_map q_bytes (questions q)) [] fuel) as PR.
    rewrite app_nil_r, <- app_assoc, (app_length head (flat_map q_bytes (questions q))), LH in PR. fold body data in PR. rewrite PR by exact L. cbn [bind].
    rewrite <- LD. f_equal. f_equal.
    unfold query_flags. destruct (recursion_desired q), verified, (data_verification_desired q); reflexivity.
Qed.

Theorem pointer_data_ok labels post fuel : valid_labels labels -> labels <> [] -> length labels < fuel ->
  parse_domain_name_pointer_data fuel (built labels ++ post) = Value (Some labels).
Proof.
  intros H N L. unfold parse_domain_name_pointer_data. pose proof (parse_built labels H [] post 0 [] fuel L) as P. cbn [app length] in P.
  destruct labels as [|l labels]; [contradiction|].
  destruct (built (l :: labels) ++ post) as [|x d] eqn:E; [unfold built in E; cbn in E; discriminate|]. rewrite P. reflexivity.
Qed.
