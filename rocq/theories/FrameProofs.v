From Coq Require Import List Arith Bool NArith Lia.
From Verif Require Import Bytes ReadModel ReadSpec ReadProofs ReadUntilProofs ChunkProofs FrameModel FrameSpec.
Import ListNotations.

Ltac blia := unfold bytes, byte in *; lia.

(** * Masking *)

Lemma mask_slice_length : forall k index d i, length (mask_slice k index i d) = length d.
Proof. intros k index d. induction d as [|x d IH]; intro i; cbn [mask_slice length]; [reflexivity|]. rewrite IH. reflexivity. Qed.

Lemma mask_slice_nth : forall k index d i j, j < length d ->
  nth j (mask_slice k index i d) 0%N = if (i + j) mod 4 =? index then N.lxor (nth j d 0%N) k else nth j d 0%N.
Proof.
  intros k index d. induction d as [|x d IH]; intros i j H; [cbn in H; lia|]. destruct j as [|j]; cbn [mask_slice nth].
  - rewrite Nat.add_0_r. reflexivity.
  - cbn in H. rewrite IH by lia. rewrite Nat.add_succ_r. reflexivity.
Qed.

Lemma apply_mask_length : forall mask d, length (apply_mask mask d) = length d.
Proof. intros mask d. unfold apply_mask. cbn [fold_left]. rewrite !mask_slice_length. reflexivity. Qed.

Lemma apply_mask_nth : forall mask d i, i < length d ->
  nth i (apply_mask mask d) 0%N = N.lxor (nth i d 0%N) (nth (i mod 4) mask 0%N).
Proof.
  intros mask d i H. unfold apply_mask. cbn [fold_left].
  rewrite !mask_slice_nth by (rewrite ?mask_slice_length; exact H). cbn [Nat.add].
  assert (M : i mod 4 < 4) by (apply Nat.mod_upper_bound; lia).
  destruct (i mod 4) as [|[|[|[|m]]]]; try reflexivity. lia.
Qed.

Lemma apply_mask_xored : forall mask d, xored mask d (apply_mask mask d).
Proof. intros mask d. split; [apply apply_mask_length|]. apply apply_mask_nth. Qed.

Lemma xored_unique : forall key d w, xored key d w -> w = apply_mask key d.
Proof.
  intros key d w [L E]. apply nth_ext with 0%N 0%N; [rewrite apply_mask_length; exact L|].
  intros i Hi. unfold bytes, byte in *. rewrite L in Hi. rewrite E by exact Hi. symmetry. apply apply_mask_nth. exact Hi.
Qed.

Lemma apply_mask_involutive : forall mask d, apply_mask mask (apply_mask mask d) = d.
Proof.
  intros mask d. apply nth_ext with 0%N 0%N; [rewrite !apply_mask_length; reflexivity|].
  intros i Hi. rewrite !apply_mask_length in Hi. rewrite !apply_mask_nth by (rewrite ?apply_mask_length; exact Hi).
  rewrite N.lxor_assoc, N.lxor_nilpotent, N.lxor_0_r. reflexivity.
Qed.

Lemma lxor_byte : forall x y, (x < 256)%N -> (y < 256)%N -> (N.lxor x y < 256)%N.
Proof.
  intros x y Hx Hy.
  assert (Q : forall z, (z < 256)%N -> z = (z mod 2 ^ 8)%N) by (intros z Hz; symmetry; apply N.mod_small; exact Hz).
  assert (E : N.lxor x y = (N.lxor x y mod 2 ^ 8)%N).
  { apply N.bits_inj. intro n. destruct (N.lt_ge_cases n 8) as [L|L].
    - rewrite N.mod_pow2_bits_low by exact L. reflexivity.
    - rewrite N.mod_pow2_bits_high by exact L. rewrite N.lxor_spec, (Q x Hx), (Q y Hy), !N.mod_pow2_bits_high by exact L. reflexivity. }
  rewrite E. apply N.mod_lt. discriminate.
Qed.

Lemma apply_mask_bytes : forall mask d, all_byte mask -> all_byte d -> all_byte (apply_mask mask d).
Proof.
  intros mask d HM HD. apply Forall_forall. intros x Hx. apply (In_nth _ _ 0%N) in Hx. destruct Hx as (i & Hi & <-).
  rewrite apply_mask_length in Hi. rewrite apply_mask_nth by exact Hi. apply lxor_byte.
  - unfold all_byte in HD. rewrite Forall_forall in HD. apply HD. apply nth_In. exact Hi.
  - destruct (nth_in_or_default (i mod 4) mask 0%N) as [I| ->].
    + unfold all_byte in HM. rewrite Forall_forall in HM. apply HM. exact I.
    + reflexivity.
Qed.

(** * Numbers *)

Lemma lor_add : forall k a x, (x < 2 ^ k)%N -> N.lor (N.shiftl a k) x = (a * 2 ^ k + x)%N.
Proof.
  intros k a x H. rewrite <- N.shiftl_mul_pow2.
  assert (Z : N.land (N.shiftl a k) x = 0%N).
  { apply N.bits_inj. intro n. rewrite N.land_spec, N.bits_0. destruct (N.lt_ge_cases n k) as [L|L].
    - rewrite N.shiftl_spec_low by exact L. reflexivity.
    - rewrite <- (N.mod_small x (2 ^ k)) by exact H. rewrite N.mod_pow2_bits_high by exact L. apply andb_false_r. }
  rewrite <- N.lxor_lor by exact Z. symmetry. apply N.add_nocarry_lxor. exact Z.
Qed.

Lemma unbe_gen : forall l a, all_byte l -> fold_left (fun a x => N.lor (N.shiftl a 8) x) l a = fold_left (fun a x => (a * 256 + x)%N) l a.
Proof.
  induction l as [|x l IH]; intros a H; [reflexivity|]. inversion H; subst. cbn [fold_left]. rewrite lor_add by assumption.
  apply IH. assumption.
Qed.

Lemma unbe_number : forall l, all_byte l -> unbe l = number l.
Proof. intros l H. apply unbe_gen. exact H. Qed.

Lemma be_length : forall k n, length (be k n) = k.
Proof. induction k as [|k IH]; intro n; [reflexivity|]. cbn [be]. rewrite app_length, IH. cbn [length]. lia. Qed.

Lemma be_byte : forall k n, all_byte (be k n).
Proof.
  induction k as [|k IH]; intro n; cbn [be]; [constructor|]. apply Forall_app. split; [apply IH|]. constructor; [|constructor].
  change 255%N with (N.ones 8). rewrite N.land_ones. apply N.mod_lt. discriminate.
Qed.

Lemma be_number : forall k n, (n < 2 ^ (8 * N.of_nat k))%N -> number (be k n) = n.
Proof.
  induction k as [|k IH]; intros n H; cbn [be].
  - cbn in *. lia.
  - unfold number in *. rewrite fold_left_app. cbn [fold_left]. rewrite IH.
    + change 255%N with (N.ones 8). rewrite N.land_ones, N.shiftr_div_pow2. change (2 ^ 8)%N with 256%N.
      rewrite N.mul_comm. symmetry. apply N.div_mod. discriminate.
    + rewrite N.shiftr_div_pow2. apply N.div_lt_upper_bound; [discriminate|]. rewrite <- N.pow_add_r.
      replace (8 + 8 * N.of_nat k)%N with (8 * N.of_nat (S k))%N by lia. exact H.
Qed.

(** All bytes. *)
Lemma byte_forall : forall P : N -> bool, forallb P (map N.of_nat (seq 0 256)) = true -> forall h, is_byte h -> P h = true.
Proof.
  intros P H h Hh. rewrite forallb_forall in H. apply H. apply in_map_iff. exists (N.to_nat h). split; [lia|].
  apply in_seq. unfold is_byte in Hh. lia.
Qed.

Lemma head_1_spec : forall (b : bool) seven, (seven < 128)%N ->
  N.shiftr (N.land ((if b then 128 else 0) + seven) 128) 7 = N.b2n b /\ N.land ((if b then 128 else 0) + seven) 127 = seven.
Proof.
  intros b seven H.
  set (P := fun h => (N.eqb (N.shiftr (N.land h 128) 7) (h / 128) && N.eqb (N.land h 127) (h mod 128))%N).
  assert (F : forallb P (map N.of_nat (seq 0 256)) = true) by (vm_compute; reflexivity).
  assert (B : is_byte ((if b then 128 else 0) + seven)) by (unfold is_byte; destruct b; lia).
  apply (byte_forall P F) in B. unfold P in B. apply andb_prop in B. destruct B as [B1 B2].
  apply N.eqb_eq in B1. apply N.eqb_eq in B2. rewrite B1, B2.
  destruct b; cbn [N.b2n]; split.
  - symmetry. apply (N.div_unique _ 128 1 seven); lia.
  - symmetry. apply (N.mod_unique _ 128 1 seven); lia.
  - symmetry. apply (N.div_unique _ 128 0 seven); lia.
  - symmetry. apply (N.mod_unique _ 128 0 seven); lia.
Qed.

Lemma head_1_split : forall h, is_byte h -> exists (b : bool) seven, (seven < 128)%N /\ h = ((if b then 128 else 0) + seven)%N.
Proof.
  intros h H. unfold is_byte in H. destruct (N.lt_ge_cases h 128).
  - exists false, h. split; auto.
  - exists true, (h - 128)%N. split; lia.
Qed.

Lemma head_0_spec : forall (b : bool) op data, (op < 16)%N ->
  let f := mk_frame ((if b then 128 else 0) + op)%N data in
  f_final f = b /\ f_op f = op /\ new_frame b op data = f.
Proof.
  intros b op data H f. unfold f, f_final, f_op, new_frame. cbn [f_head].
  set (P := fun h => (eqb (negb (N.eqb (N.land h 128) 0)) (N.leb 128 h) && N.eqb (N.land h 15) (h mod 16))%N).
  assert (F : forallb P (map N.of_nat (seq 0 256)) = true) by (vm_compute; reflexivity).
  assert (B : is_byte ((if b then 128 else 0) + op)) by (unfold is_byte; destruct b; lia).
  apply (byte_forall P F) in B. unfold P in B. apply andb_prop in B. destruct B as [B1 B2].
  apply eqb_prop in B1. apply N.eqb_eq in B2. rewrite B1, B2. csplit.
  - destruct b; [apply N.leb_le; lia|apply N.leb_gt; lia].
  - destruct b; symmetry; [apply (N.mod_unique _ 16 8 op); lia|apply (N.mod_unique _ 16 0 op); lia].
  - rewrite lor_add by (change (2 ^ 7)%N with 128%N; lia). f_equal. destruct b; cbn [N.b2n]; change (2 ^ 7)%N with 128%N; lia.
Qed.

(** * [check] *)

Definition valid_b (h : N) (short : bool) : bool :=
  (existsb (N.eqb h) [0; 1; 2; 128; 129; 130] || (existsb (N.eqb h) [136; 137; 138] && short))%N.

Lemma check_valid : forall f, is_byte (f_head f) -> check f = true <-> valid (f_head f) (length (f_data f)).
Proof.
  intros [h d] H. cbn [f_head f_data] in *.
  assert (E : check (mk_frame h d) = valid_b h (negb (125 <? length d))).
  { unfold check, f_op. cbn [f_head f_data]. generalize (125 <? length d). intro s.
    set (P := fun h => (eqb (if negb (N.eqb (N.land h 112) 0) then false else if is_data (N.land h 15) then true
       else if is_control (N.land h 15) then if s then false else if N.eqb (N.land h 128) 0 then false else true else false) (valid_b h (negb s)))%N).
    assert (F : forallb P (map N.of_nat (seq 0 256)) = true) by (destruct s; vm_compute; reflexivity).
    apply (byte_forall P F) in H. unfold P in H. apply eqb_prop in H. exact H. }
  rewrite E. unfold valid_b, valid. split.
  - intro V. apply orb_prop in V. destruct V as [V|V].
    + apply existsb_exists in V. destruct V as (x & I & Q). apply N.eqb_eq in Q. subst x.
      cbn in I. destruct I as [<-|[<-|[<-|[<-|[<-|[<-|[]]]]]]].
      * exists false, 0%N. cbn. auto 20.
      * exists false, 1%N. cbn. auto 20.
      * exists false, 2%N. cbn. auto 20.
      * exists true, 0%N. cbn. auto 20.
      * exists true, 1%N. cbn. auto 20.
      * exists true, 2%N. cbn. auto 20.
    + apply andb_prop in V. destruct V as [V S]. apply negb_true_iff, Nat.ltb_ge in S.
      apply existsb_exists in V. destruct V as (x & I & Q). apply N.eqb_eq in Q. subst x.
      cbn in I. destruct I as [<-|[<-|[<-|[]]]].
      * exists true, 8%N. cbn. auto 20.
      * exists true, 9%N. cbn. auto 20.
      * exists true, 10%N. cbn. auto 20.
  - intros (final & op & -> & [I|(I & -> & S)]).
    + cbn in I. destruct I as [<-|[<-|[<-|[]]]]; destruct final; reflexivity.
    + apply Nat.ltb_ge in S. rewrite S. cbn in I. destruct I as [<-|[<-|[<-|[]]]]; reflexivity.
Qed.

(** * Reading *)

Lemma read_n_spec : forall n cs o, chunks_ok cs -> off_ok cs o ->
  match read_n n cs o with
  | Fin d cs' o' => unread cs o = d ++ unread cs' o' /\ length d = n /\ chunks_ok cs' /\ off_ok cs' o'
  | Wait _ _ _ => length (unread cs o) < n
  end.
Proof.
  intros n cs o HC HO. unfold read_n. destruct (Nat.eqb_spec n 0) as [->|Nz]; [csplit; auto|].
  destruct cs as [|c cs]; cbn [exact_start]; [cbn; lia|].
  generalize (exact_first_spec n c cs o ltac:(lia) HC HO). destruct (exact_first n c cs o o) as [d r o'|d k o']; [tauto|].
  intros (m & _ & <- & P & Q & _). lia.
Qed.

Lemma all_byte_app : forall a b : bytes, all_byte (a ++ b) <-> all_byte a /\ all_byte b.
Proof. intros a b. apply Forall_app. Qed.

Lemma len_read_bound : forall seven ext len, len_read seven ext len -> (seven < 128)%N.
Proof. intros seven ext len [(A & _)|[(A & _)|(A & _)]]; lia. Qed.

Lemma len_read_inj : forall seven ext len ext' len' t t', len_read seven ext len -> len_read seven ext' len' -> ext ++ t = ext' ++ t' ->
  ext = ext' /\ len = len' /\ t = t'.
Proof.
  intros seven ext len ext' len' t t' A B E.
  assert (L : length ext = length ext').
  { destruct A as [(A1 & A2 & A3)|[(A1 & A2 & A3)|(A1 & A2 & A3)]], B as [(B1 & B2 & B3)|[(B1 & B2 & B3)|(B1 & B2 & B3)]]; subst; try lia; reflexivity. }
  apply app_len_inj in E; [|exact L]. destruct E as [-> ->]. csplit; auto.
  destruct A as [(A1 & A2 & A3)|[(A1 & A2 & A3)|(A1 & A2 & A3)]], B as [(B1 & B2 & B3)|[(B1 & B2 & B3)|(B1 & B2 & B3)]]; subst; try lia; reflexivity.
Qed.

Lemma head_1_inj : forall (b b' : bool) s s', (s < 128)%N -> (s' < 128)%N ->
  ((if b then 128 else 0) + s = (if b' then 128 else 0) + s')%N -> b = b' /\ s = s'.
Proof. intros b b' s s' H H' E. destruct b, b'; try lia; split; auto; lia. Qed.

Lemma read_payload_spec : forall client h0 len cs o, chunks_ok cs -> off_ok cs o ->
  match read_payload client h0 len cs o with
  | FFrame f cs' o' => f_head f = h0 /\ exists body, unread cs o = body ++ unread cs' o' /\ body_ok client len (f_data f) body /\ chunks_ok cs' /\ off_ok cs' o'
  | FWait => (N.of_nat (length (unread cs o)) < (if client then 0 else 4) + len)%N
  | _ => False
  end.
Proof.
  intros client h0 len cs o HC HO. unfold read_payload. destruct client.
  - generalize (read_n_spec (N.to_nat len) cs o HC HO). destruct (read_n (N.to_nat len) cs o) as [d cs' o'|d k o']; intro R.
    + destruct R as (A & B & C & D). split; auto. exists d. csplit; auto. cbn [f_data]. split; auto. lia.
    + lia.
  - generalize (read_n_spec 4 cs o HC HO). destruct (read_n 4 cs o) as [m cs1 o1|m k o1]; intro R.
    + destruct R as (A & B & C & D). generalize (read_n_spec (N.to_nat len) cs1 o1 C D).
      destruct (read_n (N.to_nat len) cs1 o1) as [d cs' o'|d k o']; intro R.
      * destruct R as (A1 & B1 & C1 & D1). split; auto. exists (m ++ d). csplit; auto.
        -- rewrite A, A1, app_assoc. reflexivity.
        -- exists m, d. csplit; auto; [lia|]. apply apply_mask_xored.
      * rewrite A, app_length. unfold bytes, byte in *. lia.
    + lia.
Qed.

Lemma read_frame_spec : forall client max_size cs o, chunks_ok cs -> off_ok cs o -> all_byte (unread cs o) ->
  frame_result client max_size (unread cs o) (read_frame client max_size cs o).
Proof.
  intros client max_size cs o HC HO HB. unfold read_frame.
  generalize (read_n_spec 2 cs o HC HO). destruct (read_n 2 cs o) as [h cs1 o1|h k o1].
  2: { intro L. cbn [frame_result]. split; [intros h0 seven t _ E|intros h0 seven ext len t E]; rewrite E in L; cbn [length] in L; lia. }
  intros (E1 & L1 & C1 & O1). destruct h as [|h0 [|h1 [|]]]; try discriminate. clear L1. cbn [nth].
  rewrite E1 in HB |- *. cbn [app] in *. inversion HB as [|? ? B0 HB1]; subst. inversion HB1 as [|? ? B1 HB2]; subst.
  destruct (head_1_split h1 B1) as (b & seven & S7 & ->). destruct (head_1_spec b seven S7) as [-> ->].
  destruct (N.eqb_spec (N.b2n b) (N.b2n client)) as [Q|Q].
  - assert (b = client) by (destruct b, client; auto; discriminate). subst b. cbn [frame_result].
    exists h0, seven, (unread cs1 o1). auto.
  - assert (Eb : b = negb client) by (destruct b, client; auto; congruence). subst b.
    assert (XC : (if client then 0 else 128)%N = (if negb client then 128 else 0)%N) by (destruct client; reflexivity).
    assert (WM : forall tl h0' seven' t, (seven' < 128)%N -> h0 :: ((if negb client then 128 else 0) + seven)%N :: tl <> h0' :: ((if client then 128 else 0) + seven')%N :: t).
    { intros tl h0' seven' t S' E. injection E as _ E _. apply head_1_inj in E; auto. destruct E as [E _]. destruct client; discriminate. }
    assert (GO : forall ext len cs2 o2, unread cs1 o1 = ext ++ unread cs2 o2 -> chunks_ok cs2 -> off_ok cs2 o2 -> len_read seven ext len ->
      frame_result client max_size (h0 :: ((if negb client then 128 else 0) + seven)%N :: unread cs1 o1) (limited max_size len (read_payload client h0 len cs2 o2))).
    { intros ext len cs2 o2 E2 C2 O2 LR. rewrite E2.
      assert (K : ~ over max_size len -> frame_result client max_size (h0 :: ((if negb client then 128 else 0) + seven)%N :: ext ++ unread cs2 o2) (read_payload client h0 len cs2 o2)).
      { intro NO. generalize (read_payload_spec client h0 len cs2 o2 C2 O2). destruct (read_payload client h0 len cs2 o2) as [f cs3 o3| | |]; try tauto.
        - intros (F & body & A & B & C & D). cbn [frame_result]. exists seven, ext, body, len. rewrite F, A. csplit; auto. destruct client; reflexivity.
        - intro L. cbn [frame_result]. split; [apply WM|]. intros h0' seven' ext' len' t E LR'. injection E as E0 E E'. rewrite XC in E.
          apply head_1_inj in E; [|exact S7|eapply len_read_bound; eauto]. destruct E as [_ <-].
          destruct (len_read_inj _ _ _ _ _ _ _ LR LR' E') as (-> & -> & <-). split; [exact NO|exact L]. }
      unfold limited. destruct max_size as [m|]; [|apply K; cbn; auto]. destruct (N.ltb_spec m len) as [X|X].
      - cbn [frame_result]. exists h0, seven, ext, (unread cs2 o2), len. csplit; auto. destruct client; reflexivity.
      - apply K. cbn. lia. }
    assert (LONG : forall k, (seven = 126%N /\ k = 2 \/ seven = 127%N /\ k = 8) ->
      frame_result client max_size (h0 :: ((if negb client then 128 else 0) + seven)%N :: unread cs1 o1)
        (match read_n k cs1 o1 with Wait _ _ _ => FWait | Fin d cs2 o2 => limited max_size (unbe d) (read_payload client h0 (unbe d) cs2 o2) end)).
    { intros k HK. generalize (read_n_spec k cs1 o1 C1 O1). destruct (read_n k cs1 o1) as [d cs2 o2|d kk o2].
      - intros (E2 & L2 & C2 & O2). apply GO with d; auto. rewrite E2 in HB2. apply all_byte_app in HB2. rewrite unbe_number by tauto.
        unfold len_read. destruct HK as [[-> ->]|[-> ->]]; [right; left|right; right]; csplit; auto.
      - intro L. cbn [frame_result]. split; [apply WM|]. intros h0' seven' ext' len' t E LR'. injection E as E0 E E'. rewrite XC in E.
        apply head_1_inj in E; [|exact S7|eapply len_read_bound; eauto]. destruct E as [_ <-]. exfalso.
        rewrite E', app_length in L. destruct LR' as [(A & _)|[(A & B & _)|(A & B & _)]]; destruct HK as [[-> ->]|[-> ->]]; blia. }
    destruct (N.eqb_spec seven 126) as [->|N6].
    + apply LONG. auto.
    + destruct (N.eqb_spec seven 127) as [->|N7].
      * apply LONG. auto.
      * apply GO with []; auto. left. csplit; auto. lia.
Qed.

(** Reading what is on the wire. *)
Lemma len_field_read : forall len seven ext, len_field len seven ext -> len_read seven ext len.
Proof.
  intros len seven ext [L|e L A B C|e L A B C].
  - left. csplit; auto.
  - right. left. csplit; auto.
  - right. right. csplit; auto.
Qed.

Lemma body_inj : forall client data body data' body' t t' len, body_ok client len data body -> body_ok client len data' body' ->
  body ++ t = body' ++ t' -> data = data' /\ t = t'.
Proof.
  intros client data body data' body' t t' len A B E. destruct client; cbn [body_ok] in *.
  - destruct A as [-> A], B as [-> B]. apply app_len_inj in E; [tauto|lia].
  - destruct A as (k & p & -> & K & P & X), B as (k' & p' & -> & K' & P' & X'). apply xored_unique in X, X'. subst. rewrite <- !app_assoc in E.
    apply app_len_inj in E; [|lia]. destruct E as [-> E]. apply app_len_inj in E; [|lia]. destruct E as [-> ->]. auto.
Qed.

Lemma read_wire : forall client max_size key final op data w cs o rest, chunks_ok cs -> off_ok cs o -> all_byte (unread cs o) ->
  length key = 4 -> wire (negb client) key final op data w -> unread cs o = w ++ rest ->
  (over max_size (N.of_nat (length data)) -> read_frame client max_size cs o = FTooBig) /\
  (~ over max_size (N.of_nat (length data)) -> exists cs' o',
    read_frame client max_size cs o = FFrame (mk_frame ((if final then 128 else 0) + op)%N data) cs' o' /\
    unread cs' o' = rest /\ chunks_ok cs' /\ off_ok cs' o').
Proof.
  intros client max_size key final op data w cs o rest HC HO HB HK (seven & ext & body & -> & LF & BD) HU.
  assert (BO : body_ok client (N.of_nat (length data)) data body).
  { destruct client; cbn [negb body_ok] in *; [auto|]. destruct BD as (p & -> & X). exists key, p. csplit; auto.
    - rewrite (proj1 X). reflexivity.
    - rewrite (xored_unique _ _ _ X). rewrite <- (apply_mask_involutive key data) at 2. apply apply_mask_xored. }
  assert (LB : length body = N.to_nat ((if client then 0 else 4) + N.of_nat (length data))).
  { destruct client; cbn [body_ok] in BO |- *; [destruct BO as [-> _]; blia|]. destruct BO as (k & p & -> & A & B & _). rewrite app_length. blia. }
  clear BD. apply len_field_read in LF. assert (S7 := len_read_bound _ _ _ LF).
  generalize (read_frame_spec client max_size cs o HC HO HB). rewrite HU. cbn [app].
  destruct (read_frame client max_size cs o) as [f cs' o'| | |]; cbn [frame_result].
  - intros (seven' & ext' & body' & len & E & LR & NO & BO' & C & D). injection E as E0 E1 E2.
    assert (X : (if client then 0 else 128)%N = (if negb client then 128 else 0)%N) by (destruct client; reflexivity). rewrite X in E1.
    apply head_1_inj in E1; [|exact S7|eapply len_read_bound; eauto]. destruct E1 as [_ <-]. rewrite <- app_assoc in E2.
    destruct (len_read_inj _ _ _ _ _ _ _ LF LR E2) as (<- & <- & E3).
    destruct (body_inj _ _ _ _ _ _ _ _ BO BO' E3) as [Ed Et]. split; [intro O; contradiction|]. intros _. exists cs', o'. csplit; auto.
    destruct f as [h d]. cbn in *. subst. reflexivity.
  - intros [_ W]. exfalso. rewrite <- app_assoc in W.
    assert (X : (if client then 0 else 128)%N = (if negb client then 128 else 0)%N) by (destruct client; reflexivity). rewrite X in W.
    assert (W1 := W _ seven ext (N.of_nat (length data)) (body ++ rest) eq_refl LF). destruct W1 as [_ W1].
    clear W. rename W1 into W. rewrite app_length in W. unfold bytes, byte in *. lia.
  - intros (h0 & seven' & t & E & L). injection E as _ E1 _. apply head_1_inj in E1; auto. destruct E1 as [E1 _]. destruct client; discriminate.
  - intros (h0 & seven' & ext' & t & len & E & LR & OV). injection E as E0 E1 E2.
    assert (X : (if client then 0 else 128)%N = (if negb client then 128 else 0)%N) by (destruct client; reflexivity). rewrite X in E1.
    apply head_1_inj in E1; [|exact S7|eapply len_read_bound; eauto]. destruct E1 as [_ <-]. rewrite <- app_assoc in E2.
    destruct (len_read_inj _ _ _ _ _ _ _ LF LR E2) as (<- & <- & E3). split; [auto|]. intro Q. contradiction.
Qed.

(** * Writing *)

Lemma write_wire : forall client mask final op data, (op < 16)%N -> (N.of_nat (length data) < 2 ^ 64)%N ->
  wire client mask final op data (write_frame client mask (new_frame final op data)).
Proof.
  intros client mask final op data Hop HL. destruct (head_0_spec final op data Hop) as (_ & _ & ->). unfold wire, write_frame. cbn [f_head f_data].
  set (len := N.of_nat (length data)) in *.
  assert (H1 : forall x, (x < 128)%N -> N.lor (N.shiftl (N.b2n client) 7) x = ((if client then 128 else 0) + x)%N).
  { intros x Hx. rewrite lor_add by exact Hx. change (2 ^ 7)%N with 128%N. destruct client; cbn [N.b2n]; lia. }
  assert (BD : if client then exists p, (if client then mask ++ apply_mask mask data else data) = mask ++ p /\ xored mask data p else (if client then mask ++ apply_mask mask data else data) = data).
  { destruct client; auto. exists (apply_mask mask data). split; auto. apply apply_mask_xored. }
  destruct (N.ltb_spec len 126) as [A|A]; [|destruct (N.ltb_spec len 65536) as [B|B]].
  - exists len, [], (if client then mask ++ apply_mask mask data else data). csplit; auto.
    + rewrite H1 by lia. reflexivity.
    + constructor. lia.
  - exists 126%N, (be 2 len), (if client then mask ++ apply_mask mask data else data). csplit; auto.
    + rewrite H1 by reflexivity. reflexivity.
    + apply len_two; [split; [exact A|exact B]|apply be_length|apply be_byte|apply be_number; exact B].
  - exists 127%N, (be 8 len), (if client then mask ++ apply_mask mask data else data). csplit; auto.
    + rewrite H1 by reflexivity. reflexivity.
    + apply len_eight; [split; [exact B|exact HL]|apply be_length|apply be_byte|apply be_number; exact HL].
Qed.

Lemma wire_bytes : forall masked key final op data w, (op < 16)%N -> all_byte key -> all_byte data ->
  wire masked key final op data w -> all_byte w.
Proof.
  intros masked key final op data w Hop HK HD (seven & ext & body & -> & LF & BD).
  assert (S7 := len_read_bound _ _ _ (len_field_read _ _ _ LF)).
  constructor; [unfold is_byte; destruct final; lia|]. constructor; [unfold is_byte; destruct masked; lia|].
  apply all_byte_app. split.
  - destruct LF; [constructor|assumption|assumption].
  - destruct masked; [|subst; assumption]. destruct BD as (p & -> & X). apply all_byte_app. split; [assumption|].
    rewrite (xored_unique _ _ _ X). apply apply_mask_bytes; assumption.
Qed.

Lemma frame_round_trip : forall client mask final op data max_size segments rest,
  (op < 16)%N -> length mask = 4 -> all_byte mask -> all_byte data -> all_byte rest ->
  (N.of_nat (length data) < 2 ^ 64)%N -> ~ over max_size (N.of_nat (length data)) -> chunks_ok segments ->
  concat segments = write_frame client mask (new_frame final op data) ++ rest ->
  exists cs o, read_frame (negb client) max_size segments 0 = FFrame (new_frame final op data) cs o /\ unread cs o = rest.
Proof.
  intros client mask final op data max_size segments rest Hop LM BM BD BR HL HM HC EC.
  assert (W := write_wire client mask final op data Hop HL).
  assert (HU : unread segments 0 = write_frame client mask (new_frame final op data) ++ rest) by (rewrite unread_zero; exact EC).
  assert (HB : all_byte (unread segments 0)).
  { rewrite HU. apply all_byte_app. split; [|assumption]. apply (wire_bytes _ _ _ _ _ _ Hop BM BD W). }
  rewrite <- (negb_involutive client) in W.
  destruct (read_wire (negb client) max_size mask final op data _ segments 0 rest HC (off_ok_zero _ HC) HB LM W) as [_ Q].
  { rewrite negb_involutive. exact HU. }
  destruct (Q HM) as (cs & o & A & B & _). exists cs, o. rewrite A. destruct (head_0_spec final op data Hop) as (_ & _ & ->). auto.
Qed.

(** * Messages *)

Definition sent_frame (s : sent) : frame := mk_frame ((if s_final s then 128 else 0) + s_op s)%N (s_data s).
Definition pong_of (s : sent) : list event := if N.eqb (s_op s) 9 then [Pong (s_data s)] else [].
Definition size_of (s : sent) : N := N.of_nat (length (s_data s)).

Lemma on_wire_bytes : forall masked l w, Forall sent_ok l -> on_wire masked l w -> all_byte w.
Proof.
  intros masked l w F H. induction H as [|s l w ws W H IH]; [constructor|]. inversion F as [|? ? (A & B & C & D & E) F2]; subst.
  apply all_byte_app. split; [apply (wire_bytes masked (s_key s) (s_final s) (s_op s) (s_data s)); assumption|]. auto.
Qed.

(** One frame of the stream. *)
Lemma read_sent : forall client m s l w cs o rest, chunks_ok cs -> off_ok cs o -> Forall sent_ok (s :: l) -> all_byte rest ->
  on_wire (negb client) (s :: l) w -> unread cs o = w ++ rest ->
  ((m < size_of s)%N -> read_frame client (Some m) cs o = FTooBig) /\
  ((size_of s <= m)%N -> exists cs' o' w', read_frame client (Some m) cs o = FFrame (sent_frame s) cs' o' /\
    unread cs' o' = w' ++ rest /\ on_wire (negb client) l w' /\ chunks_ok cs' /\ off_ok cs' o').
Proof.
  intros client m s l w cs o rest HC HO F BR H HU. inversion H as [|? ? w1 ws W H1]; subst.
  assert (HB : all_byte (unread cs o)).
  { rewrite HU. apply all_byte_app. split; [|assumption]. eapply on_wire_bytes; eauto. }
  inversion F as [|? ? (A & B & C & D & E) F2]; subst. rewrite <- app_assoc in HU.
  destruct (read_wire client (Some m) (s_key s) (s_final s) (s_op s) (s_data s) w1 cs o _ HC HO HB A W HU) as [P Q]. split; [exact P|].
  intro L. destruct Q as (cs' & o' & Q1 & Q2 & Q3 & Q4); [unfold over, size_of in *; lia|]. exists cs', o', ws. csplit; auto.
Qed.

Lemma data_check : forall s, sent_ok s -> In (s_op s) [0; 1; 2]%N ->
  check (sent_frame s) = true /\ is_data (f_op (sent_frame s)) = true /\ f_op (sent_frame s) = s_op s /\ f_final (sent_frame s) = s_final s.
Proof.
  intros s (_ & _ & _ & _ & Hop) I. destruct (head_0_spec (s_final s) (s_op s) (s_data s) Hop) as (A & B & _). csplit; auto.
  - apply check_valid; [cbn [sent_frame f_head]; unfold is_byte; destruct (s_final s); lia|]. exists (s_final s), (s_op s). auto.
  - unfold sent_frame. rewrite B. cbn in I. destruct I as [<-|[<-|[<-|[]]]]; reflexivity.
Qed.

Lemma beqb_in : forall d l, existsb (beqb d) l = true -> In d l.
Proof. intros d l H. apply existsb_exists in H. destruct H as (x & I & E). apply beqb_eq in E. subst. exact I. Qed.

Lemma control_check : forall pings s, sent_ok s -> harmless pings s ->
  check (sent_frame s) = true /\ is_data (f_op (sent_frame s)) = false /\ process_control pings (sent_frame s) = inl (true, pong_of s).
Proof.
  intros pings s (_ & _ & _ & _ & Hop) (HF & HL & HO). destruct (head_0_spec (s_final s) (s_op s) (s_data s) Hop) as (A & B & _).
  fold (sent_frame s) in *. csplit.
  - apply check_valid; [cbn [sent_frame f_head]; unfold is_byte; destruct (s_final s); lia|]. exists (s_final s), (s_op s).
    split; auto. right. csplit; auto. cbn. destruct HO as [->|[-> _]]; auto.
  - rewrite B. destruct HO as [->|[-> _]]; reflexivity.
  - unfold process_control, pong_of. rewrite B. cbn [sent_frame f_data]. destruct HO as [->|[-> NI]]; [reflexivity|]. cbn [N.eqb].
    destruct (existsb (beqb (s_data s)) pings) eqn:X; [apply beqb_in in X; contradiction|]. reflexivity.
Qed.

(** Control frames that fit and then a data frame. *)
Lemma read_data : forall client pings m s l rest, all_byte rest -> In (s_op s) [0; 1; 2]%N ->
  forall ctl fuel w cs o, length ctl < fuel -> Forall (harmless pings) ctl -> Forall (fun c => (size_of c <= m)%N) ctl ->
  Forall sent_ok (ctl ++ s :: l) -> on_wire (negb client) (ctl ++ s :: l) w -> unread cs o = w ++ rest -> chunks_ok cs -> off_ok cs o ->
  ((m < size_of s)%N -> read_data_frame fuel client pings m cs o = (DError ETooBig, concat (map pong_of ctl))) /\
  ((size_of s <= m)%N -> exists cs' o' w', read_data_frame fuel client pings m cs o = (DFrame (sent_frame s) cs' o', concat (map pong_of ctl)) /\
    unread cs' o' = w' ++ rest /\ on_wire (negb client) l w' /\ chunks_ok cs' /\ off_ok cs' o').
Proof.
  intros client pings m s l rest BR HS. induction ctl as [|c ctl IH]; intros fuel w cs o HF HH HM HK HW HU HC HO; (destruct fuel as [|fuel]; [lia|]);
  cbn [app read_data_frame map concat] in *.
  - destruct (read_sent client m s l w cs o rest HC HO HK BR HW HU) as [P Q]. split.
    + intro L. rewrite P by exact L. reflexivity.
    + intro L. destruct (Q L) as (cs' & o' & w' & -> & R). inversion HK as [|? ? K _]; subst. destruct (data_check s K HS) as (-> & -> & _ & _).
      exists cs', o', w'. split; [reflexivity|exact R].
  - inversion HH as [|? ? HH1 HH2]; subst. inversion HM as [|? ? HM1 HM2]; subst. inversion HK as [|? ? HK1 HK2]; subst.
    destruct (read_sent client m c _ w cs o rest HC HO HK BR HW HU) as [_ Q]. destruct (Q HM1) as (cs1 & o1 & w1 & -> & U1 & W1 & C1 & O1).
    destruct (control_check pings c HK1 HH1) as (-> & -> & ->). cbn [length] in HF.
    destruct (IH fuel w1 cs1 o1 ltac:(lia) HH2 HM2 HK2 W1 U1 C1 O1) as [P1 Q1]. split.
    + intro L. rewrite P1 by exact L. reflexivity.
    + intro L. destruct (Q1 L) as (cs' & o' & w' & -> & R). exists cs', o', w'. split; [reflexivity|exact R].
Qed.

(** A control frame that does not fit, or a data frame that does not fit. *)
Lemma read_data_over : forall client pings m s l rest, all_byte rest -> In (s_op s) [0; 1; 2]%N ->
  forall ctl fuel w cs o, length ctl < fuel -> Forall (harmless pings) ctl -> (m < size_of s)%N \/ Exists (fun c => (m < size_of c)%N) ctl ->
  Forall sent_ok (ctl ++ s :: l) -> on_wire (negb client) (ctl ++ s :: l) w -> unread cs o = w ++ rest -> chunks_ok cs -> off_ok cs o ->
  fst (read_data_frame fuel client pings m cs o) = DError ETooBig.
Proof.
  intros client pings m s l rest BR HS. induction ctl as [|c ctl IH]; intros fuel w cs o HF HH HM HK HW HU HC HO; (destruct fuel as [|fuel]; [lia|]);
  cbn [app read_data_frame] in *.
  - destruct (read_sent client m s l w cs o rest HC HO HK BR HW HU) as [P Q]. destruct HM as [HM|HM]; [|inversion HM].
    rewrite P by exact HM. reflexivity.
  - inversion HH as [|? ? HH1 HH2]; subst. inversion HK as [|? ? HK1 HK2]; subst.
    destruct (read_sent client m c _ w cs o rest HC HO HK BR HW HU) as [P Q].
    destruct (N.lt_ge_cases m (size_of c)) as [L|L]; [rewrite P by exact L; reflexivity|].
    destruct (Q L) as (cs1 & o1 & w1 & -> & U1 & W1 & C1 & O1).
    destruct (control_check pings c HK1 HH1) as (-> & -> & ->). cbn [length] in HF.
    assert (HM' : (m < size_of s)%N \/ Exists (fun c => (m < size_of c)%N) ctl).
    { destruct HM as [HM|HM]; [left; exact HM|]. inversion HM; subst; [lia|right; assumption]. }
    assert (R := IH fuel w1 cs1 o1 ltac:(lia) HH2 HM' HK2 W1 U1 C1 O1). destruct (read_data_frame fuel client pings m cs1 o1) as [r es]. cbn [fst] in *. exact R.
Qed.

Lemma frames_of_cons : forall ctl s l, frames_of ((ctl, s) :: l) = ctl ++ s :: frames_of l.
Proof. intros ctl s l. unfold frames_of. cbn [map concat fst snd]. rewrite <- app_assoc. reflexivity. Qed.

Lemma fragments_op : forall pings op l, fragments pings op l -> exists ctl s l', l = (ctl, s) :: l' /\ s_op s = op /\ Forall (harmless pings) ctl.
Proof. intros pings op l [op' ctl s A B C|op' ctl s l' A B C D]; eauto 6. Qed.

Lemma in_op : forall s op, s_op s = op -> In op [0; 1; 2]%N -> In (s_op s) [0; 1; 2]%N.
Proof. intros. subst. assumption. Qed.

(** The loop for the fragments. *)
Lemma fragments_ok : forall client pings text rest, all_byte rest -> forall l, fragments pings 0 l ->
  forall fuel m acc s w cs o, length (frames_of l) < fuel -> Forall sent_ok (s :: frames_of l) -> In (s_op s) [0; 1; 2]%N -> s_final s = false ->
  (N.of_nat (length (s_data s ++ payload l)) <= m)%N -> control_fits (m - size_of s) l ->
  on_wire (negb client) (frames_of l) w -> unread cs o = w ++ rest -> chunks_ok cs -> off_ok cs o ->
  exists cs' o', read_fragments fuel client pings m text acc (sent_frame s) cs o = (MMessage text (acc ++ s_data s ++ payload l) cs' o', pongs_for l) /\
    unread cs' o' = rest.
Proof.
  intros client pings text rest BR. induction l as [|[ctl s1] l IH]; intros FR fuel m acc s w cs o HF HK HS HFin HM HCF HW HU HC HO; [inversion FR|].
  destruct fuel as [|fuel]; [lia|]. cbn [read_fragments]. inversion HK as [|? ? HK1 HK2]; subst.
  destruct (data_check s HK1 HS) as (_ & _ & _ & ->). rewrite HFin. cbn [sent_frame f_data]. fold (size_of s).
  rewrite frames_of_cons in *.
  assert (FR' : s_op s1 = 0%N /\ Forall (harmless pings) ctl) by (inversion FR; subst; auto). destruct FR' as [Hop1 HH].
  assert (HS1 : In (s_op s1) [0; 1; 2]%N) by (rewrite Hop1; cbn; auto).
  destruct HCF as [HC1 HC2]. unfold payload in HM. cbn [map concat snd] in HM. rewrite !app_length in HM.
  assert (HL : length ctl < S fuel) by (rewrite app_length in HF; cbn [length] in HF; lia).
  destruct (read_data client pings (m - size_of s) s1 (frames_of l) rest BR HS1 ctl (S fuel) w cs o HL HH HC1 HK2 HW HU HC HO) as [_ Q].
  destruct Q as (cs1 & o1 & w1 & -> & U1 & W1 & C1 & O1); [unfold size_of; blia|].
  assert (HK3 : Forall sent_ok (s1 :: frames_of l)) by (apply Forall_app in HK2; tauto).
  inversion HK3 as [|? ? HK4 HK5]; subst. destruct (data_check s1 HK4 HS1) as (_ & _ & -> & FI). rewrite Hop1. cbn [N.eqb].
  assert (PE : pongs_for ((ctl, s1) :: l) = concat (map pong_of ctl) ++ pongs_for l) by reflexivity. rewrite PE.
  assert (PL : payload ((ctl, s1) :: l) = s_data s1 ++ payload l) by reflexivity. rewrite PL.
  inversion FR as [? ? ? _ FF _|? ? ? ? _ FF _ FR2]; subst.
  - (* last *)
    cbn [frames_of map concat length] in *. inversion W1; subst. destruct fuel as [|fuel]; [rewrite app_length in HF; cbn in HF; lia|].
    cbn [read_fragments]. rewrite FI, FF. exists cs1, o1. cbn [sent_frame f_data payload pongs_for map concat]. rewrite !app_nil_r.
    rewrite <- app_assoc. split; [reflexivity|exact U1].
  - destruct (IH FR2 fuel (m - size_of s)%N (acc ++ s_data s) s1 w1 cs1 o1) as (cs' & o' & -> & U'); auto.
    + rewrite app_length in HF. cbn [length] in HF. lia.
    + rewrite app_length. unfold size_of. unfold payload. blia.
    + exists cs', o'. rewrite <- !app_assoc. auto.
Qed.

Lemma message_ok : forall client pings op l fuel m w cs o rest, all_byte rest -> In op [1; 2]%N -> fragments pings op l ->
  S (length (frames_of l)) < fuel -> Forall sent_ok (frames_of l) -> (N.of_nat (length (payload l)) <= m)%N -> control_fits m l ->
  on_wire (negb client) (frames_of l) w -> unread cs o = w ++ rest -> chunks_ok cs -> off_ok cs o ->
  exists cs' o', read_message fuel client pings m cs o = (MMessage (N.eqb op 1) (payload l) cs' o', pongs_for l) /\ unread cs' o' = rest.
Proof.
  intros client pings op l fuel m w cs o rest BR Hop FR HF HK HM HCF HW HU HC HO.
  destruct (fragments_op _ _ _ FR) as (ctl & s & l' & -> & Es & HH). rewrite frames_of_cons in *. destruct HCF as [HC1 HC2].
  assert (HS : In (s_op s) [0; 1; 2]%N) by (rewrite Es; cbn in *; tauto).
  unfold payload in HM. cbn [map concat snd] in HM. rewrite app_length in HM.
  assert (HL : length ctl < fuel) by (rewrite app_length in HF; cbn [length] in HF; lia).
  unfold read_message.
  destruct (read_data client pings m s (frames_of l') rest BR HS ctl fuel w cs o HL HH HC1 HK HW HU HC HO) as [_ Q].
  destruct Q as (cs1 & o1 & w1 & -> & U1 & W1 & C1 & O1); [unfold size_of; blia|].
  assert (HK3 : Forall sent_ok (s :: frames_of l')) by (apply Forall_app in HK; tauto).
  inversion HK3 as [|? ? HK4 HK5]; subst. destruct (data_check s HK4 HS) as (_ & _ & -> & FI).
  assert (T : N.eqb (s_op s) 1 || N.eqb (s_op s) 2 = true) by (cbn in Hop; destruct Hop as [<-|[<-|[]]]; reflexivity). rewrite T, FI.
  assert (PE : pongs_for ((ctl, s) :: l') = concat (map pong_of ctl) ++ pongs_for l') by reflexivity. rewrite PE.
  assert (PL : payload ((ctl, s) :: l') = s_data s ++ payload l') by reflexivity. rewrite PL.
  inversion FR as [? ? ? _ FF _|? ? ? ? _ FF _ FR2]; subst; rewrite FF.
  - inversion W1; subst. exists cs1, o1. cbn [payload pongs_for map concat]. rewrite !app_nil_r. auto.
  - destruct (fragments_ok client pings (N.eqb (s_op s) 1) rest BR l' FR2 fuel m [] s w1 cs1 o1) as (cs' & o' & -> & U'); auto.
    + rewrite app_length in HF. cbn [length] in HF. lia.
    + rewrite app_length. unfold payload. blia.
    + exists cs', o'. auto.
Qed.

(** * The limit *)

Lemma over_split : forall m (ctl : list sent), Forall (fun c => (size_of c <= m)%N) ctl \/ Exists (fun c => (m < size_of c)%N) ctl.
Proof.
  intros m ctl. induction ctl as [|c ctl IH]; [left; constructor|]. destruct (N.lt_ge_cases m (size_of c)).
  - right. constructor. assumption.
  - destruct IH; [left; constructor; auto|right; apply Exists_cons_tl; assumption].
Qed.

Lemma fragments_over : forall client pings text rest, all_byte rest -> forall l, fragments pings 0 l ->
  forall fuel m acc s w cs o, length (frames_of l) < fuel -> Forall sent_ok (s :: frames_of l) -> In (s_op s) [0; 1; 2]%N -> s_final s = false ->
  (m < N.of_nat (length (s_data s ++ payload l)))%N -> (size_of s <= m)%N ->
  on_wire (negb client) (frames_of l) w -> unread cs o = w ++ rest -> chunks_ok cs -> off_ok cs o ->
  fst (read_fragments fuel client pings m text acc (sent_frame s) cs o) = MError ETooBig.
Proof.
  intros client pings text rest BR. induction l as [|[ctl s1] l IH]; intros FR fuel m acc s w cs o HF HK HS HFin HM HSM HW HU HC HO; [inversion FR|].
  destruct fuel as [|fuel]; [lia|]. cbn [read_fragments]. inversion HK as [|? ? HK1 HK2]; subst.
  destruct (data_check s HK1 HS) as (_ & _ & _ & ->). rewrite HFin. cbn [sent_frame f_data]. fold (size_of s).
  rewrite frames_of_cons in *.
  assert (FR' : s_op s1 = 0%N /\ Forall (harmless pings) ctl) by (inversion FR; subst; auto). destruct FR' as [Hop1 HH].
  assert (HS1 : In (s_op s1) [0; 1; 2]%N) by (rewrite Hop1; cbn; auto).
  unfold payload in HM. cbn [map concat snd] in HM. rewrite !app_length in HM.
  assert (HL : length ctl < S fuel) by (rewrite app_length in HF; cbn [length] in HF; lia).
  assert (OV : (m - size_of s < size_of s1)%N \/ Exists (fun c => (m - size_of s < size_of c)%N) ctl ->
    fst (let '(r, es) := read_data_frame (S fuel) client pings (m - size_of s) cs o in
     match r with
     | DFrame f cs1 o1 => if N.eqb (f_op f) 0 then let '(m0, es') := read_fragments fuel client pings (m - size_of s) text (acc ++ s_data s) f cs1 o1 in (m0, es ++ es') else (MError EOpcode, es)
     | DClose _ _ => (MError EIncomplete, es)
     | DWait => (MWait, es)
     | DError e => (MError e, es)
     | DFuel => (MFuel, es)
     end) = MError ETooBig).
  { intro OV. assert (R := read_data_over client pings (m - size_of s) s1 (frames_of l) rest BR HS1 ctl (S fuel) w cs o HL HH OV HK2 HW HU HC HO).
    destruct (read_data_frame (S fuel) client pings (m - size_of s) cs o) as [r es]. cbn [fst] in R. subst r. reflexivity. }
  destruct (over_split (m - size_of s) ctl) as [HC1|X]; [|apply OV; right; exact X].
  destruct (N.lt_ge_cases (m - size_of s) (size_of s1)) as [L|L]; [apply OV; left; exact L|]. clear OV.
  destruct (read_data client pings (m - size_of s) s1 (frames_of l) rest BR HS1 ctl (S fuel) w cs o HL HH HC1 HK2 HW HU HC HO) as [_ Q].
  destruct (Q L) as (cs1 & o1 & w1 & -> & U1 & W1 & C1 & O1).
  assert (HK3 : Forall sent_ok (s1 :: frames_of l)) by (apply Forall_app in HK2; tauto).
  inversion HK3 as [|? ? HK4 HK5]; subst. destruct (data_check s1 HK4 HS1) as (_ & _ & -> & FI). rewrite Hop1. cbn [N.eqb].
  inversion FR as [? ? ? _ FF _|? ? ? ? _ FF _ FR2]; subst.
  - cbn [map concat length] in HM. unfold size_of in *. exfalso. blia.
  - assert (R : fst (read_fragments fuel client pings (m - size_of s) text (acc ++ s_data s) (sent_frame s1) cs1 o1) = MError ETooBig).
    { apply (IH FR2) with w1; auto.
      - rewrite app_length in HF. cbn [length] in HF. lia.
      - rewrite app_length. unfold size_of, payload in *. blia. }
    destruct (read_fragments fuel client pings (m - size_of s) text (acc ++ s_data s) (sent_frame s1) cs1 o1) as [r es]. cbn [fst] in *. exact R.
Qed.

Lemma message_over : forall client pings op l fuel m w cs o rest, all_byte rest -> In op [1; 2]%N -> fragments pings op l ->
  S (length (frames_of l)) < fuel -> Forall sent_ok (frames_of l) -> (m < N.of_nat (length (payload l)))%N ->
  on_wire (negb client) (frames_of l) w -> unread cs o = w ++ rest -> chunks_ok cs -> off_ok cs o ->
  fst (read_message fuel client pings m cs o) = MError ETooBig.
Proof.
  intros client pings op l fuel m w cs o rest BR Hop FR HF HK HM HW HU HC HO.
  destruct (fragments_op _ _ _ FR) as (ctl & s & l' & -> & Es & HH). rewrite frames_of_cons in *.
  assert (HS : In (s_op s) [0; 1; 2]%N) by (rewrite Es; cbn in *; tauto).
  unfold payload in HM. cbn [map concat snd] in HM. rewrite app_length in HM.
  assert (HL : length ctl < fuel) by (rewrite app_length in HF; cbn [length] in HF; lia).
  unfold read_message.
  assert (OV := fun X => read_data_over client pings m s (frames_of l') rest BR HS ctl fuel w cs o HL HH X HK HW HU HC HO).
  destruct (over_split m ctl) as [HC1|X].
  2: { specialize (OV (or_intror X)). destruct (read_data_frame fuel client pings m cs o) as [r es]. cbn [fst] in OV. subst r. reflexivity. }
  destruct (N.lt_ge_cases m (size_of s)) as [L|L].
  { specialize (OV (or_introl L)). destruct (read_data_frame fuel client pings m cs o) as [r es]. cbn [fst] in OV. subst r. reflexivity. }
  clear OV.
  destruct (read_data client pings m s (frames_of l') rest BR HS ctl fuel w cs o HL HH HC1 HK HW HU HC HO) as [_ Q].
  destruct (Q L) as (cs1 & o1 & w1 & -> & U1 & W1 & C1 & O1).
  assert (HK3 : Forall sent_ok (s :: frames_of l')) by (apply Forall_app in HK; tauto).
  inversion HK3 as [|? ? HK4 HK5]; subst. destruct (data_check s HK4 HS) as (_ & _ & -> & FI).
  assert (T : N.eqb (s_op s) 1 || N.eqb (s_op s) 2 = true) by (cbn in Hop; destruct Hop as [<-|[<-|[]]]; reflexivity). rewrite T, FI.
  inversion FR as [? ? ? _ FF _|? ? ? ? _ FF _ FR2]; subst; rewrite FF.
  - cbn [map concat length] in HM. unfold size_of in *. exfalso. blia.
  - assert (R : fst (read_fragments fuel client pings m (N.eqb (s_op s) 1) [] (sent_frame s) cs1 o1) = MError ETooBig).
    { apply (fragments_over client pings (N.eqb (s_op s) 1) rest BR l' FR2) with w1; auto.
      - rewrite app_length in HF. cbn [length] in HF. lia.
      - rewrite app_length. unfold payload. blia. }
    destruct (read_fragments fuel client pings m (N.eqb (s_op s) 1) [] (sent_frame s) cs1 o1) as [r es]. cbn [fst] in *. exact R.
Qed.

(** * Closing *)

Lemma serialize_close_bytes : forall code reason d, serialize_close code reason = Some d -> all_byte reason ->
  d = be 2 code ++ reason /\ close_code_ok code = true /\ (code < 65536)%N /\ all_byte d.
Proof.
  intros code reason d H R. unfold serialize_close in H. destruct (close_code_ok code) eqn:E; [|discriminate]. assert (Q : d = be 2 code ++ reason) by congruence. clear H. subst d. csplit; auto.
  - unfold close_code_ok in E. apply orb_prop in E. destruct E as [E|E].
    + apply existsb_exists in E. destruct E as (x & I & Q). apply N.eqb_eq in Q. subst x. cbn in I. repeat destruct I as [<-|I]; try reflexivity. contradiction.
    + apply andb_prop in E. destruct E as [_ E]. apply N.ltb_lt in E. lia.
  - apply all_byte_app. split; [apply be_byte|exact R].
Qed.

Lemma close_received : forall client mask code reason d pings m segments rest fuel,
  serialize_close code reason = Some d -> all_byte reason -> length reason <= 123 -> (125 <= m)%N ->
  length mask = 4 -> all_byte mask -> all_byte rest -> chunks_ok segments ->
  concat segments = send client mask 8 d ++ rest -> 0 < fuel ->
  read_message fuel (negb client) pings m segments 0 = (MClose, [Closed code reason]).
Proof.
  intros client mask code reason d pings m segments rest fuel SC BR LR HM LM BM BRe HC EC HF.
  destruct (serialize_close_bytes code reason d SC BR) as (-> & OK & LT & BD).
  assert (LD : length (be 2 code ++ reason) <= 125) by (rewrite app_length, be_length; lia).
  destruct (frame_round_trip client mask true 8 (be 2 code ++ reason) (Some m) segments rest) as (cs & o & R & U); auto; try reflexivity.
  - change (2 ^ 64)%N with 18446744073709551616%N. lia.
  - unfold over. lia.
  - destruct fuel as [|fuel]; [lia|]. unfold read_message. cbn [read_data_frame]. rewrite R.
    destruct (head_0_spec true 8 (be 2 code ++ reason) ltac:(reflexivity)) as (_ & OP & NF). rewrite NF.
    assert (CK : check (mk_frame (128 + 8) (be 2 code ++ reason)) = true).
    { apply check_valid; [reflexivity|]. exists true, 8%N. split; [reflexivity|]. right. cbn [f_data]. csplit; auto. cbn. auto. }
    cbv iota zeta in OP. rewrite CK, OP. cbn [is_data existsb N.eqb orb]. unfold process_control. rewrite OP. cbn [f_data N.eqb].
    assert (L2 := be_length 2 code). assert (N2 := be_number 2 code LT). assert (B2 := be_byte 2 code).
    destruct (be 2 code) as [|a [|b [|]]]; try discriminate. cbn [app]. rewrite unbe_number by exact B2. rewrite N2, OK. reflexivity.
Qed.
