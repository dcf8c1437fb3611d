From Coq Require Import List Arith Bool NArith Lia.
From Coq Require String.
Import String.StringSyntax.
From Verif Require Import Bytes Text QuoteModel QuoteSpec QuoteProofs MultiModel AuthModel AuthSpec AuthProofs DispoModel PartModel PartSpec.
Import ListNotations.

(** * Text *)

Lemma starts_not_in p d c : starts_with (c :: p) d = true -> exists d', d = c :: d'.
Proof. destruct d as [|x d]; cbn; [discriminate|]. intros H. apply andb_true_iff in H. destruct H as [H _]. apply N.eqb_eq in H. subst. eauto. Qed.

Lemma prefix_split (p x y : bytes) : (exists r, x ++ y = p ++ r) ->
  (exists r, x = p ++ r) \/ (exists q, p = x ++ q /\ q <> [] /\ exists r, y = q ++ r).
Proof.
  revert x. induction p as [|a p IH]; intros x (r & H).
  - left. exists x. reflexivity.
  - destruct x as [|b x].
    + right. exists (a :: p). cbn in *. split; [reflexivity|]. split; [discriminate|]. exists r. exact H.
    + cbn in H. injection H as <- H. destruct (IH x) as [(r' & E)|(q & E & Q & R)]; [exists r; exact H| |].
      * left. exists r'. cbn. rewrite E. reflexivity.
      * right. exists q. cbn. rewrite <- E. auto.
Qed.

(** A separator whose first character is not in it again is found where it was put. *)
Lemma cut_here h p x r : ~ In h p -> ~ occurs (h :: p) x -> cut (h :: p) (x ++ (h :: p) ++ r) = Some (x, r).
Proof.
  intros N. induction x as [|c x IH]; intros O.
  - assert (E : starts_with (h :: p) ((h :: p) ++ r) = true) by (apply starts_with_app; exists r; reflexivity).
    change ([] ++ (h :: p) ++ r) with ((h :: p) ++ r).
    assert (G : forall d, starts_with (h :: p) d = true -> cut (h :: p) d = Some ([], skipn (length (h :: p)) d)).
    { intros d H. destruct d; unfold cut; fold cut; rewrite H; reflexivity. }
    rewrite (G _ E). rewrite skipn_app, skipn_all, Nat.sub_diag. reflexivity.
  - assert (F : starts_with (h :: p) ((c :: x) ++ (h :: p) ++ r) = false).
    { destruct (starts_with (h :: p) ((c :: x) ++ (h :: p) ++ r)) eqn:E; [|reflexivity]. exfalso.
      apply starts_with_app in E. apply prefix_split in E. destruct E as [(r' & E)|(q & E & Q & r' & R)].
      - apply O. exists [], r'. exact E.
      - destruct q as [|a q]; [congruence|]. cbn in R. injection R as <- _. cbn in E. injection E as _ E.
        apply N. rewrite E. apply in_or_app. right. left. reflexivity. }
    change ((c :: x) ++ (h :: p) ++ r) with (c :: (x ++ (h :: p) ++ r)) in *.
    change (cut (h :: p) (c :: x ++ (h :: p) ++ r)) with
      (if starts_with (h :: p) (c :: x ++ (h :: p) ++ r) then Some ([], skipn (length (h :: p)) (c :: x ++ (h :: p) ++ r))
       else match cut (h :: p) (x ++ (h :: p) ++ r) with Some (a, b) => Some (c :: a, b) | None => None end).
    rewrite F, IH; [reflexivity|]. intros (a & b & E). apply O. exists (c :: a), b. rewrite E. reflexivity.
Qed.

Lemma not_occurs h p x : ~ In h x -> ~ occurs (h :: p) x.
Proof. intros H (a & b & E). apply H. rewrite E. apply in_or_app. right. left. reflexivity. Qed.

Lemma utf8_app a b : utf8 (a ++ b) = utf8 a ++ utf8 b.
Proof. unfold utf8. apply flat_map_app. Qed.

Lemma utf8_not_in b s : (b < 128)%N -> ~ In b s -> ~ In b (utf8 s).
Proof.
  intros B H X. unfold utf8 in X. apply in_flat_map in X. destruct X as (c & C & X).
  destruct (N.lt_ge_cases c 128) as [L|L].
  - rewrite encode1_low in X by exact L. destruct X as [X|[]]. subst. contradiction.
  - apply (encode1_high c b L) in X. lia.
Qed.

Lemma utf8_low s : Forall (fun c => (c < 128)%N) s -> utf8 s = s.
Proof.
  unfold utf8. induction 1 as [|c s H _ IH]; [reflexivity|]. cbn [flat_map]. rewrite encode1_low by exact H. rewrite IH. reflexivity.
Qed.

Lemma utf8_nonempty s : s <> [] -> utf8 s <> [].
Proof.
  destruct s as [|c s]; [congruence|]. intros _ E. unfold utf8 in E. cbn [flat_map] in E. apply app_eq_nil in E. destruct E as [E _].
  exact (encode1_nonempty c E).
Qed.

(** * The reader *)

Lemma plain_not_in c p : plain_header p -> (c = 13 \/ c = 10)%N -> ~ In c (utf8 (fst p)) /\ ~ In c (utf8 (snd p)).
Proof.
  intros (_ & _ & F) C. rewrite Forall_forall in F.
  split; (apply utf8_not_in; [lia|]); intros X; specialize (F c); rewrite in_app_iff in F;
    [destruct (F (or_introl X))|destruct (F (or_intror X))]; lia.
Qed.

Lemma read_block l : Forall plain_header l -> forall data fuel, length l < fuel ->
  read_headers fuel (block l ++ data) = Some (seen l, data).
Proof.
  induction 1 as [|p l P _ IH]; intros data fuel L.
  - destruct fuel as [|fuel]; [inversion L|]. reflexivity.
  - destruct fuel as [|fuel]; [inversion L|]. cbn [length] in L. cbn [read_headers].
    set (body := utf8 (fst p) ++ [58; 32]%N ++ utf8 (snd p)).
    assert (E : block (p :: l) ++ data = body ++ [13; 10]%N ++ (block l ++ data)).
    { unfold block, body, line. cbn [map concat]. rewrite <- !app_assoc. reflexivity. }
    rewrite E. clear E.
    destruct (plain_not_in 13%N p P (or_introl eq_refl)) as [A B].
    assert (C : cut [13; 10]%N (body ++ [13; 10]%N ++ (block l ++ data)) = Some (body, block l ++ data)).
    { apply (cut_here 13%N [10]%N).
      - intros [X|[]]. discriminate.
      - apply not_occurs. unfold body. rewrite !in_app_iff. intros [X|[[X|[X|[]]]|X]]; try discriminate; contradiction. }
    rewrite C.
    assert (D : cut [58; 32]%N body = Some (utf8 (fst p), utf8 (snd p))).
    { unfold body. apply (cut_here 58%N [32]%N).
      - intros [X|[]]. discriminate.
      - apply not_occurs. apply utf8_not_in; [lia|]. apply P. }
    destruct body as [|b0 body0] eqn:Eb.
    + exfalso. unfold body in Eb. apply app_eq_nil in Eb. destruct Eb as [Eb _]. revert Eb. apply utf8_nonempty. apply P.
    + rewrite D. rewrite IH by lia. reflexivity.
Qed.

Lemma block_length l : length l < length (block l).
Proof.
  unfold block. rewrite app_length. cbn [length].
  assert (H : length l <= length (concat (map line l))).
  { induction l as [|p l IH]; cbn [map concat length]; [lia|]. rewrite app_length. unfold line at 1. rewrite !app_length. cbn [length]. lia. }
  lia.
Qed.

(** What a part of a body is. *)
Definition framed (b : bytes) (hd : list (str * str) * bytes) : bytes :=
  [45; 45]%N ++ b ++ [13; 10]%N ++ block (fst hd) ++ snd hd ++ [13; 10]%N.
Definition body_of (b : bytes) (l : list (list (str * str) * bytes)) : bytes :=
  concat (map (framed b) l) ++ [45; 45]%N ++ b ++ [45; 45]%N ++ [13; 10]%N.

Lemma read_framed b l : ~ In 13%N b ->
  Forall (fun hd => Forall plain_header (fst hd) /\ ~ occurs (delimiter b) (block (fst hd) ++ snd hd)) l ->
  forall fuel, length l < fuel ->
  exists tail, [13; 10]%N ++ body_of b l = delimiter b ++ tail /\
  read_parts fuel b tail = Some (map (fun hd => (seen (fst hd), snd hd)) l).
Proof.
  intros NB. induction 1 as [|hd l [P D] _ IH]; intros fuel L.
  - destruct fuel as [|fuel]; [inversion L|]. exists ([45; 45]%N ++ [13; 10]%N). split; [reflexivity|]. reflexivity.
  - destruct fuel as [|fuel]; [inversion L|]. cbn [length] in L.
    destruct (IH fuel) as (tail & E & R); [lia|].
    exists ([13; 10]%N ++ (block (fst hd) ++ snd hd) ++ delimiter b ++ tail). split.
    + rewrite <- E. unfold body_of, framed, delimiter. cbn [map concat]. rewrite <- !app_assoc. cbn [app]. reflexivity.
    + cbn [read_parts]. 
      assert (S1 : forall x, starts_with [45; 45]%N ([13; 10]%N ++ x) = false) by reflexivity.
      assert (S2 : forall x, starts_with [13; 10]%N ([13; 10]%N ++ x) = true) by reflexivity.
      rewrite S1, S2. cbv iota.
      assert (K : forall x : bytes, skipn 2 ([13; 10]%N ++ x) = x) by reflexivity. rewrite K.
      assert (C : cut (delimiter b) ((block (fst hd) ++ snd hd) ++ delimiter b ++ tail) = Some (block (fst hd) ++ snd hd, tail)).
      { apply (cut_here 13%N ([10; 45; 45]%N ++ b)).
        - cbn. intros [X|[X|[X|X]]]; try discriminate. contradiction.
        - exact D. }
      rewrite C, R. rewrite read_block; [|exact P|apply Nat.lt_lt_succ_r; eapply Nat.lt_le_trans; [apply block_length|rewrite app_length; apply Nat.le_add_r]].
      cbn [map]. destruct hd. reflexivity.
Qed.

Lemma framed_length b l : length l <= length (concat (map (framed b) l)).
Proof.
  induction l as [|hd l IH]; [apply le_n|]. cbn [map concat length]. rewrite app_length.
  assert (H : 1 <= length (framed b hd)) by (unfold framed; cbn [app length]; apply le_n_S, Nat.le_0_l).
  etransitivity; [apply le_n_S; exact IH|]. apply (Nat.add_le_mono 1 _ _ _ H (le_n _)).
Qed.

Lemma body_length b l : length l < S (length (body_of b l)).
Proof.
  apply le_n_S. unfold body_of. rewrite app_length. etransitivity; [apply (framed_length b)|apply Nat.le_add_r].
Qed.

Lemma read_back b l : ~ In 13%N b ->
  Forall (fun hd => Forall plain_header (fst hd) /\ ~ occurs (delimiter b) (block (fst hd) ++ snd hd)) l ->
  read_body b (body_of b l) = Some (map (fun hd => (seen (fst hd), snd hd)) l).
Proof.
  intros NB H. destruct (read_framed b l NB H (S (length (body_of b l))) (body_length b l)) as (tail & E & R).
  unfold read_body. rewrite E.
  assert (C : cut (delimiter b) ([] ++ delimiter b ++ tail) = Some ([], tail)).
  { apply (cut_here 13%N ([10; 45; 45]%N ++ b)).
    - cbn. intros [X|[X|[X|X]]]; try discriminate. contradiction.
    - intros (x & y & X). destruct x; discriminate. }
  cbn [app] in C. rewrite C. exact R.
Qed.

(** * The writer *)

Section Writer.
Variable fold : str -> str.
Variable show : nat -> str.
Variable comp : Type.
Variable comp_new : coding -> comp.
Variable compress : comp -> bytes -> comp * bytes.
Variable flush : comp -> bytes.
Variable qp : bytes -> bytes.

Notation append_payload := (append_payload fold show).
Notation append_all := (append_all fold show).
Notation write := (write comp comp_new compress flush qp).
Notation write_part := (write_part comp comp_new compress flush qp).

Lemma boundary_kept w p w' : append_payload w p = Some w' -> w_boundary w' = w_boundary w.
Proof.
  unfold PartModel.append_payload. destruct (content_encoding_of fold (p_headers p)), (transfer_encoding_of fold (p_headers p)); intros H; try discriminate.
  injection H as <-. reflexivity.
Qed.

Lemma all_boundary l : forall w w', append_all w l = Some w' -> w_boundary w' = w_boundary w.
Proof.
  induction l as [|p l IH]; intros w w' H; cbn in H; [injection H as <-; reflexivity|].
  destruct (append_payload w p) as [w1|] eqn:E; [|discriminate]. rewrite (IH _ _ H). exact (boundary_kept _ _ _ E).
Qed.

Lemma write_snoc b ps p size contents :
  write (mk_writer b (ps ++ [p]) size) contents true = concat (map (write_part b contents) ps) ++ write_part b contents p ++ DASH ++ b ++ DASH ++ CRLF.
Proof. unfold PartModel.write. cbn [w_parts w_boundary]. rewrite map_app, concat_app. cbn [map concat]. rewrite app_nil_r, <- app_assoc. reflexivity. Qed.

Definition sized (contents : nat -> list bytes) (w : writer) : Prop :=
  w_parts w <> [] -> forall n, w_size w = Some n -> length (write w contents true) = n.

Lemma append_sized contents w p w' : honest contents p -> sized contents w -> append_payload w p = Some w' -> sized contents w' /\ w_parts w' <> [].
Proof.
  intros P W H. unfold PartModel.append_payload in H.
  destruct (content_encoding_of fold (p_headers p)) as [ce|]; [|discriminate].
  destruct (transfer_encoding_of fold (p_headers p)) as [te|]; [|discriminate].
  injection H as <-. split; [|cbn; intros X; apply app_eq_nil in X; destruct X; discriminate].
  intros _ n. cbn [w_size].
  set (headers := render_headers _).
  assert (G : forall size, (w_parts w = [] /\ size = 6 + length (w_boundary w)) \/ (w_parts w <> [] /\ w_size w = Some size) ->
    length (concat (map (write_part (w_boundary w) contents) (w_parts w))) + (6 + length (w_boundary w)) = size).
  { intros size [[E ->]|[E S1]].
    - rewrite E. reflexivity.
    - specialize (W E _ S1). unfold PartModel.write in W. rewrite !app_length in W. cbn [length DASH CRLF] in W. lia. }
  assert (Q : forall size m, (w_parts w = [] /\ size = 6 + length (w_boundary w)) \/ (w_parts w <> [] /\ w_size w = Some size) ->
    p_size p = Some m -> no_coding ce te = true ->
    length (write (mk_writer (w_boundary w) (w_parts w ++ [mk_part (p_id p) headers ce te]) (Some n)) contents true) =
    size + (6 + length (w_boundary w) + m + length headers)).
  { intros size m S1 M C. rewrite write_snoc. specialize (G _ S1). specialize (P _ M).
    unfold PartModel.write_part at 2. cbn [t_coding t_transfer t_headers t_id]. rewrite C. rewrite !app_length. cbn [length DASH CRLF].
    cbn [length] in G. lia. }
  intros H.
  assert (T : length (write (mk_writer (w_boundary w) (w_parts w ++ [mk_part (p_id p) headers ce te]) (Some n)) contents true) = n ->
              length (write (mk_writer (w_boundary w) (w_parts w ++ [mk_part (p_id p) headers ce te])
                (match match w_parts w with [] => Some (6 + length (w_boundary w)) | _ :: _ => w_size w end with
                 | Some size => match p_size p with
                                | Some n0 => if no_coding ce te then Some (size + (6 + length (w_boundary w) + n0 + length headers)) else None
                                | None => None end
                 | None => w_size w end)) contents true) = n) by (intros X; exact X).
  apply T. clear T.
  destruct (w_parts w) as [|p0 ps] eqn:EP.
  - destruct (p_size p) as [m|] eqn:EM; [|discriminate]. destruct (no_coding ce te) eqn:EC; [|discriminate]. injection H as H.
    rewrite (Q (6 + length (w_boundary w)) m); auto.
  - destruct (w_size w) as [size|] eqn:ES; [|discriminate].
    destruct (p_size p) as [m|] eqn:EM; [|discriminate]. destruct (no_coding ce te) eqn:EC; [|discriminate]. injection H as H.
    rewrite (Q size m); auto. right. split; [discriminate|reflexivity].
Qed.

Theorem size_ok contents l : forall w w', Forall (honest contents) l -> sized contents w -> append_all w l = Some w' -> sized contents w'.
Proof.
  induction l as [|p l IH]; intros w w' F W H; cbn in H; [injection H as <-; exact W|].
  inversion F as [|? ? P F']; subst. destruct (append_payload w p) as [w1|] eqn:E; [|discriminate].
  apply (IH w1 w' F'); [|exact H]. apply (append_sized contents w p w1 P W E).
Qed.

(** ** Base64 *)

Notation pw_write := (pw_write comp compress qp).
Notation pw_run := (pw_run comp compress flush qp).
Notation pw_send := (pw_send comp qp).
Notation pw_eof := (pw_eof comp compress flush qp).

Lemma encode_app a b : length a mod 3 = 0 -> b64encode (a ++ b) = b64encode a ++ b64encode b.
Proof.
  pattern a. apply three_ind; clear a.
  - reflexivity.
  - intros x H. discriminate.
  - intros x y H. discriminate.
  - intros x y z l IH H. cbn [app b64encode]. rewrite IH; [reflexivity|].
    cbn [length] in H. replace (S (S (S (length l)))) with (length l + 1 * 3) in H by lia. rewrite Nat.mod_add in H by lia. exact H.
Qed.

Lemma barrier (buf : bytes) : b64encode (firstn (length buf / 3 * 3) buf) ++ b64encode (skipn (length buf / 3 * 3) buf) = b64encode buf.
Proof.
  set (k := length buf / 3 * 3). rewrite <- encode_app; [rewrite firstn_skipn; reflexivity|].
  assert (K : k <= length buf) by (unfold k; rewrite Nat.mul_comm; apply Nat.mul_div_le; lia).
  rewrite firstn_length_le by exact K. unfold k. apply Nat.mod_mul. lia.
Qed.

(** The buffer of the encoder, before the base64 characters of what is still to come. *)
Lemma send_base64 c buf chunk : exists buf', pw_send (mk_pw comp c (Some Base64) buf) chunk = (mk_pw comp c (Some Base64) buf', fst (b64encode (firstn (length (buf ++ chunk) / 3 * 3) (buf ++ chunk)), 0)) /\
  buf' = skipn (length (buf ++ chunk) / 3 * 3) (buf ++ chunk) /\ (length (firstn (length (buf ++ chunk) / 3 * 3) (buf ++ chunk))) mod 3 = 0.
Proof.
  eexists. split; [reflexivity|]. split; [reflexivity|].
  set (k := length (buf ++ chunk) / 3 * 3).
  assert (K : k <= length (buf ++ chunk)) by (unfold k; rewrite Nat.mul_comm; apply Nat.mul_div_le; lia).
  rewrite firstn_length_le by exact K. unfold k. apply Nat.mod_mul. lia.
Qed.

(** What a run writes in base64 is the base64 of what it writes without. *)
Lemma send_step c buf chunk rest :
  let '(s, out) := pw_send (mk_pw comp c (Some Base64) buf) chunk in
  exists buf', s = mk_pw comp c (Some Base64) buf' /\ out ++ b64encode (buf' ++ rest) = b64encode (buf ++ chunk ++ rest).
Proof.
  destruct (send_base64 c buf chunk) as (buf' & E & B & M). rewrite E. cbn [fst]. exists buf'. split; [reflexivity|].
  rewrite <- encode_app by exact M. rewrite B, app_assoc, firstn_skipn, <- app_assoc. reflexivity.
Qed.

Lemma eof_base64 c buf : pw_eof (mk_pw comp c (Some Base64) buf) = b64encode (buf ++ pw_eof (mk_pw comp c None [])).
Proof.
  unfold PartModel.pw_eof. cbn [pw_comp pw_transfer pw_buffer].
  destruct c as [c|]; cbn [pw_comp pw_transfer pw_buffer].
  - destruct (flush c) as [|x f] eqn:F; cbn [pw_transfer pw_buffer app].
    + rewrite app_nil_r. destruct buf; reflexivity.
    + unfold PartModel.pw_write. cbn [pw_comp pw_transfer].
      pose proof (send_step None buf (x :: f) []) as H.
      destruct (pw_send (mk_pw comp None (Some Base64) buf) (x :: f)) as [s out] eqn:E. destruct H as (buf' & -> & H).
      cbn [pw_transfer pw_buffer]. unfold PartModel.pw_send. cbn [pw_transfer]. rewrite !app_nil_r in H. rewrite app_nil_r. rewrite <- H.
      destruct buf'; reflexivity.
  - rewrite app_nil_r. destruct buf; reflexivity.
Qed.

Theorem base64_run chunks : forall c buf, pw_run (mk_pw comp c (Some Base64) buf) chunks = b64encode (buf ++ pw_run (mk_pw comp c None []) chunks).
Proof.
  induction chunks as [|ch chunks IH]; intros c buf; [apply eof_base64|].
  cbn [PartModel.pw_run]. unfold PartModel.pw_write. cbn [pw_comp pw_transfer pw_buffer].
  assert (SEND : forall c x, (let '(s, out) := pw_send (mk_pw comp c (Some Base64) buf) x in out ++ pw_run s chunks) =
                 b64encode (buf ++ x ++ pw_run (mk_pw comp c None []) chunks)).
  { intros c0 x. pose proof (send_step c0 buf x (pw_run (mk_pw comp c0 None []) chunks)) as H.
    destruct (pw_send (mk_pw comp c0 (Some Base64) buf) x) as [s out]. destruct H as (buf' & -> & H). rewrite IH. exact H. }
  destruct c as [c|]; [|apply SEND].
  destruct ch as [|b ch]; [apply (SEND (Some c) [])|].
  destruct (compress c (b :: ch)) as [c' [|o out]]; [cbn [app]; apply IH|]. apply SEND.
Qed.

Lemma plain_run chunks : pw_run (mk_pw comp None None []) chunks = concat chunks.
Proof. induction chunks as [|c chunks IH]; [reflexivity|]. cbn [PartModel.pw_run PartModel.pw_write]. cbn. rewrite IH. reflexivity. Qed.

(** ** Reading back *)

Lemma render_block (h : dict) : render_headers h = block (items h).
Proof.
  unfold render_headers, block. rewrite utf8_app. f_equal.
  induction (items h) as [|p l IH]; [reflexivity|]. cbn [flat_map map concat]. rewrite utf8_app, IH. f_equal.
  unfold line. rewrite !utf8_app. reflexivity.
Qed.

(** The headers which a payload has in the body. *)
Definition announced (p : payload) : list (str * str) :=
  match content_encoding_of fold (p_headers p), transfer_encoding_of fold (p_headers p), p_size p with
  | Some None, Some None, Some n => items (set_item fold (p_headers p) CONTENT_LENGTH (show n))
  | _, _, _ => items (p_headers p)
  end.

Definition encoded (contents : nat -> list bytes) (p : payload) : bytes :=
  match content_encoding_of fold (p_headers p), transfer_encoding_of fold (p_headers p) with
  | Some ce, Some te => pw_run (pw_new comp comp_new ce te) (contents (p_id p))
  | _, _ => []
  end.

Lemma append_part contents w p w' : append_payload w p = Some w' ->
  exists pt, w_parts w' = w_parts w ++ [pt] /\ write_part (w_boundary w) contents pt = framed (w_boundary w) (announced p, encoded contents p).
Proof.
  intros H. unfold PartModel.append_payload in H. unfold announced, encoded.
  destruct (content_encoding_of fold (p_headers p)) as [ce|]; [|discriminate].
  destruct (transfer_encoding_of fold (p_headers p)) as [te|]; [|discriminate].
  injection H as <-. eexists. split; [reflexivity|]. unfold PartModel.write_part, framed. cbn [t_headers t_coding t_transfer t_id fst snd].
  rewrite render_block. f_equal. f_equal. f_equal. f_equal; [f_equal|f_equal].
  - destruct (p_size p), ce, te; reflexivity.
  - destruct ce, te; try reflexivity. unfold pw_new. cbn [no_coding option_map]. rewrite plain_run. reflexivity.
Qed.

Lemma append_parts contents l : forall w w', append_all w l = Some w' ->
  concat (map (write_part (w_boundary w) contents) (w_parts w')) =
  concat (map (write_part (w_boundary w) contents) (w_parts w)) ++ concat (map (fun p => framed (w_boundary w) (announced p, encoded contents p)) l).
Proof.
  induction l as [|p l IH]; intros w w' H; cbn in H; [injection H as <-; cbn; rewrite app_nil_r; reflexivity|].
  destruct (append_payload w p) as [w1|] eqn:E; [|discriminate].
  destruct (append_part contents w p w1 E) as (pt & W & F). pose proof (boundary_kept _ _ _ E) as B.
  specialize (IH _ _ H). rewrite B in IH. rewrite IH, W, map_app, concat_app. cbn [map concat]. rewrite app_nil_r, F, <- app_assoc. reflexivity.
Qed.

Lemma write_body b l w contents : append_all (mk_writer b [] None) l = Some w ->
  write w contents true = body_of b (map (fun p => (announced p, encoded contents p)) l).
Proof.
  intros H. unfold PartModel.write, body_of. pose proof (all_boundary _ _ _ H) as B. cbn [w_boundary] in B.
  pose proof (append_parts contents _ _ _ H) as P. cbn [w_boundary w_parts map concat app] in P. rewrite B, P, map_map. reflexivity.
Qed.

Lemma boundary_no_cr s w : new_writer s = Some w -> w = mk_writer s [] None /\ ~ In 13%N s.
Proof.
  unfold new_writer. destruct (forallb (fun c => (c <? 128)%N) s); [|discriminate]. cbn [negb].
  destruct (match s with [] => false | _ => forallb tchar_byte s end) eqn:T.
  - intros H. injection H as <-. split; [reflexivity|]. intros X. destruct s as [|c s]; [discriminate|].
    rewrite forallb_forall in T. specialize (T _ X). vm_compute in T. discriminate.
  - destruct (existsb invalid_qdtext s) eqn:I; [discriminate|]. intros H. injection H as <-. split; [reflexivity|]. intros X.
    assert (Y : existsb invalid_qdtext s = true) by (apply existsb_exists; exists 13%N; split; [exact X|reflexivity]). congruence.
Qed.

Theorem read_written b l w contents : ~ In 13%N b -> append_all (mk_writer b [] None) l = Some w ->
  Forall (fun p => Forall plain_header (announced p) /\ ~ occurs (delimiter b) (block (announced p) ++ encoded contents p)) l ->
  read_body b (write w contents true) = Some (map (fun p => (seen (announced p), encoded contents p)) l).
Proof.
  intros B A F. rewrite (write_body _ _ _ contents A). rewrite read_back; [|exact B|].
  - rewrite map_map. reflexivity.
  - rewrite Forall_forall in *. intros hd X. apply in_map_iff in X. destruct X as (p & <- & X). apply F. exact X.
Qed.

Lemma uncoded_codings p : uncoded fold p -> content_encoding_of fold (p_headers p) = Some None /\ transfer_encoding_of fold (p_headers p) = Some None.
Proof. intros [H K]. unfold content_encoding_of, transfer_encoding_of, first_of. rewrite H, K. auto. Qed.

Lemma uncoded_announced p : uncoded fold p -> announced p = with_length fold show p.
Proof. intros H. unfold announced, with_length. destruct (uncoded_codings p H) as [-> ->]. destruct (p_size p); reflexivity. Qed.

Lemma uncoded_encoded contents p : uncoded fold p -> encoded contents p = concat (contents (p_id p)).
Proof. intros H. unfold encoded. destruct (uncoded_codings p H) as [-> ->]. apply plain_run. Qed.

Theorem parts_back s w0 l w contents : new_writer s = Some w0 -> append_all w0 l = Some w ->
  Forall (fun p => uncoded fold p /\ Forall plain_header (with_length fold show p) /\
                   ~ occurs (delimiter s) (block (with_length fold show p) ++ concat (contents (p_id p)))) l ->
  read_body s (write w contents true) = Some (map (fun p => (seen (with_length fold show p), concat (contents (p_id p)))) l).
Proof.
  intros N A F. destruct (boundary_no_cr s w0 N) as [-> B]. rewrite (read_written s l w contents B A).
  - f_equal. apply map_ext_in. intros p X. rewrite Forall_forall in F. destruct (F p X) as (U & _). rewrite uncoded_announced, uncoded_encoded by exact U. reflexivity.
  - rewrite Forall_forall in *. intros p X. destruct (F p X) as (U & P & D). rewrite uncoded_announced, uncoded_encoded by exact U. auto.
Qed.

Theorem announced_size s w0 l w contents n : new_writer s = Some w0 -> append_all w0 l = Some w -> Forall (honest contents) l ->
  w_size w = Some n -> length (write w contents true) = n.
Proof.
  intros N A F H. destruct (boundary_no_cr s w0 N) as [-> B].
  destruct l as [|p l]; [cbn in A; injection A as <-; discriminate|].
  assert (P : sized contents w).
  { apply (size_ok contents (p :: l) (mk_writer s [] None) w F); [|exact A]. intros X. cbn in X. congruence. }
  apply P; [|exact H]. cbn in A. destruct (append_payload (mk_writer s [] None) p) as [w1|] eqn:E; [|discriminate].
  inversion F as [|? ? Fp Fl]; subst.
  assert (S1 : sized contents (mk_writer s [] None)) by (intros X; cbn in X; congruence).
  destruct (append_sized contents _ _ _ Fp S1 E) as [_ K].
  clear - A K. revert w1 w A K. induction l as [|q l IH]; intros w1 w A K; cbn in A; [injection A as <-; exact K|].
  destruct (append_payload w1 q) as [w2|] eqn:E; [|discriminate]. apply (IH w2 w A).
  unfold PartModel.append_payload in E. destruct (content_encoding_of fold (p_headers q)), (transfer_encoding_of fold (p_headers q)); try discriminate.
  injection E as <-. cbn. intros X. apply app_eq_nil in X. destruct X. discriminate.
Qed.

Theorem known_size s w0 l : new_writer s = Some w0 -> l <> [] -> Forall (fun p => uncoded fold p /\ exists n, p_size p = Some n) l ->
  exists w n, append_all w0 l = Some w /\ w_size w = Some n.
Proof.
  intros N L F. destruct (boundary_no_cr s w0 N) as [-> _].
  assert (G : forall l w, Forall (fun p => uncoded fold p /\ exists n, p_size p = Some n) l -> (w_parts w = [] \/ exists n, w_size w = Some n) ->
    exists w', append_all w l = Some w' /\ (l <> [] \/ (exists n, w_size w = Some n) -> exists n, w_size w' = Some n)).
  { clear. induction l as [|p l IH]; intros w F W.
    - exists w. split; [reflexivity|]. intros [X|X]; [congruence|exact X].
    - inversion F as [|? ? (U & n & Sz) F']; subst. destruct (uncoded_codings p U) as [E1 E2].
      assert (H : exists w1, append_payload w p = Some w1 /\ exists k, w_size w1 = Some k).
      { unfold PartModel.append_payload. rewrite E1, E2, Sz. eexists. split; [reflexivity|]. cbn [w_size no_coding].
        destruct W as [W|(k & W)]; [rewrite W; eauto|]. rewrite W. destruct (w_parts w); eauto. }
      destruct H as (w1 & H & k & K). cbn. rewrite H. destruct (IH w1 F') as (w' & A & B); [right; eauto|].
      exists w'. split; [exact A|]. intros _. apply B. right. eauto. }
  destruct (G l (mk_writer s [] None) F) as (w & A & B); [left; reflexivity|]. destruct B as (n & B); [left; exact L|]. eauto.
Qed.

Theorem base64_any contents1 contents2 : concat contents1 = concat contents2 ->
  pw_run (pw_new comp comp_new None (Some Base64)) contents1 = pw_run (pw_new comp comp_new None (Some Base64)) contents2.
Proof. intros H. unfold pw_new. cbn [option_map]. rewrite !base64_run, !plain_run, H. reflexivity. Qed.

Theorem base64_coded ce chunks :
  pw_run (pw_new comp comp_new ce (Some Base64)) chunks = b64encode (pw_run (pw_new comp comp_new ce None) chunks).
Proof. unfold pw_new. apply base64_run. Qed.

End Writer.

(** * Forms *)

Section Forms.
Variable fold : str -> str.
Hypothesis FOLDS : folds fold.
Variable show : nat -> str.
Variable guess : str -> option str.

Notation same := (MultiModel.same str str fold beqb).

Lemma fold_known s : forallb (fun c => (c <? 128)%N) s = true -> fold s = map lower1 s.
Proof. intros H. apply FOLDS. apply Forall_forall. intros c X. rewrite forallb_forall in H. apply N.ltb_lt. apply H. exact X. Qed.

Lemma same_refl k : same k k = true.
Proof. unfold MultiModel.same. apply beqb_refl. Qed.
Ltac names := unfold MultiModel.same; rewrite !fold_known by reflexivity; reflexivity.
Lemma n1 : same CONTENT_TYPE CONTENT_TRANSFER_ENCODING = false. Proof. names. Qed.
Lemma n2 : same CONTENT_TYPE CONTENT_DISPOSITION = false. Proof. names. Qed.
Lemma n3 : same CONTENT_TYPE CONTENT_LENGTH = false. Proof. names. Qed.
Lemma n4 : same CONTENT_TYPE CONTENT_ENCODING = false. Proof. names. Qed.
Lemma n5 : same CONTENT_TRANSFER_ENCODING CONTENT_DISPOSITION = false. Proof. names. Qed.
Lemma n6 : same CONTENT_TRANSFER_ENCODING CONTENT_LENGTH = false. Proof. names. Qed.
Lemma n7 : same CONTENT_TRANSFER_ENCODING CONTENT_ENCODING = false. Proof. names. Qed.
Lemma n8 : same CONTENT_DISPOSITION CONTENT_LENGTH = false. Proof. names. Qed.
Lemma n9 : same CONTENT_DISPOSITION CONTENT_ENCODING = false. Proof. names. Qed.
Lemma n10 : same CONTENT_DISPOSITION CONTENT_TRANSFER_ENCODING = false. Proof. names. Qed.

(** The headers of a field. *)
Definition option_headers (c t : option str) : list (str * str) :=
  match c with Some c => [(CONTENT_TYPE, c)] | None => [] end ++ match t with Some t => [(CONTENT_TRANSFER_ENCODING, t)] | None => [] end.
Definition proper (f : field) : Prop := exists c t, f_headers f = option_headers c t.

Lemma filled_proper q l : Forall proper (m_fields (filled q l)) /\ m_quote (filled q l) = q.
Proof.
  unfold filled. assert (G : forall m, Forall proper (m_fields m) -> Forall proper (m_fields (fold_left apply_op l m)) /\ m_quote (fold_left apply_op l m) = m_quote m).
  { induction l as [|o l IH]; intros m H; [split; [exact H|reflexivity]|]. cbn [fold_left].
    assert (K : Forall proper (m_fields (apply_op m o)) /\ m_quote (apply_op m o) = m_quote m).
    { destruct o as [name json|name v c f t]; cbn; split; try reflexivity; (apply Forall_app; split; [exact H|]); constructor; try constructor.
      - exists (Some (text "application/json")), None. reflexivity.
      - exists c, t. reflexivity. }
    destruct K as [K1 K2]. destruct (IH _ K1) as [I1 I2]. split; [exact I1|]. rewrite I2. exact K2. }
  apply (G (new_form q)). constructor.
Qed.

Definition entry (k : str) (o : option str) : dict := match o with Some v => [(k, [v])] | None => [] end.

Lemma lookup_type c t : lookup (option_headers c t) CONTENT_TYPE = c.
Proof. destruct c as [c|]; cbn; [reflexivity|]. destruct t; reflexivity. Qed.

Lemma base_headers id ty fn c t size : (forall x, c = Some x -> ty = Some x) ->
  exists d, p_headers (payload_base fold guess id ty fn (option_headers c t) size) = (CONTENT_TYPE, [d]) :: entry CONTENT_TRANSFER_ENCODING t /\
    (forall x, ty = Some x -> d = x) /\ (ty = None -> d = match fn with None => DEFAULT_CONTENT_TYPE | Some f => match guess f with None => DEFAULT_CONTENT_TYPE | Some m => m end end).
Proof.
  intros H. unfold payload_base.
  set (d := match ty with Some c0 => c0 | None => _ end). exists d. cbn [p_headers].
  split; [|split; [intros x ->; reflexivity|intros ->; reflexivity]].
  change (extend fold [(CONTENT_TYPE, [d])] (option_headers c t) = (CONTENT_TYPE, [d]) :: entry CONTENT_TRANSFER_ENCODING t).
  unfold extend, MultiModel.extend.
  assert (E : forall v, MultiModel.set_item str str str fold beqb beqb [(CONTENT_TYPE, [d])] CONTENT_TRANSFER_ENCODING v = [(CONTENT_TYPE, [d]); (CONTENT_TRANSFER_ENCODING, [v])]).
  { intros v. unfold MultiModel.set_item. cbn [MultiModel.get]. rewrite n1. cbn [MultiModel.set]. rewrite n1. reflexivity. }
  assert (E2 : forall x, c = Some x -> MultiModel.set_item str str str fold beqb beqb [(CONTENT_TYPE, [d])] CONTENT_TYPE x = [(CONTENT_TYPE, [d])]).
  { intros x X. unfold MultiModel.set_item. cbn [MultiModel.get]. rewrite same_refl. unfold MultiModel.holds. cbn [existsb].
    assert (D : d = x) by (unfold d; rewrite (H x X); reflexivity). rewrite D, beqb_refl. reflexivity. }
  destruct c as [x|], t as [v|]; unfold option_headers; cbn [app fold_left fst snd entry].
  - rewrite (E2 x eq_refl). apply E.
  - apply (E2 x eq_refl).
  - apply E.
  - reflexivity.
Qed.

Lemma disposition_set d t k h old : old = [] \/ (exists o, old = [(CONTENT_DISPOSITION, o)]) ->
  set_item fold (pop_all fold ((CONTENT_TYPE, [d]) :: entry CONTENT_TRANSFER_ENCODING t ++ old) k) k h =
  (CONTENT_TYPE, [d]) :: entry CONTENT_TRANSFER_ENCODING t ++ [(CONTENT_DISPOSITION, [h])] \/ k <> CONTENT_DISPOSITION.
Proof.
  intros O. destruct (beqb k CONTENT_DISPOSITION) eqn:K; [|right; intros ->; rewrite beqb_refl in K; discriminate].
  apply beqb_eq in K. subst k. left.
  unfold pop_all, set_item, MultiModel.pop_all, MultiModel.set_item.
  destruct t as [t|]; destruct O as [->|(o & ->)]; cbn [entry app MultiModel.get]; rewrite ?n2, ?n5, ?same_refl; cbn [MultiModel.get MultiModel.del fst];
    rewrite ?n2, ?n5, ?same_refl; cbn [MultiModel.get MultiModel.set]; rewrite ?n2, ?n5, ?same_refl; cbn [MultiModel.set]; rewrite ?n2, ?n5, ?same_refl; reflexivity.
Qed.

Lemma set_disposition p d t old ty o q : p_headers p = (CONTENT_TYPE, [d]) :: entry CONTENT_TRANSFER_ENCODING t ++ old ->
  old = [] \/ (exists o, old = [(CONTENT_DISPOSITION, o)]) ->
  set_content_disposition fold p ty o q = match build ty o q with
    | Some h => Some (mk_payload ((CONTENT_TYPE, [d]) :: entry CONTENT_TRANSFER_ENCODING t ++ [(CONTENT_DISPOSITION, [h])]) (p_size p) (p_id p))
    | None => None end.
Proof.
  intros H O. unfold set_content_disposition. destruct (build ty o q) as [h|]; [|reflexivity]. rewrite H.
  destruct (disposition_set d t CONTENT_DISPOSITION h old O) as [E|E]; [|congruence]. rewrite E. reflexivity.
Qed.

Lemma no_length d t h : pop_all fold ((CONTENT_TYPE, [d]) :: entry CONTENT_TRANSFER_ENCODING t ++ [(CONTENT_DISPOSITION, [h])]) CONTENT_LENGTH =
  (CONTENT_TYPE, [d]) :: entry CONTENT_TRANSFER_ENCODING t ++ [(CONTENT_DISPOSITION, [h])].
Proof.
  unfold pop_all, MultiModel.pop_all. destruct t as [t|]; cbn [entry app MultiModel.get]; rewrite ?n3, ?n6, ?n8; cbn [MultiModel.get]; rewrite ?n3, ?n6, ?n8; reflexivity.
Qed.

Theorem field_lines q id f c t p : f_headers f = option_headers c t ->
  field_part fold guess q id f = Some p ->
  exists h, build (text "form-data") (type_options f) q = Some h /\ p_id p = id /\ p_size p = Some (length (bytes_of (f_value f))) /\
  p_headers p = (CONTENT_TYPE, [type_of guess f]) :: entry CONTENT_TRANSFER_ENCODING t ++ [(CONTENT_DISPOSITION, [h])].
Proof.
  intros HF. unfold field_part, field_payload. rewrite HF, lookup_type.
  assert (STEP : forall p0 d old, p_headers p0 = (CONTENT_TYPE, [d]) :: entry CONTENT_TRANSFER_ENCODING t ++ old ->
     old = [] \/ (exists o, old = [(CONTENT_DISPOSITION, o)]) -> p_id p0 = id -> p_size p0 = Some (length (bytes_of (f_value f))) -> d = type_of guess f ->
     match set_content_disposition fold p0 (text "form-data") (type_options f) q with
     | Some p1 => Some (mk_payload (pop_all fold (p_headers p1) CONTENT_LENGTH) (p_size p1) (p_id p1)) | None => None end = Some p ->
     exists h, build (text "form-data") (type_options f) q = Some h /\ p_id p = id /\ p_size p = Some (length (bytes_of (f_value f))) /\
       p_headers p = (CONTENT_TYPE, [type_of guess f]) :: entry CONTENT_TRANSFER_ENCODING t ++ [(CONTENT_DISPOSITION, [h])]).
  { intros p0 d old H O I1 Sz D X. rewrite (set_disposition p0 d t old _ _ _ H O) in X.
    destruct (build (text "form-data") (type_options f) q) as [h|]; [|discriminate]. cbn [p_headers p_size p_id] in X. rewrite no_length in X.
    injection X as <-. exists h. cbn [p_headers p_size p_id]. rewrite D. auto. }
  destruct (f_value f) as [s|b|name rest|] eqn:V; cbn [bytes_of] in *.
  - intros X. unfold string_payload, bytes_payload in X.
    match type of X with context [payload_base fold guess id ?ty None _ _] => destruct (base_headers id ty None c t (Some (length (singles (utf8 s))))) as (d & HD & D1 & _) end.
    { intros x ->. reflexivity. }
    refine (STEP _ d [] _ (or_introl eq_refl) _ _ _ X).
    + rewrite app_nil_r. exact HD.
    + reflexivity.
    + unfold payload_base. cbn [p_size]. unfold singles. rewrite map_length. reflexivity.
    + rewrite (D1 _ eq_refl). unfold type_of. rewrite HF, lookup_type, V. destruct c; reflexivity.
  - intros X. unfold bytes_payload in X.
    match type of X with context [payload_base fold guess id ?ty None _ _] => destruct (base_headers id ty None c t (Some (length (singles b)))) as (d & HD & D1 & _) end.
    { intros x ->. reflexivity. }
    refine (STEP _ d [] _ (or_introl eq_refl) _ _ _ X).
    + rewrite app_nil_r. exact HD.
    + reflexivity.
    + unfold payload_base. cbn [p_size]. unfold singles. rewrite map_length. reflexivity.
    + rewrite (D1 _ eq_refl). unfold type_of. rewrite HF, lookup_type, V. destruct c; reflexivity.
  - unfold io_payload. set (fn := match c with Some _ => match f_file_name f with Some n => Some n | None => name end | None => name end).
    destruct (base_headers id c fn c t (Some (length rest))) as (d & HD & D1 & D2); [intros x ->; reflexivity|].
    assert (D : d = type_of guess f).
    { unfold type_of. rewrite HF, lookup_type, V. destruct c as [c|]; [apply D1; reflexivity|]. rewrite (D2 eq_refl). unfold fn. destruct name; reflexivity. }
    destruct fn as [n|].
    + rewrite (set_disposition _ d t [] _ _ _) ; [|rewrite app_nil_r; exact HD|left; reflexivity].
      destruct (build (text "attachment") [(text "filename", n)] true) as [h0|]; [|discriminate].
      intros X. refine (STEP _ d [(CONTENT_DISPOSITION, [h0])] _ (or_intror (ex_intro _ [h0] eq_refl)) _ _ D X); reflexivity.
    + intros X. refine (STEP _ d [] _ (or_introl eq_refl) _ _ D X); [rewrite app_nil_r; exact HD|reflexivity|reflexivity].
  - discriminate.
Qed.


Variable comp : Type.
Variable comp_new : coding -> comp.
Variable compress : comp -> bytes -> comp * bytes.
Variable flush : comp -> bytes.
Variable qp : bytes -> bytes.
Notation write := (write comp comp_new compress flush qp).
Notation append_all := (append_all fold show).
Notation announced := (announced fold show).
Notation encoded := (encoded fold comp comp_new compress flush qp).

Inductive made (q : bool) : nat -> list field -> list payload -> Prop :=
| made_nil : forall id, made q id [] []
| made_cons : forall id f p l ps, field_part fold guess q id f = Some p -> made q (S id) l ps -> made q id (f :: l) (p :: ps).

Lemma append_fields_all q l : forall id w w', append_fields fold show guess q id w l = Some w' -> exists ps, made q id l ps /\ append_all w ps = Some w'.
Proof.
  induction l as [|f l IH]; intros id w w' H; cbn in H.
  - exists []. split; [constructor|exact H].
  - destruct (field_part fold guess q id f) as [p|] eqn:E; [|discriminate].
    destruct (append_payload fold show w p) as [w1|] eqn:A; [|discriminate].
    destruct (IH _ _ _ H) as (ps & M & P). exists (p :: ps). split; [constructor; assumption|]. cbn. rewrite A. exact P.
Qed.

Lemma no_content_coding d t h : content_encoding_of fold ((CONTENT_TYPE, [d]) :: entry CONTENT_TRANSFER_ENCODING t ++ [(CONTENT_DISPOSITION, [h])]) = Some None.
Proof.
  unfold content_encoding_of, first_of, get. destruct t; cbn [entry app MultiModel.get]; rewrite ?n4, ?n7, ?n9; cbn [MultiModel.get]; rewrite ?n4, ?n7, ?n9; reflexivity.
Qed.

Definition tcode (e : str) : option (option transfer) := transfer_encoding_of fold [(CONTENT_TRANSFER_ENCODING, [e])].

Lemma transfer_coding d t h : transfer_encoding_of fold ((CONTENT_TYPE, [d]) :: entry CONTENT_TRANSFER_ENCODING t ++ [(CONTENT_DISPOSITION, [h])]) =
  match t with None => Some None | Some e => tcode e end.
Proof.
  unfold tcode, transfer_encoding_of, first_of, get. destruct t; cbn [entry app MultiModel.get]; rewrite ?n1, ?n10, ?same_refl; cbn [MultiModel.get]; rewrite ?n1, ?n10, ?same_refl; reflexivity.
Qed.

Lemma base64_coding : tcode (text "base64") = Some (Some Base64).
Proof. unfold tcode, transfer_encoding_of, first_of, get. cbn [MultiModel.get]. rewrite same_refl. rewrite fold_known by reflexivity. reflexivity. Qed.

Lemma length_line d h v : items (set_item fold [(CONTENT_TYPE, [d]); (CONTENT_DISPOSITION, [h])] CONTENT_LENGTH v) =
  [(CONTENT_TYPE, d); (CONTENT_DISPOSITION, h); (CONTENT_LENGTH, v)].
Proof.
  unfold set_item, MultiModel.set_item. cbn [MultiModel.get]. rewrite n3. cbn [MultiModel.get]. rewrite n8. cbn [MultiModel.get MultiModel.set]. rewrite n3.
  cbn [MultiModel.set]. rewrite n8. reflexivity.
Qed.

Lemma chunks_bytes v : concat (chunks_of v) = bytes_of v.
Proof. destruct v; cbn; rewrite ?app_nil_r; reflexivity. Qed.

Lemma lookup_transfer c t : lookup (option_headers c t) CONTENT_TRANSFER_ENCODING = t.
Proof. destruct c, t; reflexivity. Qed.

Lemma field_sent q id f p contents : proper f -> plain_or_base64 f -> contents id = chunks_of (f_value f) -> field_part fold guess q id f = Some p ->
  form_part guess show q f (announced p, encoded contents p).
Proof.
  intros (c & t & HF) PB C FP. destruct (field_lines q id f c t p HF FP) as (h & B & I1 & Sz & H).
  unfold form_part. exists h. split; [exact B|]. unfold plain_or_base64 in PB. rewrite HF, lookup_transfer in *.
  unfold PartProofs.announced, PartProofs.encoded. rewrite H, no_content_coding, transfer_coding, Sz, I1, C.
  destruct t as [t|].
  - destruct PB as [PB|PB]; [discriminate|].
    assert (T64 : t = text "base64") by (revert PB; generalize (text "base64"); intros x PB; congruence). rewrite T64, base64_coding. cbn [fst snd]. split; [reflexivity|].
    intros A. unfold pw_new. cbn [option_map]. rewrite (base64_run fold show), plain_run, chunks_bytes. cbn [app]. apply encode_base64. exact A.
  - cbn [entry app]. rewrite length_line. cbn [fst snd]. unfold pw_new. cbn [option_map]. rewrite plain_run, chunks_bytes. auto.
Qed.

Lemma made_sent q l ps : forall id contents, made q id l ps -> Forall proper l -> Forall plain_or_base64 l ->
  (forall i f, nth_error l i = Some f -> contents (id + i) = chunks_of (f_value f)) ->
  Forall2 (form_part guess show q) l (map (fun p => (announced p, encoded contents p)) ps).
Proof.
  intros id contents M. induction M as [id|id f p l ps FP M IH]; intros P B C; cbn [map]; constructor;
    inversion P as [|? ? P1 P2]; inversion B as [|? ? B1 B2]; subst.
  - apply (field_sent q id); auto. specialize (C 0 f eq_refl). rewrite Nat.add_0_r in C. exact C.
  - apply IH; auto. intros i g G. specialize (C (S i) g G). rewrite <- C. f_equal. lia.
Qed.

Theorem form_back q ops b w : ~ In 13%N b -> generate_form fold show guess (filled q ops) b = Multipart w ->
  Forall plain_or_base64 (m_fields (filled q ops)) ->
  exists sent, Forall2 (form_part guess show q) (m_fields (filled q ops)) sent /\
    (Forall (fun hd => Forall plain_header (fst hd) /\ ~ occurs (delimiter b) (block (fst hd) ++ snd hd)) sent ->
     read_body b (write w (form_contents (filled q ops)) true) = Some (map (fun hd => (seen (fst hd), snd hd)) sent)).
Proof.
  intros NB G B. destruct (filled_proper q ops) as [P Q]. set (m := filled q ops) in *. unfold generate_form in G.
  destruct (m_multipart m); [|discriminate].
  destruct (append_fields fold show guess (m_quote m) 0 (mk_writer b [] None) (m_fields m)) as [w'|] eqn:A; [|discriminate]. injection G as ->.
  rewrite Q in A. destruct (append_fields_all _ _ _ _ _ A) as (ps & M & AP).
  exists (map (fun p => (announced p, encoded (form_contents m) p)) ps). split.
  - apply (made_sent q (m_fields m) ps 0 (form_contents m) M P B). intros i f F. cbn. unfold form_contents. rewrite F. reflexivity.
  - intros F. rewrite (read_written fold show comp comp_new compress flush qp b ps w (form_contents m) NB AP).
    + rewrite map_map. reflexivity.
    + rewrite Forall_forall in *. intros p X. apply (F (announced p, encoded (form_contents m) p)). apply in_map_iff. exists p. auto.
Qed.

End Forms.

(** * Concrete bodies *)

Definition low (s : str) : str := map lower1 s.
Definition num (n : nat) : str := Text.dec (N.of_nat n).
Definition same_bytes (b : bytes) : bytes := b.
Definition guess0 (_ : str) : option str := None.
Definition write0 (w : writer) (contents : nat -> list bytes) : bytes :=
  PartModel.write unit (fun _ => tt) (fun _ b => (tt, b)) (fun _ => []) same_bytes w contents true.
Definition app0 (b : bytes) (l : list payload) : option writer := append_all low num (mk_writer b [] None) l.

Lemma low_folds : folds low.
Proof. intros s _. reflexivity. Qed.

Definition BND : bytes := text "bound".

Theorem text_size_wrong : exists file p w n, text_io_payload low guess0 0 None None [] file = Some p /\ app0 BND [p] = Some w /\
  w_size w = Some n /\ length (write0 w (fun _ => text_io_chunks file)) <> n.
Proof.
  exists [97; 13; 10; 98]%N. do 3 eexists. split; [vm_compute; reflexivity|]. split; [vm_compute; reflexivity|].
  split; [vm_compute; reflexivity|]. vm_compute. discriminate.
Qed.

Theorem view_size_wrong : exists view p w n, bytes_payload low guess0 0 None [] view = p /\ app0 BND [p] = Some w /\
  w_size w = Some n /\ length (write0 w (fun _ => view)) <> n.
Proof.
  exists [[1; 0; 0; 0]; [2; 0; 0; 0]]%N. do 3 eexists. split; [reflexivity|]. split; [vm_compute; reflexivity|].
  split; [vm_compute; reflexivity|]. vm_compute. discriminate.
Qed.

Definition abc (id : nat) : payload := bytes_payload low guess0 id None [] (singles (text "abc")).

(** A writer which was appended to another one, and gets one more part then. *)
Theorem nested_size_wrong : exists inner inner' outer n,
  app0 BND [abc 0] = Some inner /\ append_payload low num inner (abc 1) = Some inner' /\
  app0 (text "outer") [writer_payload low guess0 2 (text "mixed") BND inner] = Some outer /\ w_size outer = Some n /\
  length (write0 outer (fun _ => [write0 inner' (fun _ => [text "abc"])])) <> n /\
  length (write0 outer (fun _ => [write0 inner (fun _ => [text "abc"])])) = n.
Proof.
  do 4 eexists. split; [vm_compute; reflexivity|]. split; [vm_compute; reflexivity|]. split; [vm_compute; reflexivity|].
  split; [vm_compute; reflexivity|]. split; [vm_compute; discriminate|vm_compute; reflexivity].
Qed.

(** A line end in the value of a header starts the content. *)
Theorem header_splits : exists p w hs data, app0 BND [p] = Some w /\ uncoded low p /\ 
  read_body BND (write0 w (fun _ => [text "abc"])) = Some [(hs, data)] /\ data <> text "abc".
Proof.
  exists (bytes_payload low guess0 0 None [(text "X", text "1" ++ [13; 10; 13; 10]%N ++ text "evil")] (singles (text "abc"))). do 3 eexists.
  split; [vm_compute; reflexivity|]. split; [vm_compute; auto|]. split; [vm_compute; reflexivity|]. vm_compute. discriminate.
Qed.

(** The delimiter in a content ends the part; nothing looks for it. *)
Theorem content_splits : exists s w0 data p w read, new_writer s = Some w0 /\ p = bytes_payload low guess0 0 None [] (singles data) /\
  append_all low num w0 [p] = Some w /\ read_body s (write0 w (fun _ => [data])) = Some read /\ length read = 2.
Proof.
  exists BND. eexists. exists (text "a" ++ [13; 10]%N ++ text "--bound" ++ [13; 10]%N ++ text "X: y" ++ [13; 10; 13; 10]%N ++ text "b"). do 3 eexists.
  split; [vm_compute; reflexivity|]. split; [reflexivity|]. split; [vm_compute; reflexivity|]. split; [vm_compute; reflexivity|]. reflexivity.
Qed.

Theorem boundary_accepted : (exists w, new_writer [] = Some w) /\ (exists w, new_writer (text "a ") = Some w) /\
  (exists w, new_writer (repeat 97%N 71) = Some w) /\ (exists w, new_writer (text "a@b") = Some w) /\
  ~ rfc_boundary [] /\ ~ rfc_boundary (text "a ") /\ ~ rfc_boundary (repeat 97%N 71) /\ ~ rfc_boundary (text "a@b").
Proof.
  repeat (split; [eexists; vm_compute; reflexivity|]). split; [intros (H & _); cbn in H; lia|].
  split; [intros (_ & _ & H); apply H; reflexivity|]. split; [intros (H & _); cbn in H; lia|].
  intros (_ & H & _). rewrite Forall_forall in H. specialize (H 64%N). cbn in H. assert (X : false = true) by (apply H; auto). discriminate.
Qed.

Theorem boundary_rfc s : rfc_boundary s -> new_writer s = Some (mk_writer s [] None).
Proof.
  intros (_ & F & _). rewrite Forall_forall in F. unfold new_writer.
  assert (G : forall c, bchar c = true -> (c < 128)%N /\ invalid_qdtext c = false).
  { intros c H. unfold bchar in H. assert (L : (32 <= c < 127)%N).
    { rewrite !orb_true_iff, !andb_true_iff, !N.leb_le in H. destruct H as [[[H|H]|H]|H]; try lia.
      apply existsb_exists in H. destruct H as (x & X & E). apply N.eqb_eq in E. subst x. cbn in X. lia. }
    split; [lia|]. unfold invalid_qdtext. rewrite !orb_false_iff, andb_false_iff, !N.leb_gt, N.eqb_neq. lia. }
  assert (A : forallb (fun c => (c <? 128)%N) s = true).
  { apply forallb_forall. intros c X. apply N.ltb_lt. apply G. apply F. exact X. }
  assert (B : existsb invalid_qdtext s = false).
  { destruct (existsb invalid_qdtext s) eqn:E; [|reflexivity]. apply existsb_exists in E. destruct E as (c & X & E). apply F, G in X. destruct X. congruence. }
  rewrite A, B. cbn [negb]. match goal with |- (if ?x then _ else _) = _ => destruct x end; reflexivity.
Qed.

(** ** One line for each header *)

Theorem two_types : exists c w, app0 BND [bytes_payload low guess0 0 None [(text "Content-Type", c)] (singles (text "abc"))] = Some w /\
  read_body BND (write0 w (fun _ => [text "abc"])) =
    Some [([(text "Content-Type", text "application/octet-stream"); (text "Content-Type", c); (text "Content-Length", text "3")], text "abc")].
Proof. exists (text "image/png"). eexists. split; vm_compute; reflexivity. Qed.

Theorem two_lengths : exists n w, app0 BND [bytes_payload low guess0 0 None [(text "Content-Length", n)] (singles (text "abc"))] = Some w /\
  n <> text "3" /\ read_body BND (write0 w (fun _ => [text "abc"])) =
    Some [([(text "Content-Type", text "application/octet-stream"); (text "Content-Length", n); (text "Content-Length", text "3")], text "abc")].
Proof. exists (text "5"). eexists. split; [vm_compute; reflexivity|]. split; [discriminate|]. vm_compute. reflexivity. Qed.

Theorem long_line : exists chunks, let d := PartModel.pw_run unit (fun _ b => (tt, b)) (fun _ => []) same_bytes (pw_new unit (fun _ => tt) None (Some Base64)) chunks in ~ short_lines d.
Proof.
  exists [repeat 97%N 60]. intros d H.
  assert (L : length d <= 76).
  { apply (H [] d []); [rewrite app_nil_r; reflexivity|]. intros X.
    assert (E : existsb (N.eqb 10) d = true) by (apply existsb_exists; exists 10%N; split; [exact X|reflexivity]). vm_compute in E. discriminate. }
  vm_compute in L. lia.
Qed.

(** ** Forms *)

Theorem number_and_file : exists q ops file b l, generate_form low num guess0 (filled q ops) b = UrlEncoded l /\ l <> [] /\
  generate_form low num guess0 (filled q (ops ++ [AddField (text "f") file None None None])) b = Error /\
  exists w, generate_form low num guess0 (filled q [AddField (text "f") file None None None]) b = Multipart w.
Proof.
  exists true, [AddField (text "n") VOther None None None], (VFile None (text "abc")), BND. eexists.
  split; [vm_compute; reflexivity|]. split; [discriminate|]. split; [vm_compute; reflexivity|]. eexists. vm_compute. reflexivity.
Qed.

(** The type says latin-1, the bytes are those of utf-8. *)
Theorem charset_ignored : exists w h, generate_form low num guess0
    (filled true [AddField (text "t") (VText [233%N]) (Some (text "text/plain; charset=iso-8859-1")) None None]) BND = Multipart w /\
  read_body BND (write0 w (form_contents (filled true [AddField (text "t") (VText [233%N]) (Some (text "text/plain; charset=iso-8859-1")) None None]))) =
    Some [([(text "Content-Type", text "text/plain; charset=iso-8859-1"); (text "Content-Disposition", h); (text "Content-Length", text "2")], [195; 169]%N)].
Proof. do 2 eexists. split; vm_compute; reflexivity. Qed.

(** ** One type, when no other one is given *)

Lemma get_set_other fold (d : dict) k vs c : MultiModel.same str str fold beqb k c = false ->
  MultiModel.get str str str fold beqb (MultiModel.set str str str fold beqb d k vs) c = MultiModel.get str str str fold beqb d c.
Proof.
  intros H. induction d as [|[k' vs'] d IH]; cbn [MultiModel.set MultiModel.get]; [rewrite H; reflexivity|].
  destruct (MultiModel.same str str fold beqb k' k) eqn:E; cbn [MultiModel.get].
  - assert (X : MultiModel.same str str fold beqb k' c = false).
    { unfold MultiModel.same in *. apply beqb_eq in E. rewrite E. exact H. }
    rewrite X. reflexivity.
  - rewrite IH. reflexivity.
Qed.

Lemma get_item_other fold (d : dict) k v c : MultiModel.same str str fold beqb k c = false ->
  get fold (set_item fold d k v) c = get fold d c.
Proof.
  intros H. unfold get, set_item, MultiModel.set_item. destruct (MultiModel.get str str str fold beqb d k) as [l|]; [|apply get_set_other; exact H].
  destruct (MultiModel.holds str beqb v l); [reflexivity|]. apply get_set_other. exact H.
Qed.

Theorem one_type fold show guess id ct fn hs size w w' : folds fold ->
  Forall (fun p => fold (fst p) <> fold (text "Content-Type")) hs ->
  let p := payload_base fold guess id ct fn hs size in
  append_payload fold show w p = Some w' ->
  exists c h, get fold h (text "Content-Type") = Some [c] /\ (forall x, ct = Some x -> c = x) /\
    exists ce te, w_parts w' = w_parts w ++ [mk_part id (block (items h)) ce te].
Proof.
  intros F H p A.
  set (c := match ct with Some c => c | None => match fn with None => DEFAULT_CONTENT_TYPE | Some f => match guess f with None => DEFAULT_CONTENT_TYPE | Some m => m end end end).
  assert (G : get fold (p_headers p) CONTENT_TYPE = Some [c]).
  { change (get fold (extend fold [(CONTENT_TYPE, [c])] hs) CONTENT_TYPE = Some [c]).
    assert (K : forall d, get fold d CONTENT_TYPE = Some [c] -> get fold (extend fold d hs) CONTENT_TYPE = Some [c]).
    { clear A. unfold extend, MultiModel.extend. induction H as [|[k v] hs Hk _ IH]; intros d D; [exact D|]. cbn [fold_left fst snd].
      apply IH. change (get fold (set_item fold d k v) CONTENT_TYPE = Some [c]). rewrite get_item_other; [exact D|].
      unfold MultiModel.same. destruct (beqb (fold k) (fold CONTENT_TYPE)) eqn:E; [|reflexivity]. apply beqb_eq in E. contradiction. }
    apply K. unfold get. cbn [MultiModel.get]. rewrite same_refl. reflexivity. }
  unfold append_payload in A.
  destruct (content_encoding_of fold (p_headers p)) as [ce|]; [|discriminate].
  destruct (transfer_encoding_of fold (p_headers p)) as [te|]; [|discriminate].
  injection A as <-.
  eexists c, _. split; [|split; [intros x ->; reflexivity|]]; [|exists ce, te; cbn [w_parts]; rewrite render_block; reflexivity].
  destruct size as [n|]; [|exact G]. destruct (no_coding ce te); [|exact G].
  change (get fold (set_item fold (p_headers p) CONTENT_LENGTH (show n)) CONTENT_TYPE = Some [c]).
  rewrite get_item_other; [exact G|].
  unfold MultiModel.same. rewrite !(fold_known fold F) by reflexivity. reflexivity.
Qed.

(** ** Filling a form *)

Lemma filled_is q ops : m_fields (filled q ops) = map field_of ops /\ m_multipart (filled q ops) = negb (forallb simple ops) /\ m_quote (filled q ops) = q.
Proof.
  unfold filled. assert (G : forall m, m_fields (fold_left apply_op ops m) = m_fields m ++ map field_of ops /\
    m_multipart (fold_left apply_op ops m) = m_multipart m || negb (forallb simple ops) /\ m_quote (fold_left apply_op ops m) = m_quote m).
  { induction ops as [|o ops IH]; intros m; cbn [fold_left map forallb].
    - rewrite app_nil_r, orb_false_r. auto.
    - destruct (IH (apply_op m o)) as (A & B & C). rewrite A, B, C.
      assert (X : m_fields (apply_op m o) = m_fields m ++ [field_of o] /\ m_multipart (apply_op m o) = m_multipart m || negb (simple o) /\ m_quote (apply_op m o) = m_quote m).
      { destruct o as [name json|name v c f t]; cbn.
        - rewrite orb_true_r. auto.
        - split; [|split; [|reflexivity]].
          + destruct v as [x|x|[n|] x|], c, f, t; reflexivity.
          + destruct v as [x|x|[n|] x|], c, f, t; cbn; rewrite ?orb_false_r, ?orb_true_r; reflexivity. }
      destruct X as (X & Y & Z). rewrite X, Y, Z, <- app_assoc. cbn [app]. split; [reflexivity|]. split; [|reflexivity].
      rewrite negb_andb, orb_assoc. reflexivity. }
  destruct (G (new_form q)) as (A & B & C). auto.
Qed.

Theorem form_arrives fold (FOLDS : folds fold) show guess comp (comp_new : coding -> comp) compress flush qp q ops b w :
  ~ In 13%N b -> generate_form fold show guess (filled q ops) b = Multipart w -> Forall plain_or_base64 (map field_of ops) ->
  exists sent, Forall2 (form_part guess show q) (map field_of ops) sent /\
    (Forall (fun hd => Forall plain_header (fst hd) /\ ~ occurs (delimiter b) (block (fst hd) ++ snd hd)) sent ->
     read_body b (PartModel.write comp comp_new compress flush qp w (form_contents (filled q ops)) true) = Some (map (fun hd => (seen (fst hd), snd hd)) sent)).
Proof.
  intros NB G P. destruct (filled_is q ops) as (A & _ & _). rewrite <- A in *.
  apply (form_back fold FOLDS show guess comp comp_new compress flush qp q ops b w NB G P).
Qed.

Theorem form_kind fold show guess q ops b :
  (forallb simple ops = true -> generate_form fold show guess (filled q ops) b = UrlEncoded (map (fun f => (f_name f, f_value f)) (map field_of ops))) /\
  (forallb simple ops = false -> exists x, generate_form fold show guess (filled q ops) b = x /\ (x = Error \/ exists w, x = Multipart w)).
Proof.
  destruct (filled_is q ops) as (A & B & C). unfold generate_form. rewrite B, A. split; intros H; rewrite H; cbn [negb]; [reflexivity|].
  eexists. split; [reflexivity|]. match goal with |- context [append_fields ?a ?b ?c ?d ?e ?f ?g] => destruct (append_fields a b c d e f g) end; eauto.
Qed.
