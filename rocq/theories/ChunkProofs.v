From Coq Require Import List Arith Bool NArith ZArith Lia.
From Verif Require Import Bytes ReadModel ReadSpec ReadProofs ReadUntilProofs ChunkModel ChunkSpec.
Import ListNotations.

(** * Resuming is running on a longer buffer *)

Lemma prepend_app : forall p q x, prepend p (prepend q x) = prepend (p ++ q) x.
Proof. intros p q [out r o|out k o]; cbn; rewrite app_assoc; reflexivity. Qed.

Lemma prepend_nil : forall x, prepend [] x = x.
Proof. intros [out r o|out k o]; reflexivity. Qed.

Lemma exact_loop_resume : forall cs n o d out k o', exact_loop n cs o = Wait out k o' ->
  o' = o /\ prepend out (exact_loop (match k with WExactLoop m => m | _ => 0 end) [d] o) = exact_loop n (cs ++ [d]) o /\
  exists m, k = WExactLoop m.
Proof.
  induction cs as [|c cs IH]; intros n o d out k o' H; cbn [exact_loop app] in *.
  - injection H as <- <- <-. csplit; auto; [|eauto]. rewrite prepend_nil. reflexivity.
  - destruct (length c <? n).
    + destruct (exact_loop (n - length c) cs o) as [out1 r1 o1|out1 k1 o1] eqn:E; [discriminate|].
      injection H as <- <- <-. destruct (IH _ _ d _ _ _ E) as (-> & B & C). csplit; auto.
      rewrite <- B, <- prepend_app. destruct (prepend out1 _); reflexivity.
    + destruct (length c =? n); discriminate.
Qed.

Lemma exact_resume : forall n cs o d out k o', off_ok cs o -> exact_start n cs o = Wait out k o' ->
  prepend out (resume k d o') = exact_start n (cs ++ [d]) o.
Proof.
  intros n cs o d out k o' HO H. destruct cs as [|c cs]; cbn [exact_start app] in *.
  - injection H as <- <- <-. cbn in HO. subst o. cbn [resume]. apply prepend_nil.
  - unfold exact_first in *.
    assert (X : forall p m o, prepend p (exact_loop m cs o) = Wait out k o' -> prepend out (resume k d o') = prepend p (exact_loop m (cs ++ [d]) o)).
    { intros p m o1 Q. destruct (exact_loop m cs o1) as [? ? ?|out1 k1 o2] eqn:E; [discriminate|]. cbn in Q. injection Q as <- <- <-.
      destruct (exact_loop_resume cs m o1 d _ _ _ E) as (-> & B & (m1 & ->)). cbn [resume]. rewrite <- B, prepend_app. reflexivity. }
    destruct (o =? 0).
    + destruct (n <? length c); [discriminate|]. destruct (length c =? n); [discriminate|]. apply X. exact H.
    + destruct (o + n <? length c); [discriminate|]. destruct (length c =? o + n); [discriminate|]. apply X. exact H.
Qed.

Lemma until_resume_gen : forall b cs sizes held o d out k o', off_ok cs o -> chunks_ok cs ->
  until_loop b sizes held cs o = Wait out k o' ->
  prepend out (resume k d o') = until_loop b sizes held (cs ++ [d]) o.
Proof.
  intros b cs. induction cs as [|c cs IH]; intros sizes held o d out k o' HO HC H.
  - cbn [until_loop] in H. injection H as <- <- <-. cbn in HO. subst o. cbn [resume app]. apply prepend_nil.
  - inversion HC as [|? ? HC1 HC2]; subst.
    assert (AG : forall p sz h, prepend p (until_loop b sz h cs 0) = Wait out k o' ->
      prepend out (resume k d o') = prepend p (until_loop b sz h (cs ++ [d]) 0)).
    { intros p sz h Q. destruct (until_loop b sz h cs 0) as [? ? ?|out1 k1 o1] eqn:E; [discriminate|]. cbn in Q. injection Q as <- <- <-.
      rewrite <- prepend_app. f_equal. apply IH; auto. apply off_ok_zero. assumption. }
    assert (SE : forall p h l, prepend p (until_search b c cs (fun s h => until_loop b s h cs 0) h l) = Wait out k o' ->
      prepend out (resume k d o') = prepend p (until_search b c (cs ++ [d]) (fun s h => until_loop b s h (cs ++ [d]) 0) h l)).
    { intros p h l Q. unfold until_search in *. destruct (find_from b c l) as [i|].
      - destruct (i + length b =? length c); discriminate.
      - destruct (end_sizes (skipn l c) l b) as [|s ss]; rewrite prepend_app in *; apply AG; exact Q. }
    cbn [app until_loop] in *. destruct sizes as [|s ss].
    + rewrite <- (prepend_nil (until_search b c cs _ _ _)) in H. apply SE in H. rewrite prepend_nil in H. exact H.
    + destruct (finish_sizes c b (s :: ss)) as [e|[|s1 ss1]].
      * destruct (e =? length c); discriminate.
      * apply SE. exact H.
      * cbn [release] in *. apply AG. exact H.
Qed.

(** * Suffixes *)

Definition suffix (r cs : list bytes) : Prop := exists A, cs = A ++ r.

Lemma suffix_refl : forall cs, suffix cs cs.
Proof. intro cs. exists []. reflexivity. Qed.
Lemma suffix_cons : forall c r cs, suffix r cs -> suffix r (c :: cs).
Proof. intros c r cs [A ->]. exists (c :: A). reflexivity. Qed.
Lemma suffix_trans : forall a b c, suffix a b -> suffix b c -> suffix a c.
Proof. intros a b c [A ->] [B ->]. exists (B ++ A). apply app_assoc. Qed.

Definition fin_suffix (cs : list bytes) (x : outcome) : Prop := match x with Fin _ r _ => suffix r cs | Wait _ _ _ => True end.

Lemma fin_suffix_prepend : forall p cs x, fin_suffix cs (prepend p x) <-> fin_suffix cs x.
Proof. intros p cs [? ? ?|? ? ?]; reflexivity. Qed.

Lemma fin_suffix_cons : forall c cs x, fin_suffix cs x -> fin_suffix (c :: cs) x.
Proof. intros c cs [? ? ?|? ? ?]; cbn; auto using suffix_cons. Qed.

Lemma exact_loop_suffix : forall cs n o, fin_suffix cs (exact_loop n cs o).
Proof.
  induction cs as [|c cs IH]; intros n o; cbn [exact_loop]; [exact Logic.I|]. destruct (length c <? n).
  - change (fin_suffix (c :: cs) (prepend c (exact_loop (n - length c) cs o))). apply fin_suffix_prepend, fin_suffix_cons, IH.
  - destruct (length c =? n); [apply suffix_cons|]; apply suffix_refl.
Qed.

Lemma exact_suffix : forall cs n o, fin_suffix cs (exact_start n cs o).
Proof.
  intros [|c cs] n o; cbn [exact_start]; [exact Logic.I|]. unfold exact_first.
  destruct (o =? 0).
  - destruct (n <? length c); [apply suffix_refl|]. destruct (length c =? n); [apply suffix_cons, suffix_refl|].
    apply fin_suffix_prepend, fin_suffix_cons, exact_loop_suffix.
  - destruct (o + n <? length c); [apply suffix_refl|]. destruct (length c =? o + n); [apply suffix_cons, suffix_refl|].
    apply fin_suffix_prepend, fin_suffix_cons, exact_loop_suffix.
Qed.

Lemma until_suffix : forall b cs sizes held o, fin_suffix cs (until_loop b sizes held cs o).
Proof.
  intros b cs. induction cs as [|c cs IH]; intros sizes held o; cbn [until_loop]; [exact Logic.I|].
  assert (SE : forall h l, fin_suffix (c :: cs) (until_search b c cs (fun s h => until_loop b s h cs 0) h l)).
  { intros h l. unfold until_search. destruct (find_from b c l) as [i|].
    - destruct (i + length b =? length c); [apply suffix_cons|]; apply suffix_refl.
    - destruct (end_sizes (skipn l c) l b); apply fin_suffix_prepend, fin_suffix_cons, IH. }
  destruct sizes as [|s ss]; [apply SE|]. destruct (finish_sizes c b (s :: ss)) as [e|[|s1 ss1]].
  - destruct (e =? length c); [apply suffix_cons|]; apply suffix_refl.
  - apply fin_suffix_prepend, SE.
  - cbn [release]. apply fin_suffix_prepend, fin_suffix_cons, IH.
Qed.

(** * Size lines *)

Lemma digit_value_hex : forall x, In x hexdig -> digit_value x = Some (N.to_nat (hexval x)) /\ N.eqb x 95 = false /\
  is_space x = false /\ x <> 59%N /\ x <> 13%N /\ x <> 45%N /\ x <> 43%N /\ x <> 120%N /\ x <> 88%N.
Proof.
  intros x H. cbn in H. repeat destruct H as [<-|H]; try contradiction; csplit; try reflexivity; discriminate.
Qed.

Lemma int_digits_hex : forall l acc us, Forall (fun x => In x hexdig) l -> l <> [] \/ us = false ->
  int_digits l acc us = Some (N.to_nat (fold_left (fun a x => (a * 16 + hexval x)%N) l (N.of_nat acc))).
Proof.
  induction l as [|x l IH]; intros acc us F N.
  - destruct N as [N| ->]; [congruence|]. cbn. rewrite Nnat.Nat2N.id. reflexivity.
  - inversion F as [|? ? F1 F2]; subst. destruct (digit_value_hex x F1) as (A & B & _). cbn [int_digits]. rewrite A, B.
    rewrite IH; auto. cbn [fold_left]. f_equal. f_equal. f_equal. lia.
Qed.

Lemma lstrip_hex : forall l, match l with [] => True | x :: _ => is_space x = false end -> lstrip l = l.
Proof. intros [|x l] H; cbn; auto. rewrite H. reflexivity. Qed.

Lemma strip_hex : forall l, Forall (fun x => In x hexdig) l -> strip l = l.
Proof.
  intros l F. unfold strip. rewrite (lstrip_hex l).
  - rewrite lstrip_hex; [apply rev_involutive|]. destruct (rev l) as [|x r] eqn:E; auto.
    assert (I : In x l) by (apply in_rev; rewrite E; left; reflexivity). rewrite Forall_forall in F. apply F in I.
    apply digit_value_hex in I. apply I.
  - destruct l as [|x l]; auto. inversion F. apply digit_value_hex. assumption.
Qed.

Lemma int16_hex : forall l, hex_line l -> int16 l = Some (Z.of_N (line_value l)).
Proof.
  intros l [N F]. unfold int16. rewrite strip_hex by assumption. destruct l as [|x l]; [congruence|].
  inversion F as [|? ? F1 F2]; subst. destruct (digit_value_hex x F1) as (_ & _ & _ & _ & _ & A & B & _).
  destruct (N.eqb_spec x 45); [congruence|]. destruct (N.eqb_spec x 43); [congruence|].
  assert (U : int16_unsigned (x :: l) = int_digits (x :: l) 0 true).
  { unfold int16_unsigned. destruct l as [|y l]; auto. inversion F2 as [|? ? G _]; subst.
    destruct (digit_value_hex y G) as (_ & _ & _ & _ & _ & _ & _ & C & D).
    destruct (N.eqb_spec y 120); [congruence|]. destruct (N.eqb_spec y 88); [congruence|]. rewrite andb_false_r. reflexivity. }
  rewrite U, int_digits_hex by (auto; left; discriminate). cbn [option_map]. f_equal. unfold line_value. cbn [N.of_nat]. lia.
Qed.

Lemma find_absent : forall x (l : bytes), ~ In x l -> find [x] l = None.
Proof.
  induction l as [|y l IH]; intro H; [reflexivity|]. cbn [find starts_with].
  destruct (N.eqb_spec x y) as [->|]; [destruct H; left; reflexivity|]. cbn [andb]. rewrite IH; [reflexivity|].
  intro Q. apply H. right. exact Q.
Qed.

Lemma strip_extension_hex : forall l, Forall (fun x => In x hexdig) l -> strip_extension l = l.
Proof.
  intros l F. unfold strip_extension. rewrite find_absent; auto. intro Q. rewrite Forall_forall in F. apply F in Q.
  apply digit_value_hex in Q. tauto.
Qed.

(** The extension is ignored. *)
Lemma find_here : forall x (l r : bytes), ~ In x l -> find [x] (l ++ x :: r) = Some (length l).
Proof.
  induction l as [|y l IH]; intros r H; cbn [app find starts_with length].
  - rewrite N.eqb_refl. reflexivity.
  - destruct (N.eqb_spec x y) as [->|]; [destruct H; left; reflexivity|]. cbn [andb]. rewrite IH; [reflexivity|]. intro Q. apply H. right. exact Q.
Qed.

Lemma size_line_value : forall l ext, hex_line l -> int16 (strip_extension (l ++ 59%N :: ext)) = Some (Z.of_N (line_value l)).
Proof.
  intros l ext H. unfold strip_extension. rewrite find_here.
  - rewrite firstn_app, firstn_all, Nat.sub_diag. cbn [firstn]. rewrite app_nil_r. apply int16_hex. assumption.
  - intro Q. destruct H as [_ F]. rewrite Forall_forall in F. apply F in Q. apply digit_value_hex in Q. tauto.
Qed.

(** [hex] *)
Lemma hex_digit_in : forall d, d < 16 -> In (hex_digit d) hexdig /\ hexval (hex_digit d) = N.of_nat d.
Proof.
  intros d H. do 16 (destruct d as [|d]; [split; [cbn; tauto|reflexivity]|]). lia.
Qed.

Lemma hex_fuel_spec : forall fuel n, n < fuel ->
  hex_fuel fuel n <> [] /\ Forall (fun x => In x hexdig) (hex_fuel fuel n) /\ line_value (hex_fuel fuel n) = N.of_nat n.
Proof.
  induction fuel as [|f IH]; intros n H; [lia|]. cbn [hex_fuel]. destruct (Nat.ltb_spec n 16) as [L|L].
  - destruct (hex_digit_in n L) as [A B]. csplit; [discriminate|constructor; [exact A|constructor]|].
    unfold line_value. cbn [fold_left]. rewrite B. lia.
  - assert (D : n / 16 < n) by (apply Nat.div_lt; lia).
    destruct (IH (n / 16) ltac:(lia)) as (A & B & C).
    assert (M : n mod 16 < 16) by (apply Nat.mod_upper_bound; lia).
    destruct (hex_digit_in (n mod 16) M) as [E G]. csplit.
    + intro Q. apply app_eq_nil in Q. destruct Q; discriminate.
    + apply Forall_app. split; auto.
    + unfold line_value in *. rewrite fold_left_app. cbn [fold_left]. rewrite C, G.
      rewrite (Nat.div_mod n 16) at 3 by lia. lia.
Qed.

Lemma hex_spec : forall n, hex_line (hex n) /\ line_value (hex n) = N.of_nat n.
Proof. intro n. destruct (hex_fuel_spec (S n) n ltac:(lia)) as (A & B & C). split; [split|]; assumption. Qed.

(** * Reads from a buffer that holds enough *)

Lemma unread_length : forall cs o, off_ok cs o -> length (unread cs o) + o = length (concat cs).
Proof. intros [|c cs] o H; cbn in *; [lia|]. rewrite !app_length, skipn_length. lia. Qed.

Lemma exact_enough : forall n cs o d rest, 0 < n -> chunks_ok cs -> off_ok cs o -> unread cs o = d ++ rest -> length d = n ->
  exists cs' o', exact_start n cs o = Fin d cs' o' /\ unread cs' o' = rest /\ chunks_ok cs' /\ off_ok cs' o' /\ suffix cs' cs.
Proof.
  intros n cs o d rest Hn HC HO HU HL. destruct cs as [|c cs].
  - cbn in HU. destruct d; [|discriminate]. cbn in HL. lia.
  - generalize (exact_suffix (c :: cs) n o). cbn [exact_start]. generalize (exact_first_spec n c cs o Hn HC HO). rewrite HU.
    destruct (exact_first n c cs o o) as [out r o'|out k o']; intros S SU.
    + destruct S as (A & B & C & D). apply app_len_inj in A; [|lia]. destruct A as [-> ->]. exists r, o'. csplit; auto.
    + destruct S as (m & _ & -> & P & Q & _). rewrite app_length in Q. lia.
Qed.

Definition no_cr (l : bytes) : Prop := Forall (fun x => x <> 13%N) l.

Lemma occ_head : forall b x d i, occ (x :: b) d i -> nth_error d i = Some x.
Proof.
  intros b x d i. unfold occ. revert d. induction i as [|i IH]; intros d H.
  - destruct d as [|y d]; cbn in H; [discriminate|]. injection H as -> _. reflexivity.
  - destruct d as [|y d]; [cbn in H; discriminate|]. cbn [nth_error]. apply IH. exact H.
Qed.

Lemma until_line : forall cs o line rest, chunks_ok cs -> off_ok cs o -> no_cr line -> unread cs o = line ++ CRLF ++ rest ->
  (forall c r, cs = c :: r -> o <> 0 -> skipn o c <> line ++ [13%N]) ->
  exists cs' o', until_loop CRLF [] [] cs o = Fin line cs' o' /\ unread cs' o' = rest /\ chunks_ok cs' /\ off_ok cs' o' /\ suffix cs' cs.
Proof.
  intros cs o line rest HC HO HN HU HB.
  assert (HF : forall i, i < length line -> ~ occ CRLF (line ++ CRLF ++ rest) i).
  { intros i Hi Q. apply occ_head in Q. rewrite nth_error_app1 in Q by assumption. apply nth_error_In in Q.
    unfold no_cr in HN. rewrite Forall_forall in HN. apply (HN _ Q). reflexivity. }
  assert (HI : occ CRLF (line ++ CRLF ++ rest) (length line)).
  { apply occ_iff; [discriminate|]. exists line, rest. auto. }
  generalize (until_suffix CRLF cs [] [] o).
  generalize (until_start_ok CRLF cs o ltac:(discriminate) HC HO). intro U.
  assert (HS : match cs with [] => True | c :: _ => find_from CRLF c o = None -> end_sizes (skipn o c) o CRLF = end_sizes (skipn o c) 0 CRLF end).
  { destruct cs as [|c cs]; auto. intro FF. destruct (Nat.eq_dec o 0) as [->|No]; [reflexivity|].
    specialize (HB c cs eq_refl No). cbn in HO. cbn [unread] in HU.
    generalize (find_from_spec CRLF ltac:(discriminate) c o ltac:(lia)). rewrite FF. intro NO.
    assert (L : length (skipn o c) <= length line).
    { destruct (le_lt_dec (length (skipn o c)) (length line)) as [|L]; auto. exfalso.
      destruct (Nat.eq_dec (length (skipn o c)) (S (length line))) as [E|E].
      - apply HB. change (line ++ CRLF ++ rest) with (line ++ [13%N] ++ [10%N] ++ rest) in HU. rewrite app_assoc in HU.
        apply app_len_inj in HU; [apply HU|]. rewrite E, app_length. change (S (length line) = length line + 1). lia.
      - apply (NO (length line)). rewrite <- HU in HI. apply occ_inside in HI; [exact HI|discriminate|]. cbn [CRLF length]. lia. }
    assert (NC : no_cr (skipn o c)).
    { unfold no_cr in *. rewrite Forall_forall in *. intros x Hx. apply HN.
      assert (Q : skipn o c = firstn (length (skipn o c)) line).
      { apply (f_equal (firstn (length (skipn o c)))) in HU. rewrite !firstn_app_le, firstn_all in HU by lia. exact HU. }
      rewrite Q in Hx. rewrite <- (firstn_skipn (length (skipn o c)) line). apply in_or_app. left. exact Hx. }
    assert (E : forall l, end_sizes (skipn o c) l CRLF = []).
    { intro l. set (x := skipn o c) in *. unfold end_sizes. replace (filter _ _) with (@nil nat); [reflexivity|]. symmetry.
      assert (Q : forall n s, s + n <= length x -> filter (fun s => starts_with (skipn s x) CRLF) (seq s n) = []).
      { induction n as [|n IHn]; intros s Hs; [reflexivity|]. cbn [seq filter].
        assert (Z : starts_with (skipn s x) CRLF = false).
        { destruct (skipn s x) as [|y t] eqn:G.
          - apply (f_equal (@length _)) in G. rewrite skipn_length in G. cbn in G. lia.
          - cbn [starts_with CRLF]. assert (y <> 13%N); [|replace (N.eqb y CR) with false by (symmetry; apply N.eqb_neq; assumption); reflexivity].
            unfold no_cr in NC. rewrite Forall_forall in NC. apply NC. rewrite <- (firstn_skipn s x), G. apply in_or_app. right. left. reflexivity. }
        rewrite Z. apply IHn. lia. }
      destruct (le_lt_dec (Nat.max (length x - (length CRLF - 1)) l) (length x)).
      - apply Q. lia.
      - replace (length x - Nat.max (length x - (length CRLF - 1)) l) with 0 by lia. reflexivity. }
    rewrite !E. reflexivity. }
  specialize (U HS). rewrite HU in U.
  destruct (until_loop CRLF [] [] cs o) as [out r o'|out k o']; cbn [res_ok fin_suffix] in *; intro SU.
  - destruct U as (i & A & B & C & D & E & _ & _ & G).
    assert (i = length line).
    { destruct (Nat.lt_trichotomy i (length line)) as [L|[L|L]]; auto.
      - destruct (HF i L A).
      - destruct (B _ L HI). }
    subst i. exists r, o'. csplit; auto.
    + f_equal. rewrite G.
      * rewrite seg_zero, firstn_app_le, firstn_all by lia. reflexivity.
      * assert (HT : Forall (fun x : bytes => x <> []) (tl cs)) by (destruct cs; [constructor|inversion HC; assumption]).
        rewrite Forall_forall in *. intros x Hx. split; [apply HT; exact Hx|]. right. cbn. lia.
    + rewrite C. rewrite skipn_app, skipn_all2 by lia. replace (length line + length CRLF - length line) with (length CRLF) by lia. reflexivity.
  - destruct U as (A & _). destruct (A _ HI).
Qed.

(** * The whole message *)

Definition line_of (ys : list bytes) : bytes := match ys with [] => [48%N] | d :: _ => hex (length d) end.

Lemma hex_no_cr : forall l, Forall (fun x => In x hexdig) l -> no_cr l.
Proof. intros l F. unfold no_cr. eapply Forall_impl; [|exact F]. intros x H. apply digit_value_hex in H. tauto. Qed.

Lemma line_of_hex : forall ys, Forall (fun x => In x hexdig) (line_of ys).
Proof. intros [|d ys]; [repeat constructor|apply hex_spec]; cbn; tauto. Qed.

Lemma clean_line : forall ds segments xs ys A cs o rest, no_bad_cut hex ds segments -> ds = xs ++ ys -> segments = A ++ cs ->
  concat segments = coded hex ds ++ rest -> off_ok cs o -> unread cs o = coded hex ys ++ rest ->
  forall c r, cs = c :: r -> o <> 0 -> skipn o c <> line_of ys ++ [13%N].
Proof.
  intros ds segments xs ys A cs o rest NB ED ES EC HO HU c r Ecs No Q. subst ds segments cs.
  apply (NB A c r eq_refl). exists xs, ys.
  assert (LX : concat (map (coded_chunk hex) xs) = concat A ++ firstn o c).
  { unfold coded in EC. rewrite map_app, concat_app in EC. rewrite concat_app in EC. cbn [concat unread] in *.
    rewrite <- (firstn_skipn o c) in EC at 1. rewrite <- !app_assoc in EC. rewrite HU in EC. unfold coded in EC.
    rewrite <- !app_assoc in EC. rewrite !app_assoc in EC. repeat rewrite <- app_assoc in EC.
    rewrite app_assoc in EC. apply app_inv_tail_iff in EC. symmetry. exact EC. }
  cbn in HO. csplit; auto.
  - rewrite LX, app_length, firstn_length_le by lia. lia.
  - rewrite concat_snoc, LX, <- app_assoc. f_equal. rewrite <- (firstn_skipn o c) at 1. f_equal. exact Q.
Qed.

Lemma read_chunked_ok : forall ds segments rest, no_bad_cut hex ds segments -> concat segments = coded hex ds ++ rest ->
  Forall (fun d => d <> []) ds ->
  forall ys xs A cs o fuel, ds = xs ++ ys -> segments = A ++ cs -> chunks_ok cs -> off_ok cs o ->
  unread cs o = coded hex ys ++ rest -> length ys < fuel ->
  exists cs' o', read_chunked fuel cs o = CDone (concat ys) cs' o' /\ unread cs' o' = rest /\ chunks_ok cs' /\ off_ok cs' o'.
Proof.
  intros ds segments rest NB EC HD. induction ys as [|d ys IH]; intros xs A cs o fuel ED ES HC HO HU HF.
  - destruct fuel as [|f]; [lia|]. cbn [read_chunked].
    assert (CL := clean_line ds segments xs [] A cs o rest NB ED ES EC HO HU). cbn [line_of] in CL.
    destruct (until_line cs o [48%N] ([13; 10]%N ++ rest) HC HO ltac:(repeat constructor; discriminate) HU CL) as (cs1 & o1 & -> & U1 & C1 & O1 & S1).
    cbn [strip_extension find starts_with N.eqb andb]. cbn.
    destruct (exact_enough 2 cs1 o1 [13; 10]%N rest ltac:(lia) C1 O1 U1 eq_refl) as (cs2 & o2 & -> & U2 & C2 & O2 & S2).
    cbn. exists cs2, o2. csplit; auto.
  - destruct fuel as [|f]; [lia|]. cbn [read_chunked].
    assert (CL := clean_line ds segments xs (d :: ys) A cs o rest NB ED ES EC HO HU). cbn [line_of] in CL.
    destruct (hex_spec (length d)) as [HL HV].
    assert (HU' : unread cs o = hex (length d) ++ CRLF ++ (d ++ CRLF ++ (coded hex ys ++ rest))).
    { rewrite HU. unfold coded. cbn [map concat]. unfold coded_chunk at 1. rewrite <- !app_assoc. reflexivity. }
    destruct (until_line cs o _ _ HC HO (hex_no_cr _ (proj2 HL)) HU' CL) as (cs1 & o1 & -> & U1 & C1 & O1 & S1).
    rewrite strip_extension_hex by apply HL. rewrite int16_hex by assumption. rewrite HV.
    assert (Hd : d <> []).
    { rewrite Forall_forall in HD. apply HD. rewrite ED. apply in_or_app. right. left. reflexivity. }
    apply nonempty_len in Hd. destruct (Z.of_N (N.of_nat (length d))) as [|p|p] eqn:EZ; [lia| |lia].
    assert (EP : Pos.to_nat p = length d) by lia. rewrite EP.
    destruct (exact_enough (length d) cs1 o1 d _ ltac:(lia) C1 O1 U1 eq_refl) as (cs2 & o2 & -> & U2 & C2 & O2 & S2).
    destruct (exact_enough 2 cs2 o2 CRLF _ ltac:(lia) C2 O2 U2 eq_refl) as (cs3 & o3 & -> & U3 & C3 & O3 & S3).
    rewrite beqb_refl.
    assert (S : suffix cs3 cs) by (eapply suffix_trans; [exact S3|eapply suffix_trans; eauto]). destruct S as [B ->].
    assert (ED' : ds = (xs ++ [d]) ++ ys) by (rewrite <- app_assoc; exact ED).
    assert (ES' : segments = (A ++ B) ++ cs3) by (rewrite <- app_assoc; exact ES).
    destruct (IH (xs ++ [d]) (A ++ B) cs3 o3 f ED' ES' C3 O3 U3 ltac:(cbn in HF; lia)) as (cs4 & o4 & -> & U4 & C4 & O4).
    exists cs4, o4. cbn [cprepend concat]. csplit; auto.
Qed.

Lemma chunked_segmented : forall ds segments rest fuel, Forall (fun d => d <> []) ds -> chunks_ok segments ->
  concat segments = coded hex ds ++ rest -> no_bad_cut hex ds segments -> length ds < fuel ->
  exists cs' o', read_chunked fuel segments 0 = CDone (concat ds) cs' o' /\ unread cs' o' = rest.
Proof.
  intros ds segments rest fuel HD HC EC NB HF.
  destruct (read_chunked_ok ds segments rest NB EC HD ds [] [] segments 0 fuel eq_refl eq_refl HC (off_ok_zero _ HC)) as (cs' & o' & A & B & _); auto.
  - rewrite unread_zero. exact EC.
  - exists cs', o'. auto.
Qed.

(** * The writer *)

Definition nonempty (d : bytes) : bool := negb (length d =? 0).

Lemma writes : forall ds out, h_out (fold_left wstep (map HWrite ds) (mk_writer false out)) = out ++ concat (map (coded_chunk hex) (filter nonempty ds)) /\
  h_eof (fold_left wstep (map HWrite ds) (mk_writer false out)) = false.
Proof.
  induction ds as [|d ds IH]; intro out; cbn [map fold_left filter].
  - cbn. rewrite app_nil_r. auto.
  - cbn [wstep h_eof h_out]. rewrite orb_false_r. unfold nonempty at 1. destruct (length d =? 0); cbn [negb].
    + apply IH.
    + destruct (IH (out ++ frame d)) as [A B]. rewrite A. split; auto. cbn [map concat]. rewrite <- app_assoc. reflexivity.
Qed.

Lemma written : forall ds d, h_out (fold_left wstep (map HWrite ds ++ [HWriteEof d]) writer_init) = coded hex (filter nonempty (ds ++ [d])).
Proof.
  intros ds d. rewrite fold_left_app. cbn [fold_left]. destruct (writes ds []) as [A B]. unfold writer_init.
  cbn [wstep]. rewrite B. cbn [h_out]. rewrite A. rewrite filter_app. unfold coded. rewrite map_app, concat_app. cbn [app].
  rewrite <- app_assoc. f_equal. cbn [filter]. unfold nonempty. destruct (length d =? 0); cbn [negb map concat].
  - reflexivity.
  - unfold coded_chunk. rewrite app_nil_r, <- !app_assoc. reflexivity.
Qed.

Lemma concat_filter : forall ds, concat (filter nonempty ds) = concat ds.
Proof.
  induction ds as [|d ds IH]; [reflexivity|]. cbn [filter concat]. unfold nonempty at 1.
  destruct (Nat.eqb_spec (length d) 0) as [E|E]; cbn [negb].
  - destruct d; [exact IH|discriminate].
  - cbn [concat]. rewrite IH. reflexivity.
Qed.

Lemma whole_no_bad_cut : forall ds rest, no_bad_cut hex ds [coded hex ds ++ rest].
Proof.
  intros ds rest ds0 c ds1 E (xs & ys & -> & L & Q). destruct ds0 as [|x ds0]; [|destruct ds0; discriminate].
  injection E as <- <-. cbn [app concat] in Q. rewrite app_nil_r in Q. unfold coded in Q. rewrite map_app, concat_app, <- !app_assoc in Q.
  apply app_inv_head in Q. apply (f_equal (@length _)) in Q. destruct ys as [|d ys]; cbn [map concat] in Q.
  - rewrite !app_length in Q. cbn in Q. lia.
  - unfold coded_chunk in Q.
    rewrite !app_length in Q. cbn [length] in Q.
    unfold bytes, byte in *. lia.
Qed.

Lemma round_trip : forall ds d rest fuel, S (length ds) < fuel ->
  let out := h_out (fold_left wstep (map HWrite ds ++ [HWriteEof d]) writer_init) in
  exists cs o, read_chunked fuel [out ++ rest] 0 = CDone (concat (ds ++ [d])) cs o /\ unread cs o = rest.
Proof.
  intros ds d rest fuel HF out. unfold out. rewrite written. rewrite <- concat_filter. apply chunked_segmented.
  - apply Forall_forall. intros x Hx. apply filter_In in Hx. destruct Hx as [_ Hx]. unfold nonempty in Hx. intro Q. subst. discriminate.
  - constructor; [|constructor]. unfold coded. intro Q. apply (f_equal (@length _)) in Q. rewrite !app_length in Q. cbn in Q. lia.
  - cbn. rewrite app_nil_r. reflexivity.
  - apply whole_no_bad_cut.
  - assert (G : length (filter nonempty (ds ++ [d])) <= length (ds ++ [d])).
    { generalize (ds ++ [d]). intro l. induction l as [|x l IH]; cbn [filter length]; [lia|]. destruct (nonempty x); cbn [length]; lia. }
    rewrite app_length in G. cbn in G. unfold bytes, byte in *; lia.
Qed.
