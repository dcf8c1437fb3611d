From Coq Require Import List Arith Bool NArith Lia Sorted.
From Verif Require Import Bytes ReadModel ReadSpec ReadProofs.
Import ListNotations.

(** * Occurrences *)

Definition occ (b d : bytes) (i : nat) : Prop := firstn (length b) (skipn i d) = b.

Lemma occ_len : forall b d i, b <> [] -> occ b d i -> i + length b <= length d.
Proof.
  intros b d i N H. apply (f_equal (@length _)) in H. rewrite firstn_length, skipn_length in H.
  apply nonempty_len in N. lia.
Qed.

Lemma occ_iff : forall b d i, b <> [] -> occ b d i <-> exists p s, d = p ++ b ++ s /\ length p = i.
Proof.
  intros b d i N. split.
  - intro H. assert (L := occ_len b d i N H). exists (firstn i d), (skipn (length b) (skipn i d)). split.
    + rewrite <- (firstn_skipn i d) at 1. f_equal. rewrite <- H at 1. rewrite firstn_skipn. reflexivity.
    + apply firstn_length_le. lia.
  - intros (p & s & -> & <-). unfold occ. rewrite skipn_app, skipn_all, Nat.sub_diag. cbn.
    rewrite firstn_app, firstn_all, Nat.sub_diag. cbn. apply app_nil_r.
Qed.

(** Occurrences that start in [P] and are not inside it. *)
Lemma occ_straddle : forall b P D i, i <= length P -> length P - i <= length b ->
  occ b (P ++ D) i <->
  skipn i P = firstn (length P - i) b /\ firstn (length b - (length P - i)) D = skipn (length P - i) b.
Proof.
  intros b P D i H1 H2. unfold occ. rewrite skipn_app. replace (i - length P) with 0 by lia. cbn [skipn].
  rewrite firstn_app, skipn_length, (firstn_all2 (skipn i P)); [|rewrite skipn_length; lia].
  set (s := length P - i) in *. split.
  - intro H. assert (L : length (skipn i P) = s) by (rewrite skipn_length; reflexivity).
    rewrite <- (firstn_skipn s b) in H at 2. apply app_len_inj in H.
    + exact H.
    + rewrite L, firstn_length_le; lia.
  - intros [A B]. rewrite A, B. apply firstn_skipn.
Qed.

Lemma occ_inside : forall b P D i, b <> [] -> i + length b <= length P -> occ b (P ++ D) i <-> occ b P i.
Proof.
  intros b P D i N H. unfold occ. rewrite skipn_app. replace (i - length P) with 0 by lia. cbn [skipn].
  rewrite firstn_app. replace (length b - length (skipn i P)) with 0 by (rewrite skipn_length; lia). cbn. rewrite app_nil_r.
  reflexivity.
Qed.

Lemma occ_shift : forall b P D i, occ b (P ++ D) (length P + i) <-> occ b D i.
Proof.
  intros. unfold occ. rewrite skipn_app, skipn_all2; [|lia]. replace (length P + i - length P) with i by lia. reflexivity.
Qed.

(** * Intersection sizes *)

Lemma end_sizes_in : forall c b s, b <> [] -> In s (end_sizes c 0 b) <->
  1 <= s /\ s <= length b - 1 /\ s <= length c /\ skipn (length c - s) c = firstn s b.
Proof.
  intros c b s N. unfold end_sizes. rewrite Nat.max_0_r, in_map_iff. apply nonempty_len in N. split.
  - intros (q & <- & H). apply filter_In in H. destruct H as [H1 H2]. apply in_seq in H1. apply starts_with_spec in H2.
    csplit; try lia. replace (length c - (length c - q)) with q by lia. rewrite skipn_length in H2. symmetry. exact H2.
  - intros (A & B & C & D). exists (length c - s). split; [lia|]. apply filter_In. split.
    + apply in_seq. lia.
    + apply starts_with_spec. rewrite skipn_length. replace (length c - (length c - s)) with s by lia. symmetry. exact D.
Qed.

Lemma sorted_seq_map : forall L (p : nat -> bool) n start, start + n <= L ->
  StronglySorted gt (map (fun s => L - s) (filter p (seq start n))).
Proof.
  intros L p n. induction n as [|n IH]; intros start H; cbn; [constructor|].
  destruct (p start); cbn; [|apply IH; lia]. constructor; [apply IH; lia|].
  apply Forall_forall. intros x Hx. apply in_map_iff in Hx. destruct Hx as (q & <- & Hq).
  apply filter_In in Hq. destruct Hq as [Hq _]. apply in_seq in Hq. lia.
Qed.

Lemma end_sizes_sorted : forall c o b, StronglySorted gt (end_sizes c o b).
Proof.
  intros. unfold end_sizes. set (start := Nat.max (length c - (length b - 1)) o).
  destruct (le_lt_dec start (length c)).
  - apply sorted_seq_map. lia.
  - replace (length c - start) with 0 by lia. constructor.
Qed.

Lemma sorted_same : forall l1 l2, StronglySorted gt l1 -> StronglySorted gt l2 -> (forall x, In x l1 <-> In x l2) -> l1 = l2.
Proof.
  induction l1 as [|a l1 IH]; intros l2 H1 H2 E.
  - destruct l2 as [|b l2]; [reflexivity|]. destruct (proj2 (E b) (or_introl eq_refl)).
  - destruct l2 as [|b l2]; [destruct (proj1 (E a) (or_introl eq_refl))|].
    inversion H1 as [|? ? S1 F1]; subst. inversion H2 as [|? ? S2 F2]; subst.
    rewrite Forall_forall in F1, F2.
    assert (a = b).
    { destruct (proj1 (E a) (or_introl eq_refl)) as [Q|Q]; [auto|]. destruct (proj2 (E b) (or_introl eq_refl)) as [R|R]; [auto|].
      apply F2 in Q. apply F1 in R. lia. }
    subst b. f_equal. apply IH; auto. intro x. split; intro Q.
    + destruct (proj1 (E x) (or_intror Q)) as [R|R]; [|auto]. subst. apply F1 in Q. lia.
    + destruct (proj2 (E x) (or_intror Q)) as [R|R]; [|auto]. subst. apply F2 in Q. lia.
Qed.

Lemma sorted_filter : forall (p : nat -> bool) l, StronglySorted gt l -> StronglySorted gt (filter p l).
Proof.
  intros p l H. induction H as [|a l H IH F]; cbn; [constructor|]. destruct (p a); auto. constructor; auto.
  apply Forall_forall. intros x Hx. apply filter_In in Hx. rewrite Forall_forall in F. apply F. tauto.
Qed.

Lemma sorted_shift : forall k l, StronglySorted gt l -> StronglySorted gt (map (fun s => s + k) l).
Proof.
  intros k l H. induction H as [|a l H IH F]; cbn; constructor; auto. apply Forall_forall. intros x Hx.
  apply in_map_iff in Hx. destruct Hx as (y & <- & Hy). rewrite Forall_forall in F. specialize (F y Hy). lia.
Qed.

Lemma sorted_app : forall l1 l2, StronglySorted gt l1 -> StronglySorted gt l2 -> (forall x y, In x l1 -> In y l2 -> x > y) ->
  StronglySorted gt (l1 ++ l2).
Proof.
  intros l1 l2 H1 H2 H. induction H1 as [|a l1 S IH F]; cbn; auto. constructor.
  - apply IH. intros x y Hx Hy. apply H; [right|]; assumption.
  - apply Forall_app. split; auto. apply Forall_forall. intros y Hy. apply H; [left; reflexivity|assumption].
Qed.

Definition longer (c b : bytes) (s : nat) : bool := length c <? length b - s.

(** The sizes after one more whole chunk. *)
Lemma end_sizes_app : forall P c b, b <> [] ->
  end_sizes (P ++ c) 0 b = continue_sizes c b (filter (longer c b) (end_sizes P 0 b)) ++ end_sizes c 0 b.
Proof.
  intros P c b N. assert (LB := nonempty_len b N).
  apply sorted_same.
  - apply end_sizes_sorted.
  - apply sorted_app.
    + unfold continue_sizes. apply sorted_shift. apply sorted_filter, sorted_filter, end_sizes_sorted.
    + apply end_sizes_sorted.
    + intros x y Hx Hy. apply in_map_iff in Hx. destruct Hx as (q & <- & Hq). apply filter_In in Hq. destruct Hq as [Hq _].
      apply filter_In in Hq. destruct Hq as [Hq _]. apply end_sizes_in in Hq; auto. apply end_sizes_in in Hy; auto. lia.
  - intro s. rewrite end_sizes_in, in_app_iff, end_sizes_in; auto. unfold continue_sizes. rewrite in_map_iff, app_length. split.
    + intros (A & B & C & D). destruct (le_lt_dec s (length c)) as [L|L].
      * right. csplit; auto. rewrite skipn_app in D. rewrite skipn_all2 in D; [|lia].
        replace (length P + length c - s - length P) with (length c - s) in D by lia. exact D.
      * left. exists (s - length c). split; [lia|]. rewrite !filter_In, end_sizes_in; auto.
        rewrite skipn_app in D. replace (length P + length c - s) with (length P - (s - length c)) in D by lia.
        replace (length P - (s - length c) - length P) with 0 in D by lia. cbn [skipn] in D.
        assert (E : firstn s b = firstn (s - length c) b ++ firstn (length c) (skipn (s - length c) b)).
        { rewrite <- firstn_add. f_equal. lia. }
        rewrite E in D. apply app_len_inj in D.
        -- destruct D as [D1 D2]. split; [split; [csplit; try lia; exact D1|]|].
           ++ unfold longer. apply Nat.ltb_lt. lia.
           ++ apply beqb_eq. symmetry. exact D2.
        -- rewrite skipn_length, firstn_length_le; lia.
    + intros [(q & <- & H)|(A & B & C & D)].
      * rewrite !filter_In, end_sizes_in in H; auto. destruct H as [[(A & B & C & D) F] G].
        apply Nat.ltb_lt in F. apply beqb_eq in G. csplit; try lia.
        rewrite skipn_app. replace (length P + length c - (q + length c)) with (length P - q) by lia.
        replace (length P - q - length P) with 0 by lia. cbn [skipn]. rewrite D.
        rewrite firstn_add, G. reflexivity.
      * csplit; try lia. rewrite skipn_app, skipn_all2; [|lia].
        replace (length P + length c - s - length P) with (length c - s) by lia. exact D.
Qed.

(** * Finishing *)

Lemma finish_spec : forall c b sizes, (forall s, In s sizes -> s <= length b) ->
  match finish_sizes c b sizes with
  | inl e => exists l1 s l2, sizes = l1 ++ s :: l2 /\ e = length b - s /\ e <= length c /\
      firstn e c = skipn s b /\ forall s', In s' l1 -> firstn (length b - s') c <> skipn s' b
  | inr l => l = filter (longer c b) sizes /\ forall s', In s' sizes -> firstn (length b - s') c <> skipn s' b
  end.
Proof.
  intros c b sizes. induction sizes as [|s sizes IH]; intro H; cbn [finish_sizes].
  - split; [reflexivity|]. intros s' [].
  - assert (H' : forall x, In x sizes -> x <= length b) by (intros x Hx; apply H; right; assumption).
    specialize (IH H'). assert (Hs : s <= length b) by (apply H; left; reflexivity). cbn [filter]. unfold longer at 1.
    destruct (Nat.ltb_spec (length c) (length b - s)) as [L|L].
    + assert (X : firstn (length b - s) c <> skipn s b).
      { intro Q. apply (f_equal (@length _)) in Q. rewrite firstn_length, skipn_length in Q. lia. }
      destruct (finish_sizes c b sizes) as [e|l].
      * destruct IH as (l1 & s1 & l2 & -> & A & B & C & D). exists (s :: l1), s1, l2. csplit; auto; intros s' [<-|Q]; auto.
      * destruct IH as [-> D]. split; [reflexivity|]. intros s' [<-|Q]; auto.
    + destruct (beqb (firstn (length b - s) c) (skipn s b)) eqn:E.
      * apply beqb_eq in E. exists [], s, sizes. csplit; auto; intros s' [].
      * assert (X : firstn (length b - s) c <> skipn s b).
        { intro Q. apply beqb_eq in Q. congruence. }
        destruct (finish_sizes c b sizes) as [e|l].
        -- destruct IH as (l1 & s1 & l2 & -> & A & B & C & D). exists (s :: l1), s1, l2. csplit; auto; intros s' [<-|Q]; auto.
        -- destruct IH as [-> D]. split; [reflexivity|]. intros s' [<-|Q]; auto.
Qed.

(** * Pieces of the stream *)

Definition seg (a z : nat) (D : bytes) : bytes := firstn (z - a) (skipn a D).

Lemma seg_app : forall a z y D, a <= z -> z <= y -> seg a z D ++ seg z y D = seg a y D.
Proof.
  intros a z y D H1 H2. unfold seg. replace (y - a) with ((z - a) + (y - z)) by lia. rewrite firstn_add, skipn_add.
  replace (a + (z - a)) with z by lia. reflexivity.
Qed.

Lemma seg_nil : forall a z D, z <= a -> seg a z D = [].
Proof. intros. unfold seg. replace (z - a) with 0 by lia. reflexivity. Qed.

Lemma seg_prefix : forall P c D, seg (length P) (length P + length c) (P ++ c ++ D) = c.
Proof.
  intros. unfold seg. rewrite skipn_app, skipn_all, Nat.sub_diag. cbn [skipn app].
  replace (length P + length c - length P) with (length c) by lia.
  rewrite firstn_app, firstn_all, Nat.sub_diag. cbn. apply app_nil_r.
Qed.

Lemma seg_mid : forall P c D a z, a <= z -> z <= length c -> seg (length P + a) (length P + z) (P ++ c ++ D) = firstn (z - a) (skipn a c).
Proof.
  intros P c D a z H1 H2. unfold seg. rewrite skipn_app, skipn_all2; [|lia].
  replace (length P + a - length P) with a by lia. replace (length P + z - (length P + a)) with (z - a) by lia.
  cbn [app]. rewrite skipn_app, firstn_app, skipn_length. replace (z - a - (length c - a)) with 0 by lia. cbn. apply app_nil_r.
Qed.

Lemma subseq_refl : forall x, subseq x x.
Proof. induction x; constructor; assumption. Qed.
Lemma subseq_nil : forall x, subseq [] x.
Proof. induction x; constructor; assumption. Qed.
Lemma subseq_app : forall a b c d, subseq a b -> subseq c d -> subseq (a ++ c) (b ++ d).
Proof. intros a b c d H. induction H; intro H2; cbn; auto; constructor; auto. Qed.
Lemma subseq_firstn : forall n m (l : bytes), n <= m -> subseq (firstn n l) (firstn m l).
Proof.
  induction n as [|n IH]; intros m l H; cbn; [apply subseq_nil|]. destruct l; [destruct m; constructor|].
  destruct m; [lia|]. cbn. constructor. apply IH. lia.
Qed.

(** * The invariant of the loop *)

Lemma skipn_app_le : forall n (x y : bytes), n <= length x -> skipn n (x ++ y) = skipn n x ++ y.
Proof. intros n x y H. rewrite skipn_app. replace (n - length x) with 0 by lia. reflexivity. Qed.

Section Until.
Variable b : bytes.
Hypothesis Hb : b <> [].

Definition hp (P held : bytes) : nat := match end_sizes P 0 b with [] => 0 | _ => length held end.
Definition held_ok (P held : bytes) : Prop :=
  match end_sizes P 0 b with
  | [] => True
  | s :: _ => s <= length held /\ length held <= length P /\ held = skipn (length P - length held) P
  end.
Definition tight (P held : bytes) : Prop := match end_sizes P 0 b with [] => True | s :: _ => length held = s end.
Definition base (P held : bytes) : nat := length P - hp P held.

Definition res_ok (D : bytes) (a : nat) (tf : Prop) (x : outcome) : Prop :=
  match x with
  | Fin out r o =>
      exists i, occ b D i /\ (forall j, j < i -> ~ occ b D j) /\ unread r o = skipn (i + length b) D /\
        chunks_ok r /\ off_ok r o /\ a <= i /\ subseq out (seg a i D) /\ (tf -> out = seg a i D)
  | Wait out k o =>
      (forall j, ~ occ b D j) /\ o = 0 /\
      exists held, k = WUntil b (end_sizes D 0 b) held /\ held_ok D held /\ a <= base D held /\
        subseq out (seg a (base D held) D) /\ (tf -> out = seg a (base D held) D /\ tight D held)
  end.

Lemma prepend_ok : forall D a a1 (tf tf1 : Prop) p x, res_ok D a1 tf1 x -> a <= a1 -> subseq p (seg a a1 D) ->
  (tf -> p = seg a a1 D /\ tf1) -> res_ok D a tf (prepend p x).
Proof.
  intros D a a1 tf tf1 p x R L S T. destruct x as [out r o|out k o]; cbn [prepend res_ok] in *.
  - destruct R as (i & A & B & C & E & F & G & H & I). exists i. csplit; auto; try lia.
    + rewrite <- (seg_app a a1 i D) by lia. apply subseq_app; assumption.
    + intro t. destruct (T t) as [-> t1]. rewrite (I t1). apply seg_app; lia.
  - destruct R as (A & B & held & C & E & F & G & H). csplit; auto. exists held. csplit; auto; try lia.
    + rewrite <- (seg_app a a1 (base D held) D) by lia. apply subseq_app; assumption.
    + intro t. destruct (T t) as [-> t1]. destruct (H t1) as [-> t2]. split; auto. apply seg_app; lia.
Qed.

Lemma find_from_spec : forall c l, l <= length c ->
  match find_from b c l with
  | Some i => l <= i /\ occ b (skipn l c) (i - l) /\ forall j, j < i - l -> ~ occ b (skipn l c) j
  | None => forall j, ~ occ b (skipn l c) j
  end.
Proof.
  intros c l L. unfold find_from. destruct (Nat.ltb_spec (length c) l); [lia|].
  destruct (find b (skipn l c)) as [k|] eqn:F; cbn [option_map].
  - apply find_some in F. destruct F as [F1 F2]. replace (l + k - l) with k by lia. csplit; [lia|exact F1|exact F2].
  - intros j Q. apply (find_none b (skipn l c) F j); [|exact Q]. apply occ_len in Q; auto. lia.
Qed.

Lemma end_sizes_le : forall P s, In s (end_sizes P 0 b) -> s <= length b.
Proof. intros P s H. apply end_sizes_in in H; auto. lia. Qed.

(** Searching the chunk [c0] from [l], when no occurrence starts before it. *)
Lemma search_ok : forall P c0 l cs again held D,
  let c := skipn l c0 in
  l < length c0 -> chunks_ok (c0 :: cs) -> D = P ++ c ++ concat cs ->
  (forall j, j < length P -> ~ occ b D j) -> (forall j, j < length P -> ~ occ b (P ++ c) j) ->
  (find_from b c0 l = None -> end_sizes c l b = end_sizes (P ++ c) 0 b) ->
  (forall held', held_ok (P ++ c) held' -> (forall j, ~ occ b (P ++ c) j) ->
     res_ok D (base (P ++ c) held') (tight (P ++ c) held' /\ Forall (big_enough b) cs) (again (end_sizes (P ++ c) 0 b) held')) ->
  res_ok D (length P) (Forall (big_enough b) cs) (until_search b c0 cs again held l).
Proof.
  intros P c0 l cs again held D c Hl Hc HD N1 N2 HE IH. unfold until_search. fold c.
  assert (Lc : length c = length c0 - l) by (unfold c; apply skipn_length).
  inversion Hc as [|? ? Hc1 Hc2]; subst.
  generalize (find_from_spec c0 l ltac:(lia)). fold c. destruct (find_from b c0 l) as [i|] eqn:EF.
  - intros (A & B & C). assert (LB := occ_len _ _ _ Hb B).
    assert (O : occ b (P ++ c ++ concat cs) (length P + (i - l))).
    { apply occ_shift. apply occ_inside; auto. }
    assert (O1 : forall j, j < length P + (i - l) -> ~ occ b (P ++ c ++ concat cs) j).
    { intros j Hj Q. destruct (le_lt_dec (length P) j) as [G|G]; [|exact (N1 j G Q)].
      replace j with (length P + (j - length P)) in Q by lia. apply occ_shift in Q.
      apply occ_inside in Q; auto; [|lia]. apply (C (j - length P)); [lia|exact Q]. }
    assert (S : firstn (i - l) c = seg (length P) (length P + (i - l)) (P ++ c ++ concat cs)).
    { replace (seg (length P)) with (seg (length P + 0)) by (f_equal; lia). rewrite seg_mid by lia. cbn [skipn]. f_equal. lia. }
    assert (U : forall r o, unread r o = skipn (i - l + length b) c ++ concat cs -> chunks_ok r -> off_ok r o ->
      res_ok (P ++ c ++ concat cs) (length P) (Forall (big_enough b) cs) (Fin (firstn (i - l) c) r o)).
    { intros r o U V W. exists (length P + (i - l)). csplit; auto; try lia.
      - rewrite U. rewrite skipn_app, (skipn_all2 P) by lia. cbn [app]. rewrite skipn_app.
        replace (length P + (i - l) + length b - length P) with (i - l + length b) by lia.
        replace (i - l + length b - length c) with 0 by lia. reflexivity.
      - rewrite S. apply subseq_refl. }
    destruct (Nat.eqb_spec (i + length b) (length c0)) as [E|E]; apply U; auto.
    + rewrite unread_zero. rewrite skipn_all2 by lia. reflexivity.
    + apply off_ok_zero. assumption.
    + cbn [unread]. f_equal. unfold c. rewrite skipn_add. f_equal. lia.
    + cbn. lia.
  - intro B.
    assert (N : forall j, ~ occ b (P ++ c) j).
    { intros j Q. destruct (le_lt_dec (length P) j) as [G|G]; [|exact (N2 j G Q)].
      replace j with (length P + (j - length P)) in Q by lia. apply occ_shift in Q. apply (B _ Q). }
    specialize (HE eq_refl). rewrite HE in *. destruct (end_sizes (P ++ c) 0 b) as [|s ss] eqn:ES.
    + apply (prepend_ok _ _ (length P + length c) _ (tight (P ++ c) held /\ Forall (big_enough b) cs)); try lia.
      * replace (length P + length c) with (base (P ++ c) held).
        -- apply IH; auto. unfold held_ok. rewrite ES. exact Logic.I.
        -- unfold base, hp. rewrite ES, app_length. lia.
      * rewrite seg_prefix. apply subseq_refl.
      * intro t. rewrite seg_prefix. split; auto. split; auto. unfold tight. rewrite ES. exact Logic.I.
    + assert (Hs : In s (end_sizes c l b)) by (rewrite HE; left; reflexivity).
      assert (Ls : 1 <= s /\ s <= length c).
      { unfold end_sizes in Hs. apply in_map_iff in Hs. destruct Hs as (q & <- & Hq). apply filter_In in Hq. destruct Hq as [Hq _].
        apply in_seq in Hq. lia. }
      assert (Lh : length (skipn (length c - s) c) = s) by (rewrite skipn_length; lia).
      apply (prepend_ok _ _ (length P + (length c - s)) _ (tight (P ++ c) (skipn (length c - s) c) /\ Forall (big_enough b) cs)); try lia.
      * replace (length P + (length c - s)) with (base (P ++ c) (skipn (length c - s) c)).
        -- apply IH; auto. unfold held_ok. rewrite ES, Lh, app_length. csplit; try lia.
           rewrite skipn_app, (skipn_all2 P) by lia. cbn [app]. f_equal. lia.
        -- unfold base, hp. rewrite ES, app_length, Lh. lia.
      * replace (seg (length P)) with (seg (length P + 0)) by (f_equal; lia). rewrite seg_mid by lia.
        cbn [skipn]. rewrite Nat.sub_0_r. apply subseq_refl.
      * intro t. split; [|split; auto].
        -- replace (seg (length P)) with (seg (length P + 0)) by (f_equal; lia). rewrite seg_mid by lia. cbn [skipn]. rewrite Nat.sub_0_r. reflexivity.
        -- unfold tight. rewrite ES. exact Lh.
Qed.

Lemma sorted_split : forall l1 s l2 x, StronglySorted gt (l1 ++ s :: l2) -> In x (l1 ++ s :: l2) -> s < x -> In x l1.
Proof.
  induction l1 as [|a l1 IH]; intros s l2 x H I L; cbn in *.
  - inversion H; subst. rewrite Forall_forall in H3. destruct I as [->|I]; [lia|]. apply H3 in I. lia.
  - inversion H; subst. destruct I as [->|I]; [auto|]. right. apply (IH s l2); auto.
Qed.

(** Occurrences starting in [P]. *)
Lemma occ_before : forall P D j, (forall i, ~ occ b P i) -> j < length P -> occ b (P ++ D) j ->
  In (length P - j) (end_sizes P 0 b) /\ firstn (length b - (length P - j)) D = skipn (length P - j) b.
Proof.
  intros P D j N L Q. destruct (le_lt_dec (j + length b) (length P)) as [G|G].
  - apply occ_inside in Q; auto. destruct (N j Q).
  - apply occ_straddle in Q; [|lia|lia]. destruct Q as [Q1 Q2]. split; auto. apply end_sizes_in; auto.
    csplit; try lia. replace (length P - (length P - j)) with j by lia. exact Q1.
Qed.

Lemma firstn_app_le : forall n (x y : bytes), n <= length x -> firstn n (x ++ y) = firstn n x.
Proof. intros n x y H. rewrite firstn_app. replace (n - length x) with 0 by lia. cbn. apply app_nil_r. Qed.

Lemma until_loop_ok : forall cs P held, chunks_ok cs -> (forall i, ~ occ b P i) -> held_ok P held ->
  res_ok (P ++ concat cs) (base P held) (tight P held /\ Forall (big_enough b) cs)
    (until_loop b (end_sizes P 0 b) held cs 0).
Proof.
  induction cs as [|c cs IH]; intros P held HC N HO; cbn [until_loop concat].
  - rewrite app_nil_r. cbn [res_ok]. csplit; auto. exists held. csplit; auto.
    + rewrite seg_nil by lia. apply subseq_nil.
    + intros [T _]. split; auto. symmetry. apply seg_nil. lia.
  - inversion HC as [|? ? HC1 HC2]; subst. assert (Lc := nonempty_len _ HC1).
    assert (LB := nonempty_len _ Hb).
    assert (AG : forall held', held_ok (P ++ c) held' -> (forall j, ~ occ b (P ++ c) j) ->
      res_ok (P ++ c ++ concat cs) (base (P ++ c) held') (tight (P ++ c) held' /\ Forall (big_enough b) cs)
        (until_loop b (end_sizes (P ++ c) 0 b) held' cs 0)).
    { intros held' H1 H2. rewrite app_assoc. apply IH; auto. }
    generalize (finish_spec c b (end_sizes P 0 b) (end_sizes_le P)).
    generalize (end_sizes_sorted P 0 b). intro SO.
    assert (FS : finish_sizes c b (end_sizes P 0 b) = inr [] ->
      res_ok (P ++ c ++ concat cs) (length P) (Forall (big_enough b) cs)
        (until_search b c cs (fun sizes held => until_loop b sizes held cs 0) [] 0) /\
      res_ok (P ++ c ++ concat cs) (length P) (Forall (big_enough b) cs)
        (until_search b c cs (fun sizes held => until_loop b sizes held cs 0) held 0)).
    { intro Q. generalize (finish_spec c b (end_sizes P 0 b) (end_sizes_le P)). rewrite Q. intros [F1 F2].
      assert (N1 : forall D, forall j, j < length P -> ~ occ b (P ++ c ++ D) j).
      { intros D j Hj O. apply occ_before in O; auto. destruct O as [O1 O2]. apply (F2 _ O1).
        assert (G : longer c b (length P - j) = false).
        { destruct (longer c b (length P - j)) eqn:G; auto. assert (I0 : In (length P - j) []); [|destruct I0].
          rewrite F1. apply filter_In. auto. }
        unfold longer in G. apply Nat.ltb_ge in G. rewrite firstn_app_le in O2; auto. }
      assert (E : end_sizes c 0 b = end_sizes (P ++ c) 0 b).
      { rewrite end_sizes_app, <- F1 by assumption. reflexivity. }
      split; apply (search_ok P c 0 cs); auto; try (cbn [skipn]; auto; fail).
      - intros j Hj. generalize (N1 [] j Hj). cbn [skipn]. rewrite app_nil_r. auto.
      - intros j Hj. generalize (N1 [] j Hj). cbn [skipn]. rewrite app_nil_r. auto. }
    destruct (end_sizes P 0 b) as [|s0 ss0] eqn:ES.
    + intros _. destruct (FS eq_refl) as [_ F]. unfold base, hp. rewrite ES, Nat.sub_0_r.
      destruct (until_search b c cs (fun sizes held0 => until_loop b sizes held0 cs 0) held 0) as [out r o|out k o]; cbn [res_ok] in *.
      * destruct F as (i & F). exists i. csplit; try tauto. intros [_ T]. apply F. inversion T. assumption.
      * destruct F as (A & B & h & F). csplit; auto. exists h. csplit; try tauto; intros [_ T]; apply F; inversion T; assumption.
    + rewrite <- ES in *. unfold held_ok in HO. rewrite ES in HO. destruct HO as (HO1 & HO2 & HO3).
      assert (BA : base P held = length P - length held) by (unfold base, hp; rewrite ES; reflexivity).
      assert (SH : seg (base P held) (length P) (P ++ c ++ concat cs) = held).
      { rewrite BA. unfold seg. rewrite skipn_app, <- HO3. replace (length P - (length P - length held)) with (length held) by lia.
        rewrite firstn_app_le by lia. apply firstn_all. }
      assert (HI : forall s, In s (end_sizes P 0 b) -> 1 <= s /\ s <= s0 /\ s <= length b - 1).
      { intros s Hs. assert (Hs' := Hs). apply end_sizes_in in Hs'; auto. csplit; try lia. rewrite ES in SO, Hs.
        inversion SO; subst. rewrite Forall_forall in H2. destruct Hs as [->|Hs]; [lia|]. apply H2 in Hs. lia. }
      destruct (finish_sizes c b (end_sizes P 0 b)) as [e|l] eqn:EF.
      * intros (l1 & s & l2 & E1 & -> & E3 & E4 & E5).
        assert (Hs : In s (end_sizes P 0 b)) by (rewrite E1; apply in_or_app; right; left; reflexivity).
        destruct (HI s Hs) as (Q1 & Q2 & Q3). assert (Hs' := Hs). apply end_sizes_in in Hs'; auto. destruct Hs' as (_ & _ & Q4 & Q5).
        assert (O : occ b (P ++ c ++ concat cs) (length P - s)).
        { apply occ_straddle; try lia. replace (length P - (length P - s)) with s by lia. split; auto.
          rewrite firstn_app_le; auto. }
        assert (O1 : forall j, j < length P - s -> ~ occ b (P ++ c ++ concat cs) j).
        { intros j Hj Q. apply occ_before in Q; auto; [|lia]. destruct Q as [Q6 Q7].
          apply (E5 (length P - j)).
          - rewrite E1 in SO, Q6. apply (sorted_split l1 s l2); auto. lia.
          - rewrite firstn_app_le in Q7; auto.
            destruct (HI _ Q6) as (_ & _ & Q8). lia. }
        assert (TG : seg (base P held) (length P - s) (P ++ c ++ concat cs) = firstn (length held - s) held).
        { rewrite BA. unfold seg. rewrite skipn_app, <- HO3. replace (length P - s - (length P - length held)) with (length held - s) by lia.
          apply firstn_app_le. lia. }
        assert (X : forall r e', (if length b - s =? length c then (cs, 0) else (c :: cs, length b - s)) = (r, e') ->
          unread r e' = skipn (length P - s + length b) (P ++ c ++ concat cs) /\ chunks_ok r /\ off_ok r e' /\
          (e' = length b - s \/ (e' = 0 /\ length b - s = length c))).
        { intros r e' Q. replace (length P - s + length b) with (length P + (length b - s)) by lia.
          rewrite skipn_app, skipn_all2 by lia. cbn [app]. replace (length P + (length b - s) - length P) with (length b - s) by lia.
          rewrite skipn_app. replace (length b - s - length c) with 0 by lia. cbn [skipn].
          destruct (Nat.eqb_spec (length b - s) (length c)) as [G|G]; injection Q as <- <-.
          - csplit; auto.
            + rewrite unread_zero, skipn_all2 by lia. reflexivity.
            + apply off_ok_zero. assumption.
          - csplit; auto. cbn. lia. }
        destruct (if length b - s =? length c then (cs, 0) else (c :: cs, length b - s)) as [r e'].
        destruct (X r e' eq_refl) as (X1 & X2 & X3 & X4). clear X.
        cbn [res_ok]. exists (length P - s). csplit; auto.
        -- rewrite BA. lia.
        -- rewrite TG. cbn [release fst]. apply subseq_firstn. lia.
        -- intros [T1 T2]. rewrite TG. cbn [release fst]. f_equal. unfold tight in T1. rewrite ES in T1.
           inversion T2 as [|? ? [_ T3] _]. assert (I0 : In s0 (end_sizes P 0 b)) by (rewrite ES; left; reflexivity). apply HI in I0. lia.
      * intros [F1 F2].
        assert (N2 : forall j, j < length P -> ~ occ b (P ++ c) j).
        { intros j Hj Q. apply occ_before in Q; auto. destruct Q as [Q1 Q2]. apply (F2 _ Q1 Q2). }
        destruct l as [|s1 ss1].
        -- destruct (FS eq_refl) as [F _].
           apply (prepend_ok _ _ (length P) _ (Forall (big_enough b) cs)); auto.
           ++ rewrite BA. lia.
           ++ rewrite SH. apply subseq_refl.
           ++ intros [_ T]. split; auto. inversion T; assumption.
        -- cbn [release].
           assert (LG : longer c b s1 = true /\ In s1 (end_sizes P 0 b)).
           { assert (I1 : In s1 (filter (longer c b) (end_sizes P 0 b))) by (rewrite <- F1; left; reflexivity). apply filter_In in I1. tauto. }
           destruct LG as [LG IG]. unfold longer in LG. apply Nat.ltb_lt in LG. destruct (HI _ IG) as (G1 & G2 & G3).
           rewrite F1, <- end_sizes_app by assumption.
           assert (NN : forall j, ~ occ b (P ++ c) j).
           { intros j Q. destruct (le_lt_dec (length P) j) as [G|G]; [|exact (N2 j G Q)].
             replace j with (length P + (j - length P)) in Q by lia. apply occ_shift in Q. apply occ_len in Q; auto. lia. }
           set (m := length (held ++ c) - length b).
           assert (Lm : m <= length held + length c) by (unfold m; rewrite app_length; lia).
           assert (SHC : seg (base P held) (length P + length c) (P ++ c ++ concat cs) = held ++ c).
           { rewrite <- (seg_app _ (length P)); [|rewrite BA; lia|lia]. rewrite SH, seg_prefix. reflexivity. }
           assert (HK : held_ok (P ++ c) (skipn m (held ++ c))).
           { unfold held_ok. destruct (end_sizes (P ++ c) 0 b) as [|x xs] eqn:EX; [exact Logic.I|].
             assert (IX : In x (end_sizes (P ++ c) 0 b)) by (rewrite EX; left; reflexivity).
             rewrite skipn_length, !app_length. csplit.
             - assert (IX' := IX). apply end_sizes_in in IX'; auto. rewrite end_sizes_app in IX by assumption.
               assert (x <= length held + length c); [|unfold m; rewrite app_length; lia].
               apply in_app_iff in IX. destruct IX as [IX|IX].
               + apply in_map_iff in IX. destruct IX as (q & <- & IX). apply filter_In in IX. destruct IX as [IX _].
                 apply filter_In in IX. destruct IX as [IX _]. apply HI in IX. lia.
               + apply end_sizes_in in IX; auto. lia.
             - lia.
             - transitivity (skipn m (skipn (length P - length held) P ++ c)); [rewrite <- HO3; reflexivity|].
               rewrite <- (skipn_app_le (length P - length held) P c) by lia. rewrite skipn_add. f_equal. lia. }
           apply (prepend_ok _ _ (base (P ++ c) (skipn m (held ++ c))) _ (tight (P ++ c) (skipn m (held ++ c)) /\ Forall (big_enough b) cs)).
           ++ apply AG; auto.
           ++ unfold base, hp. rewrite ES. destruct (end_sizes (P ++ c) 0 b); rewrite app_length; [lia|]. rewrite skipn_length, !app_length. lia.
           ++ assert (BB : base P held + m <= base (P ++ c) (skipn m (held ++ c)) /\ base (P ++ c) (skipn m (held ++ c)) <= length P + length c).
              { unfold base, hp. rewrite ES. destruct (end_sizes (P ++ c) 0 b); rewrite app_length; [lia|]. rewrite skipn_length, !app_length. lia. }
              rewrite <- (firstn_skipn (base (P ++ c) (skipn m (held ++ c)) - base P held) (held ++ c)) in SHC.
              rewrite <- (seg_app _ (base (P ++ c) (skipn m (held ++ c)))) in SHC by lia.
              apply app_len_inj in SHC.
              ** destruct SHC as [-> _]. apply subseq_firstn. lia.
              ** unfold seg. rewrite !firstn_length, skipn_length, !app_length. lia.
           ++ intros [T1 T2]. exfalso. unfold tight in T1. rewrite ES in T1. inversion T2 as [|? ? [_ T3] _]; subst. lia.
Qed.
End Until.

Lemma end_sizes_nil : forall b, b <> [] -> end_sizes [] 0 b = [].
Proof. intros b Hb. unfold end_sizes. cbn [length]. cbn. destruct (length b - 1); reflexivity. Qed.

Lemma occ_nil : forall b i, b <> [] -> ~ occ b [] i.
Proof. intros b i Hb Q. apply occ_len in Q; auto. apply nonempty_len in Hb. cbn in Q. lia. Qed.

(** The first pass, with some of the first chunk consumed. *)
Lemma until_start_ok : forall b cs o, b <> [] -> chunks_ok cs -> off_ok cs o ->
  match cs with [] => True | c :: _ => find_from b c o = None -> end_sizes (skipn o c) o b = end_sizes (skipn o c) 0 b end ->
  res_ok b (unread cs o) 0 (Forall (big_enough b) (tl cs)) (until_loop b [] [] cs o).
Proof.
  intros b cs o Hb HC HO HF. destruct cs as [|c cs].
  - cbn in HO. subst o. cbn [until_loop unread res_ok tl]. rewrite end_sizes_nil by assumption.
    csplit; auto using occ_nil. exists []. unfold held_ok, base, hp, tight. rewrite !end_sizes_nil by assumption.
    csplit; auto. apply Sub_nil.
  - cbn [until_loop unread tl]. apply (search_ok b Hb [] c o cs); auto.
    + cbn. intros; lia.
    + cbn. intros; lia.
    + cbn [app]. intros held' H1 H2. inversion HC; subst. apply until_loop_ok; auto.
Qed.

Lemma offset_ok_sizes : forall b w, idle w -> offset_ok b w ->
  match w_chunks w with
  | [] => True
  | c :: _ => find_from b c (w_offset w) = None ->
      end_sizes (skipn (w_offset w) c) (w_offset w) b = end_sizes (skipn (w_offset w) c) 0 b
  end.
Proof.
  intros b w (_ & _ & _ & _ & HO). unfold offset_ok. destruct (w_chunks w) as [|c cs]; auto. intros HF _.
  set (o := w_offset w) in *. unfold end_sizes. rewrite Nat.max_0_r, skipn_length.
  destruct HF as [HF|[HF|HF]].
  - rewrite HF, Nat.max_0_r. reflexivity.
  - rewrite HF. replace (Nat.max (length c - o - (1 - 1)) o) with (Nat.max (length c - o) o) by lia.
    replace (length c - o - Nat.max (length c - o) o) with 0 by lia.
    replace (length c - o - (length c - o - (1 - 1))) with 0 by lia. reflexivity.
  - replace (Nat.max (length c - o - (length b - 1)) o) with (length c - o - (length b - 1)) by lia. reflexivity.
Qed.

Definition waiting (b P : bytes) (w : world) (tf : Prop) : Prop :=
  exists held, w_reader w = Some (RUntil b, WUntil b (end_sizes P 0 b) held) /\ w_eof w = false /\ w_aborted w = false /\
    (forall j, ~ occ b P j) /\ held_ok b P held /\ subseq (w_acc w) (seg 0 (base b P held) P) /\
    (tf -> w_acc w = seg 0 (base b P held) P /\ tight b P held).

Definition finished (b D : bytes) (w : world) (l : answers) (tf : Prop) : Prop :=
  exists i out, occ b D i /\ (forall j, j < i -> ~ occ b D j) /\ l = [(RUntil b, AData out)] /\
    w_reader w = None /\ chunks_ok (w_chunks w) /\ off_ok (w_chunks w) (w_offset w) /\
    unread (w_chunks w) (w_offset w) = skipn (i + length b) D /\
    subseq out (firstn i D) /\ (tf -> out = firstn i D).

Lemma seg_zero : forall i D, seg 0 i D = firstn i D.
Proof. intros. unfold seg. rewrite Nat.sub_0_r. reflexivity. Qed.

Lemma settle_until : forall b D w acc a tf x, b <> [] -> w_eof w = false -> w_aborted w = false ->
  res_ok b D a tf x -> subseq acc (seg 0 a D) -> (tf -> acc = seg 0 a D) ->
  let '(w', l) := settle w (RUntil b) acc x in
  (l = [] /\ waiting b D w' tf) \/ finished b D w' l tf.
Proof.
  intros b D w acc a tf x Hb E A R S T. destruct x as [out r o|out k o]; cbn [res_ok] in R; cbn [settle].
  - right. destruct R as (i & R1 & R2 & R3 & R4 & R5 & R6 & R7 & R8). exists i, (acc ++ out). rewrite A. cbn. csplit; auto.
    + rewrite <- seg_zero, <- (seg_app 0 a i) by lia. apply subseq_app; auto.
    + intro t. rewrite <- seg_zero, <- (seg_app 0 a i) by lia. rewrite (T t), (R8 t). reflexivity.
  - rewrite E. left. destruct R as (R1 & -> & held & -> & R3 & R4 & R5 & R6). split; auto.
    exists held. cbn. csplit; auto.
    + rewrite <- (seg_app 0 a) by lia. apply subseq_app; auto.
    + intro t. destruct (R6 t) as [-> R7]. rewrite (T t). split; auto. apply seg_app; lia.
Qed.

Lemma seg_extend : forall a z P d, a <= z -> z <= length P -> seg a z (P ++ d) = seg a z P.
Proof.
  intros a z P d H1 H2. unfold seg. rewrite skipn_app_le by lia. apply firstn_app_le. rewrite skipn_length. lia.
Qed.

Lemma feed_idle : forall (ds : list bytes) w, chunks_ok ds -> w_reader w = None -> chunks_ok (w_chunks w) -> off_ok (w_chunks w) (w_offset w) ->
  let '(w', l) := exec w (map OData ds) in
  l = [] /\ w_reader w' = None /\ chunks_ok (w_chunks w') /\ off_ok (w_chunks w') (w_offset w') /\
  unread (w_chunks w') (w_offset w') = unread (w_chunks w) (w_offset w) ++ concat ds.
Proof.
  induction ds as [|d ds IH]; intros w HD R C O; cbn [map exec].
  - cbn. rewrite app_nil_r. auto.
  - inversion HD as [|? ? HD1 HD2]; subst. cbn [step]. destruct (Nat.eqb_spec (length d) 0) as [Z|Z]; [destruct d; [congruence|discriminate]|].
    rewrite R. set (w1 := mk_world _ _ _ _ _ _ _).
    assert (C1 : chunks_ok (w_chunks w1)) by (apply Forall_app; split; [assumption|constructor; [assumption|constructor]]).
    assert (O1 : off_ok (w_chunks w1) (w_offset w1)).
    { cbn. destruct (w_chunks w); cbn in *; auto. rewrite O. apply nonempty_len; assumption. }
    specialize (IH w1 HD2 eq_refl C1 O1). destruct (exec w1 (map OData ds)) as [w2 l2].
    destruct IH as (-> & A & B & D & E). csplit; auto. rewrite E. cbn [concat]. rewrite app_assoc. f_equal. cbn [w1 w_chunks w_offset].
    destruct (w_chunks w) as [|c cs]; cbn in *; [rewrite O; cbn; rewrite app_nil_r; reflexivity|]. rewrite concat_snoc, app_assoc. reflexivity.
Qed.

Lemma finished_more : forall b D x w2 i out (tf tf' : Prop), b <> [] -> occ b D i -> (forall j, j < i -> ~ occ b D j) ->
  w_reader w2 = None -> chunks_ok (w_chunks w2) -> off_ok (w_chunks w2) (w_offset w2) ->
  forall w1, unread (w_chunks w1) (w_offset w1) = skipn (i + length b) D ->
  unread (w_chunks w2) (w_offset w2) = unread (w_chunks w1) (w_offset w1) ++ x ->
  subseq out (firstn i D) -> (tf -> out = firstn i D) -> (tf' -> tf) ->
  finished b (D ++ x) w2 [(RUntil b, AData out)] tf'.
Proof.
  intros b D x w2 i out tf tf' Hb I1 I2 F1 F2 F3 w1 I7 F4 I8 I9 T. assert (LI := occ_len _ _ _ Hb I1).
  exists i, out. csplit; auto.
  - apply occ_inside; auto.
  - intros j Hj Q. apply (I2 j Hj). apply occ_inside in Q; auto. lia.
  - rewrite F4, I7. symmetry. apply skipn_app_le. lia.
  - rewrite firstn_app_le by lia. assumption.
  - rewrite firstn_app_le by lia. auto.
Qed.

Lemma feed_waiting : forall b (ds : list bytes) P w (tf : Prop), b <> [] -> chunks_ok ds -> waiting b P w tf ->
  let '(w', l) := exec w (map OData ds) in
  let tf' := tf /\ Forall (big_enough b) ds in
  (l = [] /\ waiting b (P ++ concat ds) w' tf') \/ finished b (P ++ concat ds) w' l tf'.
Proof.
  intros b ds. induction ds as [|d ds IH]; intros P w tf Hb HD W; cbn [map exec].
  - left. split; auto. cbn [concat]. rewrite app_nil_r. destruct W as (held & W1 & W2 & W3 & W4 & W5 & W6 & W7).
    exists held. csplit; auto. all: intros [t _]; apply W7; exact t.
  - inversion HD as [|? ? HD1 HD2]; subst. destruct W as (held & W1 & W2 & W3 & W4 & W5 & W6 & W7).
    cbn [step]. destruct (Nat.eqb_spec (length d) 0) as [Z|Z]; [destruct d; [congruence|discriminate]|].
    rewrite W1. cbn [resume].
    generalize (until_loop_ok b Hb [d] P held ltac:(constructor; [assumption|constructor]) W4 W5).
    cbn [concat]. rewrite app_nil_r. intro R.
    assert (BP : base b P held <= length P) by (unfold base; lia).
    assert (R' : res_ok b (P ++ d) (base b P held) (tf /\ big_enough b d) (until_loop b (end_sizes P 0 b) held [d] 0)).
    { destruct (until_loop b (end_sizes P 0 b) held [d] 0) as [out r o|out k o]; cbn [res_ok] in *.
      - destruct R as (i & R). exists i. csplit; try tauto. intros [t B]. apply R. split; [apply W7; exact t|constructor; [exact B|constructor]].
      - destruct R as (R1 & R2 & h & R). csplit; auto. exists h. csplit; try tauto;
          intros [t B]; apply R; (split; [apply W7; exact t|constructor; [exact B|constructor]]). }
    generalize (settle_until b (P ++ d) w (w_acc w) (base b P held) (tf /\ big_enough b d) _ Hb W2 W3 R').
    rewrite seg_extend by lia. intro S. specialize (S W6 (fun t => proj1 (W7 (proj1 t)))).
    destruct (settle w (RUntil b) (w_acc w) (until_loop b (end_sizes P 0 b) held [d] 0)) as [w1 l1].
    destruct S as [[-> S]|S].
    + specialize (IH (P ++ d) w1 _ Hb HD2 S). destruct (exec w1 (map OData ds)) as [w2 l2]. cbn [app concat].
      rewrite app_assoc. assert (Q : (tf /\ Forall (big_enough b) (d :: ds)) -> ((tf /\ big_enough b d) /\ Forall (big_enough b) ds)).
      { intros [t F]. inversion F; auto. }
      destruct IH as [[-> IH]|IH].
      * left. split; auto. destruct IH as (h & I1 & I2 & I3 & I4 & I5 & I6 & I7). exists h. csplit; auto. all: intro t; apply I7; auto.
      * right. destruct IH as (i & out & I1 & I2 & I3 & I4 & I5 & I6 & I7 & I8 & I9). exists i, out. csplit; auto.
    + destruct S as (i & out & I1 & I2 & -> & I4 & I5 & I6 & I7 & I8 & I9). 
      generalize (feed_idle ds w1 HD2 I4 I5 I6).
      destruct (exec w1 (map OData ds)) as [w2 l2].
      intros (-> & F1 & F2 & F3 & F4). right. cbn [app concat]. rewrite (app_assoc P d).
      eapply finished_more; eauto. intros [t F]. split; auto. inversion F; assumption.
Qed.

Lemma occ_split : forall b D i, b <> [] -> occ b D i -> (forall j, j < i -> ~ occ b D j) ->
  first_split b D (firstn i D) (skipn (i + length b) D).
Proof.
  intros b D i Hb O F. assert (L := occ_len _ _ _ Hb O). split.
  - rewrite <- (firstn_skipn i D) at 1. f_equal. rewrite <- O at 1. rewrite <- skipn_add, firstn_skipn. reflexivity.
  - intros p s E. rewrite firstn_length_le by lia. destruct (le_lt_dec i (length p)); auto.
    exfalso. apply (F (length p)); auto. apply occ_iff; auto. exists p, s. auto.
Qed.

Lemma read_until_general : forall w b (ds : list bytes), b <> [] -> idle w -> offset_ok b w -> chunks_ok ds ->
  let '(w', l) := exec w (ORead (RUntil b) :: map OData ds) in
  let D := unread (w_chunks w) (w_offset w) ++ concat ds in
  (lacks b D /\ l = [] /\ w_reader w' <> None) \/
  (exists pre post out, first_split b D pre post /\ l = [(RUntil b, AData out)] /\ w_reader w' = None /\
     unread (w_chunks w') (w_offset w') = post /\ subseq out pre /\
     (Forall (big_enough b) (tl (w_chunks w) ++ ds) -> out = pre)).
Proof.
  intros w b ds Hb ID OK0 HD. assert (OK := offset_ok_sizes b w ID OK0). destruct ID as (R & E & F & C & O). cbn [exec step trivial].
  destruct (Nat.eqb_spec (length b) 0) as [Z|Z]; [destruct b; [congruence|discriminate]|].
  rewrite R, F. cbn [start]. set (w0 := mk_world _ _ _ _ _ _ _).
  generalize (until_start_ok b (w_chunks w) (w_offset w) Hb C O OK). intro U.
  generalize (settle_until b _ w0 [] 0 (Forall (big_enough b) (tl (w_chunks w))) _ Hb E eq_refl U (Sub_nil) (fun _ => eq_refl)).
  destruct (settle w0 (RUntil b) [] (until_loop b [] [] (w_chunks w) (w_offset w))) as [w1 l1].
  assert (FIN : forall w' l (tf : Prop), (Forall (big_enough b) (tl (w_chunks w) ++ ds) -> tf) -> finished b (unread (w_chunks w) (w_offset w) ++ concat ds) w' l tf ->
    exists pre post out, first_split b (unread (w_chunks w) (w_offset w) ++ concat ds) pre post /\ l = [(RUntil b, AData out)] /\ w_reader w' = None /\
     unread (w_chunks w') (w_offset w') = post /\ subseq out pre /\
     (Forall (big_enough b) (tl (w_chunks w) ++ ds) -> out = pre)).
  { intros w' l tf T (i & out & I1 & I2 & I3 & I4 & I5 & I6 & I7 & I8 & I9). eexists _, _, out. csplit; eauto using occ_split. }
  intros [[-> W]|W].
  - generalize (feed_waiting b ds _ w1 _ Hb HD W). destruct (exec w1 (map OData ds)) as [w2 l2]. cbn [app].
    intros [[-> (h & I1 & I2 & I3 & I4 & _)]|S].
    + left. csplit; auto.
      * intros p s Q. apply (I4 (length p)). apply occ_iff; auto. exists p, s. auto.
      * rewrite I1. discriminate.
    + right. apply (FIN w2 l2 _) in S; auto. intro T. apply Forall_app in T. exact T.
  - destruct W as (i & out & I1 & I2 & -> & I4 & I5 & I6 & I7 & I8 & I9).
    generalize (feed_idle ds w1 HD I4 I5 I6). destruct (exec w1 (map OData ds)) as [w2 l2].
    intros (-> & F1 & F2 & F3 & F4). right. cbn [app]. apply (FIN w2 _ (Forall (big_enough b) (tl (w_chunks w) ++ ds))); auto.
    eapply finished_more; eauto. intro T. apply Forall_app in T. apply T.
Qed.
