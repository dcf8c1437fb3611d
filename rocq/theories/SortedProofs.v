From Coq Require Import List Arith Bool NArith Lia Permutation Sorted.
From Verif Require Import SortedModel SortedSpec.
Import ListNotations.

(** * Searching in two halves *)

Lemma bisect_split {T} (p : T -> bool) a b : Forall (fun x => p x = true) a -> Forall (fun x => p x = false) b ->
  forall fuel bot top, top - bot <= fuel -> bot <= length a <= top -> top <= length (a ++ b) ->
  bisect T fuel p (a ++ b) bot top = length a.
Proof.
  intros Ha Hb. induction fuel as [|fuel IH]; intros bot top Hf Hk Ht; [cbn; lia|]. cbn [bisect].
  destruct (Nat.ltb_spec bot top) as [L|L]; [|lia]. rewrite Nat.div2_div. set (half := (bot + top) / 2).
  assert (B : bot <= half < top).
  { unfold half. split; [apply Nat.div_le_lower_bound; lia|]. apply Nat.div_lt_upper_bound; lia. }
  clearbody half. destruct (Nat.lt_ge_cases half (length a)) as [Q|Q].
  - rewrite nth_error_app1 by exact Q. destruct (nth_error a half) as [x|] eqn:E; [|apply nth_error_None in E; lia].
    rewrite Forall_forall in Ha. rewrite (Ha x) by (eapply nth_error_In; exact E). apply IH; lia.
  - rewrite nth_error_app2 by exact Q. destruct (nth_error b (half - length a)) as [x|] eqn:E; [|apply nth_error_None in E; rewrite app_length in Ht; lia].
    rewrite Forall_forall in Hb. rewrite (Hb x) by (eapply nth_error_In; exact E). apply IH; lia.
Qed.

Lemma nth_hd {T} (a b : list T) : nth_error (a ++ b) (length a) = hd_error b.
Proof. rewrite nth_error_app2, Nat.sub_diag by lia. destruct b; reflexivity. Qed.

Lemma insert_here {T} (a b : list T) v : insert_at T (length a) v (a ++ b) = a ++ v :: b.
Proof. unfold insert_at. rewrite firstn_app, skipn_app, Nat.sub_diag, firstn_all, skipn_all. cbn. rewrite app_nil_r. reflexivity. Qed.

Lemma skipn_one {T} (a b : list T) x : skipn (S (length a)) (a ++ x :: b) = b.
Proof. rewrite skipn_app. replace (S (length a) - length a) with 1 by lia. rewrite (skipn_all2 a) by lia. reflexivity. Qed.

Lemma firstn_app_here {T} (a b : list T) : firstn (length a) (a ++ b) = a.
Proof. rewrite firstn_app, Nat.sub_diag, firstn_all. cbn. apply app_nil_r. Qed.

Lemma replace_here {T} (a b : list T) x v : replace_at T (length a) v (a ++ x :: b) = a ++ v :: b.
Proof. unfold replace_at. rewrite firstn_app_here, skipn_one. reflexivity. Qed.

Lemma delete_here {T} (a b : list T) x : delete_at T (length a) (a ++ x :: b) = a ++ b.
Proof. unfold delete_at. rewrite firstn_app_here, skipn_one. reflexivity. Qed.

Lemma ss_split {T} (R : T -> T -> Prop) (p : T -> bool) l : StronglySorted R l -> (forall x y, R x y -> p y = true -> p x = true) ->
  exists a b, l = a ++ b /\ Forall (fun x => p x = true) a /\ Forall (fun x => p x = false) b.
Proof.
  intros S H. induction S as [|x l S IH F]; [exists [], []; repeat split; constructor|].
  destruct (p x) eqn:E.
  - destruct IH as (a & b & -> & Ha & Hb). exists (x :: a), b. repeat split; [constructor; assumption|exact Hb].
  - exists [], (x :: l). repeat split; [constructor|]. constructor; [exact E|]. rewrite Forall_forall in *. intros y Hy. destruct (p y) eqn:E'; [|reflexivity].
    rewrite (H x y) in E; [discriminate|apply F; exact Hy|exact E'].
Qed.

Lemma ss_insert {T} (R : T -> T -> Prop) a v b : StronglySorted R (a ++ b) -> Forall (fun x => R x v) a -> Forall (R v) b -> StronglySorted R (a ++ v :: b).
Proof.
  induction a as [|x a IH]; intros S Ha Hb; cbn [app] in *; [constructor; assumption|]. inversion S as [|? ? S1 F]; inversion Ha; subst.
  constructor; [apply IH; assumption|]. apply Forall_app in F. destruct F as [F1 F2]. apply Forall_app. split; [exact F1|constructor; assumption].
Qed.

Lemma ss_delete {T} (R : T -> T -> Prop) a x b : StronglySorted R (a ++ x :: b) -> StronglySorted R (a ++ b).
Proof.
  induction a as [|y a IH]; intros S; cbn [app] in *; [inversion S; assumption|]. inversion S as [|? ? S1 F]; subst. constructor; [apply IH; assumption|].
  apply Forall_app in F. destruct F as [F1 F2]. inversion F2; subst. apply Forall_app. split; assumption.
Qed.

Lemma ss_rev {T} (R : T -> T -> Prop) l : StronglySorted R l -> StronglySorted (fun x y => R y x) (rev l).
Proof.
  induction 1 as [|x l S IH F]; [constructor|]. cbn [rev]. apply ss_insert; [rewrite app_nil_r; exact IH| |constructor].
  apply Forall_rev. exact F.
Qed.

Lemma ss_tail {T} (R : T -> T -> Prop) a x b : StronglySorted R (a ++ x :: b) -> Forall (R x) b.
Proof. induction a as [|y a IH]; cbn [app]; intros S; inversion S; subst; auto. Qed.

Section Proofs.
Variables (T U : Type) (lt eqb : T -> T -> bool) (key : T -> U) (ltU eqU : U -> U -> bool).
Hypothesis O : ordered T lt eqb.
Hypothesis KO : keyed T U lt key ltU eqU.

Notation before := (before T lt).
Notation before_key := (before_key T U key ltU).
Notation in_order := (in_order T lt).
Notation step := (step T U lt eqb key ltU eqU).
Notation run := (run T U lt eqb key ltU eqU).
Notation has := (has T).

Lemma asym r x v : before r v x = true -> before r x v = false.
Proof.
  destruct O as [I Tr _ _]. unfold SortedModel.before. destruct r; intros H.
  - destruct (lt x v) eqn:E; [|reflexivity]. rewrite <- (I v). symmetry. eapply Tr; eassumption.
  - destruct (lt v x) eqn:E; [|reflexivity]. rewrite <- (I v). symmetry. eapply Tr; eassumption.
Qed.

Lemma irrefl r x : before r x x = false.
Proof. destruct O as [I _ _ _]. unfold SortedModel.before. destruct r; apply I. Qed.

(** x before v: x before w, or w before v *)
Lemma weak r x v w : before r v x = true -> before r w x = true \/ before r v w = true.
Proof. destruct O as [_ _ _ W]. unfold SortedModel.before. destruct r; intros H; destruct (W _ _ w H); auto. Qed.

Lemma total r x v : eqb x v = negb (before r v x) && negb (before r x v).
Proof. destruct O as [_ _ E _]. unfold SortedModel.before. rewrite E. destruct r; [apply andb_comm|reflexivity]. Qed.

Lemma closed r v x y : before r x y = false -> before r v y = true -> before r v x = true.
Proof. intros H1 H2. destruct (weak r y v x H2) as [Q|Q]; [congruence|exact Q]. Qed.

Lemma closed_key r k x y : before r x y = false -> before_key r k y = true -> before_key r k x = true.
Proof.
  destruct KO as [_ W _ L]. unfold SortedModel.before, SortedModel.before_key. destruct r; intros H1 H2.
  - destruct (W _ _ (key x) H2) as [Q|Q]; [exact Q|]. apply L in Q. congruence.
  - destruct (W _ _ (key x) H2) as [Q|Q]; [|exact Q]. apply L in Q. congruence.
Qed.

Lemma total_key r x k : eqU (key x) k = negb (before_key r k x) && negb (if r then ltU (key x) k else ltU k (key x)).
Proof. destruct KO as [E _ _ _]. unfold SortedModel.before_key. rewrite E. destruct r; [apply andb_comm|reflexivity]. Qed.

Lemma split_value r l v : in_order r l -> exists a b, l = a ++ b /\ Forall (fun x => before r v x = true) a /\ Forall (fun x => before r v x = false) b.
Proof. intros S. apply (ss_split _ _ _ S). intros x y H1 H2. eapply closed; [exact H1|exact H2]. Qed.

Lemma split_key r l k : in_order r l -> exists a b, l = a ++ b /\ Forall (fun x => before_key r k x = true) a /\ Forall (fun x => before_key r k x = false) b.
Proof. intros S. apply (ss_split _ _ _ S). intros x y H1 H2. eapply closed_key; [exact H1|exact H2]. Qed.

Lemma relative_here r a b v : Forall (fun x => before r v x = true) a -> Forall (fun x => before r v x = false) b ->
  relative_index T lt (Build_slist r (a ++ b)) v = length a.
Proof. intros Ha Hb. unfold relative_index. cbn [reversed elements]. apply bisect_split; try assumption; rewrite ?app_length; lia. Qed.

Lemma keyed_here r a b k : Forall (fun x => before_key r k x = true) a -> Forall (fun x => before_key r k x = false) b ->
  keyed_relative_index T U key ltU (Build_slist r (a ++ b)) k = length a.
Proof. intros Ha Hb. unfold keyed_relative_index. cbn [reversed elements]. apply bisect_split; try assumption; rewrite ?app_length; lia. Qed.

Lemma eqb_first r a v : Forall (fun x => before r v x = true) a -> ~ has (fun x => eqb x v) a.
Proof. intros H (x & Hx & E). rewrite Forall_forall in H. rewrite (total r x v), (H x Hx) in E. discriminate. Qed.

Lemma eqb_rest r a b v : in_order r (a ++ b) -> Forall (fun x => before r v x = true) a -> Forall (fun x => before r v x = false) b ->
  match b with [] => True | x :: _ => eqb x v = false end -> ~ has (fun x => eqb x v) (a ++ b).
Proof.
  intros S Ha Hb H (x & Hx & E). apply in_app_or in Hx. destruct Hx as [Hx|Hx]; [apply (eqb_first r a v Ha); exists x; auto|].
  destruct b as [|y b]; [destruct Hx|]. inversion Hb as [|? ? H1 H2]; subst. destruct Hx as [->|Hx]; [congruence|].
  pose proof (ss_tail _ _ _ _ S) as F. rewrite Forall_forall in F. specialize (F x Hx). cbv beta in F.
  rewrite (total r y v), H1 in H. cbn [negb andb] in H. apply negb_false_iff in H.
  destruct (weak r v y x H) as [Q|Q].
  - rewrite (total r x v), Q, andb_false_r in E. discriminate.
  - unfold SortedModel.before in Q. rewrite Q in F. discriminate.
Qed.

Lemma key_rest r a b k : in_order r (a ++ b) -> Forall (fun x => before_key r k x = true) a -> Forall (fun x => before_key r k x = false) b ->
  match b with [] => True | x :: _ => eqU (key x) k = false end -> ~ has (fun x => eqU (key x) k) (a ++ b).
Proof.
  intros S Ha Hb H (x & Hx & E). apply in_app_or in Hx. destruct Hx as [Hx|Hx].
  { rewrite Forall_forall in Ha. rewrite (total_key r x k), (Ha x Hx) in E. discriminate. }
  destruct b as [|y b]; [destruct Hx|]. inversion Hb as [|? ? H1 H2]; subst. destruct Hx as [->|Hx]; [congruence|].
  pose proof (ss_tail _ _ _ _ S) as F. rewrite Forall_forall in F. specialize (F x Hx). cbv beta in F.
  rewrite (total_key r y k), H1 in H. cbn [negb andb] in H. apply negb_false_iff in H. rewrite (total_key r x k) in E.
  destruct KO as [_ W _ L]. destruct r.
  - destruct (W _ _ (key x) H) as [Q|Q]; [apply L in Q; congruence|]. rewrite Q, andb_false_r in E. discriminate.
  - destruct (W _ _ (key x) H) as [Q|Q]; [|apply L in Q; congruence]. rewrite Q, andb_false_r in E. discriminate.
Qed.

Lemma order_insert r a b v : in_order r (a ++ b) -> Forall (fun x => before r v x = true) a -> Forall (fun x => before r v x = false) b ->
  in_order r (a ++ v :: b).
Proof.
  intros S Ha Hb. apply ss_insert; [exact S| |].
  - eapply Forall_impl; [|exact Ha]. intros x Hx. apply (asym r x v Hx).
  - exact Hb.
Qed.

Lemma Permutation_mid (a b : list T) v : Permutation (a ++ v :: b) (v :: a ++ b).
Proof. symmetry. apply Permutation_middle. Qed.

(** * sorted *)

Lemma insort_split r a b v : Forall (fun x => before r v x = true) a -> Forall (fun x => before r v x = false) b ->
  insort T lt r v (a ++ b) = a ++ v :: b.
Proof.
  intros Ha Hb. induction Ha as [|x a Hx Ha IH]; cbn [app].
  - destruct Hb as [|y b Hy Hb]; cbn [insort]; [reflexivity|]. rewrite Hy. reflexivity.
  - cbn [insort]. rewrite Hx, IH. reflexivity.
Qed.

Lemma sorted_ok r l : in_order r (sorted T lt r l) /\ Permutation (sorted T lt r l) l.
Proof.
  induction l as [|v l [S P]]; [split; constructor|]. unfold sorted. cbn [fold_right]. fold (sorted T lt r l).
  destruct (split_value r _ v S) as (a & b & E & Ha & Hb). rewrite E in *. rewrite insort_split by assumption. split; [apply order_insert; assumption|].
  rewrite Permutation_mid. constructor. exact P.
Qed.

(** * extend *)

Lemma app_split_le {A} (a b : list A) : forall l n, l = a ++ b -> n <= length a -> firstn n l = firstn n a.
Proof. intros l n -> H. rewrite firstn_app. replace (n - length a) with 0 by lia. cbn. apply app_nil_r. Qed.

Lemma prefix_le (p : T -> bool) l a b n : l = a ++ b -> Forall (fun x => p x = false) b -> Forall (fun x => p x = true) (firstn n l) -> n <= length l -> n <= length a.
Proof.
  intros -> Hb Hn L. destruct (Nat.le_gt_cases n (length a)) as [Q|Q]; [exact Q|]. rewrite firstn_app in Hn. apply Forall_app in Hn. destruct Hn as [_ Hn].
  destruct b as [|y b]; [rewrite app_nil_r in L; lia|]. destruct (n - length a) as [|m] eqn:E; [lia|]. cbn [firstn] in Hn. inversion Hn; inversion Hb; congruence.
Qed.

Lemma extend_loop_ok r values : in_order r values -> forall l bot, in_order r l -> bot <= length l ->
  (forall w, In w values -> Forall (fun x => before r w x = true) (firstn bot l)) ->
  in_order r (extend_loop T lt r values l bot) /\ Permutation (extend_loop T lt r values l bot) (values ++ l).
Proof.
  induction values as [|v values IH]; intros SV l bot S L H; [split; [exact S|reflexivity]|]. cbn [extend_loop].
  inversion SV as [|? ? SV1 F]; subst. destruct (split_value r l v S) as (a & b & -> & Ha & Hb).
  assert (LE : bot <= length a) by (eapply (prefix_le (before r v)); [reflexivity|exact Hb|apply H; left; reflexivity|exact L]).
  rewrite (bisect_split (before r v) a b Ha Hb) by (rewrite ?app_length; lia). rewrite insert_here.
  destruct (IH SV1 (a ++ v :: b) (length a)) as [S2 P2].
  - apply order_insert; assumption.
  - rewrite app_length. lia.
  - intros w Hw. rewrite firstn_app_here. rewrite Forall_forall in *. intros x Hx. specialize (F w Hw). cbv beta in F.
    destruct (weak r x v w (Ha x Hx)) as [Q|Q]; [exact Q|]. unfold SortedModel.before in Q. congruence.
  - split; [exact S2|]. rewrite P2. rewrite Permutation_mid. cbn [app]. symmetry. apply Permutation_middle.
Qed.

Lemma order_rev r l : in_order r l -> in_order (negb r) (rev l).
Proof. intros S. apply ss_rev in S. destruct r; exact S. Qed.

Lemma extend_order_ok r i : match i with Sorted_list s => in_order (reversed s) (elements s) | Plain _ => True end ->
  in_order r (extend_order T lt r i) /\ Permutation (extend_order T lt r i) (all_of T i).
Proof.
  destruct i as [l|s]; intros H; cbn [extend_order all_of]; [apply sorted_ok|]. destruct (Bool.eqb (reversed s) r) eqn:E.
  - apply eqb_prop in E. subst r. split; [exact H|reflexivity].
  - apply eqb_false_iff in E. apply order_rev in H. replace (negb (reversed s)) with r in H by (revert E; clear; destruct (reversed s), r; intros E; try reflexivity; destruct E; reflexivity).
    split; [exact H|symmetry; apply Permutation_rev].
Qed.

Lemma extend_ok s i : in_order (reversed s) (elements s) -> match i with Sorted_list s => in_order (reversed s) (elements s) | Plain _ => True end ->
  in_order (reversed s) (elements (extend T lt s i)) /\ Permutation (elements (extend T lt s i)) (all_of T i ++ elements s).
Proof.
  intros S H. unfold extend, with_elements. cbn [elements]. destruct (extend_order_ok (reversed s) i H) as [S1 P1].
  destruct (extend_loop_ok (reversed s) _ S1 (elements s) 0 S) as [S2 P2]; [lia|intros w _; constructor|]. split; [exact S2|].
  rewrite P2. apply Permutation_app_tail. exact P1.
Qed.

Lemma extend_self_long fuel r : forall i l bot, i < length l -> extend_self T lt fuel r i l bot = None.
Proof.
  induction fuel as [|fuel IH]; intros i l bot H; (assert (E : exists t, nth_error l i = Some t)
    by (destruct (nth_error l i) as [t|] eqn:E; [exists t; reflexivity|apply nth_error_None in E; lia])); destruct E as [t E];
    cbn [extend_self]; rewrite E; [reflexivity|].
  apply IH. unfold insert_at. rewrite app_length. cbn [length].
  pose proof (f_equal (@length T) (firstn_skipn (bisect T (length l) (before r t) l bot (length l)) l)) as Q. rewrite app_length in Q. lia.
Qed.

(** * The operations *)

Lemma step_ok s o : in_order (reversed s) (elements s) -> sound T U lt o ->
  let '(s', r) := step s o in allowed T U lt eqb key eqU s o r s' /\ in_order (reversed s') (elements s').
Proof.
  destruct s as [r l]. cbn [reversed elements]. intros S H. destruct o as [v|v|i|r'| |v|v|v|k|k]; cbn [SortedModel.step].
  - unfold add. cbn [elements with_elements]. destruct (split_value r l v S) as (a & b & -> & Ha & Hb). rewrite (relative_here r a b v Ha Hb), nth_hd.
    unfold with_elements. cbn [reversed elements]. destruct b as [|x b]; cbn [hd_error].
    + split.
      * rewrite app_nil_r. apply A_add_new; [|rewrite Permutation_mid, app_nil_r; reflexivity]. apply (eqb_first r). exact Ha.
      * pose proof (order_insert r a [] v S Ha Hb) as Q. rewrite app_nil_r. exact Q.
    + destruct (eqb x v) eqn:E.
      * rewrite replace_here. split.
        -- eapply A_add_over; [split; [exact E|apply Permutation_mid]|apply Permutation_mid].
        -- apply order_insert; [eapply ss_delete; exact S|exact Ha|]. inversion Hb; assumption.
      * rewrite insert_here. split; [|apply order_insert; assumption]. apply A_add_new; [|apply Permutation_mid]. apply (eqb_rest r); try assumption.
  - unfold remove. cbn [elements]. destruct (split_value r l v S) as (a & b & -> & Ha & Hb). rewrite (relative_here r a b v Ha Hb), nth_hd.
    destruct b as [|x b]; cbn [hd_error].
    + split; [|exact S]. apply A_remove_no. apply (eqb_rest r a [] v S Ha Hb I).
    + destruct (eqb x v) eqn:E.
      * rewrite delete_here. unfold with_elements. cbn [reversed elements]. split; [|eapply ss_delete; exact S].
        eapply A_remove. split; [exact E|apply Permutation_mid].
      * split; [|exact S]. apply A_remove_no. apply (eqb_rest r); assumption.
  - pose proof (extend_ok (Build_slist r l) i S) as Q. cbn [reversed elements] in Q. destruct Q as [S1 P1]; [destruct i; [exact I|exact H]|].
    split; [|exact S1]. apply A_extend. exact P1.
  - cbn [reversed elements]. destruct (Bool.eqb r r') eqn:E.
    + apply eqb_prop in E. subst r'. split; [|exact S]. apply A_reverse. reflexivity.
    + cbn [reversed elements]. split; [apply A_reverse; symmetry; apply Permutation_rev|]. apply eqb_false_iff in E. apply order_rev in S.
      replace r' with (negb r) by (revert E; clear; destruct r, r'; intros E; try reflexivity; destruct E; reflexivity). exact S.
  - unfold with_elements. cbn [reversed elements]. destruct (sorted_ok r l) as [S1 P1]. split; [apply A_resort; exact P1|exact S1].
  - unfold contains. cbn [elements]. destruct (split_value r l v S) as (a & b & -> & Ha & Hb). rewrite (relative_here r a b v Ha Hb), nth_hd.
    split; [|exact S]. apply A_contains. cbn [elements]. destruct b as [|x b]; cbn [hd_error].
    + split; [discriminate|]. intros Q. exfalso. apply (eqb_rest r a [] v S Ha Hb I). exact Q.
    + destruct (eqb x v) eqn:E; [split; [intros _|reflexivity]; exists x; split; [apply in_or_app; right; left; reflexivity|exact E]|].
      split; [discriminate|]. intros Q. exfalso. apply (eqb_rest r a (x :: b) v S Ha Hb E). exact Q.
  - unfold index. cbn [elements]. destruct (split_value r l v S) as (a & b & -> & Ha & Hb). rewrite (relative_here r a b v Ha Hb), nth_hd.
    split; [|exact S]. destruct b as [|x b]; cbn [hd_error].
    + apply A_index_no. cbn [elements]. apply (eqb_rest r a [] v S Ha Hb I).
    + destruct (eqb x v) eqn:E.
      * eapply A_index; [reflexivity|exact E|apply (eqb_first r); exact Ha].
      * apply A_index_no. cbn [elements]. apply (eqb_rest r a (x :: b) v S Ha Hb E).
  - destruct (split_value r l v S) as (a & b & -> & Ha & Hb). rewrite (relative_here r a b v Ha Hb). split; [|exact S].
    eapply A_relative; [reflexivity|exact Ha|exact Hb].
  - unfold get. cbn [elements]. destruct (split_key r l k S) as (a & b & -> & Ha & Hb). rewrite (keyed_here r a b k Ha Hb), nth_hd.
    split; [|exact S]. destruct b as [|x b]; cbn [hd_error].
    + apply A_get_no. cbn [elements]. apply (key_rest r a [] k S Ha Hb I).
    + destruct (eqU (key x) k) eqn:E; [apply A_get; [cbn [elements]; apply in_or_app; right; left; reflexivity|exact E]|].
      apply A_get_no. cbn [elements]. apply (key_rest r a (x :: b) k S Ha Hb E).
  - unfold pop. cbn [elements]. destruct (split_key r l k S) as (a & b & -> & Ha & Hb). rewrite (keyed_here r a b k Ha Hb), nth_hd.
    destruct b as [|x b]; cbn [hd_error].
    + split; [|exact S]. apply A_pop_no. cbn [elements]. apply (key_rest r a [] k S Ha Hb I).
    + destruct (eqU (key x) k) eqn:E.
      * rewrite delete_here. unfold with_elements. cbn [reversed elements]. split; [|eapply ss_delete; exact S].
        apply A_pop. split; [exact E|apply Permutation_mid].
      * split; [|exact S]. apply A_pop_no. cbn [elements]. apply (key_rest r a (x :: b) k S Ha Hb E).
Qed.

Theorem histories os : Forall (sound T U lt) os -> forall s, in_order (reversed s) (elements s) ->
  let '(s', rs) := run s os in history T U lt eqb key eqU s os rs s'.
Proof.
  induction 1 as [|o os Ho _ IH]; intros s S; [constructor|]. cbn [SortedModel.run]. pose proof (step_ok s o S Ho) as Q. destruct (step s o) as [s1 r].
  destruct Q as [A S1]. specialize (IH s1 S1). destruct (run s1 os) as [s2 rs]. econstructor; eassumption.
Qed.

Theorem init_ok i r : match i with Some (Sorted_list s) => in_order (reversed s) (elements s) | _ => True end ->
  reversed (init T lt i r) = r /\ in_order r (elements (init T lt i r)) /\
  Permutation (elements (init T lt i r)) (match i with None => [] | Some i => all_of T i end).
Proof.
  destruct i as [i|]; intros H; [|repeat split; constructor]. cbn [init with_elements reversed elements]. split; [reflexivity|].
  destruct (sorted_ok r (elements (extend T lt (Build_slist r []) i))) as [S P]. split; [exact S|]. rewrite P.
  destruct (extend_ok (Build_slist r []) i) as [_ P1]; [constructor|destruct i; [exact I|exact H]|]. cbn [elements] in P1. rewrite app_nil_r in P1. exact P1.
Qed.
End Proofs.
