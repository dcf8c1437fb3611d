From Coq Require Import List Arith Bool NArith Lia.
From Verif Require Import Bytes ReadModel ReadSpec.
Import ListNotations.

(** * C18 *)

Lemma serves_app : forall d l1 d1 l2 d2, serves d l1 d1 -> serves d1 l2 d2 -> serves d (l1 ++ l2) d2.
Proof.
  intros d l1 d1 l2 d2 H. revert l2 d2. induction H as [|d r a d1 l d2 H1 H2 IH]; intros l2 d3 H3; cbn.
  - exact H3.
  - econstructor; [exact H1|]. apply IH. exact H3.
Qed.

Definition chunks_ok (cs : list bytes) : Prop := Forall (fun c => c <> []) cs.
Definition off_ok (cs : list bytes) (o : nat) : Prop :=
  match cs with [] => o = 0 | c :: _ => o < length c end.

Lemma nonempty_len : forall c : bytes, c <> [] -> 0 < length c.
Proof. intros [|x c] H; [congruence|cbn; lia]. Qed.

Lemma exact_loop_spec : forall cs n o, 0 < n -> chunks_ok cs ->
  match exact_loop n cs o with
  | Fin out r o' => concat cs = out ++ unread r o' /\ length out = n /\ chunks_ok r /\ off_ok r o'
  | Wait out k o' => exists m, k = WExactLoop m /\ out = concat cs /\ 0 < m /\ length out + m = n /\ o' = o
  end.
Proof.
  induction cs as [|c cs IH]; intros n o Hn Hc; cbn [exact_loop concat].
  - exists n. csplit; auto.
  - inversion Hc as [|? ? Hc1 Hc2]. subst. apply nonempty_len in Hc1.
    destruct (Nat.ltb_spec (length c) n) as [L|L].
    + specialize (IH (n - length c) o ltac:(lia) Hc2).
      destruct (exact_loop (n - length c) cs o) as [out r o'|out k o'].
      * destruct IH as (A & B & C & D). rewrite A, app_length. split; [apply app_assoc|]. split; [lia|]. auto.
      * destruct IH as (m & A & B & C & D & E). exists m. subst. rewrite app_length. csplit; auto. lia.
    + destruct (Nat.eqb_spec (length c) n) as [E|E].
      * csplit; auto.
        -- destruct cs as [|x cs]; cbn; rewrite ?app_nil_r; reflexivity.
        -- destruct cs as [|x cs]; [reflexivity|]. cbn. inversion Hc2. subst. apply nonempty_len; assumption.
      * cbn. csplit.
        -- rewrite app_assoc, firstn_skipn. reflexivity.
        -- apply firstn_length_le. lia.
        -- constructor; auto. intro Q. subst. cbn in *. lia.
        -- lia.
Qed.

Lemma off_ok_zero : forall cs, chunks_ok cs -> off_ok cs 0.
Proof. intros [|c cs] H; cbn; auto. inversion H. apply nonempty_len. assumption. Qed.

Lemma unread_zero : forall cs, unread cs 0 = concat cs.
Proof. intros [|c cs]; reflexivity. Qed.

Lemma exact_first_spec : forall n c cs o, 0 < n -> chunks_ok (c :: cs) -> o < length c ->
  match exact_first n c cs o o with
  | Fin out r o' => unread (c :: cs) o = out ++ unread r o' /\ length out = n /\ chunks_ok r /\ off_ok r o'
  | Wait out k o' => exists m, k = WExactLoop m /\ out = unread (c :: cs) o /\ 0 < m /\ length out + m = n /\ o' = o
  end.
Proof.
  intros n c cs o Hn Hc Ho. unfold exact_first. cbn [unread].
  inversion Hc as [|? ? Hc1 Hc2]; subst.
  destruct (Nat.eqb_spec o 0) as [->|No].
  - cbn [skipn]. destruct (Nat.ltb_spec n (length c)).
    + cbn [unread]. csplit; auto.
      * rewrite app_assoc, firstn_skipn. reflexivity.
      * apply firstn_length_le. lia.
    + destruct (Nat.eqb_spec (length c) n).
      * csplit; auto.
        -- rewrite unread_zero. reflexivity.
        -- apply off_ok_zero. assumption.
      * generalize (exact_loop_spec cs (n - length c) 0 ltac:(lia) Hc2).
        destruct (exact_loop (n - length c) cs 0) as [out r o'|out k o']; cbn [prepend].
        -- intros (A & B & C & D). csplit; auto. rewrite A, app_assoc. reflexivity. rewrite app_length. lia.
        -- intros (m & A & B & C & D & E). exists m. subst. csplit; auto. rewrite app_length. lia.
  - destruct (Nat.ltb_spec (o + n) (length c)).
    + cbn [unread]. csplit; auto.
      * rewrite app_assoc. f_equal. rewrite <- (firstn_skipn n (skipn o c)) at 1. f_equal. apply skipn_add.
      * apply firstn_length_le. rewrite skipn_length. lia.
    + destruct (Nat.eqb_spec (length c) (o + n)).
      * csplit; auto.
        -- rewrite unread_zero. reflexivity.
        -- rewrite skipn_length. lia.
        -- apply off_ok_zero. assumption.
      * generalize (exact_loop_spec cs (o + n - length c) o ltac:(lia) Hc2).
        destruct (exact_loop (o + n - length c) cs o) as [out r o'|out k o']; cbn [prepend].
        -- intros (A & B & C & D). csplit; auto. rewrite A, app_assoc. reflexivity. rewrite app_length, skipn_length. lia.
        -- intros (m & A & B & C & D & E). exists m. subst. csplit; auto. rewrite app_length, skipn_length in *. lia.
Qed.

(** What a reader in progress still has to do. *)
Definition reader_ok (r : request) (k : susp) (acc : bytes) (o : nat) : Prop :=
  match k with
  | WExactFirst m => (r = RExact m \/ r = RUpTo m) /\ acc = [] /\ o = 0 /\ 0 < m
  | WExactLoop m => 0 < m /\ (r = RExact (length acc + m) \/ r = RUpTo (length acc + m))
  | WAll => r = RAll /\ o = 0
  | WOnce => r = ROnce /\ acc = [] /\ o = 0
  | WUntil _ _ _ => False
  end.

Record inv (w : world) : Prop := {
  i_failed : w_failed w = false;
  i_aborted : w_aborted w = false;
  i_chunks : chunks_ok (w_chunks w);
  i_idle : w_reader w = None -> w_acc w = [] /\ (w_chunks w <> [] \/ w_eof w = false -> off_ok (w_chunks w) (w_offset w));
  i_busy : forall r k, w_reader w = Some (r, k) ->
    w_eof w = false /\ w_chunks w = [] /\ reader_ok r k (w_acc w) (w_offset w)
}.

Definition left_of (w : world) : bytes := w_acc w ++ unread (w_chunks w) (w_offset w).

Lemma inv_init : inv init.
Proof. split; cbn; auto; try constructor; auto. discriminate. Qed.

(** Completion of a read of the right number of bytes. *)
Lemma serves1_len : forall r n x d, r = RExact n \/ r = RUpTo n -> length x = n -> serves1 (x ++ d) r (AData x) d.
Proof. intros r n x d [-> | ->] <-; constructor. Qed.

Lemma settle_fin : forall w r acc out cs o, inv w -> chunks_ok cs -> off_ok cs o ->
  let '(w', l) := settle w r acc (Fin out cs o) in
  inv w' /\ w_eof w' = w_eof w /\ l = [(r, AData (acc ++ out))] /\ left_of w' = unread cs o.
Proof.
  intros w r acc out cs o I Hc Ho. cbn. rewrite (i_aborted w I). cbn. split; [|csplit; reflexivity].
  split; cbn; auto using i_failed. discriminate.
Qed.

Lemma settle_wait : forall w r acc out k o, inv w -> reader_ok r k (acc ++ out) o ->
  let '(w', l) := settle w r acc (Wait out k o) in
  inv w' /\ w_eof w' = w_eof w /\
  if w_eof w then l = [(r, eof_answer r (acc ++ out))] /\ left_of w' = []
  else l = [] /\ left_of w' = acc ++ out.
Proof.
  intros w r acc out k o I R. cbn. destruct (w_eof w) eqn:E.
  - rewrite (i_aborted w I). cbn. split; [|csplit; reflexivity].
    constructor; cbn.
    + apply I.
    + reflexivity.
    + constructor.
    + intros _. split; [reflexivity|]. intros [Q|Q]; [congruence|discriminate].
    + discriminate.
  - cbn. split; [|csplit; auto].
    + constructor; cbn.
      * apply I.
      * apply I.
      * constructor.
      * discriminate.
      * intros r0 k0 Q. injection Q as <- <-. auto.
    + unfold left_of. cbn. rewrite app_nil_r. reflexivity.
Qed.

(** The end of the stream answers a pending read. *)
Lemma eof_serves : forall r k acc o, reader_ok r k acc o -> serves1 acc r (eof_answer r acc) [].
Proof.
  intros r k acc o R. destruct k; cbn in R.
  - destruct R as ([-> | ->] & -> & _ & H); cbn; constructor; cbn; auto.
  - destruct R as (H & [-> | ->]); cbn; constructor; lia.
  - contradiction.
  - destruct R as [-> _]. cbn. constructor.
  - destruct R as (-> & -> & _). cbn. constructor.
Qed.

Definition good_more (w : world) (more : bytes) : Prop := w_eof w = true -> more = [].

(** Outcome of running a reader on the chunks [cs], [d] being the bytes it had to look at. *)
Definition outcome_ok (r : request) (acc d : bytes) (x : outcome) : Prop :=
  match x with
  | Fin out cs o => chunks_ok cs /\ off_ok cs o /\ forall more, serves1 (acc ++ d ++ more) r (AData (acc ++ out)) (unread cs o ++ more)
  | Wait out k o => out = d /\ reader_ok r k (acc ++ out) o
  end.

Lemma settle_ok : forall w r acc d x, inv w -> outcome_ok r acc d x ->
  let '(w', l) := settle w r acc x in
  inv w' /\ w_eof w' = w_eof w /\ accepted l = l /\
  forall more, good_more w more -> serves (acc ++ d ++ more) l (left_of w' ++ more).
Proof.
  intros w r acc d x I H. destruct x as [out cs o|out k o]; cbn [outcome_ok] in H.
  - destruct H as (A & B & C). generalize (settle_fin w r acc out cs o I A B).
    destruct (settle w r acc (Fin out cs o)) as [w' l]. intros (I' & E & -> & ->). csplit; auto.
    intros more _. econstructor; [apply C|constructor].
  - destruct H as (-> & R). generalize (settle_wait w r acc d k o I R).
    destruct (settle w r acc (Wait d k o)) as [w' l]. intros (I' & E & F). unfold good_more. destruct (w_eof w) eqn:G.
    + destruct F as [-> ->]. csplit; auto.
      * cbn. destruct r; reflexivity.
      * intros more M. rewrite (M eq_refl), !app_nil_r. econstructor; [|constructor]. apply (eof_serves r k _ o). exact R.
    + destruct F as [-> ->]. csplit; auto. intros more _. rewrite app_assoc. constructor.
Qed.

Lemma start_ok : forall w r, inv w -> w_reader w = None -> plain_request r = true -> trivial r = false ->
  outcome_ok r [] (unread (w_chunks w) (w_offset w)) (start r (w_chunks w) (w_offset w)) \/
  (w_chunks w = [] /\ w_eof w = true).
Proof.
  intros w r I N P T. destruct (i_idle w I N) as [_ O]. generalize (i_chunks w I). intro HC.
  destruct (w_chunks w) as [|c cs] eqn:EC.
  - destruct (w_eof w); [right; auto|]. left. specialize (O (or_intror eq_refl)). cbn in O. rewrite O.
    destruct r; cbn in P, T |- *; try discriminate; try (apply Nat.eqb_neq in T); csplit; auto; lia.
  - left. assert (NE : c :: cs <> []) by discriminate. specialize (O (or_introl NE)). cbn [off_ok] in O.
    assert (X : forall n, 0 < n -> (r = RExact n \/ r = RUpTo n) ->
      outcome_ok r [] (unread (c :: cs) (w_offset w)) (exact_start n (c :: cs) (w_offset w))).
    { intros n Hn R. cbn [exact_start]. generalize (exact_first_spec n c cs (w_offset w) Hn HC O).
      destruct (exact_first n c cs (w_offset w) (w_offset w)) as [out r' o'|out k o']; cbn [outcome_ok].
      - intros (A & B & C & D). csplit; auto. intro more. rewrite A. cbn [app]. rewrite <- app_assoc.
        apply serves1_len with n; auto.
      - intros (m & A & B & C & D & E). subst. cbn [app]. split; auto. cbn. split; auto. }
    destruct r as [n|n| | |b]; cbn in P, T; try discriminate; cbn [start].
    + apply Nat.eqb_neq in T. apply X; auto. lia.
    + apply Nat.eqb_neq in T. apply X; auto. lia.
    + cbn. split; auto.
    + cbn. inversion HC. subst. csplit; auto using off_ok_zero. intro more.
      rewrite unread_zero, <- app_assoc. constructor. intro Q. apply (f_equal (@length _)) in Q. rewrite skipn_length in Q. cbn in Q. lia.
Qed.

Lemma resume_ok : forall r k acc o (d : bytes), reader_ok r k acc o -> d <> [] -> outcome_ok r acc d (resume k d o).
Proof.
  intros r k acc o d R Hd. assert (HD := nonempty_len d Hd). destruct k; cbn in R; cbn [resume].
  - destruct R as (R & -> & -> & Hn). generalize (exact_first_spec n d [] 0 Hn ltac:(constructor; [auto|constructor]) HD).
    destruct (exact_first n d [] 0 0) as [out r' o'|out k o']; cbn [outcome_ok unread concat skipn].
    + rewrite app_nil_r. intros (A & B & C & D). csplit; auto. intro more. rewrite A. cbn [app]. rewrite <- app_assoc. apply serves1_len with n; auto.
    + rewrite app_nil_r. intros (m & A & B & C & D & E). subst. split; auto. cbn. split; auto.
  - destruct R as (Hn & R). generalize (exact_loop_spec [d] n o Hn ltac:(constructor; [auto|constructor])).
    destruct (exact_loop n [d] o) as [out r' o'|out k o']; cbn [outcome_ok concat]; rewrite app_nil_r.
    + intros (A & B & C & D). csplit; auto. intro more. rewrite A. rewrite <- app_assoc, (app_assoc acc). apply serves1_len with (length acc + n); auto. rewrite app_length. lia.
    + intros (m & A & B & C & D & E). subst. split; auto. cbn. split; auto. rewrite app_length.
      replace (length acc + length d + m) with (length acc + (length d + m)) by lia. auto.
  - contradiction.
  - destruct R as [-> ->]. cbn. auto.
  - destruct R as (-> & -> & ->). cbn. csplit; [constructor|reflexivity|intro more; constructor; assumption].
Qed.

Definition op_data (x : op) : bytes := match x with OData d => d | _ => [] end.

Lemma concat_snoc : forall (l : list bytes) d, concat (l ++ [d]) = concat l ++ d.
Proof. intros. rewrite concat_app. cbn. rewrite app_nil_r. reflexivity. Qed.

Lemma trivial_serves : forall r d, plain_request r = true -> trivial r = true -> serves1 d r (AData []) d.
Proof.
  intros r d P T. destruct r; cbn in P, T; try discriminate; apply Nat.eqb_eq in T; subst.
  - apply (S_exact []).
  - apply (S_upto []).
Qed.

Lemma step_inv : forall w x, inv w -> plain_op x = true -> (w_eof w = true -> op_data x = []) ->
  (w_eof w = true -> match x with OData _ => False | _ => True end) ->
  let '(w', l) := step w x in
  inv w' /\ w_eof w' = (w_eof w || match x with OEof => true | _ => false end) /\
  forall more, good_more w' more -> serves (left_of w ++ op_data x ++ more) (accepted l) (left_of w' ++ more).
Proof.
  intros w x I P _ E. destruct x as [d| | |r| |]; cbn in P; try discriminate; cbn [step op_data].
  - assert (EF : w_eof w = false) by (destruct (w_eof w); [destruct (E eq_refl)|reflexivity]).
    destruct (Nat.eqb_spec (length d) 0) as [Z|Z].
    { destruct d; [|discriminate]. csplit; try apply I. now rewrite orb_false_r. intros more M. constructor. }
    assert (Hd : d <> []) by (intro; subst; auto).
    destruct (w_reader w) as [[r k]|] eqn:ER.
    + destruct (i_busy w I r k ER) as (_ & EC & R).
      generalize (settle_ok w r (w_acc w) d _ I (resume_ok r k (w_acc w) (w_offset w) d R Hd)).
      destruct (settle w r (w_acc w) (resume k d (w_offset w))) as [w' l]. intros (I' & E' & A & S). csplit; try apply I'.
      * rewrite E', orb_false_r. reflexivity.
      * intros more M. rewrite A. unfold left_of at 1. rewrite EC. cbn [unread]. rewrite app_nil_r. apply S.
        unfold good_more in *. rewrite E' in M. exact M.
    + destruct (i_idle w I ER) as [HA O]. rewrite EF in *. split; [|split].
      * split; cbn.
        -- apply I.
        -- apply I.
        -- apply Forall_app. split; [apply I|]. constructor; [assumption|constructor].
        -- intros _. split; auto. intros _. destruct (w_chunks w) as [|c cs]; cbn.
           ++ specialize (O (or_intror eq_refl)). cbn in O. rewrite O. apply nonempty_len. assumption.
           ++ apply O. auto.
        -- discriminate.
      * reflexivity.
      * intros more M. cbn. unfold left_of. cbn. rewrite HA. cbn. destruct (w_chunks w) as [|c cs] eqn:EC; cbn.
        -- specialize (O (or_intror eq_refl)). cbn in O. rewrite O. cbn. rewrite app_nil_r. constructor.
        -- rewrite concat_snoc, <- !app_assoc. constructor.
  - destruct (w_reader w) as [[r k]|] eqn:ER.
    + destruct (i_busy w I r k ER) as (EF & EC & R). rewrite EC, (i_aborted w I). split; [|split].
      * split; cbn; auto using i_failed; try constructor; try discriminate. reflexivity. intros [Q|Q]; [congruence|discriminate].
      * cbn. rewrite orb_true_r. reflexivity.
      * intros more M. rewrite (M eq_refl). cbn [app]. unfold left_of. rewrite EC. cbn [unread w_acc w_chunks w_offset emit]. rewrite !app_nil_r.
        replace (accepted [(r, eof_answer r (w_acc w))]) with [(r, eof_answer r (w_acc w))] by (destruct r; reflexivity).
        econstructor; [|constructor]. apply (eof_serves r k _ (w_offset w)). assumption.
    + destruct (i_idle w I ER) as [HA O]. split; [|split].
      * split; cbn; try apply I; try discriminate. intros _. split; auto. intros [Q|Q]; [apply O; auto|discriminate].
      * cbn. rewrite orb_true_r. reflexivity.
      * intros more M. cbn. unfold left_of. cbn. constructor.
  - destruct (trivial r) eqn:T.
    { rewrite (i_failed w I). csplit; try apply I. now rewrite orb_false_r. intros more M. cbn.
      econstructor; [apply trivial_serves; assumption|constructor]. }
    destruct (w_reader w) as [[r0 k]|] eqn:ER.
    { csplit; try apply I. now rewrite orb_false_r. intros more M. cbn. constructor. }
    rewrite (i_failed w I). destruct (i_idle w I ER) as [HA O].
    set (w0 := mk_world (w_chunks w) (w_offset w) (w_eof w) false None [] false).
    assert (I0 : inv w0).
    { split; cbn; auto using i_chunks. discriminate. }
    destruct (start_ok w r I ER P T) as [OK|[EC EE]].
    + generalize (settle_ok w0 r [] _ _ I0 OK). destruct (settle w0 r [] (start r (w_chunks w) (w_offset w))) as [w' l].
      intros (I' & E' & A & S). split; [|split]; auto.
      * rewrite E'. cbn. now rewrite orb_false_r.
      * intros more M. rewrite A. unfold left_of at 1. rewrite HA. cbn [app]. apply S. unfold good_more in *. rewrite E' in M. exact M.
    + rewrite EC. assert (Q : exists k o, start r [] (w_offset w) = Wait [] k o) by (destruct r; cbn; eauto).
      destruct Q as (k & o & Q). rewrite Q. cbn [settle w0 w_eof]. rewrite EE. cbn [w_failed w_aborted emit app]. split; [|split].
      * split; cbn; auto; try constructor; try discriminate; auto. intros [X|X]; congruence.
      * reflexivity.
      * intros more M. unfold good_more in M. cbn in M. rewrite (M eq_refl). unfold left_of. rewrite HA, EC. cbn [unread w_acc w_chunks w_offset app].
        change (emit (w_aborted w0) r (eof_answer r [])) with [(r, eof_answer r [])].
        replace (accepted [(r, eof_answer r [])]) with [(r, eof_answer r [])] by (destruct r; reflexivity).
        econstructor; [|constructor]. destruct r; cbn in T, P |- *; try discriminate; try (apply Nat.eqb_neq in T); constructor; cbn; lia.
Qed.

Lemma exec_inv : forall ops w, inv w -> forallb plain_op ops = true -> data_ends (w_eof w) ops = true ->
  let '(w', l) := exec w ops in
  inv w' /\ (w_eof w = true -> w_eof w' = true) /\
  forall more, good_more w' more -> serves (left_of w ++ received ops ++ more) (accepted l) (left_of w' ++ more).
Proof.
  induction ops as [|x ops IH]; intros w I P D; cbn [exec].
  - split; [|split]; auto. intros more _. constructor.
  - cbn [forallb] in P. apply andb_true_iff in P. destruct P as [P1 P2].
    assert (N : w_eof w = true -> match x with OData _ => False | _ => True end).
    { intro Q. rewrite Q in D. destruct x; auto. cbn in D. discriminate. }
    assert (N' : w_eof w = true -> op_data x = []).
    { intro Q. apply N in Q. destruct x; cbn; auto. contradiction. }
    generalize (step_inv w x I P1 N' N). destruct (step w x) as [w1 l1]. intros (I1 & E1 & S1).
    assert (D1 : data_ends (w_eof w1) ops = true).
    { rewrite E1. destruct x; cbn in D |- *; try (apply andb_true_iff in D; destruct D); rewrite ?orb_false_r, ?orb_true_r; auto. }
    specialize (IH w1 I1 P2 D1). destruct (exec w1 ops) as [w2 l2]. destruct IH as (I2 & E3 & S2). split; [|split]; auto.
    { intro Q. apply E3. rewrite E1, Q. reflexivity. }
    intros more M.
    assert (E2 : w_eof w1 = true -> received ops = []).
    { intro Q. rewrite Q in D1. clear - D1. induction ops as [|x ops IH]; [reflexivity|].
      unfold received in *. cbn. destruct x; cbn in D1; try discriminate; cbn; auto. }
    unfold accepted in *. rewrite filter_app. apply serves_app with (left_of w1 ++ received ops ++ more).
    + assert (R : received (x :: ops) = op_data x ++ received ops) by reflexivity.
      rewrite R, <- app_assoc. apply S1. intro Q. rewrite (E2 Q). cbn. apply M. apply E3. exact Q.
    + apply S2. assumption.
Qed.

Lemma served : forall ops, plain ops ->
  let '(w, l) := exec init ops in
  forall more, (w_eof w = true -> more = []) ->
  serves (received ops ++ more) (accepted l) (w_acc w ++ unread (w_chunks w) (w_offset w) ++ more).
Proof.
  intros ops [P D]. generalize (exec_inv ops init inv_init P D). destruct (exec init ops) as [w l].
  intros (_ & _ & S) more M. specialize (S more M). unfold left_of in S. cbn in S. rewrite <- app_assoc in S. exact S.
Qed.

Definition deterministic (r : request) : Prop := r <> ROnce.

Lemma app_len_inj : forall (x y a b : bytes), x ++ a = y ++ b -> length x = length y -> x = y /\ a = b.
Proof.
  induction x as [|p x IH]; intros [|q y] a b H L; cbn in *; try discriminate; auto.
  injection H as -> H. injection L as L. destruct (IH y a b H L) as [-> ->]. auto.
Qed.

Lemma serves1_det : forall d r a1 d1, serves1 d r a1 d1 -> forall a2 d2, serves1 d r a2 d2 -> r <> ROnce -> a1 = a2 /\ d1 = d2.
Proof.
  intros d r a1 d1 H1 a2 d2 H2 N. destruct H1; inversion H2; subst; try congruence; auto;
    try (rewrite app_length in *; lia).
  - match goal with H : _ ++ _ = _ ++ _ |- _ => apply app_len_inj in H; [destruct H as [-> ->]; auto|lia] end.
  - match goal with H : _ ++ _ = _ ++ _ |- _ => apply app_len_inj in H; [destruct H as [-> ->]; auto|lia] end.
Qed.

Lemma serves_det : forall d l1 d1, serves d l1 d1 -> forall l2 d2, serves d l2 d2 -> map fst l1 = map fst l2 ->
  Forall deterministic (map fst l1) -> l1 = l2 /\ d1 = d2.
Proof.
  intros d l1 d1 H. induction H as [d|d r a d1 l d2 H1 H2 IH]; intros l2 d3 H3 E F; inversion H3; subst; cbn in E; try discriminate; auto.
  injection E as <- E. cbn in F. inversion F; subst. destruct (serves1_det _ _ _ _ H1 _ _ H H6) as [-> ->].
  destruct (IH _ _ H0 E H7) as [-> ->]. auto.
Qed.

(** Two segmentations (and two timings) of the same stream give the same answers. *)
Lemma segmentation_independent : forall ops1 ops2, plain ops1 -> plain ops2 -> received ops1 = received ops2 ->
  let l1 := accepted (snd (exec init ops1)) in let l2 := accepted (snd (exec init ops2)) in
  map fst l1 = map fst l2 -> Forall deterministic (map fst l1) -> l1 = l2.
Proof.
  intros ops1 ops2 P1 P2 E. generalize (served ops1 P1) (served ops2 P2).
  destruct (exec init ops1) as [w1 l1]. destruct (exec init ops2) as [w2 l2]. cbn. intros S1 S2 M F.
  specialize (S1 [] (fun _ => eq_refl)). specialize (S2 [] (fun _ => eq_refl)). rewrite !app_nil_r in S1, S2. rewrite E in S1.
  apply (serves_det _ _ _ S1 _ _ S2 M F).
Qed.

(** A read does not wait for more than it asked for. *)
Lemma no_needless_wait : forall ops, plain ops -> let w := fst (exec init ops) in
  forall r k, w_reader w = Some (r, k) ->
  w_chunks w = [] /\ w_eof w = false /\
  match r with RExact n | RUpTo n => length (w_acc w) < n | ROnce => w_acc w = [] | _ => True end.
Proof.
  intros ops [P D]. generalize (exec_inv ops init inv_init P D). destruct (exec init ops) as [w l].
  intros (I & _ & _). cbn. intros r k R. destruct (i_busy w I r k R) as (A & B & C). split; auto. split; auto.
  destruct k; cbn in C.
  - destruct C as ([-> | ->] & -> & _ & H); cbn; lia.
  - destruct C as (H & [-> | ->]); lia.
  - contradiction.
  - destruct C as [-> _]. exact Logic.I.
  - destruct C as (-> & -> & _). reflexivity.
Qed.
