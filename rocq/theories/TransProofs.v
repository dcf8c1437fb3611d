From Coq Require Import List Arith Bool Lia NArith.
From Verif Require Import Bytes TransModel TransSpec.
Import ListNotations.

Definition good (c : chunk) : Prop := width c = 1 /\ content c <> [].

Lemma len_plain c : width c = 1 -> len c = length (content c).
Proof. intros H. unfold len. rewrite H. apply Nat.div_1_r. Qed.
Lemma drop_plain c n : width c = 1 -> content (drop n c) = skipn n (content c).
Proof. intros H. cbn. now rewrite H, Nat.mul_1_r. Qed.
Lemma drop_good c n : good c -> n < length (content c) -> good (drop n c).
Proof.
  intros [W C] L. split; [exact W|]. rewrite drop_plain by assumption. intros E. apply (f_equal (@length _)) in E. rewrite skipn_length in E. cbn in E. lia.
Qed.

Lemma size_shift b n : fold_left (fun n c => n + len c) b n = n + size b.
Proof. unfold size. revert n; induction b as [|c b IH]; intros n; cbn; [lia|]. rewrite IH, (IH (len c)). lia. Qed.
Lemma size_cons c b : size (c :: b) = len c + size b.
Proof. unfold size at 1. cbn. now rewrite size_shift. Qed.
Lemma size_good b : b <> [] -> Forall good b -> 0 < size b.
Proof.
  destruct b as [|c b]; [easy|]. intros _ F. inversion F; subst. destruct H1 as [W C]. rewrite size_cons, len_plain by assumption.
  destruct (content c); [easy|cbn; lia].
Qed.

Lemma bytes_app a b : bytes_of (a ++ b) = bytes_of a ++ bytes_of b.
Proof. apply flat_map_app. Qed.

Lemma advance_spec b : forall n, Forall good b -> n <= length (bytes_of b) -> bytes_of (advance b n) = skipn n (bytes_of b) /\ Forall good (advance b n).
Proof.
  induction b as [|c b IH]; intros n F L; cbn [advance]; [cbn in L; replace n with 0 by lia; now split|].
  inversion F; subst. destruct H1 as [W C]. rewrite (len_plain c W). change (bytes_of (c :: b)) with (content c ++ bytes_of b) in *.
  rewrite app_length in L. rewrite skipn_app. destruct (Nat.ltb n (length (content c))) eqn:E.
  - apply Nat.ltb_lt in E. split.
    + change (bytes_of (drop n c :: b)) with (content (drop n c) ++ bytes_of b). rewrite drop_plain by assumption.
      now replace (n - length (content c)) with 0 by lia.
    + constructor; [apply drop_good; [now split|assumption]|assumption].
  - apply Nat.ltb_ge in E. rewrite (skipn_all2 (content c)) by lia. destruct (Nat.eqb (length (content c)) n) eqn:Q.
    + apply Nat.eqb_eq in Q. rewrite Q, Nat.sub_diag. now split.
    + apply IH; [assumption|lia].
Qed.

Lemma advance_one c b n : Forall good (c :: b) -> n <= length (content c) ->
  let b' := if Nat.leb (len c) n then b else drop n c :: b in bytes_of b' = skipn n (bytes_of (c :: b)) /\ Forall good b'.
Proof.
  intros F L. inversion F; subst. destruct H1 as [W C]. rewrite (len_plain c W). change (bytes_of (c :: b)) with (content c ++ bytes_of b).
  rewrite skipn_app. destruct (Nat.leb (length (content c)) n) eqn:E.
  - apply Nat.leb_le in E. replace n with (length (content c)) by lia. rewrite skipn_all, Nat.sub_diag. now split.
  - apply Nat.leb_gt in E. replace (n - length (content c)) with 0 by lia. split.
    + change (bytes_of (drop n c :: b)) with (content (drop n c) ++ bytes_of b). now rewrite drop_plain.
    + constructor; [apply drop_good; [now split|assumption]|assumption].
Qed.

(** Which chunks remain after [n] of the offered bytes were taken. *)
Definition offered_of (limit : nat) (s : state) : bytes := bytes_of (firstn (match limit with 0 => 1 | _ => limit end) (buffer s)).
Definition left_of (limit : nat) (s : state) (n : nat) : list chunk :=
  if Nat.eqb n 0 then buffer s
  else match limit with
       | 0 => match buffer s with [] => [] | data :: b' => if Nat.leb (len data) n then b' else drop n data :: b' end
       | _ => advance (buffer s) n
       end.

Lemma offered_split limit s : exists rest, bytes_of (buffer s) = offered_of limit s ++ rest.
Proof.
  unfold offered_of. set (l := match limit with 0 => 1 | _ => limit end). exists (bytes_of (skipn l (buffer s))). now rewrite <- bytes_app, firstn_skipn.
Qed.

Lemma left_spec limit s n : Forall good (buffer s) -> n <= length (offered_of limit s) ->
  firstn n (offered_of limit s) ++ bytes_of (left_of limit s n) = bytes_of (buffer s) /\ Forall good (left_of limit s n).
Proof.
  intros F L. destruct (offered_split limit s) as [rest R]. unfold left_of.
  assert (X : forall b, bytes_of b = skipn n (bytes_of (buffer s)) -> firstn n (offered_of limit s) ++ bytes_of b = bytes_of (buffer s)).
  { intros b ->. rewrite R. rewrite skipn_app. replace (n - length (offered_of limit s)) with 0 by lia. cbn [skipn]. now rewrite app_assoc, firstn_skipn. }
  destruct (Nat.eqb n 0) eqn:E.
  - apply Nat.eqb_eq in E as ->. split; [apply X; reflexivity|assumption].
  - apply Nat.eqb_neq in E. destruct limit as [|limit].
    + destruct (buffer s) as [|c b] eqn:B.
      * split; [|constructor]. unfold offered_of. rewrite B. cbn. now destruct n.
      * unfold offered_of in L. rewrite B in L. cbn in L. rewrite app_nil_r in L.
        destruct (advance_one c b n F L) as [A G]. split; [apply X; exact A|exact G].
    + assert (L2 : n <= length (bytes_of (buffer s))) by (rewrite R, app_length; lia).
      destruct (advance_spec (buffer s) n F L2) as [A G]. split; [apply X; exact A|exact G].
Qed.

(** * The invariant *)

Fixpoint calls_ok (l : list call) : Prop :=
  match l with
  | [] => True
  | Pause_writing :: l' => told l' = false /\ calls_ok l' /\ (forall e, ~ In (Connection_lost e) l')
  | Resume_writing :: l' => told l' = true /\ calls_ok l' /\ (forall e, ~ In (Connection_lost e) l')
  | Connection_lost _ :: l' => calls_ok l' /\ (forall e, ~ In (Connection_lost e) l')
  end.

Definition full (b : list chunk) : bool := match b with [] => false | _ => true end.

Record inv (s : state) (d : bytes) : Prop := {
  i_good : Forall good (buffer s);
  i_writer : writer s = full (buffer s);
  i_sock : socket s = protocol s;
  i_gone : socket s = false -> closing s = true /\ buffer s = [];
  i_lost : lost s = true -> closing s = true /\ buffer s = [];
  i_data : lost s = false -> socket s = true -> d = sent s ++ bytes_of (buffer s);
  i_prefix : prefix (sent s) d;
  i_soon : soon s <> [] -> lost s = true;
  i_due : lost s = true -> protocol s = true -> soon s <> [];
  i_shut : shut s = true -> at_eof s = true /\ buffer s = [];
  i_calls : calls_ok (calls s);
  i_live : protocol s = true -> told (calls s) = paused s /\ forall e, ~ In (Connection_lost e) (calls s);
  i_dead : protocol s = false -> exists e, In (Connection_lost e) (calls s);
  i_limits : low s <= high s;
  i_high : lost s = false -> paused s = false -> size (buffer s) <= high s;
  i_paused : lost s = false -> protocol s = true -> paused s = true -> buffer s <> [];
  i_ending : closing s = true -> lost s = false -> protocol s = true -> buffer s <> []
}.

Lemma prefix_refl {A} (a : list A) : prefix a a.
Proof. exists []. now rewrite app_nil_r. Qed.
Lemma prefix_app {A} (a b : list A) : prefix a (a ++ b).
Proof. now exists b. Qed.
Lemma prefix_trans {A} (a b c : list A) : prefix a b -> prefix b c -> prefix a c.
Proof. intros [x ->] [y ->]. exists (x ++ y). now rewrite app_assoc. Qed.

Arguments default_high : simpl never.
Arguments default_low : simpl never.

Lemma initial_inv : inv initial [].
Proof.
  split; try easy.
  - constructor.
  - now exists [].
  - apply Nat.pow_le_mono_r; lia.
  - intros _ _. apply Nat.le_0_l.
Qed.

(** ** Pausing keeps it *)

Lemma maybe_pause_inv s d :
  Forall good (buffer s) -> writer s = full (buffer s) -> socket s = protocol s -> (socket s = false -> closing s = true /\ buffer s = []) ->
  (lost s = true -> closing s = true /\ buffer s = []) -> (lost s = false -> socket s = true -> d = sent s ++ bytes_of (buffer s)) ->
  prefix (sent s) d -> (soon s <> [] -> lost s = true) -> (lost s = true -> protocol s = true -> soon s <> []) ->
  (shut s = true -> at_eof s = true /\ buffer s = []) -> calls_ok (calls s) ->
  (protocol s = true -> told (calls s) = paused s /\ forall e, ~ In (Connection_lost e) (calls s)) ->
  (protocol s = false -> exists e, In (Connection_lost e) (calls s)) -> low s <= high s ->
  (lost s = false -> protocol s = true -> paused s = true -> buffer s <> []) -> (closing s = true -> lost s = false -> protocol s = true -> buffer s <> []) ->
  inv (maybe_pause s) d.
Proof.
  intros A1 A2 A3 A4 A5 A6 A7 A8 A9 A10 A11 A12 A13 A14 A15 A16. unfold maybe_pause. destruct (Nat.leb (size (buffer s)) (high s)) eqn:E.
  - apply Nat.leb_le in E. split; auto.
  - apply Nat.leb_gt in E. destruct (paused s) eqn:P; [split; rewrite ?P; auto; discriminate|].
    split; cbn; auto.
    + destruct (protocol s) eqn:Q; [|assumption]. cbn. destruct (A12 eq_refl) as [T N]. auto.
    + destruct (protocol s) eqn:Q; [|discriminate]. intros _. destruct (A12 eq_refl) as [T N]. split; [reflexivity|]. intros e [H|H]; [discriminate|]. now apply (N e).
    + destruct (protocol s) eqn:Q; [discriminate|auto].
    + discriminate.
    + intros _ _ _ B. rewrite B in E. cbn in E. unfold size in E. cbn in E. lia.
Qed.

Lemma inv_lost s d d' : inv s d -> prefix d d' -> lost s = true -> inv s d'.
Proof.
  intros V P L. destruct V. split; auto; [congruence|]. eapply prefix_trans; eauto.
Qed.

Lemma force_close_inv s d d' e : inv s d -> prefix d d' -> inv (force_close s e) d'.
Proof.
  intros V P. unfold force_close. destruct (lost s) eqn:L; [now apply (inv_lost s d)|]. destruct V.
  split; cbn; auto; try discriminate.
  - rewrite i_writer0. now destruct (buffer s).
  - eapply prefix_trans; eauto.
  - intros _ _ E. now apply app_eq_nil in E as [_ E].
  - intros S0. split; [|reflexivity]. now apply i_shut0.
Qed.

Lemma close_inv s d : inv s d -> inv (close s) d.
Proof.
  intros V. unfold close. destruct (closing s) eqn:C; [exact V|]. destruct V.
  assert (L : lost s = false) by (destruct (lost s) eqn:L; [destruct (i_lost0 eq_refl); congruence|reflexivity]).
  destruct (buffer s) as [|c b] eqn:B; split; cbn; rewrite ?B, ?L, ?orb_true_r, ?orb_false_r, ?andb_true_r, ?andb_false_r; auto; try discriminate.
  all: try solve [intros _ _ E; now apply app_eq_nil in E as [_ E]].
  all: try solve [intros H; destruct (i_gone0 H); congruence].
  intros X. specialize (i_soon0 X). congruence.
Qed.

Lemma call_lost_inv s d e : inv s d -> closing s = true -> buffer s = [] -> inv (call_lost s e) d.
Proof.
  intros V C B. destruct V. unfold call_lost. split; cbn; auto; try discriminate.
  - destruct (protocol s) eqn:P; [|assumption]. cbn. split; [assumption|]. now apply i_live0.
  - destruct (protocol s) eqn:P; [|auto]. intros _. exists e. now left.
Qed.

Lemma write_inv s d data a : inv s d -> width data = 1 ->
  inv (fst (write s data a)) (d ++ (if snd (write s data a) then content data else [])).
Proof.
  intros V W. pose proof V as V0. unfold write. destruct (at_eof s) eqn:AE; [cbn; now rewrite app_nil_r|]. rewrite (len_plain _ W).
  destruct (Nat.eqb (length (content data)) 0) eqn:E0.
  { apply Nat.eqb_eq, length_zero_iff_nil in E0. cbn. rewrite E0. now rewrite app_nil_r. }
  apply Nat.eqb_neq in E0. assert (G : good data) by (split; [assumption|intros X; rewrite X in E0; now apply E0]).
  destruct (lost s) eqn:L; [cbn; apply (inv_lost s d); auto; apply prefix_app|]. destruct V.
  assert (SH : shut s = false) by (destruct (shut s) eqn:X; [destruct (i_shut0 eq_refl); congruence|reflexivity]).
  destruct (buffer s) as [|c b] eqn:B.
  - unfold send. destruct (socket s) eqn:S0; cbn [negb].
    2:{ cbn [fst snd]. apply (force_close_inv s d); [exact V0|apply prefix_app]. }
    destruct a as [n| |]; cbn [fst snd].
    + set (m := Nat.min n (length (content data))). assert (M : m <= length (content data)) by (unfold m; lia).
      assert (D : d = sent s) by (rewrite i_data0 by auto; cbn; apply app_nil_r).
      destruct (Nat.leb (length (content data)) m) eqn:LE; cbn [fst snd].
      * apply Nat.leb_le in LE. split; cbn; rewrite ?S0, ?L; auto; try discriminate.
        all: try (intros _ _; rewrite app_nil_r). all: try (rewrite D, firstn_all2 by lia; auto; apply prefix_refl).
        all: try solve [intros X; specialize (i_soon0 X); congruence].
      * apply Nat.leb_gt in LE. apply maybe_pause_inv; cbn; auto; try discriminate.
        -- constructor; [now apply drop_good|constructor].
        -- now rewrite S0.
        -- rewrite S0. discriminate.
        -- intros H. rewrite L in H. discriminate.
        -- intros _ _. rewrite app_nil_r, W, Nat.mul_1_r, <- app_assoc, firstn_skipn. now rewrite D.
        -- rewrite D. exists (skipn m (content data)). now rewrite <- app_assoc, firstn_skipn.
        -- rewrite SH. discriminate.
    + apply maybe_pause_inv; cbn; auto; try discriminate.
      -- now rewrite S0.
      -- rewrite S0. discriminate.
      -- intros H. rewrite L in H. discriminate.
      -- intros _ _. rewrite app_nil_r. rewrite i_data0 by auto. cbn. now rewrite app_nil_r.
      -- eapply prefix_trans; [exact i_prefix0|apply prefix_app].
      -- rewrite SH. discriminate.
    + apply (force_close_inv s d); [exact V0|apply prefix_app].
  - cbn [fst snd]. apply maybe_pause_inv; cbn; auto; try discriminate.
    + change (Forall good ((c :: b) ++ [data])). apply Forall_app. split; [exact i_good0|]. constructor; [assumption|constructor].
    + intros H. destruct (i_gone0 H). discriminate.
    + intros H. rewrite L in H. discriminate.
    + intros _ S0. rewrite (i_data0 L S0). change (content c ++ flat_map content (b ++ [data])) with (bytes_of ((c :: b) ++ [data])).
      rewrite bytes_app. cbn. now rewrite app_nil_r, <- !app_assoc.
    + eapply prefix_trans; [exact i_prefix0|apply prefix_app].
    + rewrite SH. discriminate.
Qed.

Lemma maybe_resume_same s : buffer (maybe_resume s) = buffer s /\ closing (maybe_resume s) = closing s /\ at_eof (maybe_resume s) = at_eof s /\
  sent (maybe_resume s) = sent s /\ lost (maybe_resume s) = lost s /\ socket (maybe_resume s) = socket s /\ protocol (maybe_resume s) = protocol s /\
  writer (maybe_resume s) = writer s /\ shut (maybe_resume s) = shut s /\ soon (maybe_resume s) = soon s /\ low (maybe_resume s) = low s /\ high (maybe_resume s) = high s.
Proof. unfold maybe_resume. destruct (_ || _); cbn; repeat split. Qed.

Ltac ends TD SO SH :=
  try solve [exact TD | intros _ _; exact TD | rewrite TD; apply prefix_app | intros X; specialize (SO X); congruence
            | intros X; apply SH in X as [? ?]; first [contradiction | now split] | lia | cbn; auto].

Lemma write_ready_inv limit s d a : inv s d -> writer s = true -> inv (write_ready limit s a) d.
Proof.
  intros V WR. pose proof V as V0. unfold write_ready. destruct (lost s) eqn:L; [exact V|]. fold (offered_of limit s).
  assert (BN : buffer s <> []) by (rewrite (i_writer _ _ V) in WR; now destruct (buffer s)).
  assert (S0 : socket s = true).
  { destruct (socket s) eqn:S0; [reflexivity|]. destruct (i_gone _ _ V S0). contradiction. }
  unfold send. rewrite S0. cbn [negb]. destruct a as [n| |].
  - set (m := Nat.min n (length (offered_of limit s))). fold (left_of limit s m).
    assert (M : m <= length (offered_of limit s)) by (unfold m; lia).
    destruct (left_spec limit s m (i_good _ _ V) M) as [LD LG]. set (b := left_of limit s m) in *. set (t := sent s ++ firstn m (offered_of limit s)).
    assert (TD : d = t ++ bytes_of b) by (rewrite (i_data _ _ V L S0); unfold t; now rewrite <- app_assoc, LD).
    assert (SZ : size b <= size (buffer s)).
    { assert (X : forall l, Forall good l -> size l = length (bytes_of l)).
      { clear. induction l as [|c l IH]; intros F; [reflexivity|]. inversion F; subst. rewrite size_cons, IH by assumption.
        change (bytes_of (c :: l)) with (content c ++ bytes_of l). rewrite app_length. destruct H1 as [W _]. now rewrite len_plain. }
      rewrite (X b LG), (X _ (i_good _ _ V)). rewrite <- LD, app_length. lia. }
    set (s1 := with_buffer s b (writer s) t). pose proof (maybe_resume_same s1) as (R1&R2&R3&R4&R5&R6&R7&R8&R9&R10&R11&R12).
    assert (PR : protocol s = true) by (rewrite <- (i_sock _ _ V); exact S0).
    assert (RC : told (calls (maybe_resume s1)) = paused (maybe_resume s1) /\ calls_ok (calls (maybe_resume s1)) /\
      (forall e, ~ In (Connection_lost e) (calls (maybe_resume s1))) /\
      (paused (maybe_resume s1) = true -> b <> []) /\ (paused (maybe_resume s1) = false -> size b <= high s)).
    { destruct (i_live _ _ V PR) as [T N]. pose proof (i_calls _ _ V) as OK. pose proof (i_limits _ _ V) as LH. pose proof (i_high _ _ V L) as HI.
      unfold maybe_resume, s1; cbn [paused buffer with_buffer low protocol calls high]. destruct (paused s) eqn:P; cbn [negb orb].
      - destruct (Nat.ltb (low s) (size b)) eqn:LT; cbn.
        + apply Nat.ltb_lt in LT. split; [congruence|]. split; [assumption|]. split; [assumption|]. split; [|congruence]. intros _ Z. rewrite Z in LT. unfold size in LT. cbn in LT. lia.
        + apply Nat.ltb_ge in LT. rewrite PR. cbn. split; [reflexivity|]. split; [auto|]. split; [intros e [H|H]; [discriminate|now apply (N e)]|].
          split; [discriminate|lia].
      - split; [cbn; congruence|]. split; [assumption|]. split; [assumption|]. split; [cbn; congruence|]. specialize (HI eq_refl). lia. }
    destruct RC as (RC1 & RC2 & RC3 & RC4 & RC5).
    set (s2 := maybe_resume s1) in *. clearbody s2. cbn in R1, R2, R3, R4, R5, R6, R7, R8, R9, R10, R11, R12.
    cbv zeta. destruct (buffer s2) as [|c b'] eqn:B2.
    + symmetry in R1. destruct V. rewrite R1 in *.
      change (closing (with_buffer s2 [] false (sent s2))) with (closing s2). change (at_eof (with_buffer s2 [] false (sent s2))) with (at_eof s2).
      rewrite R2, R3. destruct (closing s) eqn:C.
      * unfold call_lost. split; cbn; rewrite ?R5, ?R6, ?R7, ?R4, ?R9, ?R10, ?R3, ?R11, ?R12, ?L, ?PR; auto; try discriminate; ends TD i_soon0 i_shut0.
        intros _. exists false. now left.
      * assert (COMMON : inv (with_buffer s2 [] false (sent s2)) d).
        { split; cbn; rewrite ?R5, ?R6, ?R7, ?R2, ?R4, ?R9, ?R10, ?R3, ?R11, ?R12, ?L, ?PR, ?S0; auto; try discriminate; ends TD i_soon0 i_shut0. }
        destruct (at_eof s) eqn:AE; [|exact COMMON]. clear - COMMON R3 AE. destruct COMMON. split; auto.
    + rewrite <- R1 in *. clearbody b. destruct V.
      split; cbn; rewrite ?B2, ?R5, ?R6, ?R7, ?R2, ?R4, ?R9, ?R10, ?R3, ?R8, ?R11, ?R12, ?L, ?PR, ?S0; auto; try discriminate; ends TD i_soon0 i_shut0.
  - exact V.
  - unfold force_close. cbn. rewrite L. destruct V. split; cbn; auto; try discriminate.
    + intros _ _ E. now apply app_eq_nil in E as [_ E].
    + intros X. apply i_shut0 in X as [_ X]. contradiction.
Qed.

Definition data_out (o : op) (r : bool) : bytes := if r then data_of o else [].

Lemma step_inv limit s d o : inv s d -> plain o -> inv (fst (step limit s o)) (d ++ data_out o (snd (step limit s o))).
Proof.
  intros V P. assert (N : forall s', inv s' d -> forall r : bool, inv s' (d ++ (if r then [] else []))).
  { intros s' H r. destruct r; now rewrite app_nil_r. }
  destruct o; cbn [step plain] in *; unfold data_out; cbn [data_of].
  - now apply write_inv.
  - apply N. unfold write_eof. destruct (at_eof s) eqn:E; [exact V|]. cbn [buffer socket]. destruct V.
    destruct (buffer s) as [|c b] eqn:B; [destruct (socket s) eqn:S0|]; cbn [fst]; split; cbn; rewrite ?B, ?S0; auto; try discriminate.
    all: intros X; destruct (i_shut0 X); try discriminate; split; auto.
  - cbn. rewrite app_nil_r. now apply close_inv.
  - cbn. rewrite app_nil_r. apply (force_close_inv s d); [assumption|apply prefix_refl].
  - cbn. rewrite app_nil_r. destruct (writer s) eqn:W; [now apply write_ready_inv|exact V].
  - destruct (soon s) as [|e l] eqn:E; cbn; rewrite app_nil_r; [exact V|].
    assert (L : lost s = true) by (apply (i_soon _ _ V); rewrite E; discriminate). destruct (i_lost _ _ V L) as [C B].
    destruct V. unfold call_lost. cbn. split; cbn; auto; try discriminate.
    + destruct (protocol s) eqn:PR; [|assumption]. cbn. split; [assumption|]. now apply i_live0.
    + destruct (protocol s) eqn:PR; [|auto]. intros _. exists e. now left.
  - apply N. destruct (lost s); [exact V|]. destruct keep; [exact V|]. now apply close_inv.
  - apply N. destruct (lost s); [exact V|]. apply (force_close_inv s d); [assumption|apply prefix_refl].
  - apply N. unfold set_limits. destruct (limits h l) as [[h' l']|] eqn:E; [|exact V]. cbn [fst].
    assert (LH : l' <= h').
    { unfold limits in E. destruct h as [h|], l as [l|].
      all: match type of E with (if ?c then _ else _) = _ => destruct c eqn:LT end; try discriminate; injection E as <- <-.
      all: apply Nat.ltb_ge in LT; exact LT. }
    destruct V. apply maybe_pause_inv; cbn; auto.
Qed.

Lemma run_inv limit : forall os s d, inv s d -> Forall plain os ->
  let '(s', rs) := run limit s os in inv s' (d ++ accepted os rs) /\ length rs = length os.
Proof.
  induction os as [|o os IH]; intros s d V F; cbn [run]; [cbn; now rewrite app_nil_r|]. inversion F; subst.
  pose proof (step_inv limit s d o V H1) as V1. destruct (step limit s o) as [s1 r]. cbn [fst snd] in V1.
  specialize (IH s1 _ V1 H2). destruct (run limit s1 os) as [s2 rs]. destruct IH as [IH L]. cbn [accepted length]. split; [|congruence].
  rewrite <- app_assoc in IH. exact IH.
Qed.

Lemma run_inv0 limit os : Forall plain os -> inv (fst (run limit initial os)) (accepted os (snd (run limit initial os))).
Proof. intros F. pose proof (run_inv limit os initial [] initial_inv F) as H. destruct (run limit initial os). exact (proj1 H). Qed.

(** ** C42 *)

Lemma order limit os : Forall plain os -> let '(s, rs) := run limit initial os in
  prefix (sent s ++ buffered s) (accepted os rs) /\ (closing s = false -> sent s ++ buffered s = accepted os rs) /\
  (buffered s <> [] -> writer s = true /\ sent s ++ buffered s = accepted os rs).
Proof.
  intros F. pose proof (run_inv0 limit os F) as V. destruct (run limit initial os) as [s rs]. cbn [fst snd] in V.
  assert (D : lost s = false -> socket s = true -> sent s ++ buffered s = accepted os rs) by (intros A B; now rewrite (i_data _ _ V A B)).
  split; [|split].
  - destruct (lost s) eqn:L; [|destruct (socket s) eqn:S0].
    + destruct (i_lost _ _ V L) as [_ B]. unfold buffered. rewrite B. cbn. rewrite app_nil_r. apply V.
    + rewrite D by auto. apply prefix_refl.
    + destruct (i_gone _ _ V S0) as [_ B]. unfold buffered. rewrite B. cbn. rewrite app_nil_r. apply V.
  - intros C. apply D.
    + destruct (lost s) eqn:L; [|reflexivity]. destruct (i_lost _ _ V L). congruence.
    + destruct (socket s) eqn:L; [reflexivity|]. destruct (i_gone _ _ V L). congruence.
  - intros B. assert (BN : buffer s <> []) by (intros X; apply B; unfold buffered; now rewrite X). split.
    + rewrite (i_writer _ _ V). now destruct (buffer s).
    + apply D.
      * destruct (lost s) eqn:L; [|reflexivity]. destruct (i_lost _ _ V L). contradiction.
      * destruct (socket s) eqn:L; [reflexivity|]. destruct (i_gone _ _ V L). contradiction.
Qed.

(** The socket gets no less than [d] before the connection is over. *)
Record flushing (s : state) (d : bytes) : Prop := {
  f_open : lost s = false -> socket s = true -> prefix d (sent s ++ bytes_of (buffer s));
  f_over : lost s = true \/ socket s = false -> prefix d (sent s);
  f_soon : protocol s = true -> Forall (fun e => e = false) (soon s);
  f_calls : forall e, In (Connection_lost e) (calls s) -> e = false;
  f_closing : closing s = true
}.

Lemma maybe_pause_same s : buffer (maybe_pause s) = buffer s /\ closing (maybe_pause s) = closing s /\ sent (maybe_pause s) = sent s /\
  lost (maybe_pause s) = lost s /\ socket (maybe_pause s) = socket s /\ protocol (maybe_pause s) = protocol s /\ soon (maybe_pause s) = soon s /\
  (forall e, In (Connection_lost e) (calls (maybe_pause s)) <-> In (Connection_lost e) (calls s)).
Proof.
  unfold maybe_pause. destruct (Nat.leb _ _); [repeat split; auto|]. destruct (paused s); cbn; repeat split; auto; destruct (protocol s); cbn; auto.
  intros [H|H]; [discriminate|assumption].
Qed.
Lemma maybe_resume_lost s e : In (Connection_lost e) (calls (maybe_resume s)) <-> In (Connection_lost e) (calls s).
Proof.
  unfold maybe_resume. destruct (_ || _); [tauto|]. cbn. destruct (protocol s); [|tauto]. cbn. split; [intros [H|H]; [discriminate|assumption]|auto].
Qed.

Lemma flushing_same s t d : flushing s d -> buffer t = buffer s -> closing t = closing s -> sent t = sent s -> lost t = lost s -> socket t = socket s ->
  protocol t = protocol s -> soon t = soon s -> (forall e, In (Connection_lost e) (calls t) <-> In (Connection_lost e) (calls s)) -> flushing t d.
Proof.
  intros [A B C D E] H1 H2 H3 H4 H5 H6 H7 H8. split; rewrite ?H1, ?H2, ?H3, ?H4, ?H5, ?H6, ?H7; auto. intros e X. apply D. now apply H8.
Qed.

Lemma write_flushing s d d0 data a : inv s d0 -> flushing s d -> width data = 1 -> a <> Failed -> flushing (fst (write s data a)) d.
Proof.
  intros V F W NA. pose proof F as F0. unfold write. destruct (at_eof s); [exact F|]. rewrite (len_plain _ W). destruct (Nat.eqb _ 0) eqn:E0; [exact F|].
  destruct (lost s) eqn:L; [exact F|]. destruct (buffer s) as [|c b] eqn:B.
  - unfold send. destruct (socket s) eqn:S0; cbn [negb].
    2:{ cbn [fst]. destruct F. unfold force_close. rewrite L. split; cbn; auto; try discriminate. intros P. rewrite <- (i_sock _ _ V) in P. congruence. }
    (* closing with an empty buffer: not open any more *)
    exfalso. apply (i_ending _ _ V); auto; [exact (f_closing _ _ F)|now rewrite <- (i_sock _ _ V)].
  - cbn [fst]. set (s1 := with_buffer s ((c :: b) ++ [data]) (writer s) (sent s)).
    pose proof (maybe_pause_same s1) as (P1&P2&P3&P4&P5&P6&P7&P8). apply (flushing_same s1); auto.
    destruct F. rewrite B in *. split; cbn; auto; rewrite ?L; auto.
    intros _ S0. apply (prefix_trans _ _ _ (f_open0 L S0)). rewrite app_assoc. change (flat_map content (b ++ [data])) with (bytes_of (b ++ [data])).
    rewrite bytes_app. exists (content data). cbn. now rewrite app_nil_r, <- !app_assoc.
Qed.

Lemma write_ready_flushing limit s d d0 a : inv s d0 -> writer s = true -> flushing s d -> a <> Failed -> flushing (write_ready limit s a) d.
Proof.
  intros V WR F NA. pose proof F as F0. unfold write_ready. destruct (lost s) eqn:L; [exact F|]. fold (offered_of limit s).
  assert (BN : buffer s <> []) by (rewrite (i_writer _ _ V) in WR; now destruct (buffer s)).
  assert (S0 : socket s = true).
  { destruct (socket s) eqn:S0; [reflexivity|]. destruct (i_gone _ _ V S0). contradiction. }
  unfold send. rewrite S0. cbn [negb]. destruct a as [n| |]; [|exact F|contradiction].
  set (m := Nat.min n (length (offered_of limit s))). fold (left_of limit s m).
  assert (M : m <= length (offered_of limit s)) by (unfold m; lia).
  destruct (left_spec limit s m (i_good _ _ V) M) as [LD _]. set (b := left_of limit s m) in *. set (t := sent s ++ firstn m (offered_of limit s)).
  assert (TD : prefix d (t ++ bytes_of b)).
  { unfold t. rewrite <- app_assoc, LD. now apply (f_open _ _ F). }
  set (s1 := with_buffer s b (writer s) t). pose proof (maybe_resume_same s1) as (R1&R2&R3&R4&R5&R6&R7&R8&R9&R10&R11&R12).
  pose proof (maybe_resume_lost s1) as RL. set (s2 := maybe_resume s1) in *. clearbody s2.
  cbn in R1, R2, R3, R4, R5, R6, R7, R8, R9, R10, RL. cbv zeta. destruct (buffer s2) as [|c b'] eqn:B2.
  - change (closing (with_buffer s2 [] false (sent s2))) with (closing s2). rewrite R2, (f_closing _ _ F). destruct F.
    symmetry in R1. rewrite R1 in TD. cbn in TD. rewrite app_nil_r in TD. unfold call_lost. split; cbn; rewrite ?R4, ?R2; auto; try discriminate.
    intros e. destruct (protocol s2); [intros [X|X]; [now injection X|]|intros X]; now apply f_calls0, RL.
  - rewrite <- R1 in *. clearbody b. destruct F. split; rewrite ?R4, ?R5, ?R6, ?R7, ?R10, ?R2, ?L, ?S0, ?B2; auto; try discriminate.
    + intros [X|X]; discriminate.
    + intros e X. now apply f_calls0, RL.
Qed.

Lemma step_flushing limit s d d0 o : inv s d0 -> plain o -> graceful o -> flushing s d -> flushing (fst (step limit s o)) d.
Proof.
  intros V P G F. destruct o; cbn [step plain graceful] in *; try contradiction.
  - eapply write_flushing; eauto. intros ->. contradiction.
  - unfold write_eof. destruct (at_eof s); [exact F|]. cbn [buffer socket]. destruct (buffer s) eqn:B; [destruct (socket s) eqn:S0|].
    all: apply (flushing_same s); auto; cbn; tauto.
  - cbn. unfold close. now rewrite (f_closing _ _ F).
  - cbn [fst]. destruct (writer s) eqn:W; [|exact F]. eapply write_ready_flushing; eauto. intros ->. contradiction.
  - destruct (soon s) as [|e l] eqn:E; [exact F|]. cbn [fst].
    assert (L : lost s = true) by (apply (i_soon _ _ V); rewrite E; discriminate).
    destruct F. unfold call_lost. split; cbn; rewrite ?L; auto; try discriminate.
    intros e'. destruct (protocol s) eqn:PR; [|auto]. intros [X|X]; [injection X as <-|auto]. specialize (f_soon0 eq_refl). rewrite E in f_soon0.
    now inversion f_soon0.
  - destruct (lost s); [exact F|]. destruct keep; [exact F|]. cbn. unfold close. now rewrite (f_closing _ _ F).
  - unfold set_limits. destruct (limits h l) as [[h' l']|]; [|exact F]. cbn [fst]. set (s1 := {| buffer := _ |}).
    pose proof (maybe_pause_same s1) as (P1&P2&P3&P4&P5&P6&P7&P8). apply (flushing_same s); auto.
Qed.

Lemma run_app limit : forall a b s, run limit s (a ++ b) =
  let '(s1, r1) := run limit s a in let '(s2, r2) := run limit s1 b in (s2, r1 ++ r2).
Proof.
  induction a as [|o a IH]; intros b s; cbn [run app]; [now destruct (run limit s b)|].
  destruct (step limit s o) as [s1 r]. rewrite IH. destruct (run limit s1 a) as [s2 r1]. now destruct (run limit s2 b).
Qed.

Lemma run_flushing limit : forall os s d d0, inv s d0 -> Forall plain os -> Forall graceful os -> flushing s d -> flushing (fst (run limit s os)) d.
Proof.
  induction os as [|o os IH]; intros s d d0 V P G F; cbn [run]; [exact F|]. inversion P; inversion G; subst.
  pose proof (step_inv limit s d0 o V H1) as V1. pose proof (step_flushing limit s d d0 o V H1 H5 F) as F1.
  destruct (step limit s o) as [s1 r]. cbn [fst snd] in *. specialize (IH s1 d _ V1 H2 H6 F1). now destruct (run limit s1 os).
Qed.

(** After the user closed it. *)
Lemma close_flushing s d : inv s d -> closing s = false -> flushing (close s) d.
Proof.
  intros V C.
  assert (L : lost s = false) by (destruct (lost s) eqn:L; [destruct (i_lost _ _ V L); congruence|reflexivity]).
  assert (S0 : socket s = true) by (destruct (socket s) eqn:S0; [reflexivity|destruct (i_gone _ _ V S0); congruence]).
  assert (SO : soon s = []).
  { destruct (soon s) eqn:E; [reflexivity|]. assert (X : lost s = true) by (apply (i_soon _ _ V); rewrite E; discriminate). congruence. }
  pose proof (i_data _ _ V L S0) as D. assert (PR : protocol s = true) by (now rewrite <- (i_sock _ _ V)).
  destruct (i_live _ _ V PR) as [_ NL]. unfold close. rewrite C. split; cbn; rewrite ?L, ?S0, ?SO.
  - intros _ _. exists []. rewrite app_nil_r. exact (eq_sym D).
  - destruct (buffer s); cbn [orb]; intros [X|X]; try discriminate. cbn in D. rewrite app_nil_r in D. exists []. now rewrite app_nil_r.
  - intros _. destruct (buffer s); repeat constructor.
  - intros e X. now apply NL in X.
  - reflexivity.
Qed.

Lemma flushed limit os os' : Forall plain (os ++ os') -> Forall graceful os' ->
  let '(s0, rs) := run limit initial os in
  let '(s, _) := run limit s0 (Close :: os') in
  closing s0 = false -> forall e, In (Connection_lost e) (calls s) -> e = false /\ prefix (accepted os rs) (sent s).
Proof.
  intros P G. apply Forall_app in P as [P P']. pose proof (run_inv0 limit os P) as V. destruct (run limit initial os) as [s0 rs]. cbn [fst snd] in V.
  destruct (run limit s0 (Close :: os')) as [s rs'] eqn:E. intros C e X.
  pose proof (close_flushing s0 _ V C) as F. pose proof (close_inv s0 _ V) as V1.
  cbn [run step] in E. pose proof (run_flushing limit os' _ _ _ V1 P' G F) as F2. pose proof (run_inv limit os' _ _ V1 P') as V2.
  destruct (run limit (close s0) os') as [s2 r2]. cbn [fst] in F2. injection E as <- <-. destruct V2 as [V2 _].
  split; [exact (f_calls _ _ F2 e X)|]. apply (f_over _ _ F2). right.
  destruct (socket s2) eqn:S0; [|reflexivity]. rewrite (i_sock _ _ V2) in S0. destruct (i_live _ _ V2 S0) as [_ NL]. now apply NL in X.
Qed.

(** Each time the socket takes something, less remains; at the end the connection is closed if that was asked. *)
Lemma takes_step limit s d o : inv s d -> takes o -> let s' := fst (step limit s o) in
  buffer s = [] \/ length (bytes_of (buffer s')) < length (bytes_of (buffer s)).
Proof.
  intros V T. destruct (buffer s) as [|c b] eqn:B; [now left|right]. destruct o as [| | | |[[|n]| |]| | | |]; try contradiction. cbn [step].
  rewrite (i_writer _ _ V), B. cbn [full]. unfold write_ready.
  assert (L : lost s = false) by (destruct (lost s) eqn:L; [destruct (i_lost _ _ V L); congruence|reflexivity]).
  assert (S0 : socket s = true) by (destruct (socket s) eqn:S0; [reflexivity|destruct (i_gone _ _ V S0); congruence]).
  rewrite L. fold (offered_of limit s). unfold send. rewrite S0. cbn [negb].
  assert (GC : good c) by (pose proof (i_good _ _ V) as G; rewrite B in G; now inversion G).
  assert (NE : 0 < length (offered_of limit s)).
  { unfold offered_of. rewrite B. destruct limit; cbn [firstn]; change (bytes_of (c :: ?l)) with (content c ++ bytes_of l); unfold bytes_of; cbn [flat_map]; rewrite app_length; destruct GC as [_ GC]; destruct (content c); try easy; cbn; lia. }
  set (m := Nat.min (S n) (length (offered_of limit s))). fold (left_of limit s m).
  assert (M : m <= length (offered_of limit s)) by (unfold m; lia). assert (M0 : 0 < m) by (unfold m; lia).
  destruct (left_spec limit s m (i_good _ _ V) M) as [LD _]. apply (f_equal (@length _)) in LD. rewrite app_length, firstn_length_le in LD by exact M.
  set (b1 := left_of limit s m) in *. cbv zeta. cbn [fst].
  match goal with |- context [maybe_resume ?x] => set (s1 := x) end. destruct (maybe_resume_same s1) as (R1&_). cbn in R1.
  rewrite B in LD. destruct (buffer (maybe_resume s1)) as [|c' b'] eqn:B1.
  - assert (Z : forall t, buffer t = [] -> length (bytes_of (buffer t)) < length (bytes_of (c :: b))).
    { intros t ->. change (length (bytes_of [])) with 0. lia. }
    apply Z. match goal with |- context [if ?x then _ else _] => destruct x end; [reflexivity|].
    match goal with |- context [if ?x then _ else _] => destruct x end; reflexivity.
  - rewrite B1, R1. lia.
Qed.

Lemma empty_stays limit s d o : inv s d -> takes o -> buffer s = [] -> fst (step limit s o) = s.
Proof.
  intros V T B. destruct o as [| | | |[[|n]| |]| | | |]; try contradiction. cbn [step]. now rewrite (i_writer _ _ V), B.
Qed.

Lemma takes_plain o : takes o -> plain o.
Proof. destruct o; cbn; tauto. Qed.
Lemma takes_data o r : takes o -> data_out o r = [].
Proof. destruct o; cbn; try tauto. now destruct r. Qed.

Lemma drains limit : forall os s d, inv s d -> Forall takes os -> length (bytes_of (buffer s)) <= length os ->
  let s' := fst (run limit s os) in inv s' d /\ buffer s' = [].
Proof.
  induction os as [|o os IH]; intros s d V F L; cbn [run].
  - cbn [fst]. split; [exact V|]. cbn in L. destruct (buffer s) as [|c b] eqn:B; [reflexivity|]. pose proof (i_good _ _ V) as G. rewrite B in G. inversion G; subst.
    destruct H1 as [_ H1]. exfalso. unfold bytes_of in L. cbn [flat_map] in L. rewrite app_length in L. destruct (content c); [easy|cbn in L; lia].
  - inversion F; subst. pose proof (step_inv limit s d o V (takes_plain _ H1)) as V1. rewrite (takes_data _ _ H1), app_nil_r in V1.
    pose proof (takes_step limit s d o V H1) as TS. pose proof (empty_stays limit s d o V H1) as ES.
    destruct (step limit s o) as [s1 r]. cbn [fst] in *. cbn [length] in L.
    assert (L1 : length (bytes_of (buffer s1)) <= length os).
    { destruct TS as [B|B]; [rewrite (ES B), B; cbn; lia|lia]. }
    specialize (IH s1 d V1 H2 L1). now destruct (run limit s1 os).
Qed.

Lemma progress limit os os' : Forall plain os -> Forall takes os' ->
  let s := fst (run limit initial os) in
  let s1 := fst (run limit s os') in
  let s2 := fst (step limit s1 Run_soon) in
  length (buffered s) <= length os' ->
  buffered s1 = [] /\ (closing s1 = true -> exists e, In (Connection_lost e) (calls s2)).
Proof.
  intros P T. cbv zeta. intros L. pose proof (run_inv0 limit os P) as V. set (s := fst (run limit initial os)) in *. clearbody s.
  destruct (drains limit os' s _ V T L) as [V1 B]. set (s1 := fst (run limit s os')) in *. clearbody s1.
  split; [unfold buffered; now rewrite B|]. intros C. cbn [step]. destruct (protocol s1) eqn:PR.
  - assert (LO : lost s1 = true) by (destruct (lost s1) eqn:LO; [reflexivity|]; now destruct (i_ending _ _ V1 C LO PR)).
    pose proof (i_due _ _ V1 LO PR) as D. destruct (soon s1) as [|e l]; [easy|]. exists e. cbn; rewrite ?PR; now left.
  - destruct (i_dead _ _ V1 PR) as [e X]. exists e. destruct (soon s1); [exact X|]. cbn; rewrite ?PR; exact X.
Qed.

(** ** C43 *)

Lemma alternate_snoc l : forall b c, alternate b l -> (forall e, ~ In (Connection_lost e) l) ->
  alternate (match rev l with [] => b | _ => told (rev l) end) [c] -> alternate b (l ++ [c]).
Proof.
  induction l as [|x l IH]; intros b c A N S0; [exact S0|].
  assert (N' : forall e, ~ In (Connection_lost e) l) by (intros e X; apply (N e); now right).
  assert (T : forall b', (match rev l with [] => b' | _ => told (rev l) end) = told (rev l ++ [match b' with true => Pause_writing | false => Resume_writing end])).
  { intros b'. assert (NR : forall e, ~ In (Connection_lost e) (rev l)) by (intros e X; apply (N' e); now apply in_rev).
    destruct (rev l) as [|y r]; [now destruct b'|]. destruct y; [reflexivity|reflexivity|]. destruct (NR error). now left. }
  cbn [app alternate] in *. destruct x; try (destruct A as [-> A]).
  - split; [reflexivity|]. apply IH; auto. rewrite T. cbn [rev] in S0. destruct (rev l ++ [Pause_writing]) eqn:E; [now destruct (rev l)|]. exact S0.
  - split; [reflexivity|]. apply IH; auto. rewrite T. cbn [rev] in S0. destruct (rev l ++ [Resume_writing]) eqn:E; [now destruct (rev l)|]. exact S0.
  - destruct (N error). now left.
Qed.

Lemma calls_alternate l : calls_ok l -> alternate false (rev l).
Proof.
  induction l as [|c l IH]; intros H; [exact I|]. cbn [rev].
  assert (Q : calls_ok l /\ (forall e, ~ In (Connection_lost e) l) /\ alternate (told l) [c]).
  { destruct c; cbn in *; intuition auto. }
  destruct Q as (A & B & C). apply alternate_snoc; [auto|intros e X; apply (B e); now apply in_rev|].
  rewrite rev_involutive. destruct l; exact C.
Qed.

Lemma flow limit os : Forall plain os -> let s := fst (run limit initial os) in
  alternate false (rev (calls s)) /\
  (protocol s = true -> lost s = false -> told (calls s) = false -> size (buffer s) <= high s) /\
  (protocol s = true -> told (calls s) = true -> (buffered s <> [] /\ writer s = true) \/ (lost s = true /\ soon s <> [])).
Proof.
  intros P. cbv zeta. pose proof (run_inv0 limit os P) as V. set (s := fst (run limit initial os)) in *. clearbody s.
  split; [apply calls_alternate; apply V|]. split; intros PR; destruct (i_live _ _ V PR) as [T _]; rewrite T.
  - intros L H. now apply (i_high _ _ V).
  - intros PA. destruct (lost s) eqn:L; [right; split; [reflexivity|]; now apply (i_due _ _ V)|left].
    pose proof (i_paused _ _ V L PR PA) as B. rewrite (i_writer _ _ V). destruct (buffer s) as [|c b] eqn:Q; [easy|]. split; [|reflexivity].
    pose proof (i_good _ _ V) as G. rewrite Q in G. inversion G; subst. destruct H1 as [_ H1]. unfold buffered. rewrite Q. cbn. destruct (content c); easy.
Qed.

(** After the socket took something the protocol is paused only above the low mark. *)
Lemma resumes limit os n : Forall plain os -> let s := fst (run limit initial os) in
  let s' := fst (step limit s (Writable (Took n))) in
  protocol s' = true -> lost s = false -> buffered s <> [] -> told (calls s') = true -> low s' < size (buffer s').
Proof.
  intros P. cbv zeta. pose proof (run_inv0 limit os P) as V. set (s := fst (run limit initial os)) in *. clearbody s. intros PR L B.
  pose proof (step_inv limit s _ (Writable (Took n)) V Logic.I) as V1. destruct (i_live _ _ V1 PR) as [T _]. rewrite T. clear V1 T. revert PR.
  assert (BN : buffer s <> []) by (intros X; apply B; unfold buffered; now rewrite X).
  assert (S0 : socket s = true) by (destruct (socket s) eqn:S0; [reflexivity|destruct (i_gone _ _ V S0); congruence]).
  cbn [step]. rewrite (i_writer _ _ V). destruct (buffer s) as [|c b] eqn:Q; [easy|]. cbn [full fst]. unfold write_ready. rewrite L. unfold send. rewrite S0. cbn [negb].
  cbv zeta. match goal with |- context [maybe_resume ?x] => set (s1 := x) end.
  assert (R : paused (maybe_resume s1) = true -> low (maybe_resume s1) < size (buffer (maybe_resume s1))).
  { unfold maybe_resume. destruct (negb (paused s1) || Nat.ltb (low s1) (size (buffer s1))) eqn:E; [|discriminate]. intros PA. rewrite PA in E. cbn [negb orb] in E. now apply Nat.ltb_lt. }
  destruct (buffer (maybe_resume s1)) eqn:B1.
  - match goal with |- context [if ?x then _ else _] => destruct x end; [discriminate|]. intros _.
    match goal with |- context [if ?x then _ else _] => destruct x end; exact R.
  - intros _. rewrite B1. exact R.
Qed.

(** ** The end of the stream *)
Lemma shut_step limit s d o : inv s d -> plain o -> shut s = true -> sent (fst (step limit s o)) = sent s /\ shut (fst (step limit s o)) = true.
Proof.
  intros V P S0. destruct (i_shut _ _ V S0) as [E B].
  assert (MP : forall t, sent (maybe_pause t) = sent t /\ shut (maybe_pause t) = shut t).
  { intros t. unfold maybe_pause. destruct (Nat.leb _ _); [now split|]. now destruct (paused t). }
  destruct o; cbn [step].
  - unfold write. now rewrite E.
  - unfold write_eof. now rewrite E.
  - cbn. unfold close. now destruct (closing s).
  - cbn. unfold force_close. now destruct (lost s).
  - rewrite (i_writer _ _ V), B. now split.
  - now destruct (soon s).
  - destruct (lost s); [now split|]. destruct keep; [now split|]. cbn. unfold close. now destruct (closing s).
  - destruct (lost s) eqn:L; [now split|]. cbn. unfold force_close. now rewrite L.
  - unfold set_limits. destruct (limits h l) as [[h' l']|]; [|now split]. cbn [fst].
    match goal with |- context [maybe_pause ?x] => destruct (MP x) as [-> ->] end. now split.
Qed.

Lemma shut_run limit : forall os s d, inv s d -> Forall plain os -> shut s = true -> sent (fst (run limit s os)) = sent s.
Proof.
  induction os as [|o os IH]; intros s d V P S0; cbn [run]; [reflexivity|]. inversion P; subst.
  pose proof (step_inv limit s d o V H1) as V1. destruct (shut_step limit s d o V H1 S0) as [A B].
  destruct (step limit s o) as [s1 r]. cbn [fst snd] in *. specialize (IH s1 _ V1 H2 B). destruct (run limit s1 os). cbn [fst] in *. congruence.
Qed.

Lemma eof limit os os' : Forall plain (os ++ os') -> let s := fst (run limit initial os) in
  shut s = true -> buffered s = [] /\ at_eof s = true /\ sent (fst (run limit s os')) = sent s.
Proof.
  intros P. apply Forall_app in P as [P P']. cbv zeta. pose proof (run_inv0 limit os P) as V. intros S0.
  destruct (i_shut _ _ V S0) as [E B]. split; [unfold buffered; now rewrite B|]. split; [exact E|]. eapply shut_run; eauto.
Qed.
