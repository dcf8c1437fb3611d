From Coq Require Import List Arith Bool NArith ZArith String Lia.
From Verif Require Import Bytes Text AuthModel AuthSpec.
Import ListNotations.
Ltac Zify.zify_post_hook ::= Z.to_euclidean_division_equations.

(** * base64 *)

Definition below64 : list N := map N.of_nat (seq 0 64).
Lemma below64_in n : (n < 64)%N -> In n below64.
Proof. intros H. unfold below64. apply in_map_iff. exists (N.to_nat n). split; [lia|]. apply in_seq. lia. Qed.
Lemma all64 (p : N -> bool) : forallb p below64 = true -> forall n, (n < 64)%N -> p n = true.
Proof. intros H n Hn. rewrite forallb_forall in H. apply H, below64_in, Hn. Qed.

Lemma value_char n : (n < 64)%N -> b64value (b64char n) = Some n.
Proof.
  intros H. apply (all64 (fun n => match b64value (b64char n) with Some m => (m =? n)%N | None => false end)) in H; [|vm_compute; reflexivity].
  destruct (b64value (b64char n)) as [m|]; [|discriminate]. apply N.eqb_eq in H. congruence.
Qed.
Lemma char_range n : (n < 64)%N -> (32 <= b64char n < 127)%N /\ b64char n <> 61%N.
Proof.
  intros H. apply (all64 (fun n => (32 <=? b64char n)%N && (b64char n <? 127)%N && negb (b64char n =? 61)%N)) in H; [|vm_compute; reflexivity].
  apply andb_true_iff in H. destruct H as [H1 H2]. apply andb_true_iff in H1. destruct H1 as [H0 H1].
  apply N.leb_le in H0. apply N.ltb_lt in H1. apply negb_true_iff, N.eqb_neq in H2. auto.
Qed.
Lemma char_space n : (n < 64)%N -> re_space (b64char n) = false.
Proof.
  intros H. apply (all64 (fun n => negb (re_space (b64char n)))) in H; [|vm_compute; reflexivity]. apply negb_true_iff. exact H.
Qed.
Definition digit_of (n : N) : N :=
  (if n <? 26 then 65 + n else if n <? 52 then 71 + n else if n <? 62 then n - 4 else if n =? 62 then 43 else 47)%N.
Lemma digit_of_iff n c : digit n c <-> (n < 64 /\ c = digit_of n)%N.
Proof.
  unfold digit, digit_of. destruct (N.ltb_spec n 26); [lia|]. destruct (N.ltb_spec n 52); [lia|]. destruct (N.ltb_spec n 62); [lia|].
  destruct (N.eqb_spec n 62); lia.
Qed.
Lemma char_digit_of n : (n < 64)%N -> b64char n = digit_of n.
Proof.
  intros H. apply (all64 (fun n => (b64char n =? digit_of n)%N)) in H; [|vm_compute; reflexivity]. apply N.eqb_eq. exact H.
Qed.
Lemma digit_char n : (n < 64)%N -> digit n (b64char n).
Proof. intros H. apply digit_of_iff. split; [exact H|apply char_digit_of; exact H]. Qed.

Lemma three_ind (P : bytes -> Prop) : P [] -> (forall a, P [a]) -> (forall a b, P [a; b]) ->
  (forall a b c l, P l -> P (a :: b :: c :: l)) -> forall l, P l.
Proof.
  intros H0 H1 H2 H3. assert (G : forall l, P l /\ (forall a, P (a :: l)) /\ (forall a b, P (a :: b :: l))).
  { induction l as [|x l (I1 & I2 & I3)]; [auto|]. split; [apply I2|]. split; [intros a; apply I3|]. intros a b. apply H3. exact I1. }
  intros l. apply G.
Qed.

Theorem encode_base64 : forall l, all_bytes l -> base64 l (b64encode l).
Proof.
  induction l as [|a|a b|a b c l IH] using three_ind; intros H; unfold all_bytes in H.
  - constructor.
  - inversion H; subst. cbn [b64encode]. eapply B_one; [apply digit_char; lia|apply digit_char; lia|lia].
  - inversion H as [|? ? Ha H']; subst. inversion H'; subst. cbn [b64encode].
    eapply B_two; [apply digit_char; lia|apply digit_char; lia|apply digit_char; lia|lia].
  - inversion H as [|? ? Ha H']; subst. inversion H' as [|? ? Hb H'']; subst. inversion H'' as [|? ? Hc Hl]; subst.
    cbn [b64encode app]. eapply B_three; [apply digit_char; lia|apply digit_char; lia|apply digit_char; lia|apply digit_char; lia|lia|apply IH; exact Hl].
Qed.

Lemma a2b_char n l quad left pads : (n < 64)%N -> a2b (b64char n :: l) quad left pads =
  match quad with
  | 0 => a2b l 1 n 0
  | 1 => option_map (cons (left * 4 + n / 16)%N) (a2b l 2 (n mod 16)%N 0)
  | 2 => option_map (cons (left * 16 + n / 4)%N) (a2b l 3 (n mod 4)%N 0)
  | _ => option_map (cons (left * 64 + n)%N) (a2b l 0 0%N 0)
  end.
Proof.
  intros H. cbn [a2b]. destruct (char_range n H) as [_ E]. apply N.eqb_neq in E. rewrite E, (value_char n H).
  destruct quad as [|[|[|q]]]; reflexivity.
Qed.

Theorem decode_encode : forall l, all_bytes l -> b64decode (b64encode l) = Some l.
Proof.
  unfold b64decode. induction l as [|a|a b|a b c l IH] using three_ind; intros H; unfold all_bytes in H.
  - reflexivity.
  - inversion H; subst. cbn [b64encode]. rewrite !a2b_char by lia. cbn [a2b N.eqb Pos.eqb Nat.leb Nat.add option_map]. f_equal. f_equal. lia.
  - inversion H as [|? ? Ha H']; subst. inversion H'; subst. cbn [b64encode]. rewrite !a2b_char by lia.
    cbn [a2b N.eqb Pos.eqb Nat.leb Nat.add option_map]. f_equal. f_equal; [lia|]. f_equal. lia.
  - inversion H as [|? ? Ha H']; subst. inversion H' as [|? ? Hb H'']; subst. inversion H'' as [|? ? Hc Hl]; subst.
    cbn [b64encode app]. rewrite !a2b_char by lia. rewrite (IH Hl). cbn [option_map]. f_equal. f_equal; [lia|]. f_equal; [lia|]. f_equal. lia.
Qed.

Lemma encode_chars : forall l, all_bytes l ->
  Forall (fun c => (32 <= c < 127)%N /\ re_space c = false) (b64encode l).
Proof.
  assert (P : (32 <= 61 < 127)%N /\ re_space 61 = false) by (split; [lia|reflexivity]).
  assert (C : forall n, (n < 64)%N -> (32 <= b64char n < 127)%N /\ re_space (b64char n) = false).
  { intros n Hn. split; [apply char_range; exact Hn|apply char_space; exact Hn]. }
  induction l as [|a|a b|a b c l IH] using three_ind; intros H; unfold all_bytes in H.
  - constructor.
  - inversion H; subst. cbn [b64encode]. repeat (apply Forall_cons || apply Forall_nil); try exact P; apply C; lia.
  - inversion H as [|? ? Ha H']; subst. inversion H'; subst. cbn [b64encode].
    repeat (apply Forall_cons || apply Forall_nil); try exact P; apply C; lia.
  - inversion H as [|? ? Ha H']; subst. inversion H' as [|? ? Hb H'']; subst. inversion H'' as [|? ? Hc Hl]; subst.
    cbn [b64encode app]. repeat apply Forall_cons; try (apply C; lia). apply IH. exact Hl.
Qed.

(** * The header *)

Lemma has_iff c s : has c s = true <-> In c s.
Proof.
  unfold has. rewrite existsb_exists. split.
  - intros (x & Hx & E). apply N.eqb_eq in E. subst. exact Hx.
  - intros H. exists c. split; [exact H|apply N.eqb_refl].
Qed.
Lemma has_not c s : has c s = false <-> ~ In c s.
Proof. rewrite <- has_iff. destruct (has c s); split; congruence. Qed.

Lemma drop_none p l : Forall (fun c => p c = false) l -> drop_while p l = l.
Proof. destruct 1 as [|c l E _]; [reflexivity|]. cbn. rewrite E. reflexivity. Qed.
Lemma rtrim_none l : Forall (fun c => re_space c = false) l -> rtrim l = l.
Proof. intros H. unfold rtrim. rewrite drop_none; [apply rev_involutive|]. apply Forall_rev. exact H. Qed.

Lemma split_basic token : token <> [] -> Forall (fun c => re_space c = false) token ->
  split_header (text "Basic " ++ token) = Some (text "Basic", token).
Proof.
  intros Hn H. unfold split_header. cbv zeta.
  change (drop_while re_space (text "Basic " ++ token)) with (text "Basic" ++ [32%N] ++ token).
  change (take_while (fun c => negb (re_space c)) (text "Basic" ++ [32%N] ++ token)) with (text "Basic").
  change (drop_while (fun c => negb (re_space c)) (text "Basic" ++ [32%N] ++ token)) with ([32%N] ++ token). cbn [app].
  change (drop_while re_space (32%N :: token)) with (drop_while re_space token).
  rewrite (drop_none re_space token H), (rtrim_none token H).
  replace (has 10 token) with false; [reflexivity|]. symmetry. apply has_not. intros I.
  rewrite Forall_forall in H. apply H in I. discriminate.
Qed.

Lemma split_word w token : w <> [] -> Forall (fun c => re_space c = false) w -> Forall (fun c => re_space c = false) token ->
  split_header (w ++ [32%N] ++ token) = Some (w, token).
Proof.
  intros Hn W H. unfold split_header. cbv zeta.
  assert (D : drop_while re_space (w ++ [32%N] ++ token) = w ++ [32%N] ++ token).
  { destruct W as [|c w E W]; [congruence|]. cbn [app drop_while]. rewrite E. reflexivity. }
  assert (Wn : Forall (fun c => negb (re_space c) = true) w) by (eapply Forall_impl; [|exact W]; intros c Hc; cbn beta; rewrite Hc; reflexivity).
  rewrite D. rewrite (take_while_app (fun c => negb (re_space c)) w ([32%N] ++ token) Wn eq_refl).
  rewrite (drop_while_app (fun c => negb (re_space c)) w ([32%N] ++ token) Wn eq_refl). cbn [app].
  change (drop_while re_space (32%N :: token)) with (drop_while re_space token).
  rewrite (drop_none re_space token H), (rtrim_none token H).
  replace (has 10 token) with false; [reflexivity|]. symmetry. apply has_not. intros I.
  rewrite Forall_forall in H. apply H in I. discriminate.
Qed.

Lemma colon_split u p : no_colon u ->
  take_while (fun c => negb (c =? 58)%N) (u ++ 58%N :: p) = u /\ drop_while (fun c => negb (c =? 58)%N) (u ++ 58%N :: p) = 58%N :: p.
Proof.
  intros H. assert (F : Forall (fun c => negb (c =? 58)%N = true) u).
  { apply Forall_forall. intros c Hc. apply negb_true_iff, N.eqb_neq. intros ->. apply H. exact Hc. }
  split; [apply take_while_app|apply drop_while_app]; auto.
Qed.

(** An encoding which can be undone, and leaves ascii as it is. *)
Definition good_encoding (e : encoding) : Prop :=
  (forall s b, enc e s = Some b -> all_bytes b /\ dec e b = Some s) /\
  (forall b, Forall (fun c => (32 <= c < 127)%N) b -> dec e b = Some b).

Lemma latin1_good : good_encoding latin1.
Proof.
  split.
  - intros s b H. cbn in H. destruct (forallb _ s) eqn:E; [|discriminate]. injection H as <-. split; [|reflexivity].
    apply Forall_forall. intros c Hc. rewrite forallb_forall in E. apply N.ltb_lt, E, Hc.
  - reflexivity.
Qed.

Lemma to_header_form e c h : good_encoding e -> to_header e c = Some h ->
  exists b, enc e (fst c ++ [58%N] ++ snd c) = Some b /\ all_bytes b /\ h = text "Basic " ++ b64encode b.
Proof.
  intros [G1 G2] H. unfold to_header in H. destruct (enc e _) as [b|] eqn:E; [|discriminate]. destruct (G1 _ _ E) as [A D].
  rewrite G2 in H.
  - injection H as <-. exists b. auto.
  - eapply Forall_impl; [|apply encode_chars; exact A]. cbn; intros; lia.
Qed.

Theorem round_trip e u p h : good_encoding e -> no_colon u -> no_line_feed u -> no_line_feed p ->
  to_header e (u, p) = Some h -> from_header e h = Some (u, p).
Proof.
  intros G Hu L1 L2 H. destruct (to_header_form _ _ _ G H) as (b & Eb & A & ->). cbn [fst snd] in Eb. destruct G as [G1 G2].
  destruct (G1 _ _ Eb) as [_ D]. pose proof (encode_chars b A) as C. unfold from_header. rewrite split_basic.
  - change (is_basic (text "Basic")) with true. cbn [negb].
    replace (forallb (fun c => (c <? 128)%N) (b64encode b)) with true.
    2:{ symmetry. apply forallb_forall. intros c Hc. rewrite Forall_forall in C. apply C in Hc. apply N.ltb_lt. lia. }
    cbn [negb]. rewrite (decode_encode b A), D. cbn [app].
    replace (has 10 (u ++ 58%N :: p)) with false.
    2:{ symmetry. apply has_not. intros I. apply in_app_or in I. destruct I as [I|[I|I]]; [exact (L1 I)|discriminate|exact (L2 I)]. }
    destruct (colon_split u p Hu) as [-> ->]. reflexivity.
  - intros E. assert (b = []) as ->. { destruct b as [|x [|y [|z r]]]; [reflexivity|discriminate|discriminate|discriminate]. }
    pose proof (eq_trans (eq_sym (G2 [] (Forall_nil _))) D) as K. destruct u; discriminate.
  - eapply Forall_impl; [|exact C]. intros c [_ Hc]; exact Hc.
Qed.

Theorem latin1_written u p : latin u -> latin p -> exists h, to_header latin1 (u, p) = Some h.
Proof.
  intros H1 H2. unfold to_header. cbn [enc latin1 fst snd]. replace (forallb _ (u ++ [58%N] ++ p)) with true; [eexists; reflexivity|].
  symmetry. apply forallb_forall. intros c Hc. apply N.ltb_lt. unfold latin in *. rewrite Forall_forall in *.
  apply in_app_or in Hc. destruct Hc as [Hc|[<-|Hc]]; [auto|lia|auto].
Qed.

Theorem one_line e c h : good_encoding e -> to_header e c = Some h ->
  header_text h /\ exists b, enc e (fst c ++ [58%N] ++ snd c) = Some b /\ h = text "Basic " ++ b64encode b /\ base64 b (b64encode b).
Proof.
  intros G H. destruct (to_header_form _ _ _ G H) as (b & Eb & A & ->). split.
  - unfold header_text. apply Forall_app. split.
    + apply Forall_forall. intros x Hx. change (text "Basic ") with [66; 97; 115; 105; 99; 32]%N in Hx.
      repeat (destruct Hx as [<-|Hx]; [lia|]). destruct Hx.
    + eapply Forall_impl; [|apply encode_chars; exact A]. intros x [Hx _]; exact Hx.
  - exists b. split; [exact Eb|]. split; [reflexivity|]. apply encode_base64. exact A.
Qed.

Theorem newline_lost : exists u p h, new u p = Some (u, p) /\ to_header latin1 (u, p) = Some h /\ from_header latin1 h = None.
Proof. exists (text "me"), [97; 10; 98]%N, (text "Basic bWU6YQpi"). vm_compute. auto. Qed.

Lemma take_prefix_no c s : ~ In c (take_while (fun x => negb (x =? c)%N) s).
Proof.
  induction s as [|x s IH]; [intros []|]. cbn [take_while]. destruct (N.eqb_spec x c) as [->|E]; cbn [negb]; [intros []|].
  intros [H|H]; [congruence|exact (IH H)].
Qed.

Lemma is_basic_folds m : is_basic m = true -> folds_to_basic m.
Proof.
  destruct m as [|b [|a [|s [|i [|c [|? m]]]]]]; try discriminate. unfold is_basic, folds_to_basic. cbn [existsb].
  rewrite !orb_false_r, !andb_true_iff, !orb_true_iff, !N.eqb_eq. change (text "basic") with [98; 97; 115; 105; 99]%N.
  intros ((((Hb & Ha) & Hs) & Hi) & Hc). repeat apply Forall2_cons; try apply Forall2_nil; lia.
Qed.

Lemma digit_inv n c : digit n c -> (n < 64)%N /\ c = b64char n.
Proof. intros H. apply digit_of_iff in H. destruct H as [H ->]. split; [exact H|]. symmetry. apply char_digit_of. exact H. Qed.

Theorem decode_base64 : forall b s, base64 b s -> all_bytes b -> b64decode s = Some b.
Proof.
  unfold b64decode. intros b s H. induction H as [|a b c w x y z cw cx cy cz l s Dw Dx Dy Dz E _ IH|a b w x y cw cx cy Dw Dx Dy E|a w x cw cx Dw Dx E]; intros A;
    unfold all_bytes in A.
  - reflexivity.
  - inversion A as [|? ? Ha A']; subst. inversion A' as [|? ? Hb A'']; subst. inversion A'' as [|? ? Hc Al]; subst.
    apply digit_inv in Dw, Dx, Dy, Dz. destruct Dw as [Lw ->], Dx as [Lx ->], Dy as [Ly ->], Dz as [Lz ->].
    rewrite !a2b_char by assumption. rewrite (IH Al). cbn [option_map]. f_equal. f_equal; [lia|]. f_equal; [lia|]. f_equal. lia.
  - inversion A as [|? ? Ha A']; subst. inversion A' as [|? ? Hb _]; subst.
    apply digit_inv in Dw, Dx, Dy. destruct Dw as [Lw ->], Dx as [Lx ->], Dy as [Ly ->].
    rewrite !a2b_char by assumption. cbn [a2b N.eqb Pos.eqb Nat.leb Nat.add option_map]. f_equal. f_equal; [lia|]. f_equal. lia.
  - inversion A as [|? ? Ha _]; subst. apply digit_inv in Dw, Dx. destruct Dw as [Lw ->], Dx as [Lx ->].
    rewrite !a2b_char by assumption. cbn [a2b N.eqb Pos.eqb Nat.leb Nat.add option_map]. f_equal. f_equal. lia.
Qed.
Lemma base64_chars : forall b s, base64 b s -> Forall (fun c => (32 < c < 127)%N) s.
Proof.
  assert (C : forall n c, digit n c -> (32 < c < 127)%N).
  { intros n c H. apply digit_inv in H. destruct H as [L ->]. pose proof (char_range n L) as [R _]. pose proof (char_space n L) as Sp.
    destruct (N.eq_dec (b64char n) 32) as [E|E]; [rewrite E in Sp; discriminate|lia]. }
  intros b s H. induction H; repeat (apply Forall_cons || apply Forall_nil); try assumption; try lia; eapply C; eassumption.
Qed.

Theorem read_credentials e h u p : from_header e h = Some (u, p) ->
  no_colon u /\ no_line_feed u /\ no_line_feed p /\ new u p = Some (u, p) /\
  exists w1 m w2 token w3 b t, h = w1 ++ m ++ w2 ++ token ++ w3 /\ w2 <> [] /\
    Forall (fun c => re_space c = true) w1 /\ Forall (fun c => re_space c = true) w2 /\ Forall (fun c => re_space c = true) w3 /\
    folds_to_basic m /\ b64decode token = Some b /\ dec e b = Some t /\ means t u p.
Proof.
  unfold from_header. destruct (split_header h) as [[m tok]|] eqn:S; [|discriminate].
  destruct (is_basic m) eqn:B; [|discriminate]. cbn [negb]. destruct (forallb _ tok); [|discriminate]. cbn [negb].
  destruct (b64decode tok) as [b|] eqn:D; [|discriminate]. destruct (dec e b) as [t|] eqn:T; [|discriminate].
  destruct (has 10 t) eqn:L; [discriminate|]. intros H. injection H as Hu Hp. apply has_not in L.
  assert (Et : t = u ++ 58%N :: p \/ t = u /\ p = []).
  { pose proof (take_drop (fun c => negb (c =? 58)%N) t) as TD. rewrite Hu in TD.
    destruct (drop_while (fun c => negb (c =? 58)%N) t) as [|x r] eqn:Dr; [right; rewrite app_nil_r in TD; auto|]. left. subst p.
    assert (x = 58%N) as ->; [|congruence].
    clear -Dr. revert Dr. induction t as [|y t IH]; [discriminate|]. cbn [drop_while]. destruct (N.eqb_spec y 58); cbn [negb]; [congruence|exact IH]. }
  assert (Nc : no_colon u) by (rewrite <- Hu; apply take_prefix_no).
  split; [exact Nc|]. split; [|split; [|split]].
  - intros I. apply L. destruct Et as [-> |[-> _]]; [apply in_or_app; auto|exact I].
  - intros I. apply L. destruct Et as [-> |[-> E]]; [apply in_or_app; right; right; exact I|exfalso; rewrite E in I; exact I].
  - unfold new. apply has_not in Nc. rewrite Nc. reflexivity.
  - unfold split_header in S. cbv zeta in S.
    set (h1 := drop_while re_space h) in *. pose proof (take_drop re_space h) as T1. fold h1 in T1.
    pose proof (take_drop (fun c => negb (re_space c)) h1) as T2.
    destruct (drop_while (fun c => negb (re_space c)) h1) as [|x rest] eqn:R; [discriminate|].
    destruct (has 10 (rtrim (drop_while re_space (x :: rest)))); [discriminate|]. injection S as Em Et'.
    assert (Sx : re_space x = true).
    { clear -R. revert R. induction h1 as [|y l IH]; [discriminate|]. cbn [drop_while]. destruct (re_space y) eqn:E; cbn [negb]; [|exact IH].
      intros K. injection K as <- _. exact E. }
    pose proof (take_drop re_space (x :: rest)) as T3. set (r2 := drop_while re_space (x :: rest)) in *.
    pose proof (take_drop re_space (rev r2)) as T4. apply (f_equal (@rev N)) in T4. rewrite rev_app_distr, rev_involutive in T4.
    assert (TF : forall q l, Forall (fun c => q c = true) (take_while q l)).
    { clear. intros q l. induction l as [|c l IH]; [constructor|]. cbn [take_while]. destruct (q c) eqn:E; [constructor; assumption|constructor]. }
    exists (take_while re_space h), m, (take_while re_space (x :: rest)), tok, (rev (take_while re_space (rev r2))), b, t.
    split.
    { transitivity (take_while re_space h ++ h1); [symmetry; exact T1|]. f_equal. rewrite <- Em.
      transitivity (take_while (fun c => negb (re_space c)) h1 ++ (x :: rest)); [symmetry; exact T2|]. f_equal.
      transitivity (take_while re_space (x :: rest) ++ r2); [symmetry; exact T3|]. f_equal.
      subst tok. symmetry. exact T4. }
    split; [cbn [take_while]; rewrite Sx; discriminate|].
    split; [apply TF|]. split; [apply TF|]. split; [apply Forall_rev, TF|]. split; [apply is_basic_folds; exact B|].
    split; [exact D|]. split; [exact T|]. split; [exact Nc|exact Et].
Qed.

Lemma means_unique t u p u' p' : means t u p -> means t u' p' -> u = u' /\ p = p'.
Proof.
  assert (G : forall t u p, means t u p -> u = take_while (fun c => negb (c =? 58)%N) t /\
    p = match drop_while (fun c => negb (c =? 58)%N) t with [] => [] | _ :: p => p end).
  { clear. intros t u p [Nc [-> |[-> ->]]].
    - cbn [app]. destruct (colon_split u p Nc) as [-> ->]. auto.
    - assert (F : Forall (fun c => negb (c =? 58)%N = true) u).
      { apply Forall_forall. intros c Hc. apply negb_true_iff, N.eqb_neq. intros ->. apply Nc. exact Hc. }
      pose proof (take_while_app (fun c => negb (c =? 58)%N) u [] F Logic.I) as E1. pose proof (drop_while_app (fun c => negb (c =? 58)%N) u [] F Logic.I) as E2.
      rewrite app_nil_r in E1, E2. rewrite E1, E2. auto. }
  intros A B. destruct (G _ _ _ A) as [-> ->], (G _ _ _ B) as [-> ->]. auto.
Qed.

Theorem every_case w token b t e u p : basic_word w -> base64 b token -> all_bytes b -> dec e b = Some t -> no_line_feed t ->
  means t u p -> from_header e (w ++ [32%N] ++ token) = Some (u, p).
Proof.
  intros W B64 Ab Dt L M. pose proof (base64_chars _ _ B64) as Tf. pose proof (decode_base64 _ _ B64 Ab) as D.
  assert (Tsp : Forall (fun c => re_space c = false) token).
  { eapply Forall_impl; [|exact Tf]. intros c Hc. cbn beta in Hc.
    unfold re_space, is_space. cbn [existsb].
    repeat match goal with
    | |- context [(c =? ?k)%N] => rewrite (proj2 (N.eqb_neq c k)) by lia
    | |- context [(?k <=? c)%N] => first [rewrite (proj2 (N.leb_le k c)) by lia | rewrite (proj2 (N.leb_gt k c)) by lia]
    | |- context [(c <=? ?k)%N] => first [rewrite (proj2 (N.leb_gt c k)) by lia | rewrite (proj2 (N.leb_le c k)) by lia]
    end. reflexivity. }
  unfold basic_word in W. change (text "basic") with [98; 97; 115; 105; 99]%N in W.
  assert (E : split_header (w ++ [32%N] ++ token) = Some (w, token) /\ is_basic w = true).
  { assert (Wf : Forall (fun c => re_space c = false) w /\ is_basic w = true /\ w <> []).
    { repeat match goal with H : Forall2 _ _ (_ :: _) |- _ => inversion H; clear H; subst end.
      match goal with H : Forall2 _ _ [] |- _ => inversion H; clear H; subst end.
      repeat match goal with H : ?x = ?k \/ (?x + 32)%N = ?k |- _ =>
        assert (x = k \/ x = (k - 32)%N) as [-> | ->] by lia; clear H end;
      (split; [repeat apply Forall_cons; try reflexivity; apply Forall_nil|split; [reflexivity|discriminate]]). }
    destruct Wf as (W1 & W2 & W3). split; [|exact W2]. apply split_word; assumption. }
  destruct E as [E1 E2]. unfold from_header. rewrite E1, E2. cbn [negb].
  replace (forallb (fun c => (c <? 128)%N) token) with true.
  2:{ symmetry. apply forallb_forall. intros c Hc. rewrite Forall_forall in Tf. apply Tf in Hc. apply N.ltb_lt. lia. }
  cbn [negb]. rewrite D, Dt. apply has_not in L. rewrite L. f_equal.
  destruct (means_unique t u p (take_while (fun c => negb (c =? 58)%N) t)
    (match drop_while (fun c => negb (c =? 58)%N) t with [] => [] | _ :: p => p end) M) as [-> ->]; [|reflexivity].
  split; [apply take_prefix_no|].
  pose proof (take_drop (fun c => negb (c =? 58)%N) t) as TD.
  destruct (drop_while (fun c => negb (c =? 58)%N) t) as [|x r] eqn:Dr; [right; rewrite app_nil_r in TD; auto|left].
  assert (x = 58%N) as ->; [|cbn [app]; congruence].
  clear -Dr. revert Dr. induction t as [|y t IH]; [discriminate|]. cbn [drop_while]. destruct (N.eqb_spec y 58); cbn [negb]; [congruence|exact IH].
Qed.

Theorem foreign_method : exists h u p, h = [98; 97; 383; 105; 99; 32]%N ++ text "bWU6cHc=" /\ from_header latin1 h = Some (u, p) /\
  forall m, (exists token, h = m ++ [32%N] ++ token) -> ~ basic_word m.
Proof.
  eexists. exists (text "me"), (text "pw"). split; [reflexivity|]. split; [vm_compute; reflexivity|].
  intros m (token & E) W. unfold basic_word in W. change (text "basic") with [98; 97; 115; 105; 99]%N in W.
  repeat match goal with H : Forall2 _ _ (_ :: _) |- _ => inversion H; clear H; subst end.
  match goal with H : Forall2 _ _ [] |- _ => inversion H; clear H; subst end.
  cbn in E. injection E as E1 E2 E3. subst. lia.
Qed.

Theorem lenient : exists h token u p, h = text "Basic " ++ token /\ from_header latin1 h = Some (u, p) /\ forall b, ~ base64 b token.
Proof.
  exists (text "Basic dTpw!!"), (text "dTpw!!"), (text "u"), (text "p"). split; [reflexivity|]. split; [vm_compute; reflexivity|].
  intros b H. inversion H as [|? ? ? ? ? ? ? ? ? ? ? ? ? ? ? ? ? ? H2| |]; subst. inversion H2.
Qed.

(** * Credentials of urls *)

Theorem http_sent u p : u <> [] -> no_colon u -> no_line_feed u -> no_line_feed (match p with Some p => p | None => [] end) ->
  latin u -> latin (match p with Some p => p | None => [] end) ->
  exists h, http_authorization (Some u) p = Header h /\ header_text h /\
    from_header latin1 h = Some (u, match p with Some p => p | None => [] end).
Proof.
  intros Hn Hc L1 L2 A1 A2. unfold http_authorization. destruct u as [|x u]; [congruence|]. set (v := x :: u) in *.
  replace (match p with None => [] | Some p => p end) with (match p with Some p => p | None => [] end) by (destruct p; reflexivity).
  set (q := match p with Some p => p | None => [] end) in *. unfold new. pose proof Hc as Hc'. apply has_not in Hc'. rewrite Hc'.
  destruct (latin1_written v q A1 A2) as (h & E). rewrite E. exists h. split; [reflexivity|]. split.
  - apply (one_line latin1 (v, q) h latin1_good E).
  - apply round_trip; auto using latin1_good.
Qed.

Theorem http_only user p v : http_authorization user p = Header v -> exists u, user = Some u /\ u <> [] /\ no_colon u /\
  to_header latin1 (u, match p with Some p => p | None => [] end) = Some v.
Proof.
  unfold http_authorization. destruct user as [[|x u]|]; try discriminate. unfold new. destruct (has 58 (x :: u)) eqn:E; [discriminate|].
  replace (match p with None => [] | Some p => p end) with (match p with Some p => p | None => [] end) by (destruct p; reflexivity).
  destruct (to_header latin1 _) as [h|] eqn:E2; [|discriminate]. intros H. injection H as ->. exists (x :: u).
  split; [reflexivity|]. split; [discriminate|]. split; [apply has_not; exact E|]. exact E2.
Qed.

Theorem http_raises u p : u <> [] ->
  (exists v, http_authorization (Some u) p = Header v) \/
  http_authorization (Some u) p = Raised /\ (~ no_colon u \/ exists c, In c (u ++ match p with Some p => p | None => [] end) /\ (255 < c)%N).
Proof.
  intros Hu. destruct (http_authorization (Some u) p) as [|v|] eqn:E; [|left; exists v; reflexivity|right; split; [reflexivity|]].
  - exfalso. unfold http_authorization in E. destruct u as [|x u]; [congruence|]. destruct (new _ _); [|discriminate].
    destruct (to_header _ _); discriminate.
  - unfold http_authorization in E. destruct u as [|x u]; [congruence|]. unfold new in E. destruct (has 58 (x :: u)) eqn:E1.
    { left. intros K. apply has_not in K. congruence. }
    replace (match p with None => [] | Some p => p end) with (match p with Some p => p | None => [] end) in E by (destruct p; reflexivity).
    set (q := match p with Some p => p | None => [] end) in *. right.
    destruct (Forall_Exists_dec (fun c => (c < 256)%N) (fun c => match N.compare c 256 as r return (N.compare c 256 = r -> {(c < 256)%N} + {~ (c < 256)%N}) with Lt => fun h => left h | _ => fun h => right (fun k => eq_ind Lt (fun r => match r with Lt => True | _ => False end) Logic.I _ (eq_trans (eq_sym k) h)) end eq_refl) ((x :: u) ++ q)) as [A|B].
    + apply Forall_app in A. destruct A as [A1 A2]. destruct (latin1_written (x :: u) q A1 A2) as (h & E2). rewrite E2 in E. discriminate.
    + apply Exists_exists in B. destruct B as (c & B & C). exists c. split; [exact B|lia].
Qed.

Theorem password_only : exists p, p <> [] /\ http_authorization None (Some p) = NoHeader.
Proof. exists (text "secret"). split; [discriminate|reflexivity]. Qed.
Theorem colon_raises : exists u p, u <> [] /\ http_authorization (Some u) (Some p) = Raised.
Proof. exists (text "a:b"), (text "p"). split; [discriminate|reflexivity]. Qed.
Theorem web_socket_raises : forall user password, user <> None \/ password <> None -> web_socket_authorization user password = Raised.
Proof. intros [u|] [p|] H; cbn; try reflexivity; [destruct (new u p); reflexivity|destruct H; congruence]. Qed.
Theorem web_socket_never : exists u p, latin u /\ latin p /\ no_colon u /\ (forall v, web_socket_authorization (Some u) (Some p) <> Header v) /\
  (exists v, http_authorization (Some u) (Some p) = Header v).
Proof.
  exists (text "me"), (text "pw"). split; [|split; [|split; [|split]]].
  - unfold latin. repeat (apply Forall_cons || apply Forall_nil); reflexivity.
  - unfold latin. repeat (apply Forall_cons || apply Forall_nil); reflexivity.
  - cbv. intuition discriminate.
  - intros v. discriminate.
  - eexists. vm_compute. reflexivity.
Qed.
