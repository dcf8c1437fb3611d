From Coq Require Import String List Arith Bool NArith ZArith Lia.
From Verif Require Import Bytes QuoteModel QuoteSpec FrameProofs.
Import ListNotations.

Ltac nlia := unfold bytes, byte, str in *; zify; Z.to_euclidean_division_equations; lia.

Lemma mem_In c l : mem c l = true <-> In c l.
Proof.
  unfold mem. rewrite existsb_exists. split.
  - intros (x & Hx & He). apply N.eqb_eq in He. subst. assumption.
  - intros H. exists c. split; [assumption | apply N.eqb_refl].
Qed.
Lemma mem_not_In c l : mem c l = false <-> ~ In c l.
Proof. rewrite <- mem_In. destruct (mem c l); split; intros; congruence. Qed.

(** * utf-8 *)

Ltac bcase :=
  match goal with
  | |- context [N.ltb ?a ?b] => destruct (N.ltb_spec a b)
  | |- context [N.leb ?a ?b] => destruct (N.leb_spec a b)
  end.

Lemma encode1_cases c : scalar c ->
  (encode1 c = [c] /\ c < 128)%N \/
  (exists x y, encode1 c = [192 + x; 128 + y] /\ c = x * 64 + y /\ 2 <= x < 32 /\ y < 64)%N \/
  (exists x y z, encode1 c = [224 + x; 128 + y; 128 + z] /\ c = x * 4096 + y * 64 + z /\ x < 16 /\ y < 64 /\ z < 64 /\
     2048 <= c /\ ~ (55296 <= c < 57344))%N \/
  (exists x y z w, encode1 c = [240 + x; 128 + y; 128 + z; 128 + w] /\ c = x * 262144 + y * 4096 + z * 64 + w /\
     x < 5 /\ y < 64 /\ z < 64 /\ w < 64 /\ 65536 <= c /\ c < 1114112)%N.
Proof.
  intros [Hc Hs]. unfold encode1.
  destruct (N.ltb_spec c 128) as [H1|H1]; [|destruct (N.ltb_spec c 2048) as [H2|H2]; [|destruct (N.ltb_spec c 65536) as [H3|H3]]].
  - left. auto.
  - right. left. exists (c / 64)%N, (c mod 64)%N. split; [reflexivity|]. nlia.
  - right. right. left. exists (c / 4096)%N, ((c / 64) mod 64)%N, (c mod 64)%N. split; [reflexivity|]. nlia.
  - right. right. right. exists (c / 262144)%N, ((c / 4096) mod 64)%N, ((c / 64) mod 64)%N, (c mod 64)%N. split; [reflexivity|]. nlia.
Qed.

Ltac btrue := repeat first
  [ rewrite (proj2 (N.ltb_lt _ _)) by lia | rewrite (proj2 (N.ltb_ge _ _)) by lia
  | rewrite (proj2 (N.leb_le _ _)) by lia | rewrite (proj2 (N.leb_gt _ _)) by lia ].
Lemma cont_ok y : (y < 64)%N -> cont (128 + y) = true.
Proof. intros H. unfold cont. btrue. reflexivity. Qed.

Lemma surrogate_ok c : ~ (55296 <= c < 57344)%N -> negb ((55296 <=? c) && (c <? 57344))%N = true.
Proof. intros H. destruct (N.leb_spec 55296 c), (N.ltb_spec c 57344); try reflexivity. lia. Qed.

Lemma decode_encode1 c l : scalar c -> utf8_decode (encode1 c ++ l) = option_map (cons c) (utf8_decode l).
Proof.
  intros Hc. destruct (encode1_cases c Hc) as [(E & H)|[(x & y & E & Ec & H)|[(x & y & z & E & Ec & H)|(x & y & z & w & E & Ec & H)]]];
  rewrite E; cbn [app utf8_decode].
  - btrue. reflexivity.
  - btrue. cbn [andb]. rewrite cont_ok by lia. do 2 f_equal. lia.
  - btrue. cbn [andb]. rewrite ?andb_false_r. cbv zeta.
    replace ((224 + x - 224) * 4096 + (128 + y - 128) * 64 + (128 + z - 128))%N with c by lia.
    rewrite !cont_ok by lia. rewrite surrogate_ok by lia. btrue. reflexivity.
  - btrue. cbn [andb]. rewrite ?andb_false_r. cbv zeta.
    replace ((240 + x - 240) * 262144 + (128 + y - 128) * 4096 + (128 + z - 128) * 64 + (128 + w - 128))%N with c by lia.
    rewrite !cont_ok by lia. btrue. reflexivity.
Qed.

Lemma decode_prefix c p q : scalar c -> encode1 c = p ++ q -> p <> [] -> q <> [] -> utf8_decode p = None.
Proof.
  intros Hc E' Hp Hq. destruct (encode1_cases c Hc) as [(E & H)|[(x & y & E & Ec & H)|[(x & y & z & E & Ec & H)|(x & y & z & w & E & Ec & H)]]];
  rewrite E in E'; clear E; try clear Ec; clear Hc;
  try (remember (192 + x)%N as A eqn:EA); try (remember (224 + x)%N as A2 eqn:EA2); try (remember (240 + x)%N as A3 eqn:EA3);
  try (remember (128 + y)%N as B eqn:EB); try (remember (128 + z)%N as C eqn:EC); try (remember (128 + w)%N as D eqn:ED);
  destruct p as [|a p]; try congruence; cbn [app] in E'; injection E' as <- E';
  repeat (destruct p as [|? p]; cbn [app] in E'; [|try discriminate E'; injection E' as <- E']);
  try (destruct q; congruence); cbn [utf8_decode]; btrue; cbn [andb]; rewrite ?andb_false_r; reflexivity.
Qed.

Lemma encode1_nonempty c : encode1 c <> [].
Proof. unfold encode1. repeat bcase; discriminate. Qed.

Lemma encode1_low c : (c < 128)%N -> encode1 c = [c].
Proof. intros H. unfold encode1. apply N.ltb_lt in H. rewrite H. reflexivity. Qed.

Lemma encode1_bytes c b : scalar c -> In b (encode1 c) -> (b < 256)%N.
Proof.
  intros [Hc Hs]. unfold encode1. repeat bcase; cbn [In]; intros H'; decompose [or] H'; try contradiction; subst; nlia.
Qed.

Lemma encode1_high c b : (128 <= c)%N -> In b (encode1 c) -> (128 <= b)%N.
Proof.
  intros Hc. unfold encode1. repeat bcase; cbn [In]; intros H'; decompose [or] H'; try contradiction; subst; nlia.
Qed.

(** * quote *)

Lemma upper_digit_hex v : (v < 16)%N -> upper_hex (upper_digit v).
Proof. intros H. unfold upper_digit, upper_hex. bcase; lia. Qed.

Lemma quote_byte_text set qs b : (b < 256)%N -> forallb (fun x => N.ltb x 128) (quote_byte set qs b) = true ->
  forall l, escaped_text (fun c => In c set \/ qs = true /\ c = 43%N) l ->
  escaped_text (fun c => In c set \/ qs = true /\ c = 43%N) (quote_byte set qs b ++ l).
Proof.
  intros Hb. unfold quote_byte. destruct (qs && N.eqb b 32) eqn:E1.
  - apply andb_true_iff in E1. intros _ l Hl. apply ET_char; [right; tauto|reflexivity|assumption].
  - destruct (mem b set) eqn:E2.
    + intros H l Hl. cbn [forallb] in H. rewrite andb_true_r in H. apply N.ltb_lt in H.
      apply ET_char; [left; apply mem_In; assumption|assumption|assumption].
    + intros _ l Hl. apply ET_escape; [apply upper_digit_hex; nlia|apply upper_digit_hex; nlia|assumption].
Qed.

Lemma utf8_bytes s : Forall scalar s -> Forall (fun b => (b < 256)%N) (utf8 s).
Proof.
  induction 1 as [|c s Hc _ IH]; [constructor|]. unfold utf8 in *. cbn [flat_map]. apply Forall_app. split; [|exact IH].
  apply Forall_forall. intros b. apply encode1_bytes. exact Hc.
Qed.

Theorem quote_text safe protected qs s q : Forall scalar s -> quote safe protected qs s = Some q ->
  escaped_text (fun c => In c (safe_set safe protected qs) \/ qs = true /\ c = 43%N) q.
Proof.
  intros Hs. apply utf8_bytes in Hs. unfold quote. set (set := safe_set _ _ _).
  destruct (forallb _ _) eqn:E; [|discriminate]. intros H. injection H as <-. revert E.
  induction Hs as [|b l Hb _ IH]; intros E; [constructor|].
  cbn [flat_map] in *. rewrite forallb_app in E. apply andb_true_iff in E. destruct E as [E1 E2].
  apply quote_byte_text; auto.
Qed.

Lemma upper_digit_low v : (v < 16)%N -> N.ltb (upper_digit v) 128 = true.
Proof. intros H. apply N.ltb_lt. destruct (upper_digit_hex v H); lia. Qed.

Lemma quote_some set qs : Forall (fun c => (c < 128)%N) set -> forall bs, Forall (fun b => (b < 256)%N) bs ->
  forallb (fun b => N.ltb b 128) (flat_map (quote_byte set qs) bs) = true.
Proof.
  intros Hset bs. induction 1 as [|b l Hb _ IH]; [reflexivity|]. cbn [flat_map]. rewrite forallb_app, IH, andb_true_r.
  unfold quote_byte. destruct (qs && _); [reflexivity|]. destruct (mem b set) eqn:E.
  - apply mem_In in E. rewrite Forall_forall in Hset. cbn [forallb]. rewrite (proj2 (N.ltb_lt _ _)) by auto. reflexivity.
  - unfold escape. cbn [forallb]. rewrite !upper_digit_low by nlia. reflexivity.
Qed.

Lemma hex_value_upper v : (v < 16)%N -> hex_value (upper_digit v) = Some v.
Proof.
  intros H. unfold upper_digit. bcase; unfold hex_value.
  - btrue. cbn [andb]. f_equal. lia.
  - btrue. cbn [andb]. f_equal. lia.
Qed.

Lemma rfc_decode_quote set bs : ~ In 37%N set -> Forall (fun b => (b < 256)%N) bs ->
  rfc_decode (flat_map (quote_byte set false) bs) = Some bs.
Proof.
  intros Hset. induction 1 as [|b l Hb _ IH]; [reflexivity|]. cbn [flat_map]. unfold quote_byte at 1. cbn [andb].
  destruct (mem b set) eqn:E.
  - cbn [app rfc_decode]. destruct (N.eqb_spec b 37) as [->|Hn].
    + apply mem_In in E. contradiction.
    + rewrite IH. reflexivity.
  - cbn [escape app rfc_decode]. rewrite N.eqb_refl. rewrite !hex_value_upper by nlia. rewrite IH. f_equal. f_equal. nlia.
Qed.

(** * unquote *)

(** [survives] of a set given as a list. *)
Definition survives_in (set : str) (qs uqs : bool) (c : N) : Prop := survives (fun x => In x set) qs uqs c.

Definition good_digit (v : N) : Prop := v <> 8%N /\ v <> 9%N.
Lemma b16_upper v : (v < 16)%N -> good_digit v -> b16_to_int (upper_digit v) = Some v.
Proof.
  intros H [H8 H9].
  assert (Hv : In v (range 0 8 ++ range 10 6)) by (cbn; lia).
  cbn in Hv. decompose [or] Hv; try contradiction; subst v; reflexivity.
Qed.

Lemma escape_byte b : (b < 256)%N -> no_89 b ->
  b16_to_int (upper_digit (b / 16)) = Some (b / 16)%N /\ b16_to_int (upper_digit (b mod 16)) = Some (b mod 16)%N /\
  N.lor (N.shiftl (b / 16) 4) (b mod 16) = b.
Proof.
  intros Hb Hn. unfold no_89 in Hn. split; [|split].
  - apply b16_upper; [nlia|unfold good_digit; tauto].
  - apply b16_upper; [nlia|unfold good_digit; tauto].
  - rewrite N.shiftl_mul_pow2. change (2 ^ 4)%N with 16%N.
    revert b Hb Hn. intros b Hb _. revert b Hb.
    refine (fun b Hb => proj1 (N.eqb_eq _ _) (byte_forall (fun b => N.eqb (N.lor (b / 16 * 16) (b mod 16)) b) _ b Hb)).
    vm_compute. reflexivity.
Qed.

(** The escapes of the rest of a character, when the first octets are pending. *)
Lemma unquote_escapes uqs c : scalar c -> forall bs p j c0 c1 rest,
  encode1 c = p ++ bs -> (forall b, In b bs -> no_89 b) -> p <> [] ->
  exists j' c0' c1',
    unquote_loop None uqs (Some p) j c0 c1 (flat_map escape bs ++ rest) =
    unquote_loop None uqs (Some (encode1 c)) j' c0' c1' rest.
Proof.
  intros Hc. induction bs as [|b bs IH]; intros p j c0 c1 rest E Hb Hp.
  - rewrite app_nil_r in E. rewrite E. exists j, c0, c1. reflexivity.
  - assert (Hb256 : (b < 256)%N) by (apply (encode1_bytes c); [assumption|rewrite E; apply in_or_app; right; left; reflexivity]).
    destruct (escape_byte b Hb256 (Hb b (or_introl eq_refl))) as (E1 & E2 & E3).
    edestruct (IH (p ++ [b]) true (upper_digit (b / 16)) (upper_digit (b mod 16)) rest) as (j' & c0' & c1' & H).
    + rewrite E, <- app_assoc. reflexivity.
    + intros b' Hb'. apply Hb. right. assumption.
    + destruct p; discriminate.
    + exists j', c0', c1'. rewrite <- H. cbn [flat_map escape app unquote_loop flush].
      rewrite (decode_prefix c p (b :: bs) Hc E Hp) by discriminate.
      rewrite N.eqb_refl, E1, E2, E3. destruct (unquote_loop _ _ _ _ _ _); reflexivity.
Qed.

Lemma render_plain uqs c : (uqs = true -> ~ In c [43; 38; 61]%N) -> render None uqs [c] = [c].
Proof.
  intros H. unfold render. destruct uqs; [|reflexivity]. cbn [andb].
  assert (E : mem c query_string_not_safe = false) by (apply mem_not_In; auto). rewrite E. reflexivity.
Qed.

Lemma decode_one c : scalar c -> utf8_decode (encode1 c) = Some [c].
Proof. intros H. rewrite <- (app_nil_r (encode1 c)), decode_encode1 by assumption. reflexivity. Qed.

Lemma option_map_id {A} (o : option A) : option_map (fun x => x) o = o.
Proof. destruct o; reflexivity. Qed.

Lemma unquote_flush uqs c j c0 c1 rest : scalar c -> (uqs = true -> ~ In c [43; 38; 61]%N) ->
  unquote_loop None uqs (Some (encode1 c)) j c0 c1 rest =
  option_map (cons c) (unquote_loop None uqs None j c0 c1 rest).
Proof.
  intros Hc Hu. destruct rest as [|x rest]; cbn [unquote_loop flush].
  - unfold final. rewrite decode_one, render_plain by assumption. reflexivity.
  - rewrite decode_one, render_plain by assumption.
    match goal with |- option_map _ ?a = option_map _ (option_map _ ?b) => change b with a; destruct a; reflexivity end.
Qed.

Lemma unquote_char uqs c j c0 c1 rest :
  c <> 37%N -> c <> 43%N -> unquote_loop None uqs None j c0 c1 (c :: rest) =
  option_map (cons c) (unquote_loop None uqs None (j && true) c0 c1 rest).
Proof.
  intros H1 H2. cbn [unquote_loop flush]. rewrite (proj2 (N.eqb_neq _ _) H1), (proj2 (N.eqb_neq _ _) H2). cbn [negb].
  destruct (unquote_loop _ _ _ _ _ _ _); reflexivity.
Qed.

Lemma quote_char set qs c : Forall (fun x => (x < 128)%N) set -> scalar c ->
  ~ (qs = true /\ c = 32%N) -> ~ In c set -> flat_map (quote_byte set qs) (encode1 c) = flat_map escape (encode1 c).
Proof.
  intros Hset Hc H1 H2.
  assert (H : forall b, In b (encode1 c) -> quote_byte set qs b = escape b).
  { intros b Hb. unfold quote_byte. rewrite Forall_forall in Hset.
    destruct (N.ltb_spec c 128) as [L|L].
    - rewrite encode1_low in Hb by assumption. destruct Hb as [<-|[]].
      rewrite (proj2 (mem_not_In _ _) H2). destruct qs; [|reflexivity]. destruct (N.eqb_spec c 32); [tauto|reflexivity].
    - pose proof (encode1_high c b L Hb) as Hh.
      destruct (mem b set) eqn:E; [apply mem_In, Hset in E; lia|].
      destruct (N.eqb_spec b 32); [lia|]. rewrite andb_false_r. reflexivity. }
  revert H. generalize (encode1 c). induction b as [|b l IH]; intros H; [reflexivity|].
  cbn [flat_map]. rewrite H by (left; reflexivity). f_equal. apply IH. intros. apply H. right. assumption.
Qed.

Lemma classic_32 qs c : (qs = true /\ c = 32%N) \/ ~ (qs = true /\ c = 32%N).
Proof. destruct qs; [destruct (N.eq_dec c 32); [left; auto|right; tauto]|right; intros [? _]; discriminate]. Qed.

Lemma unquote_quoted set qs uqs : Forall (fun x => (x < 128)%N) set -> forall s, Forall (survives_in set qs uqs) s ->
  forall j c0 c1, unquote_loop None uqs None j c0 c1 (flat_map (quote_byte set qs) (utf8 s)) = Some s.
Proof.
  intros Hset s Hs. induction Hs as [|c s [Hc Hsv] _ IH]; [reflexivity|].
  intros j c0 c1. unfold utf8 in *. cbn [flat_map]. rewrite flat_map_app.
  destruct Hsv as [[-> ->]|[(Hn & Hk & H37 & H43)|(Hk & Hb & Hu)]].
  - cbn [encode1 flat_map]. change (flat_map (quote_byte set true) (encode1 32)) with ([43]%N). cbn [app unquote_loop flush].
    change (N.eqb 43 37) with false. change (N.eqb 43 43) with true. cbn [app option_map]. rewrite IH. reflexivity.
  - assert (L : (c < 128)%N) by (rewrite Forall_forall in Hset; auto).
    rewrite encode1_low by assumption. cbn [flat_map]. unfold quote_byte at 1.
    rewrite (proj2 (mem_In c set) Hk).
    replace (qs && N.eqb c 32) with false by (destruct qs; [destruct (N.eqb_spec c 32); [tauto|reflexivity]|reflexivity]).
    cbn [app]. rewrite unquote_char by assumption. rewrite IH. reflexivity.
  - destruct (classic_32 qs c) as [[-> ->]|Hn].
    + cbn [app unquote_loop flush]. change (flat_map (quote_byte set true) (encode1 32)) with ([43]%N). cbn [app unquote_loop flush].
      change (N.eqb 43 37) with false. change (N.eqb 43 43) with true. cbn [app option_map]. rewrite IH. reflexivity.
    + rewrite quote_char by assumption.
      destruct (encode1 c) as [|b bs] eqn:E; [exfalso; eapply encode1_nonempty; eassumption|].
      assert (Hb256 : (b < 256)%N) by (apply (encode1_bytes c); [assumption|rewrite E; left; reflexivity]).
      destruct (escape_byte b Hb256 (Hb b (or_introl eq_refl))) as (E1 & E2 & E3).
      cbn [flat_map escape app unquote_loop flush]. rewrite N.eqb_refl, E1, E2, E3. cbn [app].
      edestruct (unquote_escapes uqs c Hc bs [b] true (upper_digit (b / 16)) (upper_digit (b mod 16))) as (j' & c0' & c1' & H).
      * rewrite E. reflexivity.
      * intros b' Hb'. apply Hb. right. assumption.
      * discriminate.
      * rewrite H, unquote_flush by assumption. rewrite IH. reflexivity.
Qed.

Lemma quote_ok safe protected qs s : Forall (fun x => (x < 128)%N) (safe_set safe protected qs) -> Forall scalar s ->
  quote safe protected qs s = Some (flat_map (quote_byte (safe_set safe protected qs) qs) (utf8 s)).
Proof.
  intros Hset Hs. unfold quote. rewrite quote_some; [reflexivity|assumption|apply utf8_bytes; assumption].
Qed.

Lemma survives_scalar set qs uqs s : Forall (survives_in set qs uqs) s -> Forall scalar s.
Proof. apply Forall_impl. intros c [H _]. exact H. Qed.

Theorem round_trip safe protected qs uqs s :
  Forall (fun x => (x < 128)%N) (safe_set safe protected qs) -> Forall (survives_in (safe_set safe protected qs) qs uqs) s ->
  exists q, quote safe protected qs s = Some q /\ unquote None uqs q = Some s.
Proof.
  intros Hset Hs. eexists. split; [apply quote_ok; [assumption|eapply survives_scalar; eassumption]|].
  unfold unquote. apply unquote_quoted; assumption.
Qed.

Theorem quote_rfc safe protected s : Forall (fun x => (x < 128)%N) (safe_set safe protected false) ->
  ~ In 37%N (safe_set safe protected false) -> Forall scalar s ->
  exists q, quote safe protected false s = Some q /\ rfc_decode q = Some (utf8 s).
Proof.
  intros Hset Hp Hs. eexists. split; [apply quote_ok; assumption|]. apply rfc_decode_quote; [assumption|apply utf8_bytes; assumption].
Qed.

(** * The query *)

Definition qset : str := safe_set [47; 63; 58; 64; 61]%N [] true.
Lemma qset_ascii : Forall (fun x => (x < 128)%N) qset.
Proof.
  assert (E : forallb (fun x => N.ltb x 128) qset = true) by reflexivity.
  rewrite forallb_forall in E. apply Forall_forall. intros x Hx. apply N.ltb_lt. auto.
Qed.

Lemma quote_byte_in set qs b x : (b < 256)%N -> In x (quote_byte set qs b) ->
  (x = b /\ In b set) \/ x = 43%N \/ x = 37%N \/ upper_hex x.
Proof.
  intros Hb. unfold quote_byte. destruct (qs && _).
  - intros [<-|[]]. auto.
  - destruct (mem b set) eqn:E.
    + intros [<-|[]]. left. split; [reflexivity|apply mem_In; assumption].
    + unfold escape. intros [<-|[<-|[<-|[]]]]; auto; right; right; right; apply upper_digit_hex; nlia.
Qed.

Lemma quoted_in set qs s x : Forall scalar s -> In x (flat_map (quote_byte set qs) (utf8 s)) ->
  (In x set /\ In x (utf8 s)) \/ x = 43%N \/ x = 37%N \/ upper_hex x.
Proof.
  intros Hs Hx. apply in_flat_map in Hx. destruct Hx as (b & Hb & Hx). apply utf8_bytes in Hs. rewrite Forall_forall in Hs.
  apply quote_byte_in in Hx; [|auto]. destruct Hx as [[-> H]|H]; auto.
Qed.

Lemma utf8_low s x : Forall scalar s -> (x < 128)%N -> In x (utf8 s) -> In x s.
Proof.
  intros Hs Hx H. apply in_flat_map in H. destruct H as (c & Hc & H). destruct (N.ltb_spec c 128) as [L|L].
  - rewrite encode1_low in H by assumption. destruct H as [<-|[]]. assumption.
  - apply encode1_high in H; [lia|assumption].
Qed.

Definition qenc (s : str) : str := flat_map (quote_byte qset true) (utf8 s).

Lemma qenc_no_amp s : Forall scalar s -> ~ In 38%N (qenc s).
Proof.
  intros Hs H. apply quoted_in in H; [|assumption].
  assert (E : mem 38 qset = false) by reflexivity. apply mem_not_In in E. unfold upper_hex in H. intuition lia.
Qed.

Lemma qenc_no_eq s : Forall scalar s -> ~ In 61%N s -> ~ In 61%N (qenc s).
Proof.
  intros Hs Hn H. apply quoted_in in H; [|assumption]. unfold upper_hex in H.
  destruct H as [[_ H]|H]; [|lia]. apply Hn, utf8_low; [assumption|lia|assumption].
Qed.

Definition item_ok (kv : str * str) : Prop :=
  Forall (survives_in qset true false) (fst kv) /\ Forall (survives_in qset true false) (snd kv) /\ ~ In 61%N (fst kv).

Lemma find_here' : forall x (l r : bytes), ~ In x l -> find [x] (l ++ x :: r) = Some (length l).
Proof.
  induction l as [|y l IH]; intros r H; cbn [app find starts_with length].
  - rewrite N.eqb_refl. reflexivity.
  - destruct (N.eqb_spec x y) as [->|]; [destruct H; left; reflexivity|]. cbn [andb]. rewrite IH; [reflexivity|]. intro Q. apply H. right. exact Q.
Qed.
Lemma find_absent' : forall x (l : bytes), ~ In x l -> find [x] l = None.
Proof.
  induction l as [|y l IH]; intro H; [reflexivity|]. cbn [find starts_with].
  destruct (N.eqb_spec x y) as [->|]; [destruct H; left; reflexivity|]. cbn [andb]. rewrite IH; [reflexivity|].
  intro Q. apply H. right. exact Q.
Qed.

Lemma firstn_here {A} (l r : list A) : firstn (length l) (l ++ r) = l.
Proof. rewrite firstn_app, Nat.sub_diag, firstn_all. cbn. apply app_nil_r. Qed.
Lemma skipn_here {A} (l r : list A) x : skipn (S (length l)) (l ++ x :: r) = r.
Proof. induction l; [reflexivity|]. cbn [length app]. rewrite skipn_cons. exact IHl. Qed.

Lemma parse_item_enc k v : item_ok (k, v) -> parse_item (qenc k ++ 61%N :: qenc v) = Some [(k, v)].
Proof.
  intros (Hk & Hv & Hn). cbn [fst snd] in *. unfold parse_item.
  rewrite find_here' by (apply qenc_no_eq; [eapply survives_scalar; eassumption|assumption]).
  destruct (qenc k ++ 61%N :: qenc v) eqn:E; [destruct (qenc k); discriminate|]. rewrite <- E.
  rewrite firstn_here, skipn_here. unfold decode_query, unquote, qenc.
  rewrite !unquote_quoted by (assumption || apply qset_ascii). reflexivity.
Qed.

Fixpoint ser (items : list (str * str)) : str :=
  match items with
  | [] => []
  | (k, v) :: l => 38%N :: qenc k ++ 61%N :: qenc v ++ ser l
  end.

Lemma serialize_ser : forall items b, Forall item_ok items ->
  serialize_query b items = Some (match items with [] => [] | _ => (if b then [] else [38%N]) ++ skipn 1 (ser items) end).
Proof.
  induction items as [|[k v] l IH]; intros b H; [reflexivity|]. inversion H as [|? ? (Hk & Hv & Hn) Hl]. subst. cbn [fst snd] in *.
  cbn [serialize_query]. unfold encode_query.
  rewrite !quote_ok by (apply qset_ascii || (eapply survives_scalar; eassumption)).
  rewrite IH by assumption. fold qset. fold (qenc k). fold (qenc v). do 2 f_equal. cbn [ser skipn app]. do 2 f_equal.
  destruct l as [|[k' v'] l]; [reflexivity|]. cbn [ser skipn app]. reflexivity.
Qed.

Lemma parse_ser : forall items fuel, Forall item_ok items -> length (skipn 1 (ser items)) < fuel ->
  parse_query fuel (skipn 1 (ser items)) = Some items.
Proof.
  induction items as [|[k v] l IH]; intros fuel H Hf.
  - destruct fuel; reflexivity.
  - inversion H as [|? ? Hi Hl]. subst. pose proof Hi as (Hk & Hv & Hn). cbn [fst snd] in *. cbn [ser skipn] in *.
    destruct fuel as [|fuel]; [lia|].
    assert (Hamp : ~ In 38%N (qenc k ++ 61%N :: qenc v)).
    { intros Q. apply in_app_or in Q. destruct Q as [Q|[Q|Q]].
      - apply qenc_no_amp in Q; [assumption|eapply survives_scalar; eassumption].
      - discriminate.
      - apply qenc_no_amp in Q; [assumption|eapply survives_scalar; eassumption]. }
    change (qenc k ++ 61%N :: qenc v ++ ser l) with (qenc k ++ (61%N :: qenc v) ++ ser l) in *.
    rewrite app_assoc in *. cbn [parse_query].
    destruct ((qenc k ++ 61%N :: qenc v) ++ ser l) eqn:E; [destruct (qenc k); discriminate|]. rewrite <- E in *. clear E.
    destruct l as [|[k' v'] l].
    + cbn [ser] in *. rewrite app_nil_r in *. rewrite find_absent' by assumption. rewrite parse_item_enc by assumption.
      destruct fuel; reflexivity.
    + assert (E : ser ((k', v') :: l) = 38%N :: skipn 1 (ser ((k', v') :: l))) by reflexivity.
      rewrite E in *. rewrite find_here' by assumption. rewrite firstn_here, skipn_here.
      rewrite parse_item_enc by assumption. rewrite IH; [reflexivity|assumption|].
      rewrite app_length in Hf. cbn [length] in Hf. lia.
Qed.

Theorem query_round_trip items : Forall item_ok items ->
  exists q, serialize_query true items = Some q /\ parse_query (S (length q)) q = Some items.
Proof.
  intros H. eexists. split; [apply serialize_ser; assumption|].
  destruct items as [|kv l]; [reflexivity|]. cbn [app]. apply parse_ser; [assumption|lia].
Qed.

Lemma range_in a n c : In c (range a n) <-> (N.of_nat a <= c < N.of_nat (a + n))%N.
Proof.
  unfold range. rewrite in_map_iff. split.
  - intros (x & <- & H). apply in_seq in H. lia.
  - intros H. exists (N.to_nat c). split; [apply N2Nat.id|]. apply in_seq. lia.
Qed.

Lemma allowed_plain c : In c allowed <-> plain c.
Proof.
  unfold allowed, unreserved, plain. rewrite !in_app_iff, !range_in. cbn [chars In].
  change (N.of_nat 65) with 65%N. change (N.of_nat (65 + 26)) with 91%N. change (N.of_nat 97) with 97%N.
  change (N.of_nat (97 + 26)) with 123%N. change (N.of_nat 48) with 48%N. change (N.of_nat (48 + 10)) with 58%N.
  unfold sub_delimiters_without_quotes. cbn [In]. cbn. intuition lia.
Qed.

Lemma kept_set safe protected qs c : In c (safe_set safe protected qs) <-> kept safe protected qs c.
Proof.
  unfold safe_set, kept. rewrite !in_app_iff, allowed_plain. change (chars "+&=") with query_string_not_safe.
  destruct qs; cbn [In]; intuition congruence.
Qed.

Lemma survives_iff safe protected qs uqs c :
  survives (kept safe protected qs) qs uqs c -> survives_in (safe_set safe protected qs) qs uqs c.
Proof. unfold survives_in, survives. cbv beta. rewrite kept_set. auto. Qed.

Lemma kept_ascii safe protected qs : Forall ascii safe -> Forall ascii protected ->
  Forall (fun x => (x < 128)%N) (safe_set safe protected qs).
Proof.
  intros H1 H2. unfold safe_set. rewrite !Forall_app. split; [exact H1|]. split; [|split; [exact H2|]].
  - apply Forall_forall. intros x Hx. apply allowed_plain in Hx. unfold plain in Hx. cbn in Hx. lia.
  - destruct qs; [constructor|]. repeat constructor.
Qed.

Lemma escaped_text_impl (ok ok' : N -> Prop) l : (forall c, ok c -> ok' c) -> escaped_text ok l -> escaped_text ok' l.
Proof. intros H. induction 1; [apply ET_nil|apply ET_char|apply ET_escape]; auto. Qed.

Theorem quote_safe safe protected qs s q : Forall scalar s -> quote safe protected qs s = Some q ->
  escaped_text (fun c => kept safe protected qs c \/ qs = true /\ c = 43%N) q.
Proof.
  intros Hs Hq. eapply escaped_text_impl; [|apply (quote_text safe protected qs s q Hs Hq)].
  cbv beta. intros c [H|H]; [left; apply kept_set; exact H|right; exact H].
Qed.

Theorem unquote_quote safe protected qs uqs s : Forall ascii safe -> Forall ascii protected ->
  Forall (survives (kept safe protected qs) qs uqs) s ->
  exists q, quote safe protected qs s = Some q /\ unquote None uqs q = Some s.
Proof.
  intros H1 H2 Hs. apply round_trip; [apply kept_ascii; assumption|].
  eapply Forall_impl; [|exact Hs]. intros c. apply survives_iff.
Qed.

Theorem quote_decodes safe protected s : Forall ascii safe -> Forall ascii protected ->
  ~ kept safe protected false 37%N -> Forall scalar s ->
  exists q, quote safe protected false s = Some q /\ rfc_decode q = Some (utf8 s).
Proof.
  intros H1 H2 Hp Hs. apply quote_rfc; [apply kept_ascii; assumption|rewrite kept_set; exact Hp|assumption].
Qed.

Theorem query_round items :
  Forall (fun kv => Forall (survives (kept (chars "/?:@=") [] true) true false) (fst kv) /\
                    Forall (survives (kept (chars "/?:@=") [] true) true false) (snd kv) /\ ~ In 61%N (fst kv)) items ->
  exists q, serialize_query true items = Some q /\ parse_query (S (length q)) q = Some items.
Proof.
  intros H. apply query_round_trip. eapply Forall_impl; [|exact H]. intros [k v] (Hk & Hv & Hn). split; [|split; [|exact Hn]].
  - eapply Forall_impl; [|exact Hk]. intros c. apply survives_iff.
  - eapply Forall_impl; [|exact Hv]. intros c. apply survives_iff.
Qed.
