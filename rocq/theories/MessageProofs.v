From Coq Require Import List Arith Bool NArith String Lia.
From Verif Require Import Bytes Text HeadModel MessageModel MessageSpec.
Import ListNotations.

(** * Texts *)

Lemma contains_iff sub s : contains sub s = true <-> exists a b, s = a ++ sub ++ b.
Proof.
  unfold contains. destruct (find sub s) as [i|] eqn:E.
  - split; [intros _|reflexivity]. apply find_some in E. destruct E as (E & _).
    exists (firstn i s), (skipn (List.length sub) (skipn i s)).
    transitivity (firstn i s ++ skipn i s); [symmetry; apply firstn_skipn|]. f_equal.
    transitivity (firstn (List.length sub) (skipn i s) ++ skipn (List.length sub) (skipn i s)); [symmetry; apply firstn_skipn|].
    f_equal. exact E.
  - split; [discriminate|]. intros (a & b & ->). exfalso. apply (find_none _ _ E (List.length a)); [rewrite app_length; lia|].
    rewrite skipn_app, Nat.sub_diag, skipn_all. cbn [skipn app]. rewrite firstn_app, Nat.sub_diag, firstn_all, app_nil_r. reflexivity.
Qed.

Lemma commas_ne l : commas l <> [].
Proof. destruct l as [|c l]; [discriminate|]. cbn. destruct (c =? 44)%N; [discriminate|]. destruct (commas l); discriminate. Qed.

Lemma commas_part l : forall p, In p (commas l) -> exists a b, l = a ++ p ++ b.
Proof.
  (* the first part is a prefix *)
  assert (G : forall l, (exists b, l = hd [] (commas l) ++ b) /\ forall p, In p (commas l) -> exists a b, l = a ++ p ++ b).
  { clear l. induction l as [|c l [(b & IHb) IH]].
    - split; [exists []; reflexivity|]. intros p [<-|[]]. exists [], []. reflexivity.
    - cbn [commas]. destruct (c =? 44)%N.
      + split; [exists (c :: l); reflexivity|]. intros p [<-|Hp]; [exists [], (c :: l); reflexivity|].
        destruct (IH p Hp) as (a & b' & ->). exists (c :: a), b'. reflexivity.
      + destruct (commas l) as [|q qs] eqn:E; [destruct (commas_ne l E)|]. cbn [hd] in *. split; [exists b; cbn [app]; f_equal; exact IHb|].
        intros p [<-|Hp]; [exists [], b; cbn [app]; f_equal; exact IHb|].
        destruct (IH p (or_intror Hp)) as (a & b' & ->). exists (c :: a), b'. reflexivity. }
  apply G.
Qed.
Lemma trim_part s : exists a b, s = a ++ trim s ++ b.
Proof.
  exists (take_while blank s), (rev (take_while blank (rev (drop_while blank s)))). unfold trim.
  rewrite <- rev_app_distr, take_drop, rev_involutive, take_drop. reflexivity.
Qed.
Lemma elements_part v e : In e (elements v) -> exists a b, v = a ++ e ++ b.
Proof.
  unfold elements. rewrite filter_In, in_map_iff. intros ((p & <- & Hp) & _). destruct (commas_part v p Hp) as (a & b & E).
  destruct (trim_part p) as (a' & b' & E'). exists (a ++ a'), (b' ++ b). rewrite E. rewrite E' at 1. rewrite <- !app_assoc. reflexivity.
Qed.

Lemma drop_all p l : drop_while p l = [] -> Forall (fun c => p c = true) l.
Proof. induction l as [|c l IH]; [constructor|]. cbn. destruct (p c) eqn:E; [|discriminate]. intros H. constructor; auto. Qed.
Lemma drop_while_sub p l c : In c (drop_while p l) -> In c l.
Proof. induction l as [|x l IH]; [intros []|]. cbn. destruct (p x); [intros H; right; auto|auto]. Qed.
Lemma drop_while_keep p l c : In c l -> p c = false -> In c (drop_while p l).
Proof. induction l as [|x l IH]; [intros []|]. intros [-> |H] E; cbn; [rewrite E; left; reflexivity|]. destruct (p x); [auto|right; exact H]. Qed.
Lemma trim_keep s c : In c s -> blank c = false -> In c (trim s).
Proof.
  intros H E. unfold trim. rewrite <- in_rev. apply drop_while_keep; [|exact E]. rewrite <- in_rev. apply drop_while_keep; assumption.
Qed.
Lemma commas_keep l c : In c l -> c <> 44%N -> exists p, In p (commas l) /\ In c p.
Proof.
  induction l as [|x l IH]; [intros []|]. intros H E. cbn [commas]. destruct (N.eqb_spec x 44) as [->|Ex].
  - destruct H as [H|H]; [congruence|]. destruct (IH H E) as (p & Hp & Hc). exists p. split; [right; exact Hp|exact Hc].
  - destruct (commas l) as [|q qs] eqn:Eq; [destruct (commas_ne l Eq)|].
    destruct H as [-> |H]; [exists (c :: q); split; left; reflexivity|].
    destruct (IH H E) as (p & [<-|Hp] & Hc); [exists (x :: q); split; [left; reflexivity|right; exact Hc]|].
    exists p. split; [right; exact Hp|exact Hc].
Qed.
Lemma elements_nil v c : elements v = [] -> In c v -> blank c = true \/ c = 44%N.
Proof.
  intros H Hc. destruct (blank c) eqn:B; [auto|]. destruct (N.eq_dec c 44) as [E|E]; [auto|]. exfalso.
  destruct (commas_keep v c Hc E) as (p & Hp & Hcp). assert (K : In (trim p) (elements v)).
  { unfold elements. apply filter_In. split; [apply in_map; exact Hp|]. pose proof (trim_keep p c Hcp B) as Q. destruct (trim p); [destruct Q|reflexivity]. }
  rewrite H in K. destruct K.
Qed.

Lemma asc (s : str) : forallb (fun c => c <? 128)%N s = true -> ascii s.
Proof. intros H. apply Forall_forall. intros c Hc. rewrite forallb_forall in H. apply N.ltb_lt, H, Hc. Qed.
Lemma tok (s : str) : s <> [] -> forallb (fun c => (32 <? c) && (c <? 127) && negb (c =? 61) && negb (c =? 44) && negb (c =? 36))%N s = true -> token s.
Proof.
  intros Hn H. split; [exact Hn|]. apply Forall_forall. intros c Hc. rewrite forallb_forall in H. apply H in Hc.
  rewrite !andb_true_iff, !negb_true_iff, !N.ltb_lt, !N.eqb_neq in Hc. unfold token_char. tauto.
Qed.

Section Python.
Variables (fold : str -> str) (isdigit : str -> bool) (to_int : str -> option N).
Hypothesis py : python fold isdigit to_int.

Lemma ascii_part a e b : ascii (a ++ e ++ b) -> ascii e.
Proof. intros H. apply Forall_app in H. destruct H as [_ H]. apply Forall_app in H. apply H. Qed.

Lemma fold_has w v e : ascii v -> In e (elements v) -> word w e -> contains w (fold v) = true.
Proof.
  intros A H W. apply contains_iff. destruct (elements_part v e H) as (a & b & E). rewrite (fold_ascii _ _ _ py v A), E, !map_app. unfold word in W.
  rewrite W. eauto.
Qed.
Lemma lower1_blank c : blank c = true \/ c = 44%N -> lower1 c = c.
Proof.
  unfold blank, lower1. intros [H| ->]; [|reflexivity]. apply orb_true_iff in H. rewrite !N.eqb_eq in H. destruct H as [-> | ->]; reflexivity.
Qed.
Lemma blank_no v c w : ascii v -> elements v = [] -> contains (c :: w) (fold v) = true -> blank c = true \/ c = 44%N.
Proof.
  intros A E H. apply contains_iff in H. destruct H as (a & b & H). rewrite (fold_ascii _ _ _ py v A) in H.
  assert (I : In c (map lower1 v)) by (rewrite H; apply in_or_app; right; left; reflexivity).
  apply in_map_iff in I. destruct I as (x & Ex & Hx). pose proof (elements_nil v x E Hx) as B. rewrite (lower1_blank x B) in Ex. subst. exact B.
Qed.

(** * How a message ends *)

Lemma second_nonupgrade brotli status h : empty_status status = false -> chunked fold h = false ->
  second_choice fold brotli (Response status) h None = ReadUntilEof.
Proof. intros E C. unfold second_choice. rewrite E, C. reflexivity. Qed.

Lemma with_reads brotli h r f : (forall d, reads (r d) = Some f) ->
  reads (with_decompressor fold brotli h r) = Some f \/ with_decompressor fold brotli h r = CodingErr.
Proof. intros H. unfold with_decompressor. destruct (decompressor _ _); [left; apply H|right; reflexivity]. Qed.

Lemma empty_status_iff status : (100 <= status)%N -> (empty_status status = true <-> (status = 204 \/ status = 304 \/ status < 200)%N).
Proof.
  intros H. unfold empty_status. rewrite !orb_true_iff, andb_true_iff, !N.eqb_eq, N.leb_le, N.ltb_lt. lia.
Qed.

(** The fields say how the message ends in a simple way: a transfer coding, if any, is a single field whose last element is
    "chunked"; a content length, if any, is a single number; no upgrade is offered. *)
Definition simple (h : fields) : Prop :=
  h Upgrade = [] /\
  (h TransferEncoding = [] \/ exists v, h TransferEncoding = [v] /\ ascii v /\ (elements v = [] \/ ends_chunked (elements v))) /\
  (h ContentLength = [] \/ exists d, h ContentLength = [d] /\ d <> [] /\ Forall (fun c => is_digit c = true) d).

Lemma simple_te h : simple h -> (list_of (h TransferEncoding) = [] /\ chunked fold h = false) \/ (ends_chunked (list_of (h TransferEncoding)) /\ chunked fold h = true).
Proof.
  intros (_ & [E|(v & E & A & D)] & _); unfold chunked, get; rewrite E; cbn [hd_error list_of flat_map]; [left; auto|]. rewrite app_nil_r.
  destruct D as [D|D].
  - left. split; [exact D|]. destruct (contains _ _) eqn:C; [|reflexivity]. apply (blank_no v 99%N _ A D) in C. destruct C; discriminate.
  - right. split; [exact D|]. destruct D as (a & e & D & W). apply (fold_has _ v e A); [rewrite D; apply in_or_app; right; left; reflexivity|exact W].
Qed.

Lemma digits_ascii d : Forall (fun c => is_digit c = true) d -> ascii d.
Proof. intros H. eapply Forall_impl; [|exact H]. cbn beta. intros c Hc. unfold is_digit in Hc. apply andb_true_iff in Hc. rewrite !N.leb_le in Hc. lia. Qed.

Lemma no_upgrade h : h Upgrade = [] -> upgraded fold h = false.
Proof. intros E. unfold upgraded, get. rewrite E. reflexivity. Qed.

Theorem framing_simple brotli m status h f : (100 <= status)%N -> (m = Connect -> 200 <= status < 300)%N -> simple h -> rfc_end m status h f ->
  reads (response_reader fold isdigit to_int brotli m status h) = Some f \/ response_reader fold isdigit to_int brotli m status h = CodingErr.
Proof.
  intros Hs Hc Sm R.
  assert (Q : m <> Other -> f = NoBody).
  { intros Hm. inversion R; subst; try reflexivity; congruence. }
  destruct m; cbn [response_reader]; try (left; cbn; rewrite Q by discriminate; reflexivity). clear Q.
  pose proof (simple_te h Sm) as Te. destruct Sm as (U & _ & Cl).
  assert (L : exists len, (len = None /\ h ContentLength = [] \/ exists d, len = Some (undec d) /\ h ContentLength = [d] /\ d <> [] /\ Forall (fun c => is_digit c = true) d) /\
    payload_reader_task fold isdigit to_int brotli (Response status) h = first_choice fold brotli (Response status) h len).
  { destruct Cl as [E|(d & E & Dn & Dd)].
    - exists None. split; [auto|]. unfold payload_reader_task, get. rewrite E. reflexivity.
    - exists (Some (undec d)). split; [right; exists d; auto|]. unfold payload_reader_task, get. rewrite E. cbn [hd_error].
      rewrite (proj2 (isdigit_ascii _ _ _ py d (digits_ascii d Dd)) (conj Dn Dd)), (to_int_ascii _ _ _ py d Dn Dd). reflexivity. }
  destruct L as (len & Hl & ->). unfold first_choice. rewrite (no_upgrade h U).
  destruct (empty_status status) eqn:Es.
  - left. apply (empty_status_iff status Hs) in Es. inversion R; subst; try reflexivity; try discriminate; lia.
  - assert (Ns : ~ (status = 204 \/ status = 304 \/ status < 200)%N). { intros K. apply (empty_status_iff status Hs) in K. congruence. }
    destruct Te as [[Tl Tc]|[Tl Tc]]; rewrite Tc.
    + assert (Nc : ~ ends_chunked (list_of (h TransferEncoding))). { rewrite Tl. intros (a & e & K & _). destruct a; discriminate. }
      destruct Hl as [[-> El]|(d & -> & El & Dn & Dd)].
      * rewrite second_nonupgrade by assumption.
        left. inversion R; subst; try contradiction; try discriminate; try congruence; try lia; reflexivity.
      * assert (F : f = if (undec d =? 0)%N then NoBody else Exactly (undec d)).
        { inversion R as [| | | | |d' ? ? ? ? ? Hne Hall Hn Hd|]; subst; try contradiction; try discriminate; try congruence; try lia.
          match goal with K : Forall (eq ?x) (h ContentLength) |- _ => rewrite El in K; inversion K; subst end. reflexivity. }
        destruct (N.eqb_spec (undec d) 0) as [Z|Z]; subst f.
        { rewrite Z. cbn. left. reflexivity. }
        { destruct (N.ltb_spec 0 (undec d)) as [_|Z']; [|lia]. apply with_reads. reflexivity. }
    + assert (F : f = Chunked).
      { inversion R; subst; try contradiction; try discriminate; try congruence; try lia;
        match goal with K : list_of _ = [] |- _ => rewrite K in Tl; destruct Tl as (a & e & K' & _); destruct a; discriminate end. }
      subst f. apply with_reads. reflexivity.
Qed.

Theorem bad_length brotli status h d ds : h ContentLength = d :: ds -> ascii d -> (d = [] \/ exists c, In c d /\ is_digit c = false) ->
  response_reader fold isdigit to_int brotli Other status h = PayloadErr.
Proof.
  intros E A B. cbn [response_reader]. unfold payload_reader_task, get. rewrite E. cbn [hd_error].
  destruct (isdigit d) eqn:D; [|reflexivity]. apply (isdigit_ascii _ _ _ py d A) in D. destruct D as [D1 D2].
  destruct B as [->|(c & Hc & K)]; [congruence|]. rewrite Forall_forall in D2. apply D2 in Hc. congruence.
Qed.

(** * Content coding *)

Lemma reads_with brotli k h : let r := payload_reader_task fold isdigit to_int brotli k h in
  (reads r = Some Chunked \/ exists n, reads r = Some (Exactly n)) -> decompressor brotli (encoding fold h) = Some (decodes r).
Proof.
  cbv zeta. assert (W : forall r', (forall d, decodes (r' d) = d) ->
    let r := with_decompressor fold brotli h r' in
    (reads r = Some Chunked \/ exists n, reads r = Some (Exactly n)) -> decompressor brotli (encoding fold h) = Some (decodes r)).
  { intros r' Hr r. subst r. unfold with_decompressor. destruct (decompressor brotli (encoding fold h)) as [d|]; [rewrite Hr; reflexivity|].
    cbn. intros [K|(n0 & K)]; discriminate. }
  assert (S2 : forall len, let r := second_choice fold brotli k h len in
    (reads r = Some Chunked \/ exists n, reads r = Some (Exactly n)) -> decompressor brotli (encoding fold h) = Some (decodes r)).
  { intros len r. subst r. unfold second_choice. destruct k as [c hd|status].
    - destruct hd; [|destruct c]; cbn; intros [K|(n0 & K)]; discriminate.
    - destruct len; [cbn; intros [K|(n0 & K)]; discriminate|]. destruct (empty_status status); [cbn; intros [K|(n0 & K)]; discriminate|].
      destruct (chunked fold h); [apply W; reflexivity|cbn; intros [K|(n0 & K)]; discriminate]. }
  assert (F : forall len, let r := first_choice fold brotli k h len in
    (reads r = Some Chunked \/ exists n, reads r = Some (Exactly n)) -> decompressor brotli (encoding fold h) = Some (decodes r)).
  { intros len r. subst r. unfold first_choice. destruct (upgraded fold h); [apply S2|]. destruct k as [c hd|status]; [cbn; intros [K|(n0 & K)]; discriminate|].
    destruct (empty_status status); [cbn; intros [K|(n0 & K)]; discriminate|]. destruct (chunked fold h); [apply W; reflexivity|].
    destruct len as [n|]; [|apply S2]. destruct (0 <? n)%N; [apply W; reflexivity|apply S2]. }
  unfold payload_reader_task. destruct (get h ContentLength) as [l|]; [|apply F].
  destruct (isdigit l); [|cbn; intros [K|(n0 & K)]; discriminate]. destruct (to_int l); [apply F|cbn; intros [K|(n0 & K)]; discriminate].
Qed.

Theorem coding_partial brotli status h : let r := response_reader fold isdigit to_int brotli Other status h in
  (reads r = Some Chunked \/ exists n, reads r = Some (Exactly n)) ->
  (h ContentEncoding = [] -> decodes r = None) /\
  (forall e, h ContentEncoding = [e] -> ascii e ->
     word (text "gzip") e /\ decodes r = Some Gzip \/ word (text "deflate") e /\ decodes r = Some Deflate \/
     word (text "br") e /\ brotli = true /\ decodes r = Some Brotli \/ word (text "identity") e /\ decodes r = None).
Proof.
  intros r H. subst r. cbn [response_reader] in *. pose proof (reads_with brotli (Response status) h) as K. cbv zeta in K. specialize (K H).
  unfold encoding, get in K. split.
  - intros E. rewrite E in K. cbn in K. congruence.
  - intros e E A. rewrite E in K. cbn [hd_error option_map] in K. rewrite (fold_ascii _ _ _ py e A) in K. unfold word. unfold decompressor in K.
    destruct (beqb (map lower1 e) (text "gzip")) eqn:E1; [apply beqb_eq in E1; left; split; congruence|].
    destruct (beqb (map lower1 e) (text "deflate")) eqn:E2; [apply beqb_eq in E2; right; left; split; congruence|].
    destruct (beqb (map lower1 e) (text "br")) eqn:E3; [apply beqb_eq in E3; right; right; left; destruct brotli; [|discriminate]; repeat split; congruence|].
    destruct (beqb (map lower1 e) (text "identity")) eqn:E4; [apply beqb_eq in E4; right; right; right; split; congruence|]. discriminate.
Qed.

Theorem coding_known brotli m status h :
  (h ContentEncoding = [] \/ exists e es, h ContentEncoding = e :: es /\ ascii e /\
     (word (text "gzip") e \/ word (text "deflate") e \/ word (text "identity") e \/ word (text "br") e /\ brotli = true)) ->
  response_reader fold isdigit to_int brotli m status h <> CodingErr.
Proof.
  intros H. assert (K : exists d, decompressor brotli (encoding fold h) = Some d).
  { unfold encoding, get. destruct H as [E|(e & es & E & A & W)]; rewrite E; cbn [hd_error option_map]; [eexists; reflexivity|].
    rewrite (fold_ascii _ _ _ py e A). unfold word in W.
    destruct W as [W|[W|[W|[W ->]]]]; rewrite W; eexists; vm_compute; reflexivity. }
  destruct K as (d & K). destruct m; try discriminate. cbn [response_reader].
  assert (W : forall r, (forall d, r d <> CodingErr) -> with_decompressor fold brotli h r <> CodingErr).
  { intros r Hr. unfold with_decompressor. rewrite K. apply Hr. }
  assert (S2 : forall len, second_choice fold brotli (Response status) h len <> CodingErr).
  { intros [n|]; cbn [second_choice]; [discriminate|]. destruct (empty_status status); [discriminate|].
    destruct (chunked fold h); [apply W; discriminate|discriminate]. }
  assert (F : forall len, first_choice fold brotli (Response status) h len <> CodingErr).
  { intros len. unfold first_choice. destruct (upgraded fold h); [apply S2|]. destruct (empty_status status); [discriminate|].
    destruct (chunked fold h); [apply W; discriminate|]. destruct len as [n|]; [|apply S2]. destruct (0 <? n)%N; [apply W; discriminate|apply S2]. }
  unfold payload_reader_task. destruct (get h ContentLength) as [l|]; [|apply F].
  destruct (isdigit l); [|discriminate]. destruct (to_int l); [apply F|discriminate].
Qed.

(** * Persistence *)

Theorem close_first v h c cs e : h Connection = c :: cs -> ascii c -> In e (elements c) -> word (text "close") e ->
  keep_alive_enabled fold v h = false.
Proof. intros E A He W. unfold keep_alive_enabled, get. rewrite E. cbn [hd_error]. rewrite (fold_has _ c e A He W). reflexivity. Qed.

Lemma at_least_iff v : at_least_11 v = true <-> (major v = 1 /\ 1 <= minor v \/ 1 < major v)%N.
Proof. unfold at_least_11. rewrite orb_true_iff, andb_true_iff, N.ltb_lt, N.eqb_eq, N.leb_le. tauto. Qed.

(** A single field in which "close" only is written as an element, and which for HTTP/1.0 says one of "close" and "keep-alive". *)
Definition plain_connection (v : version) (h : fields) : Prop :=
  h Connection = [] \/ exists c, h Connection = [c] /\ ascii c /\
    (forall a b, map lower1 c = a ++ text "close" ++ b -> option_in (text "close") h) /\
    ((major v = 1 /\ minor v = 0)%N -> option_in (text "close") h \/ option_in (text "keep-alive") h).

Theorem persistent_partial v h b : plain_connection v h -> persistent v h b -> keep_alive_enabled fold v h = b.
Proof.
  intros [E|(c & E & A & Hc & H10)] P.
  - assert (N : forall w, ~ option_in w h). { intros w (e & He & _). rewrite E in He. destruct He. }
    unfold keep_alive_enabled, get. rewrite E. cbn [hd_error].
    inversion P as [K|_ K|_ _ K|_ K]; subst; try (destruct (N _ K)).
    + apply at_least_iff. exact K.
    + destruct (at_least_11 v) eqn:L; [|reflexivity]. apply at_least_iff in L. lia.
  - assert (Oi : forall w, option_in w h <-> exists e, In e (elements c) /\ word w e).
    { intros w. unfold option_in. rewrite E. cbn [list_of flat_map]. rewrite app_nil_r. reflexivity. }
    assert (Cl : option_in (text "close") h -> keep_alive_enabled fold v h = false).
    { intros K. apply Oi in K. destruct K as (e & He & W). eapply close_first; eassumption. }
    assert (Op : ~ option_in (text "close") h -> keep_alive_enabled fold v h = true).
    { intros K. unfold keep_alive_enabled, get. rewrite E. cbn [hd_error]. destruct (contains _ _) eqn:C; [|reflexivity].
      apply contains_iff in C. destruct C as (a & b' & C). rewrite (fold_ascii _ _ _ py c A) in C. destruct (K (Hc _ _ C)). }
    inversion P as [K|K K2|K K2 K3|K K2]; subst; auto. destruct (H10 K2) as [Q|Q]; [auto|contradiction].
Qed.

(** * Requests *)

Lemma no_upgrade' h : (h Upgrade = [] \/ exists us, h Upgrade = [] :: us) -> upgraded fold h = false.
Proof. intros [E|(us & E)]; unfold upgraded, get; rewrite E; reflexivity. Qed.

Theorem request_raises brotli connect head h : (h Upgrade = [] \/ exists us, h Upgrade = [] :: us) ->
  (h ContentLength = [] \/ exists d ds, h ContentLength = d :: ds /\ d <> [] /\ Forall (fun c => is_digit c = true) d) ->
  payload_reader_task fold isdigit to_int brotli (Request connect head) h = AttributeErr.
Proof.
  intros U [E|(d & ds & E & Dn & Dd)]; unfold payload_reader_task, get; rewrite E; cbn [hd_error].
  - unfold first_choice. rewrite (no_upgrade' h U). reflexivity.
  - rewrite (proj2 (isdigit_ascii _ _ _ py d (digits_ascii d Dd)) (conj Dn Dd)), (to_int_ascii _ _ _ py d Dn Dd).
    unfold first_choice. rewrite (no_upgrade' h U). reflexivity.
Qed.
Theorem request_upgraded brotli connect head h u us c cs : h Upgrade = u :: us -> u <> [] -> h Connection = c :: cs -> ascii c -> word (text "upgrade") c ->
  h ContentLength = [] ->
  payload_reader_task fold isdigit to_int brotli (Request connect head) h = if connect && negb head then ReadUntilEof else NoReader.
Proof.
  intros U Un C A W L. unfold payload_reader_task, get. rewrite L. cbn [hd_error]. unfold first_choice, upgraded, get. rewrite U, C. cbn [hd_error].
  destruct u; [congruence|]. rewrite (fold_ascii _ _ _ py c A). unfold word in W. rewrite W. rewrite beqb_refl. destruct head, connect; reflexivity.
Qed.

(** * The refutations *)

Definition no_fields := only [].


Lemma five : isdigit (text "5") = true /\ to_int (text "5") = Some 5%N.
Proof.
  assert (D : Forall (fun c => is_digit c = true) (text "5")) by (apply Forall_cons; [reflexivity|apply Forall_nil]).
  assert (Dn : text "5" <> []) by discriminate. split.
  - apply (isdigit_ascii _ _ _ py); [apply digits_ascii; exact D|]. split; assumption.
  - apply (to_int_ascii _ _ _ py); assumption.
Qed.

Lemma ends_chunked_last l d : ends_chunked l -> word (text "chunked") (last l d).
Proof. intros (a & e & -> & W). rewrite last_last. exact W. Qed.

Theorem two_fields brotli : exists h, rfc_end Other 200 h Chunked /\
  reads (response_reader fold isdigit to_int brotli Other 200 h) = Some UntilEof.
Proof.
  exists (only [(TransferEncoding, [text "gzip"; text "chunked"])]). split.
  - apply R_chunked; try reflexivity; try discriminate; try lia. exists [text "gzip"], (text "chunked"). split; reflexivity.
  - cbn [response_reader]. unfold payload_reader_task, first_choice, second_choice, upgraded, chunked, get. cbn [only List.find fst snd hd_error].
    rewrite (fold_ascii _ _ _ py (text "gzip")) by (apply asc; reflexivity). reflexivity.
Qed.
Theorem substring brotli : exists h, rfc_end Other 200 h UntilEof /\
  reads (response_reader fold isdigit to_int brotli Other 200 h) = Some Chunked.
Proof.
  exists (only [(TransferEncoding, [text "x-chunked"])]). split.
  - apply R_coded; try reflexivity; try discriminate; try lia. intros K. apply (ends_chunked_last _ []) in K. discriminate.
  - cbn [response_reader]. unfold payload_reader_task, first_choice, upgraded, chunked, get. cbn [only List.find fst snd hd_error].
    rewrite (fold_ascii _ _ _ py (text "x-chunked")) by (apply asc; reflexivity). reflexivity.
Qed.
Theorem coded_length brotli : exists h, rfc_end Other 200 h UntilEof /\
  reads (response_reader fold isdigit to_int brotli Other 200 h) = Some (Exactly 5).
Proof.
  exists (only [(TransferEncoding, [text "gzip"]); (ContentLength, [text "5"])]). split.
  - apply R_coded; try reflexivity; try discriminate; try lia. intros K. apply (ends_chunked_last _ []) in K. discriminate.
  - cbn [response_reader]. unfold payload_reader_task, first_choice, upgraded, chunked, get. cbn [only List.find fst snd hd_error].
    rewrite (fold_ascii _ _ _ py (text "gzip")) by (apply asc; reflexivity).
    destruct five as [-> ->]. reflexivity.
Qed.
Theorem two_lengths brotli : exists h, (forall f, ~ rfc_end Other 200 h f) /\
  reads (response_reader fold isdigit to_int brotli Other 200 h) = Some (Exactly 5).
Proof.
  exists (only [(ContentLength, [text "5"; text "6"])]). split.
  - intros f R. inversion R as [K|K|K|? ? ? ? (a & e & K & _)|? ? ? ? K|d ? ? ? ? ? ? K|? ? ? ? ? K]; try discriminate; try lia.
    + destruct a; discriminate.
    + apply K. reflexivity.
    + cbn in K. inversion K as [|? ? K1 K2]; subst. inversion K2; discriminate.
  - cbn [response_reader]. unfold payload_reader_task, first_choice, upgraded, chunked, get. cbn [only List.find fst snd hd_error].
    destruct five as [-> ->]. reflexivity.
Qed.
Theorem superscript brotli status : response_reader fold isdigit to_int brotli Other status (only [(ContentLength, [[178%N]])]) = ValueErr.
Proof.
  cbn [response_reader]. unfold payload_reader_task, get. cbn [only List.find fst snd hd_error].
  rewrite (isdigit_superscript _ _ _ py), (to_int_superscript _ _ _ py). reflexivity.
Qed.
Theorem eof_not_decoded brotli : exists h, h ContentEncoding = [text "gzip"] /\ rfc_end Other 200 h UntilEof /\
  response_reader fold isdigit to_int brotli Other 200 h = ReadUntilEof.
Proof.
  exists (only [(ContentEncoding, [text "gzip"])]). split; [reflexivity|]. split; [|reflexivity].
  apply R_close; try reflexivity; try discriminate; lia.
Qed.
Theorem second_coding_lost brotli : exists h, h ContentEncoding = [text "gzip"; text "br"] /\ rfc_end Other 200 h Chunked /\
  response_reader fold isdigit to_int brotli Other 200 h = ReadChunked (Some Gzip).
Proof.
  exists (only [(ContentEncoding, [text "gzip"; text "br"]); (TransferEncoding, [text "chunked"])]). split; [reflexivity|]. split.
  - apply R_chunked; try reflexivity; try discriminate; try lia. exists [], (text "chunked"). split; reflexivity.
  - cbn [response_reader]. unfold payload_reader_task, first_choice, with_decompressor, encoding, upgraded, chunked, get.
    cbn [only List.find fst snd hd_error option_map].
    rewrite (fold_ascii _ _ _ py (text "chunked")), (fold_ascii _ _ _ py (text "gzip")) by (apply asc; reflexivity). reflexivity.
Qed.

Lemma enabled_one v c : ascii c -> keep_alive_enabled fold v (only [(Connection, [c])]) = negb (contains (text "close") (map lower1 c)).
Proof. intros A. unfold keep_alive_enabled, get. cbn [only List.find fst snd hd_error]. rewrite (fold_ascii _ _ _ py c A). reflexivity. Qed.

Theorem old_kept : exists h, persistent {| major := 1; minor := 0 |} h false /\ keep_alive_enabled fold {| major := 1; minor := 0 |} h = true.
Proof.
  exists (only [(Connection, [text "upgrade"])]). split.
  - apply P_old; [|split; reflexivity]. intros (e & [<-|[]] & W). discriminate.
  - rewrite enabled_one by (apply asc; reflexivity). reflexivity.
Qed.
Theorem second_close : exists h, persistent {| major := 1; minor := 1 |} h false /\ keep_alive_enabled fold {| major := 1; minor := 1 |} h = true.
Proof.
  exists (only [(Connection, [text "upgrade"; text "close"])]). split.
  - apply P_close. exists (text "close"). split; [right; left; reflexivity|reflexivity].
  - unfold keep_alive_enabled, get. cbn [only List.find fst snd hd_error]. rewrite (fold_ascii _ _ _ py (text "upgrade")) by (apply asc; reflexivity). reflexivity.
Qed.
Theorem closed_too_early : exists h, persistent {| major := 1; minor := 1 |} h true /\ keep_alive_enabled fold {| major := 1; minor := 1 |} h = false.
Proof.
  exists (only [(Connection, [text "x-closed"])]). split.
  - apply P_11; [|left; split; [reflexivity|cbn; lia]]. intros (e & [<-|[]] & W). discriminate.
  - rewrite enabled_one by (apply asc; reflexivity). reflexivity.
Qed.

(** * Keep-alive information *)

Variables (timeout : Type) (timeout_eqb : timeout -> timeout -> bool) (to_float : str -> option timeout) (format0 : timeout -> str)
  (default_timeout : timeout) (count : Type) (count_eqb : count -> count -> bool) (to_count : str -> option count)
  (show_count : count -> str) (default_count : count).

Lemma token_key c : token_char c -> key_char c = true /\ value_char c = true /\ sp c = false /\ (c <? 128)%N = true.
Proof.
  intros (R & E1 & E2 & E3). unfold key_char, value_char, sp.
  rewrite (proj2 (N.eqb_neq c 32)), (proj2 (N.eqb_neq c 9)), (proj2 (N.eqb_neq c 61)), (proj2 (N.eqb_neq c 44)), (proj2 (N.eqb_neq c 36)) by lia.
  repeat split. apply N.ltb_lt. lia.
Qed.
Lemma blank_sp b : blanks b -> Forall (fun c => sp c = true) b.
Proof. intros H. exact H. Qed.

Lemma match_param b k v b' rest : blanks b -> token k -> token v -> blanks b' ->
  match rest with [] => True | c :: _ => c = 44%N end ->
  match_at (b ++ k ++ [61%N] ++ v ++ b' ++ rest) = Some (k, v, tl rest).
Proof.
  intros B [Kn Kt] [Vn Vt] B' R. unfold match_at. cbv zeta.
  assert (K1 : Forall (fun c => key_char c = true) k) by (eapply Forall_impl; [|exact Kt]; intros c Hc; apply (token_key c Hc)).
  assert (V1 : Forall (fun c => value_char c = true) v) by (eapply Forall_impl; [|exact Vt]; intros c Hc; apply (token_key c Hc)).
  rewrite (drop_while_app sp b (k ++ [61%N] ++ v ++ b' ++ rest) (blank_sp b B)).
  2:{ destruct k as [|c k]; [congruence|]. inversion Kt; subst. cbn. apply (token_key c). assumption. }
  rewrite (take_while_app key_char k ([61%N] ++ v ++ b' ++ rest) K1) by reflexivity.
  rewrite (drop_while_app key_char k ([61%N] ++ v ++ b' ++ rest) K1) by reflexivity.
  destruct k as [|kc k]; [congruence|]. set (key := kc :: k) in *.
  cbn [app]. change (drop_while sp (61%N :: v ++ b' ++ rest)) with (61%N :: v ++ b' ++ rest). cbn [N.eqb Pos.eqb].
  change ((61 =? 61)%N) with true. cbv iota.
  assert (D0 : drop_while sp (v ++ b' ++ rest) = v ++ b' ++ rest).
  { destruct v as [|c v]; [congruence|]. inversion Vt; subst. cbn [app drop_while]. destruct (token_key c ltac:(assumption)) as (_ & _ & -> & _). reflexivity. }
  rewrite D0.
  assert (Hd : match b' ++ rest with [] => True | c :: _ => value_char c = false end).
  { destruct B' as [|c b' Hc _]; [cbn; destruct rest as [|c rest]; [exact Logic.I|subst c; reflexivity]|]. cbn.
    unfold value_char, sp. unfold blank in Hc. rewrite Hc. reflexivity. }
  rewrite (take_while_app value_char v (b' ++ rest) V1 Hd), (drop_while_app value_char v (b' ++ rest) V1 Hd).
  rewrite (drop_while_app sp b' rest (blank_sp b' B')).
  2:{ destruct rest as [|c rest]; [exact Logic.I|]. subst c. reflexivity. }
  destruct v as [|vc v]; [congruence|]. destruct rest as [|c rest]; [reflexivity|]. subst c. reflexivity.
Qed.

Lemma finditer_parameters s l : parameters s l -> forall fuel, List.length s < fuel -> finditer fuel s = l.
Proof.
  induction 1 as [b k v b' B Tk Tv B'|b k v b' s l B Tk Tv B' P IH]; intros [|fuel] F; try lia.
  - cbn [finditer]. pose proof (match_param b k v b' [] B Tk Tv B' Logic.I) as M. rewrite app_nil_r in M. rewrite M. cbn [tl].
    destruct fuel; reflexivity.
  - cbn [finditer]. pose proof (match_param b k v b' (44%N :: s) B Tk Tv B' eq_refl) as M. cbn [app] in M |- *. rewrite M. cbn [tl]. f_equal. apply IH.
    rewrite !app_length in F. cbn [List.length] in F. try rewrite !app_length in F. cbn [List.length] in F. lia.
Qed.

Lemma parameters_keys s l : parameters s l -> Forall (fun kv => ascii (fst kv)) l.
Proof.
  assert (A : forall k, token k -> ascii k).
  { intros k [_ H]. eapply Forall_impl; [|exact H]. intros c Hc. apply N.ltb_lt. apply (token_key c Hc). }
  induction 1; repeat (apply Forall_cons || apply Forall_nil); cbn; auto.
Qed.

Local Notation asg := (assign fold timeout to_float count to_count).
Local Notation from := (from_header_value fold timeout to_float default_timeout count to_count default_count).
Local Notation to := (to_header_value timeout timeout_eqb format0 default_timeout count count_eqb show_count default_count).

Lemma assigned l : Forall (fun kv => ascii (fst kv)) l ->
  let i := fold_left asg l (default_timeout, default_count) in
  last_of (text "timeout") to_float default_timeout l (fst i) /\ last_of (text "max") to_count default_count l (snd i).
Proof.
  induction l as [|[k v] l IH] using rev_ind; [split; constructor|]. intros A. apply Forall_app in A. destruct A as [A1 A2]. specialize (IH A1).
  inversion A2 as [|? ? Ak _]; subst. cbn [fst] in Ak. cbv zeta in *. rewrite fold_left_app. cbn [fold_left].
  destruct (fold_left asg l (default_timeout, default_count)) as [t n]. cbn [fst snd] in IH. destruct IH as [IH1 IH2].
  unfold assign. cbn [fst snd]. rewrite (fold_ascii _ _ _ py k Ak).
  destruct (beqb (map lower1 k) (text "timeout")) eqn:E1; [|destruct (beqb (map lower1 k) (text "max")) eqn:E2].
  - apply beqb_eq in E1. cbn [fst snd]. split.
    + destruct (to_float v) as [t'|] eqn:E; [apply V_snoc_yes; assumption|apply V_snoc_no; auto].
    + apply V_snoc_no; [left|exact IH2]. unfold word. rewrite E1. discriminate.
  - apply beqb_eq in E2. cbn [fst snd]. split.
    + apply V_snoc_no; [left|exact IH1]. unfold word. rewrite E2. discriminate.
    + destruct (to_count v) as [t'|] eqn:E; [apply V_snoc_yes; assumption|apply V_snoc_no; auto].
  - cbn [fst snd]. split; (apply V_snoc_no; [left|assumption]); unfold word; intros K; rewrite K in *;
    match goal with H : beqb ?x ?x = false |- _ => rewrite beqb_refl in H; discriminate end.
Qed.

Lemma from_params s l : parameters s l -> from (Some s) = fold_left asg l (default_timeout, default_count).
Proof. intros P. unfold from_header_value. rewrite (finditer_parameters s l P) by lia. reflexivity. Qed.

Theorem info_reads s l : parameters s l ->
  last_of (text "timeout") to_float default_timeout l (fst (from (Some s))) /\
  last_of (text "max") to_count default_count l (snd (from (Some s))).
Proof.
  intros P. unfold from_header_value. rewrite (finditer_parameters s l P) by lia. apply assigned. eapply parameters_keys. exact P.
Qed.

Theorem info_hidden : from (Some (text "foo,timeout=5")) = (default_timeout, default_count).
Proof.
  unfold from_header_value. change (finditer (S (List.length (text "foo,timeout=5"))) (text "foo,timeout=5")) with [(text "foo,timeout", text "5")].
  cbn [fold_left]. unfold assign. cbn [fst snd]. rewrite (fold_ascii _ _ _ py) by (apply asc; reflexivity). reflexivity.
Qed.

Hypothesis timeout_eqb_iff : forall a b, timeout_eqb a b = true <-> a = b.
Hypothesis count_eqb_iff : forall a b, count_eqb a b = true <-> a = b.
Hypothesis format_token : forall t, token (format0 t).
Hypothesis show_token : forall n, token (show_count n).
Hypothesis count_back : forall n, to_count (show_count n) = Some n.


Theorem info_round_trip t n : to_float (format0 t) = Some t \/ t = default_timeout -> from (to (t, n)) = (t, n).
Proof.
  intros H. unfold to_header_value. cbn [fst snd].
  destruct (timeout_eqb t default_timeout) eqn:Et; destruct (count_eqb n default_count) eqn:En; cbn [app].
  - apply timeout_eqb_iff in Et. apply count_eqb_iff in En. subst. reflexivity.
  - apply timeout_eqb_iff in Et. subst t. change (match text "max=" ++ show_count n with [] => None | s => Some s end) with (Some (text "max=" ++ show_count n)).
    assert (P : parameters ([] ++ text "max" ++ [61%N] ++ show_count n ++ []) [(text "max", show_count n)]).
    { apply K_last; [apply Forall_nil|apply tok; [discriminate|reflexivity]|apply show_token|apply Forall_nil]. }
    rewrite app_nil_r in P. etransitivity; [exact (from_params _ _ P)|]. cbn [fold_left]. unfold assign. cbn [fst snd].
    rewrite (fold_ascii _ _ _ py) by (apply asc; reflexivity). cbn [beqb]. change (beqb (map lower1 (text "max")) (text "timeout")) with false.
    change (beqb (map lower1 (text "max")) (text "max")) with true. cbv iota. rewrite count_back. reflexivity.
  - assert (Hf : to_float (format0 t) = Some t). { destruct H as [H|H]; [exact H|]. apply timeout_eqb_iff in H. congruence. }
    apply count_eqb_iff in En. subst n. rewrite app_nil_r.
    change (match text "timeout=" ++ format0 t with [] => None | s => Some s end) with (Some (text "timeout=" ++ format0 t)).
    assert (P : parameters ([] ++ text "timeout" ++ [61%N] ++ format0 t ++ []) [(text "timeout", format0 t)]).
    { apply K_last; [apply Forall_nil|apply tok; [discriminate|reflexivity]|apply format_token|apply Forall_nil]. }
    rewrite app_nil_r in P. etransitivity; [exact (from_params _ _ P)|]. cbn [fold_left]. unfold assign. cbn [fst snd].
    rewrite (fold_ascii _ _ _ py) by (apply asc; reflexivity). 
    change (beqb (map lower1 (text "timeout")) (text "timeout")) with true. cbv iota. rewrite Hf. reflexivity.
  - assert (Hf : to_float (format0 t) = Some t). { destruct H as [H|H]; [exact H|]. apply timeout_eqb_iff in H. congruence. }
    change (match text "timeout=" ++ format0 t with [] => [] | _ => [44%N] end) with [44%N].
    change (match (text "timeout=" ++ format0 t) ++ [44%N] ++ text "max=" ++ show_count n with [] => None | s => Some s end)
      with (Some ((text "timeout=" ++ format0 t) ++ [44%N] ++ text "max=" ++ show_count n)).
    assert (P : parameters ([] ++ text "timeout" ++ [61%N] ++ format0 t ++ [] ++ [44%N] ++ ([] ++ text "max" ++ [61%N] ++ show_count n ++ []))
      [(text "timeout", format0 t); (text "max", show_count n)]).
    { apply K_next; [apply Forall_nil|apply tok; [discriminate|reflexivity]|apply format_token|apply Forall_nil|].
      apply K_last; [apply Forall_nil|apply tok; [discriminate|reflexivity]|apply show_token|apply Forall_nil]. }
    rewrite app_nil_r in P. rewrite <- (app_assoc (text "timeout=")). etransitivity; [exact (from_params _ _ P)|]. cbn [fold_left]. unfold assign. cbn [fst snd].
    rewrite !(fold_ascii _ _ _ py) by (apply asc; reflexivity).
    change (beqb (map lower1 (text "timeout")) (text "timeout")) with true. change (beqb (map lower1 (text "max")) (text "timeout")) with false.
    change (beqb (map lower1 (text "max")) (text "max")) with true. cbv iota. cbn [fst snd]. rewrite Hf, count_back. reflexivity.
Qed.

(** Two timeouts which are written in the same way can not both come back. *)
Theorem info_lossy t t' n : t <> t' -> t <> default_timeout -> t' <> default_timeout -> format0 t = format0 t' ->
  to (t, n) = to (t', n) /\ (from (to (t, n)) <> (t, n) \/ from (to (t', n)) <> (t', n)).
Proof.
  intros D D1 D2 F.
  assert (E : to (t, n) = to (t', n)).
  { unfold to_header_value. cbn [fst snd]. rewrite F.
    destruct (timeout_eqb t default_timeout) eqn:E1; [apply timeout_eqb_iff in E1; congruence|].
    destruct (timeout_eqb t' default_timeout) eqn:E2; [apply timeout_eqb_iff in E2; congruence|]. reflexivity. }
  split; [exact E|]. rewrite E. destruct (timeout_eqb t (fst (from (to (t', n))))) eqn:K.
  - apply timeout_eqb_iff in K. right. intros Q. rewrite Q in K. cbn in K. congruence.
  - left. intros Q. rewrite Q in K. cbn [fst] in K. rewrite (proj2 (timeout_eqb_iff t t) eq_refl) in K. discriminate.
Qed.
End Python.
