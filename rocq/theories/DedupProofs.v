(** Proofs about the deduplication of names. *)

From Coq Require Import List Arith Bool NArith Lia.
From Verif Require Import Bytes Text DedupModel DedupSpec.
Import ListNotations.

(** ** Parsing *)
Definition digits (d : list N) : Prop := d <> [] /\ Forall (fun c => is_digit c = true) d.

Lemma digit_not (c x : N) : is_digit c = true -> is_digit x = false -> c <> x.
Proof. congruence. Qed.

Lemma index_at_spec l d r : index_at l = Some (d, r) <-> l = [32; 40]%N ++ d ++ 41%N :: r /\ digits d.
Proof.
  split.
  - destruct l as [|a [|b l]]; try discriminate. cbn [index_at]. destruct (N.eqb_spec a 32) as [->|]; [|discriminate].
    destruct (N.eqb_spec b 40) as [->|]; [|discriminate]. cbn [andb]. pose proof (take_drop is_digit l) as TD.
    assert (FD : Forall (fun c => is_digit c = true) (take_while is_digit l)).
    { clear. induction l as [|c l IH]; [constructor|]. cbn. destruct (is_digit c) eqn:E; constructor; assumption. }
    destruct (take_while is_digit l) as [|x xs]; [discriminate|]. destruct (drop_while is_digit l) as [|c r']; [discriminate|].
    destruct (N.eqb_spec c 41) as [->|]; [|discriminate]. intros [= <- <-]. split; [cbn; now rewrite <- TD|]. split; [discriminate|exact FD].
  - intros [-> [NE FD]]. cbn. rewrite take_while_app, drop_while_app by (auto; reflexivity). now destruct d.
Qed.

Lemma match_end l : match_at l = None -> end_at l = None.
Proof. unfold match_at. destruct (index_at l) as [[d r]|]; [destruct (end_at r); [discriminate|]|]; now destruct (end_at l). Qed.

Lemma match_none l : end_at l = None -> (forall d r, index_at l = Some (d, r) -> end_at r = None) -> match_at l = None.
Proof. unfold match_at. intros E I. rewrite E. destruct (index_at l) as [[d r]|]; [rewrite (I d r eq_refl)|]; reflexivity. Qed.

Definition number (i : index) : name := match i with None => [] | Some d => [32; 40]%N ++ d ++ [41%N] end.
Definition dotted (x : extension) : name := match x with None => [] | Some e => 46%N :: e end.

Lemma end_dotted x : end_at (dotted x) = Some x.
Proof. now destruct x. Qed.

Lemma match_tail i x : match i with None => True | Some d => digits d end -> match_at (number i ++ dotted x) = Some (i, x).
Proof.
  intros D. destruct i as [d|]; cbn [number].
  - unfold match_at. assert (E : index_at (([32; 40]%N ++ d ++ [41%N]) ++ dotted x) = Some (d, dotted x)).
    { apply index_at_spec. split; [|exact D]. cbn. now rewrite <- app_assoc. }
    rewrite E, end_dotted. reflexivity.
  - cbn [app]. unfold match_at. rewrite end_dotted. destruct (index_at (dotted x)) as [[d r]|] eqn:E; [|reflexivity].
    apply index_at_spec in E as [E _]. destruct x; discriminate.
Qed.

(** [p] is what the lazy part takes before [t]. *)
Definition skipped (p t : name) : Prop := forall a b, p = a ++ b -> b <> [] -> match_at (b ++ t) = None.

Lemma scan_spec : forall l p i x, scan l = (p, i, x) -> l = p ++ number i ++ dotted x /\ skipped p (number i ++ dotted x) /\
  match i with None => True | Some d => digits d end.
Proof.
  induction l as [|c l IH]; intros p i x; cbn [scan].
  - cbn. intros [= <- <- <-]. repeat split. intros a b E NE. destruct a, b; try discriminate. contradiction.
  - destruct (match_at (c :: l)) as [[i' x']|] eqn:M.
    + intros [= <- <- <-]. split; [|split].
      * unfold match_at in M. destruct (index_at (c :: l)) as [[d r]|] eqn:I.
        -- apply index_at_spec in I as [I D]. destruct (end_at r) as [y|] eqn:E.
           ++ injection M as <- <-. cbn [app number]. rewrite I. cbn. rewrite <- app_assoc. do 3 f_equal. cbn. f_equal.
              destruct r as [|a r]; cbn in E; [now injection E as <-|]. destruct (N.eqb_spec a 46) as [->|]; [|discriminate]. now injection E as <-.
           ++ destruct (end_at (c :: l)) as [y|] eqn:E'; [|discriminate]. injection M as <- <-. cbn in E'.
              destruct (N.eqb_spec c 46) as [->|]; [|discriminate]. injection E' as <-. discriminate.
        -- destruct (end_at (c :: l)) as [y|] eqn:E'; [|discriminate]. injection M as <- <-. cbn in E'.
           destruct (N.eqb_spec c 46) as [->|]; [|discriminate]. now injection E' as <-.
      * intros a b E NE. destruct a, b; try discriminate. contradiction.
      * unfold match_at in M. destruct (index_at (c :: l)) as [[d r]|] eqn:I.
        -- apply index_at_spec in I as [_ D]. destruct (end_at r); [now injection M as <- _|]. destruct (end_at (c :: l)); [now injection M as <- _|discriminate].
        -- destruct (end_at (c :: l)); [now injection M as <- _|discriminate].
    + destruct (scan l) as [[p' i'] x']. intros [= <- <- <-]. destruct (IH p' i' x' eq_refl) as (E & S0 & D). split; [cbn; now rewrite <- E|].
      split; [|exact D]. intros a b AB NE. destruct a as [|a0 a].
      * cbn in AB. subst b. cbn. now rewrite <- E.
      * cbn in AB. injection AB as _ AB. exact (S0 a b AB NE).
Qed.

Lemma scan_skipped : forall p t i x, skipped p t -> match_at t = Some (i, x) -> scan (p ++ t) = (p, i, x).
Proof.
  induction p as [|c p IH]; intros t i x S0 M; cbn [app].
  - destruct t; cbn [scan]; now rewrite M.
  - cbn [scan]. pose proof (S0 [] (c :: p) eq_refl ltac:(discriminate)) as M0. cbn [app] in M0. rewrite M0.
    rewrite (IH t i x); auto. intros a b E NE. apply (S0 (c :: a) b); [cbn; now rewrite E|exact NE].
Qed.

(** What may follow the lazy part. *)
Definition break (t : name) : Prop := match t with [] => True | c :: _ => c = 32%N \/ c = 46%N end.

Lemma break_tail i x : break (number i ++ dotted x).
Proof. destruct i as [d|]; [now left|]. destruct x; cbn; auto. Qed.

Lemma split_index b t d r : b ++ t = [32; 40]%N ++ d ++ 41%N :: r -> digits d -> b <> [] -> break t ->
  exists b', b = [32; 40]%N ++ d ++ 41%N :: b' /\ r = b' ++ t.
Proof.
  intros E [NE D] B T.
  assert (G : forall d b', b' ++ t = d ++ 41%N :: r -> Forall (fun c => is_digit c = true) d -> exists b'', b' = d ++ 41%N :: b'' /\ r = b'' ++ t).
  { clear - T. induction d as [|c d IH]; intros b' E D.
    - destruct b' as [|y b']; cbn in E.
      + subst t. cbn in T. destruct T; discriminate.
      + injection E as -> E. now exists b'.
    - inversion D as [|? ? D1 D2]; subst. destruct b' as [|y b']; cbn in E.
      + subst t. cbn in T. destruct T as [-> | ->]; discriminate D1.
      + injection E as -> E. destruct (IH b' E D2) as (b'' & -> & ->). now exists b''. }
  destruct b as [|y b]; [contradiction|]. cbn in E. injection E as -> E. destruct b as [|y b]; cbn in E.
  - subst t. cbn in T. destruct T; discriminate.
  - injection E as -> E. destruct (G d b E D) as (b' & -> & ->). now exists b'.
Qed.

(** The lazy part is the same before another end, unless it ends in a number itself. *)
Lemma skipped_other p t t' : skipped p t -> break t -> break t' -> (end_at t' = None \/ forall a n, numbered n -> p <> a ++ n) -> skipped p t'.
Proof.
  intros S0 T T' H a b E NE. pose proof (S0 a b E NE) as M. pose proof (match_end _ M) as EN.
  assert (NB : forall u v, b = u ++ v -> v <> [] -> end_at (v ++ t') = None).
  { intros u v BV VN. pose proof (match_end _ (S0 (a ++ u) v ltac:(now rewrite E, BV, app_assoc) VN)) as Q.
    destruct v as [|y v]; [contradiction|]. cbn in *. now destruct (N.eqb y 46). }
  apply match_none; [now apply (NB [] b)|]. intros d r I. apply index_at_spec in I as [I D].
  destruct (split_index b t' d r I D NE T') as (b' & -> & ->).
  destruct b' as [|y b']; [|apply (NB ([32; 40]%N ++ d ++ [41%N])); [cbn; now rewrite <- app_assoc|discriminate]].
  cbn [app]. destruct H as [H|H]; [exact H|]. exfalso. destruct D as [D1 D2]. apply (H a ([32; 40]%N ++ d ++ [41%N])); [now exists d|exact E].
Qed.

Lemma split_dir_spec : forall l d b, split_dir l = (d, b) -> l = d ++ b /\ ~ In 47%N b /\ (d = [] \/ exists d', d = d' ++ [47%N]).
Proof.
  induction l as [|c l IH]; intros d b; cbn [split_dir].
  - intros [= <- <-]. cbn. auto.
  - destruct (split_dir l) as [d0 b0]. destruct (IH d0 b0 eq_refl) as (E & NB & D). destruct d0 as [|x d0].
    + destruct (N.eqb_spec c 47) as [->|NE]; intros [= <- <-]; cbn; subst l.
      * repeat split; auto. right. now exists [].
      * repeat split; auto. intros [->|H]; [now apply NE|]. now apply NB.
    + intros [= <- <-]. subst l. repeat split; auto. right. destruct D as [D|[d' D]]; [discriminate|]. exists (c :: d'). now rewrite D.
Qed.

Lemma split_dir_base b : ~ In 47%N b -> split_dir b = ([], b).
Proof.
  induction b as [|c b IH]; intros H; [reflexivity|]. cbn [split_dir]. rewrite IH; [|intros J; apply H; now right].
  destruct (N.eqb_spec c 47) as [->|]; [|reflexivity]. exfalso. apply H. now left.
Qed.

Lemma split_dir_app : forall d b, (d = [] \/ exists d', d = d' ++ [47%N]) -> ~ In 47%N b -> split_dir (d ++ b) = (d, b).
Proof.
  intros d b [->|[d' ->]] H; [now apply split_dir_base|]. induction d' as [|c d' IH]; cbn [app split_dir].
  - now rewrite split_dir_base.
  - rewrite IH. now destruct d'.
Qed.

Lemma newline_none l : existsb (N.eqb 10) l = false <-> ~ In 10%N l.
Proof.
  split.
  - intros H J. assert (existsb (N.eqb 10) l = true) by (apply existsb_exists; exists 10%N; split; [exact J|reflexivity]). congruence.
  - intros H. destruct (existsb (N.eqb 10) l) eqn:E; [|reflexivity]. apply existsb_exists in E as (x & X & Y). apply N.eqb_eq in Y as <-. contradiction.
Qed.

Definition value (i : index) : N := match i with None => 0%N | Some d => undec d end.

Lemma digits_dec n : digits (dec n).
Proof. destruct (dec_spec n) as (A & B & _). now split. Qed.

(** A reconstructed name is parsed as what it was made of. *)
Lemma parse_reconstruct l p i x n : simple l -> parse l = (p, i, x) ->
  exists j, parse (reconstruct p n x) = (p, j, x) /\ value j = n.
Proof.
  intros [NL SM]. unfold parse. rewrite (proj2 (newline_none l) NL). destruct (split_dir l) as [d b] eqn:SD. destruct (split_dir_spec _ _ _ SD) as (EL & NB & DD).
  destruct (scan b) as [[p' i'] x'] eqn:SC. intros [= <- <- <-]. destruct (scan_spec _ _ _ _ SC) as (EB & SK & DI).
  set (j := if N.eqb n 0 then None else Some (dec n)).
  assert (DJ : match j with None => True | Some d => digits d end) by (unfold j; destruct (N.eqb n 0); [exact Logic.I|apply digits_dec]).
  assert (ER : reconstruct (d ++ p') n x' = d ++ (p' ++ number j ++ dotted x')).
  { unfold reconstruct, j. rewrite <- app_assoc. destruct (N.eqb n 0); reflexivity. }
  assert (DIG : forall c, is_digit c = true -> c <> 10%N /\ c <> 47%N) by (intros c H; split; intros ->; discriminate).
  assert (NJ : forall c, In c (number j) -> c <> 10%N /\ c <> 47%N).
  { unfold j. destruct (N.eqb n 0); cbn; [contradiction|]. intros c H. destruct H as [<-|[<-|H]]; try (split; discriminate).
    apply in_app_iff in H as [H|[<-|[]]]; [|split; discriminate]. apply DIG. destruct (digits_dec n) as [_ F]. rewrite Forall_forall in F. now apply F. }
  assert (NB' : ~ In 47%N (p' ++ number j ++ dotted x')).
  { intros H. apply in_app_iff in H as [H|H]; [apply NB; rewrite EB; apply in_app_iff; now left|]. apply in_app_iff in H as [H|H]; [now apply NJ in H|].
    apply NB. rewrite EB. apply in_app_iff. right. apply in_app_iff. now right. }
  assert (NN : ~ In 10%N (d ++ p' ++ number j ++ dotted x')).
  { intros H. apply in_app_iff in H as [H|H]; [apply NL; rewrite EL; apply in_app_iff; now left|].
    assert (J : In 10%N b \/ In 10%N (number j)).
    { rewrite EB. apply in_app_iff in H as [H|H]; [left; apply in_app_iff; now left|]. apply in_app_iff in H as [H|H]; [now right|].
      left. apply in_app_iff. right. apply in_app_iff. now right. }
    destruct J as [J|J]; [apply NL; rewrite EL; apply in_app_iff; now right|now apply NJ in J]. }
  exists j. rewrite ER, (proj2 (newline_none _) NN), split_dir_app by assumption.
  rewrite (scan_skipped p' (number j ++ dotted x') j x').
  - split; [reflexivity|]. unfold j. destruct (N.eqb_spec n 0) as [->|]; [reflexivity|]. cbn. apply dec_spec.
  - apply (skipped_other p' (number i' ++ dotted x')); auto using break_tail.
    unfold j. destruct (N.eqb n 0) eqn:E0; [|now left]. right. intros a m M PE.
    destruct i' as [di|].
    + apply (SM (d ++ a) m (number (Some di)) (dotted x')); [exact M|exists di; split; [reflexivity|exact DI]|].
      rewrite EL, EB, PE. now rewrite !app_assoc.
    + destruct M as (dm & -> & D1 & D2).
      assert (MM : match_at (([32; 40]%N ++ dm ++ [41%N]) ++ number None ++ dotted x') = None) by (apply (SK a); [exact PE|discriminate]).
      cbn [number app] in MM. pose proof (match_tail (Some dm) x' (conj D1 D2)) as MT. cbn [number app] in MT. congruence.
  - now apply match_tail.
Qed.

(** ** Counting *)
Lemma mem_In n l : mem n l = true <-> In n l.
Proof.
  unfold mem. rewrite existsb_exists. split.
  - intros (x & X & E). apply N.eqb_eq in E as <-. exact X.
  - intros H. exists n. split; [exact H|apply N.eqb_refl].
Qed.

Lemma filter_length_lt (t : list N) n : In n t -> length (filter (fun y => negb (N.eqb y n)) t) < length t.
Proof.
  induction t as [|y t IH]; [intros []|]. intros [->|H]; cbn.
  - rewrite N.eqb_refl. cbn. assert (forall t : list N, length (filter (fun y => negb (N.eqb y n)) t) <= length t); [|specialize (H t); lia].
    clear. induction t as [|y t IH]; cbn; [lia|]. destruct (negb _); cbn; lia.
  - specialize (IH H). destruct (negb _); cbn; lia.
Qed.

Lemma bump_spec : forall fuel n t n' t', length t <= fuel -> bump fuel n t = (n', t') ->
  (n <= n')%N /\ ~ In n' t /\ (forall y, In y t -> (y < n')%N \/ In y t').
Proof.
  induction fuel as [|f IH]; intros n t n' t' L; cbn [bump].
  - intros [= <- <-]. destruct t; [|cbn in L; lia]. repeat split; [lia|intros []|intros y []].
  - destruct (mem n t) eqn:M.
    + apply mem_In in M. pose proof (filter_length_lt t n M) as FL. set (u := filter (fun y => negb (N.eqb y n)) t) in *.
      assert (FU : forall y, In y t -> y = n \/ In y u).
      { intros y Y. destruct (N.eqb_spec y n) as [->|NE]; [now left|right]. apply filter_In. split; [exact Y|]. apply negb_true_iff. now apply N.eqb_neq. }
      assert (G : forall p, (p = ((n + 1)%N, @nil N) /\ u = [] \/ p = bump f (n + 1) u /\ u <> []) -> p = (n', t') ->
        (n <= n')%N /\ ~ In n' t /\ (forall y, In y t -> (y < n')%N \/ In y t')).
      { intros p [[-> U]|[-> U]] E.
        - injection E as <- <-. rewrite U in FU. repeat split; [lia| |].
          + intros J. destruct (FU _ J) as [E|[]]. lia.
          + intros y Y. destruct (FU _ Y) as [->|[]]. left. lia.
        - destruct (IH (n + 1)%N u n' t' ltac:(lia) E) as (A & B & C). repeat split; [lia| |].
          + intros J. destruct (FU _ J) as [E'|J']; [lia|now apply B].
          + intros y Y. destruct (FU _ Y) as [->|Y']; [left; lia|now apply C]. }
      intros E. apply (G (match u with [] => ((n + 1)%N, []) | _ => bump f (n + 1)%N u end)); [|exact E].
      destruct u; [now left|right; split; [reflexivity|discriminate]].
    + intros [= <- <-]. repeat split; [lia| |auto]. intros H. apply mem_In in H. congruence.
Qed.

Lemma ext_eqb_eq a b : ext_eqb a b = true <-> a = b.
Proof. destruct a, b; cbn; try (split; congruence). rewrite beqb_eq. split; congruence. Qed.

Lemma key_eqb_eq a b : key_eqb a b = true <-> a = b.
Proof. destruct a, b. unfold key_eqb. cbn. rewrite andb_true_iff, beqb_eq, ext_eqb_eq. split; [intros [-> ->]; reflexivity|intros [= -> ->]; auto]. Qed.

Lemma get_filter c k k' : key_eqb k k' = false -> get (filter (fun e => negb (key_eqb (fst e) k)) c) k' = get c k'.
Proof.
  intros NE. induction c as [|[k0 n0] c IH]; [reflexivity|]. cbn. destruct (key_eqb k0 k) eqn:E; cbn.
  - apply key_eqb_eq in E as ->. now rewrite NE.
  - now rewrite IH.
Qed.

Lemma get_set c k n k' : get (set c k n) k' = if key_eqb k k' then n else get c k'.
Proof. unfold set. cbn. destruct (key_eqb k k') eqn:E; [reflexivity|]. now apply get_filter. Qed.

(** The numbers which were given for a key are known. *)
Definition used (c : collected) (k : key) (n : N) : Prop := (n < next (get c k))%N \/ In n (taken (get c k)).

Definition tag (l : name) : key * N := let '(p, i, x) := parse l in ((p, x), value i).

Lemma step_spec c l : simple l -> let '(c', r) := step c l in
  fst (tag r) = fst (tag l) /\ ~ used c (fst (tag r)) (snd (tag r)) /\ used c' (fst (tag r)) (snd (tag r)) /\ (forall k n, used c k n -> used c' k n).
Proof.
  intros S0. unfold step. destruct (parse l) as [[p i] x] eqn:P. cbv zeta. set (k := (p, x)). set (s := get c k).
  assert (TL : tag l = (k, value i)) by (unfold tag; now rewrite P).
  destruct (match i with None => None | Some d => _ end) as [n|] eqn:A.
  - destruct i as [d|]; [|discriminate]. destruct (N.leb (next s) (undec d) && negb (mem (undec d) (taken s))) eqn:B; [|discriminate].
    injection A as <-. apply andb_prop in B as [B1 B2]. apply N.leb_le in B1. apply negb_true_iff in B2. rewrite TL. cbn [fst snd value]. split; [reflexivity|].
    split; [|split].
    + unfold used. fold s. intros [U|U]; [lia|]. apply mem_In in U. congruence.
    + right. rewrite get_set, (proj2 (key_eqb_eq k k) eq_refl). now left.
    + intros k' n [U|U]; unfold used; rewrite get_set; destruct (key_eqb k k') eqn:E; try (now left); try (now right);
        apply key_eqb_eq in E as <-; cbn; [left|right; right]; exact U.
  - clear A. destruct (bump (length (taken s)) (next s) (taken s)) as [n t] eqn:BU. destruct (bump_spec _ _ _ _ _ (le_n _) BU) as (B1 & B2 & B3).
    set (r := if match i with None => false | Some d => _ end then l else reconstruct p n x).
    assert (TR : tag r = (k, n)).
    { unfold r. destruct i as [d|].
      - destruct (N.eqb_spec (undec d) n) as [<-|]; [exact TL|]. destruct (parse_reconstruct l p (Some d) x n S0 P) as (j & PJ & VJ). unfold tag. now rewrite PJ, VJ.
      - destruct (parse_reconstruct l p None x n S0 P) as (j & PJ & VJ). unfold tag. now rewrite PJ, VJ. }
    rewrite TR, TL. cbn [fst snd]. split; [reflexivity|]. split; [|split].
    + unfold used. fold s. intros [U|U]; [lia|contradiction].
    + left. rewrite get_set, (proj2 (key_eqb_eq k k) eq_refl). cbn. lia.
    + intros k' m [U|U]; unfold used; rewrite get_set; destruct (key_eqb k k') eqn:E; try (now left); try (now right);
        apply key_eqb_eq in E as <-; fold s in U; cbn; [left; lia|]. destruct (B3 m U); [left; lia|now right].
Qed.

Lemma run_spec : forall names c, Forall simple names -> NoDup (map tag (run c names)) /\ forall r, In r (run c names) -> ~ used c (fst (tag r)) (snd (tag r)).
Proof.
  induction names as [|l names IH]; intros c F; cbn [run]; [split; [constructor|intros r []]|]. inversion F; subst.
  pose proof (step_spec c l H1) as G. destruct (step c l) as [c' r]. destruct G as (G0 & G1 & G2 & G3). destruct (IH c' H2) as [I1 I2]. split.
  - cbn [map]. constructor; [|exact I1]. intros J. apply in_map_iff in J as (r' & E & J). apply (I2 r' J). now rewrite E.
  - intros r' [<-|J]; [exact G1|]. intros U. apply (I2 r' J). now apply G3.
Qed.

Lemma NoDup_map_inv' {A B} (f : A -> B) l : NoDup (map f l) -> NoDup l.
Proof.
  induction l as [|x l IH]; cbn; [constructor|]. intros H. inversion H; subst. constructor; [|now apply IH]. intros J. apply H2. now apply in_map.
Qed.

Lemma unique names : Forall simple names -> NoDup (deduplicate names).
Proof. intros F. eapply NoDup_map_inv'. apply (proj1 (run_spec names [] F)). Qed.

(** The names keep their directories, the start of the file name and the extension. *)
Lemma keeps_key : forall names c, Forall simple names -> map (fun r => fst (tag r)) (run c names) = map (fun l => fst (tag l)) names.
Proof.
  induction names as [|l names IH]; intros c F; cbn [run map]; [reflexivity|]. inversion F; subst.
  pose proof (step_spec c l H1) as G. destruct (step c l) as [c' r]. destruct G as (G0 & _). cbn [map]. now rewrite G0, IH.
Qed.

(** ** What names become *)
Lemma parse_name l p i x : parse l = (p, i, x) -> l = p ++ number i ++ dotted x /\ match i with None => True | Some d => digits d end /\
  (forall e, x = Some e -> ~ In 47%N e).
Proof.
  unfold parse. destruct (existsb (N.eqb 10) l).
  - intros [= <- <- <-]. cbn. rewrite app_nil_r. repeat split; discriminate.
  - destruct (split_dir l) as [d b] eqn:SD. destruct (split_dir_spec _ _ _ SD) as (EL & NB & _). destruct (scan b) as [[p' i'] x'] eqn:SC.
    intros [= <- <- <-]. destruct (scan_spec _ _ _ _ SC) as (EB & _ & DI). split; [rewrite EL, EB; now rewrite <- app_assoc|]. split; [exact DI|].
    intros e -> H. apply NB. rewrite EB. apply in_app_iff. right. apply in_app_iff. right. now right.
Qed.

Lemma number_numbered i : match i with None => True | Some d => digits d end -> number_or_not (number i).
Proof. destruct i as [d|]; [|now left]. intros [D1 D2]. right. now exists d. Qed.

Lemma dotted_free x : (forall e, x = Some e -> ~ In 47%N e) -> dotted x = [] \/ exists e, dotted x = 46%N :: e /\ ~ In 47%N e.
Proof. destruct x as [e|]; [|now left]. intros H. right. exists e. split; [reflexivity|]. now apply H. Qed.

Lemma reconstruct_is p n x : reconstruct p n x = p ++ number (if N.eqb n 0 then None else Some (dec n)) ++ dotted x.
Proof. unfold reconstruct. now destruct (N.eqb n 0). Qed.

Lemma step_renumbered c l : renumbered l (snd (step c l)).
Proof.
  unfold step. destruct (parse l) as [[p i] x] eqn:P. destruct (parse_name _ _ _ _ P) as (E & DI & DX). cbv zeta.
  assert (SAME : renumbered l l) by (exists p, (number i), (number i), (dotted x); repeat split; auto using number_numbered, dotted_free).
  destruct (match i with None => None | Some d => _ end) as [n|]; [exact SAME|].
  destruct (bump _ _ _) as [n t]. cbn [snd]. destruct (match i with None => false | Some d => _ end); [exact SAME|].
  exists p, (number i), (number (if N.eqb n 0 then None else Some (dec n))), (dotted x). rewrite reconstruct_is. repeat split; auto using number_numbered, dotted_free.
  apply number_numbered. destruct (N.eqb n 0); [exact Logic.I|apply digits_dec].
Qed.

Lemma all_renumbered : forall names c, Forall2 renumbered names (run c names).
Proof.
  induction names as [|l names IH]; intros c; cbn [run]; [constructor|]. pose proof (step_renumbered c l) as G. destruct (step c l) as [c' r]. constructor; auto.
Qed.

(** ** Distinct names stay *)
Lemma undec_snoc d c : undec (d ++ [c]) = (undec d * 10 + (c - 48))%N.
Proof. unfold undec. now rewrite fold_left_app. Qed.

Lemma digit_range c : is_digit c = true -> (48 <= c <= 57)%N.
Proof. unfold is_digit. rewrite andb_true_iff, !N.leb_le. lia. Qed.

Lemma undec_positive d : Forall (fun c => is_digit c = true) d -> d <> [] -> (forall d', d <> 48%N :: d') -> (0 < undec d)%N.
Proof.
  induction d as [|c d IH] using rev_ind; [contradiction|]. intros F _ Z. apply Forall_app in F as [F1 F2]. inversion F2 as [|? ? F3 _]; subst.
  apply digit_range in F3. rewrite undec_snoc. destruct d as [|x d].
  - assert (c <> 48%N) by (intros ->; now apply (Z [])). cbn. lia.
  - assert (0 < undec (x :: d))%N; [|lia]. apply IH; auto; [discriminate|]. intros d' E. injection E as -> _. now apply (Z (d ++ [c])).
Qed.

Lemma undec_inj : forall d e, Forall (fun c => is_digit c = true) d -> Forall (fun c => is_digit c = true) e ->
  (forall d', d <> 48%N :: d') -> (forall d', e <> 48%N :: d') -> undec d = undec e -> d = e.
Proof.
  induction d as [|c d IH] using rev_ind; intros e Fd Fe Zd Ze E.
  - destruct e as [|x e]; [reflexivity|]. pose proof (undec_positive (x :: e) Fe ltac:(discriminate) Ze). rewrite <- E in H. cbn in H. lia.
  - destruct (exists_last (l := e)) as (e' & y & ->).
    { intros ->. pose proof (undec_positive (d ++ [c]) Fd ltac:(now destruct d) Zd) as H. rewrite E in H. cbn in H. lia. }
    apply Forall_app in Fd as [Fd1 Fd2]. apply Forall_app in Fe as [Fe1 Fe2]. inversion Fd2 as [|? ? C _]; inversion Fe2 as [|? ? Y _]; subst.
    apply digit_range in C, Y. rewrite !undec_snoc in E. assert (c = y) by lia. subst y. f_equal. apply IH; auto; try lia.
    + intros d' ->. now apply (Zd (d' ++ [c])).
    + intros d' ->. now apply (Ze (d' ++ [c])).
Qed.

Lemma natural_index l p d x : natural l -> parse l = (p, Some d, x) -> digits d /\ forall d', d <> 48%N :: d'.
Proof.
  intros Z P. destruct (parse_name _ _ _ _ P) as (E & D & _). split; [exact D|]. apply (Z p d (dotted x)); [|apply D].
  rewrite E. cbn. now rewrite <- app_assoc.
Qed.

Lemma tag_inj l r : natural l -> natural r -> tag l = tag r -> l = r.
Proof.
  intros Zl Zr. unfold tag. destruct (parse l) as [[p i] x] eqn:P. destruct (parse r) as [[q j] y] eqn:Q. intros [= -> -> E].
  destruct (parse_name _ _ _ _ P) as (-> & _). destruct (parse_name _ _ _ _ Q) as (-> & _). do 2 f_equal. f_equal.
  destruct i as [d|], j as [e|]; cbn in E; try reflexivity.
  - destruct (natural_index _ _ _ _ Zl P) as [[_ D1] D2]. destruct (natural_index _ _ _ _ Zr Q) as [[_ E1] E2]. f_equal. now apply undec_inj.
  - destruct (natural_index _ _ _ _ Zl P) as [[D0 D1] D2]. pose proof (undec_positive d D1 D0 D2). lia.
  - destruct (natural_index _ _ _ _ Zr Q) as [[D0 D1] D2]. pose proof (undec_positive e D1 D0 D2). lia.
Qed.

Definition within (c : collected) (seen : list name) : Prop := forall k, (next (get c k) <= 1)%N /\ forall n, used c k n -> exists l, In l seen /\ tag l = (k, n).

Lemma step_keeps c seen l : within c seen -> Forall natural (l :: seen) -> ~ In l seen -> snd (step c l) = l /\ within (fst (step c l)) (l :: seen).
Proof.
  intros W F NI. inversion F as [|? ? Zl Zs]; subst.
  assert (NU : ~ used c (fst (tag l)) (snd (tag l))).
  { intros U. apply W in U as (l' & I' & E'). apply NI. replace l with l'; [exact I'|]. rewrite Forall_forall in Zs. apply tag_inj; auto.
    rewrite E'. now destruct (tag l). }
  unfold step. destruct (parse l) as [[p i] x] eqn:P. cbv zeta. assert (TL : tag l = ((p, x), value i)) by (unfold tag; now rewrite P).
  rewrite TL in NU. cbn [fst snd] in NU. set (k := (p, x)) in *. destruct (W k) as [W1 W2].
  assert (OTHER : forall v, (next v <= 1)%N -> (forall n, (n < next v)%N \/ In n (taken v) -> n = value i \/ used c k n) -> within (set c k v) (l :: seen)).
  { intros v V1 V2 k'. rewrite get_set. unfold used. rewrite get_set. destruct (key_eqb k k') eqn:E.
    - apply key_eqb_eq in E as <-. split; [exact V1|]. intros n U. destruct (V2 n U) as [->|U']; [exists l; split; [now left|exact TL]|].
      destruct (W2 n U') as (l' & A & B). exists l'. split; [now right|exact B].
    - destruct (W k') as [W3 W4]. split; [exact W3|]. intros n U. destruct (W4 n U) as (l' & A & B). exists l'. split; [now right|exact B]. }
  destruct i as [d|]; cbn [value] in *.
  - destruct (natural_index _ _ _ _ Zl P) as [[D0 D1] D2]. pose proof (undec_positive d D1 D0 D2) as PO.
    replace (N.leb (next (get c k)) (undec d)) with true by (symmetry; apply N.leb_le; lia).
    assert (M : mem (undec d) (taken (get c k)) = false).
    { destruct (mem _ _) eqn:M; [|reflexivity]. apply mem_In in M. exfalso. apply NU. now right. }
    rewrite M. cbn [negb andb fst snd]. split; [reflexivity|]. apply OTHER; [exact W1|]. cbn. intros n [U|[<-|U]]; [right; now left|now left|right; now right].
  - assert (N0 : next (get c k) = 0%N) by (destruct (N.eq_dec (next (get c k)) 0) as [|NE]; [assumption|exfalso; apply NU; left; lia]).
    assert (M : mem 0 (taken (get c k)) = false).
    { destruct (mem _ _) eqn:M; [|reflexivity]. apply mem_In in M. exfalso. apply NU. now right. }
    rewrite N0. replace (bump (length (taken (get c k))) 0 (taken (get c k))) with (0%N, taken (get c k)).
    2:{ destruct (length (taken (get c k))); cbn [bump]; [reflexivity|]. now rewrite M. }
    cbn [fst snd]. split.
    + rewrite reconstruct_is. destruct (parse_name _ _ _ _ P) as (-> & _). reflexivity.
    + apply OTHER; [cbn; lia|]. cbn. intros n [U|U]; [left; lia|right; now right].
Qed.

Lemma run_keeps : forall names c seen, within c seen -> Forall natural names -> Forall natural seen -> NoDup names -> (forall l, In l names -> ~ In l seen) -> run c names = names.
Proof.
  induction names as [|l names IH]; intros c seen W F Fs ND D; cbn [run]; [reflexivity|]. inversion F; subst. inversion ND; subst.
  destruct (step_keeps c seen l W ltac:(now constructor) (D l ltac:(now left))) as [E1 E2]. destruct (step c l) as [c' r]. cbn in E1, E2. subst r. f_equal.
  apply (IH c' (l :: seen)); auto. intros l' I' [->|J]; [contradiction|]. apply (D l'); [now right|exact J].
Qed.

Lemma distinct_kept names : NoDup names -> Forall natural names -> deduplicate names = names.
Proof.
  intros ND F. apply (run_keeps names [] []); auto. intros k. split; [cbn; lia|]. intros n [U|[]]. cbn in U. lia.
Qed.
