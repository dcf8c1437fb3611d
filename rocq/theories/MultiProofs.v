From Coq Require Import List Arith Bool NArith Lia.
From Verif Require Import MultiModel MultiSpec.
Import ListNotations.

Section Proofs.
Variables (K C V : Type) (norm : K -> C) (ceq : C -> C -> bool) (veq : V -> V -> bool).
Hypothesis ceq_spec : forall a b, reflect (a = b) (ceq a b).
Hypothesis veq_spec : forall a b, reflect (a = b) (veq a b).

Notation dict := (dict K V).
Notation get := (get K C V norm ceq).
Notation set := (set K C V norm ceq).
Notation del := (del K C V norm ceq).
Notation step := (step K C V norm ceq veq).
Notation run := (run K C V norm ceq veq).
Notation set_item := (set_item K C V norm ceq veq).
Notation extend := (extend K C V norm ceq veq).

Fixpoint look (d : dict) (c : C) : list V :=
  match d with [] => [] | (k, vs) :: d' => if ceq (norm k) c then vs else look d' c end.

Definition keys (d : dict) : list C := map (fun p => norm (fst p)) d.
Definition good (p : K * list V) : Prop := snd p <> [] /\ NoDup (snd p).
Definition inv (d : dict) : Prop := NoDup (keys d) /\ Forall good d.

Lemma ceq_refl c : ceq c c = true.
Proof. destruct (ceq_spec c c); congruence. Qed.

Lemma look_absent d c : ~ In c (keys d) -> look d c = [].
Proof.
  induction d as [|[k vs] d IH]; intros H; [reflexivity|]. cbn [look]. destruct (ceq_spec (norm k) c) as [E|_]; [destruct H; left; exact E|].
  apply IH. intros Q. apply H. right. exact Q.
Qed.

Lemma look_here d k vs : NoDup (keys d) -> In (k, vs) d -> look d (norm k) = vs.
Proof.
  induction d as [|[k' vs'] d IH]; intros N H; [destruct H|]. cbn [look]. inversion N as [|? ? N1 N2]; subst. destruct H as [H|H].
  - injection H as -> ->. rewrite ceq_refl. reflexivity.
  - destruct (ceq_spec (norm k') (norm k)) as [E|_]; [|apply IH; assumption]. destruct N1. cbn [fst]. rewrite E. unfold keys.
    change (norm k) with ((fun p : K * list V => norm (fst p)) (k, vs)). apply in_map. exact H.
Qed.

Lemma present d c : inv d -> (look d c <> [] <-> In c (keys d)).
Proof.
  intros [N G]. split.
  - intros H. induction d as [|[k vs] d IH]; [contradiction|]. cbn [look] in H. destruct (ceq_spec (norm k) c) as [E|_]; [left; exact E|].
    right. inversion N; inversion G; subst. apply IH; assumption.
  - intros H. unfold keys in H. apply in_map_iff in H. destruct H as ([k vs] & <- & H). cbn [fst]. rewrite (look_here d k vs N H).
    rewrite Forall_forall in G. apply (G (k, vs) H).
Qed.

Lemma get_look d k : inv d -> get d k = match look d (norm k) with [] => None | vs => Some vs end.
Proof.
  intros [N G]. induction d as [|[k' vs] d IH]; [reflexivity|]. cbn [MultiModel.get look]. unfold same. inversion G as [|? ? [G1 _] G2]; subst.
  inversion N; subst. destruct (ceq (norm k') (norm k)); [|apply IH; assumption]. cbn [snd] in G1. destruct vs; [contradiction|reflexivity].
Qed.

Lemma look_set d k vs c : look (set d k vs) c = if ceq (norm k) c then vs else look d c.
Proof.
  induction d as [|[k' vs'] d IH]; cbn [MultiModel.set look]; [reflexivity|]. unfold same. destruct (ceq_spec (norm k') (norm k)) as [E|N]; cbn [look].
  - rewrite E. destruct (ceq (norm k) c); reflexivity.
  - rewrite IH. destruct (ceq_spec (norm k') c) as [E'|_]; [|reflexivity]. destruct (ceq_spec (norm k) c) as [E''|_]; [congruence|reflexivity].
Qed.

Lemma keys_set d k vs c : In c (keys (set d k vs)) <-> c = norm k \/ In c (keys d).
Proof.
  induction d as [|[k' vs'] d IH]; cbn [MultiModel.set]; [cbn; intuition|]. unfold same. destruct (ceq_spec (norm k') (norm k)) as [E|N].
  - cbn. rewrite E. intuition.
  - cbn [keys map fst In]. fold (keys (set d k vs)) (keys d). rewrite IH. intuition.
Qed.

Lemma inv_set d k vs : inv d -> vs <> [] -> NoDup vs -> inv (set d k vs).
Proof.
  intros [N G] H1 H2. induction d as [|[k' vs'] d IH]; cbn [MultiModel.set]; [split; repeat constructor; auto|].
  inversion N as [|? ? N1 N2]; inversion G as [|? ? G1 G2]; subst. unfold same. destruct (ceq_spec (norm k') (norm k)) as [E|NE].
  - split; constructor; try assumption. split; assumption.
  - destruct (IH N2 G2) as [I1 I2]. split; constructor; try assumption. cbn [fst]. fold (keys (set d k vs)).
    rewrite keys_set. intros [Q|Q]; contradiction.
Qed.

Lemma keys_del d k c : In c (keys (del d k)) -> In c (keys d).
Proof.
  induction d as [|[k' vs'] d IH]; cbn [MultiModel.del]; [auto|]. unfold same. destruct (ceq (norm k') (norm k)); [intros H; right; exact H|].
  cbn. intros [H|H]; [left; exact H|right; apply IH; exact H].
Qed.

Lemma look_del d k c : NoDup (keys d) -> look (del d k) c = if ceq (norm k) c then [] else look d c.
Proof.
  induction d as [|[k' vs'] d IH]; intros N; cbn [MultiModel.del look]; [destruct (ceq (norm k) c); reflexivity|].
  inversion N as [|? ? N1 N2]; subst. unfold same. destruct (ceq_spec (norm k') (norm k)) as [E|NE]; cbn [look].
  - cbn [fst] in N1. rewrite E in N1 |- *. destruct (ceq_spec (norm k) c) as [Ec|_]; [|reflexivity]. apply look_absent. rewrite <- Ec. exact N1.
  - rewrite IH by exact N2. destruct (ceq_spec (norm k') c) as [E'|_]; [|reflexivity]. destruct (ceq_spec (norm k) c) as [E''|_]; [congruence|reflexivity].
Qed.

Lemma inv_del d k : inv d -> inv (del d k).
Proof.
  intros [N G]. induction d as [|[k' vs'] d IH]; cbn [MultiModel.del]; [split; constructor|].
  inversion N as [|? ? N1 N2]; inversion G as [|? ? G1 G2]; subst. unfold same. destruct (ceq (norm k') (norm k)); [split; assumption|].
  destruct (IH N2 G2) as [I1 I2]. split; constructor; try assumption. cbn [fst] in *. intros Q. apply N1. eapply keys_del. exact Q.
Qed.

Lemma changed_set d k vs : changed C V (look d) (look (set d k vs)) (norm k) vs.
Proof.
  split; [rewrite look_set, ceq_refl; reflexivity|]. intros c H. rewrite look_set. destruct (ceq_spec (norm k) c); congruence.
Qed.

Lemma changed_del d k : NoDup (keys d) -> changed C V (look d) (look (del d k)) (norm k) [].
Proof.
  intros N. split; [rewrite look_del, ceq_refl by exact N; reflexivity|]. intros c H. rewrite look_del by exact N. destruct (ceq_spec (norm k) c); congruence.
Qed.

Lemma good_look d c : inv d -> NoDup (look d c).
Proof.
  intros [_ G]. induction d as [|[k vs] d IH]; [constructor|]. inversion G as [|? ? [_ G1] G2]; subst. cbn [look].
  destruct (ceq (norm k) c); [exact G1|apply IH; exact G2].
Qed.

Lemma holds_In v vs : holds V veq v vs = true <-> In v vs.
Proof.
  unfold holds. rewrite existsb_exists. split.
  - intros (x & H & E). destruct (veq_spec v x); [subst; exact H|discriminate].
  - intros H. exists v. split; [exact H|]. destruct (veq_spec v v); congruence.
Qed.

Lemma NoDup_snoc {A} (l : list A) x : NoDup l -> ~ In x l -> NoDup (l ++ [x]).
Proof.
  intros N H. induction N as [|y l Hy N IH]; cbn [app]; [repeat constructor; auto|]. constructor.
  - intros Q. apply in_app_or in Q. destruct Q as [Q|[Q|[]]]; [contradiction|]. subst. apply H. left. reflexivity.
  - apply IH. intros Q. apply H. right. exact Q.
Qed.

Lemma kept_refl (m : contents C V) : kept C V m m.
Proof. intros c. reflexivity. Qed.

Lemma set_item_ok d k v : inv d -> inv (set_item d k v) /\ added C V (look d) (look (set_item d k v)) (norm k) v.
Proof.
  intros I. unfold MultiModel.set_item. rewrite get_look by exact I. pose proof (good_look d (norm k) I) as N. unfold added.
  destruct (look d (norm k)) as [|x l] eqn:E.
  - split; [apply inv_set; [exact I|discriminate|repeat constructor; auto]|]. right. split; [intros []|apply changed_set].
  - destruct (holds V veq v (x :: l)) eqn:Hv.
    + split; [exact I|]. left. split; [apply holds_In; exact Hv|apply kept_refl].
    + assert (H : ~ In v (x :: l)) by (rewrite <- holds_In, Hv; discriminate).
      split; [|right; split; [exact H|apply changed_set]]. apply inv_set; [exact I|discriminate|apply NoDup_snoc; assumption].
Qed.

Lemma extend_ok l : forall d, inv d -> inv (extend d l) /\ added_all K C V norm (look d) l (look (extend d l)).
Proof.
  induction l as [|[k v] l IH]; intros d I; [split; [exact I|constructor; apply kept_refl]|].
  cbn [MultiModel.extend fold_left fst snd]. destruct (set_item_ok d k v I) as [I1 A1]. destruct (IH _ I1) as [I2 A2]. split; [exact I2|].
  econstructor; [exact A1|exact A2].
Qed.

Lemma NoDup_tl {A} (x : A) l : NoDup (x :: l) -> NoDup l.
Proof. inversion 1. assumption. Qed.

Lemma look_snoc d k vs c : ~ In (norm k) (keys d) -> look (d ++ [(k, vs)]) c = if ceq (norm k) c then vs else look d c.
Proof.
  induction d as [|[k' vs'] d IH]; intros H; [reflexivity|]. cbn [app look]. rewrite IH by (intros Q; apply H; right; exact Q).
  destruct (ceq_spec (norm k') c) as [E|_]; [|reflexivity]. destruct (ceq_spec (norm k) c) as [E'|_]; [|reflexivity].
  destruct H. left. cbn [fst]. congruence.
Qed.

Lemma items_at d c : NoDup (keys d) -> 
  Forall2 (fun (p : K * V) v => norm (fst p) = c /\ snd p = v) (filter (fun p => ceq (norm (fst p)) c) (items K V d)) (look d c).
Proof.
  induction d as [|[k vs] d IH]; intros N; [constructor|]. inversion N as [|? ? N1 N2]; subst. specialize (IH N2).
  unfold items. cbn [flat_map fst snd look]. fold (items K V d). rewrite filter_app.
  destruct (ceq_spec (norm k) c) as [E|NE].
  - rewrite (look_absent d c) in IH by (rewrite <- E; exact N1). inversion IH as [Q|]. rewrite app_nil_r. clear - E ceq_spec.
    induction vs as [|v vs IH]; [constructor|]. cbn [map filter fst]. destruct (ceq_spec (norm k) c) as [_|]; [|contradiction].
    constructor; [auto|exact IH].
  - assert (Q : filter (fun p : K * V => ceq (norm (fst p)) c) (map (pair k) vs) = []).
    { clear - NE ceq_spec. induction vs as [|v vs IH]; [reflexivity|]. cbn [map filter fst]. destruct (ceq_spec (norm k) c); [contradiction|exact IH]. }
    rewrite Q. exact IH.
Qed.

Lemma kwargs_ok d : inv d -> exists l, kwargs K V d = Some l /\ map (fun p => norm (fst p)) l = keys d /\
  forall k v, In (k, v) l -> exists vs, look d (norm k) = vs ++ [v].
Proof.
  intros [N G]. induction d as [|[k vs] d IH]; [exists []; repeat split; intros k v []|].
  inversion N as [|? ? N1 N2]; inversion G as [|? ? [G1 _] G2]; subst. destruct (IH N2 G2) as (l & E & M & P). cbn [kwargs]. rewrite E.
  cbn [snd] in G1. destruct (rev vs) as [|v r] eqn:R; [destruct G1; rewrite <- (rev_involutive vs), R; reflexivity|].
  exists ((k, v) :: l). repeat split; [cbn [map keys]; cbn; rewrite M; reflexivity|].
  intros k' v' [H|H]; cbn [look].
  - injection H as <- <-. rewrite ceq_refl. exists (rev r). rewrite <- (rev_involutive vs), R. reflexivity.
  - destruct (ceq_spec (norm k) (norm k')) as [Q|_]; [|apply P; exact H]. destruct N1. cbn [fst]. rewrite Q. rewrite <- M.
    change (norm k') with ((fun p : K * V => norm (fst p)) (k', v')). apply in_map. exact H.
Qed.

Lemma step_ok d o : inv d -> inv (fst (step d o)) /\ allowed norm (look d) o (snd (step d o)) (look (fst (step d o))).
Proof.
  intros I. pose proof (kept_refl (look d)) as KR. pose proof I as [N G]. destruct o as [k v|k|l|k|k|k|k v|k b|k b| | | |]; cbn [MultiModel.step fst snd].
  - destruct (set_item_ok d k v I) as [I1 A]. split; [exact I1|constructor; exact A].
  - unfold del_item. rewrite get_look by exact I. pose proof (good_look d (norm k) I) as ND. destruct (look d (norm k)) as [|x [|y l]] eqn:E; cbn [fst snd].
    + split; [exact I|]. apply A_del_no; assumption.
    + split; [apply inv_del; exact I|]. eapply A_del; [exact E|]. apply changed_del. exact N.
    + cbn [length Nat.eqb fst snd tl]. split; [apply inv_set; [exact I|discriminate|apply NoDup_tl in ND; exact ND]|].
      eapply A_del; [exact E|]. apply changed_set.
  - destruct (extend_ok l d I) as [I1 A]. split; [exact I1|constructor; exact A].
  - split; [exact I|]. rewrite get_look by exact I. destruct (look d (norm k)) as [|x l] eqn:E; [apply A_item_no; assumption|eapply A_item; [exact E|exact KR]].
  - split; [exact I|]. rewrite get_look by exact I. destruct (look d (norm k)) as [|x l] eqn:E; [apply A_get_no; assumption|eapply A_get; [exact E|exact KR]].
  - split; [exact I|]. rewrite get_look by exact I. destruct (look d (norm k)) as [|x l] eqn:E; [apply A_get_all_no; assumption|].
    rewrite <- E. apply A_get_all; [rewrite E; discriminate|exact KR].
  - unfold setdefault. rewrite get_look by exact I. destruct (look d (norm k)) as [|x l] eqn:E; cbn [fst snd].
    + split; [apply inv_set; [exact I|discriminate|repeat constructor; auto]|]. apply A_setdefault_no; [exact E|apply changed_set].
    + split; [exact I|]. eapply A_setdefault; [exact E|exact KR].
  - unfold pop_one. rewrite get_look by exact I. pose proof (good_look d (norm k) I) as ND. destruct (look d (norm k)) as [|x l] eqn:E; cbn [fst snd].
    + split; [exact I|]. apply A_pop_no; assumption.
    + destruct l as [|y l]; (split; [|eapply A_pop; [exact E|]]).
      * apply inv_del; exact I.
      * apply changed_del. exact N.
      * apply inv_set; [exact I|discriminate|apply NoDup_tl in ND; exact ND].
      * apply changed_set.
  - unfold pop_all. rewrite get_look by exact I. destruct (look d (norm k)) as [|x l] eqn:E; cbn [fst snd].
    + split; [exact I|]. apply A_pop_all_no; assumption.
    + split; [apply inv_del; exact I|]. rewrite <- E. apply A_pop_all; [rewrite E; discriminate|apply changed_del; exact N].
  - unfold popitem. destruct (rev d) as [|[k vs] r] eqn:R.
    + assert (d = []) by (rewrite <- (rev_involutive d), R; reflexivity). subst d. split; [exact I|]. apply A_popitem_no; [reflexivity|exact KR].
    + assert (E : d = rev r ++ [(k, vs)]) by (rewrite <- (rev_involutive d), R; reflexivity). set (d0 := rev r) in *. clearbody d0. subst d. clear R r.
      unfold inv, keys in I, N. rewrite map_app in N. apply Forall_app in G. destruct G as [G0 G1]. inversion G1 as [|? ? [G2 G3] _]; subst. cbn [snd] in G2, G3.
      cbn [map fst] in N. apply NoDup_remove in N. rewrite app_nil_r in N. destruct N as [N0 N1]. fold (keys d0) in N0, N1.
      assert (I0 : inv d0) by (split; assumption).
      assert (LK : look (d0 ++ [(k, vs)]) (norm k) = vs) by (rewrite look_snoc, ceq_refl by exact N1; reflexivity).
      destruct vs as [|v vs]; [contradiction|]. cbn [fst snd]. destruct vs as [|w vs]; (split; [|eapply A_popitem; [exact LK|]]).
      * exact I0.
      * split; [apply look_absent; exact N1|]. intros c Hc. rewrite look_snoc by exact N1. destruct (ceq_spec (norm k) c); congruence.
      * apply inv_set; [exact I0|discriminate|apply NoDup_tl in G3; exact G3].
      * split; [rewrite look_set, ceq_refl; reflexivity|]. intros c Hc. rewrite look_set, look_snoc by exact N1. destruct (ceq_spec (norm k) c); congruence.
  - split; [exact I|]. apply A_items; [|exact KR]. intros c. exists (filter (fun p => ceq (norm (fst p)) c) (items K V d)). split; [apply items_at; exact N|].
    exists (fun p => ceq (norm (fst p)) c). split; [|reflexivity]. intros p _. destruct (ceq_spec (norm (fst p)) c); intuition discriminate.
  - split; [exact I|]. replace (length d) with (length (keys d)) by (unfold keys; apply map_length). apply A_len; [|exact KR].
    split; [exact N|]. intros c. symmetry. apply present. exact I.
  - split; [exact I|]. destruct (kwargs_ok d I) as (l & -> & M & P). apply A_kwargs; [|exact P|exact KR]. rewrite M. split; [exact N|].
    intros c. symmetry. apply present. exact I.
Qed.

Lemma run_ok os : forall d, inv d -> inv (fst (run d os)) /\ history norm (look d) os (snd (run d os)) (look (fst (run d os))).
Proof.
  induction os as [|o os IH]; intros d I; [split; [exact I|constructor; apply kept_refl]|]. cbn [MultiModel.run].
  destruct (step_ok d o I) as [I1 A1]. destruct (step d o) as [d1 r]. cbn [fst snd] in *. destruct (IH d1 I1) as [I2 H2].
  destruct (run d1 os) as [d2 rs]. cbn [fst snd] in *. split; [exact I2|]. econstructor; [exact A1|exact H2].
Qed.

Theorem histories os : exists m, history norm (fun _ => []) os (snd (run [] os)) m /\ (forall c, NoDup (m c)) /\
  (forall k, get (fst (run [] os)) k = match m (norm k) with [] => None | vs => Some vs end).
Proof.
  assert (I : inv []) by (split; constructor). destruct (run_ok os [] I) as [I1 H]. exists (look (fst (run [] os))). split; [exact H|]. split.
  - intros c. apply good_look. exact I1.
  - intros k. apply get_look. exact I1.
Qed.

(** * Spelling *)

Notation like_d := (Forall2 (fun (p p' : K * list V) => norm (fst p) = norm (fst p') /\ snd p = snd p')).

Lemma get_like d d' k k' : like_d d d' -> norm k = norm k' -> get d k = get d' k'.
Proof.
  induction 1 as [|[a va] [b vb] d d' [H1 H2] _ IH]; intros E; [reflexivity|]. cbn [fst snd] in *. subst vb. cbn [MultiModel.get]. unfold same.
  rewrite H1, E. destruct (ceq (norm b) (norm k')); [reflexivity|]. apply IH. exact E.
Qed.

Lemma set_like d d' k k' vs : like_d d d' -> norm k = norm k' -> like_d (set d k vs) (set d' k' vs).
Proof.
  induction 1 as [|[a va] [b vb] d d' [H1 H2] Hd IH]; intros E; [repeat constructor; exact E|]. cbn [fst snd] in *. subst vb. cbn [MultiModel.set]. unfold same.
  rewrite H1, E. destruct (ceq (norm b) (norm k')); constructor; auto.
Qed.

Lemma del_like d d' k k' : like_d d d' -> norm k = norm k' -> like_d (del d k) (del d' k').
Proof.
  induction 1 as [|[a va] [b vb] d d' [H1 H2] Hd IH]; intros E; [constructor|]. cbn [fst snd] in *. subst vb. cbn [MultiModel.del]. unfold same.
  rewrite H1, E. destruct (ceq (norm b) (norm k')); [exact Hd|]. constructor; auto.
Qed.

Lemma set_item_like d d' k k' v : like_d d d' -> norm k = norm k' -> like_d (set_item d k v) (set_item d' k' v).
Proof.
  intros R E. unfold MultiModel.set_item. rewrite (get_like d d' k k' R E). destruct (get d' k') as [line|]; [|apply set_like; assumption].
  destruct (holds V veq v line); [exact R|apply set_like; assumption].
Qed.

Lemma extend_like l l' : Forall2 (like_pair K C V norm) l l' -> forall d d', like_d d d' -> like_d (extend d l) (extend d' l').
Proof.
  induction 1 as [|[k v] [k' v'] l l' [H1 H2] _ IH]; intros d d' R; [exact R|]. cbn [fst snd] in *. subst v'. cbn [MultiModel.extend fold_left fst snd].
  apply IH. apply set_item_like; assumption.
Qed.

Lemma rev_like d d' : like_d d d' -> like_d (rev d) (rev d').
Proof. induction 1; cbn [rev]; [constructor|]. apply Forall2_app; [assumption|repeat constructor; apply H]. Qed.

Lemma items_like d d' : like_d d d' -> Forall2 (like_pair K C V norm) (items K V d) (items K V d').
Proof.
  induction 1 as [|[a va] [b vb] d d' [H1 H2] Hd IH]; [constructor|]. cbn [fst snd] in *. subst vb. unfold items. cbn [flat_map fst snd].
  apply Forall2_app; [|exact IH]. clear - H1. induction va; constructor; [split; [exact H1|reflexivity]|assumption].
Qed.

Lemma kwargs_like d d' : like_d d d' ->
  match kwargs K V d, kwargs K V d' with Some l, Some l' => Forall2 (like_pair K C V norm) l l' | None, None => True | _, _ => False end.
Proof.
  induction 1 as [|[a va] [b vb] d d' [H1 H2] Hd IH]; [constructor|]. cbn [fst snd] in *. subst vb. cbn [kwargs].
  destruct (rev va) as [|v r]; [exact I|]. destruct (kwargs K V d), (kwargs K V d'); try contradiction; [|exact I].
  constructor; [split; [exact H1|reflexivity]|exact IH].
Qed.

Lemma like_length d d' : like_d d d' -> length d = length d'.
Proof. induction 1; cbn [length]; congruence. Qed.

Lemma step_like d d' o o' : like_d d d' -> like_op norm o o' ->
  like_d (fst (step d o)) (fst (step d' o')) /\ like_out norm (snd (step d o)) (snd (step d' o')).
Proof.
  intros R H. inversion H as [k k' v E|k k' E|l l' E|k k' E|k k' E|k k' E|k k' v E|k k' b E|k k' b E| | | |]; subst; cbn [MultiModel.step fst snd];
    try (pose proof (get_like d d' k k' R E) as G).
  - split; [apply set_item_like; assumption|constructor].
  - unfold del_item. rewrite G. destruct (get d' k') as [vs|]; [|split; [exact R|constructor]].
    destruct (length vs =? 1); (split; [|constructor]); [apply del_like; assumption|apply set_like; assumption].
  - split; [apply extend_like; assumption|constructor].
  - rewrite G. split; [exact R|constructor].
  - rewrite G. split; [exact R|constructor].
  - rewrite G. split; [exact R|constructor].
  - unfold setdefault. rewrite G. destruct (get d' k') as [[|x vs]|]; (split; [|constructor]); try exact R. apply set_like; assumption.
  - unfold pop_one. rewrite G. destruct (get d' k') as [[|x [|y vs]]|]; (split; [|constructor]); try exact R; [apply del_like; assumption|apply set_like; assumption].
  - unfold pop_all. rewrite G. destruct (get d' k') as [vs|]; (split; [|constructor]); [apply del_like; assumption|exact R].
  - unfold popitem. pose proof (rev_like d d' R) as RR. destruct RR as [|[a va] [b vb] r r' [H1 H2] Hr]; [split; [exact R|constructor]|].
    cbn [fst snd] in *. subst vb. destruct va as [|v [|w vs]]; cbn [fst snd].
    + split; [apply rev_like; exact Hr|constructor].
    + split; [apply rev_like; exact Hr|constructor; exact H1].
    + split; [apply set_like; [apply rev_like; exact Hr|exact H1]|constructor; exact H1].
  - split; [exact R|constructor; apply items_like; exact R].
  - split; [exact R|]. rewrite (like_length d d' R). constructor.
  - split; [exact R|]. pose proof (kwargs_like d d' R) as Q. destruct (kwargs K V d), (kwargs K V d'); try contradiction; constructor. exact Q.
Qed.

Theorem spelling os os' : Forall2 (like_op norm) os os' -> forall d d', like_d d d' ->
  Forall2 (like_out norm) (snd (run d os)) (snd (run d' os')).
Proof.
  induction 1 as [|o o' os os' H _ IH]; intros d d' R; [constructor|]. cbn [MultiModel.run]. destruct (step_like d d' o o' R H) as [R1 O].
  destruct (step d o) as [d1 r1]. destruct (step d' o') as [d1' r1']. cbn [fst snd] in *. specialize (IH d1 d1' R1).
  destruct (run d1 os), (run d1' os'). cbn [fst snd] in *. constructor; assumption.
Qed.

(** * Constructors *)

Lemma of_multi_ok (l : dict) : NoDup (keys l) -> forall k vs, In (k, vs) l -> get (of_multi K C V norm ceq l) k = Some vs.
Proof.
  unfold of_multi. assert (Q : forall d, (forall k vs, get (set d k vs) k = Some vs) /\ (forall k k' vs, norm k <> norm k' -> get (set d k vs) k' = get d k')).
  { induction d as [|[a va] d [IH1 IH2]]; cbn [MultiModel.set MultiModel.get]; unfold same; (split; [intros k vs|intros k k' vs NE]).
    - rewrite ceq_refl. reflexivity.
    - destruct (ceq_spec (norm k) (norm k')); [contradiction|reflexivity].
    - destruct (ceq (norm a) (norm k)) eqn:E; cbn [MultiModel.get]; unfold same; rewrite E; [reflexivity|apply IH1].
    - destruct (ceq_spec (norm a) (norm k)) as [E|_]; cbn [MultiModel.get]; unfold same.
      + destruct (ceq_spec (norm a) (norm k')); [congruence|reflexivity].
      + destruct (ceq (norm a) (norm k')); [reflexivity|apply IH2; exact NE]. }
  assert (P : forall l d k, ~ In (norm k) (keys l) -> get (fold_left (fun d p => set d (fst p) (snd p)) l d) k = get d k).
  { intros l0. induction l0 as [|[a va] l0 IH]; intros d k H; [reflexivity|]. cbn [fold_left fst snd]. rewrite IH by (intros X; apply H; right; exact X).
    apply Q. intros X. apply H. left. exact X. }
  generalize (@nil (K * list V)). induction l as [|[a va] l IH]; intros d N k vs H; [destruct H|]. inversion N as [|? ? N1 N2]; subst.
  cbn [fold_left fst snd]. destruct H as [H|H]; [|apply IH; assumption]. injection H as -> ->. rewrite P by exact N1. apply Q.
Qed.

End Proofs.

Section Fold.
Variables (S H V : Type) (fold : S -> S) (seq : S -> S -> bool) (hash : S -> H) (heq : H -> H -> bool).
Hypothesis seq_spec : forall a b, reflect (a = b) (seq a b).
Hypothesis heq_spec : forall a b, reflect (a = b) (heq a b).

Theorem contains_folded d k : fold k = k -> contains S H V fold seq hash heq d k = match get S S V fold seq d k with Some _ => true | None => false end.
Proof.
  intros E. unfold contains. induction d as [|[k' vs] d IH]; [reflexivity|]. cbn [existsb get fst]. rewrite IH. unfold found_by, same. rewrite E.
  destruct (seq_spec (fold k') k) as [Q|Q].
  - rewrite Q. destruct (heq_spec (hash k) (hash k)) as [_|NE]; [reflexivity|]. destruct NE. reflexivity.
  - rewrite andb_false_r. reflexivity.
Qed.

Theorem contains_sound d k : contains S H V fold seq hash heq d k = true -> get S S V fold seq d k <> None.
Proof.
  unfold contains. induction d as [|[k' vs] d IH]; [discriminate|]. cbn [existsb get fst]. unfold found_by, same. intros Q. apply orb_prop in Q.
  destruct (seq (fold k') (fold k)); [discriminate|]. destruct Q as [Q|Q]; [rewrite andb_false_r in Q; discriminate|apply IH; exact Q].
Qed.
End Fold.
