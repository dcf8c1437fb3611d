From Coq Require Import List Arith Bool Lia.
From Verif Require Import ResponseModel ResponseSpec.
Import ListNotations.

Record fine (w : world) : Prop := mk_fine {
  f_waiter : s_waiter w <> WCancelled;
  f_aborted : s_done w <> Some Aborted;
  f_pooled : conn w = Pooled -> complete w = true \/ transport w = false;
  f_held : connection w = true -> released w = false /\ closed w = false /\ conn w = Held;
  f_head : head w = false -> stream w = false /\ p_stream w = false /\ s_callbacks w = false /\ s_done w = None /\ s_waiter w = Nobody /\ conn w <> Pooled;
  f_left : connection w = true -> head w = true -> stream w = false -> complete w = true \/ p_exception w = true \/ transport w = false;
  f_stream : p_stream w = true -> s_done w = None /\ complete w = false /\ head w = true;
  f_error : s_done w = Some Error -> p_exception w = true \/ transport w = false;
  f_success : s_done w = Some Success -> complete w = true;
  f_done : s_waiter w = WDone -> s_done w = Some Success;
  f_werror : s_waiter w = WError -> s_done w = Some Error;
  f_none : head w = true -> s_done w = None -> p_stream w = true \/ stream w = false
}.

Ltac break := repeat match goal with |- context[if ?b then _ else _] => destruct b eqn:?; cbn in * end.
Ltac prep := repeat match goal with
  | H : ?a = ?a -> _ |- _ => specialize (H eq_refl)
  | H : true = false -> _ |- _ => clear H
  | H : false = true -> _ |- _ => clear H
  | H : None = Some _ -> _ |- _ => clear H
  | H : Some _ = None -> _ |- _ => clear H
  | H : _ /\ _ |- _ => destruct H
  end; subst.
Ltac fin := constructor; cbn in *; prep; intros; prep; try congruence; try (left; congruence); try tauto; intuition (try congruence).

Lemma begin_fine : fine begin.
Proof. fin. Qed.

Definition ops_ok (a : op) : Prop := match a with CancelRead _ => False | _ => True end.

Lemma fine_Head w k u p : fine w -> fine (step w (Head k u p)).
Proof.
  intros [A1 A2 A3 A4 A5 A6 A7 A8 A9 A10 A11 A12]. destruct w as [ps pe pq pl tr sd sc sb sw hd kp up rl cl cn st bd wr co rd rs gt cp]. cbn in A1, A2, A3, A4, A5, A6, A7, A8, A9, A10, A11, A12.
  cbn. destruct hd; [cbn; fin|]. destruct cl; [cbn; fin|]. destruct pe; [cbn; fin|]. destruct pq; [cbn; fin|]. cbn.
    destruct A5 as (-> & -> & -> & -> & -> & A5); [reflexivity|].
    destruct p; cbn; unfold response_eof, release_connection, clean_up_writer, should_close; cbn; destruct cn, u, k, wr; cbn; try destruct more; cbn; fin.
Qed.
Lemma fine_Data w d last more : fine w -> fine (step w (Data d last more)).
Proof.
  intros [A1 A2 A3 A4 A5 A6 A7 A8 A9 A10 A11 A12]. destruct w as [ps pe pq pl tr sd sc sb sw hd kp up rl cl cn st bd wr co rd rs gt cp]. cbn in A1, A2, A3, A4, A5, A6, A7, A8, A9, A10, A11, A12.
  cbn. destruct tr; [|cbn; fin]. destruct hd; [|cbn; fin]. destruct ps; cbn; [|fin]. destruct A7 as (-> & -> & _); [reflexivity|].
    destruct last; cbn; [|fin]. unfold success, run_callbacks, response_eof, release_connection, clean_up_writer, should_close, told. cbn.
    destruct sb; cbn; [|destruct sw; fin]. destruct cl; cbn; [destruct sw; fin|]. destruct cn, up; cbn; destruct sw; try congruence; fin.
Qed.
Lemma fine_Eof w ok : fine w -> fine (step w (Eof ok)).
Proof.
  intros [A1 A2 A3 A4 A5 A6 A7 A8 A9 A10 A11 A12]. destruct w as [ps pe pq pl tr sd sc sb sw hd kp up rl cl cn st bd wr co rd rs gt cp]. cbn in A1, A2, A3, A4, A5, A6, A7, A8, A9, A10, A11, A12.
  cbn. destruct tr; [|cbn; fin]. cbn. destruct ps; [|fin]. destruct A7 as (-> & -> & ->); [reflexivity|].
    destruct ok; unfold success, failure, run_callbacks, response_eof, release_connection, clean_up_writer, should_close, told; cbn.
    + destruct sb; cbn; [|destruct sw; fin]. destruct cl; cbn; [destruct sw; fin|]. destruct cn, up; cbn; destruct sw; try congruence; try fin; destruct pe, kp; cbn; fin.
    + destruct sb; cbn; [|destruct sw; fin]. destruct cl; cbn; [destruct sw; fin|]. destruct cn, up; cbn; destruct sw; try congruence; try fin; destruct pe, kp; cbn; fin.
Qed.
Lemma fine_Broken w  : fine w -> fine (step w (Broken )).
Proof.
  intros [A1 A2 A3 A4 A5 A6 A7 A8 A9 A10 A11 A12]. destruct w as [ps pe pq pl tr sd sc sb sw hd kp up rl cl cn st bd wr co rd rs gt cp]. cbn in A1, A2, A3, A4, A5, A6, A7, A8, A9, A10, A11, A12.
  cbn. destruct tr; [|cbn; fin]. cbn. unfold set_exception. cbn. destruct ps; [|fin]. destruct A7 as (-> & -> & ->); [reflexivity|].
    unfold failure, run_callbacks, response_eof, release_connection, clean_up_writer, should_close, told; cbn.
    destruct sb; cbn; [|destruct sw; fin]. destruct cl; cbn; [destruct sw; fin|]. destruct cn, up; cbn; destruct sw; try congruence; fin.
Qed.
Lemma fine_WriteDone w  : fine w -> fine (step w (WriteDone )).
Proof.
  intros [A1 A2 A3 A4 A5 A6 A7 A8 A9 A10 A11 A12]. destruct w as [ps pe pq pl tr sd sc sb sw hd kp up rl cl cn st bd wr co rd rs gt cp]. cbn in A1, A2, A3, A4, A5, A6, A7, A8, A9, A10, A11, A12.
  cbn. destruct wr; fin.
Qed.
Lemma fine_Read w i : fine w -> fine (step w (Read i)).
Proof.
  intros [A1 A2 A3 A4 A5 A6 A7 A8 A9 A10 A11 A12]. destruct w as [ps pe pq pl tr sd sc sb sw hd kp up rl cl cn st bd wr co rd rs gt cp]. cbn in A1, A2, A3, A4, A5, A6, A7, A8, A9, A10, A11, A12.
  cbn. destruct (existsb (Nat.eqb i) rd); [fin|]. destruct st; [|fin]. destruct sd as [[| |]|]; unfold joined; cbn; [fin|fin|fin|]. destruct sw; cbn; try fin.
Qed.
Lemma fine_Resume w i : fine w -> fine (step w (Resume i)).
Proof.
  intros [A1 A2 A3 A4 A5 A6 A7 A8 A9 A10 A11 A12]. destruct w as [ps pe pq pl tr sd sc sb sw hd kp up rl cl cn st bd wr co rd rs gt cp]. cbn in A1, A2, A3, A4, A5, A6, A7, A8, A9, A10, A11, A12.
  cbn. destruct (existsb (Nat.eqb i) rd); [|fin]. unfold continued, joined, abort. cbn. destruct sw; [fin|fin|fin| |destruct (A1 eq_refl)].
    pose proof (A11 eq_refl) as E. subst sd. cbn. fin.
Qed.
Lemma fine_Close w  : fine w -> fine (step w (Close )).
Proof.
  intros [A1 A2 A3 A4 A5 A6 A7 A8 A9 A10 A11 A12]. destruct w as [ps pe pq pl tr sd sc sb sw hd kp up rl cl cn st bd wr co rd rs gt cp]. cbn in A1, A2, A3, A4, A5, A6, A7, A8, A9, A10, A11, A12.
  destruct cn.
    + destruct A4 as (-> & -> & ->); [reflexivity|]. destruct st.
      * destruct ps.
        -- destruct A7 as (-> & -> & ->); [reflexivity|]. destruct sw; try (destruct (A1 eq_refl)); destruct sb, up; vm_compute; fin.
        -- vm_compute; fin.
      * cbn; fin.
    + destruct rl, cl, st; vm_compute; fin.
Qed.
Lemma fine_Release w  : fine w -> fine (step w (Release )).
Proof.
  intros [A1 A2 A3 A4 A5 A6 A7 A8 A9 A10 A11 A12]. destruct w as [ps pe pq pl tr sd sc sb sw hd kp up rl cl cn st bd wr co rd rs gt cp]. cbn in A1, A2, A3, A4, A5, A6, A7, A8, A9, A10, A11, A12.
  destruct cn.
    + destruct A4 as (-> & -> & ->); [reflexivity|]. destruct st.
      * destruct ps.
        -- destruct A7 as (-> & -> & ->); [reflexivity|]. destruct sw; try (destruct (A1 eq_refl)); destruct sb, up; vm_compute; fin.
        -- vm_compute; fin.
      * destruct hd; [|cbn; rewrite orb_true_r; fin]. destruct pe; [destruct ps; vm_compute; fin|].
        cbn. match goal with |- context[if ?b then Shut else Pooled] => generalize (if b then Shut else Pooled) end. intros co. fin.
    + destruct rl, cl, st; vm_compute; fin.
Qed.
Lemma fine_step w a : fine w -> ops_ok a -> fine (step w a).
Proof.
  intros F N. destruct a; try contradiction; [apply fine_Head|apply fine_Data|apply fine_Eof|apply fine_Broken|apply fine_WriteDone|apply fine_Read|apply fine_Resume|apply fine_Close|apply fine_Release]; exact F.
Qed.

Lemma fine_run l : forall w, fine w -> Forall ops_ok l -> fine (run w l).
Proof. induction l as [|a l IH]; intros w F O1; [exact F|]. inversion O1; subst. apply (IH (step w a)); [apply fine_step; assumption|assumption]. Qed.
Lemma no_cancel_ok l : no_cancel l -> Forall ops_ok l.
Proof. intros H. apply Forall_forall. intros a I1. destruct a; cbn; auto. apply (H i). exact I1. Qed.

Lemma kept_complete l : no_cancel l -> kept (run begin l) -> whole_response (run begin l).
Proof.
  intros N [P T]. assert (F : fine (run begin l)) by (apply fine_run; [apply begin_fine|apply no_cancel_ok; exact N]).
  destruct (f_pooled _ F P) as [C|C]; [exact C|congruence].
Qed.

(** * The body of the request *)
Lemma write_response_eof w : write w = Written -> write (response_eof w) = Written.
Proof. intros H. unfold response_eof, release_connection, clean_up_writer. destruct (closed w), (connection w) eqn:?, (upgraded w); cbn; rewrite ?H; auto. Qed.
Lemma write_callbacks w : write w = Written -> write (run_callbacks w) = Written.
Proof. intros H. unfold run_callbacks. destruct (s_callbacks w); [apply write_response_eof|]; exact H. Qed.
Lemma write_success w : write w = Written -> write (success w) = Written.
Proof. intros H. unfold success. destruct (s_done w); [exact H|]. apply write_callbacks. exact H. Qed.
Lemma write_failure w : write w = Written -> write (failure w) = Written.
Proof. intros H. unfold failure. destruct (s_done w); [exact H|]. apply write_callbacks. exact H. Qed.
Lemma write_abort w : write w = Written -> write (abort w) = Written.
Proof. intros H. unfold abort. destruct (s_done w); [exact H|]. apply write_callbacks. cbn. destruct (s_callbacks w); exact H. Qed.
Lemma write_exception w : write w = Written -> write (set_exception w) = Written.
Proof. intros H. unfold set_exception. destruct (p_stream w); [apply write_failure|]; exact H. Qed.
Lemma write_notify w : write w = Written -> write (notify_content w) = Written.
Proof. intros H. unfold notify_content. cbn. destruct (stream w && connection w); [apply write_exception|]; exact H. Qed.
Lemma write_clean w : write w = Written -> write (clean_up_writer w) = Written.
Proof. intros H. unfold clean_up_writer. cbn. rewrite H. reflexivity. Qed.
Lemma write_continued w i : write w = Written -> write (continued w i) = Written.
Proof. intros H. unfold continued, joined. destruct (s_waiter w); cbn; try exact H; apply write_abort; exact H. Qed.
Lemma write_step w a : write w = Written -> write (step w a) = Written.
Proof.
  intros H. destruct a; cbn [step].
  - destruct (head w || closed w || p_exception w || p_eof w); [exact H|]. destruct p; try (apply write_response_eof; exact H); try exact H.
  - destruct (negb (transport w) || negb (head w)); [exact H|]. destruct (p_stream w); [|exact H]. destruct last; [|exact H]. cbn. apply write_success. exact H.
  - destruct (negb (transport w)); [exact H|]. destruct (p_stream w); [|exact H]. destruct ok; [apply write_success|apply write_failure]; exact H.
  - destruct (negb (transport w)); [exact H|]. apply write_exception. exact H.
  - rewrite H. exact H.
  - destruct (existsb (Nat.eqb i) (reading w)); [exact H|]. destruct (stream w); [|exact H]. destruct (s_done w) as [[| |]|]; try exact H. destruct (s_waiter w) eqn:E; try exact H. apply write_continued. exact H.
  - destruct (existsb (Nat.eqb i) (reading w)); [apply write_continued|]; exact H.
  - destruct (existsb (Nat.eqb i) (reading w)); [|exact H]. destruct (s_waiter w); exact H.
  - assert (G : write (if released w then w else notify_content w) = Written) by (destruct (released w); [|apply write_notify]; exact H).
    destruct (closed _); [exact G|]. apply write_clean. cbn. destruct (connection _); exact G.
  - assert (G : write (if released w then w else notify_content w) = Written) by (destruct (released w); [|apply write_notify]; exact H).
    destruct (closed _); [exact G|]. apply write_clean. unfold release_connection. cbn. destruct (connection _); exact G.
Qed.
Lemma write_run l : forall w, write w = Written -> write (run w l) = Written.
Proof. induction l as [|a l IH]; intros w H; [exact H|]. apply (IH (step w a)). apply write_step. exact H. Qed.

(** * Reading: only the task [r] reads *)
Record reads (r : nat) (w : world) : Prop := mk_reads {
  r_reading : reading w = [] \/ (reading w = [r] /\ stream w = true);
  r_stream : stream w = true -> body w = None /\ (s_done w = Some Error \/ s_chunks w = got w);
  r_body : forall d, body w = Some d -> d = got w /\ complete w = true;
  r_results : forall i d, In (i, Body d) (results w) -> d = got w /\ complete w = true;
  r_fresh : head w = false -> got w = [] /\ complete w = false
}.
Definition by_task (r : nat) (a : op) : Prop := match a with Read j => j = r | CancelRead _ => False | _ => True end.

(** What of the world reading looks at is left alone by everything else. *)
Definition same (w v : world) : Prop := reading v = reading w /\ stream v = stream w /\ body v = body w /\ results v = results w /\ got v = got w /\ complete v = complete w /\ head v = head w.
Lemma same_eof w : same w (response_eof w) /\ s_done (response_eof w) = s_done w /\ s_chunks (response_eof w) = s_chunks w.
Proof. unfold same, response_eof, release_connection, clean_up_writer. destruct (closed w), (connection w) eqn:?, (upgraded w); cbn; auto 10. Qed.
Lemma same_callbacks w : same w (run_callbacks w) /\ s_done (run_callbacks w) = s_done w /\ s_chunks (run_callbacks w) = s_chunks w.
Proof. unfold run_callbacks. destruct (s_callbacks w); [|unfold same; auto 10]. apply (same_eof (set_stream w (s_done w) (s_chunks w) false (s_waiter w))). Qed.
Lemma same_success w : same w (success w) /\ s_chunks (success w) = s_chunks w /\ (s_done (success w) = Some Error -> s_done w = Some Error).
Proof.
  unfold success. destruct (s_done w) eqn:E; [unfold same; repeat split; auto; congruence|]. match goal with |- same w (run_callbacks ?v) /\ _ => destruct (same_callbacks v) as (A & B & C) end.
  split; [exact A|]. split; [exact C|]. rewrite B. cbn. congruence.
Qed.
Lemma same_failure w : same w (failure w) /\ (s_done (failure w) = Some Error \/ (s_done (failure w) = s_done w /\ s_chunks (failure w) = s_chunks w)).
Proof.
  unfold failure. destruct (s_done w) eqn:E; [unfold same; repeat split; auto|]. match goal with |- same w (run_callbacks ?v) /\ _ => destruct (same_callbacks v) as (A & B & C) end.
  split; [exact A|]. left. exact B.
Qed.
Lemma same_exception w : same w (set_exception w) /\ (s_done (set_exception w) = Some Error \/ (s_done (set_exception w) = s_done w /\ s_chunks (set_exception w) = s_chunks w)).
Proof. unfold set_exception. destruct (p_stream w); [|unfold same; cbn; auto 10]. apply (same_failure (set_protocol w false true (p_eof w) (p_left w) (transport w))). Qed.
Lemma same_notify w : same w (notify_content w) /\ (s_done (notify_content w) = Some Error \/ (s_done (notify_content w) = s_done w /\ s_chunks (notify_content w) = s_chunks w)).
Proof. unfold notify_content. destruct (stream w && connection w); [|unfold same; cbn; auto 10]. destruct (same_exception w) as [A B]. split; [exact A|exact B]. Qed.

Lemma reads_same r w v : reads r w -> same w v -> (s_done v = Some Error \/ (s_done v = s_done w /\ s_chunks v = s_chunks w)) -> reads r v.
Proof.
  intros [A B C D E] (S1 & S2 & S3 & S4 & S5 & S6 & S7) X. constructor; rewrite ?S1, ?S2, ?S3, ?S4, ?S5, ?S6, ?S7; auto.
  intros St. destruct (B St) as [B1 B2]. split; [exact B1|]. destruct X as [X|[X Y]]; [left; exact X|]. rewrite X, Y. exact B2.
Qed.

Lemma reads_joined r w : reads r w -> stream w = true -> s_done w = Some Success -> complete w = true -> reads r (joined w r).
Proof.
  intros [A B C D E] St Sd Cp. destruct (B St) as [B1 [B2|B2]]; [congruence|]. unfold joined. constructor; cbn.
  - left. destruct A as [A|[A _]]; rewrite A; cbn; [reflexivity|]. rewrite Nat.eqb_refl. reflexivity.
  - discriminate.
  - intros d X. injection X as <-. auto.
  - intros i d X. apply in_app_iff in X. destruct X as [X|[X|[]]]; [apply (D i d X)|]. injection X as _ <-. auto.
  - exact E.
Qed.

Lemma reads_gives r w x : reads r w -> (forall d, x <> Body d) -> reads r (gives (forget w (body w)) r x).
Proof.
  intros [A B C D E] N. constructor; cbn.
  - left. destruct A as [A|[A _]]; rewrite A; cbn; [reflexivity|]. rewrite Nat.eqb_refl. reflexivity.
  - discriminate.
  - exact C.
  - intros i d X. apply in_app_iff in X. destruct X as [X|[X|[]]]; [apply (D i d X)|]. injection X as _ X. destruct (N d X).
  - exact E.
Qed.

Lemma reads_step r w a : fine w -> reads r w -> by_task r a -> reads r (step w a).
Proof.
  intros F R T. destruct a; cbn [step]; cbn in T; try contradiction.
  - destruct (head w) eqn:Hd; cbn [orb]; [exact R|]. destruct (closed w || p_exception w || p_eof w); [exact R|].
    destruct (f_head _ F Hd) as (St & Ps & Cb & Sd & Sw & Co). destruct R as [A B C D E]. destruct (E Hd) as [G1 G2].
    assert (Bn : body w = None) by (destruct (body w) as [d|]; [destruct (C d eq_refl); congruence|reflexivity]).
    assert (Rn : forall i d, ~ In (i, Body d) (results w)) by (intros i d X; destruct (D i d X); congruence).
    assert (An : reading w = []) by (destruct A as [A|[A X]]; [exact A|congruence]).
    destruct p; cbn.
    + match goal with |- reads r (response_eof ?v) => destruct (same_eof v) as (X & Y & Z); apply (reads_same r v); auto end.
      constructor; cbn; auto; try congruence; intros; exfalso; eapply Rn; eassumption.
    + constructor; cbn; auto; try congruence; intros; exfalso; eapply Rn; eassumption.
    + match goal with |- context[response_eof ?v] => destruct (same_eof v) as ((X1 & X2 & X3 & X4 & X5 & X6 & X7) & Y & Z) end. cbn in *.
      constructor; cbn; rewrite ?X1, ?X2, ?X3, ?X4, ?X5, ?X6, ?X7, ?Y, ?Z; auto; try congruence; intros; exfalso; eapply Rn; eassumption.
    + constructor; cbn; auto; try congruence; intros; exfalso; eapply Rn; eassumption.
  - destruct (negb (transport w) || negb (head w)); [exact R|]. destruct (p_stream w) eqn:Ps; [|apply (reads_same r w); [exact R|unfold same; cbn; auto 10|right; auto]].
    destruct (f_stream _ F Ps) as (Sd & Cp & Hd). destruct R as [A B C D E].
    cbv zeta. match goal with |- reads r (if last then _ else ?v) => assert (R2 : reads r v) end.
    { constructor; cbn; auto.
      - intros St. destruct (B St) as [B1 [B2|B2]]; [congruence|]. split; [exact B1|]. right. rewrite B2. reflexivity.
      - intros x X. destruct (C x X). congruence.
      - intros i x X. destruct (D i x X). congruence.
      - congruence. }
    destruct last; [|exact R2]. match type of R2 with reads r ?v => destruct (same_success v) as ((X1 & X2 & X3 & X4 & X5 & X6 & X7) & Y & Z) end.
    destruct R2 as [A2 B2 C2 D2 E2]. constructor; cbn [set_protocol reading stream body s_done s_chunks got complete results head]; rewrite ?X1, ?X2, ?X3, ?X4, ?X5, ?X6, ?X7, ?Y; auto.
    intros St. destruct (B2 St) as [B3 [B4|B4]]; [cbn in B4; congruence|]. auto.
  - destruct (negb (transport w)); [exact R|]. destruct (p_stream w) eqn:Ps; [|apply (reads_same r w); [exact R|unfold same; cbn; auto 10|right; auto]].
    destruct (f_stream _ F Ps) as (Sd & Cp & Hd). destruct R as [A B C D E]. destruct ok.
    + match goal with |- reads r (success ?v) => assert (R2 : reads r v); [|destruct (same_success v) as ((X1 & X2 & X3 & X4 & X5 & X6 & X7) & Y & Z)] end.
      { constructor; cbn; auto; [intros x X; destruct (C x X); congruence|intros i x X; destruct (D i x X); congruence|congruence]. }
      destruct R2 as [A2 B2 C2 D2 E2]. constructor; rewrite ?X1, ?X2, ?X3, ?X4, ?X5, ?X6, ?X7, ?Y; auto.
      intros St. destruct (B2 St) as [B3 [B4|B4]]; [cbn in B4; congruence|]. auto.
    + match goal with |- reads r (failure ?v) => destruct (same_failure v) as [X Y]; apply (reads_same r v); auto end. constructor; cbn; auto.
  - destruct (negb (transport w)); [exact R|]. match goal with |- reads r (set_exception ?v) => destruct (same_exception v) as [X Y]; apply (reads_same r v); auto end.
    apply (reads_same r w); [exact R|unfold same; cbn; auto 10|right; auto].
  - destruct (write w); try exact R. apply (reads_same r w); [exact R|unfold same; cbn; auto 10|right; auto].
  - subst i. destruct (existsb (Nat.eqb r) (reading w)) eqn:Ex; [exact R|]. destruct (stream w) eqn:St.
    + destruct (s_done w) as [[| |]|] eqn:Sd.
      * apply reads_joined; auto. apply (f_success _ F Sd).
      * apply reads_gives; [exact R|discriminate].
      * destruct (f_aborted _ F Sd).
      * destruct R as [A B C D E]. assert (An : reading w = []) by (destruct A as [A|[A _]]; [exact A|rewrite A in Ex; cbn in Ex; rewrite Nat.eqb_refl in Ex; discriminate]).
        destruct (s_waiter w) eqn:Sw; try (destruct (f_waiter _ F Sw)); (constructor; cbn; auto; [right; rewrite An; auto|rewrite ?Sd in *; auto]).
    + destruct R as [A B C D E]. constructor; cbn; auto.
      * left. destruct A as [A|[A X]]; [rewrite A; reflexivity|congruence].
      * intros i d X. apply in_app_iff in X. destruct X as [X|[X|[]]]; [apply (D i d X)|]. destruct (body w) as [b|]; [|discriminate]. injection X as _ <-. apply C. reflexivity.
  - destruct (existsb (Nat.eqb i) (reading w)) eqn:Ex; [|exact R].
    destruct (r_reading _ _ R) as [A|[A St]]; rewrite A in Ex; cbn in Ex; [discriminate|]. rewrite orb_false_r in Ex. apply Nat.eqb_eq in Ex. subst i.
    unfold continued. destruct (s_waiter w) eqn:Sw; try exact R.
    + apply reads_joined; auto; [apply (f_done _ F Sw)|apply (f_success _ F (f_done _ F Sw))].
    + unfold abort. rewrite (f_werror _ F Sw). apply reads_gives; [exact R|discriminate].
    + destruct (f_waiter _ F Sw).
  - assert (G : reads r (if released w then w else notify_content w)).
    { destruct (released w); [exact R|]. destruct (same_notify w) as [X Y]. apply (reads_same r w); auto. }
    cbv zeta. destruct (closed _); [exact G|]. eapply reads_same; [exact G| |right; unfold clean_up_writer; cbn; destruct (connection _); cbn; auto].
    unfold same, clean_up_writer. cbn. destruct (connection _); cbn; auto 10.
  - assert (G : reads r (if released w then w else notify_content w)).
    { destruct (released w); [exact R|]. destruct (same_notify w) as [X Y]. apply (reads_same r w); auto. }
    cbv zeta. destruct (closed _); [exact G|]. eapply reads_same; [exact G| |right; unfold clean_up_writer, release_connection; cbn; destruct (connection _); cbn; auto].
    unfold same, clean_up_writer, release_connection. cbn. destruct (connection _); cbn; auto 10.
Qed.

Lemma reads_run r l : forall w, fine w -> reads r w -> Forall (by_task r) l -> reads r (run w l).
Proof.
  induction l as [|a l IH]; intros w F R T; [exact R|]. inversion T; subst. apply (IH (step w a)); auto; [|apply reads_step; assumption].
  apply fine_step; [exact F|]. destruct a; cbn in *; auto.
Qed.
Lemma one_reads l i d : no_cancel l -> one_reader l -> In (i, Body d) (results (run begin l)) -> d = got (run begin l) /\ whole_response (run begin l).
Proof.
  intros N (r & O1) H. assert (R : reads r (run begin l)).
  { apply reads_run; [apply begin_fine|constructor; cbn; auto; try discriminate; intros ? ? []|]. apply Forall_forall. intros a X. destruct a; cbn; auto. apply (N i0). exact X. }
  apply (r_results _ _ R i d H).
Qed.
Lemma written_first l : kept (run begin (WriteDone :: l)) -> whole_request (run begin (WriteDone :: l)).
Proof. intros _. apply (write_run l (step begin WriteDone)). reflexivity. Qed.

(** * When the connection is kept *)
Lemma at_once_kept p : p = Nothing \/ (exists d, p = AtOnce d false) -> kept (run begin [WriteDone; Head true false p]).
Proof. intros [->|(d & ->)]; unfold kept; vm_compute; auto. Qed.
Lemma streamed_shut d e more :
  let w := run begin [WriteDone; Head true false (Later d); Data e true more] in
  whole_response w /\ whole_request w /\ transport w = true /\ ~ kept w.
Proof. cbv zeta. unfold whole_response, whole_request, kept. destruct more; vm_compute; intuition discriminate. Qed.

(** The fate of a connection given back does not change. *)
Definition gone (w : world) : Prop := connection w = false /\ conn w = Shut.
Lemma gone_eof w : gone w -> gone (response_eof w).
Proof. intros [A B]. unfold gone, response_eof, clean_up_writer. rewrite A. cbn. destruct (closed w); cbn; auto. Qed.
Lemma gone_callbacks w : gone w -> gone (run_callbacks w).
Proof. intros H. unfold run_callbacks. destruct (s_callbacks w); [apply gone_eof|]; exact H. Qed.
Lemma gone_success w : gone w -> gone (success w).
Proof. intros H. unfold success. destruct (s_done w); [exact H|]. apply gone_callbacks. exact H. Qed.
Lemma gone_failure w : gone w -> gone (failure w).
Proof. intros H. unfold failure. destruct (s_done w); [exact H|]. apply gone_callbacks. exact H. Qed.
Lemma gone_abort w : gone w -> gone (abort w).
Proof. intros H. unfold abort. destruct (s_done w); [exact H|]. apply gone_callbacks. cbn. destruct (s_callbacks w); exact H. Qed.
Lemma gone_exception w : gone w -> gone (set_exception w).
Proof. intros H. unfold set_exception. destruct (p_stream w); [apply gone_failure|]; exact H. Qed.
Lemma gone_notify w : gone w -> gone (notify_content w).
Proof. intros H. unfold notify_content. destruct (stream w && connection w); [apply (gone_exception w H)|exact H]. Qed.
Lemma gone_continued w i : gone w -> gone (continued w i).
Proof. intros H. unfold continued, joined. destruct (s_waiter w); cbn; try exact H; apply gone_abort; exact H. Qed.
Lemma gone_step w a : gone w -> gone (step w a).
Proof.
  intros H. destruct a; cbn [step].
  - destruct (head w || closed w || p_exception w || p_eof w); [exact H|]. cbv zeta. destruct p; try (apply gone_eof; exact H); try exact H.
  - destruct (negb (transport w) || negb (head w)); [exact H|]. destruct (p_stream w); [|exact H]. cbv zeta. destruct last; [|exact H].
    match goal with |- gone (set_protocol ?v _ _ _ _ _) => assert (G : gone v) by (apply gone_success; exact H) end. exact G.
  - destruct (negb (transport w)); [exact H|]. destruct (p_stream w); [|exact H]. destruct ok; [apply gone_success|apply gone_failure]; exact H.
  - destruct (negb (transport w)); [exact H|]. apply gone_exception. exact H.
  - destruct (write w); exact H.
  - destruct (existsb (Nat.eqb i) (reading w)); [exact H|]. destruct (stream w); [|exact H]. destruct (s_done w) as [[| |]|]; try exact H. destruct (s_waiter w) eqn:E; try exact H. apply gone_continued. exact H.
  - destruct (existsb (Nat.eqb i) (reading w)); [apply gone_continued|]; exact H.
  - destruct (existsb (Nat.eqb i) (reading w)); [|exact H]. destruct (s_waiter w); exact H.
  - assert (G : gone (if released w then w else notify_content w)) by (destruct (released w); [|apply gone_notify]; exact H).
    cbv zeta. revert G. generalize (if released w then w else notify_content w). intros v G. destruct (closed v); [exact G|]. destruct G as [G1 G2]. unfold gone, clean_up_writer, release_connection. cbn. rewrite G1. cbn. auto.
  - assert (G : gone (if released w then w else notify_content w)) by (destruct (released w); [|apply gone_notify]; exact H).
    cbv zeta. revert G. generalize (if released w then w else notify_content w). intros v G. destruct (closed v); [exact G|]. destruct G as [G1 G2]. unfold gone, clean_up_writer, release_connection. cbn. rewrite G1. cbn. auto.
Qed.
Lemma gone_run l : forall w, gone w -> gone (run w l).
Proof. induction l as [|a l IH]; intros w H; [exact H|]. apply (IH (step w a)). apply gone_step. exact H. Qed.

Lemma close_gone w : fine w -> connection w = true -> gone (step w Close).
Proof.
  intros F Cn. destruct (f_held _ F Cn) as (R & C & K). cbn [step]. rewrite R. cbv zeta. unfold notify_content. rewrite Cn, andb_true_r.
  destruct (stream w); [|cbn; rewrite C, Cn; split; reflexivity]. unfold set_exception.
  destruct (p_stream w) eqn:Ps; [|cbn; rewrite C, Cn; split; reflexivity]. destruct (f_stream _ F Ps) as (Sd & _ & _).
  unfold failure. cbn. rewrite Sd. unfold run_callbacks. cbn. destruct (s_callbacks w); [|cbn; rewrite C, Cn; split; reflexivity].
  unfold response_eof, release_connection, should_close, clean_up_writer. cbn. rewrite C, Cn. destruct (upgraded w); cbn; rewrite ?C, ?Cn; split; reflexivity.
Qed.
Lemma close_shuts l m : no_cancel l -> connection (run begin l) = true -> conn (run begin (l ++ Close :: m)) = Shut.
Proof.
  intros N Cn. unfold run. rewrite fold_left_app. apply (gone_run m (step (run begin l) Close)). apply close_gone; [|exact Cn].
  apply fine_run; [apply begin_fine|apply no_cancel_ok; exact N].
Qed.

Lemma read_again w i b : stream w = false -> ~ In i (reading w) -> body w = Some b ->
  results (step w (Read i)) = results w ++ [(i, Body b)] /\ body (step w (Read i)) = Some b.
Proof.
  intros St N B. cbn. destruct (existsb (Nat.eqb i) (reading w)) eqn:E.
  - apply existsb_exists in E. destruct E as (x & X & Y). apply Nat.eqb_eq in Y. subst. contradiction.
  - rewrite St. cbn. rewrite B. auto.
Qed.
