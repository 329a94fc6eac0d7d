(* The times at which wdmd (Wdmd.v) pings the device, relative to the expiry times
   that its clients have registered. *)
From Coq Require Import List ZArith Lia Bool Arith ZifyBool.
From Verif Require Import Wdmd.
Import ListNotations.
Open Scope Z_scope.

(* What is assumed about the clients.  sanlock opens the watchdog on the connection
   before it registers an expiry (lockspace.c:855, 885), so the loop is enabled.  The
   first expiry is more than a test interval ahead; later ones do not go back
   (timestamp + 8 * io_timeout, watchdog.c:60-72, with growing timestamps). *)
Definition live_ok (s : wst) (t : Z) (x : win) : Prop :=
  match x with
  | WLive i e =>
      e <> 0 ->
      w_enable s = true /\ w_std s <= e < 2 ^ 64 /\
      (t + w_std s < e \/
       exists c, nth_error (w_cl s) i = Some c /\ w_exp c <> 0 /\ w_exp c <= e)
  | _ => True
  end.

(* The device is touched at most one standard interval and sl seconds after the
   previous test. *)
Definition paced (sl : Z) (s : wst) (x : win) : Prop :=
  match x with
  | WTail t0 tc tp bad re =>
      (w_open s = true -> tp <= w_tc s + w_std s + sl) /\ tp <= tc + w_std s + sl
  | _ => True
  end.

Inductive treach (sl : Z) : wst -> Prop :=
| tr_init : treach sl winit
| tr_step s t x s' o :
    treach sl s -> live_ok s t x -> paced sl s x ->
    wstep s t x = Some (s', o) -> treach sl s'.

Definition waiting (c : wcl) : Prop := w_used c = true /\ w_exp c <> 0.

Record tinv (sl : Z) (s : wst) : Prop := mkTinv {
  TI_slots : slots_ok s;
  TI_off : w_enable s = false -> forall c, In c (w_cl s) -> ~ waiting c;
  TI_open : w_open s = true -> w_enable s = true;
  TI_ahead : w_open s = true -> forall c, In c (w_cl s) -> waiting c -> w_tc s + w_std s < w_exp c;
  TI_tc : w_tc s <= w_now s;
  TI_last : k_last s <= w_now s;
  TI_std : 0 < w_std s;
  TI_range : forall c, In c (w_cl s) -> waiting c -> w_std s <= w_exp c < 2 ^ 64;
  TI_ping : forall c, In c (w_cl s) -> waiting c -> k_last s < w_exp c + sl;
  TI_armed : w_enable s = true -> w_done s = false -> k_armed s = true;
  TI_int : forall c, In c (w_cl s) -> w_int c = true -> w_exp c = 0 }.

Lemma init_interval_pos f : 0 < init_test_interval f <= 10.
Proof. unfold init_test_interval. repeat match goal with |- context [if ?b then _ else _] => destruct b end; lia. Qed.

Lemma test_clients_ok std t l c :
  test_clients std t l = false -> In c l -> waiting c -> std <= w_exp c < 2 ^ 64 -> 0 < std ->
  t + std < w_exp c.
Proof.
  intros H Hc [U E] R P. assert (F : client_fails std t c = false).
  { destruct (client_fails std t c) eqn:F; [|auto].
    assert (test_clients std t l = true); [|congruence]. apply existsb_exists. eauto. }
  unfold client_fails in F. rewrite U in F. cbn in F.
  replace (w_exp c =? 0) with false in F by lia. cbn in F.
  unfold u64 in F. rewrite Z.mod_small in F by lia. lia.
Qed.

Lemma new_client_not_waiting s c :
  slots_ok s -> c = unused \/ In c (w_cl s) /\ w_used c = false -> ~ waiting (new_client c).
Proof.
  intros I [->|[H U]] [_ W]; cbn in W; [congruence|]. apply (I _ H) in U as [_ U]. congruence.
Qed.

Lemma tinit sl : tinv sl winit.
Proof.
  split; cbn; try lia; try discriminate.
  - intros c [<-|[<-|[]]]; discriminate.
  - intros _ c [<-|[<-|[]]] [_ W]; cbn in W; congruence.
  - intros c [<-|[<-|[]]] [_ W]; cbn in W; congruence.
  - intros c [<-|[<-|[]]] [_ W]; cbn in W; congruence.
  - intros c [<-|[<-|[]]] _; reflexivity.
Qed.

(* lia without the boolean equations of the context, each of which doubles the cases *)
Ltac plia := repeat match goal with H : @eq bool _ _ |- _ => clear H end; lia.

(* the invariant is kept, and every ping is before every registered expiry *)
Lemma tstep sl s t x s' o :
  0 <= sl -> tinv sl s -> live_ok s t x -> paced sl s x -> wstep s t x = Some (s', o) ->
  tinv sl s' /\
  forall p c, In (OPing p) o -> In c (w_cl s') -> waiting c -> p < w_exp c + sl.
Proof.
  intros SL I L P H. pose proof (wstep_slots _ _ _ _ _ (TI_slots _ _ I) H) as SO.
  pose proof I as [I0 I1 I2 I3 I4 I5 I6 I7 I8 I9 I10].
  unfold wstep in H. destruct (w_done s) eqn:D; [discriminate|].
  destruct (t <? w_now s) eqn:T; [discriminate|]. cbn [orb] in H. apply Z.ltb_ge in T.
  destruct x as [|i b|i e|f r|i| |t0 tc tp bad re]; cbn -[open_watchdog tail] in H.
  - injection H as <- <-. split; [|intros p c []].
    assert (Q : forall c, In c (client_add (w_cl s)) -> waiting c -> In c (w_cl s)).
    { intros c Hc W. apply client_add_In in Hc as [Hc|(d & Hd & ->)]; [auto|].
      exfalso. exact (new_client_not_waiting _ _ I0 Hd W). }
    split; cbn; auto; try plia.
    + intros En c Hc W. exact (I1 En c (Q c Hc W) W).
    + intros c Hc W. apply client_add_In in Hc as [Hc|(d & Hd & ->)]; [auto|discriminate].
  - destruct (get (at_time s t) i) as [d|] eqn:G; [|discriminate]. injection H as <- <-.
    apply get_nth in G as (G & U & _). cbn in G. apply nth_error_In in G.
    split; [|intros p c []].
    assert (Q : forall c, In c (upd i (mkWcl true true b false (w_exp d)) (w_cl s)) -> waiting c ->
      exists c', In c' (w_cl s) /\ waiting c' /\ w_exp c' = w_exp c).
    { intros c Hc W. apply upd_In in Hc as [->|Hc]; [exists d|exists c]; cbn; auto.
      destruct W as [_ W]. repeat split; auto. }
    split; cbn; auto; try plia.
    + intros En c Hc W. destruct (Q c Hc W) as (c' & H1 & H2 & _). exact (I1 En c' H1 H2).
    + intros Op c Hc W. destruct (Q c Hc W) as (c' & H1 & H2 & <-). auto.
    + intros c Hc W. destruct (Q c Hc W) as (c' & H1 & H2 & <-). auto.
    + intros c Hc W. destruct (Q c Hc W) as (c' & H1 & H2 & <-). auto.
    + intros c Hc W. apply upd_In in Hc as [->|Hc]; [discriminate|auto].
  - destruct (get (at_time s t) i) as [d|] eqn:G; [|discriminate]. injection H as <- <-.
    apply get_nth in G as (G & U & _). cbn in G.
    split; [|intros p c []].
    assert (Q : forall c, In c (upd i (mkWcl true true (w_ref d) false e) (w_cl s)) -> waiting c ->
      (In c (w_cl s) \/ (e <> 0 /\ w_exp c = e))).
    { intros c Hc W. apply upd_In in Hc as [->|Hc]; [|auto]. right. destruct W as [_ W].
      cbn in W. auto. }
    cbn in L.
    assert (Old : forall c, nth_error (w_cl s) i = Some c -> c = d) by (intros; congruence).
    split; cbn; auto; try plia.
    + intros En c Hc W. destruct (Q c Hc W) as [H1|[H1 _]]; [exact (I1 En c H1 W)|].
      apply L in H1 as [H1 _]. congruence.
    + intros Op c Hc W. destruct (Q c Hc W) as [H1|[H1 ->]]; [auto|].
      destruct (L H1) as (_ & _ & [L1|(c' & L2 & L3 & L4)]); [lia|].
      assert (w_tc s + w_std s < w_exp c'); [|lia].
      apply I3; [auto|eapply nth_error_In; eauto|]. rewrite (Old _ L2) in *. split; auto.
    + intros c Hc W. destruct (Q c Hc W) as [H1|[H1 ->]]; [auto|]. apply L in H1. tauto.
    + intros c Hc W. destruct (Q c Hc W) as [H1|[H1 ->]]; [auto|].
      destruct (L H1) as (_ & _ & [L1|(c' & L2 & L3 & L4)]); [lia|].
      assert (k_last s < w_exp c' + sl); [|lia].
      apply I8; [eapply nth_error_In; eauto|]. rewrite (Old _ L2) in *. split; auto.
    + intros c Hc W. apply upd_In in Hc as [->|Hc]; [discriminate|auto].
  - injection H as H. unfold open_watchdog in H. cbn in H.
    assert (Same : tinv sl (at_time s t)) by (split; cbn; auto; lia).
    destruct (w_enable s) eqn:En; [injection H as <- <-; split; [exact Same|intros p c []]|].
    destruct (f =? 0); [injection H as <- <-; split; [exact Same|intros p c []]|].
    destruct (w_open s) eqn:Op; [injection H as <- <-; split; [exact Same|intros p c []]|].
    destruct r; injection H as <- <-.
    + split; [exact Same|intros p c []].
    + split; [|intros p c _ Hc W; destruct (I1 eq_refl c Hc W)].
      split; cbn; auto; try plia; try discriminate.
      intros c Hc W; destruct (I1 eq_refl c Hc W).
    + split; [|intros p c _ Hc W; destruct (I1 eq_refl c Hc W)].
      pose proof (init_interval_pos f).
      split; cbn; auto; try plia; try discriminate;
        intros; try (match goal with Hc : In ?c _, W : waiting ?c |- _ => destruct (I1 eq_refl c Hc W) end).
  - destruct (get (at_time s t) i) as [d|] eqn:G; [|discriminate]. injection H as <- <-.
    apply get_nth in G as (G & U & _). cbn in G. apply nth_error_In in G.
    split; [|intros p c []].
    assert (Q : forall c, In c (upd i (pid_dead d) (w_cl s)) -> waiting c ->
      exists c', In c' (w_cl s) /\ waiting c' /\ w_exp c' = w_exp c).
    { intros c Hc W. apply upd_In in Hc as [->|Hc]; [|exists c; auto]. exists d.
      unfold pid_dead in *. destruct (w_exp d =? 0) eqn:E0.
      - destruct W as [W _]; cbn in W; discriminate.
      - cbn. apply Z.eqb_neq in E0. repeat split; auto. }
    split; cbn; auto; try plia.
    + intros En c Hc W. destruct (Q c Hc W) as (c' & H1 & H2 & _). exact (I1 En c' H1 H2).
    + intros Op c Hc W. destruct (Q c Hc W) as (c' & H1 & H2 & <-). auto.
    + intros c Hc W. destruct (Q c Hc W) as (c' & H1 & H2 & <-). auto.
    + intros c Hc W. destruct (Q c Hc W) as (c' & H1 & H2 & <-). auto.
    + intros c Hc W. apply upd_In in Hc as [->|Hc]; [|auto]. unfold pid_dead in *.
      destruct (w_exp d =? 0) eqn:E0; [reflexivity|]. cbn in W. apply (I10 _ G) in W. auto.
  - injection H as <- <-. split; [|intros p c []]. split; cbn; auto; plia.
  - destruct ((t <=? t0) && (t0 <=? tc) && (tc <=? tp)) eqn:Ts; [|discriminate]. injection H as H.
    rewrite !andb_true_iff, !Z.leb_le in Ts.
    cbn in P. destruct P as [P1 P2].
    unfold tail in H. cbn in H.
    destruct (w_quit s && negb (active_usage (w_cl s))).
    { injection H as <- <-. split; [split; cbn; auto; try plia; discriminate|].
      unfold disarm; cbn; intros p c Hp. destruct (w_open s); cbn in Hp; intuition discriminate. }
    destruct (w_enable s) eqn:En; cbn in H.
    2:{ injection H as <- <-. split; [split; cbn; auto; try plia|]. intros p c []. }
    destruct (negb (active_usage (w_cl s)) && negb (external_usage (w_cl s)) && negb (w_reset s)) eqn:E2.
    { rewrite !andb_true_iff, !negb_true_iff in E2. destruct E2 as [[E2 E3] _].
      injection H as <- <-.
      assert (None : forall c, In c (w_cl s) -> ~ waiting c).
      { intros c Hc [U W]. assert (X : w_int c = true).
        { destruct (w_int c) eqn:X; [auto|]. assert (external_usage (w_cl s) = true); [|congruence].
          apply existsb_exists. exists c. rewrite U, X. auto. }
        apply W. auto. }
      split.
      - split; cbn; auto; try plia; try discriminate.
      - unfold disarm; cbn; intros p c Hp. destruct (w_open s); cbn in Hp; intuition discriminate. }
    destruct (w_ival s <=? u64 (t0 - w_ttime s)).
    2:{ injection H as <- <-. split; [split; cbn; auto; try plia|]. intros p c []. }
    destruct (bad || test_clients (w_std s) tc (w_cl s)) eqn:F.
    { injection H as <- <-. split.
      - split; cbn; auto; try plia; try discriminate.
        intros c Hc W. destruct (w_open s) eqn:Op; [|auto].
          specialize (I3 eq_refl c Hc W). specialize (P1 eq_refl). plia.
      - cbn. intros p c Hp Hc W. destruct (w_open s) eqn:Op; [|destruct Hp].
        destruct Hp as [Hp|[]]. injection Hp as <-.
        specialize (I3 eq_refl c Hc W). specialize (P1 eq_refl). plia. }
    apply orb_false_iff in F as [_ F].
    assert (A : forall c, In c (w_cl s) -> waiting c -> tc + w_std s < w_exp c).
    { intros c Hc W. eapply test_clients_ok; eauto. }
    injection H as <- <-. split.
    + split; cbn; auto; try plia; try discriminate.
      * destruct (w_open s || re); plia.
      * intros c Hc W. specialize (A c Hc W). specialize (I8 c Hc W).
        destruct (w_open s || re); plia.
      * intros _ _. destruct (w_open s || re); auto.
    + cbn. intros p c Hp Hc W. specialize (A c Hc W).
      destruct (w_open s || re); [|destruct Hp]. destruct Hp as [Hp|[]]. injection Hp as <-. lia.
Qed.

Lemma treach_inv sl s : 0 <= sl -> treach sl s -> tinv sl s.
Proof.
  intros SL; induction 1; [apply tinit|]. eapply tstep; eauto.
Qed.
