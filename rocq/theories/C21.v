(* C21: once a lockspace's expiry time registered with wdmd passes without renewal,
   wdmd generates no watchdog keepalive (including the one implied by closing the
   device) after that expiry time.

   The times of one iteration: the test starts at t0, the scripts take until tc when
   the clients are tested, the device is touched at tp.
   - The loop starts the next test at most lat seconds after it is due
     (test_time + test_interval; poll wakes up in time); the first test is in the
     iteration that opened the device.
   - Scripts (option -S) are waited for at most standard_test_interval - 1 seconds
     (main.c:1036-1085); without scripts this takes no time.
   - The device is touched in the second in which the clients were tested. *)
From Coq Require Import List ZArith Lia Bool Arith ZifyBool.
From Verif Require Import Wdmd WdmdTime.
Import ListNotations.
Open Scope Z_scope.

Definition due (s : wst) : Z := if w_ttime s =? 0 then w_tc s else w_ttime s + w_ival s.

Definition prompt (scripts : bool) (lat : Z) (s : wst) (x : win) : Prop :=
  match x with
  | WTail t0 tc tp bad re =>
      (w_enable s = true -> t0 <= due s + lat) /\
      tc <= t0 + (if scripts then w_std s - 1 else 0) /\
      tp = tc
  | _ => True
  end.

Inductive preach (scripts : bool) (lat : Z) : wst -> Prop :=
| pr_init : preach scripts lat winit
| pr_step s t x s' o :
    preach scripts lat s -> live_ok s t x -> prompt scripts lat s x ->
    wstep s t x = Some (s', o) -> preach scripts lat s'.

(* at every ping, no registered expiry has passed *)
Definition C21_statement (scripts : bool) : Prop :=
  forall s t x s' o p c,
    preach scripts 0 s -> live_ok s t x -> prompt scripts 0 s x ->
    wstep s t x = Some (s', o) ->
    In (OPing p) o -> In c (w_cl s') -> w_used c = true -> w_exp c <> 0 ->
    p < w_exp c.

Definition pinv (s : wst) : Prop :=
  (w_enable s = false -> w_ttime s = 0) /\ (w_ttime s = 0 \/ w_ttime s <= w_tc s) /\
  w_ival s <= w_std s /\ 1 <= w_std s <= 10.

Lemma pinv_step s t x s' o : pinv s -> wstep s t x = Some (s', o) -> pinv s'.
Proof.
  intros (I1 & I2 & I3 & I4) H. unfold wstep in H.
  destruct (w_done s || (t <? w_now s)); [discriminate|].
  destruct x as [|i b|i e|f r|i| |t0 tc tp bad re]; cbn -[open_watchdog tail] in H.
  1,6: injection H as <- <-; unfold pinv; cbn; auto.
  1,2,4: destruct (get (at_time s t) i); [|discriminate]; injection H as <- <-; unfold pinv; cbn; auto.
  - injection H as H. unfold open_watchdog in H. cbn in H.
    destruct (w_enable s) eqn:En; [injection H as <- <-; unfold pinv; cbn; rewrite En; auto|].
    destruct (f =? 0); [injection H as <- <-; unfold pinv; cbn; rewrite En; auto|].
    destruct (w_open s); [injection H as <- <-; unfold pinv; cbn; rewrite En; auto|].
    destruct r; injection H as <- <-; unfold pinv; cbn; rewrite ?En; auto.
    pose proof (init_interval_pos f). split; [discriminate|]. split; [auto|]. lia.
  - destruct ((t <=? t0) && (t0 <=? tc) && (tc <=? tp)) eqn:Ts; [|discriminate]. injection H as H.
    unfold tail in H. cbn in H.
    destruct (w_enable s) eqn:En; cbn in H;
    repeat match type of H with (if ?b then _ else _) = _ => destruct b end;
      injection H as <- <-; unfold pinv; cbn; rewrite ?En; try (split; [|split]; auto; lia);
      repeat split; auto; lia.
Qed.

Lemma preach_both scr lat s :
  0 <= lat -> preach scr lat s -> pinv s /\ treach ((if scr then 9 else 0) + lat) s.
Proof.
  intros HL; induction 1 as [|s t x s' o R [IP IT] L P H].
  - split; [|constructor]. unfold pinv; cbn. lia.
  - split; [eapply pinv_step; eauto|].
    eapply tr_step; eauto. destruct x; cbn in *; auto.
    destruct P as (P1 & P2 & P3).
    assert (TI : tinv ((if scr then 9 else 0) + lat) s).
    { apply treach_inv; auto. destruct scr; lia. }
    destruct IP as (I1 & I2 & I3 & I4). split.
    + intros Op. apply (TI_open _ _ TI) in Op. apply P1 in Op.
      unfold due in Op. destruct (w_ttime s =? 0) eqn:E0; destruct scr; lia.
    + destruct scr; lia.
Qed.

Theorem C21_no_ping_after_expiry scr lat s t x s' o p c :
  0 <= lat ->
  preach scr lat s -> live_ok s t x -> prompt scr lat s x ->
  wstep s t x = Some (s', o) ->
  In (OPing p) o -> In c (w_cl s') -> w_used c = true -> w_exp c <> 0 ->
  p < w_exp c + (if scr then 9 else 0) + lat.
Proof.
  intros HL R L P H Hp Hc U E.
  destruct (preach_both _ _ _ HL (pr_step _ _ _ _ _ _ _ R L P H)) as [_ T'].
  destruct (preach_both _ _ _ HL R) as [IP T].
  assert (SL : 0 <= (if scr then 9 else 0) + lat) by (destruct scr; lia).
  pose proof (treach_inv _ _ SL T) as TI.
  assert (Pc : paced ((if scr then 9 else 0) + lat) s x).
  { destruct x; cbn in *; auto. destruct P as (P1 & P2 & P3). destruct IP as (I1 & I2 & I3 & I4).
    split.
    + intros Op. apply (TI_open _ _ TI) in Op. apply P1 in Op.
      unfold due in Op. destruct (w_ttime s =? 0) eqn:E0; destruct scr; lia.
    + destruct scr; lia. }
  destruct (tstep _ _ _ _ _ _ SL TI L Pc H) as [_ Q].
  specialize (Q p c Hp Hc (conj U E)). destruct scr; lia.
Qed.

(* Without scripts the statement holds. *)
Theorem C21_without_scripts_partial : C21_statement false.
Proof.
  intros s t x s' o p c R L P H Hp Hc U E.
  pose proof (C21_no_ping_after_expiry false 0 _ _ _ _ _ _ _ (Z.le_refl 0) R L P H Hp Hc U E).
  cbn in *. lia.
Qed.

(* With scripts the last ping is less than nine seconds late. *)
Theorem C21_with_scripts_partial s t x s' o p c :
  preach true 0 s -> live_ok s t x -> prompt true 0 s x ->
  wstep s t x = Some (s', o) ->
  In (OPing p) o -> In c (w_cl s') -> w_used c = true -> w_exp c <> 0 ->
  p < w_exp c + 9.
Proof.
  intros R L P H Hp Hc U E.
  pose proof (C21_no_ping_after_expiry true 0 _ _ _ _ _ _ _ (Z.le_refl 0) R L P H Hp Hc U E).
  cbn in *. lia.
Qed.

(* ----------------------------------------------------------- executions *)

Definition live_okb (s : wst) (t : Z) (x : win) : bool :=
  match x with
  | WLive i e =>
      (e =? 0) ||
      (w_enable s && (w_std s <=? e) && (e <? 2 ^ 64) &&
       ((t + w_std s <? e) ||
        match nth_error (w_cl s) i with
        | Some c => negb (w_exp c =? 0) && (w_exp c <=? e)
        | None => false
        end))
  | _ => true
  end.

Lemma live_okb_ok s t x : live_okb s t x = true -> live_ok s t x.
Proof.
  destruct x as [|i b|i e|f r|i| |t0 tc tp bad re]; cbn; auto. intros H N.
  apply orb_true_iff in H as [H|H]; [lia|].
  rewrite !andb_true_iff in H. destruct H as [[[H1 H2] H3] H4].
  split; [auto|]. split; [lia|].
  apply orb_true_iff in H4 as [H4|H4]; [left; lia|right].
  destruct (nth_error (w_cl s) i) as [c|]; [|discriminate]. exists c. split; [auto|]. lia.
Qed.

Definition promptb (scr : bool) (lat : Z) (s : wst) (x : win) : bool :=
  match x with
  | WTail t0 tc tp bad re =>
      (negb (w_enable s) || (t0 <=? due s + lat)) &&
      (tc <=? t0 + (if scr then w_std s - 1 else 0)) && (tp =? tc)
  | _ => true
  end.

Lemma promptb_ok scr lat s x : promptb scr lat s x = true -> prompt scr lat s x.
Proof.
  destruct x as [|i b|i e|f r|i| |t0 tc tp bad re]; cbn; auto. intros H.
  rewrite !andb_true_iff in H. destruct H as [[H1 H2] H3].
  split; [|lia]. intros En. rewrite En in H1. cbn in H1. lia.
Qed.

Fixpoint prun (scr : bool) (s : wst) (l : list (Z * win)) : option (wst * list wout) :=
  match l with
  | [] => Some (s, [])
  | (t, x) :: r =>
      if live_okb s t x && promptb scr 0 s x then
        match wstep s t x with
        | None => None
        | Some (s1, o1) =>
            match prun scr s1 r with
            | None => None
            | Some (s2, o2) => Some (s2, o1 ++ o2)
            end
        end
      else None
  end.

Lemma prun_reach scr l : forall s s' o, preach scr 0 s -> prun scr s l = Some (s', o) -> preach scr 0 s'.
Proof.
  induction l as [|[t x] r IH]; cbn; intros s s' o R H.
  - injection H as <- <-. auto.
  - destruct (live_okb s t x && promptb scr 0 s x) eqn:E; [|discriminate].
    apply andb_true_iff in E as [E1 E2].
    destruct (wstep s t x) as [[s1 o1]|] eqn:ES; [|discriminate].
    destruct (prun scr s1 r) as [[s2 o2]|] eqn:E3; [|discriminate]. injection H as <- <-.
    eapply IH; [|exact E3]. eapply pr_step; eauto using live_okb_ok, promptb_ok.
Qed.

(* A lockspace with timestamp 20 and io timeout 10: expiry at 100.  Renewals fail. *)
Definition setup : list (Z * win) :=
  [(19, WConn); (19, WOpen 60 OpOk); (19, WTail 19 19 19 false true);
   (20, WRef 2 true); (20, WLive 2 100);
   (29, WTail 29 29 29 false true); (39, WTail 39 39 39 false true);
   (49, WTail 49 49 49 false true); (59, WTail 59 59 59 false true);
   (69, WTail 69 69 69 false true); (79, WTail 79 79 79 false true);
   (89, WTail 89 89 89 false true)].

Definition pobs (r : option (wst * list wout)) : option (list wout * list wcl) :=
  match r with Some (s, o) => Some (o, w_cl s) | None => None end.

(* without scripts: the device is closed at 99 (last ping), before the expiry *)
Example C21_nonvacuous :
  pobs (prun false winit (setup ++ [(99, WTail 99 99 99 false true);
                                    (100, WTail 100 100 100 false true);
                                    (101, WTail 101 101 101 false true)])) =
  Some ([OPing 19; OPing 19; OPing 29; OPing 39; OPing 49; OPing 59; OPing 69; OPing 79;
         OPing 89; OPing 99],
        [internal_client; internal_client; mkWcl true true true false 100]).
Proof. vm_compute. reflexivity. Qed.

(* with a script that takes nine seconds: the last ping is at 108 *)
Theorem C21_refuted : ~ C21_statement true.
Proof.
  intros H.
  destruct (prun true winit setup) as [[s o]|] eqn:E; [|vm_compute in E; discriminate].
  pose proof (prun_reach _ _ _ _ _ (pr_init true 0) E) as R.
  assert (Es : s = fst (match prun true winit setup with Some y => y | None => (winit, []) end))
    by (rewrite E; reflexivity).
  vm_compute in Es. subst s.
  assert (C : 108 < 100); [|lia].
  refine (H _ 99 (WTail 99 108 108 false true) _ [OPing 108] 108
            (mkWcl true true true false 100) R Logic.I _ _ _ _ _ _).
  - vm_compute. repeat split; congruence.
  - vm_compute. reflexivity.
  - left. reflexivity.
  - right. right. left. reflexivity.
  - reflexivity.
  - discriminate.
Qed.

(* A stall of the daemon has the same effect as the scripts: with the next test d
   seconds late (lat = d) the close ping is at 99 + d. *)
Example C21_stall :
  pobs (wrun winit (setup ++ [(115, WTail 115 115 115 false true)])) =
  Some ([OPing 19; OPing 19; OPing 29; OPing 39; OPing 49; OPing 59; OPing 69; OPing 79;
         OPing 89; OPing 115],
        [internal_client; internal_client; mkWcl true true true false 100]).
Proof. vm_compute. reflexivity. Qed.

Print Assumptions C21_no_ping_after_expiry.
Print Assumptions C21_without_scripts_partial.
Print Assumptions C21_with_scripts_partial.
Print Assumptions C21_refuted.
