(* C56: the pool is shut down only after every accepted command was run *)
From Coq Require Import List Arith Lia Bool Permutation.
From Verif Require Import ThreadPool C54.
Import ListNotations.

(* ---- specification ---- *)
(* thread_pool_free has returned: all accepted commands have ended and all workers left their loop *)
Definition shut_down (min max : nat) (es : list pev) (s : pool) : Prop :=
  p_main s = MDone ->
  Permutation (accepted max (pinit min) es) (ended max (pinit min) es)
  /\ forall i w, nth_error (p_ws s) i = Some w -> w = WExit.
Definition C56_statement : Prop :=
  forall min max es s, 1 <= min -> psteps max (pinit min) es = Some s -> shut_down min max es s.

(* thread_pool_free calls pthread_cond_wait without a loop: one spurious wake-up is enough *)
Definition C56_run : list pev := [EAdd 7 true 0; EEnter 0; EAdd 8 true 0; EFree; ESpuriousMain].
Lemma C56_run_obs : option_map (fun s => (p_main s, nth_error (p_ws s) 0)) (psteps 8 (pinit 2) C56_run) = Some (MDone, Some (WRun 7)).
Proof. vm_compute. reflexivity. Qed.
Theorem C56_refuted : ~ C56_statement.
Proof.
  intros H. destruct (obs_some _ _ _ C56_run_obs) as (s & E & O). injection O as M W.
  destruct (H 2 8 C56_run s (Nat.le_succ_diag_r 1) E M) as [_ A]. specialize (A 0 _ W). discriminate.
Qed.

(* ---- without such a wake-up ---- *)
Definition no_spurious_main (e : pev) : bool := match e with ESpuriousMain => false | _ => true end.

Lemma done_num min max es s :
  1 <= min -> forallb no_spurious_main es = true ->
  psteps max (pinit min) es = Some s -> p_main s = MDone -> p_num s = 0.
Proof.
  intros M W H D.
  enough (G : forall es s, pinv min max s -> (p_main s = MDone -> p_num s = 0) -> forallb no_spurious_main es = true ->
              forall s', psteps max s es = Some s' -> p_main s' = MDone -> p_num s' = 0).
  { eapply (G es (pinit min)); eauto using pinv_init. discriminate. }
  clear. induction es as [|e es IH]; intros s I K W s' H D; cbn [psteps forallb] in *.
  - injection H as <-. auto.
  - apply andb_true_iff in W. destruct W as [W1 W2].
    destruct (pstep max s e) as [s1|] eqn:E; [|discriminate].
    eapply IH; [eapply pinv_step; eauto| |auto|eauto|auto].
    clear IH H D. intros D1. pose proof (i_main0 _ _ _ I) as I0. destruct e; cbn [pstep] in E.
    + unfold add_work in E. destruct (p_quit s) eqn:QU; [injection E as <-; auto|].
      destruct (_ && negb create_ok).
      * injection E as <-; auto.
      * injection E as <-. cbn in D1 |- *. specialize (K D1). pose proof (i_some _ _ _ I QU). lia.
    + assert (G : forall f, p_main (go_on (mkPool (p_q s) (p_ws s) f (p_num s) (p_quit s) (p_main s) (p_acc s) (p_started s) (p_done s)) w) = MDone ->
                  p_num (go_on (mkPool (p_q s) (p_ws s) f (p_num s) (p_quit s) (p_main s) (p_acc s) (p_started s) (p_done s)) w) = 0).
      { intros f. unfold go_on. cbn [p_q p_ws p_free p_num p_quit p_main p_acc p_started p_done].
        destruct (p_q s); [destruct (p_quit s)|]; cbn [p_num p_main]; auto.
        destruct (p_main s); try congruence; [destruct (Nat.eqb _ _); congruence|]. intros _. rewrite K; auto. }
      destruct (nth_error (p_ws s) w) as [[]|]; try discriminate; injection E as <-.
      * specialize (G (p_free s)). destruct s; cbn in *; auto.
      * apply G. exact D1.
      * specialize (G (p_free s)). destruct s; cbn in *; auto.
    + destruct (nth_error (p_ws s) w) as [[]|]; try discriminate; injection E as <-; cbn in *; auto.
    + destruct (nth_error (p_ws s) w) as [[]|]; try discriminate; injection E as <-; cbn in *; auto.
    + destruct (p_main s) eqn:M; try discriminate. pose proof (i_some _ _ _ I (I0 eq_refl)).
      destruct (Nat.ltb_spec 0 (p_num s)); [|lia]. injection E as <-. discriminate.
    + destruct (p_main s) eqn:M; try discriminate. injection E as <-. cbn. apply (i_main _ _ _ I M).
    + discriminate.
Qed.

Theorem C56_waits_for_all_partial : forall min max es s,
  1 <= min -> forallb no_spurious_main es = true ->
  psteps max (pinit min) es = Some s -> shut_down min max es s.
Proof.
  intros min max es s M W H D. pose proof (done_num _ _ _ _ M W H D) as N.
  pose proof (pinv_steps _ _ _ _ _ (pinv_init min max M) H) as I.
  pose proof (i_num _ _ _ I) as L. rewrite N in L. cbn in L.
  assert (A : forall i w, nth_error (p_ws s) i = Some w -> w = WExit).
  { clear - L. revert L. induction (p_ws s) as [|x ws IH]; intros L i w H; [destruct i; discriminate|].
    pose proof (cnt_le is_exit ws) as LE. unfold cnt in *. cbn in L.
    destruct (is_exit x) eqn:X; cbn in L; [|lia].
    destruct i; cbn in H; [injection H as <-; destruct x; try discriminate; auto|].
    apply (IH ltac:(lia) i w H). }
  split; [|exact A].
  destruct (ghosts _ _ _ _ H) as (G1 & G2 & G3). cbn in G1, G2, G3. rewrite <- G1, <- G3.
  assert (R : running (p_ws s) = []).
  { clear - A. unfold running. induction (p_ws s) as [|x ws IH]; auto. cbn. rewrite (A 0 x eq_refl).
    apply IH. intros i w Hw. apply (A (S i) w Hw). }
  assert (Q : p_q s = []).
  { apply (i_exit_q _ _ _ I). pose proof (i_len _ _ _ I). lia. }
  pose proof (i_order _ _ _ I) as O. rewrite Q, app_nil_r in O. rewrite O.
  pose proof (i_perm _ _ _ I) as P. rewrite R, app_nil_r in P. exact P.
Qed.

Example C56_nonvacuous :
  option_map (fun s => (p_main s, p_done s)) (psteps 8 (pinit 2)
    [EAdd 7 true 0; EEnter 0; EAdd 8 true 0; EFree; EEnter 1; EFinish 0; EEnter 0; EFinish 1; EEnter 1; EEnter 2; EEnter 3; EFreeRet])
  = Some (MDone, [7; 8]).
Proof. vm_compute. reflexivity. Qed.

Print Assumptions C56_refuted.
Print Assumptions C56_waits_for_all_partial.
