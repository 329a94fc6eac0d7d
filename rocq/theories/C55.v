(* C55: a command does not wait for another command while the pool may still grow *)
From Coq Require Import List Arith Lia Bool Permutation.
From Verif Require Import ThreadPool.
Import ListNotations.

(* ---- specification ---- *)
(* workers that will look at the queue without any command having to end first *)
Definition ready (w : wst) : bool := match w with WStart | WWoken | WFin => true | _ => false end.
(* every queued command has a worker coming for it, or all workers exist and are busy *)
Definition served (max : nat) (s : pool) : Prop :=
  length (p_q s) <= cnt ready (p_ws s) \/ (max <= p_num s /\ cnt is_wait (p_ws s) = 0).
Definition C55_statement : Prop :=
  forall min max es s, 1 <= min -> psteps max (pinit min) es = Some s -> p_quit s = false -> served max s.

(* free_workers counts workers that are woken already: three commands arrive while two
   workers wake up, the third one starts no worker *)
Definition C55_run : list pev :=
  [EEnter 0; EEnter 1; EAdd 7 true 0; EAdd 8 true 0; EAdd 9 true 0; EEnter 0; EEnter 1].
Definition obs (s : pool) : list nat * list wst * nat * bool := (p_q s, p_ws s, p_num s, p_quit s).
Lemma C55_run_obs : option_map obs (psteps 8 (pinit 2) C55_run) = Some ([9], [WRun 7; WRun 8], 2, false).
Proof. vm_compute. reflexivity. Qed.

Theorem C55_refuted : ~ C55_statement.
Proof.
  intros H. destruct (obs_some obs _ _ C55_run_obs) as (s & E & O). unfold obs in O; injection O as Q W N QU.
  destruct (H 2 8 C55_run s (Nat.le_succ_diag_r 1) E QU) as [A|[A _]].
  - rewrite Q, W in A. vm_compute in A. lia.
  - rewrite N in A. lia.
Qed.

(* and it waits until one of them ends or another command comes *)
Theorem C55_waits : forall es s s',
  psteps 8 (pinit 2) C55_run = Some s ->
  forallb (fun e => match e with EEnter _ | ESpurious _ => true | _ => false end) es = true ->
  psteps 8 s es = Some s' -> p_q s' = [9].
Proof.
  intros es s s' H W H'. destruct (obs_some obs _ _ C55_run_obs) as (t & E & O). unfold obs in O; injection O as Q Ws N QU.
  assert (t = s) as -> by congruence. clear E H.
  destruct es as [|e es]; cbn [psteps] in H'; [injection H' as <-; exact Q|].
  exfalso. cbn [forallb] in W. apply andb_true_iff in W. destruct W as [W _].
  destruct e; try discriminate; cbn [pstep] in H'; rewrite Ws in H'; destruct w as [|[|w]]; cbn in H'; try discriminate;
    destruct w; discriminate.
Qed.

(* ---- what holds ---- *)
(* no worker is left asleep while a command has no worker coming for it *)
Theorem C55_sleepers_used_partial : forall min max es s,
  1 <= min -> psteps max (pinit min) es = Some s ->
  cnt is_wait (p_ws s) <> 0 -> length (p_q s) <= cnt ready (p_ws s).
Proof.
  intros min max es s M H W. pose proof (pinv_steps _ _ _ _ _ (pinv_init min max M) H) as I.
  pose proof (i_wake _ _ _ I W) as L. etransitivity; [exact L|].
  clear. induction (p_ws s) as [|w ws IH]; unfold cnt in *; cbn; auto. destruct w; cbn; lia.
Qed.

(* a command that comes when no worker waits gets a new one, up to the limit *)
Theorem C55_new_worker_partial : forall min max es s a wake,
  1 <= min -> psteps max (pinit min) es = Some s -> p_quit s = false ->
  cnt is_idle (p_ws s) = 0 -> p_num s < max ->
  p_num (snd (add_work max s a true wake)) = S (p_num s)
  /\ cnt ready (p_ws (snd (add_work max s a true wake))) = S (cnt ready (p_ws s)).
Proof.
  intros min max es s a wake M H QU F N. pose proof (pinv_steps _ _ _ _ _ (pinv_init min max M) H) as I.
  unfold add_work. rewrite QU, (i_free _ _ _ I), F. cbn [Nat.eqb]. destruct (Nat.ltb_spec (p_num s) max); [|lia].
  cbn [andb negb snd p_num p_ws]. split; auto.
  assert (Z : cnt is_wait (p_ws s ++ [WStart]) = 0).
  { rewrite cnt_app. rewrite cnt_zero in F. assert (cnt is_wait (p_ws s) = 0) as ->; [|reflexivity].
    apply cnt_zero. intros i w Hw. specialize (F i w Hw). destruct w; cbn in *; congruence. }
  assert (S0 : forall ws k, cnt is_wait ws = 0 -> signal ws k = ws).
  { clear. induction ws as [|w ws IH]; intros k H; cbn; auto.
    unfold cnt in *; destruct w; cbn in *; try discriminate; rewrite ?IH; auto. }
  rewrite S0 by exact Z. rewrite cnt_app. change (cnt ready [WStart]) with 1. lia.
Qed.

(* with one worker asleep and one command running, a further command *)
Example C55_nonvacuous :
  option_map (fun s => (cnt is_wait (p_ws s), length (p_q s)))
    (psteps 8 (pinit 2) [EEnter 0; EEnter 1; EAdd 7 true 0]) = Some (1, 1)
  /\ option_map (fun s => (cnt is_idle (p_ws s), p_num s))
    (psteps 8 (pinit 2) [EEnter 0; EEnter 1; EAdd 7 true 0; EAdd 8 true 0; EEnter 0; EEnter 1]) = Some (0, 2).
Proof. vm_compute. auto. Qed.

Print Assumptions C55_refuted.
Print Assumptions C55_waits.
Print Assumptions C55_sleepers_used_partial.
Print Assumptions C55_new_worker_partial.
