(* C96: what waits for the resource thread gets done: a lease left by a dead process is
   released, a resource that is to be examined is examined, whatever else waits. *)
From Coq Require Import List Arith Lia Bool.
From Verif Require Import ResThread ResThreadProof.
Import ListNotations.

(* ---- the thread does not sleep over an event or an examination; once a second it is woken
   for the releases ---- *)
Theorem C96_awake_partial : forall os, forallb (fun o => negb (adopts o)) os = true -> let s := run init os in
  s_work s = false -> s_ev s = [] /\ (forall h, In h (s_held s) -> h_exam h = false).
Proof.
  intros os Ho s Hw. destruct (awake_run os init awake_init) as [Ha Hx]. fold s in Ha, Hx. split.
  - destruct (s_ev s); auto. rewrite Ha in Hw by discriminate. discriminate.
  - intros h Hh. destruct (h_exam h) eqn:E; auto.
    assert (F : flags_seen s) by (apply flags_seen_run; [exact Ho|intros k []]). rewrite (Hx (F h Hh E)) in Hw. discriminate.
Qed.
Print Assumptions C96_awake_partial.

(* ---- if the disk work takes no time, a bounded number of steps of the thread gets through
   everything that waits, whatever the results ---- *)
Theorem C96_drain_partial : forall os ts, let s0 := run init os in let s := step s0 OWake in let s' := run s (threads ts) in
  s_ph s0 <> Exited -> later s -> load s <= length ts ->
  (s_ph s' = Top \/ s_ph s' = Exited) /\ s_work s' = false /\
  sent (s_log s') = events os /\
  (forall r, In r (s_rem s) -> r_by r = Flagged -> r_retry r <= s_now s -> In (DTried (r_id r)) (s_log s')) /\
  (forallb (fun o => negb (adopts o)) os = true \/ s_workx s = true ->
   forall h, In h (s_held s) -> h_exam h = true -> In (DExam (h_id h)) (s_log s')).
Proof.
  intros os ts s0 s s' Hx Hl Hn.
  assert (Hx' : s_ph s <> Exited).
  { unfold s. cbn [step]. destruct (match s_rem s0 with [] => true | _ => s_work s0 end); exact Hx. }
  destruct (drain ts s Hl Hx' Hn) as [Hp Hw]. fold s' in Hp, Hw.
  assert (Er : s' = run init (os ++ OWake :: threads ts)).
  { unfold run. rewrite fold_left_app. reflexivity. }
  assert (Hone : one_list s) by (apply (one_list_step s0 OWake), one_list_run, one_list_init).
  assert (Hh : hands s) by (apply (hands_step s0 OWake); [apply one_list_run, one_list_init|apply hands_run; [apply one_list_init|apply hands_init]]).
  assert (Haw : awake s') by (rewrite Er; apply awake_run, awake_init).
  split; [exact Hp|]. split; [exact Hw|]. split; [|split].
  - pose proof (queue_run (os ++ OWake :: threads ts) init) as Q. rewrite <- Er, events_app in Q. cbn [events] in Q. rewrite events_threads, app_nil_r in Q.
    unfold queue in Q. assert (s_ev s' = []) as Ee.
    { destruct Haw as [Ha _]. destruct (s_ev s'); auto. rewrite Ha in Hw by discriminate. discriminate. }
    rewrite Ee in Q. destruct Hp as [Hp | Hp]; rewrite Hp in Q; cbn in Q; rewrite app_nil_r in Q; exact Q.
  - intros r Hr Hb Ht. assert (O : owed_rem s (r_id r)).
    { exists r. repeat split; auto. unfold due, flagged. rewrite Hb. cbn. apply Nat.leb_le. exact Ht. }
    destruct (owed_rem_run ts s _ Hh Hone O) as [G | G]; [|exact G]. exfalso. destruct G as (q & Q1 & Q2 & Q3).
    pose proof (clean_threads ts s Hl (clean_wake s0) Hw q Q1) as Q4. congruence.
  - intros Hc h Hi He. assert (O : owed_exam s (h_id h)) by (right; exists h; auto).
    destruct (owed_exam_run ts s _ O) as [G | G]; [|exact G]. exfalso. fold s' in G.
    destruct G as [G | (k & K1 & K2 & K3)]; [destruct Hp; congruence|].
    assert (F : flags_seen s).
    { destruct Hc as [Hc | Hc]; [|intros y _ _; exact Hc].
      apply (flags_seen_step s0 OWake); auto. apply flags_seen_run; [exact Hc|intros y []]. }
    assert (F' : flags_seen s') by (apply flags_seen_run; [apply threads_no_adopt|exact F]).
    destruct Haw as [_ Hax]. rewrite (Hax (F' k K1 K3)) in Hw. discriminate.
Qed.
Print Assumptions C96_drain_partial.

(* ---- what does not hold ---- *)
(* A resource on a disk that does not answer: an attempt takes two timeouts or more, and the
   time of the next attempt is counted from its beginning.  So it is due again at once; it
   stands first in the list because it was released last.  What stands behind it, and every
   examination, waits for ever. *)
Definition attempt : list op := OThread true :: repeat OTick 20 ++ [OThread true].
Fixpoint attempts (n : nat) : list op := match n with O => [] | S n => attempt ++ attempts n end.
Definition before : list op :=
  [OTick; OAcquire 1 10; OAcquire 2 10; OAcquire 3 10; OExamine (Some 3); OAsync 1; OAsync 2].

Lemma run_app : forall a b s, run s (a ++ b) = run (run s a) b.
Proof. intros. unfold run. apply fold_left_app. Qed.

Definition at_ (t : nat) (s : state) : state :=
  mkS (s_ev s) (s_rem s) (s_held s) (s_orphan s) (s_work s) (s_workx s) (s_stop s) (s_ph s) t (s_log s).
Lemma ticks : forall n s, run s (repeat OTick n) = at_ (n + s_now s) s.
Proof.
  induction n as [|n IH]; intros s; [destruct s; reflexivity|]. cbn [repeat].
  change (run s (OTick :: repeat OTick n)) with (run (step s OTick) (repeat OTick n)). rewrite IH. unfold at_. cbn [step s_ev s_rem s_held s_orphan s_work s_workx s_stop s_ph s_now s_log].
  f_equal. lia.
Qed.
Definition stuck (retry t : nat) (log : list did) : state :=
  mkS [] [mkRem 2 Flagged retry 10; mkRem 1 Flagged 0 10] [mkHeld 3 true 10] [] true true false Top t log.
Lemma attempt_stuck : forall retry t log, retry <= t ->
  run (stuck retry t log) attempt = stuck (if retry =? 0 then t + 10 else t + 10 * 2) (20 + t) (log ++ [DTried 2]).
Proof.
  intros retry t log Ht. unfold attempt. change (OThread true :: repeat OTick 20 ++ [OThread true]) with ([OThread true] ++ repeat OTick 20 ++ [OThread true]).
  rewrite !run_app, ticks. set (nx := if retry =? 0 then t + 10 else t + 10 * 2).
  assert (E : run (stuck retry t log) [OThread true] = mkS [] [mkRem 2 ByThread nx 10; mkRem 1 Flagged 0 10] [mkHeld 3 true 10] [] true true false (Releasing 2) t (log ++ [DTried 2])).
  { change (run (stuck retry t log) [OThread true]) with (thread_top (stuck retry t log)). unfold thread_top, stuck. cbn [s_work negb s_ev s_rem s_now find].
    assert (due t (mkRem 2 Flagged retry 10) = true) as -> by (unfold due; cbn [flagged r_by r_retry andb]; apply Nat.leb_le; exact Ht). reflexivity. }
  rewrite E. unfold at_. cbn [s_ev s_rem s_held s_orphan s_work s_workx s_stop s_ph s_now s_log]. generalize (20 + t). intros u.
  unfold stuck. rewrite <- (app_nil_r (log ++ [DTried 2])) at 2. reflexivity.
Qed.
Lemma starving : forall n t retry log, retry <= t ->
  exists t' retry', run (stuck retry t log) (attempts n) = stuck retry' t' (log ++ repeat (DTried 2) n).
Proof.
  induction n as [|n IH]; intros t retry log Ht.
  - exists t, retry. cbn. rewrite app_nil_r. reflexivity.
  - cbn [attempts]. rewrite run_app, attempt_stuck by exact Ht.
    destruct (IH (20 + t) (if retry =? 0 then t + 10 else t + 10 * 2) (log ++ [DTried 2])) as (t' & r' & H).
    { destruct (retry =? 0); lia. }
    exists t', r'. rewrite H, <- app_assoc. reflexivity.
Qed.

Theorem C96_starvation_refuted : forall n, exists s, s = run init (before ++ attempts n) /\
  s_log s = repeat (DTried 2) n /\
  In (mkRem 1 Flagged 0 10) (s_rem s) /\ In (mkHeld 3 true 10) (s_held s) /\ s_work s = true.
Proof.
  intros n. eexists. split; [reflexivity|]. rewrite run_app.
  assert (E : run init before = stuck 0 1 []) by reflexivity.
  rewrite E. destruct (starving n 1 0 [] ltac:(lia)) as (t' & r' & ->). cbn. auto 6.
Qed.
Print Assumptions C96_starvation_refuted.

(* The request to examine a resource is lost if its holder dies before the thread comes to it
   and another process adopts the lease. *)
Theorem C96_adopt_refuted : exists os, let s := run init os in
  In (OExamine (Some 1)) os /\ s_ph s = Top /\ s_work s = false /\ s_log s = [] /\
  In (mkHeld 1 true 10) (s_held s) /\ (forall ts, s_log (run s (threads ts)) = []).
Proof.
  exists [OAcquire 1 10; OExamine (Some 1); OOrphan 1; OThread false; OAdopt 1]. cbn zeta.
  set (s := run init _). assert (E : s = mkS [] [] [mkHeld 1 true 10] [] false false false Top 0 []) by reflexivity.
  rewrite E. repeat split; cbn; auto. induction ts as [|t ts IH]; auto.
Qed.
Print Assumptions C96_adopt_refuted.

(* An examination that fails is not repeated. *)
Theorem C96_examine_again_refuted : exists os, let s := run init os in
  In (OExamine (Some 1)) os /\ s_ph s = Examining 1 /\
  (let s' := run s [OThread true; OThread false] in s_ph s' = Top /\ s_work s' = false /\ In (mkHeld 1 false 10) (s_held s')).
Proof. exists [OAcquire 1 10; OExamine (Some 1); OThread false]. cbn zeta. vm_compute. auto 8. Qed.
Print Assumptions C96_examine_again_refuted.

(* At the end of the daemon a release that waits for its next attempt is given up; one that
   is due is too, when the main loop does not wake the thread any more. *)
Theorem C96_exit_refuted : exists os, let s := run init os in
  s_ph s = Exited /\ In (mkRem 1 Flagged 11 10) (s_rem s) /\ 11 <= s_now s.
Proof.
  exists ([OTick; OAcquire 1 10; OAsync 1; OThread false; OThread true; OThread false] ++ repeat OTick 10 ++ [OStop; OThread false]).
  vm_compute. auto 16.
Qed.
Print Assumptions C96_exit_refuted.

Example C96_nonvacuous :
  let os := [OTick; OAcquire 1 10; OAcquire 2 10; OEvent 7; OEvent 8; OAsync 1; OExamine None; OSync 2] in
  let s := step (run init os) OWake in
  later s /\ load s = 7 /\
  s_log (run s (threads (repeat false 7))) = [DSent 7; DSent 8; DTried 1; DDone 1] /\
  s_log (run init [OAcquire 1 10; OExamine None; OThread false; OThread false]) = [DExam 1].
Proof.
  cbn zeta. set (s := step _ OWake).
  assert (E : s = mkS [7; 8] [mkRem 2 Sync 0 10; mkRem 1 Flagged 0 10] [] [] true true false Top 1 []) by (vm_compute; reflexivity).
  clearbody s. subst s. split; [|vm_compute; auto].
  split; cbn; [intros r [<- | [<- | []]]; cbn; lia|discriminate].
Qed.
