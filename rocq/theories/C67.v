(* C67: the watchdog is fed only while the test scripts succeed (wdmd/main.c:840-1113). *)
From Coq Require Import List ZArith Lia Bool.
From Verif Require Import WdScripts.
Import ListNotations.
Open Scope Z_scope.

(* Spec: after a test with result 0 that began at time t, the last run of script n was
   successful, and it was started less than one test interval ago or ended in this
   test, whose events are e.  During the first seconds after the boot of the machine
   (the clock counts from there) a script may not have been run yet. *)
Definition passed (std t n : Z) (e tr : list sev) : Prop :=
  (exists t0, run_state n tr = RDone t0 0 /\
     (t - t0 < std - 1 \/ exists p, In (EReap n p 0) e)) \/
  (run_state n tr = RNone /\ t < std - 1).

Inductive sruns : sstate -> sstate -> Prop :=
| srs_nil s : sruns s s
| srs_cons s c s1 rv s2 : sstep s c s1 rv -> sruns s1 s2 -> sruns s s2.

(* the full claim: every executable script that was in the directory when it was read *)
Definition C67_statement : Prop :=
  forall s dir s1 n s2 x s3 e,
    sreach s -> sstep s (SSetup dir) s1 0 -> In (n, true) dir -> sruns s1 s2 ->
    sstep s2 (STest x) s3 0 -> ss_tr s3 = ss_tr s2 ++ e ->
    passed (ti_std x) (ti_begin x) n e (ss_tr s3).

(* for the scripts that are in the table it holds *)
Theorem C67_pass_partial s x s' e n :
  sreach s -> sstep s (STest x) s' 0 -> ss_tr s' = ss_tr s ++ e ->
  0 < n -> run_state n (ss_tr s') <> ROut ->
  passed (ti_std x) (ti_begin x) n e (ss_tr s').
Proof.
  intros R S E P O.
  pose proof (sreach_inv _ (sr_step _ _ _ _ R S)) as [NN I].
  inversion S as [|? ? l rv e' L PS T]; subst. cbn [ss_tr ss_tab ss_now] in *.
  apply app_inv_head in E. subst e'.
  destruct I as (F & _ & C). specialize (C n P O).
  unfold test_scripts in T.
  destruct (start_all (ti_std x) (ti_begin x) (ti_starts x) (ss_tab s)) as [l1 e1] eqn:ST.
  destruct (wait_loop (ti_std x) (ti_begin x) (ti_ksec x) (ti_passes x) l1)
    as [[[[l2 run] bad] e2]|] eqn:W; [|discriminate].
  injection T as <- RV <-.
  pose proof (start_all_fine _ _ _ _ _ _ ST) as FI.
  pose proof (wait_loop_nonneg _ _ _ _ _ _ _ _ _ W) as NB.
  pose proof (too_long_nonneg l2) as NT.
  assert (B0 : bad = 0) by (destruct run; lia).
  destruct (wait_loop_fine _ _ _ _ _ _ _ _ _ _ W FI B0) as (F2 & R2 & T2).
  assert (run = false) as -> by (destruct run; auto; specialize (T2 eq_refl); lia).
  specialize (R2 eq_refl).
  apply filter_In in C as [C N0]. apply in_map_iff in C as (c & CN & IC).
  rewrite Forall_forall in *. specialize (F c IC). specialize (F2 c IC). specialize (R2 c IC).
  assert (sc_name c <> 0) as NZ by lia.
  destruct R2 as [R2|R2]; [lia|].
  destruct F2 as [F2|[F2|(F2 & F3)]]; try lia.
  unfold slot_ok in F. destruct (Z.eqb_spec (sc_name c) 0); [lia|].
  destruct F as (_ & F4 & F5). rewrite CN in *.
  assert (F3' : ti_begin x - sc_start c < ti_std x - 1 \/ exists p, In (EReap n p 0) (e1 ++ e2)).
  { destruct F3 as [F3|(p & F3)]; auto. right. exists p. apply in_or_app. right. exact F3. }
  destruct (run_state n (ss_tr s ++ e1 ++ e2)) eqn:RS; try tauto; try lia.
  - right. split; auto. destruct F3' as [F3'|(p & F3')]; [lia|]. exfalso.
    unfold run_state in RS. rewrite after_app in RS. revert RS.
    eapply reaped_not_none; [|exact F3'].
    intros m J. apply in_app_or in J as [J|J].
    + exact (start_all_no_add _ _ _ _ _ _ _ ST J).
    + exact (wait_loop_no_add _ _ _ _ _ _ _ _ _ _ W J).
  - left. exists t. destruct F5 as (F6 & F7 & F8). subst. rewrite F2 in *. split; auto.
Qed.

(* a script that was added is lost only when it cannot be started *)
Theorem C67_lost_only_by_failed_start s x s' rv n :
  sreach s -> sstep s (STest x) s' rv ->
  run_state n (ss_tr s) <> ROut -> run_state n (ss_tr s') = ROut ->
  exists i c, nth_error (ss_tab s) i = Some c /\ sc_name c = n /\ nth i (ti_starts x) 0 <= 0.
Proof.
  intros R S A B. inversion S as [|? ? l rv' e' L PS T]; subst. cbn [ss_tr] in *.
  unfold run_state in B. rewrite after_app in B. apply after_out in B; auto.
  unfold test_scripts in T.
  destruct (start_all (ti_std x) (ti_begin x) (ti_starts x) (ss_tab s)) as [l1 e1] eqn:ST.
  destruct (wait_loop (ti_std x) (ti_begin x) (ti_ksec x) (ti_passes x) l1)
    as [[[[l2 run] bad] e2]|] eqn:W; [|discriminate].
  injection T as <- <- <-. apply in_app_or in B as [B|B].
  - eapply start_all_removes; eauto.
  - destruct (wait_loop_no_remove _ _ _ _ _ _ _ _ _ n W B).
Qed.

Theorem C67_setup_keeps s dir s' n :
  sstep s (SSetup dir) s' 0 -> run_state n (ss_tr s) <> ROut -> run_state n (ss_tr s') <> ROut.
Proof.
  intros S A B. inversion S as [? ? l e G T|]; subst. cbn [ss_tr] in *.
  unfold run_state in B. rewrite after_app in B. apply after_out in B; auto.
  clear -T B. revert l e T B. generalize (ss_tab s).
  induction dir as [|[m ok] d IH]; intros l0 l e; cbn; [intros [= <- <-] []|].
  destruct (negb ok); [eauto|]. destruct (find_script m l0); [eauto|].
  destruct (add_script m l0) as [l1 e1] eqn:AS.
  destruct (setup_scripts d l1) as [l2 e2] eqn:SS.
  intros [= <- <-] I. apply in_app_or in I as [I|I]; [|eauto].
  destruct (add_script_cases _ _ _ _ AS) as [(_ & -> & _)|(-> & _)];
    cbn in I; destruct I as [I|[]]; discriminate.
Qed.

(* a test fails only because of a script: one that is still running at the end, or one
   that ended in this test and not with exit status 0 *)
Theorem C67_no_false_alarm s x s' rv e :
  sreach s -> sstep s (STest x) s' rv -> ss_tr s' = ss_tr s ++ e ->
  0 <= rv /\
  (0 < rv -> (exists n p t, run_state n (ss_tr s') = RRun p t) \/
             (exists n p r, In (EReap n p r) e /\ r <> 0)).
Proof.
  intros R S E.
  pose proof (sreach_inv _ (sr_step _ _ _ _ R S)) as [NN I].
  inversion S as [|? ? l rv' e' L PS T]; subst. cbn [ss_tr ss_tab ss_now] in *.
  apply app_inv_head in E. subst e'.
  unfold test_scripts in T.
  destruct (start_all (ti_std x) (ti_begin x) (ti_starts x) (ss_tab s)) as [l1 e1] eqn:ST.
  destruct (wait_loop (ti_std x) (ti_begin x) (ti_ksec x) (ti_passes x) l1)
    as [[[[l2 run] bad] e2]|] eqn:W; [|discriminate].
  injection T as <- <- <-.
  pose proof (wait_loop_nonneg _ _ _ _ _ _ _ _ _ W) as NB.
  pose proof (too_long_nonneg l2) as NT.
  split; [destruct run; lia|]. intros B.
  destruct (Z_lt_dec 0 bad) as [B1|B1].
  { right. apply bad_reap_app. right. eapply wait_loop_bad; eauto. }
  left. destruct run; [|lia]. destruct (too_long_in l2) as (c & IC & N & P); [lia|].
  destruct I as (F & _ & _). rewrite Forall_forall in F. specialize (F c IC).
  unfold slot_ok in F. destruct (Z.eqb_spec (sc_name c) 0); [lia|].
  destruct F as (_ & _ & F). exists (sc_name c).
  destruct (run_state (sc_name c) (ss_tr s ++ e1 ++ e2)); try lia. eauto.
Qed.

(* the test ends: at the latest with the first look at the clock after std - 1 seconds *)
Theorem C67_ends x l :
  (exists ws now, In (ws, now) (ti_passes x) /\ ti_std x - 1 <= now - ti_begin x) ->
  test_scripts x l <> None.
Proof.
  intros (ws & now & I & G). unfold test_scripts.
  destruct (start_all (ti_std x) (ti_begin x) (ti_starts x) l) as [l1 e1].
  enough (K : wait_loop (ti_std x) (ti_begin x) (ti_ksec x) (ti_passes x) l1 <> None).
  { destruct (wait_loop _ _ _ _ _) as [[[[? ?] ?] ?]|]; [discriminate|congruence]. }
  clear e1. revert l1. induction (ti_passes x) as [|[ws1 now1] p IH]; intros l1; [destruct I|].
  cbn [wait_loop]. destruct (wait_all (ti_ksec x) ws1 l1) as [[[l2 run] bad] e].
  destruct (negb run); [discriminate|].
  destruct (Z.leb_spec (ti_std x - 1) (now1 - ti_begin x)); [discriminate|].
  destruct I as [[= -> ->]|I]; [lia|]. specialize (IH I l2).
  destruct (wait_loop (ti_std x) (ti_begin x) (ti_ksec x) p l2) as [[[[? ?] ?] ?]|];
    [discriminate|congruence].
Qed.

(* a signal goes only to a process that was started for a script and whose end has not
   been collected yet: the pid cannot belong to anybody else *)
Theorem C67_kills_own s a p b :
  sreach s -> ss_tr s = a ++ EKill p :: b -> exists n t, run_state n a = RRun p t.
Proof. intros R E. exact (sreach_kills s R a p b E). Qed.

(* a script that failed is run again in the next test *)
Theorem C67_failed_is_rerun s x s' rv e n t r :
  sreach s -> sstep s (STest x) s' rv -> ss_tr s' = ss_tr s ++ e ->
  0 < n -> run_state n (ss_tr s) = RDone t r -> r <> 0 ->
  In (ERemove n) e \/ exists p, In (EStart n p (ti_begin x)) e.
Proof.
  intros R S E P RS NZ.
  destruct (sreach_inv _ R) as [NN (F & _ & C)].
  inversion S as [|? ? l rv' e' L PS T]; subst. cbn [ss_tr] in *.
  apply app_inv_head in E. subst e'.
  unfold test_scripts in T.
  destruct (start_all (ti_std x) (ti_begin x) (ti_starts x) (ss_tab s)) as [l1 e1] eqn:ST.
  destruct (wait_loop (ti_std x) (ti_begin x) (ti_ksec x) (ti_passes x) l1)
    as [[[[l2 run] bad] e2]|] eqn:W; [|discriminate].
  injection T as <- <- <-.
  assert (In n (names (ss_tab s))) as IN by (apply C; auto; congruence).
  apply filter_In in IN as [IN _]. apply in_map_iff in IN as (c & CN & IC).
  rewrite Forall_forall in F. specialize (F c IC). unfold slot_ok in F.
  destruct (Z.eqb_spec (sc_name c) 0); [lia|]. rewrite CN, RS in F.
  destruct F as (_ & _ & F1 & F2 & F3).
  enough (In (ERemove n) e1 \/ exists p, In (EStart n p (ti_begin x)) e1) as [Q|(p & Q)].
  { left. apply in_or_app. auto. }
  { right. exists p. apply in_or_app. auto. }
  clear -ST IC CN F1 F2 NZ P. revert l1 e1 ST. generalize (ti_starts x) as rs. 
  induction (ss_tab s) as [|c1 l IH]; intros rs l1 e1; [destruct IC|]. cbn.
  destruct (start_one (ti_std x) (ti_begin x) (hd 0 rs) c1) as [s1 f1] eqn:S1.
  destruct (start_all (ti_std x) (ti_begin x) (tl rs) l) as [l2 f2] eqn:S2.
  intros [= <- <-]. destruct IC as [<-|IC].
  - unfold start_one in S1. rewrite CN, F1, F2 in S1.
    destruct (Z.eqb_spec n 0); [lia|]. cbn in S1. destruct (Z.eqb_spec r 0); [lia|]. cbn in S1.
    destruct (hd 0 rs <=? 0); injection S1 as <- <-; [left|right; eexists];
      apply in_or_app; left; cbn; auto.
  - destruct (IH IC _ _ _ S2) as [Q|(p & Q)]; [left|right; exists p]; apply in_or_app; auto.
Qed.

(* ---------------------------------------------------------------- the full claim fails *)

Definition test1 (starts : list Z) : test_in :=
  mkTestIn 100 10 0 starts [([(WExit 0, 101)], 101)].

(* fork() fails once: the script is taken out of the table, the test passes, and no
   later test runs it *)
Definition rm_state : sstate := mkSs scripts_init 100 [EAdd 7; ERemove 7].

Theorem C67_refuted : ~ C67_statement.
Proof.
  intros H.
  assert (G : good_dir [(7, true)]) by (intros n ok [[= <- _]|[]]; lia).
  set (s1 := mkSs (mkScript 7 0 0 0 :: tl scripts_init) 0 [EAdd 7]).
  assert (S1 : sstep ss_init (SSetup [(7, true)]) s1 0) by (apply (sst_setup ss_init _ _ _ G eq_refl)).
  assert (S3 : sstep s1 (STest (test1 [-11])) rm_state 0).
  { apply (sst_test s1 (test1 [-11]) scripts_init 0 [ERemove 7]); cbn; auto; lia. }
  specialize (H ss_init [(7, true)] s1 7 s1 _ _ [ERemove 7] sr_init S1 (or_introl eq_refl) (srs_nil s1) S3 eq_refl).
  destruct H as [(t0 & H & _)|(H & _)]; discriminate.
Qed.

(* a ninth script is ignored *)
Definition nine : list (Z * bool) :=
  [(1, true); (2, true); (3, true); (4, true); (5, true); (6, true); (7, true); (8, true); (9, true)].

Definition test8 : test_in :=
  mkTestIn 100 10 0 [11; 12; 13; 14; 15; 16; 17; 18]
    [(repeat (WExit 0, 101) 8, 101)].

Theorem C67_ninth_ignored :
  exists s1 s3, sstep ss_init (SSetup nine) s1 0 /\ sstep s1 (STest test8) s3 0 /\
    (forall n, 1 <= n <= 8 -> run_state n (ss_tr s3) = RDone 100 0) /\
    run_state 9 (ss_tr s3) = ROut.
Proof.
  destruct (setup_scripts nine scripts_init) as [l1 e1] eqn:E1.
  destruct (test_scripts test8 l1) as [[[l2 rv] e2]|] eqn:E2.
  2:{ vm_compute in E1. injection E1 as <- <-. discriminate. }
  exists (mkSs l1 0 e1), (mkSs l2 100 (e1 ++ e2)).
  vm_compute in E1. injection E1 as <- <-. vm_compute in E2. injection E2 as <- <- <-.
  split; [|split; [|split]].
  - eapply (sst_setup ss_init nine); [|reflexivity].
    intros n ok I. cbn in I. repeat (destruct I as [[= <- _]|I]; [lia|]). destruct I.
  - eapply (sst_test (mkSs _ 0 _) test8); cbn; try lia. reflexivity.
  - intros n L. assert (n = 1 \/ n = 2 \/ n = 3 \/ n = 4 \/ n = 5 \/ n = 6 \/ n = 7 \/ n = 8) as K by lia.
    destruct K as [->|[->|[->|[->|[->|[->|[->| ->]]]]]]]; reflexivity.
  - reflexivity.
Qed.

(* a failing script fails the test, a script that hangs too; a good one passes *)
Example C67_nonvacuous :
  let l := fst (setup_scripts [(7, true)] scripts_init) in
  option_map (fun r => snd (fst r)) (test_scripts (mkTestIn 100 10 0 [33] [([(WExit 0, 101)], 101)]) l) = Some 0 /\
  option_map (fun r => snd (fst r)) (test_scripts (mkTestIn 100 10 0 [33] [([(WExit 1, 101)], 101)]) l) = Some 1 /\
  option_map (fun r => (snd (fst r), snd r))
    (test_scripts (mkTestIn 100 10 5 [33] [([(WNone, 101)], 101); ([(WNone, 106)], 109)]) l)
  = Some (1, [EStart 7 33 100; EKill 33]).
Proof. vm_compute. auto. Qed.

Print Assumptions C67_pass_partial.
Print Assumptions C67_lost_only_by_failed_start.
Print Assumptions C67_setup_keeps.
Print Assumptions C67_no_false_alarm.
Print Assumptions C67_ends.
Print Assumptions C67_kills_own.
Print Assumptions C67_failed_is_rerun.
Print Assumptions C67_refuted.
Print Assumptions C67_ninth_ignored.
