(* C23: reported host states match the renewal history. *)
From Coq Require Import List NArith ZArith Lia Bool ZifyBool ZifyN.
From Verif Require Import HostStatus.
Import ListNotations.
Open Scope N_scope.

(* The history h lists the checks made so far, newest first: the time and
   what was read.  A "change" is a check that read another owner id,
   generation or timestamp than the check before it. *)

(* nothing changed from the check at time tc (which read oc) up to the latest *)
Definition unchanged_since (h : list (N * obs)) (tc : N) (oc : obs) : Prop :=
  exists newer older, h = newer ++ (tc, oc) :: older /\
    forall t o, In (t, o) newer -> (o_id o, o_gen o, o_ts o) = (o_id oc, o_gen oc, o_ts oc).

(* the check at time tc read oc and the one before it read something else *)
Definition change_seen (h : list (N * obs)) (tc : N) (oc : obs) : Prop :=
  exists newer tp op older, h = newer ++ (tc, oc) :: (tp, op) :: older /\
    (o_id op, o_gen op, o_ts op) <> (o_id oc, o_gen oc, o_ts oc).

Definition latest (h : list (N * obs)) : option obs :=
  match h with [] => None | (_, o) :: _ => Some o end.

(* FREE exactly when the lease read last is free (also for bad records) *)
Theorem C23_free :
  forall own fire now t o h,
    get_host_flag own fire now (monitor ((t, o) :: h)) = HFree <-> o_ts o = 0.
Proof.
  intros own fire now t o h. unfold get_host_flag. rewrite monitor_ts.
  destruct (o_ts o =? 0) eqn:E.
  - split; auto. lia.
  - split; [|lia].
    repeat match goal with |- (if ?b then _ else _) = _ -> _ => destruct b; try discriminate end.
Qed.

Theorem C23_dead_or_fail :
  forall own fire now h,
    h <> [] -> times_pos h -> all_good h ->
    let f := get_host_flag own fire now (monitor h) in
    (f = HDead -> exists tc oc, unchanged_since h tc oc /\ own <> o_id oc /\ o_ts oc <> 0 /\
                   8 * o_io oc + fire < now - tc) /\
    (f = HFail -> exists tc oc, unchanged_since h tc oc /\ own <> o_id oc /\ o_ts oc <> 0 /\
                   8 * o_io oc < now - tc <= 8 * o_io oc + fire).
Proof.
  intros own fire now h NE P G f. subst f. unfold get_host_flag.
  destruct (monitor_last_change h) as
    [(L & K & I1 & I2 & I3)|(newer & tc & oc & older & H & N1 & Pv & L & Io & Ke)]; auto.
  { rewrite I3. cbn. split; discriminate. }
  assert (T : 0 < tc) by (eapply P; rewrite H; apply in_or_app; cbn; eauto).
  assert (U : unchanged_since h tc oc) by (exists newer, older; auto).
  rewrite L, Io. replace (tc =? 0) with false by lia.
  injection Ke as Kid Kgen Kts. rewrite Kts.
  destruct (o_ts oc =? 0) eqn:E0; [split; discriminate|].
  destruct (own =? hs_owner_id (monitor h)) eqn:E1; [split; discriminate|].
  rewrite Kid in E1.
  destruct (now - tc <=? 8 * o_io oc) eqn:E2.
  { cbn [andb]. match goal with |- context [if ?b then HUnknown else _] => destruct b end; split; discriminate. }
  cbn [andb].
  destruct (8 * o_io oc + fire <? now - tc) eqn:E3.
  { split; [|discriminate]. intros _. exists tc, oc. repeat split; auto; lia. }
  destruct (8 * o_io oc <? now - tc) eqn:E4.
  { split; [discriminate|]. intros _. exists tc, oc. repeat split; auto; lia. }
  split; discriminate.
Qed.

Theorem C23_live :
  forall own fire now h,
    h <> [] -> times_pos h -> all_good h ->
    get_host_flag own fire now (monitor h) = HLive ->
    (exists o, latest h = Some o /\ o_id o = own) \/
    (exists tc oc, unchanged_since h tc oc /\ change_seen h tc oc /\ o_ts oc <> 0 /\
                   now - tc <= 8 * o_io oc).
Proof.
  intros own fire now h NE P G. unfold get_host_flag.
  destruct (monitor_last_change h) as
    [(L & K & I1 & I2 & I3)|(newer & tc & oc & older & H & N1 & Pv & L & Io & Ke)]; auto.
  { rewrite I3. cbn. discriminate. }
  assert (T : 0 < tc) by (eapply P; rewrite H; apply in_or_app; cbn; eauto).
  rewrite L, Io, (monitor_first h P). replace (tc =? 0) with false by lia.
  injection Ke as Kid Kgen Kts. rewrite Kts.
  destruct (o_ts oc =? 0) eqn:E0; [discriminate|].
  destruct (own =? hs_owner_id (monitor h)) eqn:E1.
  { intros _. left. rewrite Kid in E1. rewrite H. destruct newer as [|(t1, o1) n].
    - exists oc. cbn. split; auto. lia.
    - exists o1. cbn. split; auto. assert (X : key o1 = key oc) by (eapply N1; cbn; eauto).
      injection X as X _ _. lia. }
  destruct (now - tc <=? 8 * o_io oc) eqn:E2; cbn [andb].
  2:{ destruct (_ <? _); [discriminate|]. destruct (_ <? _); discriminate. }
  destruct (first_time h =? tc) eqn:E3; [discriminate|]. intros _. right.
  exists tc, oc. split; [exists newer, older; auto|]. split.
  - destruct older as [|(tp, op) older].
    + exfalso. rewrite H in E3.
      assert (X : first_time (newer ++ [(tc, oc)]) = tc).
      { clear. induction newer as [|x n IH]; [reflexivity|]. cbn [app].
        destruct (n ++ [(tc, oc)]) eqn:E; [destruct n; discriminate|]. rewrite <- E in *.
        destruct x. cbn. rewrite E in *. auto. }
      rewrite X in E3. lia.
    + exists newer, tp, op, older. split; auto.
  - split; lia.
Qed.

(* conversely, once a change has been seen the reported state is a function of
   the time since the last one: LIVE, then FAIL, then DEAD *)
Theorem C23_complete :
  forall own fire now newer tc oc tp op older,
    let h := newer ++ (tc, oc) :: (tp, op) :: older in
    times_pos h -> all_good h ->
    (forall t o, In (t, o) newer -> (o_id o, o_gen o, o_ts o) = (o_id oc, o_gen oc, o_ts oc)) ->
    (o_id op, o_gen op, o_ts op) <> (o_id oc, o_gen oc, o_ts oc) ->
    o_ts oc <> 0 -> own <> o_id oc -> first_time h <> tc ->
    get_host_flag own fire now (monitor h) =
      if now - tc <=? 8 * o_io oc then HLive
      else if 8 * o_io oc + fire <? now - tc then HDead else HFail.
Proof.
  intros own fire now newer tc oc tp op older h P G Hu Hc Ht Ho Hf.
  assert (M : hs_last_live (monitor h) = tc /\ hs_io_timeout (monitor h) = o_io oc /\
              (hs_owner_id (monitor h), hs_owner_generation (monitor h), hs_timestamp (monitor h)) = key oc).
  { clear Hf. subst h. revert P G Hu. induction newer as [|(t, o) n IH]; intros P G Hu.
    - cbn [app] in *.
      assert (P1 : times_pos ((tp, op) :: older)) by (intros ? ? ?; eapply P; right; eauto).
      assert (G1 : all_good ((tp, op) :: older)) by (intros ? ? ?; eapply G; right; eauto).
      assert (K : (hs_owner_id (monitor ((tp, op) :: older)), hs_owner_generation (monitor ((tp, op) :: older)),
                   hs_timestamp (monitor ((tp, op) :: older))) = key op).
      { destruct (monitor_last_change ((tp, op) :: older)) as
          [(L & K & I1 & I2 & I3)|(newer & tc' & oc' & older' & H & N1 & Pv & L & Io & Ke)]; auto; [congruence| |].
        - rewrite I1, I2, I3. symmetry. eapply K. left. eauto.
        - rewrite Ke. destruct newer as [|y ns]; cbn [app] in H; injection H as H0 H1; subst.
          + congruence.
          + symmetry. eapply N1. left. eauto. }
      remember ((tp, op) :: older) as r. cbn [monitor]. unfold check_host.
      assert (Gc : o_bad oc = false) by (eapply G; left; eauto). rewrite Gc.
      destruct (_ && _ && _) eqn:E.
      + apply key_eqb in E. rewrite K in E. contradiction.
      + cbn. auto.
    - cbn [app] in *.
      assert (P1 : times_pos (n ++ (tc, oc) :: (tp, op) :: older)) by (intros ? ? ?; eapply P; right; eauto).
      assert (G1 : all_good (n ++ (tc, oc) :: (tp, op) :: older)) by (intros ? ? ?; eapply G; right; eauto).
      destruct IH as (L & Io & Ke); auto.
      { intros t' o' I. eapply Hu. right. eauto. }
      cbn [monitor]. unfold check_host.
      assert (Ko : key o = key oc) by (eapply Hu; left; eauto).
      rewrite (proj2 (key_eqb _ o)) by congruence. cbn. auto. }
  destruct M as (L & Io & Ke). unfold get_host_flag. rewrite L, Io, (monitor_first h P).
  assert (T : 0 < tc) by (eapply P; subst h; apply in_or_app; right; left; eauto).
  injection Ke as Kid Kgen Kts. rewrite Kts, Kid.
  replace (tc =? 0) with false by lia. replace (o_ts oc =? 0) with false by lia.
  replace (own =? o_id oc) with false by lia. replace (first_time h =? tc) with false by lia.
  rewrite andb_false_r.
  destruct (now - tc <=? 8 * o_io oc) eqn:E2; auto.
  destruct (8 * o_io oc + fire <? now - tc); auto.
  replace (8 * o_io oc <? now - tc) with true by lia. auto.
Qed.

(* The good-record hypothesis is needed: a host whose sector holds a damaged
   record (wrong magic) with other owner fields is reported LIVE for ever
   although its lease never changes and it was last seen alive at time 20.
   The code keeps the old owner fields and so sees a "change" at each check. *)
Definition bad_obs := mkObs true 99 0 500 10.
Definition bad_history : list (N * obs) :=
  map (fun k => (N.of_nat k * 20, bad_obs)) (rev (seq 2 100)) ++ [(20, mkObs false 3 1 500 10)].

Theorem C23_bad_record_refuted :
  get_host_flag 1 60 2020 (monitor bad_history) = HLive /\
  (forall t o, In (t, o) (firstn 100 bad_history) -> o = bad_obs).
Proof.
  split; [vm_compute; reflexivity|].
  intros t o I. unfold bad_history in I. rewrite firstn_app in I.
  rewrite firstn_all2 in I by (rewrite map_length, rev_length, seq_length; auto).
  rewrite map_length, rev_length, seq_length, Nat.sub_diag, app_nil_r in I.
  apply in_map_iff in I. destruct I as (k & E & _). congruence.
Qed.

Definition ok_history : list (N * obs) :=
  [(60, mkObs false 3 1 520 10); (40, mkObs false 3 1 520 10); (20, mkObs false 3 1 500 10)].
Example C23_nonvacuous :
  get_host_flag 1 60 100 (monitor ok_history) = HLive /\
  get_host_flag 1 60 121 (monitor ok_history) = HFail /\
  get_host_flag 1 60 181 (monitor ok_history) = HDead /\
  get_host_flag 1 60 30 (monitor (tl (tl ok_history))) = HUnknown /\
  first_time ok_history = 20.
Proof. vm_compute. repeat split. Qed.

Print Assumptions C23_free.
Print Assumptions C23_dead_or_fail.
Print Assumptions C23_live.
Print Assumptions C23_complete.
Print Assumptions C23_bad_record_refuted.
