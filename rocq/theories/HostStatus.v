(* Monitoring of other hosts' leases.
   src/lockspace.c:378-530 (check_other_leases, the per-host part up to the
   bitmap test), 1487-1531 (get_host_flag).
   Time is monotime() in seconds.  The fields used only for logging
   (owner_name, lease_bad counter) are left out. *)
From Coq Require Import List NArith ZArith Lia Bool ZifyBool ZifyN.
Import ListNotations.
Open Scope N_scope.

(* what one check reads from the host's sector *)
Record obs := mkObs {
  o_bad : bool;      (* magic or space_name wrong *)
  o_id : N; o_gen : N; o_ts : N; o_io : N }.

Record hstatus := mkHs {
  hs_first_check : N; hs_last_check : N; hs_last_live : N;
  hs_owner_id : N; hs_owner_generation : N; hs_timestamp : N; hs_io_timeout : N }.

Definition hs_init : hstatus := mkHs 0 0 0 0 0 0 0.

(* 395-476 *)
Definition check_host (hs : hstatus) (now : N) (o : obs) : hstatus :=
  let first := if hs_first_check hs =? 0 then now else hs_first_check hs in
  if (hs_owner_id hs =? o_id o) && (hs_owner_generation hs =? o_gen o) && (hs_timestamp hs =? o_ts o)
  then mkHs first now (hs_last_live hs) (hs_owner_id hs) (hs_owner_generation hs)
            (hs_timestamp hs) (hs_io_timeout hs)
  else if o_bad o
  then mkHs first now now (hs_owner_id hs) (hs_owner_generation hs) (o_ts o) (hs_io_timeout hs)
  else mkHs first now now (o_id o) (o_gen o) (o_ts o) (o_io o).

Inductive hflag := HNone | HUnknown | HFree | HLive | HFail | HDead.

(* 1487-1531; own: the local host id, fire: watchdog_fire_timeout *)
Definition get_host_flag (own fire now : N) (hs : hstatus) : hflag :=
  let fail := 8 * hs_io_timeout hs in
  let dead := 8 * hs_io_timeout hs + fire in
  if hs_timestamp hs =? 0 then HFree
  else
    let last := if hs_last_live hs =? 0 then hs_first_check hs else hs_last_live hs in
    if own =? hs_owner_id hs then HLive
    else if (now - last <=? fail) && (hs_first_check hs =? hs_last_live hs) then HUnknown
    else if now - last <=? fail then HLive
    else if dead <? now - last then HDead
    else if fail <? now - last then HFail
    else HNone.

(* checks newest first *)
Fixpoint monitor (h : list (N * obs)) : hstatus :=
  match h with
  | [] => hs_init
  | (t, o) :: r => check_host (monitor r) t o
  end.

(* ---- facts ---- *)
Definition key (o : obs) : N * N * N := (o_id o, o_gen o, o_ts o).

Lemma key_eqb hs o :
  (hs_owner_id hs =? o_id o) && (hs_owner_generation hs =? o_gen o) && (hs_timestamp hs =? o_ts o) = true
  <-> (hs_owner_id hs, hs_owner_generation hs, hs_timestamp hs) = key o.
Proof.
  unfold key. rewrite !andb_true_iff, !N.eqb_eq. split.
  - intros [[-> ->] ->]. reflexivity.
  - intros H. injection H as -> -> ->. auto.
Qed.

Definition times_pos (h : list (N * obs)) := forall t o, In (t, o) h -> 0 < t.
Definition all_good (h : list (N * obs)) := forall t o, In (t, o) h -> o_bad o = false.

(* time of the first check: last element *)
Fixpoint first_time (h : list (N * obs)) : N :=
  match h with
  | [] => 0
  | [(t, _)] => t
  | _ :: r => first_time r
  end.

Lemma first_time_pos h : h <> [] -> times_pos h -> 0 < first_time h.
Proof.
  induction h as [|(t, o) r IH]; [congruence|]. intros _ P. destruct r.
  - cbn. eapply P. cbn. eauto.
  - change (0 < first_time (p :: r)). apply IH; [congruence|]. intros t' o' I. eapply P. cbn. eauto.
Qed.

Lemma monitor_first h : times_pos h -> hs_first_check (monitor h) = first_time h.
Proof.
  induction h as [|(t, o) r IH]; [reflexivity|]. intros P.
  assert (Pr : times_pos r) by (intros t' o' I; eapply P; cbn; eauto).
  specialize (IH Pr). cbn [monitor].
  assert (F : hs_first_check (check_host (monitor r) t o)
              = if hs_first_check (monitor r) =? 0 then t else hs_first_check (monitor r)).
  { unfold check_host. destruct (_ && _ && _); [reflexivity|]. destruct (o_bad o); reflexivity. }
  rewrite F, IH. destruct r as [|x r'].
  - reflexivity.
  - pose proof (first_time_pos (x :: r') ltac:(congruence) Pr).
    destruct (first_time (x :: r') =? 0) eqn:E; [lia|]. destruct x. reflexivity.
Qed.

Lemma monitor_ts h t o : hs_timestamp (monitor ((t, o) :: h)) = o_ts o.
Proof.
  cbn [monitor]. unfold check_host.
  destruct (_ && _ && _) eqn:E.
  - cbn. lia.
  - destruct (o_bad o); reflexivity.
Qed.

(* in a history of good records the status is that of the last change *)
Lemma monitor_last_change h :
  h <> [] -> times_pos h -> all_good h ->
  (hs_last_live (monitor h) = 0 /\ (forall t o, In (t, o) h -> key o = (0, 0, 0)) /\
   hs_owner_id (monitor h) = 0 /\ hs_owner_generation (monitor h) = 0 /\ hs_timestamp (monitor h) = 0) \/
  (exists newer tc oc older,
     h = newer ++ (tc, oc) :: older /\
     (forall t o, In (t, o) newer -> key o = key oc) /\
     (match older with [] => (0, 0, 0) <> key oc | (_, op) :: _ => key op <> key oc end) /\
     hs_last_live (monitor h) = tc /\ hs_io_timeout (monitor h) = o_io oc /\
     (hs_owner_id (monitor h), hs_owner_generation (monitor h), hs_timestamp (monitor h)) = key oc).
Proof.
  induction h as [|(t, o) r IH]; [congruence|]. intros _ P G.
  assert (Pr : times_pos r) by (intros t' o' I; eapply P; cbn; eauto).
  assert (Gr : all_good r) by (intros t' o' I; eapply G; cbn; eauto).
  assert (Go : o_bad o = false) by (eapply G; cbn; eauto).
  assert (Pt : 0 < t) by (eapply P; cbn; eauto).
  destruct r as [|x r'].
  - cbn [monitor]. unfold check_host. rewrite Go.
    destruct (_ && _ && _) eqn:E.
    + apply key_eqb in E. left. cbn in *. repeat split; try reflexivity.
      intros t' o' [H|[]]. injection H as <- <-. auto.
    + right. exists [], t, o, []. cbn. repeat split; auto; try tauto.
      intros H. rewrite <- not_true_iff_false in E. apply E. apply key_eqb. exact H.
  - specialize (IH ltac:(congruence) Pr Gr). remember (x :: r') as r eqn:Er.
    cbn [monitor]. unfold check_host. rewrite Go.
    destruct ((hs_owner_id (monitor r) =? o_id o) && (hs_owner_generation (monitor r) =? o_gen o)
              && (hs_timestamp (monitor r) =? o_ts o)) eqn:E.
    + apply key_eqb in E. cbn.
      destruct IH as [(L & K & I1 & I2 & I3)|(newer & tc & oc & older & H & N1 & Pv & L & Io & Ke)].
      * left. repeat split; auto. intros t' o' [J|J].
        -- injection J as <- <-. rewrite <- E, I1, I2, I3. reflexivity.
        -- eauto.
      * right. exists ((t, o) :: newer), tc, oc, older.
        split; [cbn; rewrite <- H; reflexivity|].
        split; [|repeat split; auto].
        intros t' o' [J|J].
        -- injection J as <- <-. congruence.
        -- eauto.
    + right. exists [], t, o, r. split; [reflexivity|]. split; [intros ? ? []|].
      split; [|cbn; auto].
      rewrite Er. destruct x as (t1, o1).
      assert (K1 : (hs_owner_id (monitor r), hs_owner_generation (monitor r), hs_timestamp (monitor r)) = key o1).
      { destruct IH as [(L & K & I1 & I2 & I3)|(newer & tc & oc & older & H & N1 & Pv & L & Io & Ke)].
        - rewrite I1, I2, I3. symmetry. apply (K t1). rewrite Er. cbn; auto.
        - rewrite Ke. rewrite Er in H. destruct newer as [|y n].
          + cbn in H. injection H as -> -> _. reflexivity.
          + cbn in H. injection H as <- _. symmetry. eapply N1. cbn. eauto. }
      intros C. rewrite <- not_true_iff_false in E. apply E. apply key_eqb. congruence.
Qed.
