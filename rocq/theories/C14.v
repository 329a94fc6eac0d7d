(* C14: before taking a lease from a silent owner, the waiter waits more than
   eight times the owner's I/O timeout plus the watchdog timeout.

   The owner's I/O timeout is the one stored in its host lease.  The code uses the
   one remembered by the monitoring of other hosts (host_info), which is the
   waiter's own as long as nothing was remembered, and never looks at it again
   while waiting. *)
From Coq Require Import List NArith ZArith Lia Bool Arith ZifyBool ZifyN.
From Verif Require Import Bytes Codec Leader LeaderReadNum Sizes Mbal Timeouts HostStatus Acquire AcquireProof.
Import ListNotations.
Open Scope N_scope.

(* ---- specification ---- *)
(* nothing but silence entitles to the lease *)
Definition only_silence (p : aparams) (cur : leader) (new : list ainput) : Prop :=
  l_timestamp cur <> 0 /\
  (l_owner_id cur = a_host p -> a_gen p < l_owner_generation cur) /\
  (forall d, delta_seen new d ->
     l_timestamp d <> 0 /\ l_owner_id d = l_owner_id cur /\ l_owner_generation d <= l_owner_generation cur) /\
  (forall fl, In (IDblock 0 fl) new -> has fl DBLOCK_FL_RELEASED = false).

(* the wait: from the last time the monitoring saw the owner alive, or from the
   moment host_info was asked, to a look at the clock *)
Definition wait_start (cur : leader) (rv : Z) (hs : hstatus) (t0 start : N) : Prop :=
  start = t0 \/
  (rv = 0%Z /\ start = hs_last_live hs /\
   hs_owner_id hs = l_owner_id cur /\ hs_owner_generation hs = l_owner_generation cur).
Definition waited (cur : leader) (new : list ainput) (seconds : N) : Prop :=
  exists rv hs t0 start now,
    In (IHostInfo rv hs t0) new /\ In (INow now) new /\
    wait_start cur rv hs t0 start /\ seconds < sub64 now start.

(* the answers of host_info are those of the function for some table; after an
   error the result structure is what the stack happens to hold *)
Definition asked (tab : option (N * N * (N -> hstatus))) (owner : N) (new : list ainput) : Prop :=
  forall rv hs t, In (IHostInfo rv hs t) new ->
    let (rv', r) := host_info tab owner in
    rv = rv' /\ match r with Some hs' => hs = hs' | None => True end.

(* every record of the owner's host lease read in the wait has I/O timeout io *)
Definition owner_io (io : N) (new : list ainput) : Prop :=
  forall d, delta_seen new d -> l_io_timeout d = io.

Definition C14_for (tab : option (N * N * (N -> hstatus))) : Prop :=
  forall p ss al h s0 o0 i s o cur io,
    a_force p = false -> arun p (astart ss al) h = Some (s0, o0) -> astep p s0 i = Some (s, o) -> o <> [] ->
    last_read h = Some cur -> only_silence p cur (since h) ->
    asked tab (l_owner_id cur) (since h) -> owner_io io (since h) ->
    waited cur (since h) (8 * io + a_fire p).

Definition C14_statement : Prop := forall tab, C14_for tab.

(* what does hold: the wait exceeds the dead time for the I/O timeout delivered by
   host_info; missing: that this is the owner's *)
Theorem C14_waits_for_reported_timeout_partial :
  forall p ss al h s0 o0 i s o cur,
    a_force p = false -> arun p (astart ss al) h = Some (s0, o0) -> astep p s0 i = Some (s, o) -> o <> [] ->
    last_read h = Some cur -> only_silence p cur (since h) ->
    exists rv hs t0 start now,
      In (IHostInfo rv hs t0) (since h) /\ In (INow now) (since h) /\
      wait_start cur rv hs t0 start /\
      8 * hs_io_timeout hs + a_fire p < sub64 now start /\
      (exists d, delta_seen (since h) d) /\
      exists T, forall d, delta_seen (since h) d -> l_timestamp d = T.
Proof.
  intros p ss al h s0 o0 i s o cur F H1 H2 N L (S1 & S2 & S3 & S4).
  pose proof (arun_ainv p ss al h s0 o0 F H1) as A.
  assert (R : reason p cur (since h)).
  { unfold astep in H2.
    destruct (as_pc s0) eqn:P; destruct i; try discriminate H2; injection H2 as _ <-; try congruence;
      pose proof (arun_cur p ss al h s0 o0 cur0 H1 ltac:(rewrite P; reflexivity)) as C;
      assert (cur0 = cur) by congruence; subst cur0; exact A. }
  destruct R as [R|R1 R2|d R1 R2|d R1 R2|fl R1 R2 R3|rv hs t0 now T start R1 R2 R3 R4 R5 R6].
  - congruence.
  - specialize (S2 R1). lia.
  - destruct (S3 _ R1) as (X & _). congruence.
  - destruct (S3 _ R1) as (_ & X & Y). unfold moved in R2. lia.
  - rewrite (S4 _ R1) in R2. discriminate R2.
  - exists rv, hs, t0, start, now. split; auto. split; auto. split.
    { destruct R5 as [->|(A1 & A2 & A3 & A4 & _)]; [left; auto|right; auto]. }
    split; auto. split; eauto.
Qed.

(* with the owner's own I/O timeout (or a larger one) reported, the claim holds *)
Theorem C14_known_timeout_partial :
  forall p ss al h s0 o0 i s o cur io,
    a_force p = false -> arun p (astart ss al) h = Some (s0, o0) -> astep p s0 i = Some (s, o) -> o <> [] ->
    last_read h = Some cur -> only_silence p cur (since h) ->
    (forall rv hs t, In (IHostInfo rv hs t) (since h) -> io <= hs_io_timeout hs) ->
    waited cur (since h) (8 * io + a_fire p).
Proof.
  intros p ss al h s0 o0 i s o cur io F H1 H2 N L OS IO.
  destruct (C14_waits_for_reported_timeout_partial p ss al h s0 o0 i s o cur F H1 H2 N L OS)
    as (rv & hs & t0 & start & now & A & B & C & D & _).
  exists rv, hs, t0, start, now. split; auto. split; auto. split; auto.
  specialize (IO _ _ _ A). lia.
Qed.

(* when the monitoring has seen this generation of the owner, host_info reports
   the I/O timeout stored in its host lease *)
Theorem C14_monitored_timeout :
  forall hist o g io maxh own tab,
    hist <> [] -> times_pos hist -> all_good hist -> 0 < o <= maxh -> o <= 2000 -> io <> 0 ->
    (forall t ob, In (t, ob) hist -> o_id ob = o -> o_gen ob = g -> o_io ob = io) ->
    tab o = monitor hist -> hs_owner_id (tab o) = o -> hs_owner_generation (tab o) = g ->
    exists hs, host_info (Some (maxh, own, tab)) o = (0%Z, Some hs) /\ hs_io_timeout hs = io.
Proof.
  intros hist o g io maxh own tab NE P G O O2 Z IO T O3 G3. unfold host_info.
  destruct ((o =? 0) || (DEFAULT_MAX_HOSTS <? o)) eqn:E; [unfold DEFAULT_MAX_HOSTS in *; lia|].
  destruct (maxh <? o) eqn:E2; [lia|].
  eexists. split; [reflexivity|]. rewrite T in *.
  destruct (monitor_last_change hist NE P G) as [(_ & _ & I1 & _)|(n & tc & oc & old & H & _ & _ & _ & Hio & K)].
  - lia.
  - assert (X : o_io oc = io).
    { apply (IO tc).
      - rewrite H. apply in_app_iff. right; left; auto.
      - unfold key in K. injection K as K1 K2 K3. congruence.
      - unfold key in K. injection K as K1 K2 K3. congruence. }
    rewrite Hio, X. destruct (io =? 0) eqn:E3; [lia|]. rewrite Hio. exact X.
Qed.

(* ---- refutations ---- *)
Definition curL : leader :=
  mkLeader PAXOS_DISK_MAGIC 0x00060004 0x110 512 2000 2000 2 1 7 [] [] 80 0 0 0 20 2 1 80.
Definition dL : leader :=
  mkLeader DELTA_DISK_MAGIC 0x00030004 0x110 512 2000 2000 2 1 0 [] [] 90 0 0 0 20 2 1 90.
Definition p0 : aparams := mkAp 1 1 false false false 0 0 60.
(* the waiter's lockspace uses io_timeout 10 and has not yet seen host 2 *)
Definition tab0 : option (N * N * (N -> hstatus)) := Some (2000, 10, fun _ => hs_init).
Definition early (hs : hstatus) (rv : Z) (t1 : N) : list ainput :=
  [IReread 1 curL; INow (t1 + 1); IDelta 1 dL t1; ISleep false 1 curL; IDelta 1 dL 101;
   IHostInfo rv hs 100; ILsDisk 0 0; IRead 1 curL 0].

Ltac inl I := cbn in I;
  repeat match type of I with _ \/ _ => destruct I as [I|I]; [try discriminate I|] end;
  try (match type of I with False => destruct I end).

Lemma early_sil hs rv t1 : only_silence p0 curL (since (early hs rv t1)).
Proof.
  split; [vm_compute; discriminate|]. split; [vm_compute; discriminate|]. split.
  - intros d (r & t & I & _). inl I; injection I as <- <- <-; vm_compute; repeat split; discriminate.
  - intros fl I. inl I.
Qed.

Lemma early_io hs rv t1 : owner_io 20 (since (early hs rv t1)).
Proof. intros d (r & t & I & _). inl I; injection I as <- <- <-; reflexivity. Qed.

(* own I/O timeout 10, owner's 20: taken after 143 seconds instead of 220 *)
Definition hs10 : hstatus := mkHs 0 0 0 0 0 0 10.
Lemma early_waited hs rv t1 sec :
  hs_owner_id hs = 0 -> waited curL (since (early hs rv t1)) sec -> sec < sub64 (t1 + 1) 100.
Proof.
  intros Z (rv' & hs' & t0 & st & now & I1 & I2 & ST & L).
  inl I1. injection I1 as <- <- <-. inl I2. injection I2 as <-.
  destruct ST as [->|(_ & _ & X & _)]; [exact L|]. rewrite Z in X. discriminate X.
Qed.

Theorem C14_refuted : ~ C14_statement.
Proof.
  intros S.
  assert (W : waited curL (since (early hs10 0 242)) (8 * 20 + 60)).
  { eapply (S tab0 p0 512%Z 1048576%Z (early hs10 0 242) _ _ (IBallot 1 (mkAd 8 1 1 300))).
    - reflexivity.
    - vm_compute. reflexivity.
    - vm_compute. reflexivity.
    - discriminate.
    - vm_compute. reflexivity.
    - apply early_sil.
    - intros rv hs t I. inl I. injection I as <- <- <-. vm_compute. auto.
    - apply early_io. }
  apply early_waited in W; [|reflexivity]. vm_compute in W. discriminate W.
Qed.

(* host_info failed (no such lockspace any more): the timeout is whatever the
   uninitialised structure holds, here 0: taken after 63 seconds *)
Theorem C14_uninitialised_refuted : ~ C14_for None.
Proof.
  intros S.
  assert (W : waited curL (since (early hs_init ENOSPC_ 162)) (8 * 20 + 60)).
  { eapply (S p0 512%Z 1048576%Z (early hs_init ENOSPC_ 162) _ _ (IBallot 1 (mkAd 8 1 1 300))).
    - reflexivity.
    - vm_compute. reflexivity.
    - vm_compute. reflexivity.
    - discriminate.
    - vm_compute. reflexivity.
    - apply early_sil.
    - intros rv hs t I. inl I. injection I as <- <- <-. vm_compute. auto.
    - apply early_io. }
  apply early_waited in W; [|reflexivity]. vm_compute in W. discriminate W.
Qed.

(* the hypotheses of the conditional theorem can be met: with the owner's timeout
   known the lease is taken after 221 seconds *)
Example C14_nonvacuous :
  let hs20 := mkHs 0 0 0 0 0 0 20 in
  let h := early hs20 0 320 in
  (exists s0 o0, arun p0 (astart 512 1048576) h = Some (s0, o0) /\
     exists s, astep p0 s0 (IBallot 1 (mkAd 8 1 1 400)) = Some (s, [OBallot 2000 8 1])) /\
  last_read h = Some curL /\ only_silence p0 curL (since h) /\
  (forall rv hs t, In (IHostInfo rv hs t) (since h) -> 20 <= hs_io_timeout hs).
Proof.
  cbv zeta. split; [do 2 eexists; split; [vm_compute; reflexivity|eexists; vm_compute; reflexivity]|].
  split; [reflexivity|]. split; [apply early_sil|].
  intros rv hs t I. inl I. injection I as <- <- <-. vm_compute. discriminate.
Qed.

Print Assumptions C14_waits_for_reported_timeout_partial.
Print Assumptions C14_known_timeout_partial.
Print Assumptions C14_monitored_timeout.
Print Assumptions C14_refuted.
Print Assumptions C14_uninitialised_refuted.
