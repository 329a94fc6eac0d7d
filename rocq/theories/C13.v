(* C13: the lease of a host that keeps renewing is not taken over.

   [reason] (AcquireProof.v) lists the situations in which competing is allowed,
   in terms of what the calls delivered since the lease was last read in full:
   lease free, lease the caller's own (this or an older generation), owner's host
   id free, owner's host id moved to another host or a newer generation, owner's
   ballot block released, or no renewal seen and more than the dead time elapsed. *)
From Coq Require Import List NArith ZArith Lia Bool Arith ZifyBool ZifyN.
From Verif Require Import Bytes Codec Leader LeaderReadNum Sizes Mbal Timeouts HostStatus Acquire AcquireProof.
Import ListNotations.
Open Scope N_scope.

(* PAXOS_ACQUIRE_FORCE is not set by any caller in the source *)
Definition normal (p : aparams) : Prop := a_force p = false.

Lemma out_state p s i s' o :
  astep p s i = Some (s', o) -> o <> [] ->
  exists c, (exists mb, as_pc s = PBallot c mb) \/ (exists d, as_pc s = PWrite c d).
Proof.
  intros H N. unfold astep in H.
  destruct (as_pc s) eqn:P; destruct i; try discriminate H; injection H as _ <-; try congruence; eauto.
Qed.

(* any sequence of observations and clock values, any length of the wait: a
   ballot is run or a leader written only for one of the reasons *)
Theorem C13_competes_only_with_reason :
  forall p ss al h s0 o0 i s o,
    normal p -> arun p (astart ss al) h = Some (s0, o0) -> astep p s0 i = Some (s, o) -> o <> [] ->
    exists cur, last_read h = Some cur /\ reason p cur (since h).
Proof.
  intros p ss al h s0 o0 i s o F H1 H2 N.
  destruct (out_state _ _ _ _ _ H2 N) as (c & X).
  exists c. pose proof (arun_ainv p ss al h s0 o0 F H1) as A. split.
  - eapply arun_cur; eauto. destruct X as [(mb & ->)|(d & ->)]; reflexivity.
  - destruct X as [(mb & E)|(d & E)]; rewrite E in A; exact A.
Qed.

(* the same for a successful acquire, including the case that another host
   committed the caller as owner *)
Theorem C13_acquired_only_with_reason :
  forall p ss al h s o,
    normal p -> arun p (astart ss al) h = Some (s, o) -> as_pc s = PDone SANLK_OK ->
    exists cur, last_read h = Some cur /\ reason p cur (since h).
Proof.
  intros p ss al h s o F H D. destruct h as [|i r]; cbn [arun] in H.
  { injection H as <- <-. unfold astart in D. cbn in D. destruct (ss =? 0)%Z; discriminate D. }
  destruct (arun p (astart ss al) r) as [(s1, o1)|] eqn:E; [|discriminate H].
  destruct (astep p s1 i) as [(s2, o2)|] eqn:E2; [|discriminate H]. injection H as <- <-.
  pose proof (arun_ainv p ss al r s1 o1 F E) as A.
  pose proof (arun_cur p ss al r s1 o1) as C.
  unfold astep in E2.
  assert (RUN : forall s cur mm, as_pc (at_run p s cur mm false) <> PDone SANLK_OK).
  { intros s cur mm. unfold at_run. destruct (_ && _); cbn; discriminate. }
  destruct (as_pc s1) eqn:P; destruct i; try discriminate E2; injection E2 as E2 _; subst s2.
  - exfalso.
    assert (CP : forall mm, as_pc (at_run p s1 l mm true) <> PDone SANLK_OK).
    { intros mm. unfold at_run. destruct (negb (mm =? 0) && (l_max_hosts l =? 0)); [cbn; discriminate|]. unfold check_leader.
      destruct (l_lver l =? l_lver l + 1) eqn:X; [lia|].
      destruct (l_lver l + 1 <? l_lver l) eqn:Y; [lia|].
      destruct (negb (leader_eqb l l)); cbn; discriminate. }
    rewrite F in D.
    repeat match type of D with as_pc (if ?b then _ else _) = _ => destruct b eqn:? end;
      try (cbn in D; unfold SANLK_OK in D; injection D; lia); try discriminate D; try (eapply CP; exact D).
  - exfalso. repeat match type of D with as_pc (if ?b then _ else _) = _ => destruct b eqn:? end; discriminate D.
  - exfalso. repeat match type of D with as_pc (if ?b then _ else _) = _ => destruct b eqn:? end; discriminate D.
  - exfalso. cbv zeta in D.
    repeat match type of D with as_pc (if ?b then _ else _) = _ => destruct b eqn:? end;
      try (cbn in D; unfold SANLK_OK in D; injection D; lia); try discriminate D; try (eapply RUN; exact D).
  - exfalso. repeat match type of D with as_pc (if ?b then _ else _) = _ => destruct b eqn:? end;
      try discriminate D; try (eapply RUN; exact D).
  - exfalso. repeat match type of D with as_pc (if ?b then _ else _) = _ => destruct b eqn:? end;
      try discriminate D; try (eapply RUN; exact D).
  - exfalso. repeat match type of D with as_pc (if ?b then _ else _) = _ => destruct b eqn:? end;
      try (cbn in D; unfold SANLK_OK in D; injection D; lia); discriminate D.
  - exists cur. split; [cbn; eapply C; [exact E|reflexivity]|]. cbn [since]. apply reason_cons; auto.
  - exfalso. repeat match type of D with as_pc (if ?b then _ else _) = _ => destruct b eqn:? end;
      try (cbn in D; unfold SANLK_OK in D; injection D; lia); discriminate D.
  - exists cur. split; [cbn; eapply C; [exact E|reflexivity]|]. cbn [since]. apply reason_cons; auto.
Qed.

(* A successful acquire hands back a leader record with the caller as owner: the one just written, or one
   found on disk where another host had committed the caller with its present generation. *)
Theorem C13_success_means_owner :
  forall p ss al h s o,
    normal p -> arun p (astart ss al) h = Some (s, o) -> as_pc s = PDone SANLK_OK ->
    exists l r, as_ret s = Some l /\ l_owner_id l = a_host p /\
      ((exists now rv, h = IWrite now rv :: r /\ (0 <= rv)%Z /\ hd_error o = Some (OCommit l)) \/
       (exists rv, h = IReread rv l :: r /\ (0 <= rv)%Z /\ l_owner_generation l = a_gen p)).
Proof.
  intros p ss al h s o F H D. destruct h as [|i r]; cbn [arun] in H.
  { injection H as <- <-. unfold astart in D. cbn in D. destruct (ss =? 0)%Z; discriminate D. }
  destruct (arun p (astart ss al) r) as [(s1, o1)|] eqn:E; [|discriminate H].
  destruct (astep p s1 i) as [(s2, o2)|] eqn:E2; [|discriminate H]. injection H as <- <-.
  unfold astep in E2.
  assert (RUN : forall s cur mm, as_pc (at_run p s cur mm false) <> PDone SANLK_OK).
  { intros s cur mm. unfold at_run. destruct (_ && _); cbn; discriminate. }
  destruct (as_pc s1) eqn:P; destruct i; try discriminate E2; injection E2 as E2 EO; subst s2.
  - exfalso.
    assert (CP : forall mm, as_pc (at_run p s1 l mm true) <> PDone SANLK_OK).
    { intros mm. unfold at_run. destruct (negb (mm =? 0) && (l_max_hosts l =? 0)); [cbn; discriminate|]. unfold check_leader.
      destruct (l_lver l =? l_lver l + 1) eqn:X; [lia|].
      destruct (l_lver l + 1 <? l_lver l) eqn:Y; [lia|].
      destruct (negb (leader_eqb l l)); cbn; discriminate. }
    rewrite F in D.
    repeat match type of D with as_pc (if ?b then _ else _) = _ => destruct b eqn:? end;
      try (cbn in D; unfold SANLK_OK in D; injection D; lia); try discriminate D; try (eapply CP; exact D).
  - exfalso. repeat match type of D with as_pc (if ?b then _ else _) = _ => destruct b eqn:? end; discriminate D.
  - exfalso. repeat match type of D with as_pc (if ?b then _ else _) = _ => destruct b eqn:? end; discriminate D.
  - exfalso. cbv zeta in D. repeat match type of D with as_pc (if ?b then _ else _) = _ => destruct b eqn:? end;
      try (cbn in D; unfold SANLK_OK in D; injection D; lia); try discriminate D; try (eapply RUN; exact D).
  - exfalso. repeat match type of D with as_pc (if ?b then _ else _) = _ => destruct b eqn:? end;
      try discriminate D; try (eapply RUN; exact D).
  - exfalso. repeat match type of D with as_pc (if ?b then _ else _) = _ => destruct b eqn:? end;
      try discriminate D; try (eapply RUN; exact D).
  - exfalso. repeat match type of D with as_pc (if ?b then _ else _) = _ => destruct b eqn:? end;
      try (cbn in D; unfold SANLK_OK in D; injection D; lia); try discriminate D.
  - destruct (rv <? 0)%Z eqn:RV; [cbn in D; unfold SANLK_OK in D; injection D; lia|].
    unfold check_leader in D |- *. destruct (l_lver l =? l_lver cur + 1).
    + destruct ((l_owner_id l =? a_host p) && (l_owner_generation l =? a_gen p)) eqn:OW; [|discriminate D].
      exists l, r. split; [reflexivity|]. split; [lia|]. right. exists rv. split; [reflexivity|]. split; [lia|lia].
    + exfalso. destruct (l_lver cur + 1 <? l_lver l); [discriminate D|]. destruct (negb (leader_eqb cur l)); discriminate D.
  - exfalso. repeat match type of D with as_pc (if ?b then _ else _) = _ => destruct b eqn:? end;
      try (cbn in D; unfold SANLK_OK in D; injection D; lia); try discriminate D.
  - cbv zeta in D |- *. destruct (rv <? 0)%Z eqn:RV; [cbn in D; unfold SANLK_OK in D; injection D; lia|].
    destruct (negb (ad_inp d =? a_host p)) eqn:OW; [discriminate D|].
    exists (new_leader p cur d now), r. split; [reflexivity|]. split; [apply negb_false_iff, N.eqb_eq in OW; exact OW|].
    left. exists now, rv. split; [reflexivity|]. split; [lia|]. rewrite <- EO. reflexivity.
Qed.

(* ---- in real time ---- *)
(* the owner renews at least every 8 * io seconds (after that it gives up and its
   watchdog fires); the clock runs forward; reads deliver what is on the disk.
   Then the acquire fails or waits: nothing is written, no success. *)
Definition C13_statement : Prop :=
  forall p ts_at o g io ss al h s out,
    normal p -> a_host p <> o -> renews ts_at (8 * io) ->
    (forall rv hs t, In (IHostInfo rv hs t) h -> hs_io_timeout hs = io) ->
    clock_ok h -> truthful ts_at o g h -> owned_by o g h ->
    arun p (astart ss al) h = Some (s, out) ->
    out = [] /\ as_pc s <> PDone SANLK_OK.

(* missing: a bound on the delay between reading the owner's lease and reading
   the clock; twice the delay plus the owner's longest renewal gap must stay
   within the dead time *)
Theorem C13_renewing_owner_kept_partial :
  forall p ts_at o g R delta ss al h s out,
    normal p -> a_host p <> o -> renews ts_at R ->
    (forall rv hs t, In (IHostInfo rv hs t) h -> R + 2 * delta <= 8 * hs_io_timeout hs + a_fire p) ->
    clock_ok h -> stall_ok delta h -> truthful ts_at o g h -> owned_by o g h ->
    arun p (astart ss al) h = Some (s, out) ->
    out = [] /\ as_pc s <> PDone SANLK_OK.
Proof.
  intros p ts_at o g R delta ss al h s out F NO RN IO CK ST TR OB H.
  destruct (arun_tinv ts_at o g delta R p ss al h s out F NO RN IO CK ST TR OB H) as ((_ & T) & ->).
  split; auto. intros E. rewrite E in T. apply T. reflexivity.
Qed.

(* with the default watchdog timeout of 60: every delay below 30 seconds *)
Corollary C13_default_timeouts_partial :
  forall p ts_at o g io ss al h s out,
    normal p -> a_fire p = 60 -> a_host p <> o -> renews ts_at (8 * io) ->
    (forall rv hs t, In (IHostInfo rv hs t) h -> hs_io_timeout hs = io) ->
    clock_ok h -> stall_ok 30 h -> truthful ts_at o g h -> owned_by o g h ->
    arun p (astart ss al) h = Some (s, out) ->
    out = [] /\ as_pc s <> PDone SANLK_OK.
Proof.
  intros p ts_at o g io ss al h s out F FI NO RN IO CK ST TR OB H.
  eapply (C13_renewing_owner_kept_partial p ts_at o g (8 * io) 30); eauto.
  intros. erewrite IO by eassumption. lia.
Qed.

(* the clock is read after the host lease: an acquire that is held up in between
   for longer than the dead time takes the lease of an owner that renews every 20
   seconds *)
Definition curL : leader :=
  mkLeader PAXOS_DISK_MAGIC 0x00060004 0x110 512 2000 2000 2 1 7 [] [] 100 0 0 0 10 2 1 100.
Definition dL (ts : N) : leader :=
  mkLeader DELTA_DISK_MAGIC 0x00030004 0x110 512 2000 2000 2 1 0 [] [] ts 0 0 0 10 2 1 ts.
Definition hs0 : hstatus := mkHs 50 110 105 2 1 120 10.
Definition p0 : aparams := mkAp 1 1 false false false 0 0 60.
Definition stalled : list ainput :=
  [IBallot 1 (mkAd 8 1 1 1000); IReread 1 curL; INow 1000; IDelta 1 (dL 120) 112;
   IHostInfo 0 hs0 111; ILsDisk 0 0; IRead 1 curL 0].
Definition every20 (t : N) : N := 20 * (t / 20) + 20.

Ltac cktac :=
  repeat match goal with |- clock_ok (?i :: ?r) => split end; try exact Logic.I;
  intros t X; first [discriminate X | injection X as <-; split; [vm_compute; discriminate|reflexivity]].
Theorem C13_refuted : ~ C13_statement.
Proof.
  intros S.
  destruct (arun p0 (astart 512 1048576) stalled) as [(s, out)|] eqn:E; [|vm_compute in E; discriminate E].
  destruct (S p0 every20 2 1 10 512%Z 1048576%Z stalled s out) as (X & _); auto.
  - reflexivity.
  - vm_compute. discriminate.
  - split; intros; unfold every20; [lia|].
    pose proof (N.div_mod' t1 20). pose proof (N.div_mod' t2 20).
    pose proof (N.mod_lt t1 20). pose proof (N.mod_lt t2 20). lia.
  - intros rv hs t I. cbn in I. repeat (destruct I as [I|I]; [try discriminate I; try (injection I as <- <- <-; reflexivity)|]). destruct I.
  - unfold stalled; cktac.
  - split.
    + intros rv d t I _. cbn in I. repeat (destruct I as [I|I]; [try discriminate I; try (injection I as <- <- <-; vm_compute; auto)|]). destruct I.
    + intros hs t I _ _. cbn in I. repeat (destruct I as [I|I]; [try discriminate I; try (injection I as <- <-; split; [vm_compute; discriminate|exists 104; vm_compute; split; [discriminate|reflexivity]])|]). destruct I.
  - split.
    + intros rv l mm I _. cbn in I. repeat (destruct I as [I|I]; [try discriminate I; try (injection I as <- <- <-; vm_compute; repeat split; discriminate)|]). destruct I.
    + intros fl I. cbn in I. repeat (destruct I as [I|I]; [discriminate I|]). destruct I.
  - vm_compute in E. injection E as _ <-. discriminate X.
Qed.

(* hypotheses of the partial theorem can be met: the owner is seen to renew, and
   the acquire ends with IDLIVE *)
Definition waiting : list ainput :=
  [IDelta 1 (dL 140) 121; ISleep false 1 curL; INow 120; IDelta 1 (dL 120) 119;
   IHostInfo 0 hs0 118; ILsDisk 0 0; IRead 1 curL 0].
Example C13_nonvacuous :
  clock_ok waiting /\ stall_ok 30 waiting /\ truthful every20 2 1 waiting /\ owned_by 2 1 waiting /\
  exists s, arun p0 (astart 512 1048576) waiting = Some (s, []) /\ as_pc s = PDone SANLK_ACQUIRE_IDLIVE.
Proof.
  split; [unfold waiting; cktac|].
  split; [cbn; repeat split; lia|].
  split.
  { split.
    + intros rv d t I _. cbn in I. repeat (destruct I as [I|I]; [try discriminate I; try (injection I as <- <- <-; vm_compute; auto)|]). destruct I.
    + intros hs t I _ _. cbn in I. repeat (destruct I as [I|I]; [try discriminate I; try (injection I as <- <-; split; [vm_compute; discriminate|exists 104; vm_compute; split; [discriminate|reflexivity]])|]). destruct I. }
  split.
  { split.
    + intros rv l mm I _. cbn in I. repeat (destruct I as [I|I]; [try discriminate I; try (injection I as <- <- <-; vm_compute; repeat split; discriminate)|]). destruct I.
    + intros fl I. cbn in I. repeat (destruct I as [I|I]; [discriminate I|]). destruct I. }
  eexists. vm_compute. split; reflexivity.
Qed.

Print Assumptions C13_competes_only_with_reason.
Print Assumptions C13_acquired_only_with_reason.
Print Assumptions C13_success_means_owner.
Print Assumptions C13_renewing_owner_kept_partial.
Print Assumptions C13_default_timeouts_partial.
Print Assumptions C13_refuted.
