(* C27: requests never go backwards. *)
From Coq Require Import List NArith ZArith Lia Bool Arith ZifyBool ZifyN.
From Verif Require Import Bytes Codec Leader LeaderReadNum Acquire Request.
Import ListNotations.
Open Scope N_scope.

(* ---- specification ---- *)
(* the record a reader finds in a sector *)
Definition stored (sector : bytes) : request := request_record_in (firstn 24 sector).

(* argument values fit their C types *)
Definition args_wf (q : reqargs) : Prop := u64 (q_lver q) /\ u32 (q_force q).

(* the version asked for, given the lease: the one named, or the next one *)
Definition wanted (q : reqargs) (l : leader) (v : N) : Prop :=
  v = q_lver q \/ (q_lver q = 0 /\ q_next q = true /\ v = l_lver l + 1).

(* Full claim: when the sector's record changes, the new record asks for a
   strictly newer version than the old record, newer than the lease's version
   (or, when forced, equal to it) *)
Definition C27_statement : Prop :=
  forall q lead rd_rv sector junk w rv owner sector',
    leader_wf (snd lead) -> args_wf q -> length junk = 24%nat -> wout_ok w ->
    request_token q lead rd_rv sector junk w = (rv, owner, sector') ->
    stored sector' <> stored sector ->
    rr_lver (stored sector) < rr_lver (stored sector') /\
    (l_lver (snd lead) < rr_lver (stored sector') \/
     (rr_force_mode (stored sector') <> 0 /\ rr_lver (stored sector') = l_lver (snd lead))).

Lemma stored_read s : paxos_lease_request_read s = stored s.
Proof. unfold paxos_lease_request_read, stored, get. cbn [skipn]. reflexivity. Qed.

Lemma le_dec_u32 e : all_bytes e -> length e = 4%nat -> u32 (le_dec e).
Proof. intros A L. unfold u32. pose proof (le_dec_bound e A) as B. rewrite L in B. exact B. Qed.

(* what a written record is *)
Lemma decide_inr q lv rd r :
  request_decide q lv rd = inr r ->
  (0 <= fst rd)%Z /\
  rr_magic (snd rd) = REQ_DISK_MAGIC /\ N.land (rr_version (snd rd)) 0xFFFF0000 = REQ_DISK_VERSION_MAJOR /\
  ((lv = 0 /\ q_force q = 0) \/ rr_lver (snd rd) <= lv) /\
  r = {| rr_magic := REQ_DISK_MAGIC; rr_version := 0x00010001; rr_lver := lv; rr_force_mode := q_force q |}.
Proof.
  unfold request_decide. destruct rd as [rv req]. cbn [fst snd]. intros H.
  destruct (rv <? 0)%Z eqn:E0; [discriminate H|].
  destruct (negb (rr_magic req =? REQ_DISK_MAGIC)) eqn:E1; [discriminate H|].
  destruct (negb (N.land (rr_version req) 0xFFFF0000 =? REQ_DISK_VERSION_MAJOR)) eqn:E2; [discriminate H|].
  destruct (negb ((lv =? 0) && (q_force q =? 0)) && (lv <? rr_lver req)) eqn:E3; [discriminate H|].
  injection H as <-.
  apply negb_false_iff, N.eqb_eq in E1. apply negb_false_iff, N.eqb_eq in E2.
  split; [lia|]. split; [assumption|]. split; [assumption|]. split; [lia|].
  rewrite E1. reflexivity.
Qed.

Lemma start_go q lead lv owner :
  request_start q lead = ReqGo lv owner ->
  (q_lver q = 0 /\ q_force q = 0 /\ lv = 0) \/
  ((0 <= fst lead)%Z /\ l_timestamp (snd lead) <> 0 /\ l_lver (snd lead) < lv /\ owner = l_owner_id (snd lead) /\
   (lv = q_lver q \/ (q_lver q = 0 /\ q_next q = true /\ lv = (l_lver (snd lead) + 1) mod 2 ^ 64))).
Proof.
  unfold request_start, is_clear. destruct lead as [rv l]. cbn [fst snd]. intros H.
  destruct ((q_lver q =? 0) && (q_force q =? 0)) eqn:E0.
  { injection H as <- <-. left. lia. }
  destruct (rv <? 0)%Z eqn:E1; [discriminate H|].
  destruct (l_timestamp l =? LEASE_FREE) eqn:E2; [discriminate H|].
  destruct ((q_lver q =? 0) && q_next q) eqn:E3; cbn [andb] in H.
  - destruct ((l_lver l + 1) mod 2 ^ 64 <=? l_lver l) eqn:E4; [discriminate H|].
    injection H as <- <-. right. unfold LEASE_FREE in *.
    apply andb_true_iff in E3. destruct E3 as [E3 E5]. apply N.eqb_eq in E3.
    split; [lia|]. split; [lia|]. split; [lia|]. split; [reflexivity|]. right. auto.
  - destruct (q_lver q <=? l_lver l) eqn:E4; [discriminate H|].
    injection H as <- <-. right. unfold LEASE_FREE in *.
    split; [lia|]. split; [lia|]. split; [lia|]. split; [reflexivity|]. left. reflexivity.
Qed.

Lemma lver_u64 q l lv :
  args_wf q ->
  (lv = q_lver q \/ (q_lver q = 0 /\ q_next q = true /\ lv = (l_lver l + 1) mod 2 ^ 64)) -> u64 lv.
Proof.
  intros (U & _) [->|(_ & _ & ->)]; [assumption|]. unfold u64. apply N.mod_lt. discriminate.
Qed.

Lemma next_exact q l lv :
  u64 (l_lver l) -> l_lver l < lv ->
  (lv = q_lver q \/ (q_lver q = 0 /\ q_next q = true /\ lv = (l_lver l + 1) mod 2 ^ 64)) -> wanted q l lv.
Proof.
  unfold wanted, u64. intros U L [->|(A & B & ->)]; [auto|]. right. split; [auto|]. split; [auto|].
  destruct (N.eq_dec (l_lver l + 1) (2 ^ 64)) as [E|E].
  { rewrite E, N.mod_same in L by discriminate. lia. }
  apply N.mod_small. lia.
Qed.

(* What holds: a request that is not interleaved with another either leaves the
   sector alone, or writes the record asked for.  It then either was the explicit
   clear request (no version and no mode), or it asks for a version newer than
   that of a lease which is held, and not older than the stored request.  The
   full claim differs in the equal version and in the clear request. *)
Theorem C27_not_backwards_partial :
  forall q lead rd_rv sector junk w rv owner sector',
    leader_wf (snd lead) -> args_wf q -> length junk = 24%nat -> wout_ok w ->
    request_token q lead rd_rv sector junk w = (rv, owner, sector') ->
    sector' = sector \/
    (rr_magic (stored sector) = 0x08292011 /\ N.land (rr_version (stored sector)) 0xFFFF0000 = 0x00010000 /\
     rr_magic (stored sector') = 0x08292011 /\ N.land (rr_version (stored sector')) 0xFFFF0000 = 0x00010000 /\
     rr_force_mode (stored sector') = q_force q /\
     ((q_lver q = 0 /\ q_force q = 0 /\ rr_lver (stored sector') = 0) \/
      (wanted q (snd lead) (rr_lver (stored sector')) /\
       (0 <= fst lead)%Z /\ l_timestamp (snd lead) <> 0 /\
       l_lver (snd lead) < rr_lver (stored sector') /\
       rr_lver (stored sector) <= rr_lver (stored sector')))).
Proof.
  intros q lead rd_rv sector junk w rv owner sector' Wl Wq J Wo H.
  unfold request_token in H.
  destruct (request_start q lead) as [rv0 o0|lv o0] eqn:Es; [injection H as <- <- <-; auto|].
  destruct (request_decide q lv _) as [rv1|r] eqn:Ed; [injection H as <- <- <-; auto|].
  destruct (wo_landed w); [|injection H as _ _ <-; auto].
  injection H as _ _ <-. right.
  apply decide_inr in Ed. cbn [fst snd] in Ed. destruct Ed as (D0 & D1 & D2 & D3 & ->).
  rewrite stored_read in D1, D2, D3.
  apply start_go in Es.
  assert (Ul : u64 lv).
  { destruct Es as [(_ & _ & ->)|(_ & _ & _ & _ & X)]; [reflexivity|]. exact (lver_u64 q _ lv Wq X). }
  rewrite <- !stored_read, request_sector_read; [|unfold request_wf; cbn; unfold args_wf in Wq; repeat split; try reflexivity; tauto|exact J].
  cbn [rr_magic rr_version rr_force_mode rr_lver].
  rewrite stored_read.
  split; [exact D1|]. split; [exact D2|]. split; [reflexivity|]. split; [reflexivity|]. split; [reflexivity|].
  destruct Es as [(A & B & C)|(A & B & C & _ & X)]; [left; auto|]. right.
  split. { apply next_exact; auto. unfold leader_wf in Wl. tauto. }
  split; [exact A|]. split; [exact B|]. split; [exact C|]. lia.
Qed.

(* a request that fails before its write leaves the sector untouched; a request
   whose write fails either did that or had passed all checks *)
Theorem C27_failure_leaves_record :
  forall q lead rd_rv sector junk w rv owner sector',
    wo_landed w = false \/ (0 <= wo_rv w)%Z ->
    request_token q lead rd_rv sector junk w = (rv, owner, sector') -> (rv < 0)%Z -> sector' = sector.
Proof.
  intros q lead rd_rv sector junk w rv owner sector' Wo H N0.
  unfold request_token in H.
  destruct (request_start q lead) as [rv0 o0|lv o0]; [injection H as _ _ <-; auto|].
  destruct (request_decide q lv _) as [rv1|r]; [injection H as _ _ <-; auto|].
  destruct (wo_landed w); [|injection H as _ _ <-; auto].
  destruct Wo as [Wo|Wo]; [discriminate Wo|].
  injection H as <- _ _. destruct (wo_rv w <? 0)%Z eqn:E; [lia|]. unfold SANLK_OK in N0. lia.
Qed.

(* the requests that must be refused are refused: an old version, and a version
   older than the one already requested *)
Theorem C27_stale_refused :
  forall q lead rd_rv sector junk w,
    (0 <= fst lead)%Z -> l_timestamp (snd lead) <> 0 -> q_lver q <> 0 ->
    q_lver q <= l_lver (snd lead) \/ q_lver q < rr_lver (stored sector) ->
    (fst (fst (request_token q lead rd_rv sector junk w)) < 0)%Z /\
    snd (request_token q lead rd_rv sector junk w) = sector.
Proof.
  intros q lead rd_rv sector junk w A B C D.
  unfold request_token, request_start, is_clear.
  replace (q_lver q =? 0) with false by lia. cbn [andb].
  replace (fst lead <? 0)%Z with false by lia.
  unfold LEASE_FREE. replace (l_timestamp (snd lead) =? 0) with false by lia.
  destruct (q_lver q <=? l_lver (snd lead)) eqn:E; [cbn; unfold SANLK_REQUEST_OLD; split; [lia|reflexivity]|].
  unfold request_decide. cbn [fst snd]. rewrite stored_read.
  destruct (rd_rv <? 0)%Z eqn:E0; [cbn; split; [lia|reflexivity]|].
  destruct (negb (rr_magic _ =? _)); [cbn; unfold SANLK_REQUEST_MAGIC; split; [lia|reflexivity]|].
  destruct (negb (N.land _ _ =? _)); [cbn; unfold SANLK_REQUEST_VERSION; split; [lia|reflexivity]|].
  replace (q_lver q =? 0) with false by lia. cbn [andb negb].
  replace (q_lver q <? rr_lver (stored sector)) with true by lia.
  cbn. unfold SANLK_REQUEST_LVER. split; [lia|reflexivity].
Qed.

(* and a proper one is stored *)
Theorem C27_new_request_stored :
  forall q lead rd_rv sector junk w,
    leader_wf (snd lead) -> args_wf q -> length junk = 24%nat ->
    (0 <= fst lead)%Z -> l_timestamp (snd lead) <> 0 -> (0 <= rd_rv)%Z -> wout_ok w -> (0 <= wo_rv w)%Z ->
    rr_magic (stored sector) = 0x08292011 -> N.land (rr_version (stored sector)) 0xFFFF0000 = 0x00010000 ->
    l_lver (snd lead) < q_lver q -> rr_lver (stored sector) <= q_lver q ->
    fst (request_token q lead rd_rv sector junk w) = (1%Z, l_owner_id (snd lead)) /\
    rr_lver (stored (snd (request_token q lead rd_rv sector junk w))) = q_lver q /\
    rr_force_mode (stored (snd (request_token q lead rd_rv sector junk w))) = q_force q.
Proof.
  intros q lead rd_rv sector junk w Wl Wq J A B R Wo Ww M V L1 L2.
  unfold request_token, request_start, is_clear.
  replace (q_lver q =? 0) with false by lia. cbn [andb].
  replace (fst lead <? 0)%Z with false by lia.
  unfold LEASE_FREE. replace (l_timestamp (snd lead) =? 0) with false by lia.
  replace (q_lver q <=? l_lver (snd lead)) with false by lia.
  unfold request_decide. cbn [fst snd]. rewrite stored_read.
  replace (rd_rv <? 0)%Z with false by lia.
  unfold REQ_DISK_MAGIC, REQ_DISK_VERSION_MAJOR. rewrite M, V, !N.eqb_refl. cbn [negb].
  replace (q_lver q =? 0) with false by lia. cbn [andb negb].
  replace (q_lver q <? rr_lver (stored sector)) with false by lia.
  replace (wo_rv w <? 0)%Z with false by lia. rewrite (Wo Ww).
  cbn [fst snd]. split; [reflexivity|].
  rewrite <- stored_read, request_sector_read; [cbn; auto| |exact J].
  unfold request_wf, args_wf in *. cbn. repeat split; try reflexivity; tauto.
Qed.

(* success means that the lease was free, or that the record on disk is the one asked for *)
Theorem C27_success_means_stored :
  forall q lead rd_rv sector junk w owner sector',
    leader_wf (snd lead) -> args_wf q -> length junk = 24%nat -> wout_ok w ->
    request_token q lead rd_rv sector junk w = (1%Z, owner, sector') ->
    ((0 <= fst lead)%Z /\ l_timestamp (snd lead) = 0 /\ sector' = sector) \/
    (exists v, (v = q_lver q \/ v = (l_lver (snd lead) + 1) mod 2 ^ 64) /\
       rr_lver (stored sector') = v /\ rr_force_mode (stored sector') = q_force q /\ (0 <= wo_rv w)%Z).
Proof.
  intros q lead rd_rv sector junk w owner sector' Wl Wq J Wo H. unfold request_token in H.
  destruct (request_start q lead) as [rv ow|lv ow] eqn:ES.
  - inversion H; subst. left. unfold request_start in ES. destruct (is_clear q); [discriminate|].
    destruct (fst lead <? 0)%Z eqn:EL; [inversion ES; lia|]. cbn zeta in ES.
    destruct (l_timestamp (snd lead) =? LEASE_FREE) eqn:ET; [split; [lia|split; [unfold LEASE_FREE in ET; lia|reflexivity]]|].
    match type of ES with (if ?b then _ else _) = _ => destruct b end; inversion ES.
  - destruct (request_decide q lv (rd_rv, paxos_lease_request_read sector)) as [rv|rec] eqn:ED.
    + exfalso. inversion H; subst. unfold request_decide in ED. cbn [fst snd] in ED.
      repeat match type of ED with (if ?b then _ else _) = _ => destruct b eqn:? end; inversion ED; lia.
    + right. destruct (wo_rv w <? 0)%Z eqn:EW; [inversion H; lia|]. rewrite (Wo ltac:(lia)) in H. inversion H; subst.
      exists lv. split.
      * unfold request_start in ES. destruct (is_clear q); [inversion ES; left; reflexivity|].
        destruct (fst lead <? 0)%Z; [discriminate|]. cbn zeta in ES. destruct (l_timestamp (snd lead) =? LEASE_FREE); [discriminate|].
        match type of ES with (if ?b then _ else _) = _ => destruct b end; inversion ES.
        destruct ((q_lver q =? 0) && q_next q); [right|left]; reflexivity.
      * assert (LV : u64 lv).
        { unfold request_start in ES. destruct (is_clear q); [inversion ES; subst; apply Wq|].
          destruct (fst lead <? 0)%Z; [discriminate|]. cbn zeta in ES. destruct (l_timestamp (snd lead) =? LEASE_FREE); [discriminate|].
          match type of ES with (if ?b then _ else _) = _ => destruct b end; inversion ES.
          destruct ((q_lver q =? 0) && q_next q); [unfold u64; apply N.mod_lt; discriminate|apply Wq]. }
        assert (RC : rr_lver rec = lv /\ rr_force_mode rec = q_force q /\ request_wf rec).
        { unfold request_decide in ED. cbn [fst snd] in ED.
          destruct (rd_rv <? 0)%Z; [discriminate|].
          generalize dependent (paxos_lease_request_read sector). intros rq ED.
          destruct (rr_magic rq =? REQ_DISK_MAGIC) eqn:EM; [|discriminate]. cbn [negb] in ED.
          repeat match type of ED with (if ?b then _ else _) = _ => destruct b end; inversion ED. subst rec. cbn.
          split; [reflexivity|]. split; [reflexivity|]. apply N.eqb_eq in EM. unfold request_wf. cbn. rewrite EM. unfold args_wf in Wq.
          repeat split; try reflexivity; tauto. }
        destruct RC as (R1 & R2 & R3). rewrite <- stored_read, request_sector_read; [|exact R3|exact J]. repeat split; auto. lia.
Qed.

(* several hosts at once: whatever the interleaving, the record on disk is the
   initial one, a cleared one, or asks for a version that was newer than the held
   lease's version when the requester looked; the version of the lease in the
   past is bounded by the present one, so nothing is claimed about the present *)
Definition from_request (l0 : leader) (r : request) : Prop :=
  (rr_lver r = 0 /\ rr_force_mode r = 0) \/ l_lver l0 < rr_lver r.

Theorem C27_concurrent_partial :
  forall es s s',
    (forall h, y_pc s h = RqIdle) ->
    yrun s es = Some s' ->
    y_req s' = y_req s \/ from_request (y_lead s) (y_req s').
Proof.
  intros es s s' I0 H.
  assert (G : forall es t, l_lver (y_lead s) <= l_lver (y_lead t) ->
             (y_req t = y_req s \/ from_request (y_lead s) (y_req t)) ->
             (forall h q lv, y_pc t h = RqLead q lv -> (lv = 0 /\ q_force q = 0) \/ l_lver (y_lead s) < lv) ->
             (forall h r, y_pc t h = RqWrite r -> from_request (y_lead s) r) ->
             yrun t es = Some s' -> y_req s' = y_req s \/ from_request (y_lead s) (y_req s')).
  { clear es H. induction es as [|e es IH]; intros t L1 L2 L3 L4 H; cbn [yrun] in H; [injection H as <-; exact L2|].
    destruct (ystep t e) as [t'|] eqn:Es; [|discriminate H].
    revert H. apply IH; clear IH.
    - unfold ystep in Es. destruct e as [h q|h|h landed|l].
      + destruct (y_pc t h); try discriminate Es. destruct (request_start q _); injection Es as <-; exact L1.
      + destruct (y_pc t h); try discriminate Es. destruct (request_decide _ _ _); injection Es as <-; exact L1.
      + destruct (y_pc t h); try discriminate Es. injection Es as <-; exact L1.
      + destruct (l_lver (y_lead t) <=? l_lver l) eqn:E; [|discriminate Es]. injection Es as <-. cbn. lia.
    - unfold ystep in Es. destruct e as [h q|h|h landed|l].
      + destruct (y_pc t h); try discriminate Es. destruct (request_start q _); injection Es as <-; exact L2.
      + destruct (y_pc t h); try discriminate Es. destruct (request_decide _ _ _); injection Es as <-; exact L2.
      + destruct (y_pc t h) eqn:Ep; try discriminate Es. injection Es as <-. cbn.
        destruct landed; [right; exact (L4 _ _ Ep)|exact L2].
      + destruct (l_lver (y_lead t) <=? l_lver l) eqn:E; [|discriminate Es]. injection Es as <-. exact L2.
    - unfold ystep in Es. destruct e as [h q|h|h landed|l].
      + destruct (y_pc t h) eqn:Ep; try discriminate Es. destruct (request_start q _) eqn:Er; injection Es as <-; [exact L3|].
        intros h' q' lv'. cbn. unfold yupd. destruct (Nat.eqb h' h); [|apply L3].
        intros X; injection X as <- <-. apply start_go in Er. cbn [snd fst] in Er.
        destruct Er as [(_ & A & ->)|(_ & _ & A & _)]; [left; auto|right; lia].
      + destruct (y_pc t h) eqn:Ep; try discriminate Es. destruct (request_decide _ _ _); injection Es as <-;
          intros h' q' lv'; cbn; unfold yupd; destruct (Nat.eqb h' h); try (intros X; discriminate X); apply L3.
      + destruct (y_pc t h) eqn:Ep; try discriminate Es. injection Es as <-.
        intros h' q' lv'; cbn; unfold yupd; destruct (Nat.eqb h' h); try (intros X; discriminate X); apply L3.
      + destruct (l_lver (y_lead t) <=? l_lver l) eqn:E; [|discriminate Es]. injection Es as <-. exact L3.
    - unfold ystep in Es. destruct e as [h q|h|h landed|l].
      + destruct (y_pc t h) eqn:Ep; try discriminate Es. destruct (request_start q _) eqn:Er; injection Es as <-; [exact L4|].
        intros h' r'; cbn; unfold yupd; destruct (Nat.eqb h' h); try (intros X; discriminate X); apply L4.
      + destruct (y_pc t h) eqn:Ep; try discriminate Es. destruct (request_decide _ _ _) eqn:Ed; injection Es as <-;
          intros h' r'; cbn; unfold yupd; destruct (Nat.eqb h' h); try (intros X; discriminate X); try apply L4.
        intros X; injection X as <-. apply decide_inr in Ed. destruct Ed as (_ & _ & _ & _ & ->).
        unfold from_request; cbn. destruct (L3 _ _ _ Ep) as [[-> ->]|A]; auto.
      + destruct (y_pc t h) eqn:Ep; try discriminate Es. injection Es as <-.
        intros h' r'; cbn; unfold yupd; destruct (Nat.eqb h' h); try (intros X; discriminate X); apply L4.
      + destruct (l_lver (y_lead t) <=? l_lver l) eqn:E; [|discriminate Es]. injection Es as <-. exact L4. }
  apply (G es s); auto; try lia.
  - intros h q lv X. rewrite I0 in X. discriminate X.
  - intros h r X. rewrite I0 in X. discriminate X.
Qed.

(* ---- concrete cases ---- *)
Definition lead5 : leader :=
  {| l_magic := 0x06152010; l_version := 0x00060004; l_flags := 0; l_sector_size := 512;
     l_num_hosts := 2000; l_max_hosts := 2000; l_owner_id := 3; l_owner_generation := 1; l_lver := 5;
     l_space_name := repeat 65 48; l_resource_name := repeat 66 48;
     l_timestamp := 100; l_unused1 := 0; l_checksum := 0; l_unused2 := 0; l_io_timeout := 10;
     l_write_id := 3; l_write_generation := 1; l_write_timestamp := 100 |}.
Definition junk24 : bytes := repeat 7 24.
Definition rec0 (v f : N) : request :=
  {| rr_magic := 0x08292011; rr_version := 0x00010001; rr_lver := v; rr_force_mode := f |}.
Definition sect (v f : N) : bytes := request_sector junk24 (rec0 v f) 512.

Lemma lead5_wf : leader_wf lead5.
Proof. unfold leader_wf, lead5, u16, u32, u64, all_bytes; cbn -[N.pow repeat]. repeat split; try reflexivity; try (apply Forall_forall; intros x Hx; apply repeat_spec in Hx; subst; reflexivity). Qed.

(* hypotheses of the theorems above are met by a request for version 7 on a lease
   at version 5 with version 6 already requested; and the record changes *)
Example C27_nonvacuous :
  leader_wf lead5 /\ args_wf (mkReqargs 7 1 false) /\ wout_ok (mkWout 1 true) /\
  (rr_lver (stored (sect 6 2)), rr_force_mode (stored (sect 6 2))) = (6, 2) /\
  fst (request_token (mkReqargs 7 1 false) (1%Z, lead5) 1 (sect 6 2) junk24 (mkWout 1 true)) = (1%Z, 3) /\
  (let r := stored (snd (request_token (mkReqargs 7 1 false) (1%Z, lead5) 1 (sect 6 2) junk24 (mkWout 1 true))) in
   (rr_lver r, rr_force_mode r)) = (7, 1) /\
  fst (request_token (mkReqargs 0 1 true) (1%Z, lead5) 1 (sect 6 2) junk24 (mkWout 1 true)) = (1%Z, 3) /\
  fst (request_token (mkReqargs 5 1 false) (1%Z, lead5) 1 (sect 6 2) junk24 (mkWout 1 true)) = (SANLK_REQUEST_OLD, 3).
Proof.
  split; [exact lead5_wf|]. split; [split; reflexivity|]. split; [intros _; reflexivity|].
  repeat (split; [vm_compute; reflexivity|]). vm_compute; reflexivity.
Qed.

(* the full claim fails: a request for the version already requested replaces the
   force mode (here a forced request is replaced by one with no mode), and a clear
   request resets the version *)
Theorem C27_refuted : ~ C27_statement.
Proof.
  intros H.
  specialize (H (mkReqargs 7 0 false) (1%Z, lead5) 1%Z (sect 7 1) junk24 (mkWout 1 true) 1%Z 3
                (sect 7 0) lead5_wf).
  assert (X : rr_lver (stored (sect 7 1)) < rr_lver (stored (sect 7 0))).
  { apply H.
    - split; reflexivity.
    - reflexivity.
    - intros _; reflexivity.
    - vm_compute; reflexivity.
    - intros E. apply (f_equal rr_force_mode) in E. revert E. vm_compute. discriminate. }
  revert X. vm_compute. discriminate.
Qed.

Theorem C27_clear_resets :
  exists sector', request_token (mkReqargs 0 0 false) (1%Z, lead5) 1 (sect 7 1) junk24 (mkWout 1 true) = (1%Z, 0, sector') /\
    rr_lver (stored (sect 7 1)) = 7 /\ rr_lver (stored sector') = 0.
Proof. eexists. split; [vm_compute; reflexivity|]. split; vm_compute; reflexivity. Qed.

(* and two interleaved requests make the stored version go down *)
Theorem C27_race_goes_back :
  let s0 := mkRsys lead5 (rec0 0 0) (fun _ => RqIdle) in
  let es := [YStart 1 (mkReqargs 6 1 false); YRead 1; YStart 2 (mkReqargs 9 1 false); YRead 2; YWrite 2 true; YWrite 1 true] in
  exists s1 s2, yrun s0 (firstn 5 es) = Some s1 /\ yrun s0 es = Some s2 /\ rr_lver (y_req s1) = 9 /\ rr_lver (y_req s2) = 6.
Proof.
  cbv zeta. eexists. eexists. split; [cbn; reflexivity|]. split; [cbn; reflexivity|]. split; reflexivity.
Qed.

Print Assumptions C27_not_backwards_partial.
Print Assumptions C27_failure_leaves_record.
Print Assumptions C27_stale_refused.
Print Assumptions C27_new_request_stored.
Print Assumptions C27_success_means_stored.
Print Assumptions C27_concurrent_partial.
Print Assumptions C27_refuted.
Print Assumptions C27_clear_resets.
Print Assumptions C27_race_goes_back.
