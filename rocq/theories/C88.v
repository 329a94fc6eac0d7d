(* C88: the loss of the host id lease is noticed. *)
From Coq Require Import List NArith ZArith Lia Bool Arith ZifyBool ZifyN.
From Verif Require Import Bytes Crc Codec Leader LeaderReadNum Acquire DeltaRenew Timeouts C19 LeaseCheck.
Import ListNotations.

(* ---- specification ---- *)
(* the results that say that the record on disk is not the one this host has written: not owner, differs, magic,
   version, sector size, lockspace name, checksum (src/sanlock_rv.h) *)
Definition lease_lost (r : Z) : Prop := In r [-260; -261; -223; -224; -225; -226; -229]%Z.

(* the time of the latest success: of the join, or of a renewal that reported SANLK_OK (1) *)
Fixpoint latest (ts0 : N) (evs : list lev) : N :=
  match evs with
  | [] => ts0
  | Pub r ts _ :: r' => latest (if (r =? 1)%Z then ts else ts0) r'
  | _ :: r' => latest ts0 r'
  end.

(* the clock does not run backwards and 2^31 seconds do not pass without a success *)
Definition clock_ok (ts0 : N) (evs : list lev) : Prop :=
  forall a now b, evs = a ++ Chk now :: b -> (latest ts0 a <= now)%N /\ (now < latest ts0 a + 2 ^ 31)%N.

(* a check finds the lease lost, or without a renewal for 8 I/O timeouts *)
Definition bad_check (io : Z) (ts0 : N) (a : list lev) (now : N) : Prop :=
  (exists r ts rd, In (Pub r ts rd) a /\ lease_lost r) \/ (Z.of_N (latest ts0 a) + 8 * io <= Z.of_N now)%Z.

Lemma corrupt_lost r : corrupt_result r <> 0%Z <-> lease_lost r.
Proof.
  unfold corrupt_result, lease_lost, SANLK_RENEW_OWNER, SANLK_RENEW_DIFF, SANLK_LEADER_MAGIC, SANLK_LEADER_VERSION,
    SANLK_LEADER_SECTORSIZE, SANLK_LEADER_LOCKSPACE, SANLK_LEADER_CHECKSUM. cbn [In].
  repeat match goal with |- context[if ?b then _ else _] => destruct b eqn:? end; lia.
Qed.

Lemma lrun_app io s a b : lrun io s (a ++ b) = lrun io (lrun io s a) b.
Proof. apply fold_left_app. Qed.

Lemma latest_app a : forall ts0 b, latest ts0 (a ++ b) = latest (latest ts0 a) b.
Proof. induction a as [|[r ts rd|now] a IH]; intros ts0 b; cbn [app latest]; auto. Qed.

Lemma run_last io evs : forall s, s_last (lrun io s evs) = latest (s_last s) evs.
Proof.
  induction evs as [|[r ts rd|now] evs IH]; intros s; cbn [latest]; [reflexivity| |].
  - change (lrun io s (Pub r ts rd :: evs)) with (lrun io (publish s r ts rd) evs). rewrite IH.
    unfold publish, SANLK_OK. destruct rd; reflexivity.
  - change (lrun io s (Chk now :: evs)) with (lrun io (check io s now) evs). rewrite IH. f_equal.
    unfold check. destruct (s_killed s); [reflexivity|].
    match goal with |- context[if ?b then mkL _ _ _ _ _ true _ else _] => destruct b end; reflexivity.
Qed.

Lemma run_corrupt io evs : forall s,
  s_corrupt (lrun io s evs) <> 0%Z <-> s_corrupt s <> 0%Z \/ exists r ts rd, In (Pub r ts rd) evs /\ lease_lost r.
Proof.
  induction evs as [|[r ts rd|now] evs IH]; intros s.
  - cbn [In]. change (lrun io s []) with s. split; [auto|]. intros [H|(r & ts & rd & [] & _)]. exact H.
  - change (lrun io s (Pub r ts rd :: evs)) with (lrun io (publish s r ts rd) evs). rewrite IH.
    assert (C : s_corrupt (publish s r ts rd) <> 0%Z <-> s_corrupt s <> 0%Z \/ lease_lost r).
    { unfold publish. destruct rd; cbn [s_corrupt]; rewrite <- corrupt_lost;
        destruct (r =? SANLK_OK)%Z eqn:E; cbn [negb andb];
        try (assert (r = SANLK_OK) by lia; subst r; cbn; tauto);
        destruct (s_corrupt s =? 0)%Z eqn:F; lia. }
    rewrite C. split.
    + intros [[H|H]|(r' & ts' & rd' & I & L)]; [auto| |]; right.
      * exists r, ts, rd. split; [left; reflexivity|exact H].
      * exists r', ts', rd'. split; [right; exact I|exact L].
    + intros [H|(r' & ts' & rd' & [I|I] & L)]; [auto| |].
      * inversion I; subst. auto.
      * right. exists r', ts', rd'. auto.
  - change (lrun io s (Chk now :: evs)) with (lrun io (check io s now) evs). rewrite IH.
    assert (C : s_corrupt (check io s now) = s_corrupt s).
    { unfold check. destruct (s_killed s); [reflexivity|].
      match goal with |- context[if ?b then mkL _ _ _ _ _ true _ else _] => destruct b end; reflexivity. }
    rewrite C. split; (intros [H|(r' & ts' & rd' & I & L)]; [auto|right; exists r', ts', rd'; split; [|exact L]]).
    + right. exact I.
    + destruct I as [I|I]; [discriminate I|exact I].
Qed.

Lemma killed_stays io evs : forall s, s_killed s = true -> s_killed (lrun io s evs) = true.
Proof.
  induction evs as [|e evs IH]; intros s H; [exact H|].
  change (lrun io s (e :: evs)) with (lrun io (lstep io s e) evs). apply IH.
  destruct e as [r ts rd|now]; cbn [lstep].
  - unfold publish. destruct rd; exact H.
  - unfold check. rewrite H. exact H.
Qed.

Lemma int32_small z : (0 <= z < 2 ^ 31)%Z -> int32 z = z.
Proof. intros H. unfold int32. rewrite Z.mod_small by lia. destruct (2 ^ 31 <=? z)%Z eqn:E; lia. Qed.

Lemma check_killed io s now :
  (0 <= Z.of_N now - Z.of_N (s_last s) < 2 ^ 31)%Z ->
  s_killed (check io s now) = true <->
  s_killed s = true \/ s_corrupt s <> 0%Z \/ (Z.of_N (s_last s) + 8 * io <= Z.of_N now)%Z.
Proof.
  intros H. unfold check, calc_id_renewal_fail_seconds. rewrite int32_small by exact H.
  destruct (s_killed s) eqn:K; [tauto|].
  match goal with |- context[if ?b then mkL _ _ _ _ _ true _ else _] => destruct b eqn:E end; cbn [s_killed].
  - split; [|auto]. intros _. right. lia.
  - split; [discriminate|]. intros [X|X]; [discriminate|]. lia.
Qed.

(* ---- the processes are killed at the first check that finds the lease lost or stale, and never otherwise ---- *)
Theorem C88_killed_iff :
  forall io ts0 evs, clock_ok ts0 evs ->
    s_killed (lrun io (linit ts0) evs) = true <->
    exists a now b, evs = a ++ Chk now :: b /\ bad_check io ts0 a now.
Proof.
  intros io ts0 evs. induction evs as [|e evs IH] using rev_ind; intros C.
  - split; [discriminate|]. intros (a & now & b & E & _). destruct a; discriminate E.
  - assert (C' : clock_ok ts0 evs).
    { intros a now b E. apply (C a now (b ++ [e])). rewrite E, <- app_assoc. reflexivity. }
    specialize (IH C'). rewrite lrun_app. change (lrun io ?s [e]) with (lstep io s e).
    assert (R : (exists a now b, evs ++ [e] = a ++ Chk now :: b /\ bad_check io ts0 a now) <->
                (exists a now b, evs = a ++ Chk now :: b /\ bad_check io ts0 a now) \/
                (exists now, e = Chk now /\ bad_check io ts0 evs now)).
    { split.
      - intros (a & now & b & E & B). destruct b as [|x b] using rev_ind.
        + apply app_inj_tail in E. destruct E as [<- ->]. right. exists now. auto.
        + rewrite app_comm_cons, app_assoc in E. apply app_inj_tail in E. destruct E as [-> _].
          left. exists a, now, b. auto.
      - intros [(a & now & b & -> & B)|(now & -> & B)].
        + exists a, now, (b ++ [e]). rewrite <- app_assoc. auto.
        + exists evs, now, []. auto. }
    rewrite R, <- IH. destruct e as [r ts rd|now].
    + cbn [lstep]. assert (K : s_killed (publish (lrun io (linit ts0) evs) r ts rd) = s_killed (lrun io (linit ts0) evs))
        by (unfold publish; destruct rd; reflexivity).
      rewrite K. split; [auto|]. intros [H|(now & H & _)]; [exact H|discriminate H].
    + cbn [lstep]. destruct (C evs now [] eq_refl) as [C1 C2].
      rewrite check_killed; rewrite run_last; change (s_last (linit ts0)) with ts0; [|lia].
      rewrite (run_corrupt io evs (linit ts0)). change (s_corrupt (linit ts0)) with 0%Z. unfold bad_check.
      split; (intros [H|H]; [left; exact H|right]).
      * exists now. split; [reflexivity|]. destruct H as [[H|H]|H]; [lia|left; exact H|right; exact H].
      * destruct H as (now' & E & [H|H]); injection E as <-; [left; right; exact H|right; exact H].
Qed.

(* ---- every read of a record that is not this host's makes the result of the renewal "lost" ---- *)
(* what a record has to be to be this host's: valid, of this lockspace, with the owner the host joined as *)
Definition ours (space : bytes) (l0 : leader) (e : bytes) : Prop :=
  let l := leader_record_in e in
  delta_verify_leader space l (leader_checksum e) = SANLK_OK /\ same_owner l l0.

Lemma verify_cases space l ck :
  delta_verify_leader space l ck = SANLK_OK \/
  ((delta_verify_leader space l ck < 0)%Z /\ lease_lost (delta_verify_leader space l ck)).
Proof.
  unfold delta_verify_leader.
  repeat match goal with |- context[if ?b then _ else _] => destruct b end; auto; right;
    (split; [reflexivity|]); vm_compute; tauto.
Qed.

Lemma same_owner_trans a b c : same_owner a b -> same_owner b c -> same_owner a c.
Proof. unfold same_owner. intuition congruence. Qed.
Lemma same_owner_sym a b : same_owner a b -> same_owner b a.
Proof. unfold same_owner. intuition congruence. Qed.

Local Opaque leader_checksum leader_bytes leader_record_in crc32c strncmp_eq.

(* one renewal: its result when the read succeeded *)
Lemma renew_result space io ss align bm ex prev last area ts wrv :
  id_in_area (l_owner_id last) ss align ->
  exists res w ret, delta_lease_renew space io ss align bm ex prev last (0%Z, area) ts wrv = Rn res w ret /\
    (~ ours space last (slot area (l_owner_id last) ss) -> lease_lost res) /\
    (forall l, ret = Some l -> same_owner l last).
Proof.
  intros A. destruct (id_fits _ _ _ A) as [Eo Fo].
  destruct (delta_lease_renew space io ss align bm ex prev last (0%Z, area) ts wrv) as [|res w ret] eqn:D.
  { exfalso. revert D. apply C19_offset_check. exact A. }
  exists res, w, ret. split; [reflexivity|].
  destruct w as [w|].
  - pose proof (C19_writes_only_untouched _ _ _ _ _ _ _ _ _ _ _ _ _ _ _ A D) as X. cbv zeta in X.
    destruct X as (_ & X1 & X2 & _ & _ & nl & _ & _ & So & _ & _ & _ & _ & _ & _ & _ & _ & _ & X3 & X4). split.
    + intros N. exfalso. apply N. split; [|exact X2].
      unfold delta_lease_renew in D. rewrite Eo in D. set (off := ((l_owner_id last - 1) * ss)%N) in *.
      destruct (align <? off)%N; [discriminate D|]. cbn [Z.eqb negb] in D.
      destruct (align <? off + N.of_nat LEADER_SIZE)%N; [discriminate D|].
      change (get (N.to_nat off) LEADER_SIZE area) with (slot area (l_owner_id last) ss) in D.
      match type of D with context[(delta_verify_leader ?a ?b ?c <? 0)%Z] => destruct (verify_cases a b c) as [V|[V _]] end;
        [exact V|].
      match type of D with (if ?b then _ else _) = _ => destruct b eqn:E; [discriminate D|] end. lia.
    + intros l ->. destruct (Z.eq_dec res SANLK_OK) as [R|R].
      * specialize (X3 R). injection X3 as ->. exact So.
      * destruct (X4 R) as [_ X]. discriminate X.
  - unfold delta_lease_renew in D. rewrite Eo in D. set (off := ((l_owner_id last - 1) * ss)%N) in *.
    destruct (align <? off)%N eqn:E0; [lia|]. cbn [Z.eqb negb] in D.
    change (N.of_nat LEADER_SIZE) with 200%N in D.
    destruct (align <? off + 200)%N eqn:E1; [lia|].
    change (get (N.to_nat off) LEADER_SIZE area) with (slot area (l_owner_id last) ss) in D.
    match type of D with context[(delta_verify_leader ?a ?b ?c <? 0)%Z] => destruct (verify_cases a b c) as [V|[V V']] end.
    + rewrite V in D. cbn [Z.ltb Z.compare SANLK_OK] in D.
      match type of D with (if ?b then _ else _) = _ => destruct b eqn:E2 end.
      { injection D as <- <-. split; [intros _; vm_compute; tauto|discriminate]. }
      match type of D with (if ?b then _ else _) = _ => destruct b eqn:E3 end.
      { injection D as <- <-. split; [intros _; vm_compute; tauto|discriminate]. }
      match type of D with (if ?b then _ else _) = _ => destruct b eqn:E4 end; discriminate D.
    + match type of D with (if ?b then _ else _) = _ => destruct b eqn:E2; [|lia] end.
      injection D as <- <-. split; [intros _; exact V'|discriminate].
Qed.

Lemma renew_no_read space io ss align bm ex prev last rv area ts wrv res w ret :
  rv <> 0%Z -> delta_lease_renew space io ss align bm ex prev last (rv, area) ts wrv = Rn res w ret -> ret = None.
Proof.
  intros H D. unfold delta_lease_renew in D.
  match type of D with (if ?b then _ else _) = _ => destruct b end; [injection D as _ _ <-; reflexivity|].
  destruct (negb (rv =? 0)%Z) eqn:E; [injection D as _ _ <-; reflexivity|lia].
Qed.

(* the i-th result published by the thread *)
Lemma chain_lost space io ss align ins : forall l0 last prev i x,
  id_in_area (l_owner_id l0) ss align -> same_owner last l0 ->
  nth_error ins i = Some x -> r_rv x = 0%Z -> ~ ours space l0 (slot (r_area x) (l_owner_id l0) ss) ->
  exists r ts rd, nth_error (chain space io ss align last prev ins) i = Some (Pub r ts rd) /\ lease_lost r.
Proof.
  induction ins as [|y ins IH]; intros l0 last prev i x A So E Rv N; [destruct i; discriminate E|].
  assert (Oid : l_owner_id last = l_owner_id l0) by apply So.
  assert (A' : id_in_area (l_owner_id last) ss align) by (rewrite Oid; exact A).
  cbn [chain].
  destruct (Z.eq_dec (r_rv y) 0) as [Y|Y].
  - rewrite Y. destruct (renew_result space io ss align (r_bm y) (r_extra y) prev last (r_area y) (r_ts y) (r_wrv y) A')
      as (res & w & ret & D & L1 & L2). rewrite D.
    destruct i as [|i].
    + injection E as ->. cbn [nth_error]. eexists res, _, _. split; [reflexivity|]. apply L1.
      intros [O1 O2]. rewrite Oid in O1, O2. apply N. split; [exact O1|]. eapply same_owner_trans; [exact O2|exact So].
    + cbn [nth_error]. apply (IH l0 _ _ i x A); auto.
      destruct ret as [l|]; [|exact So]. eapply same_owner_trans; [apply L2; reflexivity|exact So].
  - destruct (delta_lease_renew _ _ _ _ _ _ _ _ _ _ _) as [|res w ret] eqn:D.
    { exfalso. revert D. apply C19_offset_check. exact A'. }
    pose proof (renew_no_read _ _ _ _ _ _ _ _ _ _ _ _ _ _ _ Y D) as ->.
    destruct i as [|i]; [injection E as ->; congruence|].
    cbn [nth_error]. apply (IH l0 _ _ i x A); auto.
Qed.

Definition is_pub (e : lev) : bool := match e with Pub _ _ _ => true | Chk _ => false end.

Lemma nth_filter_split : forall (evs : list lev) i p, nth_error (filter is_pub evs) i = Some p ->
  exists a b, evs = a ++ p :: b /\ length (filter is_pub a) = i.
Proof.
  induction evs as [|e evs IH]; intros i p H; [destruct i; discriminate H|].
  cbn [filter] in H. destruct (is_pub e) eqn:E.
  - destruct i as [|i].
    + injection H as ->. exists [], evs. auto.
    + destruct (IH i p H) as (a & b & -> & L). exists (e :: a), b. cbn [app filter]. rewrite E. cbn [length]. auto.
  - destruct (IH i p H) as (a & b & -> & L). exists (e :: a), b. cbn [app filter]. rewrite E. auto.
Qed.

(* Whatever else the renewals meet: when the i-th renewal reads a record that is not this host's, the first check
   after its result is published kills, and the lockspace stays killed. *)
Theorem C88_noticed :
  forall space io ss align l0 ins i x tmo evs a now b,
    id_in_area (l_owner_id l0) ss align ->
    filter is_pub evs = chain space io ss align l0 SANLK_OK ins ->
    nth_error ins i = Some x -> r_rv x = 0%Z -> ~ ours space l0 (slot (r_area x) (l_owner_id l0) ss) ->
    evs = a ++ Chk now :: b -> (i < length (filter is_pub a))%nat -> clock_ok (l_timestamp l0) evs ->
    s_killed (lrun tmo (linit (l_timestamp l0)) evs) = true.
Proof.
  intros space io ss align l0 ins i x tmo evs a now b A F E Rv N Ea Li C.
  apply C88_killed_iff; [exact C|]. exists a, now, b. split; [exact Ea|]. left.
  destruct (chain_lost space io ss align ins l0 l0 SANLK_OK i x A) as (r & ts & rd & P & L); auto.
  { split; [reflexivity|split; reflexivity]. }
  rewrite <- F, Ea, filter_app, nth_error_app1 in P by exact Li.
  exists r, ts, rd. split; [|exact L].
  apply nth_error_In in P. apply filter_In in P. apply P.
Qed.

(* ---- the host itself is no reason to be killed ---- *)
(* What the disk shows at each read: after a write that was answered with success what was written; after a failed
   one that, or what was there before.  Late writes are excluded. *)
Fixpoint alone (space : bytes) (io ss align : N) (cur : bytes) (last : leader) (prev : Z) (ins : list rin) : Prop :=
  match ins with
  | [] => True
  | x :: r =>
    length (r_area x) = N.to_nat align /\ all_bytes (r_area x) /\ length (r_bm x) = HOSTID_BITMAP_SIZE /\ u64 (r_ts x) /\
    (forall a b c, r_extra x = Some (a, b, c) -> u64 a /\ u64 b /\ u64 c) /\
    (r_rv x = 0%Z -> slot (r_area x) (l_owner_id last) ss = cur) /\ r_rv x <> 1%Z /\ ~ lease_lost (r_rv x) /\ ~ lease_lost (r_wrv x) /\
    match delta_lease_renew space io ss align (r_bm x) (r_extra x) prev last (r_rv x, r_area x) (r_ts x) (r_wrv x) with
    | RnUb => True
    | Rn res w ret =>
      exists cur',
        (match w with
         | None => cur' = cur
         | Some (_, sec) => cur' = firstn 200 sec \/ (res <> SANLK_OK /\ cur' = cur)
         end) /\
        alone space io ss align cur' (match ret with Some l => l | None => last end) res r
    end
  end.

Lemma sector_shows space io ss bm ex last ts e :
  (512 <= ss)%N -> length bm = HOSTID_BITMAP_SIZE -> u16 io -> u64 ts ->
  (forall a b c, ex = Some (a, b, c) -> u64 a /\ u64 b /\ u64 c) ->
  length e = LEADER_SIZE -> all_bytes e -> ours space last e ->
  let nl := renew_record io ts ex (leader_record_in e) in
  let ck := leader_checksum (leader_bytes nl e) in
  let e' := firstn 200 (renew_sector (N.to_nat ss) nl e bm) in
  e' = leader_bytes nl e /\ leader_record_in e' = leader_set_checksum nl ck /\ ours space last e' /\
  same_owner (leader_set_checksum nl ck) last.
Proof.
  intros Hs Hb Uio Uts Uex Le Be [V So] nl ck e'. set (l := leader_record_in e) in *.
  pose proof (leader_in_wf e Le Be) as Wl. fold l in Wl.
  assert (Wn : leader_wf nl).
  { unfold leader_wf in Wl |- *. destruct Wl as (W1&W2&W3&W4&W5&W6&W7&W8&W9&Wa&Wb&W10&W11&W12&W13&W14&W15&W16&W17).
    unfold nl, renew_record.
    cbn [l_magic l_version l_flags l_sector_size l_num_hosts l_max_hosts l_owner_id l_owner_generation l_lver
       l_space_name l_resource_name l_timestamp l_unused1 l_checksum l_unused2 l_io_timeout l_write_id
       l_write_generation l_write_timestamp].
    repeat (split; [assumption|]). split; [reflexivity|]. split; [assumption|]. split.
    - destruct (l_io_timeout l =? io)%N; [assumption|]. change 0xFF%N with (N.ones 8). rewrite N.land_ones. unfold u16 in *.
      apply N.lt_trans with (2 ^ 8)%N; [apply N.mod_lt; lia|reflexivity].
    - destruct ex as [[[a b] c]|]; [|auto]. destruct (Uex _ _ _ eq_refl) as (U1 & U2 & U3). auto. }
  assert (Ee : e' = leader_bytes nl e) by (unfold e'; apply firstn_sector; auto; lia).
  assert (R1 : leader_record_in e' = leader_set_checksum nl ck)
    by (rewrite Ee; apply leader_roundtrip_bytes; auto).
  assert (So' : same_owner (leader_set_checksum nl ck) last).
  { destruct So as (S1 & S2 & S3). split; [exact S1|split; [exact S2|exact S3]]. }
  split; [exact Ee|]. split; [exact R1|]. split; [|exact So'].
  split; rewrite R1; [|exact So']. rewrite Ee. fold ck.
  unfold delta_verify_leader in *.
  change (l_magic (leader_set_checksum nl ck)) with (l_magic l).
  change (l_version (leader_set_checksum nl ck)) with (l_version l).
  change (l_space_name (leader_set_checksum nl ck)) with (l_space_name l).
  change (l_checksum (leader_set_checksum nl ck)) with ck. rewrite N.eqb_refl. cbn [negb].
  fold l in V.
  repeat match type of V with (if ?b then _ else _) = _ => destruct b; [discriminate V|] end. reflexivity.
Qed.

Lemma ours_same space a b e : same_owner a b -> ours space a e -> ours space b e.
Proof. intros S [V O]. split; [exact V|]. eapply same_owner_trans; [exact O|exact S]. Qed.

Lemma alone_fine space io ss align ins : forall cur last prev,
  id_in_area (l_owner_id last) ss align -> (512 <= ss)%N -> u16 io ->
  ours space last cur -> (prev = SANLK_OK -> leader_record_in cur = last) ->
  alone space io ss align cur last prev ins ->
  forall r ts rd, In (Pub r ts rd) (chain space io ss align last prev ins) -> ~ lease_lost r.
Proof.
  induction ins as [|x ins IH]; intros cur last prev A Hs Uio Oc Pc H r ts rd I; [destruct I|].
  cbn [chain alone] in H, I. destruct H as (La & Ba & Hb & Uts & Uex & Rd & Nr1 & Nr & Nw & H).
  destruct (id_fits _ _ _ A) as [Eo Fo].
  destruct (delta_lease_renew _ _ _ _ _ _ _ _ _ _ _) as [|res w ret] eqn:D; [destruct I|].
  destruct H as (cur' & Cw & H).
  unfold delta_lease_renew in D. rewrite Eo in D. set (off := ((l_owner_id last - 1) * ss)%N) in *.
  destruct (align <? off)%N eqn:E0; [lia|].
  destruct (negb (r_rv x =? 0)%Z) eqn:E1.
  { injection D as <- <- <-. subst cur'. destruct I as [I|I].
    - injection I as <- _ _. exact Nr.
    - eapply (IH cur last (r_rv x)); eauto. intros P. exfalso. apply Nr1. exact P. }
  specialize (Rd ltac:(lia)).
  change (N.of_nat LEADER_SIZE) with 200%N in D. destruct (align <? off + 200)%N eqn:E2; [lia|].
  change (get (N.to_nat off) LEADER_SIZE (r_area x)) with (slot (r_area x) (l_owner_id last) ss) in D.
  assert (Lc : length cur = LEADER_SIZE).
  { rewrite <- Rd. unfold slot. apply (get_length _ 200). unfold off in *. lia. }
  assert (Bc : all_bytes cur) by (rewrite <- Rd; apply (all_bytes_get _ 200); exact Ba).
  rewrite Rd in D.
  destruct Oc as [V So]. rewrite V in D. cbn [Z.ltb Z.compare SANLK_OK] in D.
  match type of D with (if ?b then _ else _) = _ => destruct b eqn:E3 end.
  { exfalso. destruct So as (S1 & S2 & S3). rewrite S1, S2, S3, !N.eqb_refl in E3.
    assert (X : bytes_eqb (l_resource_name last) (l_resource_name last) = true) by (apply bytes_eqb_eq; auto).
    rewrite X in E3. discriminate E3. }
  match type of D with (if ?b then _ else _) = _ => destruct b eqn:E4 end.
  { exfalso. rewrite andb_true_iff in E4. destruct E4 as [E4 E5]. rewrite Pc in E5 by (unfold SANLK_OK in *; lia).
    assert (X : leader_eqb last last = true) by (apply leader_eqb_eq; auto). rewrite X in E5. discriminate E5. }
  destruct (sector_shows space io ss (r_bm x) (r_extra x) last (r_ts x) cur Hs Hb Uio Uts Uex Lc Bc (conj V So))
    as (Ee & R1 & Oe & Se).
  set (nl := renew_record io (r_ts x) (r_extra x) (leader_record_in cur)) in *.
  set (ck := leader_checksum (leader_bytes nl cur)) in *.
  destruct (r_wrv x <? 0)%Z eqn:E6.
  - injection D as <- <- <-. destruct I as [I|I].
    + injection I as <- _ _. exact Nw.
    + revert I. apply (IH cur' last (r_wrv x) A Hs Uio); [| |exact H].
      * destruct Cw as [->|[_ ->]]; [exact Oe|split; assumption].
      * intros P. unfold SANLK_OK in P. lia.
  - injection D as <- <- <-. destruct I as [I|I].
    + injection I as <- _ _. vm_compute. intuition discriminate.
    + assert (Oid : l_owner_id (leader_set_checksum nl ck) = l_owner_id last) by apply Se.
      destruct Cw as [->|[X _]]; [|congruence].
      revert I. apply (IH (firstn 200 (renew_sector (N.to_nat ss) nl cur (r_bm x))) (leader_set_checksum nl ck) SANLK_OK); try assumption.
      * rewrite Oid. exact A.
      * eapply ours_same; [|exact Oe]. apply same_owner_sym. exact Se.
      * intros _. exact R1.
Qed.

(* As long as nobody else writes to the slot, a failed write has either happened or not when the next read is done,
   and no 8 I/O timeouts pass without a success, nothing is ever killed. *)
Theorem C88_no_false_alarm_partial :
  forall space io ss align l0 e0 ins tmo evs,
    id_in_area (l_owner_id l0) ss align -> (512 <= ss)%N -> u16 io ->
    delta_verify_leader space l0 (leader_checksum e0) = SANLK_OK -> leader_record_in e0 = l0 ->
    alone space io ss align e0 l0 SANLK_OK ins ->
    filter is_pub evs = chain space io ss align l0 SANLK_OK ins ->
    clock_ok (l_timestamp l0) evs ->
    (forall a now b, evs = a ++ Chk now :: b -> (Z.of_N now < Z.of_N (latest (l_timestamp l0) a) + 8 * tmo)%Z) ->
    s_killed (lrun tmo (linit (l_timestamp l0)) evs) = false.
Proof.
  intros space io ss align l0 e0 ins tmo evs A Hs Uio V E0 Al F C T.
  destruct (s_killed _) eqn:K; [|reflexivity]. exfalso.
  apply C88_killed_iff in K; [|exact C]. destruct K as (a & now & b & E & [(r & ts & rd & I & L)|B]).
  - revert L. apply (alone_fine space io ss align ins e0 l0 SANLK_OK A Hs Uio) with (ts := ts) (rd := rd); auto.
    + split; rewrite E0; [exact V|]. split; [reflexivity|split; reflexivity].
    + rewrite <- F. apply filter_In. split; [|reflexivity]. rewrite E. apply in_or_app. left. exact I.
  - specialize (T a now b E). lia.
Qed.

(* ---- a check that passes hands the newest read to the check of the other hosts, each read at most once ---- *)
Fixpoint newest (o : option bytes) (evs : list lev) : option bytes :=
  match evs with
  | [] => o
  | Pub _ _ (Some b) :: r => newest (Some b) r
  | _ :: r => newest o r
  end.

Lemma newest_run io evs : forall s, forallb is_pub evs = true -> (s_check s <= s_count s)%nat ->
  let s' := lrun io s evs in
  s_check s' = s_check s /\ s_handed s' = s_handed s /\ s_killed s' = s_killed s /\ (s_count s <= s_count s')%nat /\
  newest (if (s_check s <? s_count s)%nat then Some (s_buf s) else None) evs =
    (if (s_check s' <? s_count s')%nat then Some (s_buf s') else None).
Proof.
  induction evs as [|[r ts rd|now] evs IH]; intros s H L; [repeat split; auto| |discriminate H].
  cbn [forallb is_pub andb] in H.
  change (lrun io s (Pub r ts rd :: evs)) with (lrun io (publish s r ts rd) evs). cbn [newest].
  assert (X : s_check (publish s r ts rd) = s_check s /\ s_handed (publish s r ts rd) = s_handed s /\
              s_killed (publish s r ts rd) = s_killed s) by (unfold publish; destruct rd; auto).
  assert (Y : match rd with Some b => s_count (publish s r ts rd) = S (s_count s) /\ s_buf (publish s r ts rd) = b
              | None => s_count (publish s r ts rd) = s_count s /\ s_buf (publish s r ts rd) = s_buf s end)
    by (unfold publish; destruct rd; auto).
  destruct X as (X1 & X2 & X3).
  specialize (IH (publish s r ts rd) H). rewrite X1, X2, X3 in IH.
  destruct rd as [b|]; destruct Y as [Y1 Y2]; rewrite Y1, Y2 in IH; (specialize (IH ltac:(lia))); cbv zeta in IH;
    destruct IH as (I1 & I2 & I3 & I4 & I5); cbv zeta; (split; [exact I1|]); (split; [exact I2|]);
    (split; [exact I3|]); (split; [lia|]).
  - rewrite <- I5. destruct (s_check s <? S (s_count s))%nat eqn:E; [reflexivity|lia].
  - exact I5.
Qed.

Lemma count_le io evs : forall s, (s_check s <= s_count s)%nat -> (s_check (lrun io s evs) <= s_count (lrun io s evs))%nat.
Proof.
  induction evs as [|e evs IH]; intros s H; [exact H|].
  change (lrun io s (e :: evs)) with (lrun io (lstep io s e) evs). apply IH.
  destruct e as [r ts rd|now]; cbn [lstep].
  - unfold publish. destruct rd; cbn [s_check s_count]; lia.
  - unfold check. destruct (s_killed s); [exact H|].
    match goal with |- context[if ?b then mkL _ _ _ _ _ true _ else _] => destruct b end; cbn [s_check s_count];
      destruct (s_check s <? s_count s)%nat eqn:E; lia.
Qed.

Lemma check_caught io s now : s_killed s = false -> (s_check s <= s_count s)%nat ->
  s_check (check io s now) = s_count (check io s now).
Proof.
  intros K L. unfold check. rewrite K.
  match goal with |- context[if ?b then mkL _ _ _ _ _ true _ else _] => destruct b end; cbn [s_check s_count];
    destruct (s_check s <? s_count s)%nat eqn:E; lia.
Qed.

Theorem C88_handed :
  forall io ts0 a pubs now,
    (a = [] \/ exists a' t, a = a' ++ [Chk t]) -> forallb is_pub pubs = true ->
    let s := lrun io (linit ts0) in
    s_killed (s (a ++ pubs ++ [Chk now])) = false ->
    s_handed (s (a ++ pubs ++ [Chk now])) =
      s_handed (s a) ++ match newest None pubs with Some b => [b] | None => [] end.
Proof.
  intros io ts0 a pubs now Ha Hp s K.
  assert (K1 : forall x y, s_killed (s (x ++ y)) = false -> s_killed (s x) = false).
  { intros x y H. unfold s in *. rewrite lrun_app in H. destruct (s_killed (lrun io (linit ts0) x)) eqn:E; [|reflexivity].
    rewrite killed_stays in H by exact E. discriminate H. }
  assert (C : s_check (s a) = s_count (s a)).
  { destruct Ha as [->|(a' & t & ->)]; [reflexivity|]. unfold s. rewrite lrun_app.
    change (lrun io ?x [Chk t]) with (check io x t). apply check_caught.
    - apply (K1 a' ([Chk t] ++ pubs ++ [Chk now])). rewrite <- app_assoc in K. exact K.
    - apply count_le. apply Nat.le_refl. }
  pose proof (K1 (a ++ pubs) [Chk now] ltac:(rewrite <- app_assoc; exact K)) as K2.
  revert K K2. unfold s. rewrite !lrun_app. fold (s a). intros K K2.
  change (lrun io ?x [Chk now]) with (check io x now) in K |- *.
  pose proof (newest_run io pubs (s a) Hp ltac:(lia)) as X. cbv zeta in X.
  destruct X as (X1 & X2 & X3 & X4 & X5). rewrite C, Nat.ltb_irrefl in X5. rewrite X5, X1.
  revert K. unfold check. rewrite K2. rewrite X1.
  match goal with |- context[if ?b then mkL _ _ _ _ _ true _ else _] => destruct b end; cbn [s_killed s_handed]; [discriminate|].
  intros _. rewrite X2. destruct (s_check (s a) <? s_count (lrun io (s a) pubs))%nat; [reflexivity|].
  rewrite app_nil_r. reflexivity.
Qed.

(* ---- when checks are done ---- *)
(* between the passes: check_interval is 200 or 1000, and poll sleeps between 1 and 1000 milliseconds *)
Definition loop_ok (m : mst) : Prop := (m_int m = 1000 \/ m_int m = 200)%Z /\ (1 <= m_poll m <= 1000)%Z.

(* Whatever is done to the wall clock (now and fin are arbitrary): the loop sleeps at most a second, and a pass that
   does not check is followed by one that does, if the wall clock runs normally for the sleep in between (m_poll) and
   no signal ends it. *)
Theorem C88_checks_partial :
  forall m now k fin, loop_ok m ->
    let (c, m') := pass m false now k fin in
    loop_ok m' /\
    (c = false -> forall now' k' fin',
       (m_poll m' * 1000 <= now' - now)%Z -> (now' - now < 2 ^ 31 * 1000)%Z ->
       fst (pass m' false now' k' fin') = true).
Proof.
  intros m now k fin [I P]. unfold pass. destruct (time_diff (m_last m) now <? m_int m)%Z eqn:E.
  - assert (B : (0 <= time_diff (m_last m) now < 2 ^ 32)%Z) by (apply Z.mod_pos_bound; lia).
    split; [split; cbn [m_int m_poll]; [exact I|lia]|]. intros _ now' k' fin' H1 H2. cbn [m_poll m_last m_int] in *.
    destruct (time_diff (m_last m) now' <? m_int m)%Z eqn:E'; [|reflexivity]. exfalso.
    set (ms := time_diff (m_last m) now) in *.
    (* the difference in milliseconds, modulo 2^32 *)
    assert (M : forall b e, time_diff b e = ((e - b) / 1000 mod 2 ^ 32)%Z).
    { intros b e. unfold time_diff. f_equal.
      rewrite (Z.div_mod (e - b) 1000000) at 3 by lia.
      replace (1000000 * ((e - b) / 1000000) + (e - b) mod 1000000)%Z
        with ((e - b) mod 1000000 + ((e - b) / 1000000 * 1000) * 1000)%Z by lia.
      rewrite Z.div_add by lia. lia. }
    assert (Em : ms = ((now - m_last m) / 1000 mod 2 ^ 32)%Z) by apply M.
    rewrite M in E'.
    set (q := ((now - m_last m) / 1000)%Z) in *. set (q' := ((now' - m_last m) / 1000)%Z) in *.
    assert (Q1 : (q + (m_int m - ms) <= q')%Z).
    { unfold q, q'. rewrite <- Z.div_add by lia. apply Z.div_le_mono; lia. }
    assert (Q2 : (q' < q + 2 ^ 31 + 1)%Z).
    { unfold q, q'. replace (2 ^ 31 + 1)%Z with (2147483649)%Z by reflexivity.
      rewrite <- Z.add_assoc || idtac.
      assert ((now' - m_last m) / 1000 <= (now - m_last m + 2 ^ 31 * 1000) / 1000)%Z by (apply Z.div_le_mono; lia).
      rewrite Z.div_add in H by lia. lia. }
    pose proof (Z.div_mod q (2 ^ 32) ltac:(lia)) as D.
    assert (E2 : (q' mod 2 ^ 32 = ms + (q' - q))%Z).
    { symmetry. apply (Z.mod_unique_pos _ _ (q / 2 ^ 32)); lia. }
    rewrite E2 in E'. lia.
  - split; [|discriminate]. split; cbn [m_int m_poll].
    + destruct k; [right|left]; reflexivity.
    + assert (B : (0 <= time_diff now fin < 2 ^ 32)%Z) by (apply Z.mod_pos_bound; lia).
      unfold RECOVERY_CHECK_INTERVAL, STANDARD_CHECK_INTERVAL.
      destruct k; match goal with |- context[if ?b then _ else _] => destruct b eqn:F end; lia.
Qed.

Example C88_start_ok : forall t, loop_ok (mkM t STANDARD_CHECK_INTERVAL STANDARD_CHECK_INTERVAL).
Proof. intros t. split; [left; reflexivity|]. cbn. unfold STANDARD_CHECK_INTERVAL. lia. Qed.

(* Signals: SIGHUP, SIGINT and SIGTERM are caught and end the poll; such a pass checks nothing, however long ago the
   last check was. *)
Fixpoint passes (m : mst) (l : list (bool * Z)) : bool :=
  match l with
  | [] => false
  | (eintr, now) :: r => let (c, m') := pass m eintr now false now in c || passes m' r
  end.
Theorem C88_signals_refuted :
  forall (m : mst) (times : list Z), passes m (map (fun t => (true, t)) times) = false.
Proof. intros m times. revert m. induction times as [|t r IH]; intros m; [reflexivity|]. cbn [map passes pass orb]. apply IH. Qed.

(* ---- check_buf ---- *)
(* no null pointer as long as malloc succeeds *)
Theorem C88_buffer_partial :
  forall l len have, (have = true \/ len = 0%N) -> (forall a ok all, In (a, ok, all) l -> ok = true /\ (0 < a)%N) ->
    exists r, bufs len have l = Some r.
Proof.
  induction l as [|[[a ok] all] l IH]; intros len have H P; [eexists; reflexivity|].
  destruct (P a ok all (or_introl eq_refl)) as [-> Pa]. cbn [bufs].
  destruct (len <? a)%N eqn:E.
  - rewrite andb_false_r. apply IH; [auto|]. intros. eapply P. right. eauto.
  - destruct H as [-> | ->]; [|lia]. rewrite andb_false_r. apply IH; [auto|]. intros. eapply P. right. eauto.
Qed.
(* malloc fails once, at a check without a new read; the next new read is handed over as a null pointer *)
Theorem C88_buffer_refuted :
  bufs 0 false [(1048576, false, false); (1048576, true, true)]%N = None.
Proof. reflexivity. Qed.

(* ---- the full claim about false alarms fails for late writes: a write answered with an error that reaches the disk
   after the next successful one ---- *)
Definition late_ins : list rin :=
  let a0 := ex_area 3 80 in
  let r1 := delta_lease_renew ex_space 10 512 1024 ex_bm None SANLK_OK (ex_last 3 80) (0%Z, a0) 100 (-5) in
  let r2 := delta_lease_renew ex_space 10 512 1024 ex_bm None (-5) (ex_last 3 80) (0%Z, a0) 120 0 in
  [mkRin 0 a0 100 (-5) ex_bm None;                         (* the write fails, nothing on disk yet *)
   mkRin 0 a0 120 0 ex_bm None;                            (* written and answered *)
   mkRin 0 (rn_next r1 (rn_next r2 a0)) 140 0 ex_bm None]. (* the first write arrives *)
Theorem C88_late_write_refuted :
  let pubs := chain ex_space 10 512 1024 (ex_last 3 80) SANLK_OK late_ins in
  map (fun e => match e with Pub r _ _ => r | _ => 0%Z end) pubs = [-5; 1; -261]%Z /\
  s_killed (lrun 10 (linit 80) (pubs ++ [Chk 141])) = true.
Proof. vm_compute. split; reflexivity. Qed.

(* concrete case: two renewals of host 2 and a takeover: checks at 101 and 121 pass, the one at 141 kills; the other
   hosts are looked at twice *)
Definition ex_ins : list rin :=
  let a0 := ex_area 3 80 in
  let r1 := delta_lease_renew ex_space 10 512 1024 ex_bm None SANLK_OK (ex_last 3 80) (0%Z, a0) 100 0 in
  [mkRin 0 a0 100 0 ex_bm None; mkRin 0 (rn_next r1 a0) 120 0 ex_bm None; mkRin 0 (ex_area 4 130) 140 0 ex_bm None].
Example C88_nonvacuous :
  let pubs := chain ex_space 10 512 1024 (ex_last 3 80) SANLK_OK ex_ins in
  match pubs with
  | [p1; p2; p3] =>
    let evs := [p1; Chk 101; p2; Chk 121; Chk 122] in
    filter is_pub (evs ++ [p3; Chk 141]) = pubs /\
    s_killed (lrun 10 (linit 80) evs) = false /\ length (s_handed (lrun 10 (linit 80) evs)) = 2%nat /\
    s_killed (lrun 10 (linit 80) (evs ++ [p3; Chk 141])) = true /\
    s_killed (lrun 10 (linit 80) (evs ++ [Chk 199])) = false /\
    s_killed (lrun 10 (linit 80) (evs ++ [Chk 200])) = true
  | _ => False
  end.
Proof. vm_compute. repeat split; reflexivity. Qed.

(* the hypotheses of the theorem about false alarms hold for the first two renewals *)
Lemma all_bytes_b l : forallb (fun x => (x <? 256)%N) l = true -> all_bytes l.
Proof. intros H. apply Forall_forall. intros x I. rewrite forallb_forall in H. specialize (H x I). unfold is_byte. lia. Qed.
Fixpoint aloneb (space : bytes) (io ss align : N) (cur : bytes) (last : leader) (prev : Z) (ins : list rin) : bool :=
  match ins with
  | [] => true
  | x :: r =>
    (length (r_area x) =? N.to_nat align)%nat && forallb (fun x => (x <? 256)%N) (r_area x) &&
    (length (r_bm x) =? HOSTID_BITMAP_SIZE)%nat && (r_ts x <? 2 ^ 64)%N &&
    (match r_extra x with None => true | Some _ => false end) && (r_rv x =? 0)%Z && (r_wrv x =? 0)%Z &&
    bytes_eqb (slot (r_area x) (l_owner_id last) ss) cur &&
    match delta_lease_renew space io ss align (r_bm x) (r_extra x) prev last (r_rv x, r_area x) (r_ts x) (r_wrv x) with
    | Rn res (Some (_, sec)) (Some l) => aloneb space io ss align (firstn 200 sec) l res r
    | _ => false
    end
  end.
Lemma aloneb_ok space io ss align ins : forall cur last prev,
  aloneb space io ss align cur last prev ins = true -> alone space io ss align cur last prev ins.
Proof.
  induction ins as [|x ins IH]; intros cur last prev H; [exact I|]. cbn [alone]. cbn [aloneb] in H.
  rewrite !andb_true_iff in H. destruct H as ((((((((H1 & H2) & H3) & H4) & H5) & H6) & H7) & H8) & H9).
  rewrite bytes_eqb_eq in H8.
  split; [lia|]. split; [apply all_bytes_b; exact H2|]. split; [lia|]. split; [unfold u64; lia|].
  split; [intros a b c E; rewrite E in H5; discriminate H5|]. split; [auto|]. split; [lia|].
  split; [unfold lease_lost; cbn [In]; lia|]. split; [unfold lease_lost; cbn [In]; lia|].
  destruct (delta_lease_renew _ _ _ _ _ _ _ _ _ _ _) as [|res [[o sec]|] [l|]]; try discriminate H9.
  exists (firstn 200 sec). split; [left; reflexivity|]. apply IH. exact H9.
Qed.
Example C88_alone_nonvacuous :
  alone ex_space 10 512 1024 (slot (ex_area 3 80) 2 512) (ex_last 3 80) SANLK_OK (firstn 2 ex_ins).
Proof. apply aloneb_ok. vm_compute. reflexivity. Qed.

Print Assumptions C88_killed_iff.
Print Assumptions C88_noticed.
Print Assumptions C88_no_false_alarm_partial.
Print Assumptions C88_handed.
Print Assumptions C88_checks_partial.
Print Assumptions C88_signals_refuted.
Print Assumptions C88_buffer_partial.
Print Assumptions C88_buffer_refuted.
Print Assumptions C88_late_write_refuted.
