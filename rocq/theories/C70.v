(* C70: an acquire succeeds only with a ballot that was won
   (run_ballot, paxos_lease.c:453-903, and its use in paxos_lease_acquire; models in
   RunBallot.v and Acquire.v). *)
From Coq Require Import List NArith ZArith Lia Bool Arith ZifyBool ZifyN ZifyNat.
From Verif Require Import Codec Leader Acquire DeltaRenew Majority Ballot RunBallot BallotRef.
Import ListNotations.
Open Scope N_scope.

(* ---- Spec: when a ballot for (lver, mbal) has been won, from the results of the
   reads and writes alone.  The paper: "The phase completes when p has written and read a
   majority of the disks, without reading any block whose mbal component is greater" ---- *)
Definition ok (rv : Z) : bool := (0 <=? rv)%Z.
Definition majority (n : nat) (l : list bool) : Prop := (n < 2 * length (filter (fun b => b) l))%nat.

(* block b was read, and is good *)
Definition seen1 (i : bin) (b : dblk) : Prop :=
  exists rv bks, In (rv, bks) (b_r1 i) /\ ok rv = true /\ In (true, b) bks.
(* in phase 2 a disk whose read timed out in phase 1 is not used *)
Definition use2 (x : (Z * list (bool * dblk)) * (Z * list (bool * dblk))) : bool :=
  negb (fst (fst x) =? SANLK_AIO_TIMEOUT)%Z && ok (fst (snd x)).
Definition seen2 (i : bin) (b : dblk) : Prop :=
  exists x, In x (combine (b_r1 i) (b_r2 i)) /\ use2 x = true /\ In (true, b) (snd (snd x)).

Definition not_above (lver mbal : N) (b : dblk) : Prop :=
  d_lver b < lver \/ (d_lver b = lver /\ d_mbal b <= mbal).

(* a block that carries a value for this version *)
Definition carries (lver : N) (b : dblk) : Prop := d_lver b = lver /\ d_inp b <> 0 /\ d_bal b <> 0.

Record undisturbed (n : nat) (lver mbal : N) (i : bin) : Prop := {
  u_w1 : majority n (map ok (b_w1 i));
  u_r1 : majority n (map (fun x => ok (fst x)) (b_r1 i));
  u_w2 : majority n (map ok (b_w2 i));
  u_r2 : majority n (map use2 (combine (b_r1 i) (b_r2 i)));
  u_s1 : forall b, seen1 i b -> not_above lver mbal b;
  u_s2 : forall b, seen2 i b -> not_above lver mbal b }.

Definition right_value (host gen lver : N) (i : bin) (v : vals) : Prop :=
  (exists b, seen1 i b /\ carries lver b /\ v = blk_val b /\
             forall b', seen1 i b' -> carries lver b' -> d_bal b' <= d_bal b) \/
  ((forall b, seen1 i b -> ~ carries lver b) /\ v = (host, gen, b_now i)).

Definition won (n : nat) (host gen lver mbal : N) (i : bin) (x : dblk) : Prop :=
  undisturbed n lver mbal i /\ right_value host gen lver i (blk_val x) /\
  d_lver x = lver /\ d_mbal x = mbal /\ d_bal x = mbal.

(* ---- the loops ---- *)
Lemma num_ok_len l : num_ok l = length (filter (fun b => b) (map ok l)).
Proof.
  unfold num_ok, ok. induction l as [|x l IH]; cbn; auto. destruct (0 <=? x)%Z; cbn; auto.
Qed.

Lemma blocks1_spec lver mbal bks mx r :
  blocks1 lver mbal bks mx = r ->
  (forall b, In (true, b) bks -> not_above lver mbal b) ->
  exists mx', r = ScanGo mx' /\
    ((mx' = mx /\ forall b, In (true, b) bks -> carries lver b -> d_bal b <= d_bal mx) \/
     (In (true, mx') bks /\ carries lver mx' /\ d_bal mx < d_bal mx' /\
      forall b, In (true, b) bks -> carries lver b -> d_bal b <= d_bal mx')).
Proof.
  revert mx. induction bks as [|[g bk] bks IH]; intros mx E NA; cbn in E.
  { subst. eexists. split; [reflexivity|]. left. split; auto. intros b []. }
  assert (NA' : forall b, In (true, b) bks -> not_above lver mbal b) by (intros; apply NA; now right).
  assert (SK : forall mx0, blocks1 lver mbal bks mx0 = r -> mx0 = mx ->
            (g = true -> carries lver bk -> d_bal bk <= d_bal mx) ->
            exists mx', r = ScanGo mx' /\
    ((mx' = mx /\ forall b, In (true, b) ((g, bk) :: bks) -> carries lver b -> d_bal b <= d_bal mx) \/
     (In (true, mx') ((g, bk) :: bks) /\ carries lver mx' /\ d_bal mx < d_bal mx' /\
      forall b, In (true, b) ((g, bk) :: bks) -> carries lver b -> d_bal b <= d_bal mx'))).
  { intros mx0 E0 -> C. destruct (IH _ E0 NA') as (mx' & -> & [(-> & A)|(A & B & D & F)]).
    - eexists. split; [reflexivity|]. left. split; auto. intros b [I|I] K; [|auto].
      injection I as -> ->. auto.
    - eexists. split; [reflexivity|]. right. split; [now right|]. split; auto. split; auto.
      intros b [I|I] K; [|auto]. injection I as -> ->. specialize (C eq_refl K). lia. }
  destruct g; cbn [negb] in E; [|apply (SK mx E eq_refl); discriminate].
  assert (N : not_above lver mbal bk) by (apply NA; now left).
  destruct (N.ltb_spec (d_lver bk) lver); [apply (SK mx E eq_refl); intros _ (? & _); lia|].
  destruct (N.ltb_spec lver (d_lver bk)); [destruct N; lia|].
  destruct (N.ltb_spec mbal (d_mbal bk)); [destruct N; lia|].
  destruct (N.eqb_spec (d_inp bk) 0); [apply (SK mx E eq_refl); intros _ (_ & ? & _); congruence|].
  destruct (N.eqb_spec (d_bal bk) 0); [apply (SK mx E eq_refl); intros _ (_ & _ & ?); congruence|].
  destruct (N.ltb_spec (d_bal mx) (d_bal bk)); [|apply (SK mx E eq_refl); auto].
  clear SK. assert (CB : carries lver bk) by (repeat split; auto; lia).
  destruct (IH _ E NA') as (mx' & -> & [(-> & A)|(A & B & D & F)]).
  - eexists. split; [reflexivity|]. right. split; [now left|]. split; [exact CB|]. split; auto.
    intros b [I|I] K; [injection I as ->; lia|auto].
  - eexists. split; [reflexivity|]. right. split; [now right|]. split; auto. split; [lia|].
    intros b [I|I] K; [injection I as ->; lia|auto].
Qed.

Lemma blocks1_go lver mbal bks mx mx' :
  blocks1 lver mbal bks mx = ScanGo mx' -> forall b, In (true, b) bks -> not_above lver mbal b.
Proof.
  revert mx. induction bks as [|[g bk] bks IH]; intros mx E b I; cbn in E; [destruct I|].
  destruct g; cbn [negb] in E.
  - destruct (N.ltb_spec (d_lver bk) lver).
    { destruct I as [I|I]; [injection I as <-; now left|eauto]. }
    destruct (N.ltb_spec lver (d_lver bk)); [discriminate|].
    destruct (N.ltb_spec mbal (d_mbal bk)); [discriminate|].
    destruct I as [I|I]; [injection I as <-; right; lia|].
    destruct (d_inp bk =? 0); [eauto|]. destruct (d_bal bk =? 0); [eauto|].
    destruct (d_bal mx <? d_bal bk); eauto.
  - destruct I as [I|I]; [discriminate I|eauto].
Qed.

Lemma blocks2_spec lver mbal bks :
  (exists z, blocks2 lver mbal bks = ScanGo z) <-> (forall b, In (true, b) bks -> not_above lver mbal b).
Proof.
  induction bks as [|[g bk] bks IH]; cbn; [split; [intros _ b []|eauto]|].
  destruct g; cbn [negb].
  - destruct (N.ltb_spec (d_lver bk) lver).
    { rewrite IH. split; intros A b; [intros [I|I]; [injection I as <-; now left|auto]|auto]. }
    destruct (N.ltb_spec lver (d_lver bk)).
    { split; [intros (z & Z); discriminate|]. intros A. destruct (A bk (or_introl eq_refl)); lia. }
    destruct (N.ltb_spec mbal (d_mbal bk)).
    { split; [intros (z & Z); discriminate|]. intros A. destruct (A bk (or_introl eq_refl)); lia. }
    rewrite IH. split; intros A b; [intros [I|I]; [injection I as <-; right; lia|auto]|auto].
  - rewrite IH. split; intros A b; [intros [I|I]; [discriminate I|auto]|auto].
Qed.

(* where the largest value comes from *)
Definition best (lver : N) (S : dblk -> Prop) (mx0 mx : dblk) : Prop :=
  (mx = mx0 /\ forall b, S b -> carries lver b -> d_bal b <= d_bal mx0) \/
  (S mx /\ carries lver mx /\ d_bal mx0 < d_bal mx /\ forall b, S b -> carries lver b -> d_bal b <= d_bal mx).

Definition read_in (l : list (Z * list (bool * dblk))) (b : dblk) : Prop :=
  exists rv bks, In (rv, bks) l /\ ok rv = true /\ In (true, b) bks.

Lemma read_in_cons rv bks l b :
  read_in ((rv, bks) :: l) b <-> (ok rv = true /\ In (true, b) bks) \/ read_in l b.
Proof.
  unfold read_in. split.
  - intros (r & k & [I|I] & O & J); [injection I as -> ->; auto|right; eauto].
  - intros [(O & J)|(r & k & I & O & J)]; [exists rv, bks|exists r, k]; cbn; auto.
Qed.

Lemma disks1_spec lver mbal l k mx :
  (forall b, read_in l b -> not_above lver mbal b) ->
  exists mx', disks1 lver mbal l k mx = RGo (k + length (filter (fun b => b) (map (fun x => ok (fst x)) l))) mx' /\
    best lver (read_in l) mx mx'.
Proof.
  revert k mx. induction l as [|[rv bks] l IH]; intros k mx NA; cbn [disks1 map filter length fst].
  { exists mx. rewrite Nat.add_0_r. split; auto. left. split; auto. intros b (r & q & [] & _). }
  assert (NA' : forall b, read_in l b -> not_above lver mbal b) by (intros; apply NA, read_in_cons; auto).
  unfold ok at 1. destruct (Z.ltb_spec rv 0).
  - destruct (Z.leb_spec 0 rv); [lia|]. destruct (IH k mx NA') as (mx' & E & B). exists mx'. split; auto.
    assert (X : forall b, read_in ((rv, bks) :: l) b <-> read_in l b).
    { intros b. rewrite read_in_cons. split; auto. intros [(O & _)|]; auto. unfold ok in O. lia. }
    destruct B as [(-> & B)|(B1 & B2 & B3 & B4)]; [left; split; auto|right; repeat split; auto]; try apply X; auto;
      try (apply B2); intros b I; apply X in I; auto.
  - destruct (Z.leb_spec 0 rv); [|lia].
    assert (OK : ok rv = true) by (unfold ok; lia).
    destruct (blocks1_spec lver mbal bks mx _ eq_refl) as (m1 & E1 & B1).
    { intros b I. apply NA, read_in_cons. auto. }
    rewrite E1. destruct (IH (S k) m1 NA') as (mx' & E & B). exists mx'.
    cbn [length]. rewrite <- Nat.add_succ_comm. split; auto.
    assert (X : forall b, read_in ((rv, bks) :: l) b -> In (true, b) bks \/ read_in l b).
    { intros b I. apply read_in_cons in I. destruct I as [(_ & I)|I]; auto. }
    assert (Y : forall b, In (true, b) bks \/ read_in l b -> read_in ((rv, bks) :: l) b).
    { intros b I. apply read_in_cons. destruct I; auto. }
    destruct B as [(-> & B)|(P1 & P2 & P3 & P4)]; destruct B1 as [(-> & B1)|(Q1 & Q2 & Q3 & Q4)].
    + left. split; auto. intros b I C. destruct (X b I); auto.
    + right. split; [auto|]. split; auto. split; auto. intros b I C. destruct (X b I); auto.
    + right. split; [auto|]. split; auto. split; [auto|]. intros b I C. destruct (X b I); auto.
      assert (d_bal b <= d_bal mx) by auto. lia.
    + right. split; [auto|]. split; auto. split; [lia|]. intros b I C. destruct (X b I); auto.
      assert (d_bal b <= d_bal m1) by auto. lia.
Qed.

Lemma disks1_go lver mbal l k mx k' mx' :
  disks1 lver mbal l k mx = RGo k' mx' -> forall b, read_in l b -> not_above lver mbal b.
Proof.
  revert k mx. induction l as [|[rv bks] l IH]; intros k mx E b I; [destruct I as (? & ? & [] & _)|].
  cbn in E. apply read_in_cons in I. destruct (Z.ltb_spec rv 0).
  - destruct I as [(O & _)|I]; [unfold ok in O; lia|eauto].
  - destruct (blocks1 lver mbal bks mx) eqn:B; try discriminate.
    destruct I as [(_ & I)|I]; [eapply blocks1_go; eauto|eauto].
Qed.

Lemma disks2_spec lver mbal l1 l2 k :
  (exists z, disks2 lver mbal (bufs_after l1) l2 k =
     RGo (k + length (filter (fun b => b) (map use2 (combine l1 l2)))) z) <->
  (forall b, (exists x, In x (combine l1 l2) /\ use2 x = true /\ In (true, b) (snd (snd x))) ->
             not_above lver mbal b).
Proof.
  revert l2 k. induction l1 as [|[rv1 bk1] l1 IH]; intros l2 k.
  { cbn. rewrite Nat.add_0_r. split; [intros _ b (x & [] & _)|eauto]. }
  destruct l2 as [|[rv bks] l2].
  { cbn. rewrite Nat.add_0_r. split; [intros _ b (x & [] & _)|eauto]. }
  cbn [bufs_after map disks2 combine filter fst]. fold (bufs_after l1).
  assert (HD : use2 (rv1, bk1, (rv, bks)) = negb (rv1 =? SANLK_AIO_TIMEOUT)%Z && ok rv) by reflexivity.
  assert (SK : use2 (rv1, bk1, (rv, bks)) = false ->
    ((forall b, (exists x, In x (combine l1 l2) /\ use2 x = true /\ In (true, b) (snd (snd x))) -> not_above lver mbal b) <->
     (forall b, (exists x, In x ((rv1, bk1, (rv, bks)) :: combine l1 l2) /\ use2 x = true /\ In (true, b) (snd (snd x))) ->
             not_above lver mbal b))).
  { intros U. split; intros A b (x & I & P & Q).
    - destruct I as [<-|I]; [congruence|]. apply A. eauto.
    - apply A. exists x. split; [now right|auto]. }
  destruct (rv1 =? SANLK_AIO_TIMEOUT)%Z; cbn [negb andb] in *.
  { rewrite HD. rewrite IH. apply SK. auto. }
  unfold ok in HD. destruct (Z.ltb_spec rv 0); destruct (Z.leb_spec 0 rv); try lia.
  { rewrite HD. rewrite IH. apply SK. auto. }
  rewrite HD. cbn [length]. rewrite <- Nat.add_succ_comm. clear SK.
  destruct (blocks2 lver mbal bks) eqn:B.
  1,2: (split; [intros (z & Z); discriminate|]; intros A; exfalso;
        destruct (proj2 (blocks2_spec lver mbal bks)) as (z & Z); [|congruence];
        intros b I; apply A; exists (rv1, bk1, (rv, bks)); cbn; auto).
  rewrite IH. split; intros A b (x & I & P & Q).
  - destruct I as [<-|I]; [|apply A; eauto].
    apply (proj1 (blocks2_spec lver mbal bks)); eauto.
  - apply A. exists x. split; [now right|auto].
Qed.

Lemma disks2_abort lver mbal l1 l2 k k' z :
  disks2 lver mbal (bufs_after l1) l2 k = RGo k' z ->
  k' = (k + length (filter (fun b => b) (map use2 (combine l1 l2))))%nat.
Proof.
  revert l2 k. induction l1 as [|[rv1 bk1] l1 IH]; intros l2 k.
  { cbn. intros [= <- _]. lia. }
  destruct l2 as [|[rv bks] l2]; [cbn; intros [= <- _]; lia|].
  cbn [bufs_after map disks2 combine filter fst]. fold (bufs_after l1).
  unfold use2 at 1. cbn [fst snd].
  destruct (rv1 =? SANLK_AIO_TIMEOUT)%Z; cbn [negb andb]; [apply IH|].
  unfold ok at 1. destruct (Z.ltb_spec rv 0); destruct (Z.leb_spec 0 rv); try lia; [apply IH|].
  destruct (blocks2 lver mbal bks); try discriminate. intros E. apply IH in E. cbn [length]. lia.
Qed.

Lemma majn_spec n l : (1 <= n)%nat -> majn n (length (filter (fun b => b) l)) = true <-> majority n l.
Proof.
  intros N. unfold majn, majority. split; intros H.
  - apply majority_half in H; lia.
  - apply majority_half_conv; lia.
Qed.

(* ---- the function: with memory, it returns 0 exactly when the ballot was won ---- *)
Theorem C70_ballot_partial n host gen lver mbal i db x rt rv :
  (1 <= n)%nat -> alloc_all (b_alloc i) = 0%Z ->
  run_ballot n host gen lver mbal i db = (rv, x, rt) ->
  (0 <= rv)%Z -> rv = 0%Z /\ won n host gen lver mbal i x.
Proof.
  intros N A R P. unfold run_ballot in R. rewrite A in R. cbn [Z.eqb negb] in R.
  rewrite num_ok_len in R.
  destruct (majn n (length (filter (fun b => b) (map ok (b_w1 i))))) eqn:W1; cbn [negb] in R;
    [|injection R as <- _ _; cbv in P; congruence].
  destruct (disks1 lver mbal (b_r1 i) 0 zero_blk) as [e|k1 mx] eqn:D1.
  { injection R as <- _ _. exfalso.
    clear -D1 P. revert D1. generalize 0%nat zero_blk.
    induction (b_r1 i) as [|[r bks] l IH]; cbn; [discriminate|]. intros k m.
    destruct (r <? 0)%Z; [apply IH|]. destruct (blocks1 lver mbal bks m); try (intros [= <-]; cbv in P; congruence).
    apply IH. }
  pose proof (disks1_go _ _ _ _ _ _ _ D1) as S1.
  destruct (disks1_spec lver mbal (b_r1 i) 0 zero_blk S1) as (mx' & D1' & BE).
  rewrite D1 in D1'. injection D1' as -> <-. cbn [Nat.add] in R.
  destruct (majn n (length (filter (fun b => b) (map (fun x => ok (fst x)) (b_r1 i))))) eqn:R1; cbn [negb] in R;
    [|injection R as <- _ _; cbv in P; congruence].
  rewrite num_ok_len in R.
  destruct (majn n (length (filter (fun b => b) (map ok (b_w2 i))))) eqn:W2; cbn [negb] in R;
    [|injection R as <- _ _; cbv in P; congruence].
  destruct (disks2 lver mbal (bufs_after (b_r1 i)) (b_r2 i) 0) as [e|k2 z] eqn:D2.
  { injection R as <- _ _. exfalso.
    clear -D2 P. revert D2. generalize 0%nat (b_r2 i). generalize (bufs_after (b_r1 i)).
    induction l as [|b l IH]; intros k l2; [discriminate|]. destruct l2 as [|[r bks] l2]; [discriminate|]. cbn.
    destruct b; cbn [negb]; [|apply IH].
    destruct (r <? 0)%Z; [apply IH|]. destruct (blocks2 lver mbal bks); try (intros [= <-]; cbv in P; congruence).
    apply IH. }
  pose proof (disks2_abort _ _ _ _ _ _ _ D2) as K. cbn [Nat.add] in K. subst k2.
  assert (S2 : forall b, seen2 i b -> not_above lver mbal b).
  { apply (proj1 (disks2_spec lver mbal (b_r1 i) (b_r2 i) 0)). rewrite Nat.add_0_l. eauto. }
  destruct (majn n (length (filter (fun b => b) (map use2 (combine (b_r1 i) (b_r2 i)))))) eqn:R2; cbn [negb] in R;
    [|injection R as <- _ _; cbv in P; congruence].
  injection R as <- <- <-. split; auto. split; [|split].
  - constructor; auto; apply majn_spec; auto.
  - unfold phase2_blk. destruct BE as [(-> & BE)|(B1 & B2 & B3 & B4)].
    + cbn. right. split; [|reflexivity]. intros b I C. specialize (BE b I C). destruct C as (_ & _ & C).
      cbn in BE. lia.
    + left. exists mx. split; [exact B1|]. split; auto.
      destruct (N.eqb_spec (d_inp mx) 0); [destruct B2 as (_ & B2 & _); congruence|]. split; [reflexivity|exact B4].
  - unfold phase2_blk. destruct (d_inp mx =? 0); cbn; auto.
Qed.

(* nothing more is needed: an undisturbed ballot is won, and a host that competes alone
   with a number as high as any it reads gets its own values in, or completes those of
   a host that was there before *)
Theorem C70_ballot_wins n host gen lver mbal i db :
  (1 <= n)%nat -> alloc_all (b_alloc i) = 0%Z -> undisturbed n lver mbal i ->
  exists x, run_ballot n host gen lver mbal i db = (0%Z, x, false).
Proof.
  intros N A [W1 R1 W2 R2 S1 S2]. unfold run_ballot. rewrite A. cbn [Z.eqb negb].
  rewrite !num_ok_len. apply majn_spec in W1; auto. rewrite W1. cbn [negb].
  destruct (disks1_spec lver mbal (b_r1 i) 0 zero_blk S1) as (mx & D1 & BE).
  rewrite D1. cbn [Nat.add]. apply majn_spec in R1; auto. rewrite R1. cbn [negb].
  apply majn_spec in W2; auto. rewrite W2. cbn [negb].
  destruct (proj2 (disks2_spec lver mbal (b_r1 i) (b_r2 i) 0) S2) as (z & D2).
  rewrite D2. cbn [Nat.add]. apply majn_spec in R2; auto. rewrite R2. cbn [negb]. eauto.
Qed.

(* ---- the acquire ---- *)
Lemma astep_to_write p s i s' o cur d :
  astep p s i = Some (s', o) -> as_pc s' = PWrite cur d ->
  exists rv mbal, i = IBallot rv d /\ as_pc s = PBallot cur mbal /\ (0 <= rv)%Z.
Proof.
  unfold astep, at_run, check_leader, done, done_ret, to_pc.
  destruct (as_pc s) eqn:P; destruct i; try discriminate; intros E W;
    repeat match type of E with context [if ?b then _ else _] => destruct b eqn:? end;
    try (injection E as <- <-; cbn in W; congruence);
    try (injection E as <- <-; cbn in W; injection W as <- <-; do 2 eexists; repeat split; lia).
Qed.

Lemma astep_to_ok p s i s' o :
  astep p s i = Some (s', o) -> as_pc s' = PDone SANLK_OK ->
  (exists t rv cur d, i = IWrite t rv /\ as_pc s = PWrite cur d /\ (0 <= rv)%Z /\
     as_ret s' = Some (new_leader p cur d t) /\ ad_inp d = a_host p) \/
  (exists rv l cur mb, i = IReread rv l /\ as_pc s = PRetry cur mb /\ (0 <= rv)%Z /\ as_ret s' = Some l /\
     l_lver l = l_lver cur + 1 /\ l_owner_id l = a_host p /\ l_owner_generation l = a_gen p).
Proof.
  unfold astep, at_run, check_leader, done, done_ret, to_pc.
  destruct (as_pc s) eqn:P; destruct i; try discriminate; intros E W;
    repeat match type of E with context [if ?b then _ else _] => destruct b eqn:? end;
    injection E as <- <-; cbn [as_pc as_ret] in *; try discriminate W;
    try (injection W as ->; match goal with H : (?x <? 0)%Z = true |- _ => cbv in H; discriminate H end);
    try (exfalso; lia).
  - right. do 4 eexists. repeat split; try reflexivity; lia.
  - left. do 4 eexists. repeat split; try reflexivity; try lia.
    match goal with H : negb (l_owner_id (new_leader _ _ _ _) =? _) = false |- _ =>
      cbn [new_leader l_owner_id] in H; lia end.
Qed.

Definition has_memory (h : list acall) : Prop :=
  forall b, In (CBallot b) h -> alloc_all (b_alloc b) = 0%Z.

Lemma write_won p n ss al h s db out cur d :
  (1 <= n)%nat -> has_memory h -> acq p n ss al h s db out -> as_pc s = PWrite cur d ->
  exists b h' mbal, h = CBallot b :: h' /\
    won n (a_host p) (a_gen p) (l_lver cur + 1) mbal b db /\ d = to_ad db.
Proof.
  intros N M A W. destruct A as [|h s db out i s' o A NB S|h s db out cur' mbal b rv db' rt s' o A P F R S].
  - unfold astart in W. destruct (ss =? 0)%Z; discriminate W.
  - destruct (astep_to_write _ _ _ _ _ _ _ S W) as (rv & mbal & -> & _). destruct (NB _ _ eq_refl).
  - destruct (astep_to_write _ _ _ _ _ _ _ S W) as (rv' & mbal' & I & P' & NN). injection I as <- <-.
    rewrite P in P'. injection P' as -> ->.
    exists b, h, mbal'. split; auto. split; auto.
    destruct (C70_ballot_partial _ _ _ _ _ _ _ _ _ _ N (M _ (or_introl eq_refl)) R NN) as [_ X]. exact X.
Qed.

(* the claim: a lease has been acquired only with a ballot that was won and the values
   of that ballot, or because the leader record read back shows that another host has
   completed our ballot *)
Definition by_own_ballot (p : aparams) (n : nat) (h : list acall) (nl : leader) : Prop :=
  exists t rv b h' mbal x, h = CIn (IWrite t rv) :: CBallot b :: h' /\ (0 <= rv)%Z /\
    won n (a_host p) (a_gen p) (l_lver nl) mbal b x /\
    blk_val x = (l_owner_id nl, l_owner_generation nl, l_timestamp nl).
Definition by_others (p : aparams) (h : list acall) (nl : leader) : Prop :=
  exists rv h', h = CIn (IReread rv nl) :: h' /\ (0 <= rv)%Z /\ l_owner_generation nl = a_gen p.

Definition C70_statement : Prop :=
  forall p n ss al h s db out nl,
    (1 <= n)%nat -> acq p n ss al h s db out ->
    as_pc s = PDone SANLK_OK -> as_ret s = Some nl ->
    l_owner_id nl = a_host p /\ (by_own_ballot p n h nl \/ by_others p h nl).

Theorem C70_partial p n ss al h s db out nl :
  (1 <= n)%nat -> acq p n ss al h s db out -> has_memory h ->
  as_pc s = PDone SANLK_OK -> as_ret s = Some nl ->
  l_owner_id nl = a_host p /\ (by_own_ballot p n h nl \/ by_others p h nl).
Proof.
  intros N A M W RT. destruct A as [|h s db out i s' o A NB S|h s db out cur' mbal b rv db' rt s' o A P F R S].
  - unfold astart in W. destruct (ss =? 0)%Z; cbn in W; [injection W as W; cbv in W|]; discriminate W.
  - destruct (astep_to_ok _ _ _ _ _ S W) as [(t & rv & cur & d & -> & P & NN & RS & HO)|
      (rv & l & cur & mb & -> & P & NN & RS & LV & HO & GE)].
    + rewrite RT in RS. injection RS as ->. cbn [new_leader l_owner_id]. split; auto. left.
      destruct (write_won p n ss al h s db out cur d N) as (b & h' & mbal & -> & WO & ->); auto.
      { intros b I. apply M. now right. }
      exists t, rv, b, h', mbal, db. split; auto. split; auto.
      cbn [new_leader l_lver l_owner_id l_owner_generation l_timestamp to_ad ad_lver ad_inp ad_inp2 ad_inp3].
      destruct WO as (U & V & L1 & L2 & L3). rewrite L1. split; [repeat split; auto; apply U|reflexivity].
    + rewrite RT in RS. injection RS as ->. split; auto. right. exists rv, h. auto.
  - destruct (astep_to_ok _ _ _ _ _ S W) as [(t & rv' & cur & d & I & _)|(rv' & l & cur & mb & I & _)]; discriminate I.
Qed.

(* Memory runs out in the second ballot.  Host 1 has been beaten in phase 2 of its first
   ballot by host 2; posix_memalign fails in the second one, run_ballot returns 12, which
   is not negative, and dblock still has the values of the first ballot *)
Definition freeL : leader :=
  mkLeader PAXOS_DISK_MAGIC 0x00060004 0x110 512 2 2000 2 1 7 [] [] 0 0 0 0 10 2 1 100.
Definition host1 : aparams := mkAp 1 1 false false false 0 0 60.
Definition host2 : aparams := mkAp 2 5 false false false 0 0 60.
Definition y1 : dblk := mkD 1 1 1 1 900 8 false 0.
Definition y2 : dblk := mkD 2002 2002 2 5 901 8 false 0.
(* host 1: writes its block, sees nobody; writes y1; sees host 2 with a larger number *)
Definition bin1 : bin :=
  mkBin [0%Z] [0%Z] [(0%Z, [(true, phase1_blk 8 1); (true, zero_blk)])] 900
        [0%Z] [(0%Z, [(true, y1); (true, phase1_blk 8 2002)])].
Definition no_memory : bin := mkBin [12%Z] [(-1)%Z] [((-1)%Z, [])] 902 [(-1)%Z] [((-1)%Z, [])].
(* host 2: has read the block of host 1 before y1 was written *)
Definition bin2 : bin :=
  mkBin [0%Z] [0%Z] [(0%Z, [(true, phase1_blk 8 1); (true, phase1_blk 8 2002)])] 901
        [0%Z] [(0%Z, [(true, y1); (true, y2)])].
Definition run1 : list acall :=
  [CIn (IWrite 950 0); CBallot no_memory; CIn (IReread 0 freeL); CBallot bin1; CIn (IRead 0 freeL 0)].
Definition run2 : list acall := [CIn (IWrite 951 0); CBallot bin2; CIn (IRead 0 freeL 1)].

Ltac fit1 := repeat split; try reflexivity; repeat (constructor; [cbn; intros; first [reflexivity|lia]|]); constructor.
Lemma acq1 : exists s out nl, acq host1 1 512 1048576 run1 s y1 out /\
  as_pc s = PDone SANLK_OK /\ as_ret s = Some nl /\ l_owner_id nl = 1 /\ l_lver nl = 8 /\
  l_owner_generation nl = 1 /\ l_timestamp nl = 900.
Proof.
  eexists _, _, _. split.
  - unfold run1. eapply acq_in; [|intros ? ?; discriminate|].
    + eapply acq_ballot with (mbal := 2001) (cur := freeL).
      * eapply acq_in; [|intros ? ?; discriminate|].
        -- eapply acq_ballot with (mbal := 1) (cur := freeL).
           ++ eapply acq_in; [apply acq_nil|intros ? ?; discriminate|reflexivity].
           ++ reflexivity.
           ++ fit1.
           ++ reflexivity.
           ++ reflexivity.
        -- reflexivity.
      * reflexivity.
      * fit1.
      * reflexivity.
      * reflexivity.
    + reflexivity.
  - repeat split.
Qed.

Lemma acq2 : exists s out nl, acq host2 1 512 1048576 run2 s y2 out /\
  as_pc s = PDone SANLK_OK /\ as_ret s = Some nl /\ l_owner_id nl = 2 /\ l_lver nl = 8.
Proof.
  eexists _, _, _. split.
  - unfold run2. eapply acq_in; [|intros ? ?; discriminate|].
    + eapply acq_ballot with (mbal := 2002) (cur := freeL).
      * eapply acq_in; [apply acq_nil|intros ? ?; discriminate|reflexivity].
      * reflexivity.
      * fit1.
      * reflexivity.
      * reflexivity.
    + reflexivity.
  - repeat split.
Qed.

Theorem C70_refuted : ~ C70_statement.
Proof.
  intros H. destruct acq1 as (s & out & nl & A & P & R & _).
  destruct (H _ _ _ _ _ _ _ _ _ (le_n 1) A P R) as [_ [W|W]].
  - destruct W as (t & rv & b & h' & mbal & x & E & _ & ([U _ _ _ _ _] & _) & _).
    injection E as _ _ <- _. cbv in U. lia.
  - destruct W as (rv & h' & E & _). discriminate E.
Qed.

(* two hosts have acquired the same version: the reads of each are those of the order
   host 1 writes its phase 1 block and reads; host 2 writes its phase 1 block and reads;
   host 1 writes y1 and reads (run_ballot returns DBLOCK_MBAL); host 2 writes y2, reads,
   and is the owner; host 1 reads the leader record before host 2 writes it, finds no
   memory, and writes its own *)
Theorem C70_two_owners :
  exists s1 out1 nl1 s2 out2 nl2,
    acq host1 1 512 1048576 run1 s1 y1 out1 /\ as_pc s1 = PDone SANLK_OK /\ as_ret s1 = Some nl1 /\
    acq host2 1 512 1048576 run2 s2 y2 out2 /\ as_pc s2 = PDone SANLK_OK /\ as_ret s2 = Some nl2 /\
    l_lver nl1 = l_lver nl2 /\ l_owner_id nl1 = 1 /\ l_owner_id nl2 = 2.
Proof.
  destruct acq1 as (s1 & o1 & n1 & A1 & P1 & R1 & I1 & L1 & _).
  destruct acq2 as (s2 & o2 & n2 & A2 & P2 & R2 & I2 & L2).
  exists s1, o1, n1, s2, o2, n2. repeat split; auto. congruence.
Qed.

(* Memory runs out in the first ballot: dblock is zero, and the leader record is written
   with version 0, no owner and free, whatever its version was *)
Definition run3 : list acall := [CIn (IWrite 950 0); CBallot no_memory; CIn (IRead 0 freeL 0)].

Theorem C70_version_goes_back : exists s out nl,
  acq host1 1 512 1048576 run3 s zero_blk out /\
  In (OCommit nl) out /\ l_lver freeL = 7 /\ l_lver nl = 0 /\ l_owner_id nl = 0 /\ l_timestamp nl = 0.
Proof.
  eexists _, _, _. split.
  - unfold run3. eapply acq_in; [|intros ? ?; discriminate|].
    + eapply acq_ballot with (mbal := 1) (cur := freeL).
      * eapply acq_in; [apply acq_nil|intros ? ?; discriminate|reflexivity].
      * reflexivity.
      * fit1.
      * reflexivity.
      * reflexivity.
    + reflexivity.
  - split; [left; reflexivity|]. repeat split.
Qed.

(* with memory, a record is written only for the version after the one read *)
Definition cur_of (pc : apc) : option leader :=
  match pc with
  | PRead | PDone _ | PDivZero => None
  | PLsDisk c _ | PHostInfo c _ | PDelta c _ _ _ _ | PDblock c _ | PNow c _ _ _ _ | PSleep c _ _ _ _
  | PRetry c _ | PBallot c _ | PWrite c _ => Some c
  end.

Lemma astep_cur p s i s' o cur :
  astep p s i = Some (s', o) -> cur_of (as_pc s') = Some cur ->
  cur_of (as_pc s) = Some cur \/ exists rv mm, i = IRead rv cur mm /\ (0 <= rv)%Z.
Proof.
  unfold astep, at_run, check_leader, done, done_ret, to_pc.
  destruct (as_pc s) eqn:P; destruct i; try discriminate; intros E W;
    repeat match type of E with context [if ?b then _ else _] => destruct b eqn:? end;
    injection E as <- <-; cbn [as_pc cur_of] in *; try discriminate W; auto;
    injection W as <-; right; do 2 eexists; (split; [reflexivity|lia]).
Qed.

Lemma astep_out p s i s' o nl :
  astep p s i = Some (s', o) -> In (OCommit nl) o ->
  exists cur d t rv, as_pc s = PWrite cur d /\ i = IWrite t rv /\ nl = new_leader p cur d t.
Proof.
  unfold astep. destruct (as_pc s) eqn:P; destruct i; try discriminate; intros E I;
    injection E as <- <-; cbn in I; try (destruct I; fail);
    destruct I as [I|[]]; try discriminate I; injection I as <-; do 4 eexists; repeat split.
Qed.

Lemma acq_cur p n ss al h s db out cur :
  acq p n ss al h s db out -> cur_of (as_pc s) = Some cur ->
  exists rv mm, In (CIn (IRead rv cur mm)) h /\ (0 <= rv)%Z.
Proof.
  induction 1 as [|h s db out i s' o A IH NB S|h s db out cur' mbal b rv db' rt s' o A IH P F R S]; intros C.
  - unfold astart in C. destruct (ss =? 0)%Z; discriminate C.
  - destruct (astep_cur _ _ _ _ _ _ S C) as [C'|(rv & mm & -> & NN)].
    + destruct (IH C') as (rv & mm & I & NN). exists rv, mm. split; [now right|auto].
    + exists rv, mm. split; [now left|auto].
  - destruct (astep_cur _ _ _ _ _ _ S C) as [C'|(rv' & mm & I & NN)]; [|discriminate I].
    destruct (IH C') as (rv' & mm & I & NN). exists rv', mm. split; [now right|auto].
Qed.

Theorem C70_next_version_partial p n ss al h s db out nl :
  (1 <= n)%nat -> a_host p <> 0 -> acq p n ss al h s db out -> has_memory h -> In (OCommit nl) out ->
  exists rv l mm, In (CIn (IRead rv l mm)) h /\ (0 <= rv)%Z /\ l_lver nl = l_lver l + 1 /\
    l_owner_id nl <> 0.
Proof.
  intros N HZ A. induction A as [|h s db out i s' o A IH NB S|h s db out cur' mbal b rv db' rt s' o A IH P F R S];
    intros M I; [destruct I| |].
  - assert (M' : has_memory h) by (intros b J; apply M; now right).
    apply in_app_or in I as [I|I].
    + destruct (astep_out _ _ _ _ _ _ S I) as (cur & d & t & rv & P & -> & ->).
      destruct (acq_cur _ _ _ _ _ _ _ _ cur A) as (rv' & mm & J & NN); [now rewrite P|].
      destruct (write_won _ _ _ _ _ _ _ _ _ _ N M' A P) as (b & h' & mb & -> & W & ->).
      exists rv', cur, mm. split; [now right|]. split; auto.
      destruct W as (_ & V & L & _). cbn. split; [exact L|].
      destruct V as [(b' & _ & (_ & V & _) & E & _)|(_ & E)].
      * unfold blk_val in E. injection E as -> _ _. exact V.
      * unfold blk_val in E. injection E as -> _ _. exact HZ.
    + destruct (IH M' I) as (rv & l & mm & J & K). exists rv, l, mm. split; [now right|auto].
  - assert (M' : has_memory h) by (intros c J; apply M; now right).
    apply in_app_or in I as [I|I].
    + destruct (astep_out _ _ _ _ _ _ S I) as (cur & d & t & rv' & _ & J & _). discriminate J.
    + destruct (IH M' I) as (rv' & l & mm & J & K). exists rv', l, mm. split; [now right|auto].
Qed.

(* From then on the lease cannot be acquired at all: the blocks of the hosts have the old
   versions, which are larger, and an acquire tries again for ever (2097-2107).  The same
   happens whenever a block has a version above the one being acquired. *)
Definition blocked (V : N) (b : bin) : Prop :=
  alloc_all (b_alloc b) = 0%Z /\
  forall rv bks, In (rv, bks) (b_r1 b) -> ok rv = true -> exists bk, In (true, bk) bks /\ V + 1 < d_lver bk.

Lemma majority_some n l : majority n l -> exists x, In x l /\ x = true.
Proof.
  unfold majority. destruct (filter (fun b => b) l) as [|x f] eqn:E; cbn; [lia|]. intros _.
  exists x. apply (proj1 (filter_In (fun b => b) x l)). rewrite E. now left.
Qed.

Theorem C70_wedged p n ss al h s db out V :
  (1 <= n)%nat -> acq p n ss al h s db out ->
  (forall b, In (CBallot b) h -> blocked V b) ->
  (forall rv l mm, In (CIn (IRead rv l mm)) h -> l_lver l = V) ->
  (forall rv l, In (CIn (IReread rv l)) h -> l_lver l = V) ->
  (forall nl, ~ In (OCommit nl) out) /\ as_pc s <> PDone SANLK_OK.
Proof.
  intros N A B RD RR.
  assert (NW : forall h' s' db' out' cur d, acq p n ss al h' s' db' out' ->
             (forall c, In c h' -> In c h) -> as_pc s' = PWrite cur d -> False).
  { intros h' s' db' out' cur d A' SB P.
    assert (M : has_memory h') by (intros b I; apply (B b (SB _ I))).
    destruct (acq_cur _ _ _ _ _ _ _ _ cur A') as (rv & mm & I & _); [now rewrite P|].
    assert (LV : l_lver cur = V) by (apply (RD rv cur mm); auto).
    destruct (write_won _ _ _ _ _ _ _ _ _ _ N M A' P) as (b & h'' & mb & -> & (U & _) & _).
    destruct (B b (SB _ (or_introl eq_refl))) as (_ & K).
    destruct U as [_ R1 _ _ S1 _]. destruct (majority_some _ _ R1) as (x & J & ->).
    apply in_map_iff in J as ([rv' bks] & O & J). cbn in O.
    destruct (K rv' bks J O) as (bk & J1 & J2).
    destruct (S1 bk); [exists rv', bks; auto| |]; lia. }
  assert (X : forall h' s' db' out', acq p n ss al h' s' db' out' -> (forall c, In c h' -> In c h) ->
            (forall nl, ~ In (OCommit nl) out') /\ as_pc s' <> PDone SANLK_OK).
  { induction 1 as [|h1 s1 db1 out1 i s2 o A1 IH NB S|h1 s1 db1 out1 cur' mbal b rv db' rt s2 o A1 IH P F R S]; intros SB.
    - split; [intros nl []|]. unfold astart. destruct (ss =? 0)%Z; discriminate.
    - destruct IH as [IH1 IH2]; [intros c I; apply SB; now right|].
      assert (SB' : forall c, In c h1 -> In c h) by (intros c I; apply SB; now right).
      split.
      + intros nl I. apply in_app_or in I as [I|I]; [|exact (IH1 _ I)].
        destruct (astep_out _ _ _ _ _ _ S I) as (cur & d & t & rv & P & _). eapply NW; eauto.
      + intros W. destruct (astep_to_ok _ _ _ _ _ S W) as [(t & rv & cur & d & -> & P & _)|
          (rv & l & cur & mb & -> & P & _ & _ & LV & _)]; [eapply NW; eauto|].
        destruct (acq_cur _ _ _ _ _ _ _ _ cur A1) as (rv' & mm & I & _); [now rewrite P|].
        apply SB' in I. apply RD in I. assert (l_lver l = V) by (apply (RR rv); apply SB; now left). lia.
    - destruct IH as [IH1 IH2]; [intros c I; apply SB; now right|].
      split.
      + intros nl I. apply in_app_or in I as [I|I]; [|exact (IH1 _ I)].
        destruct (astep_out _ _ _ _ _ _ S I) as (cur & d & t & rv' & _ & J & _). discriminate J.
      + intros W. destruct (astep_to_ok _ _ _ _ _ S W) as [(t & rv' & cur & d & I & _)|(rv' & l & cur & mb & I & _)];
          discriminate I. }
  apply (X h s db out A). auto.
Qed.

(* ---- the function and the steps of Ballot.v: whatever the other hosts do between its
   calls, an execution of run_ballot is an execution of Ballot.v in which the host ends with
   a decision for the block returned exactly when the function returns 0 ---- *)
Theorem C70_refines c n h gen sh lver mbal hit1 hit2 i db rv x rt s s' :
  c_disks c = n -> may_start c h lver mbal -> 1 <= b_now i ->
  fits n (N.to_nat (c_hosts c)) i ->
  Forall (fun x => all_good (snd x)) (b_r1 i) -> Forall (fun x => all_good (snd x)) (b_r2 i) ->
  alloc_all (b_alloc i) = 0%Z ->
  run_ballot n h gen lver mbal i db = (rv, x, rt) ->
  s_loc s h = Idle ->
  mix c h s (ballot_acts n h gen sh lver mbal hit1 hit2 i) s' ->
  s_loc s' h = (if (rv =? 0)%Z then Dec x (okidx 0 (b_w2 i) []) else Idle) /\ s_gen s' h = gen.
Proof.
  intros D M NOW F G1 G2 A R I X.
  eapply mix_lrun; [exact X|]. rewrite I. eapply ballot_run; eauto.
Qed.

(* and Ballot.v does not refuse any of its steps *)
Lemma wacts_actor h sh hit j ws : Forall (fun a => actor (fst a) = Some h) (wacts h sh hit j ws).
Proof.
  revert j. induction ws as [|rv ws IH]; intros j; cbn [wacts]; [constructor|].
  apply Forall_app. split; [|apply IH]. destruct (0 <=? rv)%Z; [|destruct (hit j)]; repeat constructor.
Qed.
Lemma racts_actor h j l : Forall (fun a => actor (fst a) = Some h) (racts h j l).
Proof.
  revert j. induction l as [|[u b] l IH]; intros j; cbn [racts]; [constructor|].
  apply Forall_app. split; [|apply IH]. destruct u; [|constructor]. generalize 1%nat.
  induction b as [|[g b'] b IHb]; intros q; cbn [dacts]; constructor; auto.
Qed.
Lemma ballot_actor n h gen sh lver mbal hit1 hit2 i :
  Forall (fun a => actor (fst a) = Some h) (ballot_acts n h gen sh lver mbal hit1 hit2 i).
Proof.
  unfold ballot_acts, own.
  repeat match goal with
  | |- Forall _ (if ?b then _ else _) => destruct b
  | |- Forall _ (match ?b with _ => _ end) => destruct b
  | |- Forall _ (_ ++ _) => apply Forall_app; split
  | |- Forall _ (_ :: _) => constructor; [reflexivity|]
  | |- Forall _ [] => constructor
  | |- Forall _ (wacts _ _ _ _ _) => apply wacts_actor
  | |- Forall _ (racts _ _ _) => apply racts_actor
  end.
Qed.

Theorem C70_enabled c n h gen sh lver mbal hit1 hit2 i s pre a v post s1 :
  c_disks c = n -> may_start c h lver mbal -> 1 <= b_now i ->
  fits n (N.to_nat (c_hosts c)) i ->
  Forall (fun x => all_good (snd x)) (b_r1 i) -> Forall (fun x => all_good (snd x)) (b_r2 i) ->
  alloc_all (b_alloc i) = 0%Z ->
  s_loc s h = Idle ->
  ballot_acts n h gen sh lver mbal hit1 hit2 i = pre ++ (a, v) :: post ->
  mix c h s pre s1 -> exists s2, step c s1 a = Some s2.
Proof.
  intros D M NOW F G1 G2 A I E X.
  destruct (run_ballot n h gen lver mbal i zero_blk) as [[rv x] rt] eqn:R.
  pose proof (ballot_run c n h gen sh lver mbal hit1 hit2 i zero_blk rv x rt (s_gen s h) D M NOW F G1 G2 A R) as L.
  rewrite E, lrun_app in L.
  destruct (lrun c h (s_gen s h) Idle pre) as [[g l]|] eqn:P; [|discriminate].
  rewrite <- I in P. destruct (mix_lrun _ _ _ _ _ _ _ X P) as [P1 P2]. cbn [lrun] in L.
  destruct (lstep c h g l a v) as [[g' l']|] eqn:S; [|discriminate].
  eapply own_enabled; [|rewrite P1, P2; exact S].
  pose proof (ballot_actor n h gen sh lver mbal hit1 hit2 i) as AC. rewrite E in AC.
  apply Forall_app in AC as [_ AC]. now inversion AC.
Qed.

(* ---- what the leader record read back between two ballots decides: the version competed
   for has been written, by this or another host; a later one has; something else has
   changed; nothing has ---- *)
Theorem C70_reread p ss al h s out rv l cur :
  arun p (astart ss al) (IReread rv l :: h) = Some (s, out) -> (0 <= rv)%Z -> last_read h = Some cur ->
  (l_lver l = l_lver cur + 1 ->
     as_ret s = Some l /\
     ((l_owner_id l = a_host p /\ l_owner_generation l = a_gen p /\ as_pc s = PDone SANLK_OK) \/
      (~ (l_owner_id l = a_host p /\ l_owner_generation l = a_gen p) /\
       as_pc s = PDone SANLK_ACQUIRE_OWNED))) /\
  (l_lver l <> l_lver cur + 1 -> l <> cur -> as_pc s = PRead) /\
  (l = cur -> exists mbal, as_pc s = PBallot cur mbal).
Proof.
  cbn [arun]. destruct (arun p (astart ss al) h) as [[s0 o0]|] eqn:A; [|discriminate].
  destruct (astep p s0 (IReread rv l)) as [[s1 o1]|] eqn:S; [|discriminate].
  intros E R LR. injection E as <- <-.
  unfold astep in S. destruct (as_pc s0) eqn:P; try discriminate S.
  assert (C : last_read h = Some cur0).
  { eapply arun_cur; [exact A|]. rewrite P. reflexivity. }
  rewrite LR in C. injection C as <-.
  replace (rv <? 0)%Z with false in S by (symmetry; apply Z.ltb_ge; exact R).
  injection S as <- <-. unfold check_leader, done_ret, to_pc.
  split; [|split].
  - intros V. rewrite V, N.eqb_refl.
    destruct ((l_owner_id l =? a_host p) && (l_owner_generation l =? a_gen p)) eqn:O; cbn [as_pc as_ret];
      (split; [reflexivity|]); [left|right]; split; try lia; auto. split; auto. lia.
  - intros V D. replace (l_lver l =? l_lver cur + 1) with false by (symmetry; apply N.eqb_neq; exact V).
    destruct (l_lver cur + 1 <? l_lver l); [reflexivity|].
    destruct (leader_eqb cur l) eqn:Q; [|reflexivity]. apply leader_eqb_eq in Q. congruence.
  - intros ->. replace (l_lver cur =? l_lver cur + 1) with false by (symmetry; apply N.eqb_neq; lia).
    replace (l_lver cur + 1 <? l_lver cur) with false by (symmetry; apply N.ltb_ge; lia).
    replace (leader_eqb cur cur) with true by (symmetry; apply leader_eqb_eq; reflexivity).
    cbn. eauto.
Qed.

(* a ballot that is repeated without reading the whole lease again has the next number of
   the host, for the same version and number of hosts *)
Theorem C70_next_number p ss al h s out rv1 d1 rv2 d2 mid cur :
  arun p (astart ss al) (IBallot rv2 d2 :: mid ++ IBallot rv1 d1 :: h) = Some (s, out) ->
  last_read h = Some cur ->
  (forall rv l mm, ~ In (IRead rv l mm) mid) -> (forall rv d, ~ In (IBallot rv d) mid) ->
  exists out' m, out = OBallot (l_num_hosts cur) (l_lver cur + 1) (m + l_max_hosts cur)
                       :: OBallot (l_num_hosts cur) (l_lver cur + 1) m :: out'.
Proof.
  intros E LR NR NB.
  cbn [arun] in E. destruct (arun p (astart ss al) (mid ++ IBallot rv1 d1 :: h)) as [[s2 o2]|] eqn:A2; [|discriminate].
  assert (X : (exists rv, as_pc s2 = PDone rv) \/
    exists m out', o2 = OBallot (l_num_hosts cur) (l_lver cur + 1) m :: out' /\
    match as_pc s2 with
    | PRetry c mb | PBallot c mb => c = cur /\ mb = m + l_max_hosts cur
    | PDone _ | PRead | PWrite _ _ => True
    | _ => False
    end).
  { clear E s out. revert s2 o2 A2. induction mid as [|i mid IH]; intros s2 o2 A2.
    - right. cbn [app arun] in A2. destruct (arun p (astart ss al) h) as [[s0 o0]|] eqn:A; [|discriminate].
      destruct (astep p s0 (IBallot rv1 d1)) as [[s1 o1]|] eqn:S; [|discriminate].
      injection A2 as <- <-. unfold astep in S. destruct (as_pc s0) eqn:P; try discriminate S.
      assert (C : last_read h = Some cur0).
      { eapply arun_cur; [exact A|]. rewrite P. reflexivity. }
      rewrite LR in C. injection C as <-. injection S as <- <-.
      exists our_mbal, o0. split; [reflexivity|].
      destruct ((rv1 =? SANLK_DBLOCK_MBAL)%Z || (rv1 =? SANLK_DBLOCK_LVER)%Z); [split; reflexivity|].
      destruct (rv1 <? 0)%Z; exact I.
    - cbn [app arun] in A2.
      destruct (arun p (astart ss al) (mid ++ IBallot rv1 d1 :: h)) as [[s0 o0]|] eqn:A; [|discriminate].
      destruct (astep p s0 i) as [[s1 o1]|] eqn:S; [|discriminate]. injection A2 as <- <-.
      destruct IH with (s2 := s0) (o2 := o0) as [(rv & Q)|(m & out' & -> & Q)]; auto.
      { intros rv l mm J. eapply NR. right. exact J. }
      { intros rv d J. eapply NB. right. exact J. }
      { unfold astep in S. rewrite Q in S. discriminate S. }
      unfold astep in S. destruct (as_pc s0) eqn:P; destruct i; try discriminate S; try (destruct Q; fail);
        try (exfalso; eapply NR; left; reflexivity); try (exfalso; eapply NB; left; reflexivity).
      + right. destruct Q as [-> ->]. injection S as <- <-. exists m, out'. split; [reflexivity|].
        destruct (rv <? 0)%Z; [exact I|]. unfold check_leader, done_ret, to_pc.
        repeat match goal with |- context [if ?b then _ else _] => destruct b; cbn [as_pc] end; auto.
      + left. cbv zeta in S. injection S as <- _.
        repeat match goal with |- context [if ?b then _ else _] => destruct b; cbn [as_pc done_ret] end; eauto. }
  destruct (astep p s2 (IBallot rv2 d2)) as [[s3 o3]|] eqn:S; [|discriminate]. injection E as _ <-.
  unfold astep in S. destruct X as [(rv & Q)|(m & out' & -> & Q)].
  { rewrite Q in S. discriminate S. }
  destruct (as_pc s2) eqn:P; try discriminate S. destruct Q as [-> ->]. injection S as _ <-.
  exists out', m. reflexivity.
Qed.

(* two ballots of one acquire; then the record shows the version of the second, ours and not *)
Definition twice : list ainput :=
  [IBallot SANLK_DBLOCK_MBAL (to_ad y1); IReread 0 freeL; IBallot SANLK_DBLOCK_MBAL (to_ad y1); IRead 0 freeL 0].
Example C70_reread_nonvacuous :
  (exists s out, arun host1 (astart 512 1048576) twice = Some (s, out) /\
     out = [OBallot (l_num_hosts freeL) 8 2001; OBallot (l_num_hosts freeL) 8 1]) /\
  last_read twice = Some freeL /\
  (exists s out, arun host1 (astart 512 1048576)
     (IReread 0 (new_leader host1 freeL (to_ad y1) 950) :: twice) = Some (s, out) /\
     as_pc s = PDone SANLK_OK) /\
  (exists s out, arun host1 (astart 512 1048576)
     (IReread 0 (new_leader host2 freeL (to_ad y2) 950) :: twice) = Some (s, out) /\
     as_pc s = PDone SANLK_ACQUIRE_OWNED).
Proof.
  split; [|split; [reflexivity|split]]; eexists; eexists; split; vm_compute; reflexivity.
Qed.

(* the ballot of host 2 above: won, and as steps of Ballot.v *)
Example C70_nonvacuous :
  has_memory run2 /\ undisturbed 1 8 2002 bin2 /\
  run_ballot 1 2 5 8 2002 bin2 zero_blk = (0%Z, y2, false) /\
  run_ballot 1 1 1 8 1 bin1 zero_blk = (SANLK_DBLOCK_MBAL, y1, false) /\
  may_start (mkC 1 2 2000) 2 8 2002 /\
  blocked 7 (mkBin [0%Z] [0%Z] [(0%Z, [(true, phase1_blk 9 1); (true, zero_blk)])] 900 [0%Z] [(0%Z, [])]) /\
  lrun (mkC 1 2 2000) 2 0 Idle (ballot_acts 1 2 5 0 8 2002 (fun _ => false) (fun _ => false) bin2) =
    Some (5, Dec y2 [0%nat]).
Proof.
  split; [|split; [|split; [|split; [|split; [|split]]]]]; try reflexivity.
  - intros b I. cbn in I. destruct I as [I|[I|[I|[]]]]; try discriminate I. injection I as <-. reflexivity.
  - constructor; try (cbv; lia).
    + intros b (rv & bks & [E|[]] & _ & I). injection E as <- <-.
      destruct I as [I|[I|[]]]; injection I as <-; right; cbv; split; congruence.
    + intros b (x & [<-|[]] & _ & I). cbn in I.
      destruct I as [I|[I|[]]]; injection I as <-; right; cbv; split; congruence.
  - repeat split; cbv; congruence.
  - split; auto. intros rv bks [E|[]] _. injection E as <- <-. exists (phase1_blk 9 1). split; [now left|reflexivity].
Qed.

Print Assumptions C70_refuted.
Print Assumptions C70_two_owners.
Print Assumptions C70_version_goes_back.
Print Assumptions C70_ballot_partial.
Print Assumptions C70_ballot_wins.
Print Assumptions C70_partial.
Print Assumptions C70_next_version_partial.
Print Assumptions C70_wedged.
Print Assumptions C70_refines.
Print Assumptions C70_enabled.
Print Assumptions C70_reread.
Print Assumptions C70_next_number.
Print Assumptions C70_nonvacuous.
