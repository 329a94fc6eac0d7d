(* C69: the lease of a dead host can be taken over, in bounded time
   (paxos_lease.c:1687-2191; model in Acquire.v). *)
From Coq Require Import List NArith ZArith Lia Bool ZifyBool ZifyN.
From Verif Require Import Bytes Codec Leader LeaderReadNum Sizes Mbal Timeouts HostStatus Acquire.
Import ListNotations.
Open Scope N_scope.

(* number of one-second sleeps in a history (newest first) *)
Fixpoint sleeps (h : list ainput) : N :=
  match h with
  | [] => 0
  | ISleep _ _ _ :: r => 1 + sleeps r
  | _ :: r => sleeps r
  end.

(* Spec: what the calls deliver while the owner is dead and nobody else touches the
   lease.  The lease record stays cur, the host lease stays D, reads work, nobody shuts
   the daemon down, and a sleep takes a second: t0 is the time at the beginning. *)
Fixpoint quiet (cur D : leader) (t0 : N) (h : list ainput) : Prop :=
  match h with
  | [] => True
  | i :: r =>
      quiet cur D t0 r /\
      match i with
      | ISleep sh rv l => sh = false /\ (0 <= rv)%Z /\ l = cur
      | IDelta rv d _ => (0 <= rv)%Z /\ d = D
      | INow now => t0 + sleeps r <= now < 2 ^ 64
      | _ => False
      end
  end.

(* the owner is dead for our lockspace thread too: either it has not been seen at all, or
   it was not seen alive by the last check *)
Definition not_just_seen (hs : hstatus) : Prop :=
  hs_last_live hs = 0 \/ hs_last_check hs <> hs_last_live hs.

Lemma dead_seconds_eq p hs : dead_seconds p hs = 8 * hs_io_timeout hs + a_fire p.
Proof. unfold dead_seconds, calc_host_dead_seconds. lia. Qed.

(* the wait itself: after 8 * io_timeout + fire_timeout + 1 sleeps it is over *)
Lemma wait_inv p s0 cur D t0 hs ws mm lt0 h :
  as_pc s0 = PDelta cur mm hs ws lt0 ->
  a_nowait p = false -> l_max_hosts cur <> 0 ->
  l_timestamp D <> 0 -> l_owner_id D = l_owner_id cur ->
  l_owner_generation D <= l_owner_generation cur ->
  not_just_seen hs -> ws <= t0 -> (lt0 = 0 \/ lt0 = l_timestamp D) ->
  quiet cur D t0 h -> forall s out, arun p s0 h = Some (s, out) ->
  out = [] /\
  (as_pc s = PRetry cur (first_mbal mm (l_max_hosts cur) (a_host p)) \/
   (as_pc s = PDelta cur mm hs ws 0 /\ sleeps h = 0) \/
   (as_pc s = PDelta cur mm hs ws (l_timestamp D) /\ sleeps h <= dead_seconds p hs + 1) \/
   (as_pc s = PNow cur mm hs ws (l_timestamp D) /\ sleeps h <= dead_seconds p hs + 1) \/
   (as_pc s = PSleep cur mm hs ws (l_timestamp D) /\ sleeps h <= dead_seconds p hs)).
Proof.
  intros P0 NW MH TD OD GD HS W L0. induction h as [|i h IH]; intros Q s out R; cbn in R.
  { injection R as <- <-. split; auto. right. destruct L0 as [->| ->]; [left|right; left];
      (split; [auto|cbn; lia]). }
  destruct Q as [Q Qi].
  destruct (arun p s0 h) as [[s1 o1]|] eqn:R1; [|discriminate].
  destruct (astep p s1 i) as [[s2 o2]|] eqn:S; [|discriminate].
  injection R as <- <-.
  destruct (IH Q s1 o1 eq_refl) as [-> C]. clear IH. rewrite app_nil_r.
  assert (F : negb (hs_last_live hs =? 0) && (hs_last_check hs =? hs_last_live hs) = false).
  { destruct HS as [HS|HS]; destruct (N.eqb_spec (hs_last_live hs) 0),
      (N.eqb_spec (hs_last_check hs) (hs_last_live hs)); auto; lia. }
  destruct C as [C|[(C & B)|[(C & B)|[(C & B)|(C & B)]]]];
    unfold astep in S; rewrite C in S; destruct i; try discriminate S; try (now destruct Qi).
  - destruct Qi as [Rv ->].
    destruct (Z.ltb_spec rv 0); [lia|].
    destruct (N.eqb_spec (l_timestamp D) LEASE_FREE); [now destruct TD|].
    rewrite OD, N.eqb_refl in S. cbn [negb orb] in S.
    destruct (N.ltb_spec (l_owner_generation cur) (l_owner_generation D)); [lia|].
    injection S as <- <-. split; auto. right. right. right. right. cbn [sleeps]. split; auto. rewrite B. apply N.le_0_l.
  - destruct Qi as [Rv ->].
    destruct (Z.ltb_spec rv 0); [lia|].
    destruct (N.eqb_spec (l_timestamp D) LEASE_FREE); [now destruct TD|].
    rewrite OD, N.eqb_refl in S. cbn [negb orb] in S.
    destruct (N.ltb_spec (l_owner_generation cur) (l_owner_generation D)); [lia|].
    destruct (N.eqb_spec (l_timestamp D) 0); [now destruct TD|].
    rewrite N.eqb_refl, F in S. cbn [negb orb] in S.
    injection S as <- <-. split; auto. right. right. right. left. cbn [sleeps]. split; auto.
  - destruct (N.ltb_spec (dead_seconds p hs) (sub64 now ws)).
    + injection S as <- <-. split; auto. left. unfold at_run.
      destruct (N.eqb_spec (l_max_hosts cur) 0); [lia|]. rewrite andb_false_r. reflexivity.
    + rewrite NW in S. injection S as <- <-. split; auto. right. right. right. right. cbn [sleeps].
      split; auto. rewrite sub64_exact in H by lia. lia.
  - destruct Qi as (-> & Rv & ->).
    destruct (Z.ltb_spec rv 0); [lia|].
    assert (leader_eqb cur cur = true) as E by now apply leader_eqb_eq.
    rewrite E in S. injection S as <- <-. split; auto. right. right. left. cbn [sleeps]. split; auto. lia.
Qed.

Lemma arun_step p s0 i h s1 s2 out o :
  arun p s0 h = Some (s1, out) -> astep p s1 i = Some (s2, o) ->
  arun p s0 (i :: h) = Some (s2, o ++ out).
Proof. intros A B. cbn. now rewrite A, B. Qed.

Lemma arun_step0 p s0 i h s1 s2 :
  arun p s0 h = Some (s1, []) -> astep p s1 i = Some (s2, []) ->
  arun p s0 (i :: h) = Some (s2, []).
Proof. intros A B. exact (arun_step _ _ _ _ _ _ _ _ A B). Qed.

(* Spec: host p's acquire finds a record of another host and the owner is dead *)
Definition owned_by_other (p : aparams) (cur : leader) : Prop :=
  l_timestamp cur <> 0 /\ l_owner_id cur <> a_host p /\
  (a_lver p = 0 \/ a_lver p = l_lver cur) /\ a_force p = false /\ a_nowait p = false.

Definition dead_lease (cur D : leader) : Prop :=
  l_timestamp D <> 0 /\ l_owner_id D = l_owner_id cur /\
  l_owner_generation D = l_owner_generation cur.

(* what the lockspace thread knows about the owner, at time now *)
Definition known (cur D : leader) (hs : hstatus) (now : N) : Prop :=
  not_just_seen hs /\ hs_last_live hs <= now /\
  (hs_owner_id hs = l_owner_id cur -> hs_owner_generation hs = l_owner_generation cur ->
   hs_last_live hs <> 0 -> hs_timestamp hs = l_timestamp D).

(* the calls up to the wait: reading the lease, opening the lockspace disk, asking for
   the state of the owner *)
Definition beginning (cur : leader) (mm : N) (hs : hstatus) (now : N) : list ainput :=
  [IHostInfo 0 hs now; ILsDisk 0 0; IRead 0 cur mm].

(* where the calls of the beginning lead *)
Definition no_match (cur : leader) (hs : hstatus) : bool :=
  (hs_last_check hs =? 0) || (hs_last_live hs =? 0) ||
  negb (hs_owner_id hs =? l_owner_id cur) || negb (hs_owner_generation hs =? l_owner_generation cur).

Lemma begin_run p cur mm hs now :
  owned_by_other p cur -> l_sector_size cur <> 0 ->
  arun p (astart (Z.of_N (l_sector_size cur)) (leader_align cur)) (beginning cur mm hs now) =
  Some (mkAs (PDelta cur mm hs (if no_match cur hs then now else hs_last_live hs)
                     (if no_match cur hs then 0 else hs_timestamp hs))
             (Z.of_N (l_sector_size cur)) (leader_align cur) true None, []).
Proof.
  intros (T & O & LV & FO & NW) SS.
  set (s00 := astart (Z.of_N (l_sector_size cur)) (leader_align cur)) in *.
  unfold beginning.
  apply arun_step0 with (s1 := mkAs (PHostInfo cur mm) (Z.of_N (l_sector_size cur)) (leader_align cur) true None).
  apply arun_step0 with (s1 := mkAs (PLsDisk cur mm) (Z.of_N (l_sector_size cur)) (leader_align cur) false None).
  apply arun_step0 with (s1 := s00). reflexivity.
  - unfold s00, astart, astep. cbn [as_pc as_ss as_align as_open].
    destruct (Z.eqb_spec (Z.of_N (l_sector_size cur)) 0); [lia|].
    rewrite !Z.eqb_refl. cbn [andb negb Z.ltb Z.compare]. rewrite FO.
    assert (negb (a_lver p =? 0) && negb (l_lver cur =? a_lver p) = false) as ->.
    { destruct LV as [-> | ->]; [reflexivity|]. rewrite N.eqb_refl. apply andb_false_r. }
    destruct (N.eqb_spec (l_timestamp cur) LEASE_FREE); [now destruct T|].
    destruct (N.eqb_spec (l_owner_id cur) (a_host p)); [now destruct O|]. reflexivity.
  - reflexivity.
  - unfold no_match, astep. cbn [as_pc as_ss as_align as_open as_ret Z.eqb].
    destruct (hs_last_check hs =? 0), (hs_last_live hs =? 0), (hs_owner_id hs =? l_owner_id cur),
      (hs_owner_generation hs =? l_owner_generation cur); reflexivity.
Qed.

Lemma arun_app p s00 b s0 h :
  arun p s00 b = Some (s0, []) -> arun p s00 (h ++ b) = arun p s0 h.
Proof.
  intros B. induction h as [|i h IH]; cbn [app]; [exact B|]. cbn [arun]. now rewrite IH.
Qed.

(* the claim: as long as the owner is dead and nobody else interferes, the acquire is
   waiting or has gone on to the ballot for the next version; it has not given up, and
   after 8 * io_timeout + fire_timeout + 1 sleeps it is not waiting any more *)
Theorem C69_wait_ends p cur D mm hs now h s out :
  owned_by_other p cur -> l_max_hosts cur <> 0 -> l_sector_size cur <> 0 ->
  dead_lease cur D -> known cur D hs now ->
  quiet cur D now h ->
  arun p (astart (Z.of_N (l_sector_size cur)) (leader_align cur)) (h ++ beginning cur mm hs now) = Some (s, out) ->
  out = [] /\
  (as_pc s = PRetry cur (first_mbal mm (l_max_hosts cur) (a_host p)) \/
   (sleeps h <= 8 * hs_io_timeout hs + a_fire p + 1 /\
    exists ws lt, as_pc s = PDelta cur mm hs ws lt \/ as_pc s = PNow cur mm hs ws lt \/
                  as_pc s = PSleep cur mm hs ws lt)).
Proof.
  rewrite <- dead_seconds_eq. intros OW MH SS (D1 & D2 & D3) (K1 & K2 & K3) Q R.
  rewrite (arun_app _ _ _ _ _ (begin_run p cur mm hs now OW SS)) in R.
  destruct OW as (T & O & LV & FO & NW).
  match type of R with arun _ ?x _ = _ => set (s0 := x) in R end.
  set (ws := if no_match cur hs then now else hs_last_live hs) in *.
  set (lt := if no_match cur hs then 0 else hs_timestamp hs) in *.
  assert (W1 : ws <= now) by (unfold ws; destruct (no_match cur hs); lia).
  assert (W2 : lt = 0 \/ lt = l_timestamp D).
  { unfold lt. destruct (no_match cur hs) eqn:M; auto. right. unfold no_match in M. apply K3; lia. }
  destruct (wait_inv p s0 cur D now hs ws mm lt h eq_refl NW MH D1 D2 ltac:(lia) K1 W1 W2 Q s out R)
    as [E C].
  split; auto.
  destruct C as [C|[(C & B')|[(C & B')|[(C & B')|(C & B')]]]]; [left; auto|right..].
  - split; [rewrite B'; apply N.le_0_l|]. eauto.
  - split; eauto.
  - split; eauto.
  - split; [lia|]. eauto 6.
Qed.

(* the wait can always be carried on: no state of it is without a next step *)
Lemma wait_cycle p s0 cur D t0 hs ws mm lt0 h s out n :
  as_pc s0 = PDelta cur mm hs ws lt0 ->
  a_nowait p = false -> l_max_hosts cur <> 0 ->
  l_timestamp D <> 0 -> l_owner_id D = l_owner_id cur ->
  l_owner_generation D <= l_owner_generation cur ->
  not_just_seen hs -> ws <= t0 -> (lt0 = 0 \/ lt0 = l_timestamp D) ->
  t0 + dead_seconds p hs + 1 < 2 ^ 64 ->
  quiet cur D t0 h -> arun p s0 h = Some (s, out) ->
  as_pc s = PDelta cur mm hs ws (l_timestamp D) ->
  sleeps h + N.of_nat n = dead_seconds p hs + 2 ->
  exists h' s', quiet cur D t0 h' /\ arun p s0 h' = Some (s', []) /\
    as_pc s' = PRetry cur (first_mbal mm (l_max_hosts cur) (a_host p)).
Proof.
  intros P0 NW MH TD OD GD HS W L0 TM. revert h s out. induction n as [|n IH]; intros h s out Q R P B.
  { destruct (wait_inv _ _ _ _ _ _ _ _ _ _ P0 NW MH TD OD GD HS W L0 Q _ _ R) as (_ & C).
    rewrite P in C. destruct C as [C|[(C & Y)|[(C & Y)|[(C & Y)|(C & Y)]]]]; try discriminate C; lia. }
  destruct (wait_inv _ _ _ _ _ _ _ _ _ _ P0 NW MH TD OD GD HS W L0 Q _ _ R) as (-> & C).
  assert (SL : sleeps h <= dead_seconds p hs + 1).
  { rewrite P in C. destruct C as [C|[(C & Y)|[(C & Y)|[(C & Y)|(C & Y)]]]]; try discriminate C; auto; lia. }
  clear C.
  assert (F : negb (hs_last_live hs =? 0) && (hs_last_check hs =? hs_last_live hs) = false).
  { destruct HS as [HS|HS]; destruct (N.eqb_spec (hs_last_live hs) 0),
      (N.eqb_spec (hs_last_check hs) (hs_last_live hs)); auto; lia. }
  set (t := t0 + sleeps h).
  assert (R1 : arun p s0 (IDelta 0 D t :: h) = Some (to_pc s (PNow cur mm hs ws (l_timestamp D)), [])).
  { apply arun_step0 with (s1 := s); auto.
    unfold astep. rewrite P. cbn [Z.ltb Z.compare].
    destruct (N.eqb_spec (l_timestamp D) LEASE_FREE); [now destruct TD|].
    rewrite OD, N.eqb_refl. cbn [negb orb].
    destruct (N.ltb_spec (l_owner_generation cur) (l_owner_generation D)); [lia|].
    destruct (N.eqb_spec (l_timestamp D) 0); [now destruct TD|].
    rewrite N.eqb_refl, F. reflexivity. }
  assert (Q1 : quiet cur D t0 (INow t :: IDelta 0 D t :: h)).
  { cbn [quiet sleeps]. repeat split; auto; unfold t; lia. }
  destruct (N.ltb_spec (dead_seconds p hs) (sub64 t ws)) as [G|G].
  - exists (INow t :: IDelta 0 D t :: h), (at_run p (to_pc s (PNow cur mm hs ws (l_timestamp D))) cur mm false).
    split; [exact Q1|]. split.
    + apply arun_step0 with (1 := R1). unfold astep. cbn [as_pc to_pc].
      destruct (N.ltb_spec (dead_seconds p hs) (sub64 t ws)); [reflexivity|lia].
    + unfold at_run. destruct (N.eqb_spec (l_max_hosts cur) 0); [lia|]. rewrite andb_false_r. reflexivity.
  - set (s2 := to_pc (to_pc s (PNow cur mm hs ws (l_timestamp D))) (PSleep cur mm hs ws (l_timestamp D))).
    assert (R2 : arun p s0 (INow t :: IDelta 0 D t :: h) = Some (s2, [])).
    { apply arun_step0 with (1 := R1). unfold astep. cbn [as_pc to_pc].
      destruct (N.ltb_spec (dead_seconds p hs) (sub64 t ws)); [lia|]. rewrite NW. reflexivity. }
    assert (R3 : arun p s0 (ISleep false 0 cur :: INow t :: IDelta 0 D t :: h) =
                 Some (to_pc s2 (PDelta cur mm hs ws (l_timestamp D)), [])).
    { apply arun_step0 with (1 := R2). unfold astep, s2. cbn [as_pc to_pc Z.ltb Z.compare].
      assert (leader_eqb cur cur = true) as -> by now apply leader_eqb_eq. reflexivity. }
    refine (IH _ _ _ _ R3 _ _).
    + split; [exact Q1|]. repeat split; lia.
    + reflexivity.
    + cbn [sleeps]. lia.
Qed.

(* there is such a run, and it gets to the ballot: the wait cannot be stuck *)
Theorem C69_gets_there p cur D mm hs now :
  owned_by_other p cur -> l_max_hosts cur <> 0 -> l_sector_size cur <> 0 ->
  dead_lease cur D -> known cur D hs now ->
  now + 8 * hs_io_timeout hs + a_fire p + 1 < 2 ^ 64 ->
  exists h s, quiet cur D now h /\
    arun p (astart (Z.of_N (l_sector_size cur)) (leader_align cur)) (h ++ beginning cur mm hs now) = Some (s, []) /\
    as_pc s = PRetry cur (first_mbal mm (l_max_hosts cur) (a_host p)).
Proof.
  intros OW MH SS (D1 & D2 & D3) (K1 & K2 & K3) TM.
  rewrite <- (N.add_assoc now), <- dead_seconds_eq in TM.
  pose proof (fun h => arun_app _ _ _ _ h (begin_run p cur mm hs now OW SS)) as B.
  destruct OW as (T & O & LV & FO & NW).
  set (ws := if no_match cur hs then now else hs_last_live hs) in *.
  set (lt := if no_match cur hs then 0 else hs_timestamp hs) in *.
  match type of B with forall h, _ = arun _ ?x _ => set (s0 := x) in B end.
  assert (W1 : ws <= now) by (unfold ws; destruct (no_match cur hs); lia).
  assert (W2 : lt = 0 \/ lt = l_timestamp D).
  { unfold lt. destruct (no_match cur hs) eqn:M; auto. right. unfold no_match in M. apply K3; lia. }
  assert (X : exists h s', quiet cur D now h /\ arun p s0 h = Some (s', []) /\
    as_pc s' = PRetry cur (first_mbal mm (l_max_hosts cur) (a_host p))).
  { destruct W2 as [E|E].
    - set (h1 := [ISleep false 0 cur; IDelta 0 D now]).
      set (s1 := to_pc (to_pc s0 (PSleep cur mm hs ws (l_timestamp D))) (PDelta cur mm hs ws (l_timestamp D))).
      assert (R : arun p s0 h1 = Some (s1, [])).
      { apply arun_step0 with (s1 := to_pc s0 (PSleep cur mm hs ws (l_timestamp D))).
        - apply arun_step0 with (s1 := s0); [reflexivity|]. unfold astep, s0. cbn [as_pc Z.ltb Z.compare].
          destruct (N.eqb_spec (l_timestamp D) LEASE_FREE); [now destruct D1|].
          rewrite D2, D3, N.eqb_refl, N.ltb_irrefl, E. reflexivity.
        - unfold astep. cbn [as_pc to_pc Z.ltb Z.compare].
          assert (leader_eqb cur cur = true) as -> by now apply leader_eqb_eq. reflexivity. }
      apply (wait_cycle p s0 cur D now hs ws mm lt h1 s1 [] (N.to_nat (dead_seconds p hs + 1)) eq_refl NW MH D1 D2
        ltac:(lia) K1 W1 (or_introl E) TM).
      + repeat split; lia.
      + exact R.
      + reflexivity.
      + cbn [sleeps h1]. lia.
    - apply (wait_cycle p s0 cur D now hs ws mm lt [] s0 [] (N.to_nat (dead_seconds p hs + 2)) eq_refl NW MH D1 D2
        ltac:(lia) K1 W1 (or_intror E) TM).
      + exact Logic.I.
      + reflexivity.
      + unfold s0. cbn [as_pc]. now rewrite E.
      + cbn [sleeps]. lia. }
  destruct X as (h & s & Q & R & P). exists h, s. rewrite B. auto.
Qed.

(* and it goes on: the next pass after the wait is the ballot.  In the time in which
   8 * io_timeout + fire_timeout have passed since the owner was last seen, one more look at the clock is
   enough *)
Theorem C69_goes_on p s cur D mm hs ws lt now :
  as_pc s = PDelta cur mm hs ws lt -> lt <> 0 -> lt = l_timestamp D ->
  dead_lease cur D -> not_just_seen hs -> l_max_hosts cur <> 0 ->
  ws + 8 * hs_io_timeout hs + a_fire p < now -> now < 2 ^ 64 ->
  exists s', arun p s [INow now; IDelta 0 D 0] = Some (s', []) /\
    as_pc s' = PRetry cur (first_mbal mm (l_max_hosts cur) (a_host p)).
Proof.
  intros P L ->. intros (D1 & D2 & D3) HS MH T1 T2.
  rewrite <- N.add_assoc, <- dead_seconds_eq in T1.
  assert (F : negb (hs_last_live hs =? 0) && (hs_last_check hs =? hs_last_live hs) = false).
  { destruct HS as [HS|HS]; destruct (N.eqb_spec (hs_last_live hs) 0),
      (N.eqb_spec (hs_last_check hs) (hs_last_live hs)); auto; lia. }
  exists (at_run p (to_pc s (PNow cur mm hs ws (l_timestamp D))) cur mm false). split.
  - apply (arun_step p s _ [IDelta 0 D 0] (to_pc s (PNow cur mm hs ws (l_timestamp D))) _ [] []).
    + apply (arun_step p s _ [] s _ [] []); [reflexivity|].
      unfold astep. rewrite P. cbn [Z.ltb Z.compare].
      destruct (N.eqb_spec (l_timestamp D) LEASE_FREE); [now destruct D1|].
      rewrite D2, D3, N.eqb_refl, N.ltb_irrefl. cbn [negb orb].
      destruct (N.eqb_spec (l_timestamp D) 0); [now destruct D1|].
      rewrite N.eqb_refl, F. reflexivity.
    + unfold astep. cbn [as_pc to_pc]. rewrite sub64_exact by lia.
      destruct (N.ltb_spec (dead_seconds p hs) (now - ws)); [|lia]. reflexivity.
  - unfold at_run.
    destruct (N.eqb_spec (l_max_hosts cur) 0); [lia|]. rewrite andb_false_r. reflexivity.
Qed.

(* undisturbed, the ballot gives the lease to the waiting host: the new record names it
   as the owner of the next version *)
Theorem C69_taken_over p s cur mb now t :
  as_pc s = PRetry cur mb ->
  exists s' nl, arun p s [IWrite t 0; IBallot 0 (mkAd (l_lver cur + 1) (a_host p) (a_gen p) now); IReread 0 cur]
    = Some (s', [OCommit nl; OBallot (l_num_hosts cur) (l_lver cur + 1) mb]) /\
  as_pc s' = PDone SANLK_OK /\ as_ret s' = Some nl /\
  l_owner_id nl = a_host p /\ l_owner_generation nl = a_gen p /\ l_timestamp nl = now /\
  l_lver nl = l_lver cur + 1.
Proof.
  intros P. set (d := mkAd (l_lver cur + 1) (a_host p) (a_gen p) now).
  exists (done_ret (to_pc (to_pc s (PBallot cur mb)) (PWrite cur d)) SANLK_OK (new_leader p cur d t)), (new_leader p cur d t).
  split; [|repeat split].
  apply (arun_step p s _ [IBallot 0 d; IReread 0 cur] (to_pc (to_pc s (PBallot cur mb)) (PWrite cur d)) _
    [OBallot (l_num_hosts cur) (l_lver cur + 1) mb] [OCommit (new_leader p cur d t)]).
  - apply (arun_step p s _ [IReread 0 cur] (to_pc s (PBallot cur mb)) _ [] [OBallot (l_num_hosts cur) (l_lver cur + 1) mb]); [|reflexivity].
    apply (arun_step p s _ [] s _ [] []); [reflexivity|].
    unfold astep. rewrite P. cbn [Z.ltb Z.compare].
    unfold check_leader. destruct (N.eqb_spec (l_lver cur) (l_lver cur + 1)); [lia|].
    destruct (N.ltb_spec (l_lver cur + 1) (l_lver cur)); [lia|].
    assert (leader_eqb cur cur = true) as E by now apply leader_eqb_eq.
    rewrite E. reflexivity.
  - unfold astep. cbn [as_pc to_pc Z.ltb Z.compare].
    assert (l_owner_id (new_leader p cur d t) = a_host p) as -> by reflexivity.
    rewrite N.eqb_refl. reflexivity.
Qed.

(* a dead owner: host 2 has renewed for the last time at 120 and was last seen alive at
   105; it is 1000 now.  The wait for dead_seconds = 80 + 60 seconds is over. *)
Definition curL : leader :=
  mkLeader PAXOS_DISK_MAGIC 0x00060004 0x110 512 2000 2000 2 1 7 [] [] 100 0 0 0 10 2 1 100.
Definition dL : leader :=
  mkLeader DELTA_DISK_MAGIC 0x00030004 0x110 512 2000 2000 2 1 0 [] [] 120 0 0 0 10 2 1 120.
Definition hs0 : hstatus := mkHs 50 110 105 2 1 120 10.
Definition p0 : aparams := mkAp 1 1 false false false 0 0 60.
Example C69_nonvacuous :
  owned_by_other p0 curL /\ dead_lease curL dL /\ known curL dL hs0 1000 /\
  quiet curL dL 1000 [INow 1000; IDelta 1 dL 1000] /\
  option_map (fun x => (as_pc (fst x), snd x)) (arun p0 (astart 512 1048576)
    ([INow 1000; IDelta 1 dL 1000] ++ beginning curL 0 hs0 1000)) = Some (PRetry curL 1, []).
Proof.
  repeat split; try discriminate; try (left; reflexivity); try (right; discriminate); try lia; try reflexivity;
    try (vm_compute; discriminate).
Qed.

Print Assumptions C69_wait_ends.
Print Assumptions C69_gets_there.
Print Assumptions C69_goes_on.
Print Assumptions C69_taken_over.
Print Assumptions C69_nonvacuous.
