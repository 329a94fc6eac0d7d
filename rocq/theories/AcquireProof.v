(* Why an acquire competes: the invariant behind C13 and C14. *)
From Coq Require Import List NArith ZArith Lia Bool Arith ZifyBool ZifyN.
From Verif Require Import Bytes Codec Leader LeaderReadNum Sizes Mbal Timeouts HostStatus Acquire.
Import ListNotations.
Open Scope N_scope.

(* the calls since the lease was last read in full, newest first *)
Fixpoint since (h : list ainput) : list ainput :=
  match h with
  | [] => []
  | IRead _ _ _ :: _ => []
  | i :: r => i :: since r
  end.

(* the host lease of the owner as read during the wait *)
Definition delta_seen (new : list ainput) (d : leader) : Prop :=
  exists rv t, In (IDelta rv d t) new /\ (0 <= rv)%Z.

Definition moved (cur d : leader) : Prop :=
  l_owner_id d <> l_owner_id cur \/ l_owner_generation cur < l_owner_generation d.

Inductive reason (p : aparams) (cur : leader) (new : list ainput) : Prop :=
| R_free : l_timestamp cur = 0 -> reason p cur new
| R_own : l_owner_id cur = a_host p -> l_owner_generation cur <= a_gen p -> reason p cur new
| R_host_free d : delta_seen new d -> l_timestamp d = 0 -> reason p cur new
| R_host_moved d : delta_seen new d -> moved cur d -> reason p cur new
| R_released fl : In (IDblock 0 fl) new -> has fl DBLOCK_FL_RELEASED = true ->
    l_write_id cur <> l_owner_id cur -> reason p cur new
| R_silent rv hs t0 now T start :
    In (IHostInfo rv hs t0) new -> In (INow now) new ->
    (exists d, delta_seen new d) -> (forall d, delta_seen new d -> l_timestamp d = T) ->
    (start = t0 \/
     (rv = 0%Z /\ start = hs_last_live hs /\ hs_owner_id hs = l_owner_id cur /\
      hs_owner_generation hs = l_owner_generation cur /\ (hs_timestamp hs = T \/ hs_timestamp hs = 0))) ->
    8 * hs_io_timeout hs + a_fire p < sub64 now start ->
    reason p cur new.

Definition is_delta (i : ainput) : bool := match i with IDelta _ _ _ => true | _ => false end.

Lemma delta_seen_cons i new d : is_delta i = false -> (delta_seen (i :: new) d <-> delta_seen new d).
Proof.
  intros D. unfold delta_seen. split; intros (rv & t & I & H).
  - destruct I as [->|I]; [discriminate D|eauto].
  - exists rv, t. split; [right|]; auto.
Qed.

Lemma reason_cons p cur i new : is_delta i = false -> reason p cur new -> reason p cur (i :: new).
Proof.
  intros D R. pose proof (delta_seen_cons i new) as X.
  destruct R.
  - apply R_free; auto.
  - apply R_own; auto.
  - eapply R_host_free; eauto. apply X; eauto.
  - eapply R_host_moved; eauto. apply X; eauto.
  - eapply R_released; eauto. right; auto.
  - refine (R_silent p cur (i :: new) rv hs t0 now T start _ _ _ _ _ _); auto.
    + right; auto.
    + right; auto.
    + destruct H1 as (d & H1). exists d. apply X; auto.
    + intros d Hd. apply H2. apply X; auto.
Qed.

(* what the wait has established: ws, lt come from host_info or from the clock *)
Definition waitinv (cur : leader) (new : list ainput) (hs : hstatus) (ws lt : N) : Prop :=
  exists rv t0, In (IHostInfo rv hs t0) new /\
    (ws = t0 \/ (rv = 0%Z /\ ws = hs_last_live hs /\ hs_owner_id hs = l_owner_id cur /\
                 hs_owner_generation hs = l_owner_generation cur /\
                 (hs_timestamp hs = lt \/ hs_timestamp hs = 0))) /\
    (forall d, delta_seen new d -> l_timestamp d = lt /\ lt <> 0).

Definition ainv (p : aparams) (pc : apc) (new : list ainput) : Prop :=
  match pc with
  | PLsDisk cur mm | PHostInfo cur mm => forall d, ~ delta_seen new d
  | PDelta cur mm hs ws lt => waitinv cur new hs ws lt
  | PSleep cur mm hs ws lt => waitinv cur new hs ws lt
  | PNow cur mm hs ws lt => waitinv cur new hs ws lt /\ exists d, delta_seen new d
  | PDblock cur mm => l_write_id cur <> l_owner_id cur
  | PRetry cur _ | PBallot cur _ | PWrite cur _ => reason p cur new
  | _ => True
  end.

Lemma ainv_run p s cur mm copy new :
  reason p cur new -> ainv p (as_pc (at_run p s cur mm copy)) new.
Proof.
  intros R. destruct (at_run_pc p s cur mm copy) as [H|[(rv & H)|[H|(mb & [H|H])]]];
    rewrite H; cbn; auto.
Qed.

Lemma ainv_check p s cur tmp mb new :
  reason p cur new -> ainv p (as_pc (check_leader p s cur tmp mb)) new.
Proof.
  intros R. destruct (check_leader_pc p s cur tmp mb) as [H|[(rv & H)|(H & _)]]; rewrite H; cbn; auto.
Qed.

Lemma waitinv_cons cur i new hs ws lt :
  is_delta i = false -> waitinv cur new hs ws lt -> waitinv cur (i :: new) hs ws lt.
Proof.
  intros D (rv & t0 & I & S & A). exists rv, t0. split; [right; auto|]. split; auto.
  intros d Hd. apply A. apply (delta_seen_cons i); auto.
Qed.

Lemma dead_seconds_eq p hs : dead_seconds p hs = 8 * hs_io_timeout hs + a_fire p.
Proof. unfold dead_seconds, calc_host_dead_seconds. lia. Qed.

Lemma astep_ainv p s i s' o h :
  a_force p = false ->
  astep p s i = Some (s', o) -> ainv p (as_pc s) (since h) -> ainv p (as_pc s') (since (i :: h)).
Proof.
  intros F H A. unfold astep in H.
  destruct (as_pc s) eqn:P; destruct i; try discriminate H; injection H as H _; subst s';
    cbn [since]; cbn [ainv] in A.
  - (* read *)
    rewrite F.
    destruct (rv <? 0)%Z; [cbn; auto|].
    destruct (negb ((Z.of_N (l_sector_size l) =? as_ss s)%Z && _)); [cbn; auto|].
    destruct (negb (a_lver p =? 0) && _); [cbn; auto|].
    destruct (l_timestamp l =? LEASE_FREE) eqn:E1.
    { apply ainv_run. apply R_free. unfold LEASE_FREE in *. lia. }
    destruct ((l_owner_id l =? a_host p) && (l_owner_generation l =? a_gen p)) eqn:E2.
    { apply ainv_run. apply R_own; lia. }
    destruct ((l_owner_id l =? a_host p) && (l_owner_generation l <? a_gen p)) eqn:E3.
    { apply ainv_run. apply R_own; lia. }
    destruct (as_open s); cbn; intros d (rv' & t & [] & _).
  - destruct (rv <? 0)%Z; [cbn; auto|]. destruct (rv_open <? 0)%Z; [cbn; auto|]. cbn.
    intros d Hd. apply (A d). apply (delta_seen_cons (ILsDisk rv rv_open)); auto.
  - (* host_info *)
    match goal with |- context [if ?b then _ else _] => destruct b eqn:E end; cbn [ainv to_pc as_pc].
    + exists rv, now. split; [left; reflexivity|]. split.
      * right. repeat split; try lia.
      * intros d Hd. exfalso. apply (A d). apply (delta_seen_cons (IHostInfo rv hs now)); auto.
    + exists rv, now. split; [left; reflexivity|]. split; [left; reflexivity|].
      intros d Hd. exfalso. apply (A d). apply (delta_seen_cons (IHostInfo rv hs now)); auto.
  - (* delta read *)
    destruct (rv <? 0)%Z eqn:RV; [cbn; auto|].
    assert (SD : delta_seen (IDelta rv d at_ :: since h) d).
    { exists rv, at_. split; [left; reflexivity|lia]. }
    destruct (l_timestamp d =? LEASE_FREE) eqn:E1.
    { apply ainv_run. eapply R_host_free; [exact SD|unfold LEASE_FREE in *; lia]. }
    destruct (negb (l_owner_id d =? l_owner_id cur) || _) eqn:E2.
    { apply ainv_run. eapply R_host_moved; [exact SD|]. unfold moved. lia. }
    unfold LEASE_FREE in *.
    assert (W : l_timestamp d = lt \/ lt = 0 ->
                waitinv cur (IDelta rv d at_ :: since h) hs ws (l_timestamp d)).
    { intros T. destruct A as (rv' & t0 & I & S & AD). exists rv', t0. split; [right; auto|]. split.
      - destruct S as [S|(S1 & S2 & S3 & S4 & S5)]; [left; auto|right].
        repeat split; auto. destruct T as [T|T]; [rewrite T; auto|]. right. destruct S5; congruence.
      - intros d' (rv1 & t1 & [J|J] & Hr).
        + injection J as <- <- <-. split; auto. lia.
        + assert (SD' : delta_seen (since h) d') by (exists rv1, t1; auto).
          apply AD in SD'. destruct SD' as (Q1 & Q2). destruct T as [T|T]; [|congruence].
          split; [congruence|lia]. }
    destruct (lt =? 0) eqn:E3.
    { cbn. apply W. lia. }
    match goal with |- context [if ?b then _ else _] => destruct b eqn:E4 end.
    { cbv zeta. destruct (negb (l_write_id cur =? l_owner_id cur)) eqn:E5; [|cbn; auto].
      cbn. lia. }
    assert (T : l_timestamp d = lt) by (destruct (l_timestamp d =? lt) eqn:X; cbn in E4; [lia|discriminate]).
    cbn. split; [|eauto]. rewrite <- T. apply W. auto.
  - (* owner's ballot block *)
    destruct ((rv =? 0)%Z && has flags DBLOCK_FL_RELEASED) eqn:E; [|cbn; auto].
    apply ainv_run. apply andb_true_iff in E. destruct E as (E1 & E2). apply Z.eqb_eq in E1. subst rv.
    eapply R_released; eauto. left; reflexivity.
  - (* clock *)
    destruct A as (W & (d & SD)).
    destruct (dead_seconds p hs <? sub64 now ws) eqn:E.
    + apply ainv_run. rewrite dead_seconds_eq in E.
      destruct W as (rv & t0 & I & S & AD).
      refine (R_silent p cur (INow now :: since h) rv hs t0 now lt ws _ _ _ _ _ _).
      * right; auto.
      * left; reflexivity.
      * exists d. apply delta_seen_cons; auto.
      * intros d1 Hd. apply AD. rewrite delta_seen_cons in Hd; auto.
      * exact S.
      * lia.
    + destruct (a_nowait p); [cbn; auto|]. cbn. apply waitinv_cons; auto.
  - (* sleep *)
    destruct shutdown; [cbn; auto|]. destruct (rv <? 0)%Z; [cbn; auto|].
    destruct (negb (leader_eqb cur l)); [cbn; auto|]. cbn. apply waitinv_cons; auto.
  - destruct (rv <? 0)%Z; [cbn; auto|]. apply ainv_check. apply reason_cons; auto.
  - destruct ((rv =? SANLK_DBLOCK_MBAL)%Z || (rv =? SANLK_DBLOCK_LVER)%Z); [cbn; apply reason_cons; auto|].
    destruct (rv <? 0)%Z; [cbn; auto|]. cbn. apply reason_cons; auto.
  - cbv zeta. repeat match goal with |- context [if ?b then _ else _] => destruct b end; exact Logic.I.
Qed.

Lemma arun_ainv p ss al h s out :
  a_force p = false ->
  arun p (astart ss al) h = Some (s, out) -> ainv p (as_pc s) (since h).
Proof.
  intros F. revert s out. induction h as [|i r IH]; intros s out H; cbn [arun] in H.
  - injection H as <- <-. unfold astart. cbn. destruct (ss =? 0)%Z; cbn; auto.
  - destruct (arun p (astart ss al) r) as [(s1, o1)|] eqn:E; [|discriminate H].
    destruct (astep p s1 i) as [(s2, o2)|] eqn:E2; [|discriminate H]. injection H as <- <-.
    eapply astep_ainv; eauto.
Qed.

(* ---- time ---- *)
Definition time_of (i : ainput) : option N :=
  match i with
  | IHostInfo _ _ t | IDelta _ _ t | INow t => Some t
  | _ => None
  end.

Fixpoint latest (h : list ainput) : N :=
  match h with
  | [] => 0
  | i :: r => match time_of i with Some t => t | None => latest r end
  end.

(* the clock does not go backwards *)
Fixpoint clock_ok (h : list ainput) : Prop :=
  match h with
  | [] => True
  | i :: r => (forall t, time_of i = Some t -> latest r <= t /\ t < 2 ^ 64) /\ clock_ok r
  end.

(* at most delta seconds pass between looking at the clock and reading the host
   lease, in either order *)
Fixpoint stall_ok (delta : N) (h : list ainput) : Prop :=
  match h with
  | [] => True
  | i :: r =>
      stall_ok delta r /\
      match i, r with
      | INow now, IDelta _ _ t :: _ => now <= t + delta
      | IDelta _ _ t, IHostInfo _ _ t0 :: _ => t <= t0 + delta
      | _, _ => True
      end
  end.

(* what the calls deliver is true of the owner (host id o, generation g) whose
   host lease has the timestamp ts_at t at time t *)
Definition truthful (ts_at : N -> N) (o g : N) (h : list ainput) : Prop :=
  (forall rv d t, In (IDelta rv d t) h -> (0 <= rv)%Z ->
     l_timestamp d = ts_at t /\ l_owner_id d = o /\ l_owner_generation d = g) /\
  (forall hs t0, In (IHostInfo 0 hs t0) h -> hs_owner_id hs = o -> hs_owner_generation hs = g ->
     hs_last_live hs <= t0 /\ exists t1, t1 <= hs_last_live hs /\ hs_timestamp hs = ts_at t1).

(* the owner renews at least every R seconds, each time with a new timestamp *)
Definition renews (ts_at : N -> N) (R : N) : Prop :=
  (forall t, ts_at t <> 0) /\
  (forall t1 t2, t1 + R < t2 -> ts_at t1 <> ts_at t2).

(* every full read shows the lease owned by host o, generation g, and a read of
   the owner's ballot block does not show it released *)
Definition owned_by (o g : N) (h : list ainput) : Prop :=
  (forall rv l mm, In (IRead rv l mm) h -> (0 <= rv)%Z ->
     l_timestamp l <> 0 /\ l_owner_id l = o /\ l_owner_generation l = g) /\
  (forall fl, In (IDblock 0 fl) h -> has fl DBLOCK_FL_RELEASED = false).

Definition io_known (hs : hstatus) (h : list ainput) : Prop :=
  exists rv t hs', In (IHostInfo rv hs' t) h /\ hs_io_timeout hs' = hs_io_timeout hs.

Definition tinv (ts_at : N -> N) (o g delta : N) (pc : apc) (h : list ainput) : Prop :=
  (forall c, cur_of pc = Some c -> l_owner_id c = o /\ l_owner_generation c = g) /\
  match pc with
  | PDelta c mm hs ws lt =>
      ws <= latest h /\ io_known hs h /\
      ((lt = 0 /\ exists rv r, h = IHostInfo rv hs ws :: r) \/
       (lt <> 0 /\ exists t1, lt = ts_at t1 /\ t1 <= ws + delta))
  | PSleep c mm hs ws lt =>
      ws <= latest h /\ io_known hs h /\
      lt <> 0 /\ exists t1, lt = ts_at t1 /\ t1 <= ws + delta
  | PNow c mm hs ws lt =>
      ws <= latest h /\ io_known hs h /\
      lt <> 0 /\ (exists t1, lt = ts_at t1 /\ t1 <= ws + delta) /\
      exists rv d t r, h = IDelta rv d t :: r /\ lt = ts_at t
  | PRetry _ _ | PBallot _ _ | PWrite _ _ => False
  | PDone rv => rv <> SANLK_OK
  | PDivZero => False
  | _ => True
  end.

Lemma io_known_cons hs i h : io_known hs h -> io_known hs (i :: h).
Proof. intros (rv & t & x & I & E). exists rv, t, x. split; [right|]; auto. Qed.

Lemma astep_tinv ts_at o g delta R p s i s' out h :
  a_force p = false -> a_host p <> o ->
  renews ts_at R ->
  (forall rv hs t, In (IHostInfo rv hs t) (i :: h) -> R + 2 * delta <= 8 * hs_io_timeout hs + a_fire p) ->
  clock_ok (i :: h) -> stall_ok delta (i :: h) -> truthful ts_at o g (i :: h) -> owned_by o g (i :: h) ->
  astep p s i = Some (s', out) ->
  tinv ts_at o g delta (as_pc s) h -> tinv ts_at o g delta (as_pc s') (i :: h) /\ out = [].
Proof.
  intros F NO (RN0 & RN) IO (CK & _) (_ & ST) (TD & TH) (OR & OD) H (A0 & A). unfold astep in H.
  destruct (as_pc s) eqn:P; destruct i; try discriminate H; injection H as H E; subst s' out;
    cbn [tinv as_pc] in A; try contradiction A.
  - (* read *)
    split; [|reflexivity]. rewrite F.
    destruct (rv <? 0)%Z eqn:E0; [split; cbn; [discriminate|unfold SANLK_OK; lia]|].
    destruct (OR rv l max_mbal (or_introl eq_refl)) as (L1 & L2 & L3); [lia|].
    destruct (negb ((Z.of_N (l_sector_size l) =? as_ss s)%Z && _)); [split; cbn; auto; discriminate|].
    destruct (negb (a_lver p =? 0) && _); [split; cbn; [discriminate|intros X; discriminate X]|].
    destruct (l_timestamp l =? LEASE_FREE) eqn:E1; [unfold LEASE_FREE in *; lia|].
    destruct ((l_owner_id l =? a_host p) && (l_owner_generation l =? a_gen p)) eqn:E2; [lia|].
    destruct ((l_owner_id l =? a_host p) && (l_owner_generation l <? a_gen p)) eqn:E3; [lia|].
    destruct (as_open s); split; cbn; auto; intros c X; injection X as <-; auto.
  - split; [|reflexivity].
    destruct (rv <? 0)%Z; [split; cbn; [discriminate|intros X; discriminate X]|].
    destruct (rv_open <? 0)%Z; [split; cbn; [discriminate|intros X; discriminate X]|]. split; auto.
  - (* host_info *)
    split; [|reflexivity].
    destruct (A0 _ eq_refl) as (O1 & O2).
    assert (K : io_known hs (IHostInfo rv hs now :: h)).
    { exists rv, now, hs. split; [left|]; auto. }
    match goal with |- context [if ?b then _ else _] => destruct b eqn:E end;
      (split; [cbn; intros c X; injection X as <-; auto|]); cbn.
    + assert (rv = 0%Z) by lia. subst rv.
      destruct (TH hs now (or_introl eq_refl)) as (T1 & t1 & T2 & T3); [lia|lia|].
      split; [exact T1|]. split; [exact K|]. right. split; [rewrite T3; apply RN0|].
      exists t1. split; auto. lia.
    + split; [lia|]. split; [exact K|]. left. split; eauto.
  - (* delta read *)
    split; [|reflexivity].
    destruct (A0 _ eq_refl) as (O1 & O2).
    destruct (rv <? 0)%Z eqn:RV; [split; cbn; [discriminate|unfold SANLK_OK; lia]|].
    destruct (TD rv d at_ (or_introl eq_refl)) as (T1 & T2 & T3); [lia|].
    pose proof (RN0 at_) as T0.
    destruct (l_timestamp d =? LEASE_FREE) eqn:E1; [unfold LEASE_FREE in *; lia|].
    destruct (negb (l_owner_id d =? l_owner_id cur) || _) eqn:E2; [lia|].
    destruct A as (W & K & A).
    destruct (CK at_ eq_refl) as (CK1 & _).
    destruct (lt =? 0) eqn:E3.
    { split; [cbn; intros c X; injection X as <-; auto|]. cbn.
      split; [lia|]. split; [apply io_known_cons; exact K|]. split; [lia|].
      exists at_. split; [auto|].
      destruct A as [(_ & rv' & r & ->)|(A & _)]; [|lia]. cbn in ST. lia. }
    match goal with |- context [if ?b then _ else _] => destruct b eqn:E4 end.
    { cbv zeta. destruct (negb (l_write_id cur =? l_owner_id cur)) eqn:E5.
      - split; cbn; [intros c X; injection X as <-; auto|exact Logic.I].
      - split; cbn; [discriminate|intros X; discriminate X]. }
    assert (T : l_timestamp d = lt) by (destruct (l_timestamp d =? lt) eqn:X; cbn in E4; [lia|discriminate]).
    split; [cbn; intros c X; injection X as <-; auto|]. cbn.
    split; [lia|]. split; [apply io_known_cons; exact K|]. split; [lia|].
    split.
    + destruct A as [(A & _)|(_ & A)]; [lia|exact A].
    + exists rv, d, at_, h. split; auto. congruence.
  - (* owner's ballot block *)
    split; [|reflexivity].
    destruct ((rv =? 0)%Z && has flags DBLOCK_FL_RELEASED) eqn:E.
    + apply andb_true_iff in E. destruct E as (E1 & E2). apply Z.eqb_eq in E1. subst rv.
      rewrite (OD flags) in E2; [discriminate|left; reflexivity].
    + split; cbn; [discriminate|intros X; discriminate X].
  - (* clock *)
    split; [|reflexivity].
    destruct A as (W & (rv & t0 & hs' & K1 & K2) & L & (t1 & A1 & A2) & rv' & d & t & r & -> & A3).
    destruct (CK now eq_refl) as (CK1 & CK2). cbn in ST.
    assert (D : dead_seconds p hs <? sub64 now ws = false).
    { rewrite dead_seconds_eq, sub64_exact by lia. apply N.ltb_ge.
      specialize (IO rv hs' t0 (or_intror K1)). rewrite K2 in IO.
      assert (~ t1 + R < t) by (intros X; apply (RN _ _ X); congruence).
      lia. }
    rewrite D.
    destruct (a_nowait p); [split; cbn; [discriminate|intros X; discriminate X]|].
    split; [exact A0|]. cbn. split; [lia|]. split; [exists rv, t0, hs'; split; [right|]; auto|]. eauto.
  - (* sleep *)
    split; [|reflexivity].
    destruct shutdown; [split; cbn; [discriminate|intros X; discriminate X]|].
    destruct (rv <? 0)%Z eqn:E0; [split; cbn; [discriminate|unfold SANLK_OK; lia]|].
    destruct (negb (leader_eqb cur l)); [split; cbn; auto; discriminate|].
    split; [exact A0|]. cbn. destruct A as (W & K & A). split; [exact W|]. split; [apply io_known_cons; exact K|].
    right. exact A.
Qed.

Lemma arun_tinv ts_at o g delta R p ss al h s out :
  a_force p = false -> a_host p <> o ->
  renews ts_at R ->
  (forall rv hs t, In (IHostInfo rv hs t) h -> R + 2 * delta <= 8 * hs_io_timeout hs + a_fire p) ->
  clock_ok h -> stall_ok delta h -> truthful ts_at o g h -> owned_by o g h ->
  arun p (astart ss al) h = Some (s, out) ->
  tinv ts_at o g delta (as_pc s) h /\ out = [].
Proof.
  intros F NO RN. revert s out. induction h as [|i r IH]; intros s out IO CK ST TR OB H; cbn [arun] in H.
  - injection H as <- <-. split; auto. unfold astart. cbn. destruct (ss =? 0)%Z; split; cbn; auto; discriminate.
  - destruct (arun p (astart ss al) r) as [(s1, o1)|] eqn:E; [|discriminate H].
    destruct (astep p s1 i) as [(s2, o2)|] eqn:E2; [|discriminate H]. injection H as <- <-.
    destruct (IH s1 o1) as (T1 & ->); auto.
    + intros; eapply IO; right; eauto.
    + apply CK.
    + apply ST.
    + destruct TR as (A & B). split; [intros; eapply A; [right|]; eauto|intros; eapply B; eauto; right; eauto].
    + destruct OB as (A & B). split; [intros; eapply A; [right|]; eauto|intros; eapply B; right; eauto].
    + destruct (astep_tinv ts_at o g delta R p s1 i s2 o2 r) as (T2 & ->); auto.
Qed.
