(* C84: taking a lease exclusively does not wipe the shared lease of a live host. *)
From Coq Require Import List NArith ZArith Lia Bool ZifyBool ZifyN FinFun.
From Verif Require Import HostStatus Acquire HostLive.
Import ListNotations.
Open Scope N_scope.

(* ---- specification ---- *)

(* the lockspace record of a host over time: [rec t] is what a read at time t gives.
   [lives]: the host has joined with generation g at time j (first record on disk) and
   runs until b; it never keeps a record for more than 8 io timeouts, which is when its
   own daemon gives the lockspace up.  Older generations are smaller. *)
Definition lives (rec : N -> obs) (io g j b : N) : Prop :=
  0 < io /\
  (forall t, o_bad (rec t) = false) /\
  (forall t, t < j -> o_gen (rec t) < g) /\
  (forall t, j <= t -> t <= b -> o_gen (rec t) = g /\ o_ts (rec t) <> 0 /\ o_io (rec t) = io) /\
  (forall t t', j <= t -> t + 8 * io < t' -> t' <= b -> o_ts (rec t) <> o_ts (rec t')).

(* the checks of the observer, newest first: time of the check, and time at which the
   record it looks at was read *)
Definition seen (rec : N -> obs) (ck : list (N * N)) : list (N * obs) :=
  map (fun cs => (fst cs, rec (snd cs))) ck.
Definition checks_ok (ck : list (N * N)) (now : N) : Prop :=
  ck <> [] /\ forall c s, In (c, s) ck -> 0 < c /\ s <= c /\ c <= now.
Definition last_read (ck : list (N * N)) : N := match ck with [] => 0 | (_, s) :: _ => s end.

(* a host that holds a lease has joined at least the 2 io timeouts of delta_lease_acquire
   ago.  The claim: with checks as far apart as a working renewal allows (2 io timeouts
   between them and one for the read) a live holder is never taken for dead *)
Definition C84_statement : Prop :=
  forall rec io g j b ck fire now,
    lives rec io g j b -> checks_ok ck now ->
    j + 2 * io <= now -> now <= b -> now - last_read ck <= 3 * io -> 3 * io <= fire ->
    host_live fire now (Some (monitor (seen rec ck))) g = true.

(* the same for a holder the observer has already seen in this generation, up to the time
   at which the observer's own lease is given up *)
Definition C84_slow_statement : Prop :=
  forall rec io g j b ck fire now,
    lives rec io g j b -> checks_ok ck now ->
    j <= last_read ck -> now <= b -> now - last_read ck <= 8 * io -> 3 * io <= fire ->
    host_live fire now (Some (monitor (seen rec ck))) g = true.

(* what the observer may conclude from what it has seen (newest first) *)
Inductive dead_reason (fire now g : N) (h : list (N * obs)) : Prop :=
| DrFree : forall t o r, h = (t, o) :: r -> o_ts o = 0 -> dead_reason fire now g h
| DrNewer : forall t o, In (t, o) h -> g < o_gen o -> dead_reason fire now g h
| DrStill : forall newer tc oc older, h = newer ++ (tc, oc) :: older ->
    (forall t o, In (t, o) newer -> key o = key oc) ->
    8 * o_io oc + fire < now - tc -> dead_reason fire now g h.

(* ---- proofs: liveness ---- *)
Theorem C84_reason :
  forall fire now g h, times_pos h -> all_good h ->
    host_live fire now (Some (monitor h)) g = false -> dead_reason fire now g h.
Proof.
  intros fire now g h P G H.
  destruct h as [|(t, o) r]; [cbn in H; discriminate|].
  assert (TS := monitor_ts r t o).
  destruct (monitor_last_change ((t, o) :: r) ltac:(congruence) P G)
    as [(LL & K & OI & OG & OT)|(newer & tc & oc & older & E & K & _ & LL & IO & KK)].
  - eapply DrFree; [reflexivity|]. congruence.
  - unfold host_live in H. rewrite LL, IO in H.
    assert (TP : 0 < tc) by (eapply P; rewrite E; apply in_or_app; right; left; reflexivity).
    destruct (hs_last_check _ =? 0); [discriminate|].
    destruct (hs_timestamp _ =? 0) eqn:T.
    { eapply DrFree; [reflexivity|]. apply N.eqb_eq in T. congruence. }
    destruct (g <? hs_owner_generation _) eqn:T2.
    { apply N.ltb_lt in T2. assert (A : hs_owner_generation (monitor ((t, o) :: r)) = o_gen oc) by (unfold key in KK; congruence).
      rewrite A in T2.
      eapply (DrNewer _ _ _ _ tc oc); [rewrite E; apply in_or_app; right; left; reflexivity|exact T2]. }
    destruct (tc =? 0) eqn:T3; [apply N.eqb_eq in T3; lia|]. cbn [andb negb] in H.
    destruct (8 * o_io oc + fire <? now - tc) eqn:T4; [|discriminate].
    apply N.ltb_lt in T4. eapply DrStill; eauto.
Qed.
Print Assumptions C84_reason.

(* without knowledge the host counts as alive: lockspace gone, id out of range, never
   checked *)
Theorem C84_unknown :
  forall fire now g sp h,
    (fst (host_info sp h) <> 0%Z \/
     exists mh oio tab, sp = Some (mh, oio, tab) /\ hs_last_check (tab h) = 0) ->
    host_live fire now (snd (host_info sp h)) g = true.
Proof.
  intros fire now g sp h H. unfold host_info in *.
  destruct ((h =? 0) || (DEFAULT_MAX_HOSTS <? h)); [reflexivity|].
  destruct sp as [[[mh oio] tab]|]; [|reflexivity].
  destruct (mh <? h); [reflexivity|]. cbn in H. destruct H as [H|(? & ? & ? & E & H)]; [congruence|].
  injection E as <- <- <-. cbn. destruct (hs_io_timeout (tab h) =? 0); cbn; rewrite H; reflexivity.
Qed.
Print Assumptions C84_unknown.

Lemma seen_in rec ck t o : In (t, o) (seen rec ck) -> exists s, In (t, s) ck /\ o = rec s.
Proof.
  unfold seen. intros H. apply in_map_iff in H. destruct H as ((c, s) & E & I). cbn in E.
  injection E as <- <-. eauto.
Qed.

Theorem C84_live_partial :
  forall rec io g j b ck fire now,
    lives rec io g j b -> checks_ok ck now ->
    j <= last_read ck -> now <= b -> now - last_read ck <= fire ->
    host_live fire now (Some (monitor (seen rec ck))) g = true.
Proof.
  intros rec io g j b ck fire now (IO & BAD & OLD & CUR & REN) (NE & CK) J B F.
  destruct ck as [|(c0, s0) r]; [congruence|]. cbn [last_read] in *.
  destruct (host_live fire now (Some (monitor (seen rec ((c0, s0) :: r)))) g) eqn:HL; [reflexivity|exfalso].
  destruct (CK c0 s0 (or_introl eq_refl)) as (C1 & C2 & C3).
  destruct (CUR s0 J ltac:(lia)) as (G0 & T0 & I0).
  apply C84_reason in HL.
  - destruct HL as [t o r' E Z|t o I L|newer tc oc older E K L].
    + cbn in E. injection E as <- <- <-. contradiction.
    + apply seen_in in I. destruct I as (s & I & ->). destruct (CK _ _ I) as (D1 & D2 & D3).
      destruct (N.lt_ge_cases s j) as [X|X]; [specialize (OLD s X); lia|].
      destruct (CUR s X ltac:(lia)) as (Y & _); lia.
    + assert (I : In (tc, oc) (seen rec ((c0, s0) :: r)))
        by (rewrite E; apply in_or_app; right; left; reflexivity).
      apply seen_in in I. destruct I as (s & I & EQ). destruct (CK _ _ I) as (D1 & D2 & D3).
      assert (KE : key (rec s0) = key oc).
      { destruct newer as [|(tn, on) nr].
        - cbn in E. injection E as -> <- _. reflexivity.
        - cbn in E. injection E as _ <- _. eapply K. left. reflexivity. }
      subst oc. unfold key in KE. injection KE as K1 K2 K3.
      assert (X : j <= s) by (destruct (N.lt_ge_cases s j) as [X|X]; [specialize (OLD s X); lia|exact X]).
      destruct (CUR s X ltac:(lia)) as (Y1 & Y2 & Y3).
      rewrite Y3 in L. apply (REN s s0 X ltac:(lia) ltac:(lia)). congruence.
  - intros t o I. apply seen_in in I. destruct I as (s & I & ->). apply (CK _ _ I).
  - intros t o I. apply seen_in in I. destruct I as (s & I & ->). apply BAD.
Qed.
Print Assumptions C84_live_partial.

(* checks at most 2 io timeouts old: then any holder has been seen *)
Theorem C84_prompt_partial :
  forall rec io g j b ck fire now,
    lives rec io g j b -> checks_ok ck now ->
    j + 2 * io <= now -> now <= b -> now - last_read ck <= 2 * io -> 2 * io <= fire ->
    host_live fire now (Some (monitor (seen rec ck))) g = true.
Proof.
  intros rec io g j b ck fire now L CK J B D F.
  assert (last_read ck <= now).
  { destruct CK as (NE & CK). destruct ck as [|(c, s) r]; [congruence|]. cbn.
    destruct (CK c s (or_introl eq_refl)). lia. }
  eapply C84_live_partial; eauto; lia.
Qed.
Print Assumptions C84_prompt_partial.

(* a host that left with generation 1, is back with generation 2 since 1000, holds a
   shared lease from 1020 on; the observer read it at 999 and next reads it at 1022 *)
Definition back (t : N) : obs :=
  if t <? 1000 then mkObs false 5 1 0 10 else mkObs false 5 2 (t / 20 * 20) 10.

Lemma back_lives : lives back 10 2 1000 5000.
Proof.
  unfold lives, back. repeat split; intros; try lia.
  - destruct (t <? 1000); reflexivity.
  - assert (X : (t <? 1000) = true) by (apply N.ltb_lt; lia). rewrite X. cbn. lia.
  - assert (X : (t <? 1000) = false) by (apply N.ltb_ge; lia). rewrite X. reflexivity.
  - assert (X : (t <? 1000) = false) by (apply N.ltb_ge; lia). rewrite X. cbn [o_ts].
    assert (1000 / 20 <= t / 20) by (apply N.div_le_mono; lia). change (1000/20) with 50 in *. lia.
  - assert (X : (t <? 1000) = false) by (apply N.ltb_ge; lia). rewrite X. reflexivity.
  - assert (X : (t <? 1000) = false) by (apply N.ltb_ge; lia).
    assert (X' : (t' <? 1000) = false) by (apply N.ltb_ge; lia).
    rewrite X, X'. cbn [o_ts].
    assert ((t + 80) / 20 <= t' / 20) by (apply N.div_le_mono; lia).
    replace (t + 80) with (t + 4 * 20) in H2 by lia. rewrite N.div_add in H2 by lia. lia.
Qed.

Theorem C84_refuted : ~ C84_statement.
Proof.
  intros H. specialize (H back 10 2 1000 5000 [(1000, 999); (980, 979)] 60 1021 back_lives).
  assert (host_live 60 1021 (Some (monitor (seen back [(1000, 999); (980, 979)]))) 2 = true).
  { apply H; try (cbn; lia). split; [congruence|]. intros c s [E|[E|[]]]; injection E as <- <-; lia. }
  vm_compute in H0. discriminate.
Qed.
Print Assumptions C84_refuted.

(* a holder that renews once in 78 seconds and an observer whose next check is late *)
Definition slow (t : N) : obs := mkObs false 5 2 (1 + t / 79) 10.

Lemma slow_lives : lives slow 10 2 0 5000.
Proof.
  unfold lives, slow. repeat split; intros; cbn [o_ts] in *; try lia.
Qed.

Theorem C84_slow_refuted : ~ C84_slow_statement.
Proof.
  intros H. specialize (H slow 10 2 0 5000 [(78, 78); (40, 40); (1, 1)] 60 142 slow_lives).
  assert (host_live 60 142 (Some (monitor (seen slow [(78, 78); (40, 40); (1, 1)]))) 2 = true).
  { apply H; try (cbn; lia). split; [congruence|]. intros c s [E|[E|[E|[]]]]; injection E as <- <-; lia. }
  vm_compute in H0. discriminate.
Qed.
Print Assumptions C84_slow_refuted.

(* ---- proofs: what clear_dead_shared does ---- *)

(* the hosts that are looked at: not us, seen as shared during the ballot, and with a
   shared mode block on the first disk *)
Definition marked (own : N) (bm : N -> bool) (d0 : disk) (h : N) : bool :=
  negb (h =? own) && bm h && x_shared (d0 h) && negb (x_gen (d0 h) =? 0).
Definition wiped own bm (live : N -> N -> bool) (d0 : disk) (h : N) : bool :=
  marked own bm d0 h && negb (live h (x_gen (d0 h))).
Definition kept own bm (live : N -> N -> bool) (d0 : disk) (h : N) : bool :=
  marked own bm d0 h && live h (x_gen (d0 h)).

Lemma put_same d h x : put d h x h = x.
Proof. unfold put. rewrite N.eqb_refl. reflexivity. Qed.
Lemma put_other d h x q : q <> h -> put d h x q = d q.
Proof. unfold put. intros N. apply N.eqb_neq in N. rewrite N. reflexivity. Qed.

Lemma write_zero_spec ds : forall rs h ok ds',
  write_zero ds rs h = (ok, ds') ->
  length ds' = length ds /\
  (forall i q, q <> h -> nth i ds' (fun _ => zsec) q = nth i ds (fun _ => zsec) q) /\
  (forall i, nth i ds' (fun _ => zsec) h = nth i ds (fun _ => zsec) h \/ nth i ds' (fun _ => zsec) h = zsec) /\
  (ok = true -> forall i, nth i ds' (fun _ => zsec) h = zsec).
Proof.
  induction ds as [|d ds IH]; intros rs h ok ds' E; cbn in E.
  - injection E as <- <-. repeat split; auto. intros _ [|i]; reflexivity.
  - destruct (hd IoOk rs) as [|landed].
    + destruct (write_zero ds (tl rs) h) as (ok1, ds1) eqn:W. injection E as <- <-.
      destruct (IH _ _ _ _ W) as (L & O & M & Z). repeat split.
      * cbn. congruence.
      * intros [|i] q N; cbn; [apply put_other; exact N|apply O; exact N].
      * intros [|i]; cbn; [right; apply put_same|apply M].
      * intros X [|i]; cbn; [apply put_same|apply Z; exact X].
    + injection E as <- <-. repeat split; try congruence.
      * intros [|i] q N; cbn; [|reflexivity]. destruct landed; [apply put_other; exact N|reflexivity].
      * intros [|i]; cbn; [|left; reflexivity]. destruct landed; [right; apply put_same|left; reflexivity].
Qed.

Section loop.
Variables (own : N) (bm : N -> bool) (live : N -> N -> bool) (rd : N -> ior) (wr : N -> list ior).

Let D (ds : list disk) (i : nat) : disk := nth i ds (fun _ => zsec).

Lemma clear_loop_spec ids : forall n ds rv ds',
  NoDup ids -> clear_loop own bm live rd wr ids n ds = (rv, ds') ->
  length ds' = length ds /\
  (forall i q, (~ In q ids \/ wiped own bm live (D ds 0) q = false) -> D ds' i q = D ds i q) /\
  (forall i q, D ds' i q = D ds i q \/ D ds' i q = zsec) /\
  (forall c, rv = Some c ->
     c = (n + length (filter (kept own bm live (D ds 0)) ids))%nat /\
     forall i q, In q ids -> wiped own bm live (D ds 0) q = true -> D ds' i q = zsec).
Proof.
  induction ids as [|h r IH]; intros n ds rv ds' ND E.
  { cbn in E. injection E as <- <-. repeat split; auto.
    - injection H as <-. cbn. lia.
    - intros i q []. }
  inversion ND as [|? ? NI ND']; subst.
  (* the host is passed over *)
  assert (SKIP : forall m, marked own bm (D ds 0) h = false -> m = n ->
            clear_loop own bm live rd wr r m ds = (rv, ds') ->
            length ds' = length ds /\
            (forall i q, (~ In q (h :: r) \/ wiped own bm live (D ds 0) q = false) -> D ds' i q = D ds i q) /\
            (forall i q, D ds' i q = D ds i q \/ D ds' i q = zsec) /\
            (forall c, rv = Some c ->
               c = (n + length (filter (kept own bm live (D ds 0)) (h :: r)))%nat /\
               forall i q, In q (h :: r) -> wiped own bm live (D ds 0) q = true -> D ds' i q = zsec)).
  { intros m M -> E'. destruct (IH _ _ _ _ ND' E') as (L & O & Z & S).
    split; [exact L|]. split; [|split; [exact Z|]].
    - intros i q [N|W]; apply O; [left; intros X; apply N; right; exact X|right; exact W].
    - intros c C. destruct (S c C) as (S1 & S2). cbn [filter]. unfold kept at 1. rewrite M. cbn [andb].
      split; [exact S1|]. intros i q [<-|I] W; [|apply S2; assumption].
      unfold wiped in W. rewrite M in W. discriminate. }
  cbn [clear_loop] in E.
  destruct (h =? own) eqn:HO.
  { apply (SKIP n); auto. unfold marked. rewrite HO. reflexivity. }
  destruct (bm h) eqn:HB; cbn [negb] in E.
  2:{ apply (SKIP n); auto. unfold marked. rewrite HO, HB. reflexivity. }
  destruct (read_mode_block ds (rd h) h) as [(sh, gen)|] eqn:RM.
  2:{ injection E as <- <-. repeat split; auto; discriminate. }
  assert (SG : sh = x_shared (D ds 0 h) /\ gen = x_gen (D ds 0 h)).
  { unfold read_mode_block in RM. destruct ds as [|d ds0]; [injection RM as <- <-; split; reflexivity|].
    destruct (rd h); [|discriminate]. injection RM as <- <-. split; reflexivity. }
  destruct SG as (-> & ->).
  destruct (x_shared (D ds 0 h)) eqn:HS; cbn [negb] in E.
  2:{ apply (SKIP n); auto. unfold marked. rewrite HO, HB, HS. reflexivity. }
  destruct (x_gen (D ds 0 h) =? 0) eqn:HG.
  { apply (SKIP n); auto. unfold marked. rewrite HO, HB, HS, HG. reflexivity. }
  assert (MK : marked own bm (D ds 0) h = true) by (unfold marked; rewrite HO, HB, HS, HG; reflexivity).
  destruct (live h (x_gen (D ds 0 h))) eqn:HL.
  { destruct (IH _ _ _ _ ND' E) as (L & O & Z & S).
    split; [exact L|]. split; [|split; [exact Z|]].
    - intros i q [N|W]; apply O; [left; intros X; apply N; right; exact X|right; exact W].
    - intros c C. destruct (S c C) as (S1 & S2). cbn [filter]. unfold kept at 1. rewrite MK, HL. cbn [andb length].
      split; [lia|]. intros i q [<-|I] W; [|apply S2; assumption].
      unfold wiped in W. rewrite MK, HL in W. discriminate. }
  assert (WH : wiped own bm live (D ds 0) h = true) by (unfold wiped; rewrite MK, HL; reflexivity).
  destruct (write_zero ds (wr h) h) as (ok, ds1) eqn:WZ.
  destruct (write_zero_spec _ _ _ _ _ WZ) as (L1 & O1 & M1 & Z1).
  destruct ok.
  - destruct (IH _ _ _ _ ND' E) as (L & O & Z & S).
    assert (SAME : forall q, q <> h -> D ds1 0 q = D ds 0 q) by (intros; apply O1; assumption).
    assert (WS : forall q, q <> h -> wiped own bm live (D ds1 0) q = wiped own bm live (D ds 0) q)
      by (intros q N; unfold wiped, marked; rewrite (SAME q N); reflexivity).
    split; [congruence|]. split; [|split].
    + intros i q X. assert (N : q <> h).
      { intros ->. destruct X as [X|X]; [apply X; left; reflexivity|congruence]. }
      transitivity (D ds1 i q); [|apply O1; exact N].
      apply O. destruct X as [X|X]; [left; intros Y; apply X; right; exact Y|right; rewrite WS; assumption].
    + intros i q. destruct (N.eq_dec q h) as [->|N].
      * right. destruct (Z i h) as [X|X]; [|exact X].
        transitivity (D ds1 i h); [exact X|apply Z1; reflexivity].
      * destruct (Z i q) as [X|X]; [left; rewrite X; apply O1; exact N|right; exact X].
    + intros c C. destruct (S c C) as (S1 & S2). cbn [filter]. unfold kept at 1. rewrite MK, HL. cbn [andb].
      split.
      * rewrite S1. f_equal. f_equal. apply filter_ext_in. intros q I.
        assert (N : q <> h) by (intros ->; contradiction).
        unfold kept, marked. rewrite (SAME q N). reflexivity.
      * intros i q [<-|I] W.
        -- destruct (Z i h) as [X|X]; [|exact X]. transitivity (D ds1 i h); [exact X|apply Z1; reflexivity].
        -- assert (N : q <> h) by (intros ->; contradiction). apply S2; [exact I|]. rewrite WS; assumption.
  - injection E as <- <-. split; [exact L1|]. split; [|split; [|discriminate]].
    + intros i q X. apply O1. intros ->. destruct X as [X|X]; [apply X; left; reflexivity|congruence].
    + intros i q. destruct (N.eq_dec q h) as [->|N]; [apply M1|left; apply O1; exact N].
Qed.
End loop.

(* host ids from 1 to num_hosts *)
Lemma ids_in n q : In q (map N.of_nat (seq 1 n)) <-> 1 <= q <= N.of_nat n.
Proof.
  rewrite in_map_iff. split.
  - intros (i & <- & I). apply in_seq in I. lia.
  - intros H. exists (N.to_nat q). split; [lia|]. apply in_seq. lia.
Qed.
Lemma ids_nodup n : NoDup (map N.of_nat (seq 1 n)).
Proof. apply FinFun.Injective_map_NoDup; [intros a b; lia|apply seq_NoDup]. Qed.

(* success: exactly the shared blocks of the dead hosts are cleared, on every disk; the
   count is that of the live ones *)
Theorem C84_cleared :
  forall own bm live rd wr num ds c ds',
    clear_dead_shared own bm live rd wr num ds = (Some c, ds') ->
    let d0 := nth 0 ds (fun _ => zsec) in
    c = length (filter (kept own bm live d0) (map N.of_nat (seq 1 num))) /\
    length ds' = length ds /\
    forall i q, nth i ds' (fun _ => zsec) q =
      if (1 <=? q) && (q <=? N.of_nat num) && wiped own bm live d0 q
      then zsec else nth i ds (fun _ => zsec) q.
Proof.
  intros own bm live rd wr num ds c ds' E d0. unfold clear_dead_shared in E.
  destruct (clear_loop_spec _ _ _ _ _ _ _ _ _ _ (ids_nodup num) E) as (L & O & Z & S).
  destruct (S c eq_refl) as (S1 & S2). split; [exact S1|]. split; [exact L|].
  intros i q. destruct ((1 <=? q) && (q <=? N.of_nat num)) eqn:R; cbn [andb].
  - fold d0 in O, S2. destruct (wiped own bm live d0 q) eqn:W.
    + apply S2; [apply ids_in; lia|exact W].
    + apply O. right. exact W.
  - apply O. left. rewrite ids_in. lia.
Qed.
Print Assumptions C84_cleared.

(* also when it fails, nothing but blocks of hosts judged dead is touched, and those are
   old or cleared *)
Theorem C84_touched :
  forall own bm live rd wr num ds rv ds',
    clear_dead_shared own bm live rd wr num ds = (rv, ds') ->
    let d0 := nth 0 ds (fun _ => zsec) in
    forall i q, nth i ds' (fun _ => zsec) q <> nth i ds (fun _ => zsec) q ->
      nth i ds' (fun _ => zsec) q = zsec /\ q <> own /\ bm q = true /\
      x_shared (d0 q) = true /\ x_gen (d0 q) <> 0 /\ live q (x_gen (d0 q)) = false.
Proof.
  intros own bm live rd wr num ds rv ds' E d0 i q N. unfold clear_dead_shared in E.
  destruct (clear_loop_spec _ _ _ _ _ _ _ _ _ _ (ids_nodup num) E) as (L & O & Z & S).
  fold d0 in O. destruct (Z i q) as [X|X]; [contradiction|]. split; [exact X|].
  destruct (wiped own bm live d0 q) eqn:W; [|exfalso; apply N, O; right; exact W].
  unfold wiped, marked in W. rewrite !andb_true_iff, !negb_true_iff, !N.eqb_neq in W. tauto.
Qed.
Print Assumptions C84_touched.

(* the acquire goes on to exclusive only with a live count of 0 (resource.c:1940-1959):
   then no marked host was found alive *)
Theorem C84_no_live_left :
  forall own bm live rd wr num ds ds',
    clear_dead_shared own bm live rd wr num ds = (Some O, ds') ->
    let d0 := nth 0 ds (fun _ => zsec) in
    forall q, 1 <= q <= N.of_nat num -> q <> own -> bm q = true ->
      x_shared (d0 q) = true -> x_gen (d0 q) <> 0 -> live q (x_gen (d0 q)) = false.
Proof.
  intros own bm live rd wr num ds ds' E d0 q R N B S G.
  apply C84_cleared in E. destruct E as (C & _ & _). fold d0 in C.
  destruct (live q (x_gen (d0 q))) eqn:L; [exfalso|reflexivity].
  assert (I : In q (filter (kept own bm live d0) (map N.of_nat (seq 1 num)))).
  { apply filter_In. split; [apply ids_in; exact R|]. unfold kept, marked.
    rewrite !andb_true_iff, !negb_true_iff, !N.eqb_neq. tauto. }
  destruct (filter _ _); [exact I|discriminate].
Qed.
Print Assumptions C84_no_live_left.

(* together: a host that lives in the generation of its mode block, and of which the
   observer has a read in this generation not older than the fire timeout, keeps its
   block, and the count is not 0 *)
Theorem C84_holder_kept_partial :
  forall own bm live rd wr num ds rv ds' q rec io j b ck fire now,
    clear_dead_shared own bm live rd wr num ds = (rv, ds') ->
    let d0 := nth 0 ds (fun _ => zsec) in
    let g := x_gen (d0 q) in
    1 <= q <= N.of_nat num -> q <> own -> bm q = true -> x_shared (d0 q) = true -> g <> 0 ->
    live q g = host_live fire now (Some (monitor (seen rec ck))) g ->
    lives rec io g j b -> checks_ok ck now ->
    j <= last_read ck -> now <= b -> now - last_read ck <= fire ->
    (forall i, nth i ds' (fun _ => zsec) q = nth i ds (fun _ => zsec) q) /\ rv <> Some O.
Proof.
  intros own bm live rd wr num ds rv ds' q rec io j b ck fire now E d0 g R N B S G LV LI CK J NB F.
  rewrite (C84_live_partial _ _ _ _ _ _ _ _ LI CK J NB F) in LV. split.
  - intros i. unfold clear_dead_shared in E.
    destruct (clear_loop_spec _ _ _ _ _ _ _ _ _ _ (ids_nodup num) E) as (_ & O & _).
    apply O. right. fold d0. unfold wiped. fold g. rewrite LV. apply andb_false_r.
  - intros ->. assert (X := C84_no_live_left _ _ _ _ _ _ _ _ E q R N B S G). fold d0 g in X. congruence.
Qed.
Print Assumptions C84_holder_kept_partial.

(* four hosts, two disks: 1 is us, 2 holds with generation 3 and lives, 3 is dead with a
   shared lease, 4 has a ballot block only *)
Definition ex_disk : disk := fun h =>
  if h =? 2 then mkSec true 3 7 else if h =? 3 then mkSec true 1 8 else
  if h =? 4 then mkSec false 0 9 else zsec.
Definition ex_run := clear_dead_shared 1 (fun h => 2 <=? h) (fun h g => h =? 2) (fun _ => IoOk)
                       (fun _ => [IoOk; IoOk]) 4 [ex_disk; ex_disk].
Example C84_nonvacuous :
  fst ex_run = Some 1%nat /\
  map (fun d => map d [1; 2; 3; 4]) (snd ex_run) =
  [[zsec; mkSec true 3 7; zsec; mkSec false 0 9]; [zsec; mkSec true 3 7; zsec; mkSec false 0 9]] /\
  host_live 60 1021 (Some (monitor (seen back [(1012, 1010); (1000, 999); (980, 979)]))) 2 = true /\
  host_live 60 5100 (Some (monitor (seen (fun t => back (N.min t 4000)) [(5099, 5099); (3990, 3990)]))) 2 = true /\
  host_live 60 5300 (Some (monitor (seen (fun t => back (N.min t 4000))
     [(5290, 5290); (4100, 4100); (3990, 3990)]))) 2 = false /\
  lives back 10 2 1000 5000.
Proof. do 5 (split; [vm_compute; reflexivity|]). exact back_lives. Qed.
