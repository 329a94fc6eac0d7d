(* C49: an event reaches the hosts it was set for, and only those. *)
From Coq Require Import List NArith ZArith Lia Bool Arith ZifyBool ZifyN ZifyNat.
From Verif Require Import Bytes Crc Bitmap HostEvent C25.
Import ListNotations.
Open Scope N_scope.

(* ---- helper facts ---- *)
Lemma upd_nth_nth_error i (f : N -> N) l j :
  nth_error (upd_nth i f l) j =
  if (i =? j)%nat then option_map f (nth_error l i) else nth_error l j.
Proof.
  revert i j. induction l; intros i j; destruct i, j; cbn [upd_nth nth_error Nat.eqb]; auto.
  destruct (i =? j)%nat; reflexivity.
Qed.

Lemma create_bits own now secs st :
  forall i bm j,
    nth_error (fst (create_bitmap own now secs i st bm)) j =
    match nth_error st j with
    | None => None
    | Some t => Some (if (i + N.of_nat j =? own) || (t =? 0) then t
                      else if secs <? now - t then 0 else t)
    end.
Proof.
  induction st as [|t r IH]; intros i bm j; cbn [create_bitmap].
  - destruct j; reflexivity.
  - destruct ((i =? own) || (t =? 0)) eqn:E1; [|destruct (secs <? now - t) eqn:E2].
    + specialize (IH (i + 1) bm). destruct create_bitmap as [r' bm']. cbn [fst] in *.
      destruct j; cbn [nth_error].
      * rewrite N.add_0_r, E1. reflexivity.
      * rewrite IH. replace (i + N.of_nat (S j)) with (i + 1 + N.of_nat j) by lia. reflexivity.
    + specialize (IH (i + 1) bm). destruct create_bitmap as [r' bm']. cbn [fst] in *.
      destruct j; cbn [nth_error].
      * rewrite N.add_0_r, E1, E2. reflexivity.
      * rewrite IH. replace (i + N.of_nat (S j)) with (i + 1 + N.of_nat j) by lia. reflexivity.
    + specialize (IH (i + 1) (set_id_bit i bm)). destruct create_bitmap as [r' bm']. cbn [fst] in *.
      destruct j; cbn [nth_error].
      * rewrite N.add_0_r, E1, E2. reflexivity.
      * rewrite IH. replace (i + N.of_nat (S j)) with (i + 1 + N.of_nat j) by lia. reflexivity.
Qed.

Lemma create_length own now secs st : forall i bm, length (fst (create_bitmap own now secs i st bm)) = length st.
Proof.
  induction st as [|t r IH]; intros i bm; cbn [create_bitmap]; auto.
  destruct ((i =? own) || (t =? 0)); [|destruct (secs <? now - t)].
  - specialize (IH (i + 1) bm). destruct create_bitmap. cbn in *. lia.
  - specialize (IH (i + 1) bm). destruct create_bitmap. cbn in *. lia.
  - specialize (IH (i + 1) (set_id_bit i bm)). destruct create_bitmap. cbn in *. lia.
Qed.

Lemma fill_fields st fl he :
  he_host_id (fill_generation st fl he) = he_host_id he /\
  he_event (fill_generation st fl he) = he_event he /\
  he_data (fill_generation st fl he) = he_data he.
Proof. unfold fill_generation. destruct (_ && _); auto. Qed.

Ltac dif H := match type of H with context [if ?b then _ else _] => destruct b eqn:? end.
Ltac dig := match goal with |- context [if ?b then _ else _] => destruct b eqn:? end.

(* ---- specification ---- *)
(* the operation notifies host h *)
Definition notifies (h : N) (op : evop) : Prop :=
  match op with
  | OpSet _ fl he => he_host_id he = h \/ ef_all_hosts fl = true
  | OpRequest _ x => x = h
  | OpRenew _ => False
  end.

Definition supported (st : evstate) := N.of_nat (length (ev_bits st)) <= DEFAULT_MAX_HOSTS.

Lemma step_length secs own st op : length (ev_bits (ev_step secs own st op)) = length (ev_bits st).
Proof.
  destruct op as [now fl he|now h|now]; cbn [ev_step].
  - unfold set_event, do_set, set_bit.
    repeat match goal with |- context [if ?b then _ else _] => destruct b end; cbn;
      rewrite ?map_length, ?upd_nth_length; auto.
  - unfold request_bit, set_bit. destruct (_ || _); cbn; rewrite ?upd_nth_length; auto.
  - unfold publish. pose proof (create_length own now secs (ev_bits st) 1 (zeros HOSTID_BITMAP_SIZE)).
    destruct create_bitmap. cbn in *. auto.
Qed.

Lemma receives_pending secs own st now h x :
  supported st -> 1 <= h <= N.of_nat (length (ev_bits st)) ->
  receives h (snd (publish secs own st now)) = Some x ->
  h <> own /\ (exists t, nth_error (ev_bits st) (N.to_nat (h - 1)) = Some t /\ t <> 0 /\ now - t <= secs) /\
  x = (he_generation (ev_event st), he_event (ev_event st), he_data (ev_event st)).
Proof.
  unfold supported. intros Sp Hh. unfold publish.
  pose proof (create_bitmap_spec own now secs (ev_bits st) 1 (zeros HOSTID_BITMAP_SIZE) h ltac:(lia) ltac:(lia)) as C.
  destruct create_bitmap as [bits bm]. cbn [snd] in *. unfold receives. rewrite C.
  2:{ intros j Hj. unfold zeros. rewrite repeat_length. apply byte_index_bound. lia. }
  rewrite test_zeros, orb_false_r. unfold pending.
  destruct (nth_error (ev_bits st) (N.to_nat (h - 1))) as [t|]; [|discriminate].
  destruct ((1 <=? h) && negb (h =? own) && negb (t =? 0) && negb (secs <? now - t)) eqn:E; [|discriminate].
  cbn [andb]. destruct (he_event (ev_event st) =? 0); [discriminate|].
  cbn [negb]. intros X. injection X as <-. split; [lia|]. split; [exists t; split; auto; lia|auto].
Qed.

Lemma pending_receives secs own st now h t :
  supported st -> 1 <= h <= N.of_nat (length (ev_bits st)) -> h <> own ->
  nth_error (ev_bits st) (N.to_nat (h - 1)) = Some t -> t <> 0 -> now - t <= secs ->
  he_event (ev_event st) <> 0 ->
  receives h (snd (publish secs own st now)) =
  Some (he_generation (ev_event st), he_event (ev_event st), he_data (ev_event st)).
Proof.
  unfold supported. intros Sp Hh Ho Ht Hz Hs He. unfold publish.
  pose proof (create_bitmap_spec own now secs (ev_bits st) 1 (zeros HOSTID_BITMAP_SIZE) h ltac:(lia) ltac:(lia)) as C.
  destruct create_bitmap as [bits bm]. cbn [snd] in *. unfold receives. rewrite C.
  2:{ intros j Hj. unfold zeros. rewrite repeat_length. apply byte_index_bound. lia. }
  rewrite test_zeros, orb_false_r. unfold pending. rewrite Ht.
  replace ((1 <=? h) && negb (h =? own) && negb (t =? 0) && negb (secs <? now - t)) with true by lia.
  replace (he_event (ev_event st) =? 0) with false by lia. reflexivity.
Qed.

(* From a fresh lockspace, for every sequence of calls, requests and renewals:
   whoever receives an event was notified within the last secs seconds. *)
Theorem C49_only_recently_notified_partial :
  forall secs own max gens ops now h x,
    N.of_nat max <= DEFAULT_MAX_HOSTS -> 1 <= h <= N.of_nat max ->
    receives h (snd (publish secs own (ev_run secs own (ev_init max gens) ops) now)) = Some x ->
    h <> own /\ exists op, In op ops /\ notifies h op /\ now - op_time op <= secs.
Proof.
  intros secs own max gens ops now h x Hm Hh R.
  assert (L : forall ops st, length (ev_bits (ev_run secs own st ops)) = length (ev_bits st)).
  { clear. induction ops as [|op ops IH]; intros st; [reflexivity|].
    unfold ev_run in *. cbn [fold_left]. rewrite IH. apply step_length. }
  assert (L0 : length (ev_bits (ev_run secs own (ev_init max gens) ops)) = max).
  { rewrite L. cbn. apply repeat_length. }
  apply receives_pending in R; [|unfold supported; rewrite L0; auto|rewrite L0; auto].
  destruct R as (Ho & (t & Ht & Hz & Hs) & _). split; auto.
  assert (I : exists op, In op ops /\ notifies h op /\ op_time op = t).
  { clear Hs L L0 x now Ho. revert t Ht Hz. induction ops as [|op ops IH] using rev_ind; intros t Ht Hz.
    - cbn in Ht. apply nth_error_In in Ht. apply repeat_spec in Ht. contradiction.
    - unfold ev_run in Ht. rewrite fold_left_app in Ht. cbn [fold_left] in Ht.
      fold (ev_run secs own (ev_init max gens) ops) in Ht.
      set (st := ev_run secs own (ev_init max gens) ops) in *.
      assert (D : nth_error (ev_bits st) (N.to_nat (h - 1)) = Some t \/
                  (notifies h op /\ op_time op = t)).
      { destruct op as [n fl he|n y|n]; cbn [ev_step] in Ht.
        - unfold set_event in Ht.
          destruct ((he_host_id he =? 0) || (DEFAULT_MAX_HOSTS <? he_host_id he)) eqn:B0; [auto|].
          destruct (N.of_nat (length (ev_bits st)) <? he_host_id he) eqn:B1; [auto|].
          assert (X : he_host_id (fill_generation st fl he) = he_host_id he).
          { apply fill_fields. }
          destruct (ef_clear_event fl); [auto|].
          destruct (ef_clear_hostid fl).
          { left. cbn in Ht. unfold set_bit in Ht. rewrite upd_nth_nth_error in Ht.
            dif Ht; auto.
            destruct (nth_error (ev_bits st) _) in Ht; cbn in Ht; [|discriminate].
            injection Ht as <-. contradiction. }
          assert (DS : nth_error (ev_bits (do_set st n fl (fill_generation st fl he))) (N.to_nat (h - 1)) = Some t ->
                       nth_error (ev_bits st) (N.to_nat (h - 1)) = Some t \/ (notifies h (OpSet n fl he) /\ n = t)).
          { unfold do_set, set_bit. cbn [ev_bits]. rewrite X. destruct (ef_all_hosts fl) eqn:EA.
            - rewrite nth_error_map. intros Y. destruct nth_error in Y; [|discriminate].
              injection Y as Y. right. cbn. auto.
            - rewrite upd_nth_nth_error. dig; [|auto].
              destruct (nth_error (ev_bits st) (N.to_nat (he_host_id he - 1))); cbn; [|discriminate].
              intros Y. injection Y as Y. right. split; auto. left. lia. }
          destruct (ef_replace fl); [auto|].
          dif Ht; auto.
        - unfold request_bit in Ht. dif Ht; [auto|].
          cbn in Ht. unfold set_bit in Ht. rewrite upd_nth_nth_error in Ht.
          dif Ht; auto.
          destruct (nth_error (ev_bits st) _) in Ht; cbn in Ht; [|discriminate].
          injection Ht as <-. right. cbn. split; auto. lia.
        - unfold publish in Ht.
          pose proof (create_bits own n secs (ev_bits st) 1 (zeros HOSTID_BITMAP_SIZE) (N.to_nat (h - 1))) as C.
          destruct create_bitmap as [bits bm]. cbn [fst ev_bits] in *. rewrite C in Ht.
          destruct (nth_error (ev_bits st) (N.to_nat (h - 1))) as [t0|]; [|discriminate].
          left. injection Ht as Ht. dif Ht; [congruence|].
          dif Ht; congruence. }
      destruct D as [D|[D1 D2]].
      + destruct (IH t D Hz) as (op' & ? & ? & ?). exists op'. split; [apply in_or_app; auto|auto].
      + exists op. split; [apply in_or_app; cbn; auto|auto]. }
  destruct I as (op & I1 & I2 & I3). exists op. subst t. auto.
Qed.

(* Delivery: an accepted event reaches its target (with its own data) in every
   renewal of the next secs seconds, unless it is cleared or replaced. *)
Definition clears (h : N) (op : evop) : Prop :=
  match op with OpSet _ fl he => ef_clear_hostid fl = true /\ he_host_id he = h | _ => False end.

Theorem C49_delivered :
  forall secs own st t fl he ops now,
    supported st -> 0 < t -> plain fl ->
    he_host_id he <> own -> he_event he <> 0 ->
    fst (set_event secs st t fl he) = EvOk ->
    (forall op, In op ops -> t <= op_time op < t + secs /\
                ~ may_replace (he_event he) op /\ ~ clears (he_host_id he) op) ->
    t <= now <= t + secs ->
    let st1 := snd (set_event secs st t fl he) in
    exists g,
      receives (he_host_id he) (snd (publish secs own (ev_run secs own st1 ops) now))
        = Some (g, he_event he, he_data he).
Proof.
  intros secs own st t fl he ops now Sp Ht (F1 & F2 & F3) Ho He Ok Hops Hn st1.
  assert (Es : (he_host_id he =? 0) || (DEFAULT_MAX_HOSTS <? he_host_id he) = false /\
               N.of_nat (length (ev_bits st)) <? he_host_id he = false /\
               st1 = do_set st t fl (fill_generation st fl he)).
  { subst st1. revert Ok. unfold set_event.
    destruct ((he_host_id he =? 0) || (DEFAULT_MAX_HOSTS <? he_host_id he)); [discriminate|].
    destruct (N.of_nat (length (ev_bits st)) <? he_host_id he); [discriminate|].
    rewrite F1, F2, F3. destruct (_ && _ && _ && _); [discriminate|auto]. }
  destruct Es as (B1 & B2 & Es).
  assert (X : he_host_id (fill_generation st fl he) = he_host_id he /\
              he_event (fill_generation st fl he) = he_event he /\
              he_data (fill_generation st fl he) = he_data he).
  { apply fill_fields. }
  destruct X as (X1 & X2 & X3).
  assert (E1 : ev_event st1 = fill_generation st fl he) by (rewrite Es; reflexivity).
  assert (T1 : ev_time st1 = t) by (rewrite Es; reflexivity).
  set (h := he_host_id he) in *.
  assert (N1 : nth_error (ev_bits st1) (N.to_nat (h - 1)) = Some t).
  { rewrite Es. unfold do_set, set_bit. cbn [ev_bits]. rewrite X1.
    assert (Lx : exists v, nth_error (ev_bits st) (N.to_nat (h - 1)) = Some v).
    { destruct (nth_error (ev_bits st) (N.to_nat (h - 1))) eqn:Q; eauto.
      apply nth_error_None in Q. lia. }
    destruct Lx as (v & Lv).
    destruct (ef_all_hosts fl).
    - rewrite nth_error_map, upd_nth_nth_error, Nat.eqb_refl, Lv. reflexivity.
    - rewrite upd_nth_nth_error, Nat.eqb_refl, Lv. reflexivity. }
  assert (Ev : ev_event (ev_run secs own st1 ops) = ev_event st1).
  { apply C25_pending_kept_partial.
    - rewrite E1, X2. auto.
    - intros op I. destruct (Hops op I) as (A & B & _). rewrite T1, E1, X2. split; [lia|auto]. }
  assert (Len : forall ops st, length (ev_bits (ev_run secs own st ops)) = length (ev_bits st)).
  { clear. induction ops as [|op ops IH]; intros st; [reflexivity|].
    unfold ev_run in *. cbn [fold_left]. rewrite IH. apply step_length. }
  assert (L1 : length (ev_bits st1) = length (ev_bits st)).
  { rewrite Es. unfold do_set, set_bit. cbn [ev_bits]. destruct (ef_all_hosts fl);
      rewrite ?map_length, upd_nth_length; auto. }
  assert (Bit : exists v, nth_error (ev_bits (ev_run secs own st1 ops)) (N.to_nat (h - 1)) = Some v /\ t <= v).
  { clear Ev Es E1 T1 Hn Ok. revert N1 L1. generalize st1. clear st1.
    assert (Hlen : h <= N.of_nat (length (ev_bits st))) by lia.
    assert (Gen : forall st2, (exists v, nth_error (ev_bits st2) (N.to_nat (h - 1)) = Some v /\ t <= v) ->
              exists v, nth_error (ev_bits (ev_run secs own st2 ops)) (N.to_nat (h - 1)) = Some v /\ t <= v).
    2:{ intros st2 N1 _. apply Gen. exists t. split; [auto|lia]. }
    induction ops as [|op ops IH]; intros st2 (v & N1 & Lv); [exists v; auto|].
    unfold ev_run. cbn [fold_left]. fold (ev_run secs own (ev_step secs own st2 op) ops).
    apply IH; [intros op' I; apply Hops; cbn; auto|].
    destruct (Hops op (or_introl eq_refl)) as (Tm & _ & Cl).
    destruct op as [n f e|n y|n]; cbn [ev_step]; cbn in Tm.
    - unfold set_event.
      destruct ((he_host_id e =? 0) || (DEFAULT_MAX_HOSTS <? he_host_id e)) eqn:B0; [exists v; auto|].
      destruct (N.of_nat (length (ev_bits st2)) <? he_host_id e) eqn:B3; [exists v; auto|].
      assert (Y : he_host_id (fill_generation st2 f e) = he_host_id e).
      { apply fill_fields. }
      destruct (ef_clear_event f); [exists v; auto|].
      destruct (ef_clear_hostid f) eqn:Ec.
      { cbn. unfold set_bit. rewrite upd_nth_nth_error, Y.
        dig; [|exists v; auto].
        exfalso. apply Cl. cbn. split; auto. lia. }
      assert (DS : exists v', nth_error (ev_bits (do_set st2 n f (fill_generation st2 f e))) (N.to_nat (h - 1)) = Some v' /\ t <= v').
      { unfold do_set, set_bit. cbn [ev_bits]. rewrite Y. destruct (ef_all_hosts f).
        - rewrite nth_error_map, upd_nth_nth_error. dig.
          + replace (N.to_nat (he_host_id e - 1)) with (N.to_nat (h - 1)) by lia. rewrite N1. cbn.
            exists n. split; auto. lia.
          + rewrite N1. cbn. exists n. split; auto. lia.
        - rewrite upd_nth_nth_error. dig.
          + replace (N.to_nat (he_host_id e - 1)) with (N.to_nat (h - 1)) by lia. rewrite N1. cbn.
            exists n. split; auto. lia.
          + exists v. auto. }
      destruct (ef_replace f); [exact DS|].
      dig; [exists v; auto|exact DS].
    - unfold request_bit. dig; [exists v; auto|].
      cbn. unfold set_bit. rewrite upd_nth_nth_error. dig; [|exists v; auto].
      replace (N.to_nat (y - 1)) with (N.to_nat (h - 1)) by lia. rewrite N1. cbn. exists n. split; auto. lia.
    - unfold publish.
      pose proof (create_bits own n secs (ev_bits st2) 1 (zeros HOSTID_BITMAP_SIZE) (N.to_nat (h - 1))) as C.
      destruct create_bitmap as [bits bm]. cbn [fst ev_bits] in *. rewrite C, N1.
      exists v. split; auto. f_equal. dig; auto.
      replace (secs <? n - v) with false by lia. reflexivity. }
  destruct Bit as (v & Bv & Lv).
  exists (he_generation (fill_generation st fl he)).
  rewrite (pending_receives secs own _ now h v); rewrite ?Ev, ?E1, ?X2, ?X3; auto; try lia.
  - unfold supported in *. rewrite Len, L1. auto.
  - rewrite Len, L1. lia.
Qed.

(* The "only" half is false of the code: hosts never named in any set_event
   receive it.  (a) a resource request to host 2 while an event for host 1 is
   recorded - however old - delivers that event to host 2; *)
Definition C49_statement : Prop :=
  forall secs own max gens ops now h x,
    N.of_nat max <= DEFAULT_MAX_HOSTS -> 1 <= h <= N.of_nat max ->
    receives h (snd (publish secs own (ev_run secs own (ev_init max gens) ops) now)) = Some x ->
    exists t fl he, In (OpSet t fl he) ops /\ (he_host_id he = h \/ ef_all_hosts fl = true) /\
                    snd x = he_data he.

Theorem C49_refuted : ~ C49_statement.
Proof.
  intros H.
  destruct (H 60 3 10%nat [] [OpSet 10 no_flags (mkHe 1 0 7 100); OpRequest 90000 2] 90001 2 (0, 7, 100))
    as (t & fl & he & I & T & _).
  - vm_compute. discriminate.
  - lia.
  - vm_compute. reflexivity.
  - destruct I as [I|[I|[]]]; [|discriminate]. injection I as _ <- <-.
    destruct T; discriminate.
Qed.

(* (b) the documented recipe "T=10 set_event(1,A,B); T=70 set_event(2,C,D)"
   (src/sanlock_admin.h:519-526): the second event, meant for host 2, is also
   delivered to host 1 by a renewal at T=70, because the busy test uses < and
   the bitmap expiry uses > on the same period. *)
Theorem C49_documented_recipe_refuted :
  let st := ev_run 60 3 (ev_init 10 []) [OpSet 10 no_flags (mkHe 1 0 65 66); OpSet 70 no_flags (mkHe 2 0 67 68)] in
  receives 1 (snd (publish 60 3 st 70)) = Some (0, 67, 68) /\
  receives 1 (snd (publish 60 3 st 71)) = None.
Proof. vm_compute. auto. Qed.

Example C49_nonvacuous :
  let st := snd (set_event 60 (ev_init 10 [0;5]) 10 (mkEf true false false false false) (mkHe 2 0 7 100)) in
  supported st /\
  receives 2 (snd (publish 60 3 (ev_run 60 3 st [OpRenew 20; OpRequest 30 1]) 70)) = Some (5, 7, 100).
Proof. split; [vm_compute; discriminate|vm_compute; reflexivity]. Qed.

Print Assumptions C49_only_recently_notified_partial.
Print Assumptions C49_delivered.
Print Assumptions C49_refuted.
Print Assumptions C49_documented_recipe_refuted.
