(* C24: a notification reaches exactly the chosen hosts. *)
From Coq Require Import List NArith ZArith Lia Bool Arith ZifyBool ZifyN ZifyNat.
From Verif Require Import Bytes Crc Codec Leader LeaderReadNum Acquire DeltaRenew Bitmap.
Import ListNotations.
Open Scope N_scope.

(* marking any set of supported hosts, in any order, with repetitions *)
Definition mark_all (hosts : list N) : bytes :=
  fold_left (fun bm h => set_id_bit h bm) hosts (zeros HOSTID_BITMAP_SIZE).

Lemma mark_all_gen hosts bm h :
  (forall x, In x hosts -> 1 <= x <= DEFAULT_MAX_HOSTS) -> 1 <= h ->
  length bm = HOSTID_BITMAP_SIZE ->
  test_id_bit h (fold_left (fun bm h => set_id_bit h bm) hosts bm) = true <->
  (In h hosts \/ test_id_bit h bm = true).
Proof.
  revert bm. induction hosts as [|x r IH]; intros bm Hr Hh L; cbn [fold_left].
  - split; [auto|]. intros [[]|]; auto.
  - assert (Hx : 1 <= x <= DEFAULT_MAX_HOSTS) by (apply Hr; cbn; auto).
    rewrite IH; auto.
    + rewrite set_test; try lia.
      * cbn [In]. rewrite orb_true_iff, N.eqb_eq. intuition.
      * rewrite L. apply byte_index_bound; auto.
    + intros y Hy. apply Hr. cbn; auto.
    + rewrite set_id_bit_length. auto.
Qed.

Theorem C24_exactly_the_marked_hosts :
  forall hosts h,
    (forall x, In x hosts -> 1 <= x <= DEFAULT_MAX_HOSTS) ->
    1 <= h <= DEFAULT_MAX_HOSTS ->
    test_id_bit h (mark_all hosts) = true <-> In h hosts.
Proof.
  intros hosts h Hr Hh. unfold mark_all. rewrite mark_all_gen; auto; try lia.
  - rewrite test_zeros. intuition discriminate.
Qed.

(* the whole path: what the sender's renewal publishes (create_bitmap over its
   per-host set_bit_time table), stored in its sector next to any leader
   record, tested by host h in the sector it read *)
Theorem C24_published_to_exactly_pending_hosts :
  forall own now secs set_times sector h,
    (512 <= length sector)%nat ->
    (N.of_nat (length set_times) <= DEFAULT_MAX_HOSTS) ->
    1 <= h <= N.of_nat (length set_times) ->
    let bm := snd (create_bitmap own now secs 1 set_times (zeros HOSTID_BITMAP_SIZE)) in
    let sector' := put 256 bm sector in
    test_id_bit h (get 256 256 sector') = true <->
    (h <> own /\
     exists t, nth_error set_times (N.to_nat (h - 1)) = Some t /\ t <> 0 /\ now - t <= secs).
Proof.
  intros own now secs st sector h Ls Lm Hh bm sector'.
  assert (Lb : length bm = HOSTID_BITMAP_SIZE).
  { subst bm. assert (G : forall st i b, length (snd (create_bitmap own now secs i st b)) = length b).
    { clear. induction st as [|t r IH]; intros i b; cbn [create_bitmap]; auto.
      destruct ((i =? own) || (t =? 0)); [|destruct (secs <? now - t)].
      - specialize (IH (i + 1) b). destruct create_bitmap; auto.
      - specialize (IH (i + 1) b). destruct create_bitmap; auto.
      - specialize (IH (i + 1) (set_id_bit i b)). rewrite set_id_bit_length in IH.
        destruct create_bitmap; auto. }
    rewrite G. unfold zeros. apply repeat_length. }
  subst sector'. unfold HOSTID_BITMAP_SIZE in Lb.
  rewrite gp_same by lia. subst bm.
  rewrite create_bitmap_spec; try lia.
  2:{ intros j Hj. unfold zeros. rewrite repeat_length. apply byte_index_bound. lia. }
  rewrite test_zeros, orb_false_r. unfold pending.
  destruct (nth_error st (N.to_nat (h - 1))) as [t|] eqn:E.
  - replace (1 <=? h) with true by lia. cbn [andb].
    split.
    + intros H. repeat (apply andb_prop in H; destruct H as [H ?]).
      split; [lia|]. exists t. split; auto. lia.
    + intros (H1 & t' & Ht & H2 & H3). injection Ht as <-. lia.
  - split; [discriminate|]. intros (_ & t & Ht & _). discriminate.
Qed.

(* On disk the bitmap is one number, least significant byte first, in which bit
   h - 1 belongs to host h; marking a host sets that bit and changes nothing else.
   (Hosts running other versions read the same bits.) *)
Lemma le_dec_testbit bm k :
  all_bytes bm -> N.testbit (le_dec bm) k = N.testbit (nth (N.to_nat (k / 8)) bm 0) (k mod 8).
Proof.
  intros A. revert k. induction A as [|b r Hb Hr IH]; intros k; cbn [le_dec].
  - replace (nth _ [] 0) with 0 by (destruct (N.to_nat (k / 8)); reflexivity). rewrite !N.bits_0. reflexivity.
  - destruct (k <? 8) eqn:K.
    + apply N.ltb_lt in K. rewrite <- (N.mod_pow2_bits_low _ 8 k K). change (2 ^ 8) with 256.
      replace ((b + 256 * le_dec r) mod 256) with b.
      2: { rewrite (N.mul_comm 256), N.mod_add, N.mod_small by (try lia; exact Hb). reflexivity. }
      rewrite N.div_small, N.mod_small by exact K. reflexivity.
    + apply N.ltb_ge in K. replace k with (k - 8 + 8) at 1 by lia. rewrite <- N.div_pow2_bits. change (2 ^ 8) with 256.
      replace ((b + 256 * le_dec r) / 256) with (le_dec r).
      2: { rewrite (N.mul_comm 256), N.div_add, N.div_small by (try lia; exact Hb). reflexivity. }
      rewrite IH.
      replace (k / 8) with (1 + (k - 8) / 8) by (rewrite <- N.div_add_l by lia; f_equal; lia).
      replace (k mod 8) with ((k - 8) mod 8) by (rewrite <- (N.mod_add (k - 8) 1 8) by lia; f_equal; lia).
      replace (N.to_nat (1 + (k - 8) / 8)) with (S (N.to_nat ((k - 8) / 8))) by lia. reflexivity.
Qed.

Lemma upd_nth_bytes i f l : all_bytes l -> (forall b, b < 256 -> f b < 256) -> all_bytes (upd_nth i f l).
Proof.
  intros A F. revert i. induction A as [|b r Hb Hr IH]; intros [|i]; cbn [upd_nth]; constructor; auto.
  - apply F. exact Hb.
  - apply IH.
Qed.

Lemma set_id_bit_bytes h bm : all_bytes bm -> all_bytes (set_id_bit h bm).
Proof.
  intros A. apply upd_nth_bytes; [exact A|]. intros b Hb.
  change 256 with (2 ^ 8). destruct (N.eq_dec (N.lor b (N.shiftl 1 (bit_index h))) 0) as [->|NZ]; [reflexivity|].
  apply N.log2_lt_pow2; [lia|]. rewrite N.log2_lor. apply N.max_lub_lt.
  - destruct (N.eq_dec b 0) as [->|B]; [reflexivity|]. apply N.log2_lt_pow2; [lia|exact Hb].
  - rewrite N.log2_shiftl by discriminate. unfold bit_index. pose proof (N.mod_lt (h - 1) 8 ltac:(discriminate)).
    change (N.log2 1) with 0. lia.
Qed.

Theorem C24_layout :
  forall h bm, all_bytes bm -> 1 <= h <= DEFAULT_MAX_HOSTS -> length bm = HOSTID_BITMAP_SIZE ->
    test_id_bit h bm = N.testbit (le_dec bm) (h - 1) /\
    le_dec (set_id_bit h bm) = N.lor (le_dec bm) (2 ^ (h - 1)).
Proof.
  intros h bm A H L. split.
  - rewrite test_id_bit_testbit, le_dec_testbit by exact A. reflexivity.
  - apply N.bits_inj. intros k. rewrite N.lor_spec, N.pow2_bits_eqb.
    rewrite (le_dec_testbit (set_id_bit h bm)) by (apply set_id_bit_bytes; exact A).
    rewrite (le_dec_testbit bm) by exact A.
    assert (T : forall x, N.testbit (nth (N.to_nat (k / 8)) x 0) (k mod 8) = test_id_bit (k + 1) x).
    { intros x. rewrite test_id_bit_testbit. unfold byte_index, bit_index. replace (k + 1 - 1) with k by lia. reflexivity. }
    rewrite !T, set_test by (try lia; rewrite L; apply byte_index_bound; exact H).
    rewrite orb_comm. f_equal. destruct (N.eqb_spec h (k + 1)), (N.eqb_spec (h - 1) k); try reflexivity; lia.
Qed.

(* the renewal stores the bitmap it is given in the second 256 bytes of the sector it
   writes, so a host that reads the sector sees exactly the hosts that were pending *)
Theorem C24_renewal_publishes :
  forall own now secs set_times space io ss align extra prev last read ts wrv rv off sec ret h,
    512 <= ss -> (N.of_nat (length set_times) <= DEFAULT_MAX_HOSTS) -> 1 <= h <= N.of_nat (length set_times) ->
    delta_lease_renew space io ss align (snd (create_bitmap own now secs 1 set_times (zeros HOSTID_BITMAP_SIZE)))
      extra prev last read ts wrv = Rn rv (Some (off, sec)) ret ->
    test_id_bit h (get 256 256 sec) = true <->
    (h <> own /\
     exists t, nth_error set_times (N.to_nat (h - 1)) = Some t /\ t <> 0 /\ now - t <= secs).
Proof.
  intros own now secs st space io ss align extra prev last read ts wrv rv off sec ret h Hs Lm Hh D.
  set (bm := snd (create_bitmap own now secs 1 st (zeros HOSTID_BITMAP_SIZE))) in *.
  assert (S : exists x, sec = put 256 bm x /\ (512 <= length x)%nat).
  { unfold delta_lease_renew in D. destruct (align <? id_offset (l_owner_id last) ss); [discriminate D|].
    destruct read as [r0 area]. destruct (negb (r0 =? 0)%Z); [discriminate D|].
    destruct (align <? _); [discriminate D|]. cbv zeta in D.
    destruct (_ <? 0)%Z; [discriminate D|]. destruct (_ || _); [discriminate D|]. destruct (_ && _); [discriminate D|].
    match type of D with (if _ then _ else Rn _ (Some (_, renew_sector ?a ?b ?c ?d)) _) = _ =>
      assert (E : sec = renew_sector a b c d) by (destruct (wrv <? 0)%Z; congruence) end.
    exists (put 0 (leader_bytes (renew_record io ts extra (leader_record_in (get (N.to_nat (id_offset (l_owner_id last) ss)) LEADER_SIZE area)))
                     (get (N.to_nat (id_offset (l_owner_id last) ss)) LEADER_SIZE area)) (zeros (N.to_nat ss))).
    split; [exact E|]. unfold put. rewrite !app_length, firstn_length, skipn_length. unfold zeros. rewrite repeat_length. lia. }
  destruct S as (x & -> & Lx).
  apply (C24_published_to_exactly_pending_hosts own now secs st x h Lx Lm Hh).
Qed.

(* all bits of supported hosts are inside the bitmap and distinct *)
Theorem C24_bits_distinct_and_inside :
  forall h h', 1 <= h <= DEFAULT_MAX_HOSTS -> 1 <= h' <= DEFAULT_MAX_HOSTS ->
    (byte_index h < HOSTID_BITMAP_SIZE)%nat /\ bit_index h < 8 /\
    (h <> h' -> (byte_index h, bit_index h) <> (byte_index h', bit_index h')).
Proof.
  intros h h' H H'. split; [apply byte_index_bound; auto|]. split.
  - apply N.mod_lt. lia.
  - intros Hne E. injection E as E1 E2. apply Hne. apply host_bit_inj; auto; lia.
Qed.

Example C24_nonvacuous :
  test_id_bit 9 (mark_all [9; 2000]) = true /\ test_id_bit 8 (mark_all [9; 2000]) = false /\
  test_id_bit 2000 (mark_all [9; 2000]) = true /\ test_id_bit 1 (mark_all [9; 2000]) = false.
Proof. vm_compute. auto. Qed.

Print Assumptions C24_exactly_the_marked_hosts.
Print Assumptions C24_published_to_exactly_pending_hosts.
Print Assumptions C24_bits_distinct_and_inside.
Print Assumptions C24_layout.
Print Assumptions C24_renewal_publishes.
