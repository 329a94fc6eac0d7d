(* The notification bitmap of a host-id lease sector.
   src/lockspace.c:239-264 (set_id_bit, test_id_bit), 331-360
   (create_bitmap_and_extra). *)
From Coq Require Import List NArith ZArith Lia Bool Arith ZifyBool ZifyN ZifyNat.
From Verif Require Import Bytes Crc.
Import ListNotations.
Open Scope N_scope.

Definition HOSTID_BITMAP_SIZE : nat := 256.   (* src/leader.h:90 *)
Definition DEFAULT_MAX_HOSTS : N := 2000.     (* src/sanlock_internal.h *)

Definition byte_index (host_id : N) : nat := N.to_nat ((host_id - 1) / 8).
Definition bit_index (host_id : N) : N := (host_id - 1) mod 8.

Fixpoint upd_nth (i : nat) (f : N -> N) (l : bytes) : bytes :=
  match l, i with
  | [], _ => []
  | b :: r, O => f b :: r
  | b :: r, S i' => b :: upd_nth i' f r
  end.

(* *byte |= 1 << bit *)
Definition set_id_bit (host_id : N) (bitmap : bytes) : bytes :=
  upd_nth (byte_index host_id) (fun b => N.lor b (N.shiftl 1 (bit_index host_id))) bitmap.

(* return ( *byte & mask ) ; nonzero = true *)
Definition test_id_bit (host_id : N) (bitmap : bytes) : bool :=
  negb (N.land (nth (byte_index host_id) bitmap 0) (N.shiftl 1 (bit_index host_id)) =? 0).

(* one host's notification state: set_bit_time (0 = none) *)
(* create_bitmap_and_extra: [set_times] lists set_bit_time of hosts 1,2,...;
   returns the updated set_times and the bitmap *)
Fixpoint create_bitmap (own : N) (now secs : N) (i : N) (set_times : list N) (bm : bytes)
  : list N * bytes :=
  match set_times with
  | [] => ([], bm)
  | t :: r =>
      if (i =? own) || (t =? 0) then
        let (r', bm') := create_bitmap own now secs (i + 1) r bm in (t :: r', bm')
      else if secs <? now - t then
        let (r', bm') := create_bitmap own now secs (i + 1) r bm in (0 :: r', bm')
      else
        let (r', bm') := create_bitmap own now secs (i + 1) r (set_id_bit i bm) in (t :: r', bm')
  end.

(* ---- proofs ---- *)
Lemma upd_nth_length i f l : length (upd_nth i f l) = length l.
Proof. revert i. induction l; intros [|i]; cbn; auto. Qed.

Lemma nth_upd_nth i f l j :
  (i < length l)%nat ->
  nth j (upd_nth i f l) 0 = if (i =? j)%nat then f (nth i l 0) else nth j l 0.
Proof.
  revert i j. induction l; intros i j H; cbn [length] in H; [lia|].
  destruct i, j; cbn [upd_nth nth Nat.eqb]; auto. apply IHl. lia.
Qed.

Lemma byte_index_bound h : 1 <= h <= DEFAULT_MAX_HOSTS -> (byte_index h < HOSTID_BITMAP_SIZE)%nat.
Proof.
  unfold DEFAULT_MAX_HOSTS, HOSTID_BITMAP_SIZE, byte_index. intros H.
  assert ((h - 1) / 8 < 256) by (apply N.div_lt_upper_bound; lia). lia.
Qed.

Lemma host_bit_inj h h' :
  1 <= h -> 1 <= h' ->
  byte_index h = byte_index h' -> bit_index h = bit_index h' -> h = h'.
Proof.
  unfold byte_index, bit_index. intros H H' E1 E2.
  pose proof (N.div_mod (h - 1) 8 ltac:(lia)).
  pose proof (N.div_mod (h' - 1) 8 ltac:(lia)).
  assert ((h - 1) / 8 = (h' - 1) / 8) by lia. lia.
Qed.

Lemma land_bit b i : negb (N.land b (N.shiftl 1 i) =? 0) = N.testbit b i.
Proof.
  rewrite N.shiftl_1_l.
  destruct (N.testbit b i) eqn:E.
  - apply negb_true_iff, N.eqb_neq. intros H.
    assert (N.testbit (N.land b (2 ^ i)) i = false) by (rewrite H; apply N.bits_0).
    rewrite N.land_spec, N.pow2_bits_true, E in H0. discriminate.
  - apply negb_false_iff, N.eqb_eq. apply N.bits_inj. intros m.
    rewrite N.land_spec, N.bits_0.
    destruct (N.eq_dec i m) as [<-|Hne].
    + rewrite E. reflexivity.
    + rewrite N.pow2_bits_false by auto. apply andb_false_r.
Qed.

Lemma test_id_bit_testbit h bm :
  test_id_bit h bm = N.testbit (nth (byte_index h) bm 0) (bit_index h).
Proof. unfold test_id_bit. apply land_bit. Qed.

Lemma set_test h h' bm :
  1 <= h -> 1 <= h' -> (byte_index h < length bm)%nat ->
  test_id_bit h' (set_id_bit h bm) = (h =? h') || test_id_bit h' bm.
Proof.
  intros H H' L. rewrite !test_id_bit_testbit. unfold set_id_bit.
  rewrite nth_upd_nth by auto.
  destruct (byte_index h =? byte_index h')%nat eqn:E.
  - apply Nat.eqb_eq in E. rewrite N.lor_spec, N.shiftl_1_l, N.pow2_bits_eqb, E.
    rewrite orb_comm. f_equal.
    destruct (h =? h') eqn:F.
    + apply N.eqb_eq in F. subst. apply N.eqb_refl.
    + apply N.eqb_neq in F. apply N.eqb_neq. intros G. apply F.
      apply host_bit_inj; auto.
  - apply Nat.eqb_neq in E. destruct (h =? h') eqn:F; auto.
    apply N.eqb_eq in F. subst. contradiction.
Qed.

Lemma set_id_bit_length h bm : length (set_id_bit h bm) = length bm.
Proof. apply upd_nth_length. Qed.

Lemma test_zeros h n : test_id_bit h (zeros n) = false.
Proof.
  rewrite test_id_bit_testbit. unfold zeros.
  rewrite nth_repeat. apply N.bits_0.
Qed.

(* pending h: the host's bit is to be published *)
Definition pending (own now secs : N) (i : N) (set_times : list N) (h : N) : bool :=
  match nth_error set_times (N.to_nat (h - i)) with
  | Some t => (i <=? h) && negb (h =? own) && negb (t =? 0) && negb (secs <? now - t)
  | None => false
  end.

Lemma create_bitmap_spec own now secs st :
  forall i bm h,
    1 <= i -> 1 <= h ->
    (forall j, i <= j < i + N.of_nat (length st) -> (byte_index j < length bm)%nat) ->
    test_id_bit h (snd (create_bitmap own now secs i st bm))
      = pending own now secs i st h || test_id_bit h bm.
Proof.
  induction st as [|t r IH]; intros i bm h Hi Hh Hb; cbn [create_bitmap].
  - cbn [snd]. unfold pending. rewrite (proj2 (nth_error_None [] _)) by (cbn; lia). reflexivity.
  - assert (Hb' : forall j, i + 1 <= j < i + 1 + N.of_nat (length r) -> (byte_index j < length bm)%nat).
    { intros j Hj. apply Hb. cbn [length]. lia. }
    assert (P : pending own now secs i (t :: r) h =
            (if h =? i then negb (h =? own) && negb (t =? 0) && negb (secs <? now - t)
             else pending own now secs (i + 1) r h)).
    { unfold pending. destruct (h =? i) eqn:E.
      - apply N.eqb_eq in E. subst. rewrite N.sub_diag. cbn [N.to_nat nth_error].
        rewrite N.leb_refl. reflexivity.
      - apply N.eqb_neq in E. destruct (N.le_gt_cases h i).
        + replace (h - i) with 0 by lia. replace (h - (i + 1)) with 0 by lia.
          cbn [N.to_nat nth_error].
          replace (i <=? h) with false by lia. replace (i + 1 <=? h) with false by lia. cbn [andb].
          destruct r; reflexivity.
        + replace (N.to_nat (h - i)) with (S (N.to_nat (h - (i + 1)))) by lia.
          cbn [nth_error]. replace (i <=? h) with true by lia.
          replace (i + 1 <=? h) with true by lia. reflexivity. }
    destruct ((i =? own) || (t =? 0)) eqn:E1;
      [ | destruct (secs <? now - t) eqn:E2 ].
    + specialize (IH (i + 1) bm h ltac:(lia) Hh Hb').
      destruct (create_bitmap own now secs (i + 1) r bm) as [r' bm']. cbn [snd] in *.
      rewrite IH, P. destruct (h =? i) eqn:F; auto.
      apply N.eqb_eq in F. subst h.
      replace (negb (i =? own) && negb (t =? 0)) with false by lia. cbn [andb orb].
      assert (Q : pending own now secs (i + 1) r i = false).
      { unfold pending. destruct nth_error; auto. replace (i + 1 <=? i) with false by lia. reflexivity. }
      rewrite Q. reflexivity.
    + specialize (IH (i + 1) bm h ltac:(lia) Hh Hb').
      destruct (create_bitmap own now secs (i + 1) r bm) as [r' bm']. cbn [snd] in *.
      rewrite IH, P. destruct (h =? i) eqn:F; auto.
      apply N.eqb_eq in F. subst h. cbn [negb]. rewrite andb_false_r. cbn [orb].
      assert (Q : pending own now secs (i + 1) r i = false).
      { unfold pending. destruct nth_error; auto. replace (i + 1 <=? i) with false by lia. reflexivity. }
      rewrite Q. reflexivity.
    + assert (Hbi : (byte_index i < length bm)%nat) by (apply Hb; cbn [length]; lia).
      specialize (IH (i + 1) (set_id_bit i bm) h ltac:(lia) Hh).
      rewrite set_id_bit_length in IH. specialize (IH Hb').
      destruct (create_bitmap own now secs (i + 1) r (set_id_bit i bm)) as [r' bm']. cbn [snd] in *.
      rewrite IH, P, set_test by auto. rewrite (N.eqb_sym i h).
      destruct (h =? i) eqn:F; cbn [orb]; auto.
      apply N.eqb_eq in F. subst h.
      replace (negb (i =? own) && negb (t =? 0)) with true by lia. cbn [andb negb orb].
      apply orb_true_r.
Qed.
