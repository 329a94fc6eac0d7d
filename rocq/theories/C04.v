(* C04: a lease record is only trusted if it belongs to the requested lease. *)
From Coq Require Import List NArith ZArith Lia Bool Arith.
From Verif Require Import Bytes Crc Codec Leader C01 C03.
Import ListNotations.
Open Scope N_scope.

(* Specification of "the record found in the sector belongs to the lease":
   stated on the raw bytes of the sector, not on the decoder. *)
Definition u_at (s : bytes) (off w : nat) (v : N) : Prop :=
  forall i, (i < w)%nat -> nth_error s (off + i) = Some ((v / 256 ^ N.of_nat i) mod 256).

Definition name_at (s : bytes) (off : nat) (name : bytes) : Prop :=
  cstr 48 (get off 48 s) = cstr 48 name.

Definition belongs (s space res : bytes) (host : N) : Prop :=
  u_at s 0 4 0x06152010 /\
  u_at s 6 2 6 /\                      (* major version: upper half of the version word *)
  name_at s 56 space /\ name_at s 104 res /\
  (exists nh, u_at s 16 8 nh /\ nh < 2 ^ 64 /\ host <= nh) /\
  u_at s 168 4 (crc32c crc_init (get 0 168 s)).

Lemma u_at_iff s off w v :
  all_bytes s -> (off + w <= length s)%nat -> v < 256 ^ N.of_nat w ->
  (u_at s off w v <-> le_dec (get off w s) = v).
Proof.
  intros B L Hv. split.
  - intros H.
    assert (E : get off w s = le_enc w v).
    { apply nth_error_ext. intros i. rewrite nth_error_get.
      destruct (i <? w)%nat eqn:E.
      - apply Nat.ltb_lt in E. rewrite le_enc_nth by auto. apply H; auto.
      - apply Nat.ltb_ge in E. symmetry. apply nth_error_None. rewrite le_enc_length. auto. }
    rewrite E. apply le_dec_enc_small; auto.
  - intros H i Hi.
    assert (E : get off w s = le_enc w v).
    { rewrite <- H. rewrite <- (get_length off w s) at 2 by auto.
      rewrite le_enc_dec; auto. apply all_bytes_get; auto. }
    transitivity (nth_error (get off w s) i).
    + rewrite nth_error_get, (proj2 (Nat.ltb_lt i w)) by auto. reflexivity.
    + rewrite E. apply le_enc_nth; auto.
Qed.

Lemma le_dec_app a b : le_dec (a ++ b) = le_dec a + 256 ^ N.of_nat (length a) * le_dec b.
Proof.
  induction a as [|x a IH].
  - cbn [app le_dec length]. change (256 ^ N.of_nat 0) with 1. lia.
  - cbn [app le_dec length]. rewrite IH.
    replace (N.of_nat (S (length a))) with (N.succ (N.of_nat (length a))) by lia.
    rewrite N.pow_succ_r'. lia.
Qed.

Lemma get_split s off a b :
  get off (a + b) s = get off a s ++ get (off + a) b s.
Proof.
  apply nth_error_ext. intros i. rewrite nth_error_get.
  destruct (Nat.lt_ge_cases i a).
  - destruct (Nat.le_gt_cases (length s) (off + i)).
    + rewrite (proj2 (Nat.ltb_lt i (a + b))) by lia.
      assert (length (get off a s) <= i)%nat.
      { unfold get. rewrite firstn_length, skipn_length. lia. }
      rewrite nth_error_app2 by auto.
      rewrite (proj2 (nth_error_None _ _)) by auto.
      symmetry. apply nth_error_None. unfold get. rewrite firstn_length, skipn_length. lia.
    + rewrite nth_error_app1.
      * rewrite nth_error_get. rewrite !(proj2 (Nat.ltb_lt _ _)) by lia. reflexivity.
      * unfold get. rewrite firstn_length, skipn_length. lia.
  - destruct (Nat.le_gt_cases (length s) (off + i)).
    + assert (T : nth_error s (off + i) = None) by (apply nth_error_None; auto).
      rewrite T. transitivity (@None N); [destruct (i <? a + b)%nat; auto|].
      symmetry. apply nth_error_None. rewrite app_length. unfold get.
      rewrite !firstn_length, !skipn_length. lia.
    + assert (L : length (get off a s) = a) by (apply get_length; lia).
      rewrite nth_error_app2 by lia. rewrite nth_error_get, L.
      destruct (Nat.lt_ge_cases i (a + b)).
      * rewrite !(proj2 (Nat.ltb_lt _ _)) by lia. f_equal. lia.
      * rewrite !(proj2 (Nat.ltb_ge _ _)) by lia. reflexivity.
Qed.

Theorem C04_accepts_exactly_own_records :
  forall s space res host,
    all_bytes s -> (512 <= length s)%nat ->
    (let (lr, ck) := read_leader_sector s in verify_leader space res host lr ck) = SANLK_OK
    <-> belongs s space res host.
Proof.
  intros s space res host B L.
  unfold read_leader_sector. cbv zeta.
  assert (Bg : forall o n, all_bytes (get o n s)) by (intros; apply all_bytes_get; auto).
  assert (Lg : forall o n, (o + n <= 512)%nat -> length (get o n s) = n) by (intros; apply get_length; lia).
  rewrite verify_leader_ok_iff.
  2:{ cbn [leader_record_in l_version]. rewrite get_get by (unfold LEADER_SIZE; lia).
      unfold u32. eapply N.lt_le_trans; [apply le_dec_bound; apply Bg|].
      rewrite Lg by lia. vm_compute. discriminate. }
  cbn [leader_record_in l_magic l_version l_space_name l_resource_name l_num_hosts l_checksum].
  unfold leader_checksum.
  rewrite !get_get by (unfold LEADER_SIZE, LEADER_CHECKSUM_LEN; lia).
  cbn [Nat.add].
  unfold belongs, name_at.
  rewrite !u_at_iff; try lia; auto; try reflexivity.
  2:{ apply (crc32c_bound crc_init _ eq_refl). }
  replace (le_dec (get 4 4 s)) with (le_dec (get 4 2 s) + 2 ^ 16 * le_dec (get 6 2 s)).
  2:{ rewrite (get_split s 4 2 2 : get 4 4 s = _), le_dec_app.
      rewrite Lg by lia. reflexivity. }
  assert (B2 : le_dec (get 4 2 s) < 2 ^ 16).
  { eapply N.lt_le_trans; [apply le_dec_bound; apply Bg|]. rewrite Lg by lia. reflexivity. }
  rewrite (N.mul_comm (2 ^ 16)), N.div_add by discriminate.
  rewrite (N.div_small _ _ B2), N.add_0_l.
  assert (NH : host <= le_dec (get 16 8 s) <->
               exists nh, u_at s 16 8 nh /\ nh < 2 ^ 64 /\ host <= nh).
  { assert (Hb : le_dec (get 16 8 s) < 2 ^ 64).
    { eapply N.lt_le_trans; [apply le_dec_bound; apply Bg|]. rewrite Lg by lia. vm_compute. discriminate. }
    split.
    - intros H. exists (le_dec (get 16 8 s)). split; [|split; auto].
      apply u_at_iff; auto. lia.
    - intros (nh & H1 & H2 & H3). apply u_at_iff in H1; auto; [lia|lia]. }
  rewrite <- NH. unfold NAME_ID_SIZE, LEADER_CHECKSUM_LEN, PAXOS_DISK_MAGIC. tauto.
Qed.

Example C04_nonvacuous : belongs good_sector (sample_name 97) (sample_name 110) 7.
Proof.
  apply C04_accepts_exactly_own_records.
  - apply all_bytes_dec. vm_compute. reflexivity.
  - apply Nat.leb_le. vm_compute. reflexivity.
  - vm_compute. reflexivity.
Qed.

Print Assumptions C04_accepts_exactly_own_records.
