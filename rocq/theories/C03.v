(* C03: corruption of up to four adjacent bytes of the checksummed part of a
   lease record or ballot block is detected. *)
From Coq Require Import List NArith ZArith Lia Bool Arith.
From Verif Require Import Bytes Crc Codec Leader C01.
Import ListNotations.
Open Scope N_scope.

(* s' is s with a run of at most [n] adjacent bytes, inside the first [lim]
   bytes, replaced by different bytes *)
Definition burst_corruption (n lim : nat) (s s' : bytes) : Prop :=
  exists pre m m' post,
    s = pre ++ m ++ post /\ s' = pre ++ m' ++ post /\
    length m = length m' /\ (length m <= n)%nat /\ m <> m' /\
    (length pre + length m <= lim)%nat.

(* the part that has to be protected: all members stored before the checksum, which is
   the four bytes at 168 of a lease record and at 48 of a ballot block *)
Definition leader_protected : nat := 168.
Definition dblock_protected : nat := 48.

Lemma get_prefix_split pre m post k :
  (length pre + length m <= k)%nat ->
  get 0 k (pre ++ m ++ post) = pre ++ m ++ firstn (k - length pre - length m) post.
Proof.
  intros H. unfold get. cbn [skipn].
  rewrite firstn_app. rewrite firstn_all2 by lia.
  rewrite firstn_app. rewrite firstn_all2 by lia. reflexivity.
Qed.

Lemma all_bytes_app a b : all_bytes (a ++ b) -> all_bytes a /\ all_bytes b.
Proof. unfold all_bytes. rewrite Forall_app. tauto. Qed.

Lemma all_bytes_firstn k l : all_bytes l -> all_bytes (firstn k l).
Proof.
  intros H. rewrite <- (firstn_skipn k l) in H. apply all_bytes_app in H. tauto.
Qed.

Lemma burst_changes_crc lim s s' :
  all_bytes s -> all_bytes s' -> burst_corruption 4 lim s s' ->
  crc32c crc_init (get 0 lim s) <> crc32c crc_init (get 0 lim s').
Proof.
  intros B B' (pre & m & m' & post & -> & -> & Hl & Hn & Hne & Hlim).
  rewrite get_prefix_split by auto. rewrite get_prefix_split by lia.
  rewrite <- Hl.
  apply all_bytes_app in B. destruct B as (Bp & B). apply all_bytes_app in B. destruct B as (Bm & Bq).
  apply all_bytes_app in B'. destruct B' as (_ & B'). apply all_bytes_app in B'. destruct B' as (Bm' & _).
  apply crc_burst; auto.
  - reflexivity.
  - apply all_bytes_firstn; auto.
Qed.

(* an unaltered member outside the altered range *)
Lemma burst_get_after lim s s' o n :
  burst_corruption 4 lim s s' -> (lim <= o)%nat -> get o n s = get o n s'.
Proof.
  intros (pre & m & m' & post & -> & -> & Hl & Hn & Hne & Hlim) Ho.
  rewrite !app_assoc.
  rewrite !get_app_suffix by (rewrite app_length; lia).
  rewrite !app_length, Hl. reflexivity.
Qed.

(* resource leases *)
Theorem C03_leader_corruption_detected :
  forall s s' space res host space' res' host',
    all_bytes s -> all_bytes s' ->
    burst_corruption 4 leader_protected s s' ->
    (let (lr, ck) := read_leader_sector s in verify_leader space res host lr ck) = SANLK_OK ->
    (let (lr, ck) := read_leader_sector s' in verify_leader space' res' host' lr ck) <> SANLK_OK.
Proof.
  intros s s' space res host space' res' host' B B' C OK.
  unfold read_leader_sector in *. cbv zeta in *.
  assert (E : l_checksum (leader_record_in (get 0 LEADER_SIZE s))
              = leader_checksum (get 0 LEADER_SIZE s)).
  { destruct (N.eq_dec (l_checksum (leader_record_in (get 0 LEADER_SIZE s)))
                (leader_checksum (get 0 LEADER_SIZE s))); auto.
    exfalso. revert OK. apply verify_leader_checksum_needed; auto. }
  apply verify_leader_checksum_needed.
  intros E'.
  cbn [leader_record_in l_checksum] in E, E'.
  unfold leader_checksum in E, E'.
  rewrite !get_get in E, E' by (unfold LEADER_SIZE, LEADER_CHECKSUM_LEN; lia).
  cbn [Nat.add] in E, E'.
  rewrite (burst_get_after _ s s' 168 4 C) in E by (unfold leader_protected; lia).
  rewrite E in E'.
  revert E'. apply burst_changes_crc; auto.
Qed.

(* host-id leases *)
Theorem C03_delta_corruption_detected :
  forall s s' space space',
    all_bytes s -> all_bytes s' ->
    burst_corruption 4 leader_protected s s' ->
    (let (lr, ck) := read_leader_sector s in delta_verify_leader space lr ck) = SANLK_OK ->
    (let (lr, ck) := read_leader_sector s' in delta_verify_leader space' lr ck) <> SANLK_OK.
Proof.
  intros s s' space space' B B' C OK.
  unfold read_leader_sector in *. cbv zeta in *.
  assert (E : l_checksum (leader_record_in (get 0 LEADER_SIZE s))
              = leader_checksum (get 0 LEADER_SIZE s)).
  { destruct (N.eq_dec (l_checksum (leader_record_in (get 0 LEADER_SIZE s)))
                (leader_checksum (get 0 LEADER_SIZE s))); auto.
    exfalso. revert OK. apply delta_verify_leader_checksum_needed; auto. }
  apply delta_verify_leader_checksum_needed.
  intros E'.
  cbn [leader_record_in l_checksum] in E, E'.
  unfold leader_checksum in E, E'.
  rewrite !get_get in E, E' by (unfold LEADER_SIZE, LEADER_CHECKSUM_LEN; lia).
  cbn [Nat.add] in E, E'.
  rewrite (burst_get_after _ s s' 168 4 C) in E by (unfold leader_protected; lia).
  rewrite E in E'.
  revert E'. apply burst_changes_crc; auto.
Qed.

(* a ballot block that reads as never written *)
Definition blank_block (d : dblock) : Prop :=
  d_checksum d = 0 /\ d_mbal d = 0 /\ d_bal d = 0 /\ d_inp d = 0 /\ d_lver d = 0.

(* ballot blocks: the corruption is detected unless the block looks blank
   after it; see C03_dblock_blank_exception below for why the exception is
   needed. *)
Theorem C03_dblock_corruption_detected :
  forall s s',
    all_bytes s -> all_bytes s' ->
    burst_corruption 4 dblock_protected s s' ->
    (let (d, ck) := host_sector_read_dblock s in verify_dblock d ck = true /\ ~ blank_block d) ->
    (let (d, ck) := host_sector_read_dblock s' in verify_dblock d ck = false \/ blank_block d).
Proof.
  intros s s' B B' C OK.
  unfold host_sector_read_dblock in *. cbv zeta in *.
  destruct OK as [V NB].
  unfold verify_dblock in V |- *.
  assert (BB : forall d, (d_checksum d =? 0) && (d_mbal d =? 0) && (d_bal d =? 0)
     && (d_inp d =? 0) && (d_lver d =? 0) = true -> blank_block d).
  { intros d H. repeat (apply andb_prop in H; destruct H as [H ?]).
    unfold blank_block. rewrite !N.eqb_eq in *. auto. }
  match type of V with (if ?b then _ else _) = _ => destruct b eqn:E1 end.
  { exfalso. apply NB. apply BB. exact E1. }
  match goal with |- (if ?b then _ else _) = _ \/ _ => destruct b eqn:E2 end.
  { right. apply BB. exact E2. }
  left. apply N.eqb_neq. apply N.eqb_eq in V. intros V'.
  cbn [paxos_dblock_in d_checksum] in V, V'.
  unfold dblock_checksum in V, V'.
  rewrite !get_get in V, V' by (unfold DBLOCK_SIZE, DBLOCK_CHECKSUM_LEN; lia).
  cbn [Nat.add] in V, V'.
  rewrite (burst_get_after _ s s' 48 4 C) in V by (unfold dblock_protected; lia).
  rewrite V in V'. revert V'. apply burst_changes_crc; auto.
Qed.

(* in particular detection is unconditional when the stored checksum is not 0 *)
Theorem C03_dblock_corruption_detected_nonzero :
  forall s s',
    all_bytes s -> all_bytes s' ->
    burst_corruption 4 dblock_protected s s' ->
    (let (d, ck) := host_sector_read_dblock s in verify_dblock d ck = true /\ d_checksum d <> 0) ->
    (let (d, ck) := host_sector_read_dblock s' in verify_dblock d ck = false).
Proof.
  intros s s' B B' C OK.
  pose proof (C03_dblock_corruption_detected s s' B B' C) as T.
  unfold host_sector_read_dblock in *. cbv zeta in *.
  destruct T as [T|T]; auto.
  - destruct OK as [V N]. split; auto. unfold blank_block. tauto.
  - exfalso. destruct OK as [V N]. destruct T as (T & _). apply N. rewrite <- T.
    cbn [paxos_dblock_in d_checksum]. f_equal.
    rewrite !get_get by (unfold DBLOCK_SIZE; lia). cbn [Nat.add].
    apply (burst_get_after _ s s' 48 4 C). unfold dblock_protected. lia.
Qed.

(* The exception is real: this valid, non-blank block (mbal = 0xFFFFFFFE, all
   other members 0, stored checksum 0) becomes an accepted blank block when
   its first four bytes are cleared. *)
Definition ex_block : bytes := [0xFE;0xFF;0xFF;0xFF] ++ repeat 0 52.
Definition ex_block' : bytes := [0;0;0;0] ++ repeat 0 52.

Theorem C03_dblock_blank_exception_refuted :
  exists s s',
    burst_corruption 4 dblock_protected s s' /\
    (let (d, ck) := host_sector_read_dblock s in
       verify_dblock d ck = true /\ d_mbal d <> 0 /\ ~ blank_block d) /\
    (let (d, ck) := host_sector_read_dblock s' in verify_dblock d ck = true /\ d_mbal d = 0).
Proof.
  exists ex_block, ex_block'. split; [|split].
  - exists [], [0xFE;0xFF;0xFF;0xFF], [0;0;0;0], (repeat 0 52).
    repeat (split; [first [reflexivity | apply Nat.leb_le; reflexivity | discriminate] | ]). apply Nat.leb_le; reflexivity.
  - vm_compute. repeat split; try discriminate. intros (_ & H & _). discriminate.
  - vm_compute. auto.
Qed.

(* The checksum is CRC-32C: dividing by the reflected Castagnoli polynomial bit by bit
   (this is what other implementations of the format, and older records, rely on). *)
Definition crc_bit (c : N) : N := if N.odd c then N.lxor (N.shiftr c 1) 0x82F63B78 else N.shiftr c 1.
Definition crc_bits8 (c : N) : N := crc_bit (crc_bit (crc_bit (crc_bit (crc_bit (crc_bit (crc_bit (crc_bit c))))))).
Fixpoint crc32c_bitwise (c : N) (l : bytes) : N :=
  match l with [] => c | b :: r => crc32c_bitwise (crc_bits8 (N.lxor c b)) r end.

Lemma crc_bit_lxor x y : crc_bit (N.lxor x y) = N.lxor (crc_bit x) (crc_bit y).
Proof.
  unfold crc_bit. rewrite <- !N.bit0_odd, N.lxor_spec, N.shiftr_lxor.
  destruct (N.testbit x 0), (N.testbit y 0); cbn [xorb]; apply N.bits_inj; intros n; rewrite !N.lxor_spec;
    repeat match goal with |- context [N.testbit ?a ?b] => destruct (N.testbit a b) end; reflexivity.
Qed.
Lemma crc_bits8_lxor x y : crc_bits8 (N.lxor x y) = N.lxor (crc_bits8 x) (crc_bits8 y).
Proof. unfold crc_bits8. rewrite !crc_bit_lxor. reflexivity. Qed.
Lemma crc_bit_double x : crc_bit (2 * x) = x.
Proof.
  unfold crc_bit. rewrite N.odd_mul. cbn [N.odd andb]. rewrite N.shiftr_div_pow2. change (2 ^ 1) with 2.
  rewrite N.mul_comm. apply N.div_mul. discriminate.
Qed.
Lemma crc_bits8_high x : crc_bits8 (256 * x) = x.
Proof.
  unfold crc_bits8. replace (256 * x) with (2 * (2 * (2 * (2 * (2 * (2 * (2 * (2 * x)))))))) by lia.
  rewrite !crc_bit_double. reflexivity.
Qed.
Lemma table_is_crc_bits8 : forallb (fun i => tab (N.of_nat i) =? crc_bits8 (N.of_nat i)) (seq 0 256) = true.
Proof. vm_compute. reflexivity. Qed.
Lemma tab_crc_bits8 i : i < 256 -> tab i = crc_bits8 i.
Proof.
  intros H. pose proof (proj1 (forallb_forall _ _) table_is_crc_bits8 (N.to_nat i)) as F. cbv beta in F.
  rewrite N2Nat.id in F. apply N.eqb_eq. apply F. apply in_seq. lia.
Qed.
Theorem C03_checksum_is_crc32c : forall l crc, all_bytes l -> crc < 2 ^ 32 -> crc32c crc l = crc32c_bitwise crc l.
Proof.
  intros l. induction l as [|b l IH]; intros crc A H; [reflexivity|]. inversion A as [|? ? Hb A']; subst.
  cbn [crc32c fold_left crc32c_bitwise]. change (fold_left crc_step l (crc_step crc b)) with (crc32c (crc_step crc b) l).
  assert (E : crc_step crc b = crc_bits8 (N.lxor crc b)).
  { rewrite crc_step_tab. set (x := N.lxor crc b). rewrite land_ff.
    transitivity (crc_bits8 (N.lxor (x mod 256) (256 * (x / 256)))).
    - rewrite crc_bits8_lxor, crc_bits8_high, tab_crc_bits8 by (apply N.mod_lt; discriminate). f_equal.
      unfold x. rewrite <- (N.shiftr_div_pow2 _ 8), N.shiftr_lxor. rewrite (shiftr_small b 8) by exact Hb. rewrite N.lxor_0_r. reflexivity.
    - f_equal. rewrite <- lxor_add_byte by (apply N.mod_lt; discriminate). pose proof (N.div_mod x 256 ltac:(discriminate)). lia. }
  rewrite <- E. apply IH; [exact A'|]. apply crc_step_bound. exact H.
Qed.

(* non-vacuity: a stored record that is accepted and a one-byte corruption *)
Definition good_sector : bytes := write_leader_sector 512 sample_leader (repeat 0xAA 200).
Example C03_nonvacuous :
  (let (lr, ck) := read_leader_sector good_sector in
   verify_leader (sample_name 97) (sample_name 110) 7 lr ck) = SANLK_OK /\
  (let (lr, ck) := read_leader_sector (put 33 [1] good_sector) in
   verify_leader (sample_name 97) (sample_name 110) 7 lr ck) = SANLK_LEADER_CHECKSUM.
Proof. vm_compute. auto. Qed.

Print Assumptions C03_leader_corruption_detected.
Print Assumptions C03_delta_corruption_detected.
Print Assumptions C03_dblock_corruption_detected.
Print Assumptions C03_dblock_corruption_detected_nonzero.
Print Assumptions C03_dblock_blank_exception_refuted.
Print Assumptions C03_checksum_is_crc32c.
