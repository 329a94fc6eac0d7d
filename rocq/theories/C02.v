(* C02: ballot blocks, mode blocks, request records (and index records)
   survive the disk and do not overlap. *)
From Coq Require Import List NArith ZArith Lia Bool Arith.
From Verif Require Import Bytes Crc Codec C01.
Import ListNotations.
Open Scope N_scope.

(* A host sector holding a ballot block and a mode block: both read back as
   written, whatever the previous contents of the (uncleared) buffers. *)
Theorem C02_host_sector_both :
  forall pd m buf stack1 stack2,
    dblock_wf pd -> mblock_wf m -> (512 <= length buf)%nat ->
    length stack1 = DBLOCK_SIZE -> length stack2 = MBLOCK_SIZE ->
    let s := host_sector_both pd m buf stack1 stack2 in
    length s = length buf /\
    fst (host_sector_read_dblock s)
      = dblock_set_checksum pd (snd (host_sector_read_dblock s)) /\
    host_sector_read_mblock s = m.
Proof. intros. eapply host_sector_both_read; eauto. Qed.

(* A host sector holding only a ballot block: the block reads back and the
   mode block reads as "not shared". *)
Theorem C02_host_sector_dblock :
  forall pd stack ss,
    dblock_wf pd -> (512 <= ss)%nat -> length stack = DBLOCK_SIZE ->
    let s := host_sector_dblock ss pd stack in
    length s = ss /\
    fst (host_sector_read_dblock s)
      = dblock_set_checksum pd (snd (host_sector_read_dblock s)) /\
    m_flags (host_sector_read_mblock s) = 0 /\
    m_generation (host_sector_read_mblock s) = 0.
Proof. exact host_sector_dblock_read. Qed.

(* written ballot blocks are accepted by the reader's check *)
Theorem C02_dblock_accepted :
  forall pd stack rest,
    dblock_wf pd -> length stack = DBLOCK_SIZE ->
    let r := host_sector_read_dblock (dblock_bytes pd stack ++ rest) in
    verify_dblock (fst r) (snd r) = true.
Proof.
  intros pd stack rest W Hs r. subst r. unfold host_sector_read_dblock. cbv zeta.
  rewrite get0_app by (apply dblock_bytes_length; auto). cbn [fst snd].
  rewrite dblock_roundtrip_bytes by auto.
  unfold verify_dblock. destruct (_ && _ && _ && _ && _); auto.
  cbn [dblock_set_checksum d_checksum]. apply N.eqb_refl.
Qed.

Theorem C02_request_roundtrip :
  forall r stack rest,
    request_wf r -> length stack = REQUEST_SIZE ->
    request_record_in (get 0 REQUEST_SIZE (request_record_out r stack ++ rest)) = r.
Proof.
  intros r stack rest W Hs.
  rewrite get0_app by (apply request_record_out_length; auto).
  apply request_roundtrip; auto.
Qed.

Theorem C02_rindex_roundtrip :
  (forall r stack, rheader_wf r -> length stack = RHEADER_SIZE ->
     rindex_header_in (rindex_header_out r stack) = r) /\
  (forall r stack, rentry_wf r -> length stack = RENTRY_SIZE ->
     rindex_entry_in (rindex_entry_out r stack) = r).
Proof. split; [exact rheader_roundtrip | exact rentry_roundtrip]. Qed.

(* The bitmap lives at [256,512) of a host-id sector (src/leader.h:88-90,
   src/delta_lease.c renew: memcpy(wbuf + HOSTID_BITMAP_OFFSET, bitmap, ...)).
   Storing any bitmap never changes what the leader record reads as, and
   storing a leader record never changes the bitmap. *)
Definition LEADER_RECORD_MAX : nat := 256.
Definition HOSTID_BITMAP_OFFSET : nat := 256.
Definition HOSTID_BITMAP_SIZE : nat := 256.

Theorem C02_bitmap_separate :
  forall sector bitmap lrbytes,
    (512 <= length sector)%nat -> length bitmap = HOSTID_BITMAP_SIZE ->
    length lrbytes = LEADER_SIZE ->
    read_leader_sector (put HOSTID_BITMAP_OFFSET bitmap sector) = read_leader_sector sector /\
    get HOSTID_BITMAP_OFFSET HOSTID_BITMAP_SIZE (put HOSTID_BITMAP_OFFSET bitmap sector) = bitmap /\
    get HOSTID_BITMAP_OFFSET HOSTID_BITMAP_SIZE (put 0 lrbytes sector)
      = get HOSTID_BITMAP_OFFSET HOSTID_BITMAP_SIZE sector.
Proof.
  unfold HOSTID_BITMAP_OFFSET, HOSTID_BITMAP_SIZE, LEADER_SIZE.
  intros sector bitmap lrb Hs Hb Hl. split; [|split].
  - unfold read_leader_sector, LEADER_SIZE. cbv zeta.
    rewrite (gp_other 256 bitmap sector 0 200 256) by lia. reflexivity.
  - apply gp_same; lia.
  - apply (gp_other 0 lrb sector 256 256 200); lia.
Qed.

(* The documented places of the members on the disk, independent of the conversion
   functions (offset, width, value; little endian; see [member_on_disk] in C01). *)
Definition dblock_layout (pd : dblock) : list member :=
  [ Int 0 8 (d_mbal pd); Int 8 8 (d_bal pd); Int 16 8 (d_inp pd); Int 24 8 (d_inp2 pd);
    Int 32 8 (d_inp3 pd); Int 40 8 (d_lver pd); Int 52 4 (d_flags pd) ].
Definition mblock_layout (m : mblock) : list member :=
  [ Int 128 4 (m_flags m); Int 136 8 (m_generation m) ].
Definition request_layout (r : request) : list member :=
  [ Int 0 4 (rr_magic r); Int 4 4 (rr_version r); Int 8 8 (rr_lver r); Int 16 4 (rr_force_mode r) ].
Definition rheader_layout (r : rheader) : list member :=
  [ Int 0 4 (rh_magic r); Int 4 4 (rh_version r); Int 8 4 (rh_flags r); Int 12 4 (rh_sector_size r);
    Int 16 4 (rh_max_resources r); Int 20 4 (rh_unused r); Int 24 8 (rh_rx_offset r); Name 32 (rh_lockspace_name r) ].
Definition rentry_layout (r : rentry) : list member :=
  [ Int 0 8 (re_res_offset r); Int 8 4 (re_flags r); Int 12 4 (re_unused r); Name 16 (re_name r) ].

Lemma get_on_disk s o b : get o (length b) s = b -> forall i x, nth_error b i = Some x -> nth_error s (o + i) = Some x.
Proof.
  intros G i x H. assert (L : (i < length b)%nat) by (apply nth_error_Some; congruence).
  rewrite <- H, <- G, nth_error_get. rewrite (proj2 (Nat.ltb_lt i (length b))) by exact L. reflexivity.
Qed.
Lemma int_on_disk s o w v : get o w s = le_enc w v -> member_on_disk s (Int o w v).
Proof.
  intros G i H. apply (get_on_disk s o (le_enc w v)); [rewrite le_enc_length; exact G|]. apply le_enc_nth. exact H.
Qed.
Lemma name_on_disk s o v : get o (length v) s = v -> member_on_disk s (Name o v).
Proof. intros G i b H. eapply get_on_disk; eauto. Qed.
Lemma dblock_bytes_get pd stack o w v : length stack = DBLOCK_SIZE -> In (o, le_enc w v) (paxos_dblock_writes pd) ->
  get o w (dblock_bytes pd stack) = le_enc w v.
Proof.
  intros L I. unfold dblock_bytes. cbv zeta. unfold paxos_dblock_out. rewrite puts_snoc. set (c := le_enc 4 _).
  assert (S : shape_of (paxos_dblock_writes pd ++ [(48%nat, c)]) = (dblock_shape ++ [(48, 4)])%nat).
  { unfold shape_of. rewrite map_app. cbn [map fst snd]. unfold c. rewrite le_enc_length. unfold paxos_dblock_writes. cbn [map fst snd]. rewrite !le_enc_length. reflexivity. }
  assert (G : forall k o n, chk DBLOCK_SIZE k (dblock_shape ++ [(48, 4)])%nat o n = true ->
    get o n (puts (paxos_dblock_writes pd ++ [(48%nat, c)]) stack) = snd (nth k (paxos_dblock_writes pd ++ [(48%nat, c)]) (0%nat, []))).
  { intros k o' n H. eapply get_puts_nth; eauto. }
  unfold paxos_dblock_writes in I. cbn [In] in I.
  destruct I as [I|[I|[I|[I|[I|[I|[I|[]]]]]]]];
    (assert (W := f_equal (fun x => length (snd x)) I); cbn [snd] in W; rewrite !le_enc_length in W; subst w;
     assert (O := f_equal fst I); cbn [fst] in O; subst o; assert (V := f_equal snd I); cbn [snd] in V; rewrite <- V).
  - apply (G 0%nat); reflexivity.
  - apply (G 1%nat); reflexivity.
  - apply (G 2%nat); reflexivity.
  - apply (G 3%nat); reflexivity.
  - apply (G 4%nat); reflexivity.
  - apply (G 5%nat); reflexivity.
  - apply (G 6%nat); reflexivity.
Qed.
Theorem C02_host_sector_layout : forall pd m buf stack1 stack2, (512 <= length buf)%nat ->
  length stack1 = DBLOCK_SIZE -> length stack2 = MBLOCK_SIZE ->
  let s := host_sector_both pd m buf stack1 stack2 in
  Forall (member_on_disk s) (dblock_layout pd) /\ Forall (member_on_disk s) (mblock_layout m).
Proof.
  intros pd m buf stack1 stack2 Lb L1 L2 s.
  assert (LD : length (dblock_bytes pd stack1) = DBLOCK_SIZE) by (apply dblock_bytes_length; auto).
  assert (LM : length (mode_block_out m stack2) = MBLOCK_SIZE) by (apply mode_block_out_length; auto).
  assert (LP : length (put 0 (dblock_bytes pd stack1) buf) = length buf) by (apply put_length; rewrite LD; unfold DBLOCK_SIZE; lia).
  split.
  - assert (D : forall o w v, In (o, le_enc w v) (paxos_dblock_writes pd) -> (o + w <= 56)%nat -> member_on_disk s (Int o w v)).
    { intros o w v I B. apply int_on_disk. unfold s, host_sector_both.
      rewrite get_put_other by (rewrite ?LP, ?LM; unfold MBLOCK_OFFSET, MBLOCK_SIZE; lia).
      unfold put. cbn [firstn app]. rewrite get_app_prefix by (rewrite LD; unfold DBLOCK_SIZE; lia). apply dblock_bytes_get; auto. }
    unfold dblock_layout. repeat (apply Forall_cons; [apply D; [cbn; tauto|lia]|]). apply Forall_nil.
  - assert (M : forall o w v, get o w (mode_block_out m stack2) = le_enc w v -> (o + w <= 16)%nat -> member_on_disk s (Int (128 + o) w v)).
    { intros o w v G B. apply int_on_disk. rewrite <- G. unfold s, host_sector_both. apply nth_error_ext. intros i.
      rewrite !nth_error_get. destruct (i <? w)%nat eqn:Ei; [|reflexivity]. apply Nat.ltb_lt in Ei.
      rewrite nth_error_put by (rewrite LP, LM; unfold MBLOCK_OFFSET, MBLOCK_SIZE; lia). rewrite LM. unfold MBLOCK_OFFSET, MBLOCK_SIZE.
      assert (T : ((128 <=? 128 + o + i) && (128 + o + i <? 128 + 16) = true)%nat). { apply andb_true_intro. split; [apply Nat.leb_le|apply Nat.ltb_lt]; lia. }
      rewrite T. f_equal. lia. }
    assert (G : forall k o n, chk MBLOCK_SIZE k [(0, 4); (8, 8)]%nat o n = true -> get o n (mode_block_out m stack2) = snd (nth k (mode_block_writes m) (0%nat, []))).
    { intros k o n H. unfold mode_block_out. eapply get_puts_nth; [eassumption| |eassumption]. unfold mode_block_writes, shape_of. cbn [map fst snd]. rewrite !le_enc_length. reflexivity. }
    unfold mblock_layout. apply Forall_cons; [apply (M 0%nat); [apply (G 0%nat); reflexivity|lia]|].
    apply Forall_cons; [apply (M 8%nat); [apply (G 1%nat); reflexivity|lia]|]. apply Forall_nil.
Qed.
Theorem C02_other_layouts :
  (forall r stack, length stack = REQUEST_SIZE -> Forall (member_on_disk (request_record_out r stack)) (request_layout r)) /\
  (forall r stack, rheader_wf r -> length stack = RHEADER_SIZE -> Forall (member_on_disk (rindex_header_out r stack)) (rheader_layout r)) /\
  (forall r stack, rentry_wf r -> length stack = RENTRY_SIZE -> Forall (member_on_disk (rindex_entry_out r stack)) (rentry_layout r)).
Proof.
  split; [|split].
  - intros r stack L. unfold request_record_out, request_layout.
    assert (G : forall k o n, chk REQUEST_SIZE k [(0, 4); (4, 4); (8, 8); (16, 4)]%nat o n = true -> get o n (puts (request_record_writes r) stack) = snd (nth k (request_record_writes r) (0%nat, []))).
    { intros k o n H. eapply get_puts_nth; [eassumption| |eassumption]. unfold request_record_writes, shape_of. cbn [map fst snd]. rewrite !le_enc_length. reflexivity. }
    repeat apply Forall_cons; try apply Forall_nil; apply int_on_disk; [apply (G 0%nat)|apply (G 1%nat)|apply (G 2%nat)|apply (G 3%nat)]; reflexivity.
  - intros r stack W L. unfold rindex_header_out, rheader_layout. destruct W as (_ & _ & _ & _ & _ & _ & _ & LN & _).
    assert (G : forall k o n, chk RHEADER_SIZE k rheader_shape o n = true -> get o n (puts (rindex_header_writes r) stack) = snd (nth k (rindex_header_writes r) (0%nat, []))).
    { intros k o n H. eapply get_puts_nth; [eassumption| |eassumption]. unfold rindex_header_writes, shape_of. cbn [map fst snd]. rewrite !le_enc_length, LN. reflexivity. }
    repeat apply Forall_cons; try apply Forall_nil; try apply int_on_disk;
      [apply (G 0%nat)|apply (G 1%nat)|apply (G 2%nat)|apply (G 3%nat)|apply (G 4%nat)|apply (G 5%nat)|apply (G 6%nat)|apply name_on_disk; rewrite LN; apply (G 7%nat)]; reflexivity.
  - intros r stack W L. unfold rindex_entry_out, rentry_layout. destruct W as (_ & _ & _ & LN & _).
    assert (G : forall k o n, chk RENTRY_SIZE k rentry_shape o n = true -> get o n (puts (rindex_entry_writes r) stack) = snd (nth k (rindex_entry_writes r) (0%nat, []))).
    { intros k o n H. eapply get_puts_nth; [eassumption| |eassumption]. unfold rindex_entry_writes, shape_of. cbn [map fst snd]. rewrite !le_enc_length, LN. reflexivity. }
    repeat apply Forall_cons; try apply Forall_nil; try apply int_on_disk;
      [apply (G 0%nat)|apply (G 1%nat)|apply (G 2%nat)|apply name_on_disk; rewrite LN; apply (G 3%nat)]; reflexivity.
Qed.

Example C02_nonvacuous :
  let pd := {| d_mbal := 4003; d_bal := 4003; d_inp := 3; d_inp2 := 1; d_inp3 := 99;
               d_lver := 5; d_checksum := 0; d_flags := 1 |} in
  let m := {| m_flags := MBLOCK_SHARED; m_generation := 12 |} in
  dblock_wf pd /\ mblock_wf m /\
  host_sector_read_mblock (host_sector_both pd m (repeat 0xEE 512) (repeat 0x55 56) (repeat 0x77 16)) = m.
Proof. vm_compute. intuition. Qed.

Print Assumptions C02_host_sector_both.
Print Assumptions C02_host_sector_dblock.
Print Assumptions C02_dblock_accepted.
Print Assumptions C02_request_roundtrip.
Print Assumptions C02_rindex_roundtrip.
Print Assumptions C02_bitmap_separate.
Print Assumptions C02_host_sector_layout.
Print Assumptions C02_other_layouts.
