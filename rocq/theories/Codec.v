(* On-disk records and their byte conversions.
   src/ondisk.c, src/leader.h, src/paxos_dblock.h, src/mode_block.h,
   src/rindex_disk.h.

   A C struct in on-disk format ("end" variables) is a byte buffer.  A member
   assignment   end->f = cpu_to_leXX(v)   is [put off (le_enc n v)], a member
   read  leXX_to_cpu(end->f)  is [le_dec (get off n)].  Offsets are those of
   the C structs: all members are naturally aligned, no hidden padding except
   the 4 bytes before mode_block.generation and the 4 bytes after
   request_record.force_mode (see the structs cited below). *)
From Coq Require Import List NArith ZArith Lia Bool Arith.
From Verif Require Import Bytes Crc.
Import ListNotations.
Open Scope N_scope.

(* a sequence of member assignments, in program order *)
Definition puts (ws : list (nat * bytes)) (e : bytes) : bytes :=
  fold_left (fun b w => put (fst w) (snd w) b) ws e.

(* src/leader.h:14 *)
Definition NAME_ID_SIZE : nat := 48.

(* ---------------- leader record, src/leader.h:62-83 ---------------- *)
Record leader := mkLeader {
  l_magic : N; l_version : N; l_flags : N; l_sector_size : N;
  l_num_hosts : N; l_max_hosts : N; l_owner_id : N; l_owner_generation : N;
  l_lver : N;
  l_space_name : bytes; l_resource_name : bytes;
  l_timestamp : N; l_unused1 : N; l_checksum : N; l_unused2 : N;
  l_io_timeout : N;
  l_write_id : N; l_write_generation : N; l_write_timestamp : N
}.

Definition LEADER_SIZE : nat := 200.   (* sizeof(struct leader_record) *)
Definition LEADER_COMPARE_LEN : nat := 152.  (* src/leader.h:51 *)
Definition LEADER_CHECKSUM_LEN : nat := 168. (* src/leader.h:52 *)

Definition u16 (v : N) := v < 2 ^ 16.
Definition u32 (v : N) := v < 2 ^ 32.
Definition u64 (v : N) := v < 2 ^ 64.

(* every member fits its C type *)
Definition leader_wf (r : leader) : Prop :=
  u32 (l_magic r) /\ u32 (l_version r) /\ u32 (l_flags r) /\ u32 (l_sector_size r) /\
  u64 (l_num_hosts r) /\ u64 (l_max_hosts r) /\ u64 (l_owner_id r) /\
  u64 (l_owner_generation r) /\ u64 (l_lver r) /\
  (length (l_space_name r) = NAME_ID_SIZE /\ all_bytes (l_space_name r)) /\
  (length (l_resource_name r) = NAME_ID_SIZE /\ all_bytes (l_resource_name r)) /\
  u64 (l_timestamp r) /\ u64 (l_unused1 r) /\ u32 (l_checksum r) /\
  u16 (l_unused2 r) /\ u16 (l_io_timeout r) /\
  u64 (l_write_id r) /\ u64 (l_write_generation r) /\ u64 (l_write_timestamp r).

(* src/ondisk.c:32-53 leader_record_in; reads a buffer of >= 200 bytes *)
Definition leader_record_in (e : bytes) : leader := {|
  l_magic := le_dec (get 0 4 e);
  l_version := le_dec (get 4 4 e);
  l_flags := le_dec (get 8 4 e);
  l_sector_size := le_dec (get 12 4 e);
  l_num_hosts := le_dec (get 16 8 e);
  l_max_hosts := le_dec (get 24 8 e);
  l_owner_id := le_dec (get 32 8 e);
  l_owner_generation := le_dec (get 40 8 e);
  l_lver := le_dec (get 48 8 e);
  l_space_name := get 56 48 e;
  l_resource_name := get 104 48 e;
  l_timestamp := le_dec (get 152 8 e);
  l_unused1 := le_dec (get 160 8 e);
  l_checksum := le_dec (get 168 4 e);
  l_unused2 := le_dec (get 172 2 e);
  l_io_timeout := le_dec (get 174 2 e);
  l_write_id := le_dec (get 176 8 e);
  l_write_generation := le_dec (get 184 8 e);
  l_write_timestamp := le_dec (get 192 8 e)
|}.

(* src/ondisk.c:55-78 leader_record_out; [e] is the previous (possibly
   uninitialised) content of *end, whose checksum member is not assigned *)
Definition leader_record_writes (lr : leader) : list (nat * bytes) :=
  [(0%nat, le_enc 4 (l_magic lr));
   (4%nat, le_enc 4 (l_version lr));
   (8%nat, le_enc 4 (l_flags lr));
   (12%nat, le_enc 4 (l_sector_size lr));
   (16%nat, le_enc 8 (l_num_hosts lr));
   (24%nat, le_enc 8 (l_max_hosts lr));
   (32%nat, le_enc 8 (l_owner_id lr));
   (40%nat, le_enc 8 (l_owner_generation lr));
   (48%nat, le_enc 8 (l_lver lr));
   (56%nat, l_space_name lr);
   (104%nat, l_resource_name lr);
   (152%nat, le_enc 8 (l_timestamp lr));
   (160%nat, le_enc 8 (l_unused1 lr));
   (172%nat, le_enc 2 (l_unused2 lr));
   (174%nat, le_enc 2 (l_io_timeout lr));
   (176%nat, le_enc 8 (l_write_id lr));
   (184%nat, le_enc 8 (l_write_generation lr));
   (192%nat, le_enc 8 (l_write_timestamp lr))].
Definition leader_record_out (lr : leader) (e : bytes) : bytes :=
  puts (leader_record_writes lr) e.

(* src/paxos_lease.c:66-69 leader_checksum on the on-disk form *)
Definition leader_checksum (e : bytes) : N :=
  crc32c crc_init (get 0 LEADER_CHECKSUM_LEN e).

(* src/paxos_lease.c:248-269 write_leader, src/delta_lease.c (same idiom in
   acquire/renew/release/init): byte swap, checksum, store checksum, and
   write_sector pads the sector with zeros (src/diskio.c:827-862, the iobuf
   is memset to 0 and the record copied to its start). *)
Definition leader_bytes (lr : leader) (e : bytes) : bytes :=
  let e := leader_record_out lr e in
  put 168 (le_enc 4 (leader_checksum e)) e.

Definition write_leader_sector (ss : nat) (lr : leader) (e : bytes) : bytes :=
  leader_bytes lr e ++ zeros (ss - LEADER_SIZE).

(* src/paxos_lease.c:365-390 read_leader: copies sizeof(leader_record) bytes
   of the sector, computes the checksum of the on-disk form, byte swaps *)
Definition read_leader_sector (sector : bytes) : leader * N :=
  let e := get 0 LEADER_SIZE sector in
  (leader_record_in e, leader_checksum e).

(* ---------------- paxos dblock, src/paxos_dblock.h ---------------- *)
Record dblock := mkDblock {
  d_mbal : N; d_bal : N; d_inp : N; d_inp2 : N; d_inp3 : N; d_lver : N;
  d_checksum : N; d_flags : N
}.
Definition DBLOCK_SIZE : nat := 56.
Definition DBLOCK_CHECKSUM_LEN : nat := 48.

Definition dblock_wf (d : dblock) : Prop :=
  u64 (d_mbal d) /\ u64 (d_bal d) /\ u64 (d_inp d) /\ u64 (d_inp2 d) /\
  u64 (d_inp3 d) /\ u64 (d_lver d) /\ u32 (d_checksum d) /\ u32 (d_flags d).

(* src/ondisk.c:96-106 *)
Definition paxos_dblock_in (e : bytes) : dblock := {|
  d_mbal := le_dec (get 0 8 e); d_bal := le_dec (get 8 8 e);
  d_inp := le_dec (get 16 8 e); d_inp2 := le_dec (get 24 8 e);
  d_inp3 := le_dec (get 32 8 e); d_lver := le_dec (get 40 8 e);
  d_checksum := le_dec (get 48 4 e); d_flags := le_dec (get 52 4 e)
|}.

(* src/ondisk.c:108-119; checksum not assigned *)
Definition paxos_dblock_writes (pd : dblock) : list (nat * bytes) :=
  [(0%nat, le_enc 8 (d_mbal pd));
   (8%nat, le_enc 8 (d_bal pd));
   (16%nat, le_enc 8 (d_inp pd));
   (24%nat, le_enc 8 (d_inp2 pd));
   (32%nat, le_enc 8 (d_inp3 pd));
   (40%nat, le_enc 8 (d_lver pd));
   (52%nat, le_enc 4 (d_flags pd))].
Definition paxos_dblock_out (pd : dblock) (e : bytes) : bytes :=
  puts (paxos_dblock_writes pd) e.

(* src/paxos_lease.c:71-74 *)
Definition dblock_checksum (e : bytes) : N :=
  crc32c crc_init (get 0 DBLOCK_CHECKSUM_LEN e).

Definition dblock_bytes (pd : dblock) (e : bytes) : bytes :=
  let e := paxos_dblock_out pd e in
  put 48 (le_enc 4 (dblock_checksum e)) e.

(* src/paxos_lease.c:392-404 verify_dblock: true = SANLK_OK *)
Definition verify_dblock (pd : dblock) (checksum : N) : bool :=
  if (d_checksum pd =? 0) && (d_mbal pd =? 0) && (d_bal pd =? 0)
     && (d_inp pd =? 0) && (d_lver pd =? 0) then true
  else d_checksum pd =? checksum.

(* ---------------- mode block, src/mode_block.h ---------------- *)
Record mblock := mkMblock { m_flags : N; m_generation : N }.
Definition MBLOCK_OFFSET : nat := 128.
Definition MBLOCK_SIZE : nat := 16.
Definition MBLOCK_SHARED : N := 1.

Definition mblock_wf (m : mblock) : Prop := u32 (m_flags m) /\ u64 (m_generation m).

(* src/ondisk.c:121-131 *)
Definition mode_block_in (e : bytes) : mblock :=
  {| m_flags := le_dec (get 0 4 e); m_generation := le_dec (get 8 8 e) |}.
Definition mode_block_writes (m : mblock) : list (nat * bytes) :=
  [(0%nat, le_enc 4 (m_flags m));
   (8%nat, le_enc 8 (m_generation m))].
Definition mode_block_out (m : mblock) (e : bytes) : bytes :=
  puts (mode_block_writes m) e.

(* src/paxos_lease.c:156-214 write_dblock_mblock_sh: the sector buffer is
   not cleared (content [buf] arbitrary), dblock at 0, mblock at 128. *)
Definition host_sector_both (pd : dblock) (m : mblock)
           (buf pde mbe : bytes) : bytes :=
  put MBLOCK_OFFSET (mode_block_out m mbe) (put 0 (dblock_bytes pd pde) buf).

(* src/paxos_lease.c:216-246 write_dblock: only the dblock, rest zero *)
Definition host_sector_dblock (ss : nat) (pd : dblock) (pde : bytes) : bytes :=
  dblock_bytes pd pde ++ zeros (ss - DBLOCK_SIZE).

(* reading, src/paxos_lease.c:560-590, src/resource.c:396-412 *)
Definition host_sector_read_dblock (s : bytes) : dblock * N :=
  let e := get 0 DBLOCK_SIZE s in (paxos_dblock_in e, dblock_checksum e).
Definition host_sector_read_mblock (s : bytes) : mblock :=
  mode_block_in (get MBLOCK_OFFSET MBLOCK_SIZE s).

(* ---------------- request record, src/leader.h:96-107 ---------------- *)
Record request := mkRequest {
  rr_magic : N; rr_version : N; rr_lver : N; rr_force_mode : N }.
Definition REQUEST_SIZE : nat := 24.

Definition request_wf (r : request) : Prop :=
  u32 (rr_magic r) /\ u32 (rr_version r) /\ u64 (rr_lver r) /\ u32 (rr_force_mode r).

(* src/ondisk.c:80-94 *)
Definition request_record_in (e : bytes) : request :=
  {| rr_magic := le_dec (get 0 4 e); rr_version := le_dec (get 4 4 e);
     rr_lver := le_dec (get 8 8 e); rr_force_mode := le_dec (get 16 4 e) |}.
Definition request_record_writes (r : request) : list (nat * bytes) :=
  [(0%nat, le_enc 4 (rr_magic r));
   (4%nat, le_enc 4 (rr_version r));
   (8%nat, le_enc 8 (rr_lver r));
   (16%nat, le_enc 4 (rr_force_mode r))].
Definition request_record_out (r : request) (e : bytes) : bytes :=
  puts (request_record_writes r) e.

(* ---------------- rindex, src/rindex_disk.h:83-116 ---------------- *)
Record rheader := mkRheader {
  rh_magic : N; rh_version : N; rh_flags : N; rh_sector_size : N;
  rh_max_resources : N; rh_unused : N; rh_rx_offset : N;
  rh_lockspace_name : bytes }.
Record rentry := mkRentry {
  re_res_offset : N; re_flags : N; re_unused : N; re_name : bytes }.
Definition RHEADER_SIZE : nat := 80.
Definition RENTRY_SIZE : nat := 64.

Definition rheader_wf (r : rheader) : Prop :=
  u32 (rh_magic r) /\ u32 (rh_version r) /\ u32 (rh_flags r) /\
  u32 (rh_sector_size r) /\ u32 (rh_max_resources r) /\ u32 (rh_unused r) /\
  u64 (rh_rx_offset r) /\
  length (rh_lockspace_name r) = NAME_ID_SIZE /\ all_bytes (rh_lockspace_name r).
Definition rentry_wf (r : rentry) : Prop :=
  u64 (re_res_offset r) /\ u32 (re_flags r) /\ u32 (re_unused r) /\
  length (re_name r) = NAME_ID_SIZE /\ all_bytes (re_name r).

(* src/ondisk.c:133-155 *)
Definition rindex_header_in (e : bytes) : rheader := {|
  rh_magic := le_dec (get 0 4 e); rh_version := le_dec (get 4 4 e);
  rh_flags := le_dec (get 8 4 e); rh_sector_size := le_dec (get 12 4 e);
  rh_max_resources := le_dec (get 16 4 e); rh_unused := le_dec (get 20 4 e);
  rh_rx_offset := le_dec (get 24 8 e); rh_lockspace_name := get 32 48 e |}.
Definition rindex_header_writes (r : rheader) : list (nat * bytes) :=
  [(0%nat, le_enc 4 (rh_magic r));
   (4%nat, le_enc 4 (rh_version r));
   (8%nat, le_enc 4 (rh_flags r));
   (12%nat, le_enc 4 (rh_sector_size r));
   (16%nat, le_enc 4 (rh_max_resources r));
   (20%nat, le_enc 4 (rh_unused r));
   (24%nat, le_enc 8 (rh_rx_offset r));
   (32%nat, rh_lockspace_name r)].
Definition rindex_header_out (r : rheader) (e : bytes) : bytes :=
  puts (rindex_header_writes r) e.
(* src/ondisk.c:157-171 *)
Definition rindex_entry_in (e : bytes) : rentry := {|
  re_res_offset := le_dec (get 0 8 e); re_flags := le_dec (get 8 4 e);
  re_unused := le_dec (get 12 4 e); re_name := get 16 48 e |}.
Definition rindex_entry_writes (r : rentry) : list (nat * bytes) :=
  [(0%nat, le_enc 8 (re_res_offset r));
   (8%nat, le_enc 4 (re_flags r));
   (12%nat, le_enc 4 (re_unused r));
   (16%nat, re_name r)].
Definition rindex_entry_out (r : rentry) (e : bytes) : bytes :=
  puts (rindex_entry_writes r) e.

(* ================= proofs ================= *)

Definition shape_of (ws : list (nat * bytes)) : list (nat * nat) :=
  map (fun w => (fst w, length (snd w))) ws.

Definition fits (m : nat) (sh : list (nat * nat)) : bool :=
  forallb (fun w => fst w + snd w <=? m)%nat sh.

Definition disj (o n : nat) (sh : list (nat * nat)) : bool :=
  forallb (fun w => (o + n <=? fst w) || (fst w + snd w <=? o))%nat sh.

Lemma puts_length ws e m :
  length e = m -> fits m (shape_of ws) = true -> length (puts ws e) = m.
Proof.
  unfold puts, shape_of, fits. revert e.
  induction ws as [|w ws IH]; intros e He H; cbn in *; auto.
  apply andb_prop in H. destruct H as [H1 H2]. apply Nat.leb_le in H1.
  apply IH; auto. rewrite put_length; auto. lia.
Qed.

Lemma get_puts_other ws e m o n :
  length e = m -> fits m (shape_of ws) = true -> disj o n (shape_of ws) = true ->
  get o n (puts ws e) = get o n e.
Proof.
  unfold puts, shape_of, fits, disj. revert e.
  induction ws as [|w ws IH]; intros e He H D; cbn in *; auto.
  apply andb_prop in H. destruct H as [H1 H2]. apply Nat.leb_le in H1.
  apply andb_prop in D. destruct D as [D1 D2].
  rewrite IH; auto.
  - apply get_put_other; [lia|].
    apply orb_prop in D1. destruct D1 as [D1|D1]; apply Nat.leb_le in D1; lia.
  - rewrite put_length; auto. lia.
Qed.

Definition chk (m k : nat) (sh : list (nat * nat)) (o n : nat) : bool :=
  fits m sh && disj o n (skipn (S k) sh)
  && match nth_error sh k with
     | Some (o', n') => (o' =? o)%nat && (n' =? n)%nat
     | None => false
     end.

(* the k-th assigned member reads back as assigned *)
Lemma get_puts_nth ws e m k o n sh :
  length e = m -> shape_of ws = sh -> chk m k sh o n = true ->
  get o n (puts ws e) = snd (nth k ws (0%nat, [])).
Proof.
  intros He <-. revert e k He. unfold chk.
  induction ws as [|w ws IH]; intros e k He H.
  - destruct k; cbn in H; discriminate.
  - apply andb_prop in H. destruct H as [H H3].
    apply andb_prop in H. destruct H as [H1 H2].
    pose proof H1 as F. cbn [shape_of map] in H1. cbn in H1.
    apply andb_prop in H1. destruct H1 as [H0 H1]. apply Nat.leb_le in H0.
    destruct k.
    + cbn in H3. apply andb_prop in H3. destruct H3 as [E1 E2].
      apply Nat.eqb_eq in E1, E2.
      cbn [puts fold_left nth]. fold (puts ws (put (fst w) (snd w) e)).
      rewrite (get_puts_other ws _ m).
      * subst o n. apply get_put_same. lia.
      * rewrite put_length; lia.
      * exact H1.
      * exact H2.
    + cbn [puts fold_left nth]. fold (puts ws (put (fst w) (snd w) e)).
      apply IH.
      * rewrite put_length; lia.
      * change (fits m (shape_of ws) = true) in H1. rewrite H1. cbn [andb].
        cbn [shape_of map skipn] in H2. cbn [shape_of map nth_error] in H3.
        apply andb_true_intro. split; auto.
Qed.

Lemma gp_same off n bs buf :
  length bs = n -> (off + n <= length buf)%nat -> get off n (put off bs buf) = bs.
Proof. intros <- H. apply get_put_same; auto. Qed.

Lemma gp_other off bs buf o n k :
  length bs = k -> (off + k <= length buf)%nat ->
  (o + n <= off \/ off + k <= o)%nat ->
  get o n (put off bs buf) = get o n buf.
Proof. intros <- H1 H2. apply get_put_other; auto. Qed.

Lemma pl off bs buf k m :
  length bs = k -> length buf = m -> (off + k <= m)%nat -> length (put off bs buf) = m.
Proof. intros <- <- H. apply put_length; auto. Qed.

Lemma puts_snoc ws o b e : put o b (puts ws e) = puts (ws ++ [(o, b)]) e.
Proof. unfold puts. rewrite fold_left_app. reflexivity. Qed.

Lemma pow_u16 : 2 ^ 16 = 256 ^ N.of_nat 2. Proof. reflexivity. Qed.
Lemma pow_u32 : 2 ^ 32 = 256 ^ N.of_nat 4. Proof. reflexivity. Qed.
Lemma pow_u64 : 2 ^ 64 = 256 ^ N.of_nat 8. Proof. reflexivity. Qed.

Lemma dec16 v : u16 v -> le_dec (le_enc 2 v) = v.
Proof. unfold u16. rewrite pow_u16. apply le_dec_enc_small. Qed.
Lemma dec32 v : u32 v -> le_dec (le_enc 4 v) = v.
Proof. unfold u32. rewrite pow_u32. apply le_dec_enc_small. Qed.
Lemma dec64 v : u64 v -> le_dec (le_enc 8 v) = v.
Proof. unfold u64. rewrite pow_u64. apply le_dec_enc_small. Qed.

Definition leader_set_checksum (lr : leader) (c : N) : leader := {|
  l_magic := l_magic lr; l_version := l_version lr; l_flags := l_flags lr;
  l_sector_size := l_sector_size lr; l_num_hosts := l_num_hosts lr;
  l_max_hosts := l_max_hosts lr; l_owner_id := l_owner_id lr;
  l_owner_generation := l_owner_generation lr; l_lver := l_lver lr;
  l_space_name := l_space_name lr; l_resource_name := l_resource_name lr;
  l_timestamp := l_timestamp lr; l_unused1 := l_unused1 lr; l_checksum := c;
  l_unused2 := l_unused2 lr; l_io_timeout := l_io_timeout lr;
  l_write_id := l_write_id lr; l_write_generation := l_write_generation lr;
  l_write_timestamp := l_write_timestamp lr |}.

Definition leader_shape : list (nat * nat) :=
  [(0,4);(4,4);(8,4);(12,4);(16,8);(24,8);(32,8);(40,8);(48,8);(56,48);(104,48);
   (152,8);(160,8);(172,2);(174,2);(176,8);(184,8);(192,8)]%nat.

Lemma leader_shape_ok lr :
  leader_wf lr -> shape_of (leader_record_writes lr) = leader_shape.
Proof.
  intros W. unfold leader_wf, NAME_ID_SIZE in W.
  destruct W as (_&_&_&_&_&_&_&_&_&(Hs&_)&(Hr&_)&_).
  unfold shape_of, leader_record_writes. cbn [map fst snd].
  rewrite Hs, Hr, !le_enc_length. reflexivity.
Qed.

Lemma leader_record_out_length lr e :
  leader_wf lr -> length e = LEADER_SIZE -> length (leader_record_out lr e) = LEADER_SIZE.
Proof.
  intros W He. unfold leader_record_out. apply puts_length; auto.
  rewrite leader_shape_ok by auto. reflexivity.
Qed.

Lemma leader_bytes_length lr e :
  leader_wf lr -> length e = LEADER_SIZE -> length (leader_bytes lr e) = LEADER_SIZE.
Proof.
  intros W He. unfold leader_bytes. cbv zeta.
  eapply pl; [apply le_enc_length|apply leader_record_out_length; auto|].
  unfold LEADER_SIZE. lia.
Qed.

Lemma crc_init_bound : crc_init < 2 ^ 32.
Proof. reflexivity. Qed.

Lemma leader_checksum_bound e : leader_checksum e < 2 ^ 32.
Proof. apply crc32c_bound. reflexivity. Qed.

(* the checksum member lies outside the checksummed range *)
Lemma leader_checksum_put e c :
  length e = LEADER_SIZE -> length c = 4%nat ->
  leader_checksum (put 168 c e) = leader_checksum e.
Proof.
  intros He Hc. unfold leader_checksum. f_equal.
  erewrite gp_other; [reflexivity|eassumption| |].
  - rewrite He. unfold LEADER_SIZE. lia.
  - left. unfold LEADER_CHECKSUM_LEN. lia.
Qed.

Lemma leader_roundtrip_bytes lr e :
  leader_wf lr -> length e = LEADER_SIZE ->
  leader_record_in (leader_bytes lr e)
    = leader_set_checksum lr (leader_checksum (leader_bytes lr e)).
Proof.
  intros W He. pose proof (leader_shape_ok lr W) as Sh.
  unfold leader_bytes at 2. cbv zeta.
  rewrite leader_checksum_put;
    [ | apply leader_record_out_length; auto | apply le_enc_length ].
  unfold leader_bytes. cbv zeta.
  set (ck := leader_checksum (leader_record_out lr e)).
  assert (Hck : u32 ck) by apply leader_checksum_bound.
  unfold leader_record_out. rewrite puts_snoc.
  set (ws := leader_record_writes lr ++ [(168%nat, le_enc 4 ck)]).
  assert (Shw : shape_of ws = leader_shape ++ [(168, 4)]%nat).
  { unfold ws, shape_of. rewrite map_app. fold (shape_of (leader_record_writes lr)).
    rewrite Sh. cbn [map fst snd]. rewrite le_enc_length. reflexivity. }
  unfold leader_wf in W.
  destruct W as (W1&W2&W3&W4&W5&W6&W7&W8&W9&(Hs&_)&(Hr&_)&W10&W11&W12&W13&W14&W15&W16&W17).
  assert (G : forall k o n, chk LEADER_SIZE k (leader_shape ++ [(168, 4)])%nat o n = true ->
              get o n (puts ws e) = snd (nth k ws (0%nat, []))).
  { intros k o n H. eapply get_puts_nth; eauto. }
  unfold leader_record_in, leader_set_checksum.
  rewrite (G 0%nat 0%nat 4%nat eq_refl), (G 1%nat 4%nat 4%nat eq_refl),
    (G 2%nat 8%nat 4%nat eq_refl), (G 3%nat 12%nat 4%nat eq_refl),
    (G 4%nat 16%nat 8%nat eq_refl), (G 5%nat 24%nat 8%nat eq_refl),
    (G 6%nat 32%nat 8%nat eq_refl), (G 7%nat 40%nat 8%nat eq_refl),
    (G 8%nat 48%nat 8%nat eq_refl), (G 9%nat 56%nat 48%nat eq_refl),
    (G 10%nat 104%nat 48%nat eq_refl), (G 11%nat 152%nat 8%nat eq_refl),
    (G 12%nat 160%nat 8%nat eq_refl), (G 13%nat 172%nat 2%nat eq_refl),
    (G 14%nat 174%nat 2%nat eq_refl), (G 15%nat 176%nat 8%nat eq_refl),
    (G 16%nat 184%nat 8%nat eq_refl), (G 17%nat 192%nat 8%nat eq_refl),
    (G 18%nat 168%nat 4%nat eq_refl).
  subst ws. cbn [leader_record_writes app nth snd].
  rewrite !dec16, !dec32, !dec64 by assumption. reflexivity.
Qed.

Lemma get0_app a b n : length a = n -> get 0 n (a ++ b) = a.
Proof.
  intros <-. unfold get. cbn [skipn].
  rewrite firstn_app, firstn_all, Nat.sub_diag. cbn. apply app_nil_r.
Qed.

Lemma leader_sector_roundtrip lr e junk :
  leader_wf lr -> length e = LEADER_SIZE ->
  read_leader_sector (leader_bytes lr e ++ junk)
    = (leader_set_checksum lr (leader_checksum (leader_bytes lr e)),
       leader_checksum (leader_bytes lr e)).
Proof.
  intros W He. unfold read_leader_sector. cbv zeta.
  rewrite get0_app by (apply leader_bytes_length; auto).
  rewrite leader_roundtrip_bytes by auto. reflexivity.
Qed.

(* ---- dblock ---- *)
Definition dblock_set_checksum (d : dblock) (c : N) : dblock :=
  {| d_mbal := d_mbal d; d_bal := d_bal d; d_inp := d_inp d; d_inp2 := d_inp2 d;
     d_inp3 := d_inp3 d; d_lver := d_lver d; d_checksum := c; d_flags := d_flags d |}.

Definition dblock_shape : list (nat * nat) :=
  [(0,8);(8,8);(16,8);(24,8);(32,8);(40,8);(52,4)]%nat.

Lemma dblock_shape_ok d : shape_of (paxos_dblock_writes d) = dblock_shape.
Proof.
  unfold shape_of, paxos_dblock_writes. cbn [map fst snd].
  rewrite !le_enc_length. reflexivity.
Qed.

Lemma paxos_dblock_out_length d e :
  length e = DBLOCK_SIZE -> length (paxos_dblock_out d e) = DBLOCK_SIZE.
Proof.
  intros He. unfold paxos_dblock_out. apply puts_length; auto.
Qed.

Lemma dblock_bytes_length d e :
  length e = DBLOCK_SIZE -> length (dblock_bytes d e) = DBLOCK_SIZE.
Proof.
  intros He. unfold dblock_bytes. cbv zeta.
  eapply pl; [apply le_enc_length|apply paxos_dblock_out_length; auto|].
  unfold DBLOCK_SIZE. lia.
Qed.

Lemma dblock_checksum_bound e : dblock_checksum e < 2 ^ 32.
Proof. apply crc32c_bound. reflexivity. Qed.

Lemma dblock_checksum_put e c :
  length e = DBLOCK_SIZE -> length c = 4%nat ->
  dblock_checksum (put 48 c e) = dblock_checksum e.
Proof.
  intros He Hc. unfold dblock_checksum. f_equal.
  erewrite gp_other; [reflexivity|eassumption| |].
  - rewrite He. unfold DBLOCK_SIZE. lia.
  - left. unfold DBLOCK_CHECKSUM_LEN. lia.
Qed.

Lemma dblock_roundtrip_bytes d e :
  dblock_wf d -> length e = DBLOCK_SIZE ->
  paxos_dblock_in (dblock_bytes d e)
    = dblock_set_checksum d (dblock_checksum (dblock_bytes d e)).
Proof.
  intros W He. unfold dblock_wf in W.
  destruct W as (W1&W2&W3&W4&W5&W6&W7&W8).
  unfold dblock_bytes at 2. cbv zeta.
  rewrite dblock_checksum_put;
    [ | apply paxos_dblock_out_length; auto | apply le_enc_length ].
  unfold dblock_bytes. cbv zeta.
  set (ck := dblock_checksum (paxos_dblock_out d e)).
  assert (Hck : u32 ck) by apply dblock_checksum_bound.
  unfold paxos_dblock_out. rewrite puts_snoc.
  set (ws := paxos_dblock_writes d ++ [(48%nat, le_enc 4 ck)]).
  assert (Shw : shape_of ws = dblock_shape ++ [(48, 4)]%nat).
  { unfold ws, shape_of. rewrite map_app. fold (shape_of (paxos_dblock_writes d)).
    rewrite dblock_shape_ok. cbn [map fst snd]. rewrite le_enc_length. reflexivity. }
  assert (G : forall k o n, chk DBLOCK_SIZE k (dblock_shape ++ [(48, 4)])%nat o n = true ->
              get o n (puts ws e) = snd (nth k ws (0%nat, []))).
  { intros k o n H. eapply get_puts_nth; eauto. }
  unfold paxos_dblock_in, dblock_set_checksum.
  rewrite (G 0%nat 0%nat 8%nat eq_refl), (G 1%nat 8%nat 8%nat eq_refl),
    (G 2%nat 16%nat 8%nat eq_refl), (G 3%nat 24%nat 8%nat eq_refl),
    (G 4%nat 32%nat 8%nat eq_refl), (G 5%nat 40%nat 8%nat eq_refl),
    (G 6%nat 52%nat 4%nat eq_refl), (G 7%nat 48%nat 4%nat eq_refl).
  subst ws. cbn [paxos_dblock_writes app nth snd].
  rewrite !dec32, !dec64 by assumption. reflexivity.
Qed.

(* ---- mode block, request, rindex ---- *)
Lemma mode_block_out_length m e :
  length e = MBLOCK_SIZE -> length (mode_block_out m e) = MBLOCK_SIZE.
Proof.
  intros. unfold mode_block_out. apply puts_length; auto.
Qed.

Lemma mode_block_roundtrip m e :
  mblock_wf m -> length e = MBLOCK_SIZE -> mode_block_in (mode_block_out m e) = m.
Proof.
  unfold mblock_wf. intros (H1 & H2) He.
  assert (Sh : shape_of (mode_block_writes m) = [(0,4);(8,8)]%nat) by reflexivity.
  unfold mode_block_in, mode_block_out.
  rewrite (get_puts_nth _ _ _ 0 0 4 _ He Sh eq_refl).
  rewrite (get_puts_nth _ _ _ 1 8 8 _ He Sh eq_refl).
  cbn [mode_block_writes nth snd].
  rewrite dec32, dec64 by assumption. destruct m; reflexivity.
Qed.

Lemma request_roundtrip r e :
  request_wf r -> length e = REQUEST_SIZE -> request_record_in (request_record_out r e) = r.
Proof.
  unfold request_wf. intros (H1 & H2 & H3 & H4) He.
  assert (Sh : shape_of (request_record_writes r) = [(0,4);(4,4);(8,8);(16,4)]%nat) by reflexivity.
  unfold request_record_in, request_record_out.
  rewrite (get_puts_nth _ _ _ 0 0 4 _ He Sh eq_refl).
  rewrite (get_puts_nth _ _ _ 1 4 4 _ He Sh eq_refl).
  rewrite (get_puts_nth _ _ _ 2 8 8 _ He Sh eq_refl).
  rewrite (get_puts_nth _ _ _ 3 16 4 _ He Sh eq_refl).
  cbn [request_record_writes nth snd].
  rewrite !dec32, !dec64 by assumption. destruct r; reflexivity.
Qed.

Lemma request_record_out_length r e :
  length e = REQUEST_SIZE -> length (request_record_out r e) = REQUEST_SIZE.
Proof. intros. unfold request_record_out. apply puts_length; auto. Qed.

Definition rheader_shape : list (nat * nat) :=
  [(0,4);(4,4);(8,4);(12,4);(16,4);(20,4);(24,8);(32,48)]%nat.

Lemma rheader_roundtrip r e :
  rheader_wf r -> length e = RHEADER_SIZE -> rindex_header_in (rindex_header_out r e) = r.
Proof.
  unfold rheader_wf, NAME_ID_SIZE. intros (H1&H2&H3&H4&H5&H6&H7&H8&_) He.
  assert (Sh : shape_of (rindex_header_writes r) = rheader_shape).
  { unfold shape_of, rindex_header_writes. cbn [map fst snd].
    rewrite H8, !le_enc_length. reflexivity. }
  unfold rindex_header_in, rindex_header_out.
  rewrite (get_puts_nth _ _ _ 0 0 4 _ He Sh eq_refl), (get_puts_nth _ _ _ 1 4 4 _ He Sh eq_refl),
    (get_puts_nth _ _ _ 2 8 4 _ He Sh eq_refl), (get_puts_nth _ _ _ 3 12 4 _ He Sh eq_refl),
    (get_puts_nth _ _ _ 4 16 4 _ He Sh eq_refl), (get_puts_nth _ _ _ 5 20 4 _ He Sh eq_refl),
    (get_puts_nth _ _ _ 6 24 8 _ He Sh eq_refl), (get_puts_nth _ _ _ 7 32 48 _ He Sh eq_refl).
  cbn [rindex_header_writes nth snd].
  rewrite !dec32, !dec64 by assumption. destruct r; reflexivity.
Qed.

Definition rentry_shape : list (nat * nat) := [(0,8);(8,4);(12,4);(16,48)]%nat.

Lemma rentry_roundtrip r e :
  rentry_wf r -> length e = RENTRY_SIZE -> rindex_entry_in (rindex_entry_out r e) = r.
Proof.
  unfold rentry_wf, NAME_ID_SIZE. intros (H1&H2&H3&H4&_) He.
  assert (Sh : shape_of (rindex_entry_writes r) = rentry_shape).
  { unfold shape_of, rindex_entry_writes. cbn [map fst snd].
    rewrite H4, !le_enc_length. reflexivity. }
  unfold rindex_entry_in, rindex_entry_out.
  rewrite (get_puts_nth _ _ _ 0 0 8 _ He Sh eq_refl), (get_puts_nth _ _ _ 1 8 4 _ He Sh eq_refl),
    (get_puts_nth _ _ _ 2 12 4 _ He Sh eq_refl), (get_puts_nth _ _ _ 3 16 48 _ He Sh eq_refl).
  cbn [rindex_entry_writes nth snd].
  rewrite !dec32, !dec64 by assumption. destruct r; reflexivity.
Qed.

(* ---- host sector ---- *)
Lemma get_get o n o' n' b :
  (o + n <= n')%nat -> get o n (get o' n' b) = get (o' + o) n b.
Proof.
  intros H. apply nth_error_ext. intros i. rewrite !nth_error_get.
  destruct (i <? n)%nat eqn:E; auto. apply Nat.ltb_lt in E.
  rewrite (proj2 (Nat.ltb_lt (o + i) n')) by lia. f_equal. lia.
Qed.

Lemma host_sector_both_read pd m buf pde mbe ss :
  dblock_wf pd -> mblock_wf m ->
  length buf = ss -> (512 <= ss)%nat ->
  length pde = DBLOCK_SIZE -> length mbe = MBLOCK_SIZE ->
  let s := host_sector_both pd m buf pde mbe in
  length s = ss /\
  fst (host_sector_read_dblock s)
    = dblock_set_checksum pd (snd (host_sector_read_dblock s)) /\
  host_sector_read_mblock s = m.
Proof.
  intros Wd Wm Hb Hss Hp Hm s. subst s. unfold host_sector_both.
  assert (L1 : length (dblock_bytes pd pde) = 56%nat) by (apply dblock_bytes_length; auto).
  assert (L2 : length (mode_block_out m mbe) = 16%nat) by (apply mode_block_out_length; auto).
  assert (L3 : length (put 0 (dblock_bytes pd pde) buf) = ss).
  { eapply pl; eauto. lia. }
  unfold MBLOCK_OFFSET.
  assert (L4 : length (put 128 (mode_block_out m mbe) (put 0 (dblock_bytes pd pde) buf)) = ss).
  { eapply pl; eauto. lia. }
  split; [exact L4|].
  unfold host_sector_read_dblock, host_sector_read_mblock, MBLOCK_OFFSET, MBLOCK_SIZE, DBLOCK_SIZE. cbv zeta.
  cbn [fst snd].
  rewrite (gp_other 128 _ _ 0 56 16) by (auto; try lia).
  rewrite (gp_same 0 56) by (auto; lia).
  rewrite (gp_same 128 16) by (auto; lia).
  rewrite dblock_roundtrip_bytes by auto.
  rewrite mode_block_roundtrip by auto. auto.
Qed.

Lemma get_zeros o n k : get o n (zeros k) = zeros (Nat.min n (k - o)).
Proof.
  apply nth_error_ext. intros i. rewrite nth_error_get. unfold zeros.
  destruct (i <? n)%nat eqn:E.
  - apply Nat.ltb_lt in E.
    destruct (Nat.lt_ge_cases (o + i) k).
    + rewrite !nth_error_repeat by lia. reflexivity.
    + transitivity (@None N); [|symmetry]; apply nth_error_None; rewrite repeat_length; lia.
  - apply Nat.ltb_ge in E. symmetry. apply nth_error_None. rewrite repeat_length. lia.
Qed.

Lemma get_app_suffix a b o n :
  (length a <= o)%nat -> get o n (a ++ b) = get (o - length a) n b.
Proof.
  intros H. apply nth_error_ext. intros i. rewrite !nth_error_get.
  destruct (i <? n)%nat eqn:E; auto.
  rewrite nth_error_app2 by lia. f_equal. lia.
Qed.

Lemma host_sector_dblock_read pd pde ss :
  dblock_wf pd -> (512 <= ss)%nat -> length pde = DBLOCK_SIZE ->
  let s := host_sector_dblock ss pd pde in
  length s = ss /\
  fst (host_sector_read_dblock s)
    = dblock_set_checksum pd (snd (host_sector_read_dblock s)) /\
  m_flags (host_sector_read_mblock s) = 0 /\
  m_generation (host_sector_read_mblock s) = 0.
Proof.
  intros Wd Hss Hp s. subst s. unfold host_sector_dblock.
  assert (L1 : length (dblock_bytes pd pde) = DBLOCK_SIZE) by (apply dblock_bytes_length; auto).
  unfold host_sector_read_dblock. cbv zeta. cbn [fst snd].
  rewrite get0_app by auto.
  split.
  { rewrite app_length, L1. unfold zeros. rewrite repeat_length. unfold DBLOCK_SIZE. lia. }
  split. { apply dblock_roundtrip_bytes; auto. }
  unfold host_sector_read_mblock, MBLOCK_OFFSET, MBLOCK_SIZE.
  rewrite get_app_suffix by (rewrite L1; unfold DBLOCK_SIZE; lia).
  rewrite get_zeros, L1. unfold DBLOCK_SIZE.
  replace (Nat.min 16 (ss - 56 - (128 - 56))) with 16%nat by lia.
  split; reflexivity.
Qed.
