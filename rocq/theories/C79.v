(* C79: direct dump shows what is on the device, and direct next_free names a free area *)
From Coq Require Import List NArith ZArith Lia Bool Arith ZifyBool ZifyN ZifyNat.
From Verif Require Import Bytes Crc Codec Leader Sizes Bitmap Strings StringsRound ArgStr C62 DirectDump.
Import ListNotations.
Open Scope N_scope.

(* ---- specification ---- *)
Definition bytes_dev (dv : device) : Prop := forall i, dv_byte dv i < 256.
(* what is on the device at an offset; records are written the way the daemon writes them, over anything *)
Definition holds (dv : device) (off : N) (bs : bytes) : Prop := forall i, (i < length bs)%nat -> dv_byte dv (off + N.of_nat i) = nth i bs 0.
Definition leader_at dv off lr : Prop := leader_wf lr /\ exists e, length e = LEADER_SIZE /\ holds dv off (leader_bytes lr e).
Definition request_at dv off rr : Prop := request_wf rr /\ exists e, length e = REQUEST_SIZE /\ holds dv off (request_record_out rr e).
Definition dblock_at dv off d : Prop := dblock_wf d /\ exists e, length e = DBLOCK_SIZE /\ holds dv off (dblock_bytes d e) /\ d_checksum d = dblock_checksum (dblock_bytes d e).
Definition mblock_at dv off m : Prop := mblock_wf m /\ exists e, length e = MBLOCK_SIZE /\ holds dv off (mode_block_out m e).
Definition header_at dv off rh : Prop := rheader_wf rh /\ exists e, length e = RHEADER_SIZE /\ holds dv off (rindex_header_out rh e).
Definition entry_at dv off re : Prop := rentry_wf re /\ exists e, length e = RENTRY_SIZE /\ holds dv off (rindex_entry_out re e).
Definition bitmap_of (hs : list N) : bytes := fold_left (fun b h => set_id_bit h b) hs (zeros HOSTID_BITMAP_SIZE).

Inductive area :=
| ASpace (l : list (option (leader * list N)))           (* a lockspace: a delta lease and the hosts in its bitmap, for each sector *)
| ALease (lr : leader) (rr : request) (hs : list (dblock * mblock))
| AIndex (rh : rheader) (es : list rentry)
| AFree.
Definition is_free (dv : device) (off : N) : Prop :=
  forall m, In m [DELTA_DISK_MAGIC; PAXOS_DISK_MAGIC; 0x01042018] -> ~ holds dv off (le_enc 4 m).
Definition area_at (dv : device) (ss sc off : N) (a : area) : Prop :=
  match a with
  | ASpace l =>
      N.of_nat (length l) = sc /\ (exists x t, l = Some x :: t) /\
      forall i x, nth_error l i = Some x ->
        let o := off + N.of_nat i * ss in
        match x with
        | None => holds dv o (zeros 4)
        | Some (lr, hs) => l_magic lr = DELTA_DISK_MAGIC /\ leader_at dv o lr /\
                           Forall (fun h => 1 <= h <= 2000) hs /\ holds dv (o + 256) (bitmap_of hs)
        end
  | ALease lr rr hs =>
      l_magic lr = PAXOS_DISK_MAGIC /\ leader_at dv off lr /\ request_at dv (off + ss) rr /\
      l_num_hosts lr = N.of_nat (length hs) /\ N.of_nat (length hs) + 2 <= sc /\
      forall i d m, nth_error hs i = Some (d, m) ->
        let o := off + (2 + N.of_nat i) * ss in dblock_at dv o d /\ mblock_at dv (o + 128) m
  | AIndex rh es =>
      rh_magic rh = 0x01042018 /\ header_at dv off rh /\ N.of_nat (length es) = (sc - 1) * (ss / 64) /\
      forall k e, nth_error es k = Some e -> entry_at dv (off + ss + N.of_nat k * 64) e /\ In 0 (re_name e)
  | AFree => is_free dv off
  end.

(* what is to be seen of an area; fm is the number given with -f *)
Definition show_host (fm mh off : N) (x : option (leader * list N)) : list dline :=
  match x with
  | None => []
  | Some (lr, hs) =>
      if (l_owner_id lr =? 0) && (l_owner_generation lr =? 0) then []
      else [DHost off (upto_nul (l_space_name lr)) (upto_nul (l_resource_name lr)) (l_timestamp lr) (l_owner_id lr) (l_owner_generation lr)
                  (if fm =? 0 then None else Some (filter (fun h => existsb (N.eqb h) hs) (map N.of_nat (seq 1 (N.to_nat mh)))))]
  end.
Fixpoint show_hosts (fm mh ss off : N) (l : list (option (leader * list N))) : list dline :=
  match l with [] => [] | x :: r => show_host fm mh off x ++ show_hosts fm mh ss (off + ss) r end.
Fixpoint show_shared (fm i : N) (hs : list (dblock * mblock)) : list dline :=
  match hs with
  | [] => []
  | (d, m) :: r =>
      (if (1 <? fm) && negb ((d_mbal d =? 0) && (d_inp d =? 0) && (d_lver d =? 0))
       then [DBlk i (d_mbal d) (d_bal d) (d_inp d) (d_inp2 d) (d_inp3 d) (d_lver d) (d_checksum d)] else []) ++
      (if N.testbit (m_flags m) 0 then [DShared (i + 1) (m_generation m)] else []) ++ show_shared fm (i + 1) r
  end.
Fixpoint show_entries (off : N) (ls : bytes) (es : list rentry) : list dline :=
  match es with
  | [] => []
  | e :: r => (if (re_res_offset e =? 0) && (match upto_nul (re_name e) with [] => true | _ => false end) then []
               else [DEntry off ls (upto_nul (re_name e)) (re_res_offset e)]) ++ show_entries (off + 64) ls r
  end.
Definition show (fm mh ss off : N) (a : area) : list dline :=
  match a with
  | ASpace l => show_hosts fm mh ss off l
  | ALease lr rr hs =>
      DLease off (upto_nul (l_space_name lr)) (upto_nul (l_resource_name lr)) (l_timestamp lr) (l_owner_id lr) (l_owner_generation lr) (l_lver lr)
             (if fm =? 0 then None else Some (rr_lver rr, rr_force_mode rr)) :: show_shared fm 0 hs
  | AIndex rh es =>
      let ls := upto_nul (rh_lockspace_name rh) in
      DIndex off ls (rh_flags rh) (rh_sector_size rh) (rh_max_resources rh) (rh_rx_offset rh) ::
      (if fm =? 0 then [] else show_entries (off + ss) ls es)
  | AFree => []
  end.
Fixpoint show_all (fm mh ss al off : N) (l : list area) : list dline :=
  match l with [] => [] | a :: r => show fm mh ss off a ++ show_all fm mh ss al (off + al) r end.

(* the combinations of sizes there are, with the number of hosts *)
Definition sizes_ok (ss al mh : N) : Prop :=
  (ss = 512 /\ al = 1048576 /\ mh = 2000) \/ (ss = 4096 /\ al = 1048576 /\ mh = 250) \/ (ss = 4096 /\ al = 2097152 /\ mh = 500) \/
  (ss = 4096 /\ al = 4194304 /\ mh = 1000) \/ (ss = 4096 /\ al = 8388608 /\ mh = 2000).
Definition readable (dv : device) (off len : N) : Prop := off + len <= dv_size dv /\ dv_fail dv off len = false.
Definition layout (dv : device) (ss al start : N) (l : list area) : Prop :=
  forall k a, nth_error l k = Some a -> readable dv (start + N.of_nat k * al) al /\ area_at dv ss (al / ss) (start + N.of_nat k * al) a.
(* a leader record from which the sizes are taken *)
Definition says (dv : device) (off ss al : N) : Prop :=
  readable dv off 4096 /\ exists lr, leader_at dv off lr /\ (l_magic lr = DELTA_DISK_MAGIC \/ l_magic lr = PAXOS_DISK_MAGIC) /\
  l_sector_size lr = ss /\ (N.land (l_flags lr) 0xf0 = al / 1048576 * 16 \/ (N.land (l_flags lr) 0xf0 = 0 /\ ((ss = 512 /\ al = 1048576) \/ (ss = 4096 /\ al = 8388608)))).
Definition silent (dv : device) (off : N) : Prop :=
  ~ readable dv off 4096 \/ (~ holds dv off (le_enc 4 DELTA_DISK_MAGIC) /\ ~ holds dv off (le_enc 4 PAXOS_DISK_MAGIC)).
(* the sizes are given with -Z and -A, or are in the first leader record there is at a multiple of 1 MiB *)
Definition sizes_from (dv : device) (cs : N) (ca : Z) (start size ss al : N) : Prop :=
  (cs = ss /\ ca = Z.of_N al) \/
  ((cs = 0 \/ ca = 0%Z) /\ exists k, k < 1024 /\ says dv (start + k * 1048576) ss al /\ (forall j, j < k -> silent dv (start + j * 1048576)) /\
   (size = 0 \/ k * 1048576 < size)).

(* ---- what is read ---- *)
Definition at_ (dv : device) (base : N) : mem := fun i => dv_byte dv (base + i).
Lemma fget_length m o n : length (fget m o n) = n. Proof. unfold fget. rewrite map_length, seq_length. reflexivity. Qed.
Lemma nth_fget m o n i : (i < n)%nat -> nth i (fget m o n) 0 = m (o + N.of_nat i).
Proof.
  intros L. unfold fget. rewrite (nth_indep _ 0 (m (o + N.of_nat 0))) by (rewrite map_length, seq_length; exact L).
  rewrite (map_nth (fun i => m (o + N.of_nat i))), seq_nth by exact L. reflexivity.
Qed.
Lemma fget_eq m o bs : (forall i, (i < length bs)%nat -> m (o + N.of_nat i) = nth i bs 0) -> fget m o (length bs) = bs.
Proof.
  intros H. apply (nth_ext _ _ 0 0); [apply fget_length|]. intros i L. rewrite fget_length in L. rewrite nth_fget by exact L. apply H, L.
Qed.
Lemma fget_holds dv base o bs n : length bs = n -> holds dv (base + o) bs -> fget (at_ dv base) o n = bs.
Proof. intros <- H. apply fget_eq. intros i L. unfold at_. rewrite N.add_assoc. apply H, L. Qed.
Lemma holds_fget dv base o n : holds dv (base + o) (fget (at_ dv base) o n).
Proof. intros i L. rewrite fget_length in L. rewrite nth_fget by exact L. unfold at_. f_equal. lia. Qed.
Lemma nth_error_fget m o n i : nth_error (fget m o n) i = if (i <? n)%nat then Some (m (o + N.of_nat i)) else None.
Proof.
  unfold fget. rewrite nth_error_map. destruct (Nat.ltb_spec i n) as [L|L].
  - rewrite (nth_error_nth' _ 0%nat) by (rewrite seq_length; exact L). rewrite seq_nth by exact L. reflexivity.
  - replace (nth_error (seq 0 n) i) with (@None nat); [reflexivity|]. symmetry. apply nth_error_None. rewrite seq_length. exact L.
Qed.
Lemma get_fget m a n o k : (o + k <= n)%nat -> get o k (fget m a n) = fget m (a + N.of_nat o) k.
Proof.
  intros L. apply nth_error_ext. intros i. rewrite nth_error_get, !nth_error_fget.
  destruct (Nat.ltb_spec i k) as [H|H]; [|reflexivity]. replace (o + i <? n)%nat with true by lia. do 2 f_equal. lia.
Qed.

Lemma leader_read dv base o lr : leader_at dv (base + o) lr ->
  exists c, leader_record_in (fget (at_ dv base) o 200) = leader_set_checksum lr c.
Proof.
  intros (W & e & Le & H). eexists. rewrite (fget_holds dv base o (leader_bytes lr e)); [|apply leader_bytes_length; assumption|exact H].
  apply leader_roundtrip_bytes; assumption.
Qed.
Lemma leader_magic m o : l_magic (leader_record_in (fget m o 200)) = le_dec (fget m o 4).
Proof. unfold leader_record_in. cbn [l_magic]. rewrite get_fget by lia. rewrite N.add_0_r. reflexivity. Qed.
Lemma header_magic m o : rh_magic (rindex_header_in (fget m o 80)) = le_dec (fget m o 4).
Proof. unfold rindex_header_in. cbn [rh_magic]. rewrite get_fget by lia. rewrite N.add_0_r. reflexivity. Qed.
Lemma request_read dv base o rr : request_at dv (base + o) rr -> request_record_in (fget (at_ dv base) o 24) = rr.
Proof.
  intros (W & e & Le & H). rewrite (fget_holds dv base o (request_record_out rr e)); [|apply request_record_out_length, Le|exact H].
  apply request_roundtrip; assumption.
Qed.
Lemma dblock_read dv base o d : dblock_at dv (base + o) d -> paxos_dblock_in (fget (at_ dv base) o 56) = d.
Proof.
  intros (W & e & Le & H & C). rewrite (fget_holds dv base o (dblock_bytes d e)); [|apply dblock_bytes_length; assumption|exact H].
  rewrite dblock_roundtrip_bytes by assumption. rewrite <- C. destruct d; reflexivity.
Qed.
Lemma mblock_read dv base o m : mblock_at dv (base + o) m -> mode_block_in (fget (at_ dv base) o 16) = m.
Proof.
  intros (W & e & Le & H). rewrite (fget_holds dv base o (mode_block_out m e)); [|apply mode_block_out_length, Le|exact H].
  apply mode_block_roundtrip; assumption.
Qed.
Lemma header_read dv base o rh : header_at dv (base + o) rh -> rindex_header_in (fget (at_ dv base) o 80) = rh.
Proof.
  intros (W & e & Le & H). rewrite (fget_holds dv base o (rindex_header_out rh e)); [|apply puts_length; [exact Le|]|exact H].
  - apply rheader_roundtrip; assumption.
  - unfold shape_of, rindex_header_writes. cbn [map fst snd]. rewrite !le_enc_length.
    destruct W as (_&_&_&_&_&_&_&W&_). rewrite W. reflexivity.
Qed.
Lemma entry_read dv base o re : entry_at dv (base + o) re -> rindex_entry_in (fget (at_ dv base) o 64) = re.
Proof.
  intros (W & e & Le & H). rewrite (fget_holds dv base o (rindex_entry_out re e)); [|apply puts_length; [exact Le|]|exact H].
  - apply rentry_roundtrip; assumption.
  - unfold shape_of, rindex_entry_writes. cbn [map fst snd]. rewrite !le_enc_length.
    destruct W as (_&_&_&W&_). rewrite W. reflexivity.
Qed.
Lemma magic_at dv base m : m < 2 ^ 32 -> holds dv base (le_enc 4 m) -> le_dec (fget (at_ dv base) 0 4) = m.
Proof.
  intros L H. rewrite (fget_holds dv base 0 (le_enc 4 m)); [|apply le_enc_length|rewrite N.add_0_r; exact H].
  apply le_dec_enc_small. exact L.
Qed.
Lemma magic_not dv base m : bytes_dev dv -> ~ holds dv base (le_enc 4 m) -> le_dec (fget (at_ dv base) 0 4) <> m.
Proof.
  intros B H E. apply H. rewrite <- E. rewrite <- (fget_length (at_ dv base) 0 4) at 1. rewrite le_enc_dec.
  - rewrite <- (N.add_0_r base) at 1. apply holds_fget.
  - unfold all_bytes, fget. apply Forall_map, Forall_forall. intros i _. apply B.
Qed.
Lemma zero_at dv base o : holds dv (base + o) (zeros 4) -> le_dec (fget (at_ dv base) o 4) = 0.
Proof. intros H. rewrite (fget_holds dv base o (zeros 4)); [reflexivity|reflexivity|exact H]. Qed.

(* ---- one area ---- *)
Lemma flat_map_seqN {A} (f : N -> list A) n : flat_map f (seqN n) = flat_map (fun i => f (N.of_nat i)) (seq 0 (N.to_nat n)).
Proof. unfold seqN. rewrite flat_map_concat_map, map_map, <- flat_map_concat_map. reflexivity. Qed.
Lemma bits_shown hs h : Forall (fun h => 1 <= h <= 2000) hs -> 1 <= h <= 2000 -> test_id_bit h (bitmap_of hs) = existsb (N.eqb h) hs.
Proof.
  intros F L. unfold bitmap_of.
  assert (G : forall b, length b = HOSTID_BITMAP_SIZE -> test_id_bit h (fold_left (fun b h => set_id_bit h b) hs b) = existsb (N.eqb h) hs || test_id_bit h b).
  { induction F as [|x hs X F IH]; intros b Lb; [reflexivity|]. cbn [fold_left existsb]. rewrite IH by (rewrite set_id_bit_length; exact Lb).
    rewrite set_test; [|lia|lia|rewrite Lb; apply byte_index_bound; unfold DEFAULT_MAX_HOSTS; exact X].
    rewrite (N.eqb_sym x h). destruct (h =? x), (existsb (N.eqb h) hs); reflexivity. }
  rewrite G by apply repeat_length. rewrite test_zeros, orb_false_r. reflexivity.
Qed.

Lemma sizes_facts ss al mh : sizes_ok ss al mh ->
  (ss = 512 \/ ss = 4096) /\ al = (al / ss) * ss /\ 256 <= al / ss /\ mh <= 2000 /\ 1048576 <= al /\
  Z.to_N (size_to_max_hosts (Z.of_N ss) (Z.of_N al)) = mh /\ ss = ss / 64 * 64 /\ known_sizes ss (Z.of_N al) = true.
Proof. intros [H|[H|[H|[H|H]]]]; destruct H as (-> & -> & ->); vm_compute; repeat split; try discriminate; auto. Qed.

Lemma hosts_shown dv fm mh base ss sc l : mh <= 2000 -> area_at dv ss sc base (ASpace l) ->
  delta_lines fm mh base ss sc (at_ dv base) = show fm mh ss base (ASpace l).
Proof.
  intros Lm (Ln & _ & H). unfold delta_lines. rewrite flat_map_seqN.
  replace (N.to_nat sc) with (length l) by lia. clear Ln. cbn [show].
  assert (G : forall k l', (forall i x, nth_error l' i = Some x -> nth_error l (k + i) = Some x) ->
    flat_map (fun i : nat => if le_dec (fget (at_ dv base) (N.of_nat i * ss) 4) =? 0 then []
      else let lr := leader_record_in (fget (at_ dv base) (N.of_nat i * ss) 200) in
        if (l_owner_id lr =? 0) && (l_owner_generation lr =? 0) then []
        else [DHost (base + N.of_nat i * ss) (nm (l_space_name lr)) (nm (l_resource_name lr)) (l_timestamp lr) (l_owner_id lr) (l_owner_generation lr)
          (if fm =? 0 then None else Some (filter (fun h => test_id_bit h (fget (at_ dv base) (N.of_nat i * ss + 256) 256)) (map (fun b => b + 1) (seqN mh))))])
      (seq k (length l')) = show_hosts fm mh ss (base + N.of_nat k * ss) l').
  { intros k l'. revert k. induction l' as [|x l' IH]; intros k Hn; [reflexivity|].
    cbn [length seq flat_map show_hosts]. f_equal.
    - specialize (Hn 0%nat x eq_refl). rewrite Nat.add_0_r in Hn. specialize (H _ _ Hn). cbv zeta in H. destruct x as [[lr hs]|]; cbn [show_host].
      + destruct H as (M & LA & F & HB). destruct (leader_read _ _ _ _ LA) as (c & E).
        rewrite <- leader_magic. cbv zeta. rewrite E. cbn [leader_set_checksum l_magic l_owner_id l_owner_generation l_space_name l_resource_name l_timestamp].
        rewrite M. change (DELTA_DISK_MAGIC =? 0) with false. cbn iota. unfold nm.
        rewrite (fget_holds dv base (N.of_nat k * ss + 256) (bitmap_of hs) 256); [|
          unfold bitmap_of; clear; generalize (zeros HOSTID_BITMAP_SIZE), (repeat_length 0 HOSTID_BITMAP_SIZE : length (zeros HOSTID_BITMAP_SIZE) = 256%nat);
          induction hs as [|h hs I]; intros b Lb; [exact Lb|cbn [fold_left]; apply I; rewrite set_id_bit_length; exact Lb]|
          rewrite N.add_assoc; exact HB].
        destruct (_ && _); [reflexivity|]. do 2 f_equal. destruct (fm =? 0); [reflexivity|]. f_equal.
        replace (map (fun b : N => b + 1) (seqN mh)) with (map N.of_nat (seq 1 (N.to_nat mh))).
        * apply filter_ext_in. intros h I. apply in_map_iff in I. destruct I as (j & <- & J). apply in_seq in J. apply bits_shown; [exact F|lia].
        * unfold seqN. rewrite map_map, <- seq_shift, map_map. apply map_ext. intros a. lia.
      + rewrite (zero_at _ _ _ H). reflexivity.
    - etransitivity; [apply (IH (S k))|f_equal; lia]. intros i y I. specialize (Hn (S i) y I). rewrite <- Hn. f_equal. lia. }
  etransitivity; [apply (G 0%nat l); auto|rewrite N.mul_0_l, N.add_0_r; reflexivity].
Qed.

Lemma lease_shown dv fm mh base ss sc lr rr hs : area_at dv ss sc base (ALease lr rr hs) ->
  paxos_lines fm base ss sc (at_ dv base) = (show fm mh ss base (ALease lr rr hs), false).
Proof.
  intros (M & LA & RA & Nh & Ls & H). unfold paxos_lines.
  replace base with (base + 0) in LA by lia. destruct (leader_read _ _ _ _ LA) as (c & E).
  cbv zeta. rewrite E. rewrite (request_read _ _ _ _ RA).
  cbn [leader_set_checksum l_magic l_owner_id l_owner_generation l_space_name l_resource_name l_timestamp l_lver l_num_hosts].
  rewrite Nh. replace (sc - 2 <? N.of_nat (length hs)) with false by lia. f_equal. cbn [show]. f_equal.
  replace (N.min (N.of_nat (length hs)) (sc - 2)) with (N.of_nat (length hs)) by lia.
  rewrite flat_map_seqN, Nat2N.id. clear Nh Ls LA RA E.
  assert (G : forall k l', (forall i x, nth_error l' i = Some x -> nth_error hs (k + i) = Some x) ->
    flat_map (fun i => paxos_hosts fm ss (at_ dv base) (N.of_nat i)) (seq k (length l')) = show_shared fm (N.of_nat k) l').
  { intros k l'. revert k. induction l' as [|[d m] l' IH]; intros k Hn; [reflexivity|].
    cbn [length seq flat_map show_shared]. rewrite app_assoc. f_equal.
    - specialize (Hn 0%nat _ eq_refl). rewrite Nat.add_0_r in Hn. destruct (H _ _ _ Hn) as (D & B).
      unfold paxos_hosts. cbv zeta. rewrite (dblock_read _ _ _ _ D). rewrite (mblock_read dv base ((2 + N.of_nat k) * ss + 128) m) by (rewrite N.add_assoc; exact B).
      f_equal.
      + destruct (1 <? fm); [|reflexivity]. cbn [andb]. rewrite !negb_andb. reflexivity.
      + change MBLOCK_SHARED with (N.ones 1). rewrite N.land_ones. change (2 ^ 1) with 2. rewrite <- N.bit0_mod.
        destruct (N.testbit (m_flags m) 0); reflexivity.
    - rewrite (IH (S k)); [f_equal; lia|]. intros i y I. specialize (Hn (S i) y I). rewrite <- Hn. f_equal. lia. }
  apply (G 0%nat). auto.
Qed.

Lemma map_seq_from {A} (f : nat -> A) a w : map f (seq a w) = map (fun j => f (a + j)%nat) (seq 0 w).
Proof. induction w as [|w IH]; [reflexivity|]. rewrite !seq_S, !map_app, IH. reflexivity. Qed.
Lemma flat_entries {A} (g : N -> A) ss w n : ss = w * 64 ->
  flat_map (fun i => map (fun j => g (i * ss + j * 64)) (seqN w)) (map (fun i => i + 1) (seqN n)) = map (fun k => g (ss + N.of_nat k * 64)) (seq 0 (N.to_nat (n * w))).
Proof.
  intros ->. unfold seqN. rewrite map_map, flat_map_concat_map, map_map, <- flat_map_concat_map.
  replace (N.to_nat (n * w)) with (N.to_nat n * N.to_nat w)%nat by lia.
  induction (N.to_nat n) as [|k IH]; [reflexivity|]. rewrite seq_S, flat_map_app, IH. replace (S k * N.to_nat w)%nat with (k * N.to_nat w + N.to_nat w)%nat by lia.
  rewrite seq_app, map_app. f_equal. cbn [flat_map Nat.add]. rewrite app_nil_r, map_map.
  rewrite (map_seq_from _ (k * N.to_nat w)). apply map_ext. intros j. f_equal.
  rewrite Nat2N.inj_add, Nat2N.inj_mul, N2Nat.id. lia.
Qed.

Lemma upto_nul_hd b : hd 0 b =? 0 = match upto_nul b with [] => true | _ => false end.
Proof. destruct b as [|c r]; [reflexivity|]. cbn [hd upto_nul]. destruct (c =? 0); reflexivity. Qed.

Lemma index_shown dv fm mh base ss sc rh es : ss = ss / 64 * 64 -> area_at dv ss sc base (AIndex rh es) ->
  index_lines fm base ss sc (at_ dv base) = (show fm mh ss base (AIndex rh es), false).
Proof.
  intros D (M & HA & Le & H). unfold index_lines. replace base with (base + 0) in HA by lia. rewrite (header_read _ _ _ _ HA). cbv zeta. cbn [show]. unfold nm.
  destruct (fm =? 0); [reflexivity|].
  rewrite (flat_entries (fun o => index_entry base (upto_nul (rh_lockspace_name rh)) (at_ dv base) o) ss (ss / 64) (sc - 1) D).
  rewrite <- Le, Nat2N.id.
  assert (G : forall k l', (forall i x, nth_error l' i = Some x -> nth_error es (k + i) = Some x) ->
    let l := map (fun k => index_entry base (upto_nul (rh_lockspace_name rh)) (at_ dv base) (ss + N.of_nat k * 64)) (seq k (length l')) in
    flat_map fst l = show_entries (base + ss + N.of_nat k * 64) (upto_nul (rh_lockspace_name rh)) l' /\ existsb snd l = false).
  { intros k l'. revert k. induction l' as [|x l' IH]; intros k Hn; [split; reflexivity|].
    cbn [length seq map flat_map show_entries existsb].
    destruct (IH (S k)) as (I1 & I2).
    { intros i y I. specialize (Hn (S i) y I). rewrite <- Hn. f_equal. lia. }
    specialize (Hn 0%nat x eq_refl). rewrite Nat.add_0_r in Hn. destruct (H _ _ Hn) as (EA & Z).
    assert (E : index_entry base (upto_nul (rh_lockspace_name rh)) (at_ dv base) (ss + N.of_nat k * 64) =
      (if (re_res_offset x =? 0) && (match upto_nul (re_name x) with [] => true | _ => false end) then []
               else [DEntry (base + ss + N.of_nat k * 64) (upto_nul (rh_lockspace_name rh)) (upto_nul (re_name x)) (re_res_offset x)], false)).
    { unfold index_entry. rewrite (entry_read dv base (ss + N.of_nat k * 64) x) by (rewrite N.add_assoc; exact EA). cbv zeta.
      rewrite upto_nul_hd. destruct (_ && _); [reflexivity|]. unfold nm, has_nul. rewrite N.add_assoc.
      replace (existsb (N.eqb 0) (re_name x)) with true; [reflexivity|]. symmetry. apply existsb_exists. exists 0. split; [exact Z|reflexivity]. }
    rewrite E. cbn [fst snd orb]. rewrite I1, I2. split; [|reflexivity]. do 2 f_equal. lia. }
  destruct (G 0%nat es) as (G1 & G2); [auto|]. rewrite G1, G2. rewrite N.mul_0_l, N.add_0_r. reflexivity.
Qed.

(* ---- the loop ---- *)
Lemma read_area dv start ss al mh nr : sizes_ok ss al mh -> readable dv (start + nr * ss) al ->
  read_sectors dv start ss nr (al / ss) = Some (at_ dv (start + nr * ss)).
Proof.
  intros S (L & F). destruct (sizes_facts _ _ _ S) as (Hs & Ha & _). unfold read_sectors, dread.
  replace ((ss =? 512) || (ss =? 4096)) with true by lia. rewrite <- Ha, F.
  replace (start + nr * ss + al <=? dv_size dv) with true by lia. reflexivity.
Qed.

Lemma nth_S_layout dv ss al start a l : layout dv ss al start (a :: l) -> layout dv ss al (start + al) l.
Proof. intros H k x N. specialize (H (S k) x N). replace (start + al + N.of_nat k * al) with (start + N.of_nat (S k) * al) by lia. exact H. Qed.

(* one turn of the loop at an area that can be read *)
Lemma dump_area dv fm mh start ss al last nr data a n : bytes_dev dv -> sizes_ok ss al mh -> (last = 0 \/ nr < last) ->
  readable dv (start + nr * ss) al -> area_at dv ss (al / ss) (start + nr * ss) a ->
  exists data', dump_loop (S n) dv fm mh start ss (al / ss) al last nr data =
    match a with AFree => if last =? 0 then Some ([], false) else match dump_loop n dv fm mh start ss (al / ss) al last (nr + al / ss) data' with Some (r, ub) => Some (r, ub) | None => None end
    | _ => match dump_loop n dv fm mh start ss (al / ss) al last (nr + al / ss) data' with Some (r, ub) => Some (show fm mh ss (start + nr * ss) a ++ r, ub) | None => None end end.
Proof.
  intros B S L R A. destruct (sizes_facts _ _ _ S) as (Hs & Ha & Hc & Hm & _ & _ & H64 & _).
  exists (at_ dv (start + nr * ss)). cbn [dump_loop].
  replace (negb (last =? 0) && (last <=? nr)) with false by lia.
  replace (al <? ss) with false by (clear - Ha Hc; nia).
  rewrite (read_area _ _ _ _ _ _ S R). cbv zeta. set (base := start + nr * ss) in *.
  destruct a as [l|lr rr hs|rh es|].
  - destruct A as (Ln & (x & t & ->) & H) eqn:EA. clear EA. pose proof (H 0%nat _ eq_refl) as H0. cbv zeta in H0. rewrite N.mul_0_l, N.add_0_r in H0.
    destruct x as (lr, hs). destruct H0 as (M & LA & _). replace base with (base + 0) in LA by lia. destruct (leader_read _ _ _ _ LA) as (c & E).
    rewrite <- leader_magic, E. cbn [leader_set_checksum l_magic]. rewrite M, N.eqb_refl.
    rewrite (hosts_shown _ _ _ _ _ _ _ Hm A). reflexivity.
  - pose proof A as (M & LA & _). replace base with (base + 0) in LA by lia. destruct (leader_read _ _ _ _ LA) as (c & E).
    rewrite (lease_shown dv fm mh _ _ _ _ _ _ A).
    rewrite <- leader_magic, E. cbn [leader_set_checksum l_magic]. rewrite M. change (PAXOS_DISK_MAGIC =? DELTA_DISK_MAGIC) with false. rewrite N.eqb_refl. reflexivity.
  - pose proof A as (M & HA & _). replace base with (base + 0) in HA by lia. pose proof (header_read _ _ _ _ HA) as E.
    rewrite (index_shown dv fm mh _ _ _ _ _ H64 A).
    rewrite <- header_magic, E, M. reflexivity.
  - cbn [area_at] in A. unfold is_free in A. cbn [In] in A.
    rewrite (proj2 (N.eqb_neq _ _) (magic_not dv base DELTA_DISK_MAGIC B (A _ (or_introl eq_refl)))).
    rewrite (proj2 (N.eqb_neq _ _) (magic_not dv base PAXOS_DISK_MAGIC B (A _ (or_intror (or_introl eq_refl))))).
    rewrite (proj2 (N.eqb_neq _ _) (magic_not dv base RINDEX_DISK_MAGIC B (A _ (or_intror (or_intror (or_introl eq_refl)))))).
    destruct (last =? 0); reflexivity.
Qed.

Lemma loop_sized dv fm mh start ss al last : bytes_dev dv -> sizes_ok ss al mh -> forall l k n data,
  layout dv ss al (start + k * al) l -> last = (k + N.of_nat (length l)) * (al / ss) -> last <> 0 -> (length l < n)%nat ->
  dump_loop n dv fm mh start ss (al / ss) al last (k * (al / ss)) data = Some (show_all fm mh ss al (start + k * al) l, false).
Proof.
  intros B S. destruct (sizes_facts _ _ _ S) as (Hs & Ha & Hc & _).
  induction l as [|a l IH]; intros k n data Ly El Nz Ln; (destruct n as [|n]; [lia|]).
  - cbn [dump_loop length] in *. replace (negb (last =? 0) && (last <=? k * (al / ss))) with true by lia. reflexivity.
  - cbn [length] in *. assert (Ea : start + k * (al / ss) * ss = start + k * al) by (rewrite Ha at 2; lia).
    destruct (Ly 0%nat a eq_refl) as (R & A). rewrite N.mul_0_l, N.add_0_r, <- Ea in R, A.
    destruct (dump_area dv fm mh start ss al last (k * (al / ss)) data a n B S) as (data' & E); [right; nia|exact R|exact A|].
    rewrite E. clear E. pose proof (IH (k + 1) n data') as I.
    replace ((k + 1) * (al / ss)) with (k * (al / ss) + al / ss) in I by lia. rewrite I; clear I.
    + cbn [show_all]. replace (start + (k + 1) * al) with (start + k * al + al) by lia. rewrite Ea.
      destruct a; try reflexivity. replace (last =? 0) with false by lia. reflexivity.
    + replace (start + (k + 1) * al) with (start + k * al + al) by lia. eapply nth_S_layout, Ly.
    + rewrite El. f_equal. lia.
    + exact Nz.
    + lia.
Qed.

Fixpoint upto_free (l : list area) : list area := match l with [] => [] | AFree :: _ => [] | a :: r => a :: upto_free r end.

Lemma dump_end dv fm mh start ss al mh' nr data n : sizes_ok ss al mh' -> ~ readable dv (start + nr * ss) al ->
  dump_loop (S n) dv fm mh start ss (al / ss) al 0 nr data = Some ([], false).
Proof.
  intros S R. destruct (sizes_facts _ _ _ S) as (Hs & Ha & Hc & _). cbn [dump_loop]. cbn [N.eqb negb andb].
  replace (al <? ss) with false by (clear - Ha Hc; nia).
  assert (E : read_sectors dv start ss nr (al / ss) = None).
  { unfold read_sectors, dread. replace ((ss =? 512) || (ss =? 4096)) with true by lia. rewrite <- Ha.
    destruct (_ && _) eqn:E; [|reflexivity]. exfalso. apply R. unfold readable. destruct (dv_fail dv (start + nr * ss) al); cbn [negb] in E; split; try lia. }
  rewrite E. cbv zeta.
  assert (Z : fget (fun i => if i <? ss then 0 else data i) 0 4 = [0;0;0;0]).
  { unfold fget. cbn [map seq]. rewrite !N.add_0_l. cbn [N.of_nat Pos.of_succ_nat Pos.succ].
    replace (0 <? ss) with true by lia. replace (1 <? ss) with true by lia. replace (2 <? ss) with true by lia. replace (3 <? ss) with true by lia. reflexivity. }
  rewrite Z. reflexivity.
Qed.

Lemma loop_unsized dv fm mh start ss al : bytes_dev dv -> sizes_ok ss al mh -> forall l k n data,
  layout dv ss al (start + k * al) l -> (In AFree l \/ ~ readable dv (start + (k + N.of_nat (length l)) * al) al) -> (length l < n)%nat ->
  dump_loop n dv fm mh start ss (al / ss) al 0 (k * (al / ss)) data = Some (show_all fm mh ss al (start + k * al) (upto_free l), false).
Proof.
  intros B S. destruct (sizes_facts _ _ _ S) as (Hs & Ha & Hc & _).
  induction l as [|a l IH]; intros k n data Ly En Ln; (destruct n as [|n]; [lia|]);
    assert (Ea : start + k * (al / ss) * ss = start + k * al) by (rewrite Ha at 2; lia).
  - destruct En as [[]|En]. cbn [length N.of_nat] in En. rewrite N.add_0_r, <- Ea in En.
    rewrite (dump_end _ _ _ _ _ _ _ _ _ _ S En). reflexivity.
  - cbn [length] in *.
    destruct (Ly 0%nat a eq_refl) as (R & A). rewrite N.mul_0_l, N.add_0_r, <- Ea in R, A.
    destruct (dump_area dv fm mh start ss al 0 (k * (al / ss)) data a n B S) as (data' & E); [left; reflexivity|exact R|exact A|].
    rewrite E. clear E. cbn [N.eqb].
    assert (D : a = AFree \/ a <> AFree) by (destruct a; [right|right|right|left]; congruence).
    destruct D as [->|D]; [reflexivity|].
    pose proof (IH (k + 1) n data') as I.
    replace ((k + 1) * (al / ss)) with (k * (al / ss) + al / ss) in I by lia. rewrite I; clear I.
    + replace (start + (k + 1) * al) with (start + k * al + al) by lia. rewrite Ea. destruct a; reflexivity.
    + replace (start + (k + 1) * al) with (start + k * al + al) by lia. eapply nth_S_layout, Ly.
    + destruct En as [[En|En]|En]; [congruence|left; exact En|right]. replace (k + 1 + N.of_nat (length l)) with (k + N.of_nat (Datatypes.S (length l))) by lia. exact En.
    + lia.
Qed.

(* ---- the sizes ---- *)
Lemma has_part f g : N.land 0xf0 g = g -> has f g = negb (N.land (N.land f 0xf0) g =? 0).
Proof. intros E. unfold has. rewrite <- N.land_assoc, E. reflexivity. Qed.
Lemma align_of f ss al mh : sizes_ok ss al mh ->
  (N.land f 0xf0 = al / 1048576 * 16 \/ (N.land f 0xf0 = 0 /\ ((ss = 512 /\ al = 1048576) \/ (ss = 4096 /\ al = 8388608)))) ->
  (let a := align_size_from_flag f in if (a =? 0)%Z then sector_size_to_align_size_old (Z.of_N ss) else a) = Z.of_N al.
Proof.
  intros S H. unfold align_size_from_flag. rewrite !(has_part f) by reflexivity.
  destruct H as [H|(H & [(-> & ->)|(-> & ->)])]; rewrite H; [|reflexivity|reflexivity].
  destruct S as [(_ & -> & _)|[(_ & -> & _)|[(_ & -> & _)|[(_ & -> & _)|(_ & -> & _)]]]]; reflexivity.
Qed.
Lemma sizes_said dv off ss al mh : sizes_ok ss al mh -> says dv off ss al -> read_sizes dv off = SzSome ss (Z.of_N al).
Proof.
  intros S ((R1 & R2) & lr & LA & M & Es & Ef). unfold read_sizes, read_sectors, dread. cbn [N.eqb Pos.eqb orb].
  rewrite N.mul_0_l, N.add_0_r, N.mul_1_l, R2. replace (off + 4096 <=? dv_size dv) with true by lia. cbn [negb andb].
  change (fun i => dv_byte dv (off + i)) with (at_ dv off). replace off with (off + 0) in LA by lia. destruct (leader_read _ _ _ _ LA) as (c & E).
  rewrite E. cbv zeta. cbn [leader_set_checksum l_magic l_flags l_sector_size].
  replace ((l_magic lr =? DELTA_DISK_MAGIC) || (l_magic lr =? PAXOS_DISK_MAGIC)) with true by (destruct M as [->| ->]; reflexivity).
  rewrite Es. f_equal. exact (align_of _ _ _ _ S Ef).
Qed.
Lemma sizes_silent dv off : bytes_dev dv -> silent dv off -> read_sizes dv off = SzErr \/ read_sizes dv off = SzNone.
Proof.
  intros B H. unfold read_sizes, read_sectors, dread. cbn [N.eqb Pos.eqb orb]. rewrite N.mul_0_l, N.add_0_r, N.mul_1_l.
  destruct (_ && _) eqn:E; [|left; reflexivity]. right. destruct H as [H|(H1 & H2)].
  - exfalso. apply H. unfold readable. destruct (dv_fail dv off 4096); cbn [negb] in E; split; lia.
  - change (fun i => dv_byte dv (off + i)) with (at_ dv off). cbv zeta. rewrite leader_magic.
    rewrite (proj2 (N.eqb_neq _ _) (magic_not dv off DELTA_DISK_MAGIC B H1)).
    rewrite (proj2 (N.eqb_neq _ _) (magic_not dv off PAXOS_DISK_MAGIC B H2)). reflexivity.
Qed.
Lemma sizes_found dv cs ca start size ss al mh k : bytes_dev dv -> sizes_ok ss al mh -> (cs = 0 \/ ca = 0%Z) ->
  says dv (start + k * 1048576) ss al -> (forall j, j < k -> silent dv (start + j * 1048576)) -> (size = 0 \/ k * 1048576 < size) ->
  forall n j rv, j <= k -> k < j + N.of_nat n -> find_sizes n dv start size (start + j * 1048576) cs ca rv = (ss, Z.of_N al, 0%Z).
Proof.
  intros B S C Sa Si Sz. destruct (sizes_facts _ _ _ S) as (_ & _ & _ & _ & _ & _ & _ & K).
  assert (NK : known_sizes cs ca = false) by (unfold known_sizes; destruct C as [->| ->]; [reflexivity|apply andb_false_r]).
  induction n as [|n IH]; intros j rv L1 L2; [lia|]. cbn [find_sizes].
  destruct (N.eq_dec j k) as [->|D].
  - rewrite (sizes_said _ _ _ _ _ S Sa), K. reflexivity.
  - assert (J : j < k) by lia. pose proof (IH (j + 1)) as I.
    replace (start + (j + 1) * 1048576) with (start + j * 1048576 + MB) in I by (unfold MB; lia).
    replace (negb (size =? 0) && (start + size <=? start + j * 1048576 + MB)) with false by (unfold MB; lia).
    destruct (sizes_silent _ _ B (Si j J)) as [E|E]; rewrite E, NK; apply I; lia.
Qed.
Lemma sizes_taken dv cs ca start size ss al mh : bytes_dev dv -> sizes_ok ss al mh -> sizes_from dv cs ca start size ss al ->
  exists rv, (if known_sizes cs ca then (cs, ca, 0%Z) else find_sizes (N.to_nat 1024) dv start size start cs ca 0) = (ss, Z.of_N al, rv).
Proof.
  intros B S [(-> & ->)|(C & k & L & Sa & Si & Sz)].
  - destruct (sizes_facts _ _ _ S) as (_ & _ & _ & _ & _ & _ & _ & K). rewrite K. eauto.
  - exists 0%Z. replace (known_sizes cs ca) with false by (unfold known_sizes; destruct C as [->| ->]; [reflexivity|symmetry; apply andb_false_r]).
    pose proof (sizes_found dv cs ca start size ss al mh k B S C Sa Si Sz (N.to_nat 1024) 0 0%Z) as H. rewrite N.mul_0_l, N.add_0_r in H. apply H; lia.
Qed.

(* ---- what dump shows ---- *)
Lemma dump_with dv cs ca fm start size ss al mh : bytes_dev dv -> sizes_ok ss al mh -> sizes_from dv cs ca start size ss al ->
  dump dv cs ca fm start size =
  let last := if size =? 0 then 0 else size / ss in
  match dump_loop (fuel dv ss (al / ss) last) dv fm mh start ss (al / ss) al last 0 (fun _ => 0) with Some (l, ub) => Some (mkR l ub 0) | None => None end.
Proof.
  intros B S F. destruct (sizes_taken _ _ _ _ _ _ _ _ B S F) as (rv & E). unfold dump. rewrite E.
  destruct (sizes_facts _ _ _ S) as (_ & _ & _ & _ & _ & M & _ & K). rewrite K. cbn [negb].
  replace (Z.of_N al <? 0)%Z with false by lia. cbv zeta. rewrite M, N2Z.id. reflexivity.
Qed.

Theorem C79_shows_size : forall dv cs ca fm start ss al mh l,
  bytes_dev dv -> sizes_ok ss al mh -> l <> [] -> sizes_from dv cs ca start (N.of_nat (length l) * al) ss al -> layout dv ss al start l ->
  dump dv cs ca fm start (N.of_nat (length l) * al) = Some (mkR (show_all fm mh ss al start l) false 0).
Proof.
  intros dv cs ca fm start ss al mh l B S Nl F Ly. rewrite (dump_with _ _ _ _ _ _ _ _ _ B S F). cbv zeta.
  destruct (sizes_facts _ _ _ S) as (Hs & Ha & Hc & _ & Hm & _).
  assert (Ln : length l <> 0%nat) by (destruct l; [congruence|discriminate]).
  replace (N.of_nat (length l) * al =? 0) with false by nia.
  assert (E : N.of_nat (length l) * al / ss = N.of_nat (length l) * (al / ss)).
  { rewrite Ha at 1. rewrite N.mul_assoc. apply N.div_mul. lia. }
  rewrite E. unfold fuel. replace (N.of_nat (length l) * (al / ss) =? 0) with false by nia. rewrite N.div_mul by lia.
  pose proof (loop_sized dv fm mh start ss al (N.of_nat (length l) * (al / ss)) B S l 0 (Datatypes.S (Datatypes.S (N.to_nat (N.of_nat (length l))))) (fun _ => 0)) as H.
  rewrite !N.mul_0_l, N.add_0_r, N.add_0_l in H. rewrite H; [reflexivity|exact Ly|reflexivity|nia|lia].
Qed.

Theorem C79_shows : forall dv cs ca fm start ss al mh l,
  bytes_dev dv -> sizes_ok ss al mh -> sizes_from dv cs ca start 0 ss al -> layout dv ss al start l ->
  In AFree l \/ dv_size dv < start + (N.of_nat (length l) + 1) * al ->
  dump dv cs ca fm start 0 = Some (mkR (show_all fm mh ss al start (upto_free l)) false 0).
Proof.
  intros dv cs ca fm start ss al mh l B S F Ly En. rewrite (dump_with _ _ _ _ _ _ _ _ _ B S F). cbv zeta. cbn [N.eqb].
  destruct (sizes_facts _ _ _ S) as (Hs & Ha & Hc & _ & Hm & _).
  assert (En' : In AFree l \/ ~ readable dv (start + (0 + N.of_nat (length l)) * al) al).
  { destruct En as [En|En]; [left; exact En|right]. intros (R & _). lia. }
  assert (Ln : (length l < fuel dv ss (al / ss) 0)%nat).
  { unfold fuel. cbn [N.eqb]. rewrite <- Ha. destruct (rev l) as [|a t] eqn:El.
    - apply (f_equal (@length _)) in El. rewrite rev_length in El. cbn [length] in El. rewrite El. apply Nat.lt_0_succ.
    - assert (length l <> 0%nat) by (rewrite <- rev_length, El; discriminate).
      destruct (nth_error l (length l - 1)) as [x|] eqn:Ex; [|apply nth_error_None in Ex; lia].
      destruct (Ly _ _ Ex) as ((R & _) & _). assert (N.of_nat (length l) <= dv_size dv / al); [|lia].
      apply N.div_le_lower_bound; [lia|]. replace (N.of_nat (length l - 1)) with (N.of_nat (length l) - 1) in R by lia. nia. }
  pose proof (loop_unsized dv fm mh start ss al B S l 0 (fuel dv ss (al / ss) 0) (fun _ => 0)) as H.
  rewrite !N.mul_0_l, N.add_0_r in H. rewrite H; [reflexivity|exact Ly|exact En'|exact Ln].
Qed.

(* ---- dump ends ---- *)
Lemma zeroed_magic m ss : 4 <= ss -> le_dec (fget (fun i => if i <? ss then 0 else m i) 0 4) = 0.
Proof.
  intros L. unfold fget. cbn [map seq]. rewrite !N.add_0_l. cbn [N.of_nat Pos.of_succ_nat Pos.succ].
  replace (0 <? ss) with true by lia. replace (1 <? ss) with true by lia. replace (2 <? ss) with true by lia. replace (3 <? ss) with true by lia. reflexivity.
Qed.
Lemma ends_sized dv fm mh start ss sc al last : last <> 0 -> (al < ss \/ 1 <= sc) -> forall n k data,
  k <= last / sc + 1 -> last / sc + 2 <= N.of_nat n + k -> dump_loop n dv fm mh start ss sc al last (k * sc) data <> None.
Proof.
  intros Nz Sc. induction n as [|n IH]; intros k data L1 L2; [lia|]. cbn [dump_loop].
  destruct (negb (last =? 0) && (last <=? k * sc)) eqn:E1; [discriminate|]. destruct (N.ltb_spec al ss) as [Ls|Ls]; [discriminate|].
  assert (k <= last / sc) by (destruct Sc as [Sc|Sc]; [lia|]; apply N.div_le_lower_bound; nia).
  cbv zeta. match goal with |- context [dump_loop n _ _ _ _ _ _ _ _ _ ?d] => set (data' := d) end.
  pose proof (IH (k + 1) data') as I. replace ((k + 1) * sc) with (k * sc + sc) in I by lia. specialize (I ltac:(lia) ltac:(lia)).
  destruct (dump_loop n dv fm mh start ss sc al last (k * sc + sc) data') as [[r ub]|]; [|congruence].
  destruct (_ =? DELTA_DISK_MAGIC); [discriminate|]. destruct (_ =? PAXOS_DISK_MAGIC); [destruct (paxos_lines _ _ _ _ _) as [l []]; discriminate|].
  destruct (_ =? RINDEX_DISK_MAGIC); [destruct (index_lines _ _ _ _ _) as [l []]; discriminate|]. destruct (last =? 0); discriminate.
Qed.
Lemma ends_unsized dv fm mh start ss sc al : (ss = 512 \/ ss = 4096) -> 1 <= sc -> forall n k data,
  k <= dv_size dv / (sc * ss) -> dv_size dv / (sc * ss) + 1 <= N.of_nat n + k -> dump_loop n dv fm mh start ss sc al 0 (k * sc) data <> None.
Proof.
  intros Hs Hc. induction n as [|n IH]; intros k data L1 L2; [lia|]. cbn [dump_loop]. cbn [N.eqb negb andb].
  destruct (al <? ss); [discriminate|]. unfold read_sectors, dread.
  replace ((ss =? 512) || (ss =? 4096)) with true by lia.
  destruct ((start + k * sc * ss + sc * ss <=? dv_size dv) && _) eqn:E.
  - cbv zeta. match goal with |- context [dump_loop n _ _ _ _ _ _ _ _ _ ?d] => set (data' := d) end.
    assert (k + 1 <= dv_size dv / (sc * ss)) by (apply N.div_le_lower_bound; nia).
    pose proof (IH (k + 1) data') as I. replace ((k + 1) * sc) with (k * sc + sc) in I by lia. specialize (I ltac:(lia) ltac:(lia)).
    destruct (dump_loop n dv fm mh start ss sc al 0 (k * sc + sc) data') as [[r ub]|]; [|congruence].
    destruct (_ =? DELTA_DISK_MAGIC); [discriminate|]. destruct (_ =? PAXOS_DISK_MAGIC); [destruct (paxos_lines _ _ _ _ _) as [l []]; discriminate|].
    destruct (_ =? RINDEX_DISK_MAGIC); [destruct (index_lines _ _ _ _ _) as [l []]; discriminate|]. discriminate.
  - cbv zeta. rewrite zeroed_magic by lia. discriminate.
Qed.
Theorem C79_ends : forall dv cs ca fm start size, dump dv cs ca fm start size <> None.
Proof.
  intros dv cs ca fm start size. unfold dump.
  destruct (if known_sizes cs ca then _ else _) as ((ss, al), rv).
  destruct (known_sizes ss al) eqn:K; [cbn [negb]|discriminate]. destruct (al <? 0)%Z eqn:A; [discriminate|]. cbv zeta.
  unfold known_sizes in K. assert (Hs : ss <> 0) by lia. assert (Ha : (0 < al)%Z) by lia. clear K A.
  set (sc := Z.to_N al / ss). set (last := if size =? 0 then 0 else size / ss).
  match goal with |- context [dump_loop ?n dv fm ?mh start ss sc ?d last 0 ?m] => assert (H : dump_loop n dv fm mh start ss sc d last 0 m <> None) end.
  { assert (Sc : Z.to_N al < ss \/ 1 <= sc).
    { destruct (N.lt_ge_cases (Z.to_N al) ss); [left; assumption|right]. unfold sc. apply N.div_le_lower_bound; lia. }
    unfold fuel. destruct (N.eqb_spec last 0) as [->|Nl].
    - assert (D : (ss = 512 \/ ss = 4096) \/ (ss <> 512 /\ ss <> 4096)) by lia. destruct D as [D|(D1 & D2)].
      + destruct Sc as [Sc|Sc]; [cbn [dump_loop]; replace (Z.to_N al <? ss) with true by lia; discriminate|].
        apply (ends_unsized dv fm _ start ss sc (Z.to_N al) D Sc _ 0); generalize (dv_size dv / (sc * ss)); intros q; lia.
      + cbn [dump_loop]. cbn [N.eqb negb andb]. destruct (Z.to_N al <? ss); [discriminate|]. unfold read_sectors.
        replace ((ss =? 512) || (ss =? 4096)) with false by lia. cbv zeta.
        replace (fget (fun i => if i <? ss then 0 else 0) 0 4) with [0;0;0;0]; [discriminate|].
        unfold fget. cbn [map seq]. rewrite !N.add_0_l. destruct (_ <? ss), (_ <? ss), (_ <? ss), (_ <? ss); reflexivity.
    - apply (ends_sized dv fm _ start ss sc (Z.to_N al) last Nl Sc _ 0); generalize (last / sc); intros q; lia. }
  destruct (dump_loop _ _ _ _ _ _ _ _ _ _ _) as [[r ub]|]; [discriminate|congruence].
Qed.

(* ---- what dump may not do: memory, offsets ---- *)
(* nothing on the device makes it read behind its buffer *)
Definition tame (dv : device) (fm ss al : N) : Prop :=
  (forall o, holds dv o (le_enc 4 PAXOS_DISK_MAGIC) -> le_dec (fget (dv_byte dv) (o + 16) 8) + 2 <= al / ss) /\
  (fm <> 0 -> forall o k, holds dv o (le_enc 4 0x01042018) -> k < (al / ss - 1) * (ss / 64) ->
              In 0 (fget (dv_byte dv) (o + ss + k * 64 + 16) 48)).
Lemma fget_at dv base o n : fget (at_ dv base) o n = fget (dv_byte dv) (base + o) n.
Proof. unfold fget. apply map_ext. intros i. unfold at_. f_equal. lia. Qed.
Lemma magic_holds dv base m : bytes_dev dv -> le_dec (fget (at_ dv base) 0 4) = m -> holds dv base (le_enc 4 m).
Proof.
  intros B E. rewrite <- E. rewrite <- (fget_length (at_ dv base) 0 4) at 1. rewrite le_enc_dec.
  - rewrite <- (N.add_0_r base) at 1. apply holds_fget.
  - unfold all_bytes, fget. apply Forall_map, Forall_forall. intros i _. apply B.
Qed.
Lemma no_ub dv fm mh' mh start ss al last : bytes_dev dv -> sizes_ok ss al mh' -> tame dv fm ss al -> forall n nr data r ub,
  dump_loop n dv fm mh start ss (al / ss) al last nr data = Some (r, ub) -> ub = false.
Proof.
  intros B S (T1 & T2). destruct (sizes_facts _ _ _ S) as (Hs & Ha & Hc & _ & _ & _ & H64 & _).
  induction n as [|n IH]; intros nr data r ub H; [discriminate|]. cbn [dump_loop] in H.
  destruct (_ && _); [inversion H; reflexivity|]. replace (al <? ss) with false in H by (clear - Ha Hc; nia).
  cbv zeta in H. set (data' := match read_sectors _ _ _ _ _ with Some m => m | None => _ end) in H.
  assert (G : forall l, match dump_loop n dv fm mh start ss (al / ss) al last (nr + al / ss) data' with Some (r, ub) => Some (l ++ r, ub) | None => None end = Some (r, ub) -> ub = false).
  { intros l G. destruct (dump_loop n _ _ _ _ _ _ _ _ _ _) as [[r' ub']|] eqn:E; [|discriminate]. inversion G; subst. eapply IH, E. }
  assert (D : data' = at_ dv (start + nr * ss) \/ le_dec (fget data' 0 4) = 0).
  { subst data'. unfold read_sectors, dread. replace ((ss =? 512) || (ss =? 4096)) with true by lia.
    destruct (_ && _); [left; reflexivity|right; apply zeroed_magic; lia]. }
  destruct D as [D|D]; [|rewrite D in H; cbn [N.eqb] in H; change (0 =? DELTA_DISK_MAGIC) with false in H; change (0 =? PAXOS_DISK_MAGIC) with false in H;
    change (0 =? RINDEX_DISK_MAGIC) with false in H; cbn iota in H; destruct (last =? 0); [inversion H; reflexivity|eapply G, H]].
  clearbody data'. subst data'.
  destruct (_ =? DELTA_DISK_MAGIC); [eapply G, H|].
  destruct (_ =? PAXOS_DISK_MAGIC) eqn:M.
  { apply N.eqb_eq, magic_holds in M; [|exact B]. apply T1 in M.
    destruct (paxos_lines _ _ _ _ _) as [l b] eqn:E. unfold paxos_lines in E. cbv zeta in E.
    assert (b = false) as ->.
    { apply (f_equal snd) in E. cbn [snd] in E. rewrite <- E. unfold leader_record_in. cbn [l_num_hosts]. rewrite get_fget by lia. rewrite fget_at. replace (start + nr * ss + (0 + N.of_nat 16)) with (start + nr * ss + 16) by lia. lia. }
    eapply G, H. }
  destruct (_ =? RINDEX_DISK_MAGIC) eqn:M'.
  { apply N.eqb_eq, magic_holds in M'; [|exact B].
    destruct (index_lines _ _ _ _ _) as [l b] eqn:E. unfold index_lines in E. cbv zeta in E.
    assert (b = false) as ->.
    { destruct (N.eqb_spec fm 0) as [Z|Z]; [inversion E; reflexivity|]. specialize (T2 Z). apply (f_equal snd) in E. cbn [snd] in E. rewrite <- E.
      rewrite (flat_entries (fun o => index_entry _ _ _ o) ss (ss / 64) (al / ss - 1) H64).
      apply not_true_iff_false. intros X. apply existsb_exists in X. destruct X as (x & I & X). apply in_map_iff in I. destruct I as (k & <- & I).
      apply in_seq in I. unfold index_entry in X. destruct (_ && _); [discriminate|]. cbn [snd] in X. unfold rindex_entry_in in X. cbn [re_name] in X.
      rewrite get_fget in X by lia. rewrite fget_at in X.
      specialize (T2 (start + nr * ss) (N.of_nat k) M' ltac:(lia)). unfold has_nul in X.
      replace (start + nr * ss + (ss + N.of_nat k * 64 + N.of_nat 16)) with (start + nr * ss + ss + N.of_nat k * 64 + 16) in X by lia.
      assert (Y : existsb (N.eqb 0) (fget (dv_byte dv) (start + nr * ss + ss + N.of_nat k * 64 + 16) 48) = true) by (apply existsb_exists; exists 0; split; [exact T2|reflexivity]).
      rewrite Y in X. discriminate. }
    eapply G, H. }
  destruct (last =? 0); [inversion H; reflexivity|eapply G, H].
Qed.
Theorem C79_memory_conditional : forall dv cs ca fm start size ss al mh r, bytes_dev dv -> sizes_ok ss al mh -> sizes_from dv cs ca start size ss al -> tame dv fm ss al ->
  dump dv cs ca fm start size = Some r -> r_ub r = false /\ r_rv r = 0%Z.
Proof.
  intros dv cs ca fm start size ss al mh r B S F T E. rewrite (dump_with _ _ _ _ _ _ _ _ _ B S F) in E. cbv zeta in E.
  destruct (dump_loop _ _ _ _ _ _ _ _ _ _ _) as [[l ub]|] eqn:H; [|discriminate]. inversion E. split; [|reflexivity].
  exact (no_ub _ _ _ _ _ _ _ _ B S T _ _ _ _ _ H).
Qed.

Definition offset_of (x : dline) : option N :=
  match x with DHost o _ _ _ _ _ _ | DLease o _ _ _ _ _ _ _ | DIndex o _ _ _ _ _ | DEntry o _ _ _ => Some o | _ => None end.
Definition within (lo hi : N) (x : dline) : Prop := match offset_of x with Some o => lo <= o < hi | None => True end.
Lemma area_within fm mh base ss al mh' : sizes_ok ss al mh' -> forall data,
  Forall (within base (base + al)) (delta_lines fm mh base ss (al / ss) data) /\
  Forall (within base (base + al)) (fst (paxos_lines fm base ss (al / ss) data)) /\
  Forall (within base (base + al)) (fst (index_lines fm base ss (al / ss) data)).
Proof.
  intros S data. destruct (sizes_facts _ _ _ S) as (Hs & Ha & Hc & _ & Hm & _ & H64 & _). split; [|split]; apply Forall_forall; intros x I.
  - unfold delta_lines in I. apply in_flat_map in I. destruct I as (i & I & J). destruct (_ =? 0); [destruct J|]. cbv zeta in J. destruct (_ && _); [destruct J|].
    destruct J as [<-|[]]. unfold seqN in I. apply in_map_iff in I. destruct I as (j & <- & I). apply in_seq in I. unfold within. cbn [offset_of]. nia.
  - unfold paxos_lines in I. cbv zeta in I. cbn [fst] in I. destruct I as [<-|I]; [unfold within; cbn [offset_of]; lia|].
    apply in_flat_map in I. destruct I as (i & _ & J). unfold paxos_hosts in J. apply in_app_or in J. unfold within.
    destruct J as [J|J]; repeat match type of J with context [if ?b then _ else _] => destruct b end; cbn [In] in J; destruct J as [<-|[]] || destruct J; cbn [offset_of]; exact Logic.I.
  - unfold index_lines in I. cbv zeta in I. cbn [fst] in I. destruct I as [<-|I]; [unfold within; cbn [offset_of]; lia|].
    destruct (fm =? 0); [destruct I|]. rewrite (flat_entries (fun o => index_entry _ _ _ o) ss (ss / 64) (al / ss - 1) H64) in I.
    apply in_flat_map in I. destruct I as (p & I & J). apply in_map_iff in I. destruct I as (k & <- & I). apply in_seq in I.
    unfold index_entry in J. destruct (_ && _); [destruct J|]. destruct J as [<-|[]]. unfold within. cbn [offset_of]. nia.
Qed.

Lemma within_more lo hi lo' hi' l : lo' <= lo -> hi <= hi' -> Forall (within lo hi) l -> Forall (within lo' hi') l.
Proof. intros A B F. eapply Forall_impl; [|exact F]. intros x. unfold within. destruct (offset_of x); [lia|auto]. Qed.
Lemma loop_within dv fm mh mh' start ss al n0 : sizes_ok ss al mh' -> forall n k data r ub,
  dump_loop n dv fm mh start ss (al / ss) al (n0 * (al / ss)) (k * (al / ss)) data = Some (r, ub) ->
  n0 <> 0 -> Forall (within start (start + n0 * al)) r.
Proof.
  intros S. destruct (sizes_facts _ _ _ S) as (Hs & Ha & Hc & _).
  induction n as [|n IH]; intros k data r ub H Nz; [discriminate|]. cbn [dump_loop] in H.
  destruct (negb _ && _) eqn:E; [inversion H; constructor|]. assert (Lk : k + 1 <= n0) by nia.
  destruct (al <? ss); [inversion H; constructor|]. cbv zeta in H. set (data' := match read_sectors _ _ _ _ _ with Some m => m | None => _ end) in H. clearbody data'.
  replace (k * (al / ss) + al / ss) with ((k + 1) * (al / ss)) in H by lia.
  assert (Ea : start + k * (al / ss) * ss = start + k * al) by (rewrite Ha at 2; lia). rewrite Ea in H.
  destruct (area_within fm mh (start + k * al) ss al mh' S data') as (W1 & W2 & W3).
  apply (within_more _ _ start (start + n0 * al)) in W1, W2, W3; try nia.
  assert (G : forall l, Forall (within start (start + n0 * al)) l -> match dump_loop n dv fm mh start ss (al / ss) al (n0 * (al / ss)) ((k + 1) * (al / ss)) data' with Some (r, ub) => Some (l ++ r, ub) | None => None end = Some (r, ub) ->
    Forall (within start (start + n0 * al)) r).
  { intros l F X. destruct (dump_loop n _ _ _ _ _ _ _ _ _ _) as [[r' ub']|] eqn:Y; [|discriminate]. inversion X; subst. apply Forall_app. split; [exact F|eapply IH; eassumption]. }
  destruct (_ =? DELTA_DISK_MAGIC); [exact (G _ W1 H)|].
  destruct (_ =? PAXOS_DISK_MAGIC).
  { destruct (paxos_lines _ _ _ _ _) as [l []]; cbn [fst] in W2; [inversion H; subst; exact W2|exact (G _ W2 H)]. }
  destruct (_ =? RINDEX_DISK_MAGIC).
  { destruct (index_lines _ _ _ _ _) as [l []]; cbn [fst] in W3; [inversion H; subst; exact W3|exact (G _ W3 H)]. }
  destruct (n0 * (al / ss) =? 0); [inversion H; constructor|exact (G [] (Forall_nil _) H)].
Qed.
Theorem C79_within_partial : forall dv cs ca fm start n ss al mh r, bytes_dev dv -> sizes_ok ss al mh -> n <> 0 -> sizes_from dv cs ca start (n * al) ss al ->
  dump dv cs ca fm start (n * al) = Some r -> Forall (within start (start + n * al)) (r_lines r).
Proof.
  intros dv cs ca fm start n ss al mh r B S Nz F E. rewrite (dump_with _ _ _ _ _ _ _ _ _ B S F) in E. cbv zeta in E.
  destruct (sizes_facts _ _ _ S) as (Hs & Ha & Hc & _ & Hm & _). replace (n * al =? 0) with false in E by nia.
  assert (D : n * al / ss = n * (al / ss)). { rewrite Ha at 1. rewrite N.mul_assoc. apply N.div_mul. lia. } rewrite D in E.
  destruct (dump_loop _ _ _ _ _ _ _ _ _ _ _) as [[l ub]|] eqn:H; [|discriminate]. inversion E. cbn [r_lines].
  apply (loop_within dv fm mh mh start ss al n S _ 0 _ _ _ H Nz).
Qed.

(* ---- next_free ---- *)
Lemma free_step dv base ss al mh j n : bytes_dev dv -> sizes_ok ss al mh ->
  (readable dv (base + j * al) ss -> ~ is_free dv (base + j * al) -> free_loop (S n) dv base ss (al / ss) (j * (al / ss)) = free_loop n dv base ss (al / ss) ((j + 1) * (al / ss))) /\
  (~ readable dv (base + j * al) ss \/ is_free dv (base + j * al) -> free_loop (S n) dv base ss (al / ss) (j * (al / ss)) = NPrint (j * al)).
Proof.
  intros B S. destruct (sizes_facts _ _ _ S) as (Hs & Ha & Hc & _).
  assert (Ea : j * (al / ss) * ss = j * al) by (rewrite Ha at 2; lia).
  cbn [free_loop]. unfold read_sectors, dread. replace ((ss =? 512) || (ss =? 4096)) with true by lia. rewrite Ea, N.mul_1_l.
  destruct ((base + j * al + ss <=? dv_size dv) && _) eqn:E.
  - assert (R : readable dv (base + j * al) ss). { apply andb_true_iff in E. destruct E as (E1 & E2). apply negb_true_iff in E2. apply N.leb_le in E1. split; assumption. }
    change (fun i => dv_byte dv (base + j * al + i)) with (at_ dv (base + j * al)). rewrite !leader_magic. set (b := base + j * al) in *. split.
    + intros _ NF. replace ((j + 1) * (al / ss)) with (j * (al / ss) + al / ss) by lia.
      destruct (_ && _ && _) eqn:M; [|reflexivity]. exfalso. apply NF. intros m I X.
      assert (Lm : m < 2 ^ 32) by (cbn [In] in I; destruct I as [<-|[<-|[<-|[]]]]; reflexivity).
      apply (magic_at _ _ _ Lm) in X. rewrite X in M. cbn [In] in I. destruct I as [<-|[<-|[<-|[]]]]; discriminate.
    + intros [NR|Fr]; [contradiction|]. unfold is_free in Fr. cbn [In] in Fr.
      rewrite (proj2 (N.eqb_neq _ _) (magic_not dv b DELTA_DISK_MAGIC B (Fr _ (or_introl eq_refl)))).
      rewrite (proj2 (N.eqb_neq _ _) (magic_not dv b PAXOS_DISK_MAGIC B (Fr _ (or_intror (or_introl eq_refl))))).
      rewrite (proj2 (N.eqb_neq _ _) (magic_not dv b RINDEX_DISK_MAGIC B (Fr _ (or_intror (or_intror (or_introl eq_refl)))))). reflexivity.
  - split; [|intros _; reflexivity]. intros (R1 & R2). apply N.leb_le in R1. rewrite R1, R2 in E. discriminate.
Qed.
(* with -A and -Z: the first area that has no lease in it or that cannot be read *)
Theorem C79_free_first : forall dv js ja base ss al mh k, bytes_dev dv -> sizes_ok ss al mh ->
  (forall j, j < k -> readable dv (base + j * al) ss /\ ~ is_free dv (base + j * al)) ->
  ~ readable dv (base + k * al) ss \/ is_free dv (base + k * al) ->
  next_free dv ss (Z.of_N al) js ja base = NPrint (k * al).
Proof.
  intros dv js ja base ss al mh k B S H Hk. destruct (sizes_facts _ _ _ S) as (Hs & Ha & Hc & _ & Hm & _ & _ & K). unfold next_free.
  replace (ss =? 0) with false by lia. replace (Z.of_N al =? 0)%Z with false by lia. rewrite K. cbv zeta.
  replace (ss <? 200) with false by lia.
  replace (Z.to_N (Z.quot (Z.of_N al) (Z.of_N ss))) with (al / ss) by (rewrite <- N2Z.inj_quot, N2Z.id; reflexivity).
  assert (Lk : k <= dv_size dv / ss).
  { destruct (N.eq_dec k 0) as [->|Nk]; [lia|]. destruct (H (k - 1) ltac:(lia)) as ((R & _) & _). apply N.div_le_lower_bound; [lia|].
    assert (ss <= al) by nia. nia. }
  generalize (dv_size dv / ss) Lk. intros q Lq. clear Lk.
  assert (G : forall n j, j <= k -> k < j + N.of_nat n -> free_loop n dv base ss (al / ss) (j * (al / ss)) = NPrint (k * al)).
  { induction n as [|n IH]; intros j L1 L2; [lia|]. destruct (free_step dv base ss al mh j n B S) as (F1 & F2).
    destruct (N.eq_dec j k) as [->|D]; [exact (F2 Hk)|]. destruct (H j ltac:(lia)) as (R & NF). rewrite (F1 R NF). apply IH; lia. }
  apply (G _ 0); lia.
Qed.
Theorem C79_free_conditional : forall dv js ja ss al mh o, bytes_dev dv -> sizes_ok ss al mh ->
  (forall j, j * al + ss <= dv_size dv -> dv_fail dv (j * al) ss = false) -> (exists j, j * al + al <= dv_size dv /\ is_free dv (j * al)) ->
  next_free dv ss (Z.of_N al) js ja 0 = NPrint o -> is_free dv o /\ o mod al = 0 /\ o + al <= dv_size dv /\ forall j, j * al < o -> ~ is_free dv (j * al).
Proof.
  intros dv js ja ss al mh o B S NE (j & Lj & Fj) E. destruct (sizes_facts _ _ _ S) as (Hs & Ha & Hc & _ & Hm & _).
  assert (Q : exists k, k <= j /\ is_free dv (k * al) /\ forall i, i < k -> ~ is_free dv (i * al)).
  { clear - j Fj B. 
    assert (Dec : forall o, is_free dv o \/ ~ is_free dv o).
    { intros o'. unfold is_free. set (x := le_dec (fget (at_ dv o') 0 4)).
      destruct (in_dec N.eq_dec x [DELTA_DISK_MAGIC; PAXOS_DISK_MAGIC; 0x01042018]) as [I|I].
      - right. intros A. apply (A x I). apply (magic_holds dv o' x B). reflexivity.
      - left. intros m J X. apply I. assert (Lm : m < 2 ^ 32) by (cbn [In] in J; destruct J as [<-|[<-|[<-|[]]]]; reflexivity).
        apply (magic_at _ _ _ Lm) in X. unfold x. rewrite X. exact J. }
    assert (G : forall n : nat, (exists k, k <= N.of_nat n /\ is_free dv (k * al) /\ forall i, i < k -> ~ is_free dv (i * al)) \/ forall i, i <= N.of_nat n -> ~ is_free dv (i * al)).
    { induction n as [|n [IH|IH]].
      - destruct (Dec (0 * al)) as [D|D]; [left; exists 0; repeat split; [lia|exact D|lia]|right; intros i L; replace i with 0 by lia; exact D].
      - left. destruct IH as (k & L & A). exists k. split; [lia|exact A].
      - destruct (Dec (N.of_nat (S n) * al)) as [D|D].
        + left. exists (N.of_nat (S n)). split; [lia|split; [exact D|]]. intros i L. apply IH. lia.
        + right. intros i L. destruct (N.eq_dec i (N.of_nat (S n))) as [->|Ni]; [exact D|apply IH; lia]. }
    destruct (G (N.to_nat j)) as [(k & L & A)|A]; [exists k; split; [lia|exact A]|]. exfalso. apply (A j); [lia|exact Fj]. }
  destruct Q as (k & Lk & Fk & Bk). assert (ss <= al) by nia.
  rewrite (C79_free_first dv js ja 0 ss al mh k B S) in E.
  - inversion E. subst o. split; [exact Fk|]. split; [apply N.mod_mul; lia|]. split; [nia|]. intros i Li. apply Bk. nia.
  - intros i Li. rewrite N.add_0_l. split; [|apply Bk, Li]. assert (i * al + ss <= dv_size dv) by nia. split; [assumption|apply NE; assumption].
  - right. rewrite N.add_0_l. exact Fk.
Qed.

(* ---- the argument ---- *)
Definition given (s : bytes) (m : bool) : bytes := s ++ if m then [77] else [].
Definition meant (v : N) (m : bool) : N := if m then v * 1048576 else v.
Lemma atoll_val s v : decimal s v -> v < 2 ^ 63 -> atoll s = Z.of_N v.
Proof.
  intros (NE & F & V) L. unfold atoll. rewrite <- (app_nil_r s), digit_first by assumption. rewrite app_nil_r.
  rewrite digits_value by assumption. rewrite V. unfold clamp_ll. lia.
Qed.
Lemma strchr_no c s : ~ In c s -> strchr c s = None.
Proof.
  induction s as [|x s IH]; intros H; [reflexivity|]. cbn [strchr]. destruct (N.eqb_spec x c) as [->|D]; [destruct H; left; reflexivity|].
  rewrite IH; [reflexivity|]. intros I. apply H. right. exact I.
Qed.
Lemma strchr_at c s r : ~ In c s -> strchr c (s ++ c :: r) = Some (s, r).
Proof.
  induction s as [|x s IH]; intros H; cbn [app strchr]; [rewrite N.eqb_refl; reflexivity|].
  destruct (N.eqb_spec x c) as [->|D]; [destruct H; left; reflexivity|]. rewrite IH; [reflexivity|]. intros I. apply H. right. exact I.
Qed.
Lemma decimal_no s v c : decimal s v -> c < 48 \/ 57 < c -> ~ In c s.
Proof. intros (_ & F & _) L I. rewrite Forall_forall in F. specialize (F c I). cbn in F. lia. Qed.
Lemma num_given s v m : decimal s v -> meant v m < 2 ^ 63 -> num_m (given s m) = meant v m.
Proof.
  intros D L. assert (Nm : ~ In CH_M s) by (eapply decimal_no; [exact D|unfold CH_M; lia]). unfold given, meant, num_m in *. destruct m.
  - change [77] with (CH_M :: []). rewrite strchr_at by exact Nm. rewrite (atoll_val s v D) by lia. unfold ArgStr.u64. rewrite Z.mod_small; lia.
  - rewrite app_nil_r, strchr_no by exact Nm. exact (atoll_decimal s v D L).
Qed.
Lemma given_plain s v m : decimal s v -> Forall (fun c => c <> 58 /\ c <> 92) (given s m).
Proof.
  intros (_ & F & _). unfold given. apply Forall_app. split; [|destruct m; repeat constructor; lia].
  eapply Forall_impl; [|exact F]. cbn. intros c. lia.
Qed.
Lemma path_back e p : written e p -> (length p < SANLK_PATH_LEN)%nat -> upto_nul (fst (path_import_w SANLK_PATH_LEN e 0)) = p.
Proof. intros W L. rewrite (import_written _ _ _ 0 W) by exact L. cbn [fst]. apply upto_nul_end. exact (written_nz _ _ W). Qed.
Theorem C79_arg : forall e p so vo mo st vs ms, written e p -> (length p < 1024)%nat -> decimal so vo -> meant vo mo < 2 ^ 63 -> decimal st vs -> meant vs ms < 2 ^ 63 ->
  dump_arg e = (p, 0, 0) /\
  dump_arg (e ++ 58 :: given so mo) = (p, meant vo mo, 0) /\
  dump_arg (e ++ 58 :: given so mo ++ 58 :: given st ms) = (p, meant vo mo, meant vs ms).
Proof.
  intros e p so vo mo st vs ms W L Do Lo Ds Ls. pose proof (path_back e p W L) as P. unfold dump_arg.
  assert (C0 : cut_colons 2 e [] = [e]). { rewrite <- (app_nil_r e) at 1. rewrite (cut_written _ _ _ _ _ W). reflexivity. }
  assert (C1 : cut_colons 2 (e ++ 58 :: given so mo) [] = [e; given so mo]).
  { rewrite (cut_written _ _ _ _ _ W), cut_colon. cbn [app]. rewrite <- (app_nil_r (given so mo)) at 1. rewrite cut_plain by (eapply given_plain; exact Do). reflexivity. }
  assert (C2 : cut_colons 2 (e ++ 58 :: given so mo ++ 58 :: given st ms) [] = [e; given so mo; given st ms]).
  { rewrite (cut_written _ _ _ _ _ W), cut_colon. cbn [app]. rewrite cut_plain by (eapply given_plain; exact Do). rewrite cut_colon. cbn [app].
    rewrite <- (app_nil_r (given st ms)) at 1. rewrite cut_plain by (eapply given_plain; exact Ds). reflexivity. }
  rewrite C0, C1, C2. cbn [nth nth_error]. rewrite P, (num_given _ _ _ Do Lo), (num_given _ _ _ Ds Ls). repeat split.
Qed.
(* next_free takes the same kind of argument *)
Definition C79_free_arg_statement : Prop := forall e p so vo mo, written e p -> (length p < 1024)%nat -> decimal so vo -> meant vo mo < 2 ^ 63 ->
  free_arg (e ++ 58 :: given so mo) = (p, meant vo mo).
Theorem C79_free_arg_partial : forall p so vo, Forall (fun c => c <> 58) p -> (length p < 1024)%nat -> decimal so vo -> vo < 2 ^ 63 ->
  free_arg p = (p, 0) /\ free_arg (p ++ 58 :: so) = (p, vo).
Proof.
  intros p so vo F L D Lv. unfold free_arg.
  assert (Nc : ~ In CO p). { intros I. rewrite Forall_forall in F. exact (F _ I eq_refl). }
  rewrite strchr_no by exact Nc. change 58 with CO. rewrite strchr_at by exact Nc. rewrite (atoll_decimal _ _ D Lv).
  rewrite firstn_all2 by (unfold SANLK_PATH_LEN; lia). split; reflexivity.
Qed.
Lemma dec1 : decimal [49] 1. Proof. split; [discriminate|]. split; [repeat constructor; lia|reflexivity]. Qed.
Theorem C79_free_arg_refuted : ~ C79_free_arg_statement /\
  (exists e p, written e p /\ (length p < 1024)%nat /\ fst (free_arg (e ++ 58 :: [49])) <> p) /\
  (exists p, written p p /\ (length p < 1024)%nat /\ free_arg (p ++ 58 :: given [49] true) = (p, 1)).
Proof.
  split; [|split].
  - intros H. specialize (H [112] [112] [49] 1 true). assert (W : written [112] [112]) by (constructor; try lia; constructor).
    specialize (H W ltac:(cbn; lia) dec1 ltac:(reflexivity)). vm_compute in H. discriminate.
  - exists [97; 92; 58; 98], [97; 58; 98]. split; [constructor; try lia; constructor; try lia; constructor; try lia; constructor|]. split; [cbn; lia|vm_compute; discriminate].
  - exists [112]. split; [constructor; try lia; constructor|]. split; [cbn; lia|vm_compute; reflexivity].
Qed.

(* ---- devices ---- *)
Definition piece := (N * N * bytes)%type.
Definition dev_byte (l : list piece) (i : N) : N :=
  match find (fun p => let '(o, n, _) := p in (o <=? i) && (i <? o + n)) l with Some (o, _, b) => nth (N.to_nat (i - o)) b 0 | None => 0 end.
Definition mkd (size : N) (l : list piece) (f : N -> N -> bool) : device := mkDev size (dev_byte l) f.
Definition no_fail : N -> N -> bool := fun _ _ => false.
Lemma mkd_bytes size l f : Forall (fun p => all_bytes (snd p)) l -> bytes_dev (mkd size l f).
Proof.
  intros F i. unfold mkd, dev_byte. cbn [dv_byte]. destruct (find _ l) as [[[o n] b]|] eqn:E; [|lia].
  apply find_some in E. destruct E as (I & _). rewrite Forall_forall in F. specialize (F _ I). cbn [snd] in F.
  destruct (nth_in_or_default (N.to_nat (i - o)) b 0) as [J|J]; [|rewrite J; lia]. unfold all_bytes in F. rewrite Forall_forall in F. exact (F _ J).
Qed.
Definition name (c : N) : bytes := c :: zeros 47.
Definition lead (magic flags ss nh own gen : N) : leader := mkLeader magic 1 flags ss nh 250 own gen 3 (name 76) (name 82) 77 0 0 0 10 0 0 0.
Definition lead_b (l : leader) : bytes := leader_bytes l (zeros 200).
Definition paxos_l : leader := lead PAXOS_DISK_MAGIC 16 4096 2 1 1.
Definition bytesb (b : bytes) : bool := forallb (fun x => x <? 256) b.
Lemma bytesb_ok l : forallb (fun p : piece => bytesb (snd p)) l = true -> Forall (fun p => all_bytes (snd p)) l.
Proof.
  intros H. apply Forall_forall. intros p I. rewrite forallb_forall in H. specialize (H _ I). apply Forall_forall. intros x J.
  unfold bytesb in H. rewrite forallb_forall in H. specialize (H _ J). unfold is_byte. lia.
Qed.
Ltac dev := apply mkd_bytes, bytesb_ok; vm_compute; reflexivity.
Definition MiB : N := 1048576.
Definition opts_ok (cs : N) (ca : Z) : Prop := ca = 0%Z \/ exists mh, sizes_ok cs (Z.to_N ca) mh.

(* ---- refuted ---- *)
Definition C79_memory_statement : Prop := forall dv cs ca fm start size r, bytes_dev dv -> opts_ok cs ca -> dump dv cs ca fm start size = Some r -> r_ub r = false.
(* a lease for more hosts than there are sectors *)
Definition d_hosts : device := mkd MiB [(0, 200, lead_b (lead PAXOS_DISK_MAGIC 16 4096 (2 ^ 32) 1 1))] no_fail.
(* a sector size larger than the area *)
Definition d_sector : device := mkd MiB [(0, 200, lead_b (lead PAXOS_DISK_MAGIC 16 (2 ^ 31) 2 1 1))] no_fail.
(* an entry of the index without a 0 in its name *)
Definition d_name : device :=
  mkd MiB [(0, 80, rindex_header_out (mkRheader RINDEX_DISK_MAGIC 1 1 4096 10 0 0 (name 76)) (zeros 80)); (4096, 64, rindex_entry_out (mkRentry MiB 0 0 (repeat 65 48)) (zeros 64))] no_fail.
Definition ub_of (o : option dres) : bool := match o with Some r => r_ub r | None => false end.
Lemma name_ub : ub_of (dump d_name 4096 (Z.of_N MiB) 1 0 0) = true.
Proof.
  assert (B : bytes_dev d_name) by dev. assert (S : sizes_ok 4096 MiB 250) by (right; left; repeat split).
  rewrite (dump_with d_name 4096 (Z.of_N MiB) 1 0 0 4096 MiB 250 B S) by (left; split; reflexivity). cbv zeta. cbn [N.eqb].
  unfold fuel. cbn [dump_loop]. cbn [N.eqb negb andb].
  rewrite (read_area d_name 0 4096 MiB 250 0 S) by (split; [vm_compute; discriminate|reflexivity]).
  change (0 + 0 * 4096) with 0. change (MiB <? 4096) with false. cbv zeta. change (MiB / 4096) with 256.
  replace (le_dec (fget (at_ d_name 0) 0 4)) with RINDEX_DISK_MAGIC by (vm_compute; reflexivity).
  change (RINDEX_DISK_MAGIC =? DELTA_DISK_MAGIC) with false. change (RINDEX_DISK_MAGIC =? PAXOS_DISK_MAGIC) with false. change (RINDEX_DISK_MAGIC =? RINDEX_DISK_MAGIC) with true.
  assert (U : snd (index_lines 1 0 4096 256 (at_ d_name 0)) = true).
  { unfold index_lines. cbv zeta. cbn [snd]. change (1 =? 0) with false. cbn iota.
    rewrite (flat_entries (fun o => index_entry _ _ _ o) 4096 (4096 / 64) (256 - 1) eq_refl). apply existsb_exists.
    eexists. split; [apply in_map; apply (proj2 (in_seq _ _ 0%nat)); lia|vm_compute; reflexivity]. }
  destruct (index_lines 1 0 4096 256 (at_ d_name 0)) as [l ub]. cbn [snd] in U. subst ub. reflexivity.
Qed.
Theorem C79_memory_refuted : ~ C79_memory_statement /\
  (bytes_dev d_hosts /\ ub_of (dump d_hosts 0 0 0 0 0) = true) /\ (bytes_dev d_sector /\ ub_of (dump d_sector 0 0 0 0 0) = true) /\
  (bytes_dev d_name /\ ub_of (dump d_name 4096 (Z.of_N MiB) 1 0 0) = true).
Proof.
  assert (H : bytes_dev d_hosts /\ ub_of (dump d_hosts 0 0 0 0 0) = true) by (split; [dev|vm_compute; reflexivity]).
  split; [|split; [exact H|split; [split; [dev|vm_compute; reflexivity]|split; [dev|exact name_ub]]]].
  intros X. destruct H as (B & U). unfold ub_of in U. destruct (dump d_hosts 0 0 0 0 0) as [r|] eqn:E; [|discriminate].
  rewrite (X d_hosts 0 0%Z 0 0 0 r B) in U; [discriminate|left; reflexivity|exact E].
Qed.

Definition C79_error_statement : Prop := forall dv cs ca fm start n ss al mh r, bytes_dev dv -> sizes_ok ss al mh -> cs = ss -> ca = Z.of_N al ->
  dump dv cs ca fm start (n * al) = Some r -> r_rv r = 0%Z -> forall k, k < n -> readable dv (start + k * al) al.
Definition d_bad : device := mkd (2 * MiB) [(0, 200, lead_b paxos_l)] (fun o _ => o =? 0).
Theorem C79_error_refuted : ~ C79_error_statement.
Proof.
  intros H. assert (E : dump d_bad 4096 (Z.of_N MiB) 0 0 (2 * MiB) = Some (mkR [] false 0)) by (vm_compute; reflexivity).
  specialize (H d_bad 4096 (Z.of_N MiB) 0 0 2 4096 MiB 250 _ ltac:(dev) ltac:(right; left; repeat split) eq_refl eq_refl E eq_refl 0 ltac:(lia)).
  destruct H as (_ & H). discriminate.
Qed.

(* without a size everything on the device is shown *)
Definition C79_all_statement : Prop := forall dv fm ss al mh l, bytes_dev dv -> sizes_ok ss al mh -> layout dv ss al 0 l -> dv_size dv = N.of_nat (length l) * al ->
  dump dv ss (Z.of_N al) fm 0 0 = Some (mkR (show_all fm mh ss al 0 l) false 0).
Definition rq : request := mkRequest 0 0 0 0.
Definition zero_d : dblock := paxos_dblock_in (zeros 56).
Definition zero_m : mblock := mkMblock 0 0.
Definition one_lease (o nh : N) : list piece := [(o, 200, lead_b (lead PAXOS_DISK_MAGIC 16 4096 nh 1 1))].
Definition d_gap : device := mkd (2 * MiB) (one_lease MiB 0) no_fail.
Definition holdsb (dv : device) (off : N) (bs : bytes) : bool := forallb (fun p => fst p =? snd p) (combine (fget (dv_byte dv) off (length bs)) bs).
Lemma holdsb_ok dv off bs : holdsb dv off bs = true -> holds dv off bs.
Proof.
  intros H i L. unfold holdsb in H. rewrite forallb_forall in H.
  specialize (H (nth i (combine (fget (dv_byte dv) off (length bs)) bs) (0, 0))). rewrite combine_nth in H by apply fget_length. cbn [fst snd] in H.
  rewrite nth_fget in H by exact L. apply N.eqb_eq, H. replace (dv_byte dv (off + N.of_nat i), nth i bs 0) with (nth i (combine (fget (dv_byte dv) off (length bs)) bs) (0, 0)).
  - apply nth_In. rewrite combine_length, fget_length. lia.
  - rewrite combine_nth by apply fget_length. rewrite nth_fget by exact L. reflexivity.
Qed.
Ltac hold := apply holdsb_ok; vm_compute; reflexivity.
Ltac wf := vm_compute; repeat split; try (repeat constructor); try lia.
Lemma lead_wf magic flags ss nh own gen : magic < 2 ^ 32 -> flags < 2 ^ 32 -> ss < 2 ^ 32 -> nh < 2 ^ 64 -> own < 2 ^ 64 -> gen < 2 ^ 64 -> leader_wf (lead magic flags ss nh own gen).
Proof.
  intros. unfold leader_wf, lead. cbn [l_magic l_version l_flags l_sector_size l_num_hosts l_max_hosts l_owner_id l_owner_generation l_lver l_space_name l_resource_name l_timestamp
    l_unused1 l_checksum l_unused2 l_io_timeout l_write_id l_write_generation l_write_timestamp]. unfold u16, u32, u64.
  repeat split; try assumption; try reflexivity; unfold name, all_bytes; repeat constructor.
Qed.
Lemma gap_layout : layout d_gap 4096 MiB 0 [AFree; ALease (lead PAXOS_DISK_MAGIC 16 4096 0 1 1) rq []].
Proof.
  intros [|[|k]] a E; cbn [nth_error] in E; [| |destruct k; discriminate]; injection E as <-.
  - split; [split; [vm_compute; discriminate|reflexivity]|]. intros m I H. cbn [In] in I. specialize (H 0%nat ltac:(rewrite le_enc_length; lia)). vm_compute in H.
    destruct I as [<-|[<-|[<-|[]]]]; discriminate.
  - split; [split; [vm_compute; discriminate|reflexivity]|]. cbn [area_at]. split; [reflexivity|].
    split; [split; [apply lead_wf; reflexivity|exists (zeros 200); split; [reflexivity|hold]]|].
    split; [split; [wf|exists (zeros 24); split; [reflexivity|hold]]|]. split; [reflexivity|]. split; [vm_compute; discriminate|]. intros [|i] d m E; discriminate.
Qed.
Theorem C79_all_refuted : ~ C79_all_statement.
Proof.
  intros H. specialize (H d_gap 0 4096 MiB 250 _ ltac:(dev) ltac:(right; left; repeat split) gap_layout eq_refl).
  assert (E : dump d_gap 4096 (Z.of_N MiB) 0 0 0 = Some (mkR [] false 0)) by (vm_compute; reflexivity). rewrite E in H. discriminate.
Qed.

(* what is shown is within the size that is given *)
Definition C79_within_statement : Prop := forall dv fm start size ss al mh r, bytes_dev dv -> sizes_ok ss al mh -> size <> 0 ->
  dump dv ss (Z.of_N al) fm start size = Some r -> Forall (within start (start + size)) (r_lines r).
Definition d_two : device := mkd (2 * MiB) (one_lease 0 0 ++ one_lease MiB 0) no_fail.
Theorem C79_within_refuted : ~ C79_within_statement.
Proof.
  intros H. destruct (dump d_two 4096 (Z.of_N MiB) 0 0 4095) as [r|] eqn:E; [|revert E; apply C79_ends].
  specialize (H d_two 0 0 4095 4096 MiB 250 r ltac:(dev) ltac:(right; left; repeat split) ltac:(lia) E).
  assert (L : nth_error (match dump d_two 4096 (Z.of_N MiB) 0 0 4095 with Some r => map offset_of (r_lines r) | None => [] end) 1 = Some (Some MiB)) by (vm_compute; reflexivity).
  rewrite E, nth_error_map in L. destruct (nth_error (r_lines r) 1) as [x|] eqn:X; [|discriminate]. cbn [option_map] in L. injection L as L.
  apply nth_error_In in X. rewrite Forall_forall in H. specialize (H x X). unfold within in H. rewrite L in H. vm_compute in H. destruct H as (_ & H). discriminate H.
Qed.

(* what next_free prints is where a free area is *)
Definition C79_free_statement : Prop := forall dv cs ca js ja base o ss al mh, bytes_dev dv -> sizes_ok ss al mh -> (cs = ss /\ ca = Z.of_N al) \/ (cs = 0 /\ ca = 0%Z) ->
  next_free dv cs ca js ja base = NPrint o -> is_free dv o /\ o + al <= dv_size dv.
Definition d_full : device := mkd MiB (one_lease 0 0) no_fail.
Definition d_err : device := mkd (2 * MiB) (one_lease 0 0) (fun o _ => o =? 0).
Lemma not_free dv o m : In m [DELTA_DISK_MAGIC; PAXOS_DISK_MAGIC; 0x01042018] -> holds dv o (le_enc 4 m) -> ~ is_free dv o.
Proof. intros I H F. exact (F m I H). Qed.
Ltac used := apply (not_free _ _ PAXOS_DISK_MAGIC); [right; left; reflexivity|hold].
Theorem C79_free_refuted : ~ C79_free_statement /\
  (* the device is full *)
  next_free d_full 4096 (Z.of_N MiB) 0 0 0 = NPrint (dv_size d_full) /\
  (* the area cannot be read *)
  (next_free d_err 4096 (Z.of_N MiB) 0 0 0 = NPrint 0 /\ ~ is_free d_err 0) /\
  (* the offset is from where the search was to begin *)
  (next_free d_two 4096 (Z.of_N MiB) 0 0 MiB = NPrint MiB /\ ~ is_free d_two MiB).
Proof.
  split; [|split; [vm_compute; reflexivity|split; (split; [vm_compute; reflexivity|used])]].
  intros H. destruct (H d_full 4096 (Z.of_N MiB) 0 0%Z 0 MiB 4096 MiB 250 ltac:(dev) ltac:(right; left; repeat split) (or_introl (conj eq_refl eq_refl)) ltac:(vm_compute; reflexivity)) as (_ & L).
  vm_compute in L. apply L. reflexivity.
Qed.
(* without -A and -Z what the variables happen to hold decides *)
Theorem C79_free_junk_refuted :
  next_free d_two 0 0 0 0 0 = NPrint (2 * MiB) /\
  next_free d_two 0 0 1000 1000 0 = NPrint 0 /\ ~ is_free d_two 0 /\
  next_free d_two 0 0 4096 100 0 = NLoops /\ next_free d_two 0 0 100 100 0 = NUB.
Proof. split; [vm_compute; reflexivity|]. split; [vm_compute; reflexivity|]. split; [used|]. split; vm_compute; reflexivity. Qed.

(* ---- a device with a lockspace, a lease, an index and a free area ---- *)
Definition x_d0 : dblock := dblock_set_checksum (mkDblock 251 251 1 1 77 4 0 0) (dblock_checksum (dblock_bytes (mkDblock 251 251 1 1 77 4 0 0) (zeros 56))).
Definition x_d1 : dblock := dblock_set_checksum zero_d (dblock_checksum (dblock_bytes zero_d (zeros 56))).
Definition x_rq : request := mkRequest 0x08292011 1 4 1.
Definition x_rh : rheader := mkRheader RINDEX_DISK_MAGIC 1 1 4096 100 0 0 (name 76).
Definition x_re : rentry := mkRentry MiB 0 0 (name 82).
Definition zero_e : rentry := mkRentry 0 0 0 (zeros 48).
Definition delta_l (own gen : N) : leader := lead DELTA_DISK_MAGIC 16 4096 0 own gen.
Definition x_pieces : list piece :=
  [(0, 200, lead_b (delta_l 1 3)); (256, 256, bitmap_of [2; 250]); (4096, 200, lead_b (delta_l 0 0));
   (MiB, 200, lead_b paxos_l); (MiB + 4096, 24, request_record_out x_rq (zeros 24));
   (MiB + 8192, 56, dblock_bytes x_d0 (zeros 56)); (MiB + 8192 + 128, 16, mode_block_out (mkMblock 1 9) (zeros 16)); (MiB + 12288, 56, dblock_bytes x_d1 (zeros 56));
   (2 * MiB, 80, rindex_header_out x_rh (zeros 80)); (2 * MiB + 4096, 64, rindex_entry_out x_re (zeros 64))].
Definition d_ex : device := mkd (4 * MiB) x_pieces no_fail.
Definition x_space_a : area := ASpace (Some (delta_l 1 3, [2; 250]) :: Some (delta_l 0 0, []) :: repeat None 254).
Definition x_lease_a : area := ALease paxos_l x_rq [(x_d0, mkMblock 1 9); (x_d1, zero_m)].
Definition x_index_n : nat := N.to_nat 16319.
Definition x_index_a : area := AIndex x_rh (x_re :: repeat zero_e x_index_n).
Definition x_areas : list area := [x_space_a; x_lease_a; x_index_a; AFree].
Lemma x_index_val : N.of_nat x_index_n = 16319. Proof. unfold x_index_n. apply N2Nat.id. Qed.
Opaque x_index_n.
Lemma dev_zero l i : Forall (fun p : piece => i < fst (fst p) \/ fst (fst p) + snd (fst p) <= i) l -> dev_byte l i = 0.
Proof.
  intros F. unfold dev_byte. match goal with |- context [find ?f l] => destruct (find f l) as [[[o n] b]|] eqn:E end; [|reflexivity]. apply find_some in E. destruct E as (I & E).
  rewrite Forall_forall in F. specialize (F _ I). cbn [fst snd] in F. lia.
Qed.
Lemma holds_zeros size l f off n : Forall (fun p : piece => off + N.of_nat n <= fst (fst p) \/ fst (fst p) + snd (fst p) <= off) l -> holds (mkd size l f) off (zeros n).
Proof.
  intros F i L. unfold zeros in *. rewrite repeat_length in L. rewrite nth_repeat. apply dev_zero. eapply Forall_impl; [|exact F]. cbn beta. intros p [H|H]; [left|right]; lia.
Qed.
Ltac away := unfold x_pieces, MiB; repeat (apply Forall_cons; [cbn [fst snd]; lia|]); apply Forall_nil.
Lemma x_space : area_at d_ex 4096 256 0 x_space_a.
Proof.
  unfold x_space_a. cbn [area_at]. split; [vm_compute; reflexivity|]. split; [eexists; eexists; reflexivity|]. intros [|[|i]] x E; cbn [nth_error] in E.
  - injection E as <-. cbv zeta. split; [reflexivity|]. split; [split; [apply lead_wf; reflexivity|exists (zeros 200); split; [reflexivity|hold]]|]. split; [repeat constructor; lia|hold].
  - injection E as <-. cbv zeta. split; [reflexivity|]. split; [split; [apply lead_wf; reflexivity|exists (zeros 200); split; [reflexivity|hold]]|]. split; [constructor|hold].
  - assert (L : (i < 254)%nat) by (rewrite <- (repeat_length (@None (leader * list N)) 254); apply nth_error_Some; congruence).
    apply nth_error_In, repeat_spec in E. subst x. cbv zeta. apply holds_zeros. away.
Qed.
Lemma x_lease : area_at d_ex 4096 256 MiB x_lease_a.
Proof.
  unfold x_lease_a. cbn [area_at]. split; [reflexivity|]. split; [split; [apply lead_wf; reflexivity|exists (zeros 200); split; [reflexivity|hold]]|].
  split; [split; [repeat split|exists (zeros 24); split; [reflexivity|hold]]|]. split; [reflexivity|]. split; [vm_compute; discriminate|].
  intros [|[|[|i]]] d m E; cbn [nth_error] in E; try discriminate; injection E as <- <-; cbv zeta;
    (split; [split; [vm_compute; repeat split|exists (zeros 56); split; [reflexivity|split; [hold|vm_compute; reflexivity]]]|
             split; [repeat split|exists (zeros 16); split; [reflexivity|hold]]]).
Qed.
Lemma x_index : area_at d_ex 4096 256 (2 * MiB) x_index_a.
Proof.
  unfold x_index_a. cbn [area_at]. split; [reflexivity|]. split; [split; [|exists (zeros 80); split; [reflexivity|hold]]|].
  { vm_compute. repeat split; repeat constructor. }
  split; [cbn [length]; rewrite repeat_length, Nat2N.inj_succ, x_index_val; reflexivity|]. intros [|k] e E; cbn [nth_error] in E.
  - injection E as <-. split; [|right; left; reflexivity]. split; [vm_compute; repeat split; repeat constructor|exists (zeros 64); split; [reflexivity|hold]].
  - assert (L : (k < x_index_n)%nat) by (rewrite <- (repeat_length zero_e x_index_n); apply nth_error_Some; congruence). pose proof x_index_val as Lx.
    apply nth_error_In, repeat_spec in E. subst e. split; [|left; reflexivity]. split; [vm_compute; repeat split; repeat constructor|].
    exists (zeros 64). split; [reflexivity|]. change (rindex_entry_out zero_e (zeros 64)) with (zeros 64). apply holds_zeros. away.
Qed.
Lemma x_layout : layout d_ex 4096 MiB 0 x_areas.
Proof.
  intros [|[|[|[|k]]]] a E; cbn [nth_error x_areas] in E; [| | | |destruct k; discriminate]; injection E as <-.
  - split; [split; [vm_compute; discriminate|reflexivity]|exact x_space].
  - split; [split; [vm_compute; discriminate|reflexivity]|exact x_lease].
  - split; [split; [vm_compute; discriminate|reflexivity]|exact x_index].
  - split; [split; [vm_compute; discriminate|reflexivity]|]. intros m I H. specialize (H 0%nat ltac:(rewrite le_enc_length; lia)). vm_compute in H. cbn [In] in I.
    destruct I as [<-|[<-|[<-|[]]]]; discriminate.
Qed.
Lemma x_bytes : bytes_dev d_ex. Proof. dev. Qed.
Lemma x_sizes : sizes_from d_ex 0 0 0 0 4096 MiB.
Proof.
  right. split; [left; reflexivity|]. exists 0. split; [lia|]. split; [|split; [lia|left; reflexivity]].
  split; [split; [vm_compute; discriminate|reflexivity]|]. exists (delta_l 1 3).
  split; [split; [apply lead_wf; reflexivity|exists (zeros 200); split; [reflexivity|hold]]|]. split; [left; reflexivity|]. split; [reflexivity|left; reflexivity].
Qed.
Example C79_nonvacuous :
  bytes_dev d_ex /\ layout d_ex 4096 MiB 0 x_areas /\ sizes_from d_ex 0 0 0 0 4096 MiB /\
  dump d_ex 0 0 2 0 0 = Some (mkR
    [DHost 0 [76] [82] 77 1 3 (Some [2; 250]);
     DLease MiB [76] [82] 77 1 1 3 (Some (4, 1)); DBlk 0 251 251 1 1 77 4 (d_checksum x_d0); DShared 1 9;
     DIndex (2 * MiB) [76] 1 4096 100 0; DEntry (2 * MiB + 4096) [76] [82] MiB] false 0) /\
  tame d_two 0 4096 MiB /\ next_free d_ex 4096 (Z.of_N MiB) 7 8 0 = NPrint (3 * MiB) /\ is_free d_ex (3 * MiB).
Proof.
  split; [exact x_bytes|]. split; [exact x_layout|]. split; [|split; [|split; [|split]]].
  - exact x_sizes.
  - rewrite (C79_shows d_ex 0 0%Z 2 0 4096 MiB 250 x_areas x_bytes ltac:(right; left; repeat split) x_sizes x_layout) by (left; unfold x_areas; cbn [In]; auto).
    vm_compute. reflexivity.
  - split; [|congruence]. intros o H.
    assert (D : o = 0 \/ o = MiB).
    { pose proof (H 0%nat ltac:(rewrite le_enc_length; lia)) as H0. pose proof (H 1%nat ltac:(rewrite le_enc_length; lia)) as H1.
      pose proof (H 2%nat ltac:(rewrite le_enc_length; lia)) as H2. pose proof (H 3%nat ltac:(rewrite le_enc_length; lia)) as H3.
      assert (P : forall b, b < MiB -> forall k, o = b * MiB + k -> True) by auto. clear P.
      assert (R : o < 200 \/ (MiB <= o < MiB + 200)).
      { assert (R : o < 200 \/ (MiB <= o < MiB + 200) \/ ((200 <= o < MiB) \/ MiB + 200 <= o)) by (unfold MiB; lia). destruct R as [R|[R|R]]; [left; exact R|right; exact R|].
        exfalso. cbn [N.of_nat] in H0. rewrite N.add_0_r in H0. unfold d_two, mkd in H0. cbn [dv_byte] in H0. rewrite dev_zero in H0; [vm_compute in H0; discriminate|].
        unfold one_lease, MiB in *. repeat (apply Forall_cons; [cbn [fst snd]; lia|]); apply Forall_nil. }
      assert (Z : forallb (fun i => negb (holdsb d_two i (le_enc 4 PAXOS_DISK_MAGIC))) (map (fun i => N.of_nat i + 1) (seq 0 199) ++ map (fun i => MiB + (N.of_nat i + 1)) (seq 0 199)) = true) by (vm_compute; reflexivity).
      rewrite forallb_forall in Z. destruct (N.eq_dec o 0) as [->|D0]; [left; reflexivity|]. destruct (N.eq_dec o MiB) as [->|D1]; [right; reflexivity|]. exfalso.
      assert (X : holdsb d_two o (le_enc 4 PAXOS_DISK_MAGIC) = true).
      { unfold holdsb. change (le_enc 4 PAXOS_DISK_MAGIC) with [nth 0 (le_enc 4 PAXOS_DISK_MAGIC) 0; nth 1 (le_enc 4 PAXOS_DISK_MAGIC) 0; nth 2 (le_enc 4 PAXOS_DISK_MAGIC) 0; nth 3 (le_enc 4 PAXOS_DISK_MAGIC) 0].
        cbn [length]. unfold fget. cbn [seq map]. rewrite H0, H1, H2, H3. vm_compute. reflexivity. }
      specialize (Z o). rewrite X in Z. discriminate Z. apply in_or_app. destruct R as [R|R]; [left|right]; apply in_map_iff.
      - exists (N.to_nat (o - 1)). split; [lia|apply in_seq; lia].
      - exists (N.to_nat (o - MiB - 1)). split; [lia|apply in_seq; lia]. }
    destruct D as [->| ->]; vm_compute; discriminate.
  - vm_compute. reflexivity.
  - destruct (x_layout 3%nat AFree eq_refl) as (_ & F). exact F.
Qed.

Print Assumptions C79_shows_size.
Print Assumptions C79_shows.
Print Assumptions C79_ends.
Print Assumptions C79_memory_conditional.
Print Assumptions C79_within_partial.
Print Assumptions C79_free_conditional.
Print Assumptions C79_arg.
Print Assumptions C79_memory_refuted.
Print Assumptions C79_free_refuted.
