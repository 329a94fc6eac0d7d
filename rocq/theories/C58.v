(* C58: the owners reported for a resource are those recorded in its lease area *)
From Coq Require Import List NArith ZArith Lia Bool ZifyBool ZifyN ZifyNat.
From Verif Require Import Bytes Crc Codec Leader Sizes OwnersRead.
Import ListNotations.
Open Scope N_scope.

(* ---- specification, in terms of the bytes of the area ---- *)
(* little endian number of n bytes *)
Fixpoint val (area : N -> N) (off : N) (n : nat) : N :=
  match n with O => 0 | S k => area off + 256 * val area (off + 1) k end.
Definition s_size area := val area 12 4.
Definition s_num_hosts area := val area 16 8.
Definition s_owner area := val area 32 8.
Definition s_owner_gen area := val area 40 8.
Definition s_lver area := val area 48 8.
Definition s_time area := val area 152 8.
(* the sector of host h *)
Definition s_host area (h : N) := (h + 1) * s_size area.
Definition s_shared area (h : N) : Prop :=
  1 <= h <= s_num_hosts area /\ N.odd (val area (s_host area h + 128) 4) = true.
Definition s_gen area (h : N) : N := val area (s_host area h + 136) 8.
Definition s_owned area (h : N) : Prop := s_time area <> 0 /\ h <> 0 /\ h = s_owner area.

Definition recorded (area : N -> N) (x : rhost) : Prop :=
  (s_owned area (rh_id x) /\ rh_gen x = s_owner_gen area /\ rh_ts x = s_time area)
  \/ (~ s_owned area (rh_id x) /\ s_shared area (rh_id x) /\ rh_gen x = s_gen area (rh_id x) /\ rh_ts x = 0).

Definition right_answer (area : N -> N) (r : ores) : Prop :=
  match r with
  | ORv rv => (rv < 0)%Z
  | OUB => False
  | OOk lver sh c l =>
      lver = s_lver area /\ c = N.of_nat (length l) /\ NoDup (map rh_id l)
      /\ (sh = true <-> exists h, s_shared area h)
      /\ forall x, In x l <-> recorded area x
  end.

(* sizes a client can ask for; 0 is "not given" *)
Definition client_sizes (ss as_ : Z) : Prop :=
  In ss [0; 512; 4096]%Z /\ In as_ [0; 1048576; 2097152; 4194304; 8388608]%Z.

Definition C58_statement : Prop :=
  forall area rd space res ss as_, (forall o, area o < 256) -> client_sizes ss as_ ->
  exists r, read_owners 2 area rd space res ss as_ = Some r /\ right_answer area r.

(* ---- what the client's sizes and the area lead to ---- *)
Definition s_align area : N :=
  let f := val area 8 4 in
  if N.testbit f 4 then 1048576 else if N.testbit f 5 then 2097152
  else if N.testbit f 6 then 4194304 else if N.testbit f 7 then 8388608
  else if s_size area =? 4096 then 8388608 else 1048576.
(* all host sectors are inside of the area *)
Definition fits area : Prop :=
  (s_size area = 512 \/ s_size area = 4096) /\ (2 + s_num_hosts area) * s_size area <= s_align area.

(* ---- proofs ---- *)
Lemma val_le area n : forall off, le_dec (bytes_at area off n) = val area off n.
Proof.
  unfold bytes_at. induction n; intros off; [reflexivity|]. cbn [seq map le_dec val].
  rewrite <- seq_shift, map_map. rewrite <- IHn. f_equal; [f_equal; lia|]. f_equal. f_equal.
  apply map_ext. intros a. f_equal. lia.
Qed.

Lemma get_bytes_at area off o n m : (o + n <= m)%nat -> get o n (bytes_at area off m) = bytes_at area (off + N.of_nat o) n.
Proof.
  intros H. unfold get, bytes_at. rewrite skipn_map, firstn_map.
  assert (E : forall k a b, skipn k (seq a b) = seq (a + k) (b - k)).
  { induction k; intros a b; [rewrite Nat.add_0_r, Nat.sub_0_r; reflexivity|]. destruct b; [reflexivity|]. cbn [seq skipn].
    rewrite IHk. f_equal; lia. }
  assert (F : forall k a b, (k <= b)%nat -> firstn k (seq a b) = seq a k).
  { induction k; intros a b L; [reflexivity|]. destruct b; [lia|]. cbn [seq firstn]. f_equal. apply IHk. lia. }
  rewrite E, F by lia. cbn [Nat.add].
  assert (G : seq o n = map (fun k => (o + k)%nat) (seq 0 n)).
  { clear. revert o. induction n; intros o; [reflexivity|]. cbn [seq map]. f_equal; [lia|].
    rewrite (IHn (S o)), <- (seq_shift n 0), map_map. apply map_ext. intros; lia. }
  rewrite G, map_map. apply map_ext. intros k. f_equal. lia.
Qed.

Definition the_leader area := leader_record_in (bytes_at area 0 LEADER_SIZE).

Lemma the_leader_fields area :
  l_sector_size (the_leader area) = s_size area /\ l_num_hosts (the_leader area) = s_num_hosts area
  /\ l_owner_id (the_leader area) = s_owner area /\ l_owner_generation (the_leader area) = s_owner_gen area
  /\ l_lver (the_leader area) = s_lver area /\ l_timestamp (the_leader area) = s_time area
  /\ l_flags (the_leader area) = val area 8 4.
Proof.
  unfold the_leader, leader_record_in, LEADER_SIZE.
  cbn [l_sector_size l_num_hosts l_owner_id l_owner_generation l_lver l_timestamp l_flags].
  rewrite !get_bytes_at by lia. rewrite !val_le. repeat split.
Qed.

Lemma has_owner_spec area h : is_owner (the_leader area) h = true <-> s_owned area h.
Proof.
  unfold is_owner, has_owner, s_owned. destruct (the_leader_fields area) as (_ & _ & -> & _ & _ & -> & _).
  rewrite !andb_true_iff, !negb_true_iff, !N.eqb_neq, N.eqb_eq. intuition congruence.
Qed.

Lemma shared_spec m : is_shared m = N.odd (m_flags m).
Proof.
  unfold is_shared, MBLOCK_SHARED. rewrite <- N.bit0_odd.
  replace (N.land (m_flags m) 1) with (N.b2n (N.testbit (m_flags m) 0)).
  - destruct (N.testbit (m_flags m) 0); reflexivity.
  - change 1 with (N.ones 1). rewrite N.land_ones, N.pow_1_r. apply N.bit0_mod.
Qed.

Lemma mb_at_spec area ss as_ i m : (0 < ss)%Z -> Z.to_N ss = s_size area -> mb_at area ss as_ i = Some m ->
  m_flags m = val area (s_host area (i + 1) + 128) 4 /\ m_generation m = s_gen area (i + 1).
Proof.
  intros P S.
  assert (O : Z.to_N ((2 + Z.of_N i) * ss) = s_host area (i + 1)).
  { unfold s_host. rewrite <- S. rewrite Z2N.inj_mul by lia. f_equal. lia. }
  unfold mb_at. revert O. generalize ((2 + Z.of_N i) * ss)%Z. intros off O.
  destruct (_ || _) eqn:E; [discriminate|]. intros H.
  assert (K : m = mode_block_in (bytes_at area (Z.to_N off + N.of_nat MBLOCK_OFFSET) MBLOCK_SIZE)) by congruence. subst m.
  rewrite O. unfold mode_block_in, MBLOCK_SIZE. cbn [m_flags m_generation]. rewrite !get_bytes_at by lia. rewrite !val_le.
  unfold MBLOCK_OFFSET, s_gen. split; f_equal; lia.
Qed.

Lemma val_bound area : (forall o, area o < 256) -> forall n off, val area off n < 256 ^ N.of_nat n.
Proof.
  intros B. induction n; intros off; [reflexivity|]. cbn [val]. rewrite Nat2N.inj_succ, N.pow_succ_r'.
  specialize (B off). specialize (IHn (off + 1)). nia.
Qed.

Lemma to_int_pos x : x < 2 ^ 32 -> (0 < to_int x)%Z -> Z.to_N (to_int x) = x.
Proof. unfold to_int. destruct (N.ltb_spec x (2 ^ 31)); intros; lia. Qed.

Lemma report_right area as_ : (forall o, area o < 256) -> to_int (s_size area) <> 0%Z ->
  report_owners area (to_int (s_size area)) as_ (the_leader area) <> OUB ->
  right_answer area (report_owners area (to_int (s_size area)) as_ (the_leader area)).
Proof.
  set (ss := to_int (s_size area)). intros BB NZ NU. set (lr := the_leader area) in *.
  destruct (the_leader_fields area) as (F1 & F2 & F3 & F4 & F5 & F6 & _). fold lr in F1, F2, F3, F4, F5, F6.
  assert (NB : forall j, (j < l_num_hosts lr)%N -> mb_at area ss as_ j <> None).
  { intros j J E. apply NU. apply report_ub; auto. exists j. auto. }
  assert (SZ : l_num_hosts lr <> 0 -> (0 < ss)%Z /\ Z.to_N ss = s_size area).
  { intros N. destruct (Z.lt_trichotomy ss 0) as [L|[L|L]]; [|contradiction|].
    - exfalso. apply (NB 0); [lia|]. apply mb_at_neg. exact L.
    - split; auto. apply to_int_pos; [apply (val_bound area BB 4)|exact L]. }
  unfold report_owners in *.
  pose proof (count_fill area ss as_ lr (scan_fuel ss as_) 0%N false (if has_owner lr then 1%N else 0%N)) as CF.
  destruct (count_loop (scan_fuel ss as_) area ss as_ lr 0 false _) as [[sh c]|]; [|congruence].
  destruct CF as (l & F & -> & SH). rewrite F in *. destruct (fill_spec _ _ _ _ _ _ _ F) as (A & B & D & G).
  assert (SHS : sh = true <-> exists h, s_shared area h).
  { rewrite SH. split.
    - intros [H|(j & m & J & K & S)]; [discriminate|]. destruct SZ as [P S1]; [lia|].
      destruct (mb_at_spec _ _ _ _ _ P S1 K) as [M1 M2]. exists (j + 1). split; [lia|]. rewrite <- M1, <- shared_spec. exact S.
    - intros (h & [H1 H2] & S). right. destruct SZ as [P S1]; [lia|]. exists (h - 1).
      destruct (mb_at area ss as_ (h - 1)) as [m|] eqn:K; [|exfalso; apply (NB (h - 1)); [lia|exact K]].
      exists m. destruct (mb_at_spec _ _ _ _ _ P S1 K) as [M1 M2]. repeat split; try lia.
      rewrite shared_spec, M1. replace (h - 1 + 1) with h by lia. exact S. }
  assert (INL : forall x, In x l <-> (~ s_owned area (rh_id x) /\ s_shared area (rh_id x) /\ rh_gen x = s_gen area (rh_id x) /\ rh_ts x = 0)).
  { intros x. rewrite B. split.
    - intros (j & m & J & K & S & O & ->). destruct SZ as [P S1]; [lia|]. cbn [rh_id rh_gen rh_ts].
      destruct (mb_at_spec _ _ _ _ _ P S1 K) as [M1 M2]. split; [|split; [|split]]; auto.
      + intros X. apply has_owner_spec in X. fold lr in X. congruence.
      + split; [lia|]. rewrite <- M1, <- shared_spec. exact S.
    - destruct x as [h g t]. cbn [rh_id rh_gen rh_ts]. intros (NO & ([H1 H2] & S) & -> & ->).
      destruct SZ as [P S1]; [lia|]. exists (h - 1).
      destruct (mb_at area ss as_ (h - 1)) as [m|] eqn:K; [|exfalso; apply (NB (h - 1)); [lia|exact K]].
      exists m. destruct (mb_at_spec _ _ _ _ _ P S1 K) as [M1 M2]. replace (h - 1 + 1) with h in * by lia.
      split; [lia|]. split; auto. split; [rewrite shared_spec, M1; exact S|]. split; [|congruence].
      destruct (is_owner lr h) eqn:O; auto. exfalso. apply NO. apply has_owner_spec. exact O. }
  assert (OWN : has_owner lr = true <-> s_owned area (l_owner_id lr)).
  { rewrite <- has_owner_spec. fold lr. unfold is_owner. rewrite N.eqb_refl, andb_true_r. reflexivity. }
  destruct (has_owner lr) eqn:HO.
  - destruct (N.eqb_spec (1 + N.of_nat (length l)) 0); [lia|].
    cbn [app length] in *. rewrite Nat2N.inj_succ in *.
    destruct (N.ltb_spec (1 + N.of_nat (length l)) (N.succ (N.of_nat (length l)))); [lia|].
    cbn [right_answer length map rh_id]. split; [exact F5|]. split; [lia|]. split; [|split; [exact SHS|]].
    + constructor; auto. intros H0. apply in_map_iff in H0. destruct H0 as (x & X1 & X2). apply INL in X2.
      destruct X2 as (X2 & _). apply X2. rewrite X1. apply OWN. reflexivity.
    + intros x. cbn [In]. rewrite INL. unfold recorded. split; (intros [H0|H0]; [left|right; exact H0]).
      * subst x. cbn [rh_id rh_gen rh_ts]. split; [apply OWN; reflexivity|]. split; auto.
      * destruct x as [h g t]. cbn [rh_id rh_gen rh_ts] in *. destruct H0 as ((O1 & O2 & O3) & -> & ->). congruence.
  - assert (NOB : forall h, ~ s_owned area h).
    { intros h O. pose proof O as (_ & _ & O3). rewrite O3, <- F3 in O. apply OWN in O. discriminate. }
    assert (REC : forall x, In x l <-> recorded area x).
    { intros x. rewrite INL. unfold recorded. split; [auto|]. intros [(O & _)|H0]; [destruct (NOB _ O)|exact H0]. }
    cbn [app] in *. rewrite N.add_0_l in *.
    destruct (N.eqb_spec (N.of_nat (length l)) 0) as [Z|NZL].
    + destruct l; [|cbn in Z; lia]. cbn [right_answer length map]. split; [exact F5|]. split; [reflexivity|]. split; [constructor|]. split; [exact SHS|exact REC].
    + rewrite N.ltb_irrefl in *. cbn [right_answer]. split; [exact F5|]. split; [reflexivity|]. split; [exact D|]. split; [exact SHS|exact REC].
Qed.

Lemma pass_done area rd space res sset aset ss as_ r : (forall o, area o < 256) ->
  pass area rd space res sset aset ss as_ = PDone r -> r <> OUB -> right_answer area r.
Proof.
  intros BB. unfold pass. fold (the_leader area). destruct (the_leader_fields area) as (F1 & _). rewrite F1.
  destruct (Z.eqb_spec ss 0) as [|NZ]; cbn [orb]; [intros H _; injection H as <-; cbn; lia|].
  destruct (Z.eqb_spec as_ 0); [intros H _; injection H as <-; cbn; lia|].
  destruct (Z.ltb_spec as_ 0); [intros H0 _; injection H0 as <-; cbn; lia|].
  destruct (Z.ltb_spec (rd as_) 0); [intros H1 _; injection H1 as <-; cbn; lia|].
  destruct (Z.ltb_spec as_ (Z.of_nat LEADER_SIZE)); [intros H2 N; injection H2 as <-; congruence|].
  destruct (sset && _); [intros H2 _; injection H2 as <-; cbn; lia|].
  destruct (aset && _); [intros H2 _; injection H2 as <-; cbn; lia|].
  destruct (Z.eqb_spec ss (to_int (s_size area))) as [E|]; cbn [negb orb]; [|discriminate].
  destruct (negb (as_ =? _)%Z); [discriminate|].
  destruct (Z.ltb_spec (verify_leader space res 0 (the_leader area) (leader_checksum (bytes_at area 0 LEADER_SIZE))) 0);
    [intros H3 _; inversion H3; subst r; cbn [right_answer]; assumption|].
  intros H3 N. injection H3 as <-. rewrite E in *. apply report_right; auto.
Qed.

(* with sizes that are multiples of nothing smaller than the record, a second pass is the last *)
Lemma retry_last area rd space res sset aset ss as_ s a s' a' :
  pass area rd space res sset aset ss as_ = PRetry s a -> pass area rd space res sset aset s a <> PRetry s' a'.
Proof.
  unfold pass. fold (the_leader area).
  destruct ((ss =? 0)%Z || (as_ =? 0)%Z); [discriminate|].
  destruct (as_ <? 0)%Z; [discriminate|]. destruct (rd as_ <? 0)%Z; [discriminate|]. destruct (as_ <? _)%Z; [discriminate|].
  destruct (sset && _); [discriminate|]. destruct (aset && _); [discriminate|].
  destruct (negb (ss =? _)%Z || _).
  - intros H. injection H as <- <-.
    destruct (_ || _); [discriminate|]. destruct (_ <? 0)%Z; [discriminate|]. destruct (rd _ <? 0)%Z; [discriminate|].
    destruct (_ <? Z.of_nat _)%Z; [discriminate|]. rewrite !Z.eqb_refl. cbn [negb]. rewrite !andb_false_r. cbn [orb].
    destruct (_ <? 0)%Z; discriminate.
  - destruct (_ <? 0)%Z; discriminate.
Qed.

(* every answer is the right one, and there are at most two reads *)
Theorem C58_answer_partial : forall area rd space res ss as_, (forall o, area o < 256) ->
  exists r, read_owners 2 area rd space res ss as_ = Some r /\ (r <> OUB -> right_answer area r).
Proof.
  intros. unfold read_owners. cbn [passes].
  destruct (pass area rd space res _ _ _ _) as [r|s a] eqn:E; [exists r; split; auto; apply (pass_done _ _ _ _ _ _ _ _ _ H E)|].
  destruct (pass area rd space res _ _ s a) as [r|s' a'] eqn:E'; [exists r; split; auto; apply (pass_done _ _ _ _ _ _ _ _ _ H E')|].
  exfalso. apply (retry_last _ _ _ _ _ _ _ _ _ _ _ _ E E').
Qed.

Lemma has_bit f k : has f (2 ^ k) = N.testbit f k.
Proof.
  unfold has. destruct (N.testbit f k) eqn:E.
  - destruct (N.eqb_spec (N.land f (2 ^ k)) 0) as [Z|]; [|reflexivity]. exfalso.
    assert (N.testbit (N.land f (2 ^ k)) k = false) as X by (rewrite Z; apply N.bits_0).
    rewrite N.land_spec, E, N.pow2_bits_true in X. discriminate.
  - replace (N.land f (2 ^ k)) with 0; [reflexivity|]. symmetry. apply N.bits_inj. intros j. rewrite N.land_spec, N.bits_0.
    destruct (N.eq_dec j k) as [->|NE]; [rewrite E; reflexivity|]. rewrite N.pow2_bits_false by auto. apply andb_false_r.
Qed.

Lemma align_spec area : s_size area = 512 \/ s_size area = 4096 ->
  (if (align_size_from_flag (val area 8 4) =? 0)%Z then sector_size_to_align_size_old (to_int (s_size area)) else align_size_from_flag (val area 8 4))
  = Z.of_N (s_align area).
Proof.
  intros S. unfold align_size_from_flag, s_align.
  change F_ALIGN1M with (2 ^ 4). change F_ALIGN2M with (2 ^ 5). change F_ALIGN4M with (2 ^ 6). change F_ALIGN8M with (2 ^ 7).
  rewrite !has_bit. destruct (N.testbit _ 4); [reflexivity|]. destruct (N.testbit _ 5); [reflexivity|].
  destruct (N.testbit _ 6); [reflexivity|]. destruct (N.testbit _ 7); [reflexivity|]. destruct S as [->| ->]; reflexivity.
Qed.

Lemma pass_no_ub area rd space res sset aset ss as_ :
  (200 <= as_)%Z \/ (as_ <= 0)%Z -> fits area -> pass area rd space res sset aset ss as_ <> PDone OUB.
Proof.
  intros A [S F]. unfold pass. fold (the_leader area). destruct (the_leader_fields area) as (F1 & F2 & _ & _ & _ & _ & F7).
  rewrite F1, F7. rewrite (align_spec area S).
  destruct (Z.eqb_spec ss 0) as [|NZ]; cbn [orb]; [discriminate|].
  destruct (Z.eqb_spec as_ 0); [discriminate|].
  destruct (Z.ltb_spec as_ 0); [discriminate|].
  destruct (Z.ltb_spec (rd as_) 0); [discriminate|].
  destruct (Z.ltb_spec as_ (Z.of_nat LEADER_SIZE)); [unfold LEADER_SIZE in *; lia|].
  destruct (sset && _); [discriminate|]. destruct (aset && _); [discriminate|].
  destruct (Z.eqb_spec ss (to_int (s_size area))) as [E|]; cbn [negb orb]; [|discriminate].
  destruct (Z.eqb_spec as_ (Z.of_N (s_align area))) as [EA|]; cbn [negb]; [|discriminate].
  destruct (_ <? 0)%Z; [discriminate|]. intros H2. injection H2 as H2.
  apply report_ub in H2; auto. destruct H2 as (j & J & K). rewrite F2 in J.
  assert (SS : ss = Z.of_N (s_size area)) by (rewrite E; destruct S as [->| ->]; reflexivity).
  unfold mb_at in K. destruct (_ || _) eqn:O; [|discriminate]. apply orb_true_iff in O.
  rewrite SS, EA in O. unfold MBLOCK_OFFSET, MBLOCK_SIZE in O.
  assert ((2 + j) * s_size area + s_size area <= s_align area) by nia.
  destruct O as [O|O]; apply Z.ltb_lt in O; [|destruct S as [S|S]; rewrite S in *]; lia.
Qed.

(* nothing outside of the buffer is touched if the host sectors are inside of the area *)
Theorem C58_fits_partial : forall area rd space res ss as_,
  (forall o, area o < 256) -> client_sizes ss as_ -> fits area ->
  exists r, read_owners 2 area rd space res ss as_ = Some r /\ right_answer area r.
Proof.
  intros area rd space res ss as_ BB [CS CA] F. destruct (C58_answer_partial area rd space res ss as_ BB) as (r & R & A).
  exists r. split; auto. apply A. intros ->.
  assert (ASZ : forall s, sector_size_to_align_size_old s = (-1)%Z \/ (200 <= sector_size_to_align_size_old s)%Z).
  { intros s. unfold sector_size_to_align_size_old, ALIGN_SIZE_8M, ALIGN_SIZE_1M. destruct (s =? 512)%Z; [lia|]. destruct (s =? 4096)%Z; lia. }
  unfold read_owners in R. cbn [passes] in R.
  destruct (pass area rd space res _ _ _ _) as [r|s a] eqn:E.
  - injection R as ->. revert E. apply pass_no_ub; auto.
    destruct (Z.eqb_spec as_ 0) as [E0|NE].
    + destruct (ASZ (if (ss =? 0)%Z then 512%Z else ss)) as [->|]; lia.
    + cbn [In] in CA. lia.
  - destruct (pass area rd space res _ _ s a) as [r|s' a'] eqn:E'; [|discriminate]. injection R as ->.
    revert E'. apply pass_no_ub; auto.
    assert (a = Z.of_N (s_align area)) as ->.
    { unfold pass in E. fold (the_leader area) in E. destruct (the_leader_fields area) as (F1 & F2 & _ & _ & _ & _ & F7).
      rewrite F1, F7, (align_spec area (proj1 F)) in E.
      destruct (_ || _); [discriminate|]. destruct (_ <? 0)%Z; [discriminate|]. destruct (rd _ <? 0)%Z; [discriminate|].
      destruct (_ <? Z.of_nat _)%Z; [discriminate|]. destruct (_ && _); [discriminate|]. destruct (_ && _); [discriminate|].
      destruct (_ || _); [congruence|]. destruct (_ <? 0)%Z; discriminate. }
    left. unfold s_align. repeat match goal with |- context[if ?b then _ else _] => destruct b end; lia.
Qed.

(* ---- witnesses ---- *)
(* an initialised resource, host 1 and 3 hold it shared, host 3 with generation 7 *)
Definition nm (c : N) : bytes := c :: zeros 47.
Definition lrec (num_hosts : N) : leader :=
  mkLeader PAXOS_DISK_MAGIC 0x00060004 0x10 512 num_hosts 2000 1 5 9 (nm 76) (nm 82) 1000 0 0 0 10 0 0 0.
Definition warea (num_hosts : N) : N -> N :=
  let l := leader_bytes (lrec num_hosts) (zeros 200) in
  fun o => if o <? 200 then nth (N.to_nat o) l 0
           else if o =? 1024 + 128 then 1 else if o =? 2048 + 128 then 1 else if o =? 2048 + 136 then 7 else 0.
Definition rd_ok (n : Z) : Z := 0%Z.

Example C58_nonvacuous :
  fits (warea 2000) /\ client_sizes 0 0
  /\ read_owners 2 (warea 2000) rd_ok (nm 76) (nm 82) 0 0 = Some (OOk 9 true 2 [mkRH 1 5 1000; mkRH 3 7 0]).
Proof.
  split; [|split].
  - split; [left; vm_compute; reflexivity|]. vm_compute. discriminate.
  - split; cbn; auto.
  - vm_compute. reflexivity.
Qed.

(* the number of hosts that a client set to -1 when it wrote the resource (C48_num_hosts_refuted): the mode blocks
   are read past the buffer *)
Theorem C58_refuted : ~ C58_statement.
Proof.
  intros H.
  assert (B : forallb (fun b => b <? 256) (leader_bytes (lrec (2 ^ 64 - 1)) (zeros 200)) = true) by (vm_compute; reflexivity).
  destruct (H (warea (2 ^ 64 - 1)) rd_ok (nm 76) (nm 82) 0%Z 0%Z) as (r & R & A).
  - intros o. unfold warea. rewrite forallb_forall in B. destruct (o <? 200).
    + destruct (nth_in_or_default (N.to_nat o) (leader_bytes (lrec (2 ^ 64 - 1)) (zeros 200)) 0) as [I|D].
      * specialize (B _ I). apply N.ltb_lt in B. exact B.
      * rewrite D. lia.
    + destruct (o =? _); [lia|]. destruct (o =? _); [lia|]. destruct (o =? _); lia.
  - split; cbn; auto.
  - assert (X : read_owners 2 (warea (2 ^ 64 - 1)) rd_ok (nm 76) (nm 82) 0 0 = Some OUB) by (vm_compute; reflexivity).
    rewrite X in R. injection R as <-. exact A.
Qed.

Print Assumptions C58_refuted.
Print Assumptions C58_answer_partial.
Print Assumptions C58_fits_partial.
