(* C94: What a lockspace or resource is read as from its disk is what is recorded
   there: sanlock_read_lockspace and sanlock_read_resource (src/sanlock_admin.h:240-302).
   Model: ReadInfo.v. *)
From Coq Require Import List NArith ZArith Lia Bool Arith.
From Verif Require Import Bytes Crc Codec Leader Sizes DiskLoop Majority ReadInfo.
Import ListNotations.
Open Scope N_scope.

(* ---------------- specification ---------------- *)
(* the supported formats: sector size, area size, their flags, number of hosts *)
Inductive format : N -> Z -> N -> N -> N -> Prop :=
| F512  : format 512 1048576 0x100 0x10 2000
| F4k1  : format 4096 1048576 0x200 0x10 250
| F4k2  : format 4096 2097152 0x200 0x20 500
| F4k4  : format 4096 4194304 0x200 0x40 1000
| F4k8  : format 4096 8388608 0x200 0x80 2000.
(* a format a record may leave unsaid *)
Definition old_format (ss al : N) : Prop := (ss = 512 /\ al = 1048576) \/ (ss = 4096 /\ al = 8388608).

(* the 200 bytes at p are a record with a checksum that is right *)
Definition record_at (dv : device) (p : N) (lr : leader) : Prop :=
  (dv_error dv p >= 0)%Z /\ leader_wf lr /\ exists e, length e = LEADER_SIZE /\ fetch (dv_bytes dv) p LEADER_SIZE = leader_bytes lr e.
Definition same_str (a b : bytes) : Prop := cstr 48 a = cstr 48 b.
Definition sized (lr : leader) (ss : N) (al : Z) (af : N) : Prop :=
  l_sector_size lr = ss /\ (N.land (l_flags lr) 0xF0 = af \/ N.land (l_flags lr) 0xF0 = 0 /\ old_format ss (Z.to_N al)).
(* a lockspace: each of its hosts has a record with the name, in its sector *)
Definition lockspace_at (dv : device) (off : N) (name : bytes) (ss : N) (al : Z) (af mh : N) (rec : N -> leader) : Prop :=
  off + Z.to_N al <= 2 ^ 64 /\
  forall h, 1 <= h <= mh -> record_at dv (off + (h - 1) * ss) (rec h) /\ l_magic (rec h) = 0x12212010 /\ l_version (rec h) / 2 ^ 16 = 3 /\
    same_str (l_space_name (rec h)) name /\ sized (rec h) ss al af.
(* a lease on one disk *)
Definition lease_at (dv : device) (off : N) (lr : leader) : Prop :=
  off < 2 ^ 64 /\ record_at dv off lr /\ l_magic lr = 0x06152010 /\ l_version lr / 2 ^ 16 = 6.
(* the flags given back: those of the format, the others as given *)
Definition flags_shown (given : N) (sf af : N) : N := N.lor (N.ldiff given 0x3F0) (N.lor sf af).
Definition unnamed (n : bytes) : Prop := hd 0 n = 0.
(* the host id meant: 0 stands for 1 *)
Definition host_meant (h : N) : N := if h =? 0 then 1 else h.

(* the full claim for lockspaces *)
Definition C94_lockspace_statement : Prop :=
  forall dv ls ls' io, (dv_error dv (ls_off ls) >= 0)%Z ->
  read_lockspace false true dv ls = (0%Z, ls', io) ->
  forall name ss al sf af mh rec, format ss al sf af mh -> lockspace_at dv (ls_off ls) name ss al af mh rec ->
  host_meant (ls_host ls) <= mh /\ same_str (ls_name ls') name /\ io = l_io_timeout (rec (host_meant (ls_host ls))).
(* the full claim for resources: as recorded on a majority of the disks *)
Definition C94_resource_statement : Prop :=
  forall ds rs lr, (1 <= length ds <= 4)%nat -> unnamed (rs_space rs) -> unnamed (rs_name rs) ->
  Forall (fun d => (dv_error (rd_dev d) (rd_off d) <= 0)%Z /\ (rd_open d <= 0)%Z) ds ->
  (forall good, good = filter (fun d => is_open d) ds -> (length ds < 2 * length good)%nat ->
   (exists maj, incl maj good /\ NoDup maj /\ (length ds < 2 * length maj)%nat /\ Forall (fun d => lease_at (rd_dev d) (rd_off d) lr) maj) ->
   exists rs', read_resource ds rs = (0%Z, rs') /\ rs_lver rs' = l_lver lr).

(* ---------------- proofs ---------------- *)
Lemma set_checksum_same lr c : l_magic (leader_set_checksum lr c) = l_magic lr /\ l_version (leader_set_checksum lr c) = l_version lr /\
  l_flags (leader_set_checksum lr c) = l_flags lr /\ l_sector_size (leader_set_checksum lr c) = l_sector_size lr /\
  l_space_name (leader_set_checksum lr c) = l_space_name lr /\ l_resource_name (leader_set_checksum lr c) = l_resource_name lr /\
  l_lver (leader_set_checksum lr c) = l_lver lr /\ l_io_timeout (leader_set_checksum lr c) = l_io_timeout lr /\
  l_num_hosts (leader_set_checksum lr c) = l_num_hosts lr /\ l_checksum (leader_set_checksum lr c) = c.
Proof. repeat split; reflexivity. Qed.

Lemma land_sub f m k : N.land m k = k -> N.land f k = N.land (N.land f m) k.
Proof. intros H. rewrite <- N.land_assoc, H. reflexivity. Qed.

Lemma align_of_sized lr ss al sf af mh : format ss al sf af mh -> sized lr ss al af ->
  record_align lr = al /\ size_flags lr = N.lor sf af.
Proof.
  intros F (S & A).
  assert (R : record_align lr = al).
  { unfold record_align, align_size_from_flag, has. change F_ALIGN1M with 16. change F_ALIGN2M with 32. change F_ALIGN4M with 64. change F_ALIGN8M with 128.
    rewrite (land_sub (l_flags lr) 0xF0 16 eq_refl), (land_sub (l_flags lr) 0xF0 32 eq_refl), (land_sub (l_flags lr) 0xF0 64 eq_refl), (land_sub (l_flags lr) 0xF0 128 eq_refl), S. clear S.
    destruct A as [-> | (-> & O)]; inversion F; subst; try reflexivity; destruct O as [(O1 & O2) | (O1 & O2)]; vm_compute in O1, O2; try discriminate; reflexivity. }
  split; [exact R|]. unfold size_flags. rewrite R, S. inversion F; subst; reflexivity.
Qed.

Lemma clear_spec f : clear_flags f = N.ldiff f 0x3F0. Proof. reflexivity. Qed.

Lemma read_record dv p off ss nr lr : (ss = 512 \/ ss = 4096)%Z -> p = off + nr * Z.to_N ss -> p < 2 ^ 64 -> record_at dv p lr ->
  exists e, read_sector dv off ss nr = RData (leader_bytes lr e) /\ length e = LEADER_SIZE.
Proof.
  intros S -> L (E & W & e & Le & Fe). exists e. split; [|exact Le]. unfold read_sector.
  assert (Z.eqb ss 512 || Z.eqb ss 4096 = true) as -> by (destruct S as [-> | ->]; reflexivity). cbn [negb]. cbv zeta.
  rewrite N.mod_small by exact L.
  assert ((dv_error dv (off + nr * Z.to_N ss) <? 0)%Z = false) as -> by lia. rewrite Fe. reflexivity.
Qed.

Lemma delta_verify_right lr e name : leader_wf lr -> length e = LEADER_SIZE -> l_magic lr = 0x12212010 -> l_version lr / 2 ^ 16 = 3 ->
  same_str (l_space_name lr) name ->
  delta_verify_leader name (leader_record_in (leader_bytes lr e)) (leader_checksum (leader_bytes lr e)) = SANLK_OK.
Proof.
  intros W L M V S. rewrite leader_roundtrip_bytes by auto. apply delta_verify_leader_ok_iff.
  - destruct W as (_ & W2 & _). exact W2.
  - cbn [leader_set_checksum l_magic l_version l_space_name l_checksum]. auto.
Qed.

Lemma meant_pos h : 1 <= host_meant h.
Proof. unfold host_meant. destruct (h =? 0) eqn:E; [reflexivity|]. apply N.eqb_neq in E. lia. Qed.

(* what read_lockspace does once the sector size is known *)
Definition after_sizes (dv : device) (ss : Z) (ls : lsinfo) : Z * lsinfo * N :=
  let '(r, ls', io) := delta_read_lockspace dv ss (host_meant (ls_host ls)) ls in (if Z.eqb r SANLK_OK then 0%Z else r, ls', io).
Lemma read_lockspace_hint dv ls : sector_flag_to_size (ls_flags ls) <> 0%Z ->
  read_lockspace false true dv ls = after_sizes dv (sector_flag_to_size (ls_flags ls)) ls.
Proof. intros H. unfold read_lockspace. cbn [negb]. apply Z.eqb_neq in H. rewrite H. cbv zeta. reflexivity. Qed.
Lemma read_lockspace_found dv ls ss : sector_flag_to_size (ls_flags ls) = 0%Z -> read_lockspace_sizes dv (ls_off ls) = (SANLK_OK, ss) -> (ss = 512 \/ ss = 4096)%Z ->
  read_lockspace false true dv ls = after_sizes dv ss ls.
Proof.
  intros H R S. unfold read_lockspace. cbn [negb]. rewrite H, R. cbv zeta. cbn [Z.eqb].
  change (SANLK_OK <? 0)%Z with false. cbv iota.
  assert (Z.eqb ss 512 || Z.eqb ss 4096 = true) as -> by (destruct S as [-> | ->]; reflexivity). reflexivity.
Qed.

Lemma after_sizes_right dv ls ss lr name : (ss = 512 \/ ss = 4096)%Z -> 1 <= host_meant (ls_host ls) ->
  ls_off ls + (host_meant (ls_host ls) - 1) * Z.to_N ss < 2 ^ 64 ->
  record_at dv (ls_off ls + (host_meant (ls_host ls) - 1) * Z.to_N ss) lr -> l_magic lr = 0x12212010 -> l_version lr / 2 ^ 16 = 3 ->
  same_str (l_space_name lr) name -> (unnamed (ls_name ls) \/ same_str (ls_name ls) name) ->
  after_sizes dv ss ls = (0%Z, mkLs (l_space_name lr) (host_meant (ls_host ls)) (N.lor (N.ldiff (ls_flags ls) 0x3F0) (size_flags lr)) (ls_off ls), l_io_timeout lr).
Proof.
  intros S H1 B R M V N1 N2. unfold after_sizes, delta_read_lockspace.
  assert (H2 : (host_meant (ls_host ls) - 1) mod 2 ^ 64 = host_meant (ls_host ls) - 1) by (apply N.mod_small; destruct S as [-> | ->]; lia).
  rewrite H2. destruct (read_record dv _ (ls_off ls) ss (host_meant (ls_host ls) - 1) lr S eq_refl B R) as (e & -> & Le).
  destruct R as (_ & W & _). cbv zeta.
  set (nm := if hd 0 (ls_name ls) =? 0 then _ else _).
  assert (same_str (l_space_name lr) nm) as Nm.
  { unfold nm. destruct (hd 0 (ls_name ls) =? 0) eqn:Z0.
    - rewrite leader_roundtrip_bytes by auto. reflexivity.
    - destruct N2 as [U | U]; [unfold unnamed in U; apply N.eqb_neq in Z0; contradiction|]. unfold same_str in *. congruence. }
  rewrite (delta_verify_right lr e nm W Le M V Nm). change (SANLK_OK =? SANLK_OK)%Z with true. cbv iota.
  rewrite leader_roundtrip_bytes by auto. reflexivity.
Qed.

Lemma sizes_right dv off name ss al sf af mh rec : format ss al sf af mh -> lockspace_at dv off name ss al af mh rec ->
  read_lockspace_sizes dv off = (SANLK_OK, Z.of_N ss).
Proof.
  intros F (B & H). assert (M : 1 <= 1 <= mh) by (inversion F; lia). destruct (H 1 M) as (R & Mg & V & _ & (S & _)).
  replace (off + (1 - 1) * ss) with off in R by lia.
  assert (P : 0 < Z.to_N al) by (inversion F; reflexivity).
  unfold read_lockspace_sizes. destruct (read_record dv off off 4096 0 (rec 1) (or_intror eq_refl) ltac:(lia) ltac:(lia) R) as (e & -> & Le).
  destruct R as (_ & W & _). rewrite leader_roundtrip_bytes by auto. cbv zeta. cbn [leader_set_checksum l_magic l_version l_sector_size].
  rewrite Mg, S. change (305209360 =? DELTA_DISK_MAGIC) with true. cbn [negb].
  destruct W as (_ & W2 & _). rewrite land_high_div by exact W2. rewrite V. reflexivity.
Qed.

(* A lockspace is read as what it is: with no size flags, or with the right one, every
   host id gives the name, the flags of the format and the io timeout of that host id.
   Missing from the full claim: the host id is not compared with the number of hosts,
   and a wrong sector flag is believed (refuted below). *)
Theorem C94_lockspace_partial : forall dv ls name ss al sf af mh rec,
  format ss al sf af mh -> lockspace_at dv (ls_off ls) name ss al af mh rec ->
  N.land (ls_flags ls) 0x300 = 0 \/ N.land (ls_flags ls) 0x300 = sf ->
  host_meant (ls_host ls) <= mh -> unnamed (ls_name ls) \/ same_str (ls_name ls) name ->
  exists ls', read_lockspace false true dv ls = (0%Z, ls', l_io_timeout (rec (host_meant (ls_host ls)))) /\
    same_str (ls_name ls') name /\ ls_host ls' = host_meant (ls_host ls) /\ ls_flags ls' = flags_shown (ls_flags ls) sf af /\ ls_off ls' = ls_off ls.
Proof.
  intros dv ls name ss al sf af mh rec F L Fl Hm Nm. assert (L' := L). destruct L as (B & Hh).
  assert (H1 : 1 <= host_meant (ls_host ls)) by apply meant_pos.
  destruct (Hh _ (conj H1 Hm)) as (R & Mg & V & Sn & Sz).
  destruct (align_of_sized _ _ _ _ _ _ F Sz) as (_ & SF).
  assert (SS : (Z.of_N ss = 512 \/ Z.of_N ss = 4096)%Z) by (inversion F; auto).
  assert (BB : ls_off ls + (host_meant (ls_host ls) - 1) * ss < 2 ^ 64).
  { change (2 ^ 64) with 18446744073709551616 in *. clear - F B Hm H1. inversion F; subst; lia. }
  assert (A : after_sizes dv (Z.of_N ss) ls = (0%Z, mkLs (l_space_name (rec (host_meant (ls_host ls)))) (host_meant (ls_host ls)) (N.lor (N.ldiff (ls_flags ls) 0x3F0) (size_flags (rec (host_meant (ls_host ls))))) (ls_off ls), l_io_timeout (rec (host_meant (ls_host ls))))).
  { apply after_sizes_right with (name := name); rewrite ?N2Z.id; auto. }
  eexists. split.
  - destruct Fl as [Fl | Fl].
    + rewrite (read_lockspace_found dv ls (Z.of_N ss)); [exact A| |eapply sizes_right; eauto|exact SS].
      unfold sector_flag_to_size, has. change F_SECTOR512 with 256. change F_SECTOR4K with 512.
      rewrite (land_sub (ls_flags ls) 0x300 256 eq_refl), (land_sub (ls_flags ls) 0x300 512 eq_refl), Fl. reflexivity.
    + assert (E : sector_flag_to_size (ls_flags ls) = Z.of_N ss).
      { unfold sector_flag_to_size, has. change F_SECTOR512 with 256. change F_SECTOR4K with 512.
        rewrite (land_sub (ls_flags ls) 0x300 256 eq_refl), (land_sub (ls_flags ls) 0x300 512 eq_refl), Fl. inversion F; subst; reflexivity. }
      rewrite read_lockspace_hint; rewrite E; [exact A|]. destruct SS as [-> | ->]; discriminate.
  - cbn [ls_name ls_host ls_flags ls_off]. rewrite SF. auto.
Qed.
Print Assumptions C94_lockspace_partial.

(* the first host id is read rightly with any flags *)
Theorem C94_first_host : forall dv ls name ss al sf af mh rec,
  format ss al sf af mh -> lockspace_at dv (ls_off ls) name ss al af mh rec -> host_meant (ls_host ls) = 1 ->
  unnamed (ls_name ls) \/ same_str (ls_name ls) name ->
  exists ls', read_lockspace false true dv ls = (0%Z, ls', l_io_timeout (rec 1)) /\
    same_str (ls_name ls') name /\ ls_host ls' = 1 /\ ls_flags ls' = flags_shown (ls_flags ls) sf af /\ ls_off ls' = ls_off ls.
Proof.
  intros dv ls name ss al sf af mh rec F L H1 Nm. assert (L' := L). destruct L as (B & Hh).
  assert (M1 : 1 <= 1 <= mh) by (inversion F; lia).
  destruct (Hh 1 M1) as (R & Mg & V & Sn & Sz). destruct (align_of_sized _ _ _ _ _ _ F Sz) as (_ & SF).
  replace (ls_off ls + (1 - 1) * ss) with (ls_off ls) in R by lia.
  assert (A : forall z, (z = 512 \/ z = 4096)%Z -> after_sizes dv z ls = (0%Z, mkLs (l_space_name (rec 1)) 1 (N.lor (N.ldiff (ls_flags ls) 0x3F0) (size_flags (rec 1))) (ls_off ls), l_io_timeout (rec 1))).
  { intros z Z0. rewrite <- H1 at 2. assert (E : ls_off ls + (host_meant (ls_host ls) - 1) * Z.to_N z = ls_off ls) by (rewrite H1; lia).
    apply after_sizes_right with (name := name); rewrite ?E; auto; [lia|]. change (2 ^ 64) with 18446744073709551616 in *. clear - F B. inversion F; subst; lia. }
  eexists. split.
  - destruct (Z.eq_dec (sector_flag_to_size (ls_flags ls)) 0) as [E | E].
    + assert (SS : (Z.of_N ss = 512 \/ Z.of_N ss = 4096)%Z) by (inversion F; auto).
      rewrite (read_lockspace_found dv ls (Z.of_N ss) E); [apply A; exact SS|eapply sizes_right; eauto|exact SS].
    + rewrite read_lockspace_hint by exact E. apply A. revert E. unfold sector_flag_to_size. destruct (has _ _); [auto|]. destruct (has _ _); [auto|]. intros []; reflexivity.
  - cbn [ls_name ls_host ls_flags ls_off]. rewrite SF. auto.
Qed.
Print Assumptions C94_first_host.

Definition holds_bytes (dv : device) : Prop := forall x, dv_bytes dv x < 256.
Lemma fetch_ok f : (forall x, f x < 256) -> forall n p, length (fetch f p n) = n /\ all_bytes (fetch f p n).
Proof. intros H n. induction n as [|n IH]; intros p; [split; [reflexivity|constructor]|]. cbn. destruct (IH (p + 1)) as (A & B). split; [lia|]. constructor; [apply H|exact B]. Qed.
Lemma version_u32 dv p : holds_bytes dv -> u32 (l_version (leader_record_in (fetch (dv_bytes dv) p LEADER_SIZE))).
Proof.
  intros H. cbn [leader_record_in l_version]. set (e := fetch _ _ _). destruct (fetch_ok (dv_bytes dv) H LEADER_SIZE p) as (L & A). fold e in L, A.
  assert (Lg : length (get 4 4 e) = 4%nat) by (apply get_length; rewrite L; unfold LEADER_SIZE; lia).
  assert (B := le_dec_bound (get 4 4 e) (all_bytes_get 4 4 e A)). rewrite Lg in B. exact B.
Qed.
Lemma ldiff_lor f s m : N.ldiff (N.lor (N.ldiff f m) s) m = N.lor (N.ldiff f m) (N.ldiff s m).
Proof. apply N.bits_inj. intros k. rewrite !N.ldiff_spec, !N.lor_spec, !N.ldiff_spec. destruct (N.testbit f k), (N.testbit s k), (N.testbit m k); reflexivity. Qed.
Lemma size_flags_in lr : N.ldiff (size_flags lr) 0x3F0 = 0.
Proof.
  unfold size_flags, sector_size_to_flag, align_flag_from_size.
  repeat match goal with |- context [if ?b then _ else _] => destruct b; try reflexivity end.
Qed.
Lemma kept f lr : N.ldiff (N.lor (clear_flags f) (size_flags lr)) 0x3F0 = N.ldiff f 0x3F0.
Proof. rewrite clear_spec, ldiff_lor, size_flags_in. apply N.lor_0_r. Qed.

(* a success always comes from a record that passed: bytes at the place the sector size
   used gives, with the magic number, version, name asked for and checksum; what is given
   back is what these bytes say; and after a failure nothing of the caller's is changed *)
Theorem C94_lockspace_true : forall pe op dv ls rv ls' io, holds_bytes dv -> read_lockspace pe op dv ls = (rv, ls', io) ->
  (rv = 0%Z -> exists ss e lr, (ss = 512 \/ ss = 4096) /\
     e = fetch (dv_bytes dv) ((ls_off ls + ((host_meant (ls_host ls) - 1) mod 2 ^ 64) * ss) mod 2 ^ 64) LEADER_SIZE /\ lr = leader_record_in e /\
     l_magic lr = 0x12212010 /\ l_version lr / 2 ^ 16 = 3 /\ l_checksum lr = leader_checksum e /\ (unnamed (ls_name ls) \/ same_str (l_space_name lr) (ls_name ls)) /\
     ls_name ls' = l_space_name lr /\ ls_host ls' = host_meant (ls_host ls) /\ io = l_io_timeout lr /\
     N.ldiff (ls_flags ls') 0x3F0 = N.ldiff (ls_flags ls) 0x3F0) /\
  (rv <> 0%Z -> ls' = ls /\ io = 0).
Proof.
  intros pe op dv ls rv ls' io HB H. unfold read_lockspace in H.
  destruct pe; [injection H as <- <- <-; split; [discriminate|auto]|]. destruct op; cbn [negb] in H; [|injection H as <- <- <-; split; [discriminate|auto]].
  fold (host_meant (ls_host ls)) in H. cbv zeta in H.
  destruct (if Z.eqb (sector_flag_to_size (ls_flags ls)) 0 then _ else _) as [rv0 ss] eqn:E0.
  destruct (rv0 <? 0)%Z eqn:N0; [injection H as <- <- <-; split; [lia|auto]|].
  unfold delta_read_lockspace in H. unfold read_sector in H. destruct (negb (Z.eqb ss 512 || Z.eqb ss 4096)) eqn:S; [injection H as <- <- <-; split; [discriminate|auto]|]. cbv zeta in H.
  match type of H with context [dv_error dv ?a] => set (at_ := a) in * end.
  destruct (dv_error dv at_ <? 0)%Z eqn:De.
  { destruct (Z.eqb (dv_error dv at_) SANLK_OK) eqn:K; [unfold SANLK_OK in K; lia|]. injection H as <- <- <-. split; [lia|auto]. }
  assert (VU := version_u32 dv at_ HB).
  remember (fetch (dv_bytes dv) at_ LEADER_SIZE) as e eqn:He. remember (leader_record_in e) as lr eqn:Hlr.
  set (nm := if hd 0 (ls_name ls) =? 0 then _ else _) in *.
  destruct (Z.eqb (delta_verify_leader nm lr (leader_checksum e)) SANLK_OK) eqn:K.
  - rewrite K in H. injection H as <- <- <-. split; [intros _|intros []; reflexivity].
    exists (Z.to_N ss), e, lr. split; [apply negb_false_iff, orb_prop in S; destruct S as [S | S]; apply Z.eqb_eq in S; rewrite S; auto|].
    split; [exact He|]. split; [exact Hlr|].
    apply Z.eqb_eq, delta_verify_leader_ok_iff in K; [|exact VU].
    destruct K as (K1 & K2 & K3 & K4). split; [exact K1|]. split; [exact K2|]. split; [exact K4|].
    split. { unfold nm in K3. destruct (hd 0 (ls_name ls) =? 0) eqn:U; [left; apply N.eqb_eq; exact U|right; exact K3]. }
    cbn [ls_name ls_host ls_flags]. split; [reflexivity|]. split; [reflexivity|]. split; [reflexivity|]. apply kept.
  - rewrite K in H. injection H as <- <- <-. split; [|auto]. intros V. exfalso. revert V. unfold delta_verify_leader.
    repeat match goal with |- context [if ?b then _ else _] => destruct b end; discriminate.
Qed.
Print Assumptions C94_lockspace_true.

(* ---------------- resources ---------------- *)
Lemma paxos_verify_right lr e sp rn : leader_wf lr -> length e = LEADER_SIZE -> l_magic lr = 0x06152010 -> l_version lr / 2 ^ 16 = 6 ->
  same_str (l_space_name lr) sp -> same_str (l_resource_name lr) rn ->
  verify_leader sp rn 0 (leader_record_in (leader_bytes lr e)) (leader_checksum (leader_bytes lr e)) = SANLK_OK.
Proof.
  intros W L M V S R. rewrite leader_roundtrip_bytes by auto. apply verify_leader_ok_iff.
  - destruct W as (_ & W2 & _). exact W2.
  - cbn [leader_set_checksum l_magic l_version l_space_name l_resource_name l_checksum l_num_hosts]. repeat split; auto. lia.
Qed.

(* A lease is read as it is recorded on its first disk, if that and a majority can be opened,
   whatever size flags were given.  Missing from the full claim: the other disks are not
   looked at (refuted below). *)
Theorem C94_resource_partial : forall d ds rs lr ss al sf af mh, (length (d :: ds) <= 4)%nat ->
  majority_disks (Z.of_nat (length (d :: ds))) (n_open (d :: ds)) = true -> is_open d = true ->
  lease_at (rd_dev d) (rd_off d) lr -> format ss al sf af mh -> sized lr ss al af ->
  unnamed (rs_space rs) \/ same_str (rs_space rs) (l_space_name lr) -> unnamed (rs_name rs) \/ same_str (rs_name rs) (l_resource_name lr) ->
  read_resource (d :: ds) rs = (0%Z, mkRes (l_space_name lr) (l_resource_name lr) (l_lver lr) (flags_shown (rs_flags rs) sf af)).
Proof.
  intros d ds rs lr ss al sf af mh Ln Mj Op (Lo & R & Mg & V) F Sz Ns Nr. unfold read_resource.
  assert (Nat.ltb SANLK_MAX_DISKS (length (d :: ds)) = false) as -> by (apply Nat.ltb_ge; unfold SANLK_MAX_DISKS; lia).
  rewrite Mj. cbn [negb]. unfold paxos_read_resource, disk_sector. rewrite Op. cbv zeta.
  set (z := if Z.eqb _ 0 then 4096%Z else _).
  assert (Hz : (z = 512 \/ z = 4096)%Z).
  { unfold z, sector_flag_to_size. destruct (has _ _); [left; reflexivity|]. destruct (has _ _); right; reflexivity. }
  destruct (read_record (rd_dev d) (rd_off d) (rd_off d) z 0 lr Hz ltac:(lia) Lo R) as (e & -> & Le).
  destruct R as (_ & W & _).
  set (sp := if hd 0 (rs_space rs) =? 0 then _ else _). set (rn := if hd 0 (rs_name rs) =? 0 then _ else _).
  assert (S1 : same_str (l_space_name lr) sp).
  { unfold sp. destruct (hd 0 (rs_space rs) =? 0) eqn:E; [rewrite leader_roundtrip_bytes by auto; reflexivity|].
    destruct Ns as [U | U]; [unfold unnamed in U; apply N.eqb_neq in E; contradiction|]. unfold same_str in *. congruence. }
  assert (S2 : same_str (l_resource_name lr) rn).
  { unfold rn. destruct (hd 0 (rs_name rs) =? 0) eqn:E; [rewrite leader_roundtrip_bytes by auto; reflexivity|].
    destruct Nr as [U | U]; [unfold unnamed in U; apply N.eqb_neq in E; contradiction|]. unfold same_str in *. congruence. }
  rewrite (paxos_verify_right lr e sp rn W Le Mg V S1 S2). change (SANLK_OK =? SANLK_OK)%Z with true. cbv iota.
  rewrite leader_roundtrip_bytes by auto. cbn [leader_set_checksum l_space_name l_resource_name l_lver l_sector_size].
  destruct (align_of_sized _ _ _ _ _ _ F Sz) as (_ & SF). destruct Sz as (SS & _).
  assert ((l_sector_size lr =? 512) || (l_sector_size lr =? 4096) = true) as -> by (rewrite SS; inversion F; reflexivity).
  unfold flags_shown. rewrite <- SF. reflexivity.
Qed.
Print Assumptions C94_resource_partial.

(* success comes from a record on the first disk that passed, and a failure changes nothing *)
Theorem C94_resource_true : forall ds rs rv rs', Forall (fun d => holds_bytes (rd_dev d)) ds -> read_resource ds rs = (rv, rs') ->
  (rv = 0%Z -> exists d r e lr, ds = d :: r /\ (Z.of_nat (length ds) < 2 * n_open ds)%Z /\ e = fetch (dv_bytes (rd_dev d)) (rd_off d mod 2 ^ 64) LEADER_SIZE /\ lr = leader_record_in e /\
     l_magic lr = 0x06152010 /\ l_version lr / 2 ^ 16 = 6 /\ l_checksum lr = leader_checksum e /\
     (unnamed (rs_space rs) \/ same_str (l_space_name lr) (rs_space rs)) /\ (unnamed (rs_name rs) \/ same_str (l_resource_name lr) (rs_name rs)) /\
     rs_space rs' = l_space_name lr /\ rs_name rs' = l_resource_name lr /\ rs_lver rs' = l_lver lr /\
     N.ldiff (rs_flags rs') 0x3F0 = N.ldiff (rs_flags rs) 0x3F0) /\
  (rv <> 0%Z -> rs' = rs).
Proof.
  assert (OE : forall ds rv0, (rv0 < 0)%Z -> (fold_left (fun rv d => if is_open d then rv else rd_open d) ds rv0 < 0)%Z).
  { induction ds as [|d ds IH]; intros rv0 H; [exact H|]. cbn. apply IH. destruct (is_open d) eqn:E; [exact H|]. unfold is_open in E. lia. }
  intros ds rs rv rs' HB H. unfold read_resource in H. destruct ds as [|d ds]; [injection H as <- <-; split; [discriminate|auto]|].
  destruct (Nat.ltb _ _); [injection H as <- <-; split; [discriminate|auto]|].
  destruct (majority_disks _ _) eqn:Mj; cbn [negb] in H; [|injection H as <- <-; split; [intros Z0; exfalso; specialize (OE (d :: ds) (-1)%Z eq_refl); unfold open_error in Z0; lia|auto]].
  unfold paxos_read_resource, disk_sector, read_sector in H. cbv zeta in H.
  destruct (is_open d) eqn:Op; [|injection H as <- <-; split; [discriminate|auto]].
  destruct (negb _) eqn:S in H; [injection H as <- <-; split; [discriminate|auto]|].
  replace (rd_off d + 0 * _) with (rd_off d) in H by lia.
  destruct (dv_error (rd_dev d) (rd_off d mod 2 ^ 64) <? 0)%Z eqn:De.
  { destruct (Z.eqb (dv_error (rd_dev d) (rd_off d mod 2 ^ 64)) SANLK_OK) eqn:K; [clear - De K; apply Z.eqb_eq in K; apply Z.ltb_lt in De; rewrite K in De; discriminate De|].
    remember (dv_error (rd_dev d) (rd_off d mod 2 ^ 64)) as er eqn:Her. injection H as <- <-. apply Z.ltb_lt in De. split; [intros Z0; rewrite Z0 in De; discriminate De|auto]. }
  assert (VU := version_u32 (rd_dev d) (rd_off d mod 2 ^ 64) (Forall_inv HB)).
  remember (fetch (dv_bytes (rd_dev d)) (rd_off d mod 2 ^ 64) LEADER_SIZE) as e eqn:He. remember (leader_record_in e) as lr eqn:Hlr.
  set (sp := if hd 0 (rs_space rs) =? 0 then _ else _) in *. set (rn := if hd 0 (rs_name rs) =? 0 then _ else _) in *.
  destruct (Z.eqb (verify_leader sp rn 0 lr (leader_checksum e)) SANLK_OK) eqn:K.
  - rewrite K in H. injection H as <- <-. split; [intros _|intros []; reflexivity].
    exists d, ds, e, lr. split; [reflexivity|]. split; [apply majority_half; [lia|exact Mj]|]. split; [exact He|]. split; [exact Hlr|].
    apply Z.eqb_eq, verify_leader_ok_iff in K; [|exact VU].
    destruct K as (K1 & K2 & K3 & K4 & _ & K6). split; [exact K1|]. split; [exact K2|]. split; [exact K6|].
    split. { unfold sp in K3. destruct (hd 0 (rs_space rs) =? 0) eqn:U; [left; apply N.eqb_eq; exact U|right; exact K3]. }
    split. { unfold rn in K4. destruct (hd 0 (rs_name rs) =? 0) eqn:U; [left; apply N.eqb_eq; exact U|right; exact K4]. }
    cbn [rs_space rs_name rs_lver rs_flags]. do 3 (split; [reflexivity|]). destruct ((l_sector_size lr =? 512) || (l_sector_size lr =? 4096)); [apply kept|reflexivity].
  - rewrite K in H. injection H as <- <-. split; [|auto]. intros V. exfalso. revert V. unfold verify_leader.
    repeat match goal with |- context [if ?b then _ else _] => destruct b end; discriminate.
Qed.
Print Assumptions C94_resource_true.

(* ---------------- what does not hold ---------------- *)
Definition nm (c : N) : bytes := c :: repeat 0 47.
Definition drec (c io : N) : leader := mkLeader 0x12212010 0x00030004 0x10 512 0 1 0 0 0 (nm c) (repeat 0 48) 0 0 0 0 io 0 0 0.
Definition dimage (c : N) (io : N -> N) : content := fun x =>
  let h := x / 512 + 1 in
  if x mod 512 <? 200 then nth (N.to_nat (x mod 512)) (leader_bytes (drec c (io h)) (zeros LEADER_SIZE)) 0 else 0.
(* two lockspaces of 1M, named a and b, one after the other *)
Definition two : device := mkDev (fun x => if x <? 1048576 then dimage 97 (fun h => 10 + h) x else dimage 98 (fun h => 20) (x - 1048576)) (fun _ => 0%Z).

Lemma drec_wf c io : c < 256 -> io < 2 ^ 16 -> leader_wf (drec c io).
Proof.
  intros Hc Hi. unfold leader_wf, drec. cbn [l_magic l_version l_flags l_sector_size l_num_hosts l_max_hosts l_owner_id l_owner_generation l_lver l_space_name l_resource_name l_timestamp l_unused1 l_checksum l_unused2 l_io_timeout l_write_id l_write_generation l_write_timestamp].
  repeat (split; [first [reflexivity | exact Hi | (split; [reflexivity|]; constructor; [exact Hc|]; apply Forall_forall; intros x X; apply repeat_spec in X; subst x; reflexivity)
     | (split; [reflexivity|]; apply Forall_forall; intros x X; apply repeat_spec in X; subst x; reflexivity)]|]). reflexivity.
Qed.
Lemma fetch_nth f : forall n p l, length l = n -> (forall i, (i < n)%nat -> f (p + N.of_nat i) = nth i l 0) -> fetch f p n = l.
Proof.
  induction n as [|n IH]; intros p [|x l] L H; try discriminate L; [reflexivity|]. cbn [fetch]. f_equal.
  - specialize (H 0%nat ltac:(lia)). replace (p + N.of_nat 0) with p in H by lia. exact H.
  - apply IH; [cbn in L; lia|]. intros i Hi. specialize (H (S i) ltac:(lia)). replace (p + 1 + N.of_nat i) with (p + N.of_nat (S i)) by lia. exact H.
Qed.
Lemma two_lockspace : lockspace_at two 0 (nm 97) 512 1048576 0x10 2000 (fun h => drec 97 (10 + h)).
Proof.
  split; [vm_compute; discriminate|]. intros h H. split; [|repeat split; auto; left; reflexivity].
  assert (W : leader_wf (drec 97 (10 + h))) by (apply drec_wf; [reflexivity|]; change (2 ^ 16) with 65536; lia).
  split; [cbn; lia|]. split; [exact W|]. exists (zeros LEADER_SIZE). split; [reflexivity|].
  assert (LB := leader_bytes_length _ _ W (eq_refl : length (zeros LEADER_SIZE) = LEADER_SIZE)).
  apply fetch_nth; [exact LB|]. intros i Hi. unfold LEADER_SIZE in Hi. cbn [dv_bytes two].
  assert (0 + (h - 1) * 512 + N.of_nat i <? 1048576 = true) as -> by (apply N.ltb_lt; lia). unfold dimage. cbv zeta.
  assert (M : (0 + (h - 1) * 512 + N.of_nat i) mod 512 = N.of_nat i).
  { replace (0 + (h - 1) * 512 + N.of_nat i) with (N.of_nat i + (h - 1) * 512) by lia. rewrite N.mod_add by lia. apply N.mod_small. lia. }
  assert (D : (0 + (h - 1) * 512 + N.of_nat i) / 512 = h - 1).
  { replace (0 + (h - 1) * 512 + N.of_nat i) with ((h - 1) * 512 + N.of_nat i) by lia. rewrite N.div_add_l by lia. rewrite N.div_small by lia. lia. }
  rewrite M, D. assert (N.of_nat i <? 200 = true) as -> by (apply N.ltb_lt; lia). rewrite Nat2N.id. replace (h - 1 + 1) with h by lia. reflexivity.
Qed.

(* a host id behind the lockspace is looked up in what follows: here the next lockspace *)
Theorem C94_range_refuted : exists dv ls ls' io, lockspace_at dv (ls_off ls) (nm 97) 512 1048576 0x10 2000 (fun h => drec 97 (10 + h)) /\
  2000 < ls_host ls /\ read_lockspace false true dv ls = (0%Z, ls', io) /\ ls_name ls' = nm 98.
Proof.
  exists two, (mkLs (repeat 0 48) 2049 0 0), (mkLs (nm 98) 2049 0x110 0), 20. split; [exact two_lockspace|]. split; [reflexivity|]. split; [vm_compute; reflexivity|reflexivity].
Qed.
Print Assumptions C94_range_refuted.

(* a wrong sector flag: host id 2 is answered with the record of host id 9, though the
   comment at delta_lease.c:173-176 says that a wrong hint does not matter *)
Theorem C94_hint_refuted : exists dv ls ls' io, lockspace_at dv (ls_off ls) (nm 97) 512 1048576 0x10 2000 (fun h => drec 97 (10 + h)) /\
  ls_host ls = 2 /\ read_lockspace false true dv ls = (0%Z, ls', io) /\ io = l_io_timeout (drec 97 (10 + 9)) /\ io <> l_io_timeout (drec 97 (10 + 2)).
Proof.
  exists two, (mkLs (repeat 0 48) 2 0x200 0), (mkLs (nm 97) 2 0x110 0), 19. split; [exact two_lockspace|]. split; [reflexivity|].
  split; [vm_compute; reflexivity|]. split; [reflexivity|discriminate].
Qed.
Print Assumptions C94_hint_refuted.

Theorem C94_lockspace_statement_refuted : ~ C94_lockspace_statement.
Proof.
  intros H. assert (R : read_lockspace false true two (mkLs (repeat 0 48) 2049 0 0) = (0%Z, mkLs (nm 98) 2049 0x110 0, 20)) by (vm_compute; reflexivity).
  destruct (H two (mkLs (repeat 0 48) 2049 0 0) _ _ ltac:(cbn; lia) R _ _ _ _ _ _ _ F512 two_lockspace) as (B & _). vm_compute in B. apply B. reflexivity.
Qed.
Print Assumptions C94_lockspace_statement_refuted.

Definition prec (lver : N) (ss : N) : leader := mkLeader 0x06152010 0x00060004 0x10 ss 2000 2000 1 1 lver (nm 97) (nm 114) 1 0 0 0 0 1 1 1.
Definition pdev (lver ss : N) : device := mkDev (place (fun _ => 0) 0 (leader_bytes (prec lver ss) (zeros LEADER_SIZE))) (fun _ => 0%Z).
Lemma prec_wf lver ss : lver < 2 ^ 64 -> ss < 2 ^ 32 -> leader_wf (prec lver ss).
Proof.
  intros Hc Hi. unfold leader_wf, prec. cbn [l_magic l_version l_flags l_sector_size l_num_hosts l_max_hosts l_owner_id l_owner_generation l_lver l_space_name l_resource_name l_timestamp l_unused1 l_checksum l_unused2 l_io_timeout l_write_id l_write_generation l_write_timestamp].
  assert (B : forall c, c < 256 -> length (nm c) = NAME_ID_SIZE /\ all_bytes (nm c)).
  { intros c C. split; [reflexivity|]. constructor; [exact C|]. apply Forall_forall. intros x X. apply repeat_spec in X. subst x. reflexivity. }
  repeat (split; [first [reflexivity | exact Hi | exact Hc | (apply B; reflexivity)]|]). reflexivity.
Qed.
Lemma pdev_lease : forall lver, lver = 4 \/ lver = 5 -> lease_at (pdev lver 512) 0 (prec lver 512).
Proof.
  intros lver L. split; [reflexivity|]. split; [|split; reflexivity]. split; [cbn; lia|]. split; [apply prec_wf; destruct L as [-> | ->]; reflexivity|].
  exists (zeros LEADER_SIZE). split; [reflexivity|]. destruct L as [-> | ->]; vm_compute; reflexivity.
Qed.

(* the version is that of the first disk, though the majority has a later one *)
Theorem C94_stale_refuted : let ds := [mkRd (pdev 4 512) 0 0; mkRd (pdev 5 512) 0 0; mkRd (pdev 5 512) 0 0] in
  (forall d, In d (tl ds) -> lease_at (rd_dev d) (rd_off d) (prec 5 512)) /\
  exists rs', read_resource ds (mkRes (repeat 0 48) (repeat 0 48) 0 0) = (0%Z, rs') /\ rs_lver rs' = 4.
Proof.
  cbv zeta. split; [intros d [<- | [<- | []]]; apply pdev_lease; auto|].
  exists (mkRes (nm 97) (nm 114) 4 0x110). split; [vm_compute; reflexivity|reflexivity].
Qed.
Print Assumptions C94_stale_refuted.

(* a lease that two of three disks have is not read if the first disk is missing *)
Theorem C94_first_disk_refuted : let ds := [mkRd (pdev 4 512) 0 (-2); mkRd (pdev 5 512) 0 0; mkRd (pdev 5 512) 0 0] in
  (forall d, In d (tl ds) -> is_open d = true /\ lease_at (rd_dev d) (rd_off d) (prec 5 512)) /\
  fst (read_resource ds (mkRes (repeat 0 48) (repeat 0 48) 0 0)) = (-1)%Z.
Proof. cbv zeta. split; [intros d [<- | [<- | []]]; (split; [reflexivity|apply pdev_lease; auto])|vm_compute; reflexivity]. Qed.
Print Assumptions C94_first_disk_refuted.

Theorem C94_resource_statement_refuted : ~ C94_resource_statement.
Proof.
  intros H. set (d0 := mkRd (pdev 4 512) 0 (-2)). set (d1 := mkRd (pdev 5 512) 0 0). set (d2 := mkRd (mkDev (dv_bytes (pdev 5 512)) (fun x => if x =? 1 then (-1)%Z else 0%Z)) 0 0).
  assert (L1 : lease_at (rd_dev d1) (rd_off d1) (prec 5 512)) by (apply pdev_lease; auto).
  assert (L2 : lease_at (rd_dev d2) (rd_off d2) (prec 5 512)) by (destruct L1 as (A & (_ & B) & C); split; [exact A|]; split; [split; [cbn; lia|exact B]|exact C]).
  destruct (H [d0; d1; d2] (mkRes (repeat 0 48) (repeat 0 48) 0 0) (prec 5 512) ltac:(cbn; lia) eq_refl eq_refl) with (good := [d1; d2]) as (rs' & R & _).
  - repeat constructor; cbn; lia.
  - reflexivity.
  - cbn. lia.
  - exists [d1; d2]. split; [intros x X; exact X|]. split; [|split; [cbn; lia|auto]].
    constructor; [|constructor; [intros []|constructor]]. intros [E | []].
    assert (K : dv_error (rd_dev d1) 1 = dv_error (rd_dev d2) 1) by (rewrite E; reflexivity). discriminate K.
  - vm_compute in R. discriminate R.
Qed.
Print Assumptions C94_resource_statement_refuted.

(* a record that passes all checks but has an unknown sector size: the size flags given
   by the caller come back as if they were recorded *)
Theorem C94_unknown_size_refuted : exists d rs rs', lease_at (rd_dev d) (rd_off d) (prec 5 1024) /\ read_resource [d] rs = (0%Z, rs') /\ N.land (rs_flags rs') 0x300 = 0x200.
Proof.
  exists (mkRd (pdev 5 1024) 0 0), (mkRes (repeat 0 48) (repeat 0 48) 0 0x290), (mkRes (nm 97) (nm 114) 5 0x290). split; [|split; [vm_compute; reflexivity|reflexivity]].
  split; [reflexivity|]. split; [|split; reflexivity]. split; [cbn; lia|]. split; [apply prec_wf; reflexivity|]. exists (zeros LEADER_SIZE). split; [reflexivity|vm_compute; reflexivity].
Qed.
Print Assumptions C94_unknown_size_refuted.

(* when the request breaks off the answer still has a structure: an uninitialised one *)
Theorem C94_stack_refuted : ~ (forall recv pe op dv, exists ls, snd (fst (cmd_read_lockspace recv pe op dv)) = Some ls).
Proof. intros H. destruct (H None false true two) as (ls & E). discriminate E. Qed.
Print Assumptions C94_stack_refuted.

Example C94_nonvacuous :
  read_lockspace false true two (mkLs (nm 97) 3 0x40000001 0) = (0%Z, mkLs (nm 97) 3 0x40000111 0, 13) /\
  read_lockspace false true two (mkLs (nm 98) 3 0 0) = (SANLK_LEADER_LOCKSPACE, mkLs (nm 98) 3 0 0, 0) /\
  read_resource [mkRd (pdev 5 512) 0 0] (mkRes (nm 97) (repeat 0 48) 0 0x200) = (0%Z, mkRes (nm 97) (nm 114) 5 0x110) /\
  read_resource [mkRd (pdev 5 512) 0 0] (mkRes (nm 98) (repeat 0 48) 0 0) = (SANLK_LEADER_LOCKSPACE, mkRes (nm 98) (repeat 0 48) 0 0) /\
  (exists dv, lockspace_at dv 0 (nm 97) 512 1048576 0x10 2000 (fun h => drec 97 (10 + h)) /\ holds_bytes (pdev 5 512)).
Proof.
  do 4 (split; [vm_compute; reflexivity|]). exists two. split; [exact two_lockspace|].
  intros x. cbn [pdev dv_bytes]. unfold place. destruct (_ && _); [|reflexivity].
  assert (A : all_bytes (leader_bytes (prec 5 512) (zeros LEADER_SIZE))).
  { apply Forall_forall. intros y Y. assert (F : forallb (fun b => b <? 256) (leader_bytes (prec 5 512) (zeros LEADER_SIZE)) = true) by (vm_compute; reflexivity).
    rewrite forallb_forall in F. apply N.ltb_lt, F, Y. }
  destruct (Nat.lt_ge_cases (N.to_nat (x - 0)) (length (leader_bytes (prec 5 512) (zeros LEADER_SIZE)))) as [L | L].
  - unfold all_bytes in A. rewrite Forall_forall in A. apply A, nth_In, L.
  - rewrite nth_overflow by exact L. reflexivity.
Qed.
