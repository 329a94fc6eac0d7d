(* C34: index update and lookup by offset stay inside the entry area. *)
From Coq Require Import List NArith ZArith Lia Bool Arith ZifyBool ZifyN ZifyNat.
From Verif Require Import Bytes Codec Leader Sizes Rindex RindexProof.
Import ListNotations.
Open Scope Z_scope.

(* ---- specification ---- *)
(* the offset is that of the N'th lease area of the layout, N an entry of the index *)
Definition denotes (g : geom) (off : Z) (n : nat) : Prop :=
  Z.of_nat n < max_of g /\ off = g_off g + (2 + Z.of_nat n) * g_align g.

(* Full claim: whatever 64 bit offset is given, a lookup and an update either are
   rejected without an effect, or the offset denotes an entry and only that
   entry's 64 bytes change *)
Definition C34_statement : Prop :=
  forall g d name off rem add upd,
    geom_ok g -> 0 <= off < 2 ^ 64 -> length (d_area d) = Z.to_nat (g_align g) -> length name = 48%nat ->
    (exists rv ret d', rindex_update g d name off rem add upd = ORet rv ret d' /\
       (d' = d \/ exists n, denotes g off n /\
          forall k, (k < entry_pos g n \/ entry_pos g n + 64 <= k)%nat -> nth_error (d_area d') k = nth_error (d_area d) k)) /\
    (off <> 0 -> exists rv nm ret, rindex_lookup g (d_area d) name off = LRet rv nm ret /\
       (rv < 0 \/ exists n, denotes g off n)).

Lemma wrap32_small x : - 2 ^ 31 <= x < 2 ^ 31 -> wrap32 x = x.
Proof. intros H. unfold wrap32. rewrite Z.mod_small; lia. Qed.

Lemma denotes_entry g off n :
  geom_ok g -> denotes g off n -> entry_num_of g off = Z.of_nat n /\ ent_of_off g off = ent_offset_of g n /\ off <> 0.
Proof.
  intros G (Hn & ->). destruct (geom_facts g G) as (M1 & S1 & S2 & S3 & A1 & S4 & EP & S5).
  assert (E : entry_num_of g (g_off g + (2 + Z.of_nat n) * g_align g) = Z.of_nat n).
  { unfold entry_num_of.
    replace (g_off g + (2 + Z.of_nat n) * g_align g - g_off g - 2 * g_align g) with (Z.of_nat n * g_align g) by ring.
    rewrite Z.mod_small by nia. rewrite Z.div_mul by lia. apply wrap32_small. lia. }
  split; [exact E|]. split.
  - unfold ent_of_off. rewrite E. unfold ent_offset_of. rewrite Z.mod_small; lia.
  - destruct G as (_ & O & _). nia.
Qed.

(* What holds: with an offset that does denote an entry, the update changes that
   entry only, and the lookup reads it; an offset that is not aligned like lease
   areas of an aligned index is rejected.  Missing: every other aligned offset,
   which is used without a check. *)
Theorem C34_update_partial :
  forall g d name off rem add upd n,
    geom_ok g -> length (d_area d) = Z.to_nat (g_align g) -> length name = 48%nat ->
    denotes g off n ->
    exists rv ret d', rindex_update g d name off rem add upd = ORet rv ret d' /\ d_lease d' = d_lease d /\
      length (d_area d') = length (d_area d) /\
      (forall k, (k < entry_pos g n \/ entry_pos g n + 64 <= k)%nat -> nth_error (d_area d') k = nth_error (d_area d) k).
Proof.
  intros g d name off rem add upd n G L Ln D. destruct (denotes_entry g off n G D) as (E1 & E2 & E3).
  destruct (geom_facts g G) as (M1 & S1 & S2 & S3 & A1 & S4 & EP & S5).
  pose proof (EP n (proj1 D)) as EPn.
  assert (Go : forall re ret, length (re_name re) = 48%nat ->
     exists rv ret' d', match update_rindex g (d_area d) re (ent_of_off g off) with
      | None => OUb
      | Some (so, sec) =>
        let d1 := if io_landed upd then set_sector d so sec else d in
        if io_rv upd <? 0 then ORet (io_rv upd) 0 d1 else ORet 0 ret d1
      end = ORet rv ret' d' /\ d_lease d' = d_lease d /\ length (d_area d') = length (d_area d) /\
      (forall k, (k < entry_pos g n \/ entry_pos g n + 64 <= k)%nat -> nth_error (d_area d') k = nth_error (d_area d) k)).
  { intros re ret Lr. rewrite E2.
    destruct (update_rindex_entry g (d_area d) re n G (proj1 D) L Lr) as (so & sec & U & U1 & U2 & U3 & U4 & U5 & U6).
    rewrite U. cbv zeta.
    pose proof (entry_bytes_length re Lr) as EL.
    assert (P : (entry_pos g n + 64 <= length (d_area d))%nat) by (unfold entry_pos; lia).
    destruct (io_landed upd); destruct (io_rv upd <? 0); eexists; eexists; eexists; (split; [reflexivity|]);
      cbn [d_lease d_area set_sector]; (split; [reflexivity|]);
      rewrite ?U6; (split; [rewrite ?put_length by lia; reflexivity|]); intros k Hk; try reflexivity;
      rewrite nth_error_put by lia; rewrite EL;
      replace ((entry_pos g n <=? k)%nat && (k <? entry_pos g n + 64)%nat) with false by lia; reflexivity. }
  unfold rindex_update.
  destruct (negb (off =? 0) && negb (off mod g_align g =? 0)) eqn:E4.
  { eexists; eexists; eexists. split; [reflexivity|]. auto. }
  replace (negb (off =? 0)) with true by lia. rewrite !andb_true_r.
  destruct rem.
  { apply Go. reflexivity. }
  destruct (add && negb (hd 0%N name =? 0)%N).
  { apply Go. exact Ln. }
  eexists; eexists; eexists. split; [reflexivity|]. auto.
Qed.

Theorem C34_lookup_partial :
  forall g area name off n re,
    geom_ok g -> denotes g off n -> entry_at g area n = Some re -> off mod g_align g = 0 ->
    exists rv, rindex_lookup g area name off = LRet rv (re_name re) off /\
      (rv = 0 <-> cstr 48 name = [] \/ cstr 48 name = cstr 48 (re_name re)) .
Proof.
  intros g area name off n re G D E A. destruct (denotes_entry g off n G D) as (E1 & E2 & E3).
  destruct (geom_facts g G) as (M1 & S1 & S2 & S3 & A1 & S4 & EP & S5).
  pose proof (EP n (proj1 D)) as EPn.
  assert (S64 : signed64 (ent_of_off g off) = ent_offset_of g n).
  { rewrite E2. unfold signed64. replace (ent_offset_of g n <? 2 ^ 63) with true by lia. reflexivity. }
  assert (En : entry_at_off g area (ent_offset_of g n) = Some re) by exact E.
  unfold rindex_lookup. rewrite A. replace (off =? 0) with false by lia. cbn [negb andb Z.eqb].
  rewrite S64, En.
  destruct (hd 0%N name =? 0)%N eqn:Eh.
  - exists 0. split; [reflexivity|]. split; [|reflexivity]. intros _. left.
    destruct name as [|x name]; [reflexivity|]. cbn in Eh. cbn. rewrite Eh. reflexivity.
  - eexists. split; [reflexivity|].
    change NAME_ID_SIZE with 48%nat.
    destruct (strncmp_eq 48 name (re_name re)) eqn:Es.
    + split; [|reflexivity]. intros _. right. apply strncmp_eq_spec. exact Es.
    + split; [unfold SANLK_RINDEX_DIFF; lia|]. intros [H|H].
      * destruct name as [|x name]; [discriminate Eh|]. cbn in Eh, H. rewrite Eh in H. discriminate H.
      * apply strncmp_eq_spec in H. congruence.
Qed.

Theorem C34_unaligned_rejected :
  forall g d name off rem add upd,
    0 < off -> off mod g_align g <> 0 ->
    rindex_update g d name off rem add upd = ORet SANLK_RINDEX_OFFSET 0 d /\
    rindex_lookup g (d_area d) name off = LRet SANLK_RINDEX_OFFSET [] 0.
Proof.
  intros g d name off rem add upd H1 H2. unfold rindex_update, rindex_lookup.
  replace (negb (off =? 0) && negb (off mod g_align g =? 0)) with true by lia. auto.
Qed.

(* ---- the failures ---- *)
(* an index at 8M: the area 6 places before it is taken for entry -8, whose bytes
   are the header: removing "the entry" wipes it *)
Definition g8 : geom := mkGeom 512 1048576 8388608 4096.
Definition area8 : bytes := repeat 1%N (Z.to_nat 1048576).
Definition disk8 : rdisk := mkRdisk area8 (fun _ => None).
Definition name8 : bytes := repeat 65%N 48.

Lemma get_repeat {A} (x : A) o n m : (o + n <= m)%nat -> firstn n (skipn o (repeat x m)) = repeat x n.
Proof.
  revert m. induction o as [|o IH]; intros m H.
  - cbn [skipn]. revert m H. induction n as [|n IHn]; intros [|m] H; cbn; try reflexivity; [lia|].
    f_equal. apply IHn. lia.
  - destruct m as [|m]; [lia|]. cbn [repeat skipn]. apply IH. lia.
Qed.

Lemma g8_ok : geom_ok g8.
Proof. unfold geom_ok, sizes_ok, g8; cbn. lia. Qed.

Example C34_nonvacuous :
  geom_ok g8 /\ denotes g8 (8388608 + 9 * 1048576) 7 /\ length (d_area disk8) = Z.to_nat (g_align g8) /\
  (8388608 + 9 * 1048576) mod g_align g8 = 0.
Proof.
  split; [exact g8_ok|]. split; [split; vm_compute; reflexivity|]. split; [apply repeat_length|vm_compute; reflexivity].
Qed.

Theorem C34_update_wipes_header :
  exists d', rindex_update g8 disk8 name8 2097152 true false (mkIout 0 true) = ORet 0 0 d' /\
    (forall k, (k < 64)%nat -> nth_error (d_area disk8) k = Some 1%N /\ nth_error (d_area d') k = Some 0%N).
Proof.
  unfold rindex_update.
  replace (negb (2097152 =? 0) && negb (2097152 mod g_align g8 =? 0)) with false by (vm_compute; reflexivity).
  replace (ent_of_off g8 2097152) with 0 by (vm_compute; reflexivity).
  unfold update_rindex. change (g_ss g8) with 512. change (g_align g8) with 1048576.
  replace ((0 / 512 * 512) mod 2 ^ 32) with 0 by (vm_compute; reflexivity).
  replace ((0 mod 512) mod 2 ^ 32) with 0 by (vm_compute; reflexivity).
  cbn [Z.leb Z.add andb Z.compare Pos.compare Pos.compare_cont]. cbv zeta. cbn [andb negb].
  replace (2097152 =? 0) with false by reflexivity. cbn [negb io_landed io_rv].
  change ((0 + 512 <=? 1048576) && (0 + 64 <=? 512)) with true. cbv iota.
  change (0 <? 0) with false. cbv iota.
  eexists. split; [reflexivity|]. intros k Hk.
  unfold set_sector. cbn [d_area disk8]. change (Z.to_nat 0) with 0%nat.
  assert (L : length area8 = Z.to_nat 1048576) by apply repeat_length.
  assert (G : get 0 (Z.to_nat 512) area8 = repeat 1%N (Z.to_nat 512)) by (apply get_repeat; lia).
  rewrite G.
  assert (EL : length (entry_bytes no_entry) = 64%nat) by (apply entry_bytes_length; reflexivity).
  assert (PL : length (put 0 (entry_bytes no_entry) (repeat 1%N (Z.to_nat 512))) = Z.to_nat 512).
  { rewrite put_length; rewrite repeat_length; lia. }
  split.
  - unfold area8. rewrite nth_error_repeat; [reflexivity|lia].
  - rewrite nth_error_put by (rewrite PL, L; lia). rewrite PL.
    replace ((0 <=? k)%nat && (k <? 0 + Z.to_nat 512)%nat) with true by lia.
    rewrite nth_error_put by (rewrite repeat_length; lia). rewrite EL.
    replace ((0 <=? k - 0)%nat && (k - 0 <? 0 + 64)%nat) with true by lia.
    replace (entry_bytes no_entry) with (repeat 0%N 64) by (vm_compute; reflexivity).
    apply nth_error_repeat. lia.
Qed.

(* and an offset far away makes a lookup read outside the buffer *)
Theorem C34_lookup_out_of_bounds :
  rindex_lookup g8 area8 (repeat 0%N 48) (1048576 * 20000) = LUb.
Proof.
  unfold rindex_lookup.
  replace (negb (1048576 * 20000 =? 0) && negb (1048576 * 20000 mod g_align g8 =? 0)) with false by (vm_compute; reflexivity).
  cbn [hd repeat]. change (0 =? 0)%N with true. cbv iota.
  replace (1048576 * 20000 =? 0) with false by (vm_compute; reflexivity).
  unfold entry_at_off.
  replace ((0 <=? signed64 (ent_of_off g8 (1048576 * 20000))) &&
           (signed64 (ent_of_off g8 (1048576 * 20000)) + 64 <=? g_align g8)) with false by (vm_compute; reflexivity).
  reflexivity.
Qed.

Theorem C34_refuted : ~ C34_statement.
Proof.
  intros H.
  destruct (H g8 disk8 name8 2097152 true false (mkIout 0 true) g8_ok) as ((rv & ret & d' & E & C) & _);
    [lia|apply repeat_length|reflexivity|].
  destruct C34_update_wipes_header as (d2 & E2 & W). rewrite E in E2. injection E2 as -> -> ->.
  destruct C as [->|(n & (Hn & Ho) & _)].
  - destruct (W 0%nat ltac:(lia)) as (A & B). rewrite A in B. discriminate B.
  - revert Ho. change (g_off g8) with 8388608. change (g_align g8) with 1048576. lia.
Qed.

Print Assumptions C34_update_partial.
Print Assumptions C34_lookup_partial.
Print Assumptions C34_unaligned_rejected.
Print Assumptions C34_update_wipes_header.
Print Assumptions C34_lookup_out_of_bounds.
Print Assumptions C34_refuted.
