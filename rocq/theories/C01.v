(* C01: lease records survive the disk byte-for-byte. *)
From Coq Require Import List NArith ZArith Lia Bool Arith.
From Verif Require Import Bytes Crc Codec.
Import ListNotations.
Open Scope N_scope.

(* Specification: the documented layout of a leader record, independent of
   the conversion functions: offset, width and value of every member. *)
Inductive member := Int (off width : nat) (v : N) | Name (off : nat) (v : bytes).

Definition documented_layout (lr : leader) : list member :=
  [ Int 0 4 (l_magic lr); Int 4 4 (l_version lr); Int 8 4 (l_flags lr);
    Int 12 4 (l_sector_size lr); Int 16 8 (l_num_hosts lr); Int 24 8 (l_max_hosts lr);
    Int 32 8 (l_owner_id lr); Int 40 8 (l_owner_generation lr); Int 48 8 (l_lver lr);
    Name 56 (l_space_name lr); Name 104 (l_resource_name lr);
    Int 152 8 (l_timestamp lr); Int 160 8 (l_unused1 lr); Int 172 2 (l_unused2 lr);
    Int 174 2 (l_io_timeout lr); Int 176 8 (l_write_id lr);
    Int 184 8 (l_write_generation lr); Int 192 8 (l_write_timestamp lr) ].

(* byte i of a little-endian integer v of width w *)
Definition member_on_disk (s : bytes) (m : member) : Prop :=
  match m with
  | Int off w v =>
      forall i, (i < w)%nat ->
        nth_error s (off + i) = Some ((v / 256 ^ N.of_nat i) mod 256)
  | Name off v => forall i b, nth_error v i = Some b -> nth_error s (off + i) = Some b
  end.

Lemma le_enc_nth w v i :
  (i < w)%nat -> nth_error (le_enc w v) i = Some ((v / 256 ^ N.of_nat i) mod 256).
Proof.
  revert v i. induction w; intros v i Hi; [lia|].
  destruct i; cbn [le_enc nth_error].
  - cbn. rewrite N.div_1_r. reflexivity.
  - rewrite IHw by lia. rewrite N.div_div by (try apply N.pow_nonzero; lia).
    replace (N.of_nat (S i)) with (N.succ (N.of_nat i)) by lia.
    rewrite N.pow_succ_r'. reflexivity.
Qed.

Lemma writes_on_disk lr e k o b rest :
  leader_wf lr -> length e = LEADER_SIZE ->
  nth_error (leader_record_writes lr) k = Some (o, b) ->
  chk LEADER_SIZE k (leader_shape ++ [(168, 4)])%nat o (length b) = true ->
  forall i x, nth_error b i = Some x ->
    nth_error (leader_bytes lr e ++ rest) (o + i) = Some x.
Proof.
  intros W He Hk Hc i x Hx.
  assert (Hlen : (i < length b)%nat) by (apply nth_error_Some; congruence).
  assert (G : get o (length b) (leader_bytes lr e) = b).
  { unfold leader_bytes. cbv zeta. unfold leader_record_out. rewrite puts_snoc.
    erewrite (get_puts_nth _ _ _ k); [| exact He | | exact Hc].
    - rewrite app_nth1 by (apply nth_error_Some; congruence).
      erewrite nth_error_nth by exact Hk. reflexivity.
    - unfold shape_of. rewrite map_app. fold (shape_of (leader_record_writes lr)).
      rewrite leader_shape_ok by auto. cbn [map fst snd]. rewrite le_enc_length. reflexivity. }
  assert (Hn : nth_error (leader_bytes lr e) (o + i) = Some x).
  { rewrite <- Hx, <- G, nth_error_get.
    rewrite (proj2 (Nat.ltb_lt i (length b))) by auto. reflexivity. }
  rewrite nth_error_app1; auto.
  apply nth_error_Some. congruence.
Qed.

(* All members of a record written by any host are found by any reader,
   whatever the uninitialised stack bytes [stack] and the rest of the sector;
   the checksum member is the one computed by the writer, and it matches the
   one the reader computes. *)
Theorem C01_leader_roundtrip :
  forall (lr : leader) (stack junk : bytes),
    leader_wf lr -> length stack = LEADER_SIZE ->
    let sector := leader_bytes lr stack ++ junk in
    exists ck,
      read_leader_sector sector = (leader_set_checksum lr ck, ck) /\ u32 ck.
Proof.
  intros lr stack junk W He sector. exists (leader_checksum (leader_bytes lr stack)).
  split; [apply leader_sector_roundtrip; auto | apply leader_checksum_bound].
Qed.

Theorem C01_leader_layout :
  forall (lr : leader) (stack junk : bytes),
    leader_wf lr -> length stack = LEADER_SIZE ->
    length (leader_bytes lr stack) = 200%nat /\
    Forall (member_on_disk (leader_bytes lr stack ++ junk)) (documented_layout lr).
Proof.
  intros lr stack junk W He. split; [apply leader_bytes_length; auto|].
  assert (I : forall k o w v,
    nth_error (leader_record_writes lr) k = Some (o, le_enc w v) ->
    chk LEADER_SIZE k (leader_shape ++ [(168, 4)])%nat o w = true ->
    member_on_disk (leader_bytes lr stack ++ junk) (Int o w v)).
  { intros k o w v Hk Hc i Hi. apply (writes_on_disk lr stack k o (le_enc w v) junk W He Hk).
    - rewrite le_enc_length. exact Hc.
    - apply le_enc_nth; auto. }
  pose proof W as W'. unfold leader_wf in W'.
  destruct W' as (_&_&_&_&_&_&_&_&_&(Hs&_)&(Hr&_)&_).
  unfold documented_layout.
  repeat (apply Forall_cons).
  - apply (I 0%nat); reflexivity.
  - apply (I 1%nat); reflexivity.
  - apply (I 2%nat); reflexivity.
  - apply (I 3%nat); reflexivity.
  - apply (I 4%nat); reflexivity.
  - apply (I 5%nat); reflexivity.
  - apply (I 6%nat); reflexivity.
  - apply (I 7%nat); reflexivity.
  - apply (I 8%nat); reflexivity.
  - intros i b Hb. apply (writes_on_disk lr stack 9 56 (l_space_name lr) junk W He eq_refl); auto.
    rewrite Hs. reflexivity.
  - intros i b Hb. apply (writes_on_disk lr stack 10 104 (l_resource_name lr) junk W He eq_refl); auto.
    rewrite Hr. reflexivity.
  - apply (I 11%nat); reflexivity.
  - apply (I 12%nat); reflexivity.
  - apply (I 13%nat); reflexivity.
  - apply (I 14%nat); reflexivity.
  - apply (I 15%nat); reflexivity.
  - apply (I 16%nat); reflexivity.
  - apply (I 17%nat); reflexivity.
  - apply Forall_nil.
Qed.

(* non-vacuity: a concrete record *)
Definition sample_name (c : N) : bytes := [c; c + 1; 0] ++ repeat 0 45.
Definition sample_leader : leader := {|
  l_magic := 0x06152010; l_version := 0x00060004; l_flags := 0x10; l_sector_size := 512;
  l_num_hosts := 2000; l_max_hosts := 2000; l_owner_id := 7; l_owner_generation := 3;
  l_lver := 41; l_space_name := sample_name 97; l_resource_name := sample_name 110;
  l_timestamp := 123456; l_unused1 := 0; l_checksum := 0; l_unused2 := 0; l_io_timeout := 10;
  l_write_id := 7; l_write_generation := 3; l_write_timestamp := 123456 |}.

Lemma all_bytes_dec l : forallb (fun b => b <? 256) l = true -> all_bytes l.
Proof.
  intros H. apply Forall_forall. intros x Hx. rewrite forallb_forall in H.
  apply N.ltb_lt. auto.
Qed.

Example sample_leader_wf : leader_wf sample_leader.
Proof.
  unfold leader_wf. repeat split; try reflexivity; apply all_bytes_dec; reflexivity.
Qed.

Example sample_leader_read :
  l_lver (fst (read_leader_sector (write_leader_sector 512 sample_leader (repeat 0xAA 200)))) = 41.
Proof. vm_compute. reflexivity. Qed.

Print Assumptions C01_leader_roundtrip.
Print Assumptions C01_leader_layout.
