(* C05: no two pieces of lease metadata share a sector. *)
From Coq Require Import List NArith ZArith Lia Bool Arith.
From Verif Require Import Sizes.
Import ListNotations.
Open Scope Z_scope.

(* the pieces of a resource lease area *)
Inductive piece := Leader | Request | Host (h : Z) | Lvb.

Definition sector_of (p : piece) : Z :=
  match p with
  | Leader => leader_sector | Request => request_sector
  | Host h => host_sector h | Lvb => LVB_SECTOR
  end.

(* Specification, in bytes from the start of the area: the bytes occupied by
   two different pieces never meet and lie in the area. *)
Definition occupies (ss : Z) (p : piece) (byte_nr : Z) : Prop :=
  sector_of p * ss <= byte_nr < sector_of p * ss + ss.

Definition supported (ss align : Z) : Prop := size_to_max_hosts ss align <> 0.

Definition valid_piece (ss align : Z) (p : piece) : Prop :=
  match p with Host h => 1 <= h <= size_to_max_hosts ss align | _ => True end.

Lemma supported_cases ss align :
  supported ss align ->
  (ss = 512 /\ align = 1048576 /\ size_to_max_hosts ss align = 2000) \/
  (ss = 4096 /\ align = 1048576 /\ size_to_max_hosts ss align = 250) \/
  (ss = 4096 /\ align = 2097152 /\ size_to_max_hosts ss align = 500) \/
  (ss = 4096 /\ align = 4194304 /\ size_to_max_hosts ss align = 1000) \/
  (ss = 4096 /\ align = 8388608 /\ size_to_max_hosts ss align = 2000).
Proof.
  unfold supported, size_to_max_hosts.
  change ALIGN_SIZE_8M with 8388608; change ALIGN_SIZE_4M with 4194304;
  change ALIGN_SIZE_2M with 2097152; change ALIGN_SIZE_1M with 1048576.
  destruct (align =? 1048576) eqn:E1; destruct (ss =? 512) eqn:E2; cbn [andb]; try lia;
  destruct (ss =? 4096) eqn:E3; cbn [andb]; try lia;
  destruct (align =? 2097152) eqn:E4; cbn [andb]; try lia;
  destruct (align =? 4194304) eqn:E5; cbn [andb]; try lia;
  destruct (align =? 8388608) eqn:E6; cbn [andb]; try lia.
Qed.

(* Full claim restricted to everything except the value block. *)
Theorem C05_sectors_disjoint_partial :
  forall ss align, supported ss align ->
  forall p q, p <> Lvb -> q <> Lvb -> p <> q ->
    valid_piece ss align p -> valid_piece ss align q ->
    (forall b, occupies ss p b -> ~ occupies ss q b) /\
    (forall b, occupies ss p b -> 0 <= b < align).
Proof.
  intros ss align S p q Np Nq Npq Vp Vq.
  pose proof (supported_cases ss align S) as C. clear S.
  assert (D : sector_of p <> sector_of q).
  { destruct p as [| |h|], q as [| |h'|]; cbn in *; try congruence;
      unfold leader_sector, request_sector, host_sector; try lia.
    intros E. apply Npq. f_equal. lia. }
  assert (R : 0 <= sector_of p /\ sector_of p <= 1 + size_to_max_hosts ss align).
  { destruct p as [| |h|]; cbn in *; unfold leader_sector, request_sector, host_sector; try congruence;
    destruct C as [(?&?&M)|[(?&?&M)|[(?&?&M)|[(?&?&M)|(?&?&M)]]]]; rewrite M in *; lia. }
  split; intros b; unfold occupies;
    destruct C as [(->&->&M)|[(->&->&M)|[(->&->&M)|[(->&->&M)|(->&->&M)]]]]; rewrite M in *; lia.
Qed.

(* Including the value block the claim holds for the two layouts that older
   versions supported (512-byte sectors, and 4K sectors with 8M areas)... *)
Theorem C05_sectors_disjoint_with_lvb :
  forall ss align, supported ss align -> (ss = 512 \/ align = ALIGN_SIZE_8M) ->
  forall p q, p <> q ->
    valid_piece ss align p -> valid_piece ss align q ->
    (forall b, occupies ss p b -> ~ occupies ss q b) /\
    (forall b, occupies ss p b -> 0 <= b < align).
Proof.
  intros ss align S K p q Npq Vp Vq.
  pose proof (supported_cases ss align S) as C. clear S.
  change ALIGN_SIZE_8M with 8388608 in K.
  assert (M : size_to_max_hosts ss align = 2000 /\ ((ss = 512 /\ align = 1048576) \/ (ss = 4096 /\ align = 8388608))).
  { destruct C as [(?&?&M)|[(?&?&M)|[(?&?&M)|[(?&?&M)|(?&?&M)]]]]; rewrite M; lia. }
  destruct M as (M & C').
  assert (D : sector_of p <> sector_of q).
  { destruct p as [| |h|], q as [| |h'|]; cbn in *; try congruence;
      unfold leader_sector, request_sector, host_sector, LVB_SECTOR; try lia.
    intros E. apply Npq. f_equal. lia. }
  assert (R : 0 <= sector_of p <= 2002).
  { destruct p as [| |h|]; cbn in *; unfold leader_sector, request_sector, host_sector, LVB_SECTOR; lia. }
  split; intros b; unfold occupies; destruct C' as [(->&->)|(->&->)]; lia.
Qed.

(* ...and fails for the three smaller 4K layouts: the value block lies outside
   the lease's own area, on top of a host block of another lease area. *)
Theorem C05_lvb_refuted :
  forall align, align = ALIGN_SIZE_1M \/ align = ALIGN_SIZE_2M \/ align = ALIGN_SIZE_4M ->
    supported 4096 align /\
    (forall b, occupies 4096 Lvb b -> align <= b) /\
    (exists k sec, 0 < k /\ 0 <= sec /\ sec * 4096 < align /\
       (forall b, occupies 4096 Lvb b <->
                  k * align + sec * 4096 <= b < k * align + sec * 4096 + 4096)).
Proof.
  intros align [->|[->| ->]].
  - split; [vm_compute; discriminate|]. split.
    + intros b. unfold occupies. cbn. unfold LVB_SECTOR, ALIGN_SIZE_1M. lia.
    + exists 7, 210. unfold occupies, ALIGN_SIZE_1M. cbn. unfold LVB_SECTOR. repeat split; try lia.
  - split; [vm_compute; discriminate|]. split.
    + intros b. unfold occupies. cbn. unfold LVB_SECTOR, ALIGN_SIZE_2M, ALIGN_SIZE_1M. lia.
    + exists 3, 466. unfold occupies, ALIGN_SIZE_2M, ALIGN_SIZE_1M. cbn. unfold LVB_SECTOR. repeat split; try lia.
  - split; [vm_compute; discriminate|]. split.
    + intros b. unfold occupies. cbn. unfold LVB_SECTOR, ALIGN_SIZE_4M, ALIGN_SIZE_1M. lia.
    + exists 1, 978. unfold occupies, ALIGN_SIZE_4M, ALIGN_SIZE_1M. cbn. unfold LVB_SECTOR. repeat split; try lia.
Qed.

(* the consequence a user sees: with 4K sectors and 1M areas, the value block
   of the lease at area k overwrites the ballot block of host 209 of the lease
   stored in area k + 7 *)
Theorem C05_lvb_hits_other_lease :
  forall base b,
    (exists off, occupies 4096 Lvb off /\ b = base + off) <->
    (exists off, occupies 4096 (Host 209) off /\ b = base + 7 * ALIGN_SIZE_1M + off).
Proof.
  intros base b. unfold occupies, ALIGN_SIZE_1M. cbn. unfold LVB_SECTOR.
  split; intros (off & H & ->).
  - exists (off - 7340032). lia.
  - exists (off + 7340032). lia.
Qed.

(* lockspace areas: one sector per host id, all inside the area *)
Theorem C05_lockspace_sectors :
  forall ss align, supported ss align ->
  forall h h', 1 <= h <= size_to_max_hosts ss align -> 1 <= h' <= size_to_max_hosts ss align ->
    (h <> h' -> delta_sector h <> delta_sector h') /\ in_area ss align (delta_sector h).
Proof.
  intros ss align S h h' H H'. pose proof (supported_cases ss align S) as C.
  unfold delta_sector, in_area.
  destruct C as [(->&->&M)|[(->&->&M)|[(->&->&M)|[(->&->&M)|(->&->&M)]]]]; rewrite M in *; lia.
Qed.

Example C05_nonvacuous :
  supported 512 1048576 /\ valid_piece 512 1048576 (Host 2000) /\
  sector_of (Host 2000) = 2001 /\ sector_of Lvb = 2002.
Proof. vm_compute. intuition discriminate. Qed.

Print Assumptions C05_sectors_disjoint_partial.
Print Assumptions C05_sectors_disjoint_with_lvb.
Print Assumptions C05_lvb_refuted.
Print Assumptions C05_lvb_hits_other_lease.
Print Assumptions C05_lockspace_sectors.
