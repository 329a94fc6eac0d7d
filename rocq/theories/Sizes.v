(* Sector sizes, lease area sizes, flags.
   src/sizeflags.c, src/sizeflags.h, src/sanlock.h, src/rindex_disk.h,
   and the sector numbers used inside a lease area. *)
From Coq Require Import List NArith ZArith Lia Bool Arith.
Import ListNotations.
Open Scope Z_scope.

(* src/sizeflags.h:12-15 *)
Definition ALIGN_SIZE_1M : Z := 1048576.
Definition ALIGN_SIZE_2M : Z := 2 * ALIGN_SIZE_1M.
Definition ALIGN_SIZE_4M : Z := 4 * ALIGN_SIZE_1M.
Definition ALIGN_SIZE_8M : Z := 8 * ALIGN_SIZE_1M.

(* src/sizeflags.c:31-46 *)
Definition size_to_max_hosts (sector_size align_size : Z) : Z :=
  if (align_size =? ALIGN_SIZE_1M) && (sector_size =? 512) then 2000
  else if (align_size =? ALIGN_SIZE_1M) && (sector_size =? 4096) then 250
  else if (align_size =? ALIGN_SIZE_2M) && (sector_size =? 4096) then 500
  else if (align_size =? ALIGN_SIZE_4M) && (sector_size =? 4096) then 1000
  else if (align_size =? ALIGN_SIZE_8M) && (sector_size =? 4096) then 2000
  else 0.

(* src/sizeflags.c:54-61 *)
Definition sector_size_to_align_size_old (sector_size : Z) : Z :=
  if sector_size =? 512 then ALIGN_SIZE_1M
  else if sector_size =? 4096 then ALIGN_SIZE_8M
  else -1.

(* The align flag values are the same bit pattern 0x10/0x20/0x40/0x80 for
   SANLK_RES_, SANLK_LSF_, SANLK_RIF_ (src/sanlock.h:91-94,112-115,149-152)
   and LFL_ (src/leader.h:57-60); RHF_ uses 0x1/0x2/0x4/0x8
   (src/rindex_disk.h:88-91).  Sector flags are 0x100/0x200. *)
Definition F_ALIGN1M : N := 0x10.
Definition F_ALIGN2M : N := 0x20.
Definition F_ALIGN4M : N := 0x40.
Definition F_ALIGN8M : N := 0x80.
Definition F_SECTOR512 : N := 0x100.
Definition F_SECTOR4K : N := 0x200.
Definition RHF_ALIGN_1M : N := 0x1.
Definition RHF_ALIGN_2M : N := 0x2.
Definition RHF_ALIGN_4M : N := 0x4.
Definition RHF_ALIGN_8M : N := 0x8.

Definition has (flags f : N) : bool := negb (N.land flags f =? 0)%N.

(* src/sizeflags.c:80-105 (leader), 175-200 (lsf), 239-264 (res), 289-314 (rif):
   the four pairs of functions have the same body with the constants above *)
Definition align_flag_from_size (align_size : Z) : N :=
  if align_size =? ALIGN_SIZE_1M then F_ALIGN1M
  else if align_size =? ALIGN_SIZE_2M then F_ALIGN2M
  else if align_size =? ALIGN_SIZE_4M then F_ALIGN4M
  else if align_size =? ALIGN_SIZE_8M then F_ALIGN8M
  else 0%N.
Definition align_size_from_flag (flags : N) : Z :=
  if has flags F_ALIGN1M then ALIGN_SIZE_1M
  else if has flags F_ALIGN2M then ALIGN_SIZE_2M
  else if has flags F_ALIGN4M then ALIGN_SIZE_4M
  else if has flags F_ALIGN8M then ALIGN_SIZE_8M
  else 0.
(* src/sizeflags.c:111-136 rindex header variants *)
Definition rh_align_flag_from_size (align_size : Z) : N :=
  if align_size =? ALIGN_SIZE_1M then RHF_ALIGN_1M
  else if align_size =? ALIGN_SIZE_2M then RHF_ALIGN_2M
  else if align_size =? ALIGN_SIZE_4M then RHF_ALIGN_4M
  else if align_size =? ALIGN_SIZE_8M then RHF_ALIGN_8M
  else 0%N.
Definition rh_align_size_from_flag (flags : N) : Z :=
  if has flags RHF_ALIGN_1M then ALIGN_SIZE_1M
  else if has flags RHF_ALIGN_2M then ALIGN_SIZE_2M
  else if has flags RHF_ALIGN_4M then ALIGN_SIZE_4M
  else if has flags RHF_ALIGN_8M then ALIGN_SIZE_8M
  else 0.
(* src/sizeflags.c:142-159, 206-223, 270-287 *)
Definition sector_flag_to_size (flags : N) : Z :=
  if has flags F_SECTOR512 then 512
  else if has flags F_SECTOR4K then 4096
  else 0.
Definition sector_size_to_flag (sector_size : Z) : N :=
  if sector_size =? 512 then F_SECTOR512
  else if sector_size =? 4096 then F_SECTOR4K
  else 0%N.

(* src/sizeflags.c:320-386: Some (sector, align, max_hosts) for return 0,
   None for return -1.  The kinds RES/LSF/RIF use the same flag values. *)
Definition sizes_from_flags (flags : N) : option (Z * Z * Z) :=
  let align := align_size_from_flag flags in
  let sector := sector_flag_to_size flags in
  if negb (Bool.eqb (sector =? 0) (align =? 0)) then None
  else if sector =? 0 then Some (0, 0, 0)
  else let mh := size_to_max_hosts sector align in
       if mh =? 0 then None else Some (sector, align, mh).

(* Sector numbers inside a resource lease area:
   leader 0 (src/paxos_lease.c:263), request 1 (src/paxos_lease.c:84,106),
   host h: 2 + h - 1 (src/paxos_lease.c:243, src/resource.c:481),
   value block 2002 (src/resource.c:658,672,690).  In a lockspace area host h
   uses sector h - 1 (src/delta_lease.c:271). *)
Definition leader_sector : Z := 0.
Definition request_sector : Z := 1.
Definition host_sector (h : Z) : Z := 2 + h - 1.
Definition LVB_SECTOR : Z := 2002.
Definition delta_sector (h : Z) : Z := h - 1.

(* byte interval of a sector, relative to the start of the area *)
Definition in_area (sector_size align_size sec : Z) : Prop :=
  0 <= sec * sector_size /\ sec * sector_size + sector_size <= align_size.
