(* The resource index: searching, creating, deleting, looking up, updating and
   rebuilding entries.  Models src/rindex.c:123-1146 and the layout of
   src/rindex_disk.h.  Opening the disk, the per-lockspace operation flag (C50)
   and the internal lease which makes create, delete and rebuild mutually
   exclusive between hosts (C11) are left out: here those three are atomic with
   respect to each other.
   Reads beyond the in-memory copy of the index and signed overflow are undefined
   behaviour in C and are a separate outcome. *)
From Coq Require Import List NArith ZArith Lia Bool Arith ZifyBool ZifyN ZifyNat.
From Verif Require Import Bytes Codec Leader Sizes.
Import ListNotations.
Open Scope Z_scope.

Definition ENOENT : Z := 2.
Definition EINVAL : Z := 22.
Definition SANLK_RINDEX_DIFF : Z := (-278).   (* src/sanlock_rv.h *)
Definition SANLK_RINDEX_OFFSET : Z := (-277).
Definition SANLK_RINDEX_MAGIC : Z := (-274).
Definition SANLK_RINDEX_VERSION : Z := (-275).
Definition SANLK_RINDEX_LOCKSPACE : Z := (-276).

(* src/rindex.c:123-138 *)
Definition size_to_max_resources (sector_size align_size : Z) : Z :=
  if (sector_size =? 512) && (align_size =? ALIGN_SIZE_1M) then 16000
  else if (sector_size =? 4096) && (align_size =? ALIGN_SIZE_1M) then 16000
  else if (sector_size =? 4096) && (align_size =? ALIGN_SIZE_2M) then 32000
  else if (sector_size =? 4096) && (align_size =? ALIGN_SIZE_4M) then 64000
  else if (sector_size =? 4096) && (align_size =? ALIGN_SIZE_8M) then 128000
  else 16000.

(* what the operations take from the header and the disk: header.sector_size,
   the align size of header.flags, disk->offset and header.max_resources *)
Record geom := mkGeom { g_ss : Z; g_align : Z; g_off : Z; g_max : Z }.

(* src/rindex.c:147-154: max_resources of the header, or the limit *)
Definition max_of (g : geom) : Z :=
  if g_max g =? 0 then size_to_max_resources (g_ss g) (g_align g) else g_max g.

(* src/rindex.c:403-412 rindex_format: the max_resources it stores *)
Definition format_max (asked ss align : Z) : Z :=
  let m := if asked =? 0 then 4096 else asked in
  let lim := size_to_max_resources ss align in
  if lim <? m then lim else m.

(* an int product: undefined when it does not fit *)
Definition int_mul (a b : Z) : option Z :=
  let p := a * b in if (- 2 ^ 31 <=? p) && (p <? 2 ^ 31) then Some p else None.
(* the same with the usual two's complement machine result *)
Definition wrap32 (a : Z) : Z := (a + 2 ^ 31) mod 2 ^ 32 - 2 ^ 31.
Definition int_mul_wrap (a b : Z) : Z := wrap32 (a * b).

(* src/rindex.c:167, 173: rx->disk->offset + (2 * align_size) + (i * align_size);
   offset is uint64_t, i and align_size are int *)
Definition res_offset_of (g : geom) (i : nat) : option Z :=
  match int_mul (Z.of_nat i) (g_align g) with
  | Some p => Some ((g_off g + 2 * g_align g + p) mod 2 ^ 64)
  | None => None
  end.
Definition res_offset_wrap (g : geom) (i : nat) : Z :=
  (g_off g + 2 * g_align g + int_mul_wrap (Z.of_nat i) (g_align g)) mod 2 ^ 64.

(* src/rindex.c:158 *)
Definition ent_offset_of (g : geom) (i : nat) : Z := g_ss g + Z.of_nat i * 64.

(* src/rindex.c:160-162: entry i of the copy of the index in memory, which is
   align_size bytes long *)
Definition entry_at_off (g : geom) (area : bytes) (ent : Z) : option rentry :=
  if (0 <=? ent) && (ent + 64 <=? g_align g)
  then Some (rindex_entry_in (get (Z.to_nat ent) 64 area)) else None.
Definition entry_at (g : geom) (area : bytes) (i : nat) : option rentry :=
  entry_at_off g area (ent_offset_of g i).

Inductive find := FindFree | FindName (name : bytes).

(* src/rindex.c:164-175 *)
Definition is_free (re : rentry) : bool := (re_res_offset re =? 0)%N && (hd 0%N (re_name re) =? 0)%N.
Definition hits (f : find) (re : rentry) : bool :=
  match f with
  | FindFree => is_free re
  | FindName name => negb (hd 0%N (re_name re) =? 0)%N && strncmp_eq NAME_ID_SIZE (re_name re) name
  end.

Inductive sres := SFound (i : nat) (ent res : Z) | SNone | SUb.

(* src/rindex.c:140-177 *)
Fixpoint search_from (g : geom) (area : bytes) (f : find) (fuel i : nat) : sres :=
  match fuel with
  | O => SNone
  | S n =>
    match entry_at g area i with
    | None => SUb
    | Some re =>
      if hits f re then
        match res_offset_of g i with
        | Some r => SFound i (ent_offset_of g i) r
        | None => SUb
        end
      else search_from g area f n (S i)
    end
  end.
Definition search_entries (g : geom) (area : bytes) (f : find) : sres :=
  search_from g area f (Z.to_nat (max_of g)) 0.

(* src/rindex.c:213-218: the new entry; rindex_entry_out does not touch all of
   re_end only if there were padding, and there is none *)
Definition entry_bytes (re : rentry) : bytes := rindex_entry_out re (repeat 0%N 64).
Definition new_entry (name : bytes) (res : Z) : rentry := mkRentry (Z.to_N res) 0 0 name.
Definition no_entry : rentry := mkRentry 0 0 0 (repeat 0%N 48).

(* src/rindex.c:179-236: the sector offset and the sector written.  [area] is the
   copy in memory.  sector_offset and entry_offset_in_sector are uint32_t. *)
Definition update_rindex (g : geom) (area : bytes) (re : rentry) (ent : Z) : option (Z * bytes) :=
  let so := ((ent / g_ss g) * g_ss g) mod 2 ^ 32 in
  let eo := (ent mod g_ss g) mod 2 ^ 32 in
  if (so + g_ss g <=? g_align g) && (eo + 64 <=? g_ss g) then
    Some (so, put (Z.to_nat eo) (entry_bytes re) (get (Z.to_nat so) (Z.to_nat (g_ss g)) area))
  else None.

(* ---------------- the disk ---------------- *)
(* the index area, and for each byte offset the name of the lease whose leader
   record, with the magic number of a lease, starts there (T_CHECK_EXISTS,
   src/paxos_lease.c:1107-1119, looks at nothing else) *)
Record rdisk := mkRdisk { d_area : bytes; d_lease : Z -> option bytes }.
Definition set_lease (d : rdisk) (off : Z) (v : option bytes) : rdisk :=
  mkRdisk (d_area d) (fun o => if o =? off then v else d_lease d o).
Definition set_sector (d : rdisk) (so : Z) (sec : bytes) : rdisk :=
  mkRdisk (put (Z.to_nat so) sec (d_area d)) (d_lease d).

(* strncpy into a 48 byte name, src/paxos_lease.c:2464-2465 *)
Definition name48 (name : bytes) : bytes :=
  cstr NAME_ID_SIZE name ++ repeat 0%N (NAME_ID_SIZE - length (cstr NAME_ID_SIZE name)).

(* the outcome of one write: the return value and whether the sectors got to the
   disk.  A crash before, during or after a write is an error return after which
   the operation does nothing more.  A positive value is the return value of
   posix_memalign, in which case nothing was written. *)
Record iout := mkIout { io_rv : Z; io_landed : bool }.
Definition iout_ok (o : iout) : Prop :=
  (io_rv o = 0 -> io_landed o = true) /\ (0 < io_rv o -> io_landed o = false).

Inductive ores := OUb | ORet (rv : Z) (off : Z) (d : rdisk).

(* src/rindex.c:482-617, from read_rindex on *)
Definition rindex_create (g : geom) (d : rdisk) (name : bytes) (init upd : iout) : ores :=
  match search_entries g (d_area d) FindFree with
  | SUb => OUb
  | SNone => ORet (- ENOENT) 0 d
  | SFound i ent res =>
    let d1 := if io_landed init then set_lease d res (Some (name48 name)) else d in
    if io_rv init <? 0 then ORet (io_rv init) 0 d1
    else match update_rindex g (d_area d) (new_entry name res) ent with
         | None => OUb
         | Some (so, sec) =>
           let d2 := if io_landed upd then set_sector d1 so sec else d1 in
           if io_rv upd <? 0 then ORet (io_rv upd) 0 d2 else ORet 0 res d2
         end
  end.

(* src/rindex.c:624-753; the offset of the request is only checked for alignment *)
Definition rindex_delete (g : geom) (d : rdisk) (name : bytes) (req_off : Z) (upd init : iout) : ores :=
  if negb (req_off =? 0) && negb (req_off mod g_align g =? 0) then ORet SANLK_RINDEX_OFFSET 0 d
  else
  match search_entries g (d_area d) (FindName name) with
  | SUb => OUb
  | SNone => ORet (- ENOENT) 0 d
  | SFound i ent res =>
    match update_rindex g (d_area d) no_entry ent with
    | None => OUb
    | Some (so, sec) =>
      let d1 := if io_landed upd then set_sector d so sec else d in
      if io_rv upd <? 0 then ORet (io_rv upd) 0 d1
      else
        let d2 := if io_landed init then set_lease d1 res None else d1 in
        if io_rv init <? 0 then ORet (io_rv init) 0 d2 else ORet 0 0 d2
    end
  end.

(* src/rindex.c:823-824, 913-914: the entry an offset is taken to mean.
   The quotient is uint64_t and is stored in an int; the entry offset is int
   times size_t. *)
Definition entry_num_of (g : geom) (off : Z) : Z :=
  wrap32 (((off - g_off g - 2 * g_align g) mod 2 ^ 64) / g_align g).
Definition ent_of_off (g : geom) (off : Z) : Z :=
  (g_ss g + entry_num_of g off * 64) mod 2 ^ 64.
(* the pointer rindex_iobuf + ent_offset for an offset beyond 2^63 is before the buffer *)
Definition signed64 (x : Z) : Z := if x <? 2 ^ 63 then x else x - 2 ^ 64.

Inductive lres := LUb | LRet (rv : Z) (name : bytes) (off : Z).

(* src/rindex.c:755-877 *)
Definition rindex_lookup (g : geom) (area : bytes) (name : bytes) (off : Z) : lres :=
  if negb (off =? 0) && negb (off mod g_align g =? 0) then LRet SANLK_RINDEX_OFFSET [] 0
  else if (hd 0%N name =? 0)%N then
    if off =? 0 then
      match search_entries g area FindFree with
      | SUb => LUb
      | SNone => LRet (- ENOENT) [] 0
      | SFound _ _ res => LRet 0 (repeat 0%N 48) res
      end
    else match entry_at_off g area (signed64 (ent_of_off g off)) with
         | None => LUb
         | Some re => LRet 0 (re_name re) off
         end
  else
    if off =? 0 then
      match search_entries g area (FindName name) with
      | SUb => LUb
      | SNone => LRet (- ENOENT) [] 0
      | SFound _ _ res => LRet 0 name res
      end
    else match entry_at_off g area (signed64 (ent_of_off g off)) with
         | None => LUb
         | Some re =>
           LRet (if strncmp_eq NAME_ID_SIZE name (re_name re) then 0 else SANLK_RINDEX_DIFF) (re_name re) off
         end.

(* src/rindex.c:879-966; flags SANLK_RXUP_REM and SANLK_RXUP_ADD *)
Definition rindex_update (g : geom) (d : rdisk) (name : bytes) (off : Z) (rem add : bool) (upd : iout) : ores :=
  if negb (off =? 0) && negb (off mod g_align g =? 0) then ORet SANLK_RINDEX_OFFSET 0 d
  else
    let ent := ent_of_off g off in
    let go (re : rentry) (ret : Z) :=
      match update_rindex g (d_area d) re ent with
      | None => OUb
      | Some (so, sec) =>
        let d1 := if io_landed upd then set_sector d so sec else d in
        if io_rv upd <? 0 then ORet (io_rv upd) 0 d1 else ORet 0 ret d1
      end in
    if rem && negb (off =? 0) then go no_entry 0
    else if add && negb (hd 0%N name =? 0)%N && negb (off =? 0) then go (new_entry name off) off
    else ORet (- EINVAL) 0 d.

(* ---------------- rebuild, src/rindex.c:968-1146 ---------------- *)
(* what reading the leader at a lease offset gives: an error, the end of the
   device, or what is there *)
Inductive rdout := RdErr | RdEnd | RdOk.

(* line 1081, 1124: uint64_t additions *)
Definition slot_off (g : geom) (i : nat) : Z := g_off g + 2 * g_align g + Z.of_nat i * g_align g.

(* lines 1083-1125: the loop over slots; [None] is an entry written outside the buffer *)
Fixpoint rebuild_from (g : geom) (lease : Z -> option bytes) (rd : nat -> rdout) (area : bytes) (fuel i : nat)
  : option bytes :=
  match fuel with
  | O => Some area
  | S n =>
    match rd i with
    | RdEnd => Some area
    | RdErr => rebuild_from g lease rd area n (S i)
    | RdOk =>
      match lease (slot_off g i mod 2 ^ 64) with
      | None => rebuild_from g lease rd area n (S i)
      | Some name =>
        if ent_offset_of g i + 64 <=? g_align g then
          rebuild_from g lease rd
            (put (Z.to_nat (ent_offset_of g i)) (entry_bytes (new_entry name (slot_off g i mod 2 ^ 64))) area) n (S i)
        else None
      end
    end
  end.

(* line 1059: the header sector followed by zeros *)
Definition blank_area (g : geom) (area : bytes) : bytes :=
  get 0 (Z.to_nat (g_ss g)) area ++ repeat 0%N (Z.to_nat (g_align g - g_ss g)).

(* line 1127: the whole area is written by one call; if it fails or the host
   crashes any subset [torn] of the sectors may have been written *)
Definition torn_area (g : geom) (torn : nat -> bool) (new old : bytes) : bytes :=
  map (fun k => if torn (k / Z.to_nat (g_ss g))%nat then nth k new 0%N else nth k old 0%N) (seq 0 (length old)).

Definition rindex_rebuild (g : geom) (d : rdisk) (rd : nat -> rdout) (rv : Z) (torn : nat -> bool) : ores :=
  match rebuild_from g (d_lease d) rd (blank_area g (d_area d)) (Z.to_nat (max_of g)) 0 with
  | None => OUb
  | Some a =>
    if rv <? 0 then ORet rv 0 (mkRdisk (torn_area g torn a (d_area d)) (d_lease d))
    else ORet 0 0 (mkRdisk a (d_lease d))
  end.
