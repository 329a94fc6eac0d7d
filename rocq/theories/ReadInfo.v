(* Reading the description of a lockspace or resource from its disk:
   src/cmd.c:1527-1603 cmd_read_lockspace, 1605-1703 cmd_read_resource,
   src/delta_lease.c:149-209 delta_read_lockspace, 211-249 delta_read_lockspace_sizes,
   src/paxos_lease.c:365-390 read_leader, 1073-1144 paxos_read_resource,
   src/diskio.c:932-974 read_sectors (the place that is read),
   src/client.c:444-503 sanlock_read_lockspace, 505-568 sanlock_read_resource.

   A device is its bytes and the error a read at an offset ends with (0: none).
   Left out: allocation failures, logging, the flag T_CHECK_EXISTS (only set by
   the rebuild of an index). *)
From Coq Require Import List NArith ZArith Lia Bool Arith.
From Verif Require Import Bytes Crc Codec Leader Sizes DiskLoop Majority.
Import ListNotations.
Open Scope N_scope.

Record device := mkDev { dv_bytes : content; dv_error : N -> Z }.

(* diskio.c:932-974: the first 200 bytes of the sector, or an error; the sum is
   computed in 64 bits *)
Inductive rd := RErr (rv : Z) | RData (b : bytes).
Definition read_sector (dv : device) (off : N) (ss : Z) (nr : N) : rd :=
  if negb (Z.eqb ss 512 || Z.eqb ss 4096) then RErr (-22)
  else let at_ := (off + nr * Z.to_N ss) mod 2 ^ 64 in
       if (dv_error dv at_ <? 0)%Z then RErr (dv_error dv at_) else RData (fetch (dv_bytes dv) at_ LEADER_SIZE).

(* the members of struct sanlk_lockspace that matter; name has 48 bytes *)
Record lsinfo := mkLs { ls_name : bytes; ls_host : N; ls_flags : N; ls_off : N }.

(* sizeflags.c:161-173 (lsf), 225-237 (res) *)
Definition ALL_SIZE_FLAGS : N := 0x3F0.
Definition clear_flags (f : N) : N := N.ldiff f ALL_SIZE_FLAGS.

(* the area size of a record: delta_lease.c:195-197, 243-245, paxos_lease.c:1122-1124 *)
Definition record_align (lr : leader) : Z :=
  let al := align_size_from_flag (l_flags lr) in
  if (al =? 0)%Z then sector_size_to_align_size_old (Z.of_N (l_sector_size lr)) else al.
Definition size_flags (lr : leader) : N :=
  N.lor (sector_size_to_flag (Z.of_N (l_sector_size lr))) (align_flag_from_size (record_align lr)).

(* delta_lease.c:211-249 *)
Definition read_lockspace_sizes (dv : device) (off : N) : Z * Z :=
  match read_sector dv off 4096 0 with
  | RErr rv => (rv, 0%Z)
  | RData e =>
      let lr := leader_record_in e in
      if negb (l_magic lr =? DELTA_DISK_MAGIC) then (SANLK_LEADER_MAGIC, 0%Z)
      else if negb (N.land (l_version lr) 0xFFFF0000 =? DELTA_DISK_VERSION_MAJOR) then (SANLK_LEADER_VERSION, 0%Z)
      else (SANLK_OK, Z.of_N (l_sector_size lr))
  end.

(* delta_lease.c:149-209: result, structure, io_timeout *)
Definition delta_read_lockspace (dv : device) (ss : Z) (h : N) (ls : lsinfo) : Z * lsinfo * N :=
  match read_sector dv (ls_off ls) ss ((h - 1) mod 2 ^ 64) with
  | RErr rv => (rv, ls, 0)
  | RData e =>
      let lr := leader_record_in e in
      let name := if hd 0 (ls_name ls) =? 0 then l_space_name lr else ls_name ls in
      let rv := delta_verify_leader name lr (leader_checksum e) in
      if Z.eqb rv SANLK_OK
      then (rv, mkLs (l_space_name lr) h (N.lor (clear_flags (ls_flags ls)) (size_flags lr)) (ls_off ls), l_io_timeout lr)
      else (rv, ls, 0)
  end.

(* cmd.c:1527-1603 after the structure was received; opened: open_disk succeeded.
   The last two are what the client is sent. *)
Definition read_lockspace (path_empty opened : bool) (dv : device) (ls : lsinfo) : Z * lsinfo * N :=
  let h := if ls_host ls =? 0 then 1 else ls_host ls in
  if path_empty then ((-19)%Z, ls, 0)
  else if negb opened then ((-19)%Z, ls, 0)
  else
    let ss := sector_flag_to_size (ls_flags ls) in
    let '(rv, ss) := if Z.eqb ss 0 then let '(rv, s) := read_lockspace_sizes dv (ls_off ls) in
                       (if (rv <? 0)%Z then rv else if negb (Z.eqb s 512 || Z.eqb s 4096) then (-22)%Z else 0%Z, s)
                     else (0%Z, ss) in
    if (rv <? 0)%Z then (rv, ls, 0)
    else let '(r, ls', io) := delta_read_lockspace dv ss h ls in
         (if Z.eqb r SANLK_OK then 0%Z else r, ls', io).

(* cmd.c:1541-1547, 1590-1602 with what was received: None when the structure did not
   arrive in full, then the answer carries the uninitialised variable (None) *)
Definition cmd_read_lockspace (recv : option lsinfo) (path_empty opened : bool) (dv : device) : Z * option lsinfo * N :=
  match recv with
  | None => ((-107)%Z, None, 0)
  | Some ls => let '(rv, ls', io) := read_lockspace path_empty opened dv ls in (rv, Some ls', io)
  end.

(* struct sanlk_resource, and one of its disks: device, offset, the result of open_disk *)
Record resinfo := mkRes { rs_space : bytes; rs_name : bytes; rs_lver : N; rs_flags : N }.
Record rdisk := mkRd { rd_dev : device; rd_off : N; rd_open : Z }.
Definition is_open (d : rdisk) : bool := negb (rd_open d <? 0)%Z.
(* a read on the descriptor -1 of a disk that was not opened fails *)
Definition disk_sector (d : rdisk) (ss : Z) : rd :=
  if is_open d then read_sector (rd_dev d) (rd_off d) ss 0 else RErr (-1).

(* paxos_lease.c:1073-1144 *)
Definition paxos_read_resource (d : rdisk) (rs : resinfo) : Z * resinfo :=
  let ss := sector_flag_to_size (rs_flags rs) in
  let ss := if Z.eqb ss 0 then 4096%Z else ss in
  match disk_sector d ss with
  | RErr rv => (rv, rs)
  | RData e =>
      let lr := leader_record_in e in
      let sp := if hd 0 (rs_space rs) =? 0 then l_space_name lr else rs_space rs in
      let rn := if hd 0 (rs_name rs) =? 0 then l_resource_name lr else rs_name rs in
      let rv := verify_leader sp rn 0 lr (leader_checksum e) in
      if Z.eqb rv SANLK_OK
      then (rv, mkRes (l_space_name lr) (l_resource_name lr) (l_lver lr)
                  (if (l_sector_size lr =? 512) || (l_sector_size lr =? 4096)
                   then N.lor (clear_flags (rs_flags rs)) (size_flags lr) else rs_flags rs))
      else (rv, rs)
  end.

(* cmd.c:1605-1703 with open_disks (diskio.c:331-373): a majority has to open, the
   error is the last one; only the first disk is read *)
Definition SANLK_MAX_DISKS : nat := 4.
Definition n_open (ds : list rdisk) : Z := Z.of_nat (length (filter is_open ds)).
Definition open_error (ds : list rdisk) : Z := fold_left (fun rv d => if is_open d then rv else rd_open d) ds (-1)%Z.
Definition read_resource (ds : list rdisk) (rs : resinfo) : Z * resinfo :=
  match ds with
  | [] => ((-34)%Z, rs)
  | d :: _ =>
      if Nat.ltb SANLK_MAX_DISKS (length ds) then ((-34)%Z, rs)
      else if negb (majority_disks (Z.of_nat (length ds)) (n_open ds)) then (open_error ds, rs)
      else let '(rv, rs') := paxos_read_resource d rs in (if Z.eqb rv SANLK_OK then 0%Z else rv, rs')
  end.
