(* paxos_lease_release, src/paxos_lease.c:2230-2408, and release_disk,
   src/resource.c:812-828. *)
From Coq Require Import List NArith ZArith Lia Bool Arith ZifyBool ZifyN.
From Verif Require Import Bytes Crc Codec Leader LeaderReadNum Acquire.
Import ListNotations.
Open Scope N_scope.

Definition SANLK_RELEASE_LVER : Z := (-250).   (* src/sanlock_rv.h *)
Definition SANLK_RELEASE_OWNER : Z := (-251).

Record relres := mkRr {
  rr_rv : Z;
  rr_write : option leader;     (* the record handed to write_new_leader *)
  rr_ret : option leader }.     (* what was stored to *leader_ret; None: nothing *)

(* 2389-2398 *)
Definition freed (host gen now : N) (rename : option bytes) (l : leader) : leader :=
  {| l_magic := l_magic l; l_version := l_version l;
     l_flags := N.ldiff (l_flags l) LFL_SHORT_HOLD;
     l_sector_size := l_sector_size l; l_num_hosts := l_num_hosts l; l_max_hosts := l_max_hosts l;
     l_owner_id := l_owner_id l; l_owner_generation := l_owner_generation l; l_lver := l_lver l;
     l_space_name := l_space_name l;
     l_resource_name := match rename with Some n => n | None => l_resource_name l end;
     l_timestamp := LEASE_FREE; l_unused1 := l_unused1 l; l_checksum := 0; l_unused2 := l_unused2 l;
     l_io_timeout := l_io_timeout l;
     l_write_id := host; l_write_generation := gen; l_write_timestamp := now |}.

(* read: result of paxos_lease_leader_read; wrv: result of write_new_leader *)
Definition paxos_lease_release (host gen : N) (rename : option bytes) (leader_last : option leader)
           (read : Z * leader) (now : N) (wrv : Z) : relres :=
  let (rv, l) := read in
  if (rv <? 0)%Z then mkRr rv None None
  else
    let last := match leader_last with Some x => x | None => l end in
    if negb (l_write_id l =? host) then mkRr 0 None None
    else if negb (l_lver l =? l_lver last) then mkRr SANLK_RELEASE_LVER None None
    else if l_timestamp l =? LEASE_FREE then mkRr SANLK_RELEASE_OWNER None None
    else if negb (l_owner_id l =? host) || negb (l_owner_generation l =? gen)
         then mkRr SANLK_RELEASE_OWNER None None
    else if negb (leader_eqb l last) then mkRr SANLK_RELEASE_OWNER None None
    else
      let nl := freed host gen now rename l in
      if (wrv <? 0)%Z then mkRr wrv (Some nl) None else mkRr wrv (Some nl) (Some nl).

(* src/resource.c:812-828: the caller's copy of the leader afterwards; None: it
   was overwritten with an uninitialised structure *)
Definition release_disk (host gen : N) (rename : option bytes) (leader : leader)
           (read : Z * Codec.leader) (now : N) (wrv : Z) : Z * option Codec.leader :=
  let r := paxos_lease_release host gen rename (Some leader) read now wrv in
  if (rr_rv r <? 0)%Z then (rr_rv r, Some leader) else (rr_rv r, rr_ret r).
