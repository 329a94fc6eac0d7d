(* delta_lease_renew, src/delta_lease.c:516-779, on whole records and buffers.

   Not modelled: timing statistics, logging, the memory of the read buffer (see
   Aio.v), failure of posix_memalign. *)
From Coq Require Import List NArith ZArith Lia Bool Arith ZifyBool ZifyN.
From Verif Require Import Bytes Crc Codec Leader LeaderReadNum Acquire.
Import ListNotations.
Open Scope N_scope.

Definition SANLK_AIO_TIMEOUT : Z := (-202).    (* src/sanlock_rv.h *)
Definition SANLK_RENEW_OWNER : Z := (-260).
Definition SANLK_RENEW_DIFF : Z := (-261).
Definition EINVAL : Z := 22.

Definition LEADER_RECORD_MAX : nat := 256.     (* src/leader.h:87 *)
Definition HOSTID_BITMAP_SIZE : nat := 256.    (* src/leader.h:89 *)

Inductive rnres :=
| RnUb                                          (* reads past the end of the read buffer *)
| Rn (rv : Z)                                   (* return value *)
     (w : option (N * bytes))                   (* write_iobuf: offset in the lockspace and sector *)
     (ret : option leader).                     (* *leader_ret, if stored *)

(* memcmp(a, b, NAME_ID_SIZE) of two 48-byte arrays *)
Definition bytes_eqb (a b : bytes) : bool :=
  if list_eq_dec N.eq_dec a b then true else false.

(* (host_id - 1) * sector_size in 64 bit unsigned arithmetic *)
Definition id_offset (host_id ss : N) : N := ((host_id + (2 ^ 64 - 1)) mod 2 ^ 64 * ss) mod 2 ^ 64.

(* 704-724: the record to be written *)
Definition renew_record (io_timeout new_ts : N) (extra : option (N * N * N)) (l : leader) : leader :=
  {| l_magic := l_magic l; l_version := l_version l; l_flags := l_flags l;
     l_sector_size := l_sector_size l; l_num_hosts := l_num_hosts l; l_max_hosts := l_max_hosts l;
     l_owner_id := l_owner_id l; l_owner_generation := l_owner_generation l; l_lver := l_lver l;
     l_space_name := l_space_name l; l_resource_name := l_resource_name l;
     l_timestamp := new_ts; l_unused1 := l_unused1 l; l_checksum := 0; l_unused2 := l_unused2 l;
     l_io_timeout := if l_io_timeout l =? io_timeout then l_io_timeout l else N.land io_timeout 0xFF;
     l_write_id := match extra with Some (a, _, _) => a | None => l_write_id l end;
     l_write_generation := match extra with Some (_, b, _) => b | None => l_write_generation l end;
     l_write_timestamp := match extra with Some (_, _, c) => c | None => l_write_timestamp l end |}.

(* 726-742: the sector to be written; e: the record as it was read *)
Definition renew_sector (ss : nat) (nl : leader) (e bitmap : bytes) : bytes :=
  put LEADER_RECORD_MAX bitmap (put 0 (leader_bytes nl e) (zeros ss)).

(* read: result of read_iobuf or of read_iobuf_reap (590-594, 664), and the
   lockspace area; wrv: result of write_iobuf *)
Definition delta_lease_renew (space : bytes) (io_timeout ss align : N) (bitmap : bytes)
           (extra : option (N * N * N)) (prev_result : Z) (last : leader)
           (read : Z * bytes) (new_ts : N) (wrv : Z) : rnres :=
  let off := id_offset (l_owner_id last) ss in
  if align <? off then Rn (- EINVAL) None None
  else
    let (rv, iobuf) := read in
    if negb (rv =? 0)%Z then Rn rv None None
    else if align <? off + N.of_nat LEADER_SIZE then RnUb
    else
      let e := get (N.to_nat off) LEADER_SIZE iobuf in
      let checksum := leader_checksum e in
      let l := leader_record_in e in
      let vrv := delta_verify_leader space l checksum in
      if (vrv <? 0)%Z then Rn vrv None None
      else if negb (l_owner_id l =? l_owner_id last) ||
              negb (l_owner_generation l =? l_owner_generation last) ||
              negb (bytes_eqb (l_resource_name l) (l_resource_name last))
           then Rn SANLK_RENEW_OWNER None None
      else if (prev_result =? SANLK_OK)%Z && negb (leader_eqb l last)
           then Rn SANLK_RENEW_DIFF None None
      else
        let nl := renew_record io_timeout new_ts extra l in
        let w := Some (off, renew_sector (N.to_nat ss) nl e bitmap) in
        if (wrv <? 0)%Z then Rn wrv w None
        else Rn SANLK_OK w (Some (leader_set_checksum nl (leader_checksum (leader_bytes nl e)))).

Lemma bytes_eqb_eq a b : bytes_eqb a b = true <-> a = b.
Proof. unfold bytes_eqb. destruct (list_eq_dec N.eq_dec a b); split; congruence. Qed.

Lemma id_offset_small h ss : 1 <= h -> h < 2 ^ 64 -> (h - 1) * ss < 2 ^ 64 -> id_offset h ss = (h - 1) * ss.
Proof.
  intros H1 H2 H3. unfold id_offset.
  replace (h + (2 ^ 64 - 1)) with (h - 1 + 1 * 2 ^ 64) by lia.
  rewrite N.mod_add by lia. rewrite (N.mod_small (h - 1)) by lia. apply N.mod_small. auto.
Qed.
