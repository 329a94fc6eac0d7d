(* Initialising leases.
   Code: src/paxos_lease.c:2410-2517 (paxos_lease_init), src/delta_lease.c:834-945
   (delta_lease_init), 211-249 (delta_read_lockspace_sizes), 251-286
   (delta_lease_leader_read).

   An area is a map from sector numbers to sector contents, for the sector size the
   area is formatted with.  Memory allocation succeeds. *)
From Coq Require Import List NArith ZArith Lia Bool Arith.
From Verif Require Import Bytes Crc Codec Leader Sizes.
Import ListNotations.
Open Scope Z_scope.

Definition area := Z -> bytes.

(* strncpy into a 48 byte member *)
Definition strncpy48 (s : bytes) : bytes :=
  cstr NAME_ID_SIZE s ++ repeat 0%N (NAME_ID_SIZE - length (cstr NAME_ID_SIZE s)).

Definition DEFAULT_MAX_HOSTS : Z := 2000.
(* 2427-2437, 850-861: the sizes from the flags, or the historical ones of the disk.
   A disk sector size other than 512 and 4096 gives an area size of -1, with which
   posix_memalign and memset are called: outside the model (None). *)
Definition init_sizes (flags : N) (disk_ss : Z) : option (Z * Z * Z) :=
  match sizes_from_flags flags with
  | None => None
  | Some (ss, al, mh) =>
    if ss =? 0
    then let al := sector_size_to_align_size_old disk_ss in
         if al <? 0 then None else Some (disk_ss, al, DEFAULT_MAX_HOSTS)
    else Some (ss, al, mh)
  end.

(* 2439-2440; the result is stored in a uint64_t *)
Definition init_num_hosts (num_hosts max_hosts : Z) : N :=
  let n := if (num_hosts =? 0) || (max_hosts <? num_hosts) then max_hosts else num_hosts in
  Z.to_N (n mod 2 ^ 64).

(* 2454-2472 *)
Definition init_leader (clear : bool) (now : N) (ss al mh : Z) (nh : N) (space res : bytes) : leader :=
  mkLeader (if clear then PAXOS_DISK_CLEAR else PAXOS_DISK_MAGIC)
    (N.lor PAXOS_DISK_VERSION_MAJOR PAXOS_DISK_VERSION_MINOR)
    (align_flag_from_size al) (Z.to_N ss) nh (Z.to_N mh) 0 0 0
    (strncpy48 space) (strncpy48 res) 0 0 0 0 0 0 0 (if clear then now else 0%N).
(* 2474-2476, src/leader.h:94-96 *)
Definition init_request : request := mkRequest 0x08292011 0x00010001 0 0.

(* 2478-2490: the zeroed buffer with the two records; [je], [jr]: the previous contents
   of the local variables leader_end and rr_end *)
Definition init_image (ss : Z) (lr : leader) (je jr : bytes) : area := fun i =>
  let n := Z.to_nat ss in
  if i =? 0 then leader_bytes lr je ++ zeros (n - LEADER_SIZE)
  else if i =? 1 then request_record_out init_request jr ++ zeros (n - REQUEST_SIZE)
  else zeros n.

(* a write of the sectors [0, cnt) of which those in [land] reach the disk *)
Definition write_area (cnt : Z) (land : Z -> bool) (img old : area) : area := fun i =>
  if (0 <=? i) && (i <? cnt) && land i then img i else old i.
Definition all_land : Z -> bool := fun _ => true.

(* paxos_lease_init on disks with contents [olds], all writes succeeding *)
Definition paxos_init (flags : N) (disk_ss num_hosts : Z) (clear : bool) (now : N)
           (space res je jr : bytes) (olds : list area) : option (list area) :=
  match init_sizes flags disk_ss with
  | None => None
  | Some (ss, al, mh) =>
    let img := init_image ss (init_leader clear now ss al mh (init_num_hosts num_hosts mh) space res) je jr in
    Some (map (write_area (al / ss) all_land img) olds)
  end.

(* ---------------- lockspaces ---------------- *)
(* 873-884 *)
Definition delta_leader (magic : N) (ss al io_timeout : Z) (space : bytes) : leader :=
  mkLeader magic (N.lor DELTA_DISK_VERSION_MAJOR DELTA_DISK_VERSION_MINOR)
    (align_flag_from_size al) (Z.to_N ss) 0 1 0 0 0
    (strncpy48 space) (repeat 0%N NAME_ID_SIZE) 0 0 0 0 (Z.to_N (io_timeout mod 2 ^ 16)) 0 0 0.
(* 870-903: the first record is written with magic 0 *)
Definition delta_image (ss al mh io_timeout : Z) (space je : bytes) : area := fun i =>
  let n := Z.to_nat ss in
  if (0 <=? i) && (i <? mh)
  then leader_bytes (delta_leader (if i =? 0 then 0%N else DELTA_DISK_MAGIC) ss al io_timeout space) je ++ zeros (n - LEADER_SIZE)
  else zeros n.
(* 923-938: the first sector with the right magic *)
Definition delta_commit (ss al io_timeout : Z) (space je : bytes) : bytes :=
  leader_bytes (delta_leader DELTA_DISK_MAGIC ss al io_timeout space) je ++ zeros (Z.to_nat ss - LEADER_SIZE).

(* how far delta_lease_init gets: only some sectors of the first write, or all of them
   and perhaps the second write (one sector, atomic) *)
Inductive dprogress := DTorn (land : Z -> bool) | DFirst | DDone.
Definition delta_init (flags : N) (disk_ss io_timeout : Z) (space je je' : bytes) (p : dprogress) (old : area) : option area :=
  match init_sizes flags disk_ss with
  | None => None
  | Some (ss, al, mh) =>
    let img := delta_image ss al mh io_timeout space je in
    Some (match p with
          | DTorn land => write_area (al / ss) land img old
          | DFirst => write_area (al / ss) all_land img old
          | DDone => let a := write_area (al / ss) all_land img old in
                     fun i => if i =? 0 then delta_commit ss al io_timeout space je' else a i
          end)
  end.

(* delta_read_lockspace_sizes on the first sector: what lockspace_thread asks first *)
Definition read_sizes (first : bytes) : Z * (Z * Z) :=
  let lr := fst (read_leader_sector first) in
  if negb (N.eqb (l_magic lr) DELTA_DISK_MAGIC) then (SANLK_LEADER_MAGIC, (0, 0))
  else if negb (N.eqb (N.land (l_version lr) 0xFFFF0000) DELTA_DISK_VERSION_MAJOR) then (SANLK_LEADER_VERSION, (0, 0))
  else let ss := Z.of_N (l_sector_size lr) in
       let al := align_size_from_flag (l_flags lr) in
       (SANLK_OK, (ss, if al =? 0 then sector_size_to_align_size_old ss else al)).
(* delta_lease_leader_read of host [h] with the sector size in use *)
Definition delta_read (space : bytes) (h : Z) (a : area) : Z * leader :=
  let '(lr, ck) := read_leader_sector (a (delta_sector h)) in (delta_verify_leader space lr ck, lr).
