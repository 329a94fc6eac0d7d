(* `sanlock direct dump` and `sanlock direct next_free`: src/direct.c:553-853 direct_dump, 855-928 direct_next_free,
   41-79 direct_read_leader_sizes; src/diskio.c:932-974 read_sectors.
   Buffers and the device are functions from offsets to bytes.  A read of the device succeeds or fails as a whole
   (read_sectors copies nothing when it fails).  What is printed is a structure, not text.
   Simplified: numbers do not wrap and -Z is not negative; open_disk succeeds; malloc fails only for a negative size; the loops over the hosts
   of a lease and over the entries of a sector are cut at the end of the buffer, where going on is undefined. *)
From Coq Require Import List NArith ZArith Lia Bool Arith.
From Verif Require Import Bytes Codec Leader Sizes Bitmap Strings ArgStr.
Import ListNotations.
Open Scope N_scope.

Definition RINDEX_DISK_MAGIC : N := 0x01042018.    (* src/rindex_disk.h:73 *)
Definition MB : N := 1048576.

Definition mem := N -> N.
Definition seqN (n : N) : list N := map N.of_nat (seq 0 (N.to_nat n)).
Definition fget (m : mem) (off : N) (n : nat) : bytes := map (fun i => m (off + N.of_nat i)) (seq 0 n).

Record device := mkDev { dv_size : N; dv_byte : mem; dv_fail : N -> N -> bool }.    (* I/O error of a read at offset, length *)
Definition dread (dv : device) (off len : N) : option mem :=
  if (off + len <=? dv_size dv) && negb (dv_fail dv off len) then Some (fun i => dv_byte dv (off + i)) else None.
(* read_sectors *)
Definition read_sectors (dv : device) (base ss nr count : N) : option mem :=
  if (ss =? 512) || (ss =? 4096) then dread dv (base + nr * ss) (count * ss) else None.

(* direct_read_leader_sizes: None for an error, result -1 for no magic number *)
Inductive szres := SzErr | SzNone | SzSome (ss : N) (al : Z).
Definition read_sizes (dv : device) (off : N) : szres :=
  match read_sectors dv off 4096 0 1 with
  | None => SzErr
  | Some m =>
      let lr := leader_record_in (fget m 0 200) in
      if (l_magic lr =? DELTA_DISK_MAGIC) || (l_magic lr =? PAXOS_DISK_MAGIC) then
        let al := align_size_from_flag (l_flags lr) in
        SzSome (l_sector_size lr) (if (al =? 0)%Z then sector_size_to_align_size_old (Z.of_N (l_sector_size lr)) else al)
      else SzNone
  end.
Definition known_sizes (ss : N) (al : Z) : bool := negb (ss =? 0) && negb (al =? 0)%Z.
(* 650-665; with the result of the last read *)
Fixpoint find_sizes (n : nat) (dv : device) (start size off : N) (ss : N) (al : Z) (rv : Z) : N * Z * Z :=
  match n with
  | O => (ss, al, rv)
  | S n =>
      let '(ss, al, rv) := match read_sizes dv off with SzSome s a => (s, a, 0%Z) | SzNone => (ss, al, (-1)%Z) | SzErr => (ss, al, (-5)%Z) end in
      if known_sizes ss al then (ss, al, rv)
      else let off := off + MB in
           if negb (size =? 0) && (start + size <=? off) then (ss, al, rv)
           else find_sizes n dv start size off ss al rv
  end.

Inductive dline :=
| DHost (off : N) (ls name : bytes) (ts own gen : N) (bits : option (list N))
| DLease (off : N) (ls name : bytes) (ts own gen lver : N) (req : option (N * N))
| DBlk (i mbal bal inp inp2 inp3 lver sum : N)
| DShared (id gen : N)
| DIndex (off : N) (ls : bytes) (flags ss max rx : N)
| DEntry (off : N) (ls name : bytes) (roff : N).

(* strncpy(sname, name, 48) into a cleared array of 49 *)
Definition nm (b : bytes) : bytes := upto_nul b.

(* 713-749 *)
Definition delta_lines (fm : N) (mh : N) (base ss sc : N) (data : mem) : list dline :=
  flat_map (fun i =>
    if le_dec (fget data (i * ss) 4) =? 0 then []
    else let lr := leader_record_in (fget data (i * ss) 200) in
         if (l_owner_id lr =? 0) && (l_owner_generation lr =? 0) then []
         else [DHost (base + i * ss) (nm (l_space_name lr)) (nm (l_resource_name lr)) (l_timestamp lr) (l_owner_id lr) (l_owner_generation lr)
                     (if fm =? 0 then None
                      else Some (filter (fun h => test_id_bit h (fget data (i * ss + 256) 256)) (map (fun b => b + 1) (seqN mh))))])
    (seqN sc).
(* 750-801 *)
Definition paxos_hosts (fm : N) (ss : N) (data : mem) (i : N) : list dline :=
  let pd := (2 + i) * ss in
  (if 1 <? fm then
     let d := paxos_dblock_in (fget data pd 56) in
     if negb (d_mbal d =? 0) || negb (d_inp d =? 0) || negb (d_lver d =? 0)
     then [DBlk i (d_mbal d) (d_bal d) (d_inp d) (d_inp2 d) (d_inp3 d) (d_lver d) (d_checksum d)] else []
   else []) ++
  (let mb := mode_block_in (fget data (pd + 128) 16) in
   if N.land (m_flags mb) MBLOCK_SHARED =? 0 then [] else [DShared (i + 1) (m_generation mb)]).
Definition paxos_lines (fm : N) (base ss sc : N) (data : mem) : list dline * bool :=
  let lr := leader_record_in (fget data 0 200) in
  let rr := request_record_in (fget data ss 24) in
  (DLease base (nm (l_space_name lr)) (nm (l_resource_name lr)) (l_timestamp lr) (l_owner_id lr) (l_owner_generation lr) (l_lver lr)
          (if fm =? 0 then None else Some (rr_lver rr, rr_force_mode rr)) ::
   flat_map (paxos_hosts fm ss data) (seqN (N.min (l_num_hosts lr) (sc - 2))),
   sc - 2 <? l_num_hosts lr).                                  (* data + (2 + i) * sector_size is behind the buffer *)
(* 802-837; printf %s of a name without a 0 goes on behind the structure *)
Definition has_nul (b : bytes) : bool := existsb (N.eqb 0) b.
Definition index_entry (base : N) (ls : bytes) (data : mem) (o : N) : list dline * bool :=
  let re := rindex_entry_in (fget data o 64) in
  if (re_res_offset re =? 0) && (hd 0 (re_name re) =? 0) then ([], false)
  else ([DEntry (base + o) ls (nm (re_name re)) (re_res_offset re)], negb (has_nul (re_name re))).
Definition index_lines (fm : N) (base ss sc : N) (data : mem) : list dline * bool :=
  let rh := rindex_header_in (fget data 0 80) in
  let ls := nm (rh_lockspace_name rh) in
  let es := if fm =? 0 then []
            else flat_map (fun i => map (fun j => index_entry base ls data (i * ss + j * 64)) (seqN (ss / 64))) (map (fun i => i + 1) (seqN (sc - 1))) in
  (DIndex base ls (rh_flags rh) (rh_sector_size rh) (rh_max_resources rh) (rh_rx_offset rh) :: flat_map fst es, existsb snd es).

Record dres := mkR { r_lines : list dline; r_ub : bool; r_rv : Z }.
(* the loop 703-846; None: it has not ended *)
Fixpoint dump_loop (n : nat) (dv : device) (fm mh start ss sc dlen last nr : N) (data : mem) : option (list dline * bool) :=
  match n with
  | O => None
  | S n =>
      if negb (last =? 0) && (last <=? nr) then Some ([], false)
      else if dlen <? ss then Some ([], true)                   (* memset(data, 0, sector_size) *)
      else
        let data := fun i => if i <? ss then 0 else data i in
        let data := match read_sectors dv start ss nr sc with Some m => m | None => data end in
        let magic := le_dec (fget data 0 4) in
        let base := start + nr * ss in
        let go (l : list dline) := match dump_loop n dv fm mh start ss sc dlen last (nr + sc) data with
                                   | Some (r, ub) => Some (l ++ r, ub) | None => None end in
        if magic =? DELTA_DISK_MAGIC then go (delta_lines fm mh base ss sc data)
        else if magic =? PAXOS_DISK_MAGIC then
          let '(l, ub) := paxos_lines fm base ss sc data in if ub then Some (l, true) else go l
        else if magic =? RINDEX_DISK_MAGIC then
          let '(l, ub) := index_lines fm base ss sc data in if ub then Some (l, true) else go l
        else if last =? 0 then Some ([], false)
        else go []
  end.
Definition fuel (dv : device) (ss sc last : N) : nat :=
  S (S (N.to_nat (if last =? 0 then dv_size dv / (sc * ss) else last / sc))).
(* 645-852; cs and ca are -Z and -A, 0 when not given *)
Definition dump (dv : device) (cs : N) (ca : Z) (fm start size : N) : option dres :=
  let '(ss, al, rv) := if known_sizes cs ca then (cs, ca, 0%Z) else find_sizes (N.to_nat 1024) dv start size start cs ca 0 in
  if negb (known_sizes ss al) then Some (mkR [] false rv)
  else if (al <? 0)%Z then Some (mkR [] false (-12))            (* malloc of (size_t) -1 *)
  else
    let dlen := Z.to_N al in
    let sc := dlen / ss in
    let last := if size =? 0 then 0 else size / ss in
    match dump_loop (fuel dv ss sc last) dv fm (Z.to_N (size_to_max_hosts (Z.of_N ss) al)) start ss sc dlen last 0 (fun _ => 0) with
    | Some (l, ub) => Some (mkR l ub 0)
    | None => None
    end.

(* ---------------- direct_next_free ---------------- *)
Inductive nres := NPrint (off : N) | NError | NLoops | NUB.
Fixpoint free_loop (n : nat) (dv : device) (base ss sc nr : N) : nres :=
  match n with
  | O => NLoops
  | S n =>
      let m := match read_sectors dv base ss nr 1 with Some m => m | None => fun _ => 0 end in
      let magic := l_magic (leader_record_in (fget m 0 200)) in
      if negb (magic =? DELTA_DISK_MAGIC) && negb (magic =? PAXOS_DISK_MAGIC) && negb (magic =? RINDEX_DISK_MAGIC)
      then NPrint (nr * ss)
      else free_loop n dv base ss sc (nr + sc)
  end.
(* js and ja: what the variables sector_size and align_size, which are not initialised, hold *)
Definition next_free (dv : device) (cs : N) (ca : Z) (js : N) (ja : Z) (base : N) : nres :=
  let ss := if cs =? 0 then js else cs in
  let al := if (ca =? 0)%Z then ja else ca in
  let sz := if known_sizes ss al then SzSome ss al else read_sizes dv base in
  match sz with
  | SzSome ss al =>
      if ss <? 200 then NUB                    (* division by zero; leader_record_in reads behind a buffer of one sector *)
      else let sc := Z.to_N (Z.quot al (Z.of_N ss)) in
           free_loop (S (S (N.to_nat (dv_size dv / ss)))) dv base ss sc 0
  | _ => NError
  end.

(* ---------------- the argument: 592-635, 868-875 ---------------- *)
(* a number with M is in megabytes *)
Definition num_m (s : bytes) : N :=
  match strchr CH_M s with Some (a, _) => u64 (atoll a * 1024 * 1024) | None => u64 (atoll s) end.
Definition dump_arg (s : bytes) : bytes * N * N :=
  let p := cut_colons 2 s [] in
  (upto_nul (fst (path_import_w SANLK_PATH_LEN (nth 0 p []) 0)),
   match nth_error p 1 with Some x => num_m x | None => 0 end,
   match nth_error p 2 with Some x => num_m x | None => 0 end).
(* strstr(path, ":"), strncpy(sd.path, path, SANLK_PATH_LEN) *)
Definition free_arg (s : bytes) : bytes * N :=
  match strchr CO s with
  | Some (a, b) => (firstn SANLK_PATH_LEN a, u64 (atoll b))
  | None => (firstn SANLK_PATH_LEN s, 0)
  end.
