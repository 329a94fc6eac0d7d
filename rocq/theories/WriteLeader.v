(* `sanlock direct read_leader` and `sanlock direct write_leader`.
   src/main.c:3471-3573 read_file_leader, 3575-3617 print_leader, 3619-3633 do_direct_read_leader,
   3640-3685 do_direct_write_leader; src/direct.c:511-549 direct_read_leader, direct_write_leader,
   122-255 do_paxos_action and 290-447 do_delta_action (READ_LEADER and WRITE_LEADER),
   41-79 direct_read_leader_sizes (read_sizes of DirectDump.v);
   src/paxos_lease.c:1179-1200 _leader_read_one, 277-298 paxos_lease_leader_clobber;
   src/delta_lease.c:251-287 delta_lease_leader_read, 295-311 delta_lease_leader_clobber;
   src/diskio.c:827-891 write_sector; src/ondisk.c:32-77.
   Simplified: resources with one disk; the host is little endian; open_disk succeeds, sizes_from_flags and
   sanlock_res_to_str succeed, writes succeed; what the verification of a record that was read says is not
   used by either command, so it is left out; glibc's scanf (long has 64 bits). *)
From Coq Require Import Ascii String List NArith ZArith Lia Bool Arith.
From Verif Require Import Bytes Crc Codec Leader Sizes Strings StatusOut ConfFile DirectDump.
Import ListNotations.
Open Scope N_scope.

(* ---------------- numbers ---------------- *)
(* printf %x *)
Definition hexdig (d : N) : N := if d <? 10 then 48 + d else 87 + d.
Fixpoint hex_aux (fuel : nat) (n : N) (acc : bytes) : bytes :=
  match fuel with
  | O => acc
  | S f => let acc' := hexdig (n mod 16) :: acc in if n / 16 =? 0 then acc' else hex_aux f (n / 16) acc'
  end.
Definition print_x (n : N) : bytes := hex_aux 16 n [].

(* sscanf "0x%x": the two characters, then %x, which takes a sign and a further 0x *)
Definition scan_x (s : bytes) : option N :=
  let '(neg, t) := split_sign (skip_space s) in
  match t with
  | z :: x :: r =>
    if (z =? 48) && ((x =? 120) || (x =? 88)) then Some (signed_value neg (digits 16 r 0))
    else if some_digit 16 t then Some (signed_value neg (digits 16 t 0)) else None
  | _ => if some_digit 16 t then Some (signed_value neg (digits 16 t 0)) else None
  end.
Definition scan_0x (s : bytes) : option N :=
  match s with
  | z :: x :: r => if (z =? 48) && (x =? 120) then scan_x r else None
  | _ => None
  end.
(* the value is stored in an object of [w] bits *)
Definition store (w : N) (old : N) (v : option N) : N :=
  match v with Some n => n mod 2 ^ w | None => old end.

(* ---------------- read_file_leader ---------------- *)
Definition not_space (c : N) : bool := negb (is_space c).
(* sscanf(line, "%s %s"): both words, or None *)
Definition two_words (line : bytes) : option (bytes * bytes) :=
  let s := skip_space (upto_nul line) in
  let f := take_while not_space s in
  let v := take_while not_space (skip_space (drop_while not_space s)) in
  match f, v with
  | [], _ => None
  | _, [] => None
  | _, _ => Some (f, v)
  end.

Inductive fkey := KMagic | KVersion | KFlags | KSector | KNum | KMax | KOwner | KGen | KLver | KSpace | KName
  | KTime | KSum | KIo | KW1 | KW2 | KW3.
(* 3504-3552, in order *)
Definition key_of (is_ls : bool) (f : bytes) : option fkey :=
  if eqs f "magic" then Some KMagic
  else if eqs f "version" then Some KVersion
  else if eqs f "flags" then Some KFlags
  else if eqs f "sector_size" then Some KSector
  else if eqs f "num_hosts" then Some KNum
  else if eqs f "max_hosts" then Some KMax
  else if eqs f "owner_id" then Some KOwner
  else if eqs f "owner_generation" then Some KGen
  else if eqs f "lver" then Some KLver
  else if eqs f "space_name" then Some KSpace
  else if eqs f "resource_name" then Some KName
  else if eqs f "timestamp" then Some KTime
  else if eqs f "checksum" then Some KSum
  else if eqs f "io_timeout" then Some KIo
  else if is_ls && eqs f "extra1" then Some KW1
  else if is_ls && eqs f "extra2" then Some KW2
  else if is_ls && eqs f "extra3" then Some KW3
  else if negb is_ls && eqs f "write_id" then Some KW1
  else if negb is_ls && eqs f "write_generation" then Some KW2
  else if negb is_ls && eqs f "write_timestamp" then Some KW3
  else None.

(* the record being changed and the variable checksum *)
Record fst_ := mkF { f_lr : leader; f_sum : N }.
Definition set_field (k : fkey) (val : bytes) (s : fst_) : fst_ :=
  let r := f_lr s in
  let dec w old := store w old (sscanf_llu val) in
  let hex old := store 32 old (scan_0x val) in
  let up mg ve fl ss nh mh ow ge lv sp na ti io w1 w2 w3 :=
    mkF (mkLeader mg ve fl ss nh mh ow ge lv sp na ti (l_unused1 r) (l_checksum r) (l_unused2 r) io w1 w2 w3) (f_sum s) in
  let mg := l_magic r in let ve := l_version r in let fl := l_flags r in let ss := l_sector_size r in
  let nh := l_num_hosts r in let mh := l_max_hosts r in let ow := l_owner_id r in let ge := l_owner_generation r in
  let lv := l_lver r in let sp := l_space_name r in let na := l_resource_name r in let ti := l_timestamp r in
  let io := l_io_timeout r in let w1 := l_write_id r in let w2 := l_write_generation r in let w3 := l_write_timestamp r in
  match k with
  | KMagic => up (hex mg) ve fl ss nh mh ow ge lv sp na ti io w1 w2 w3
  | KVersion => up mg (hex ve) fl ss nh mh ow ge lv sp na ti io w1 w2 w3
  | KFlags => up mg ve (hex fl) ss nh mh ow ge lv sp na ti io w1 w2 w3
  | KSector => up mg ve fl (dec 32 ss) nh mh ow ge lv sp na ti io w1 w2 w3
  | KNum => up mg ve fl ss (dec 64 nh) mh ow ge lv sp na ti io w1 w2 w3
  | KMax => up mg ve fl ss nh (dec 64 mh) ow ge lv sp na ti io w1 w2 w3
  | KOwner => up mg ve fl ss nh mh (dec 64 ow) ge lv sp na ti io w1 w2 w3
  | KGen => up mg ve fl ss nh mh ow (dec 64 ge) lv sp na ti io w1 w2 w3
  | KLver => up mg ve fl ss nh mh ow ge (dec 64 lv) sp na ti io w1 w2 w3
  | KSpace => up mg ve fl ss nh mh ow ge lv (strncpy48 val) na ti io w1 w2 w3
  | KName => up mg ve fl ss nh mh ow ge lv sp (strncpy48 val) ti io w1 w2 w3
  | KTime => up mg ve fl ss nh mh ow ge lv sp na (dec 64 ti) io w1 w2 w3
  | KSum => mkF r (hex (f_sum s))
  | KIo => up mg ve fl ss nh mh ow ge lv sp na ti (dec 16 io) w1 w2 w3
  | KW1 => up mg ve fl ss nh mh ow ge lv sp na ti io (dec 64 w1) w2 w3
  | KW2 => up mg ve fl ss nh mh ow ge lv sp na ti io w1 (dec 64 w2) w3
  | KW3 => up mg ve fl ss nh mh ow ge lv sp na ti io w1 w2 (dec 64 w3)
  end.
Definition file_line (is_ls : bool) (line : bytes) (s : fst_) : fst_ :=
  match two_words line with
  | None => s
  | Some (f, v) => match key_of is_ls f with None => s | Some k => set_field k v s end
  end.
Definition MAX_LINE : nat := N.to_nat 128.
Fixpoint file_loop (fuel : nat) (is_ls : bool) (s : bytes) (st : fst_) : fst_ :=
  match fuel, s with
  | O, _ => st
  | _, [] => st
  | S f, _ => let '(l, r) := fgets (MAX_LINE - 1) s in file_loop f is_ls r (file_line is_ls l st)
  end.
(* the checksum of the record in memory is that of its on-disk form *)
Definition set_sum (c : N) (lr : leader) : leader :=
  mkLeader (l_magic lr) (l_version lr) (l_flags lr) (l_sector_size lr) (l_num_hosts lr) (l_max_hosts lr) (l_owner_id lr)
    (l_owner_generation lr) (l_lver lr) (l_space_name lr) (l_resource_name lr) (l_timestamp lr) (l_unused1 lr) c (l_unused2 lr)
    (l_io_timeout lr) (l_write_id lr) (l_write_generation lr) (l_write_timestamp lr).
Definition read_file_leader (is_ls force : bool) (file : bytes) (lr : leader) : leader :=
  let s := file_loop (length file) is_ls file (mkF lr 0) in
  if force then set_sum (f_sum s) (f_lr s)
  else set_sum (leader_checksum (leader_record_out (f_lr s) (zeros LEADER_SIZE))) (f_lr s).

(* ---------------- print_leader ---------------- *)
Definition name48 (b : bytes) : bytes := firstn 48 (upto_nul b).
Definition line_of (f : string) (v : bytes) : bytes := txt f ++ 32 :: v ++ [10].
Definition print_leader (is_ls : bool) (lr : leader) : bytes :=
  line_of "magic" (txt "0x" ++ print_x (l_magic lr)) ++
  line_of "version" (txt "0x" ++ print_x (l_version lr)) ++
  line_of "flags" (txt "0x" ++ print_x (l_flags lr)) ++
  line_of "sector_size" (print_llu (l_sector_size lr)) ++
  line_of "num_hosts" (print_llu (l_num_hosts lr)) ++
  line_of "max_hosts" (print_llu (l_max_hosts lr)) ++
  line_of "owner_id" (print_llu (l_owner_id lr)) ++
  line_of "owner_generation" (print_llu (l_owner_generation lr)) ++
  line_of "lver" (print_llu (l_lver lr)) ++
  line_of "space_name" (name48 (l_space_name lr)) ++
  line_of "resource_name" (name48 (l_resource_name lr)) ++
  line_of "timestamp" (print_llu (l_timestamp lr)) ++
  line_of "checksum" (txt "0x" ++ print_x (l_checksum lr)) ++
  line_of "io_timeout" (print_llu (l_io_timeout lr)) ++
  line_of (if is_ls then "extra1" else "write_id") (print_llu (l_write_id lr)) ++
  line_of (if is_ls then "extra2" else "write_generation") (print_llu (l_write_generation lr)) ++
  line_of (if is_ls then "extra3" else "write_timestamp") (print_llu (l_write_timestamp lr)).

(* ---------------- the disk ---------------- *)
Record target := mkTg {
  tg_ls : bool;         (* -s, not -r *)
  tg_off : N;           (* offset of the lockspace or of the lease *)
  tg_host : N;          (* host_id of -s *)
  tg_ss : N; tg_al : Z  (* sizes given by flags, -Z, -A; 0 for none *) }.
Definition zero_leader : leader := leader_record_in (zeros LEADER_SIZE).

(* do_delta_action and do_paxos_action with ACT_READ_LEADER: what *leader_ret holds afterwards and whether the
   record was read; [before] is what it held, [stack] what the variable leader of do_paxos_action holds, which is
   copied also if nothing was read *)
Definition read_leader_ret (dv : device) (tg : target) (before stack : leader) : leader * bool :=
  if tg_ls tg then
    if tg_host tg =? 0 then (before, false)
    else
      let sizes := if (tg_ss tg =? 0) || (tg_al tg =? 0)%Z then read_sizes dv (tg_off tg) else SzSome (tg_ss tg) (tg_al tg) in
      match sizes with
      | SzSome ss _ =>
        match read_sectors dv (tg_off tg) ss (tg_host tg - 1) 1 with
        | Some m => (leader_record_in (fget m 0 LEADER_SIZE), true)
        | None => (zero_leader, false)
        end
      | _ => (zero_leader, false)
      end
  else
    match read_sectors dv (tg_off tg) (if tg_ss tg =? 0 then 4096 else tg_ss tg) 0 1 with
    | Some m => (leader_record_in (fget m 0 LEADER_SIZE), true)
    | None => (stack, false)
    end.

(* write_sector: the rest of the sector is cleared *)
Definition dwrite (dv : device) (off : N) (bs : bytes) : device :=
  mkDev (dv_size dv) (fun i => if (off <=? i) && (i <? off + N.of_nat (length bs)) then nth (N.to_nat (i - off)) bs 0 else dv_byte dv i) (dv_fail dv).
Definition write_sector (dv : device) (base ss nr : N) (data : bytes) : device * bool :=
  if (ss =? 512) || (ss =? 4096) then
    (dwrite dv (base + nr * ss) (data ++ zeros (N.to_nat ss - length data)), true)
  else (dv, false).
(* delta_lease_leader_clobber and paxos_lease_leader_clobber; [se] is what their leader_end holds *)
Definition clobber (dv : device) (tg : target) (lr : leader) (se : bytes) : device * bool :=
  if tg_ls tg then
    if tg_host tg =? 0 then (dv, false)
    else write_sector dv (tg_off tg) (l_sector_size lr) (tg_host tg - 1) (leader_record_out lr se)
  else write_sector dv (tg_off tg) (l_sector_size lr) 0 (leader_bytes lr se).

(* do_direct_write_leader; file: None if it cannot be opened *)
Definition write_leader (dv : device) (tg : target) (force : bool) (file : option bytes) (stack : leader) (se : bytes) : device * bool :=
  let '(lr, _) := read_leader_ret dv tg zero_leader stack in
  match file with
  | None => (dv, false)
  | Some f => clobber dv tg (read_file_leader (tg_ls tg) force f lr) se
  end.
(* do_direct_read_leader: what is printed; [junk] is its uninitialised variable *)
Definition read_leader_cmd (dv : device) (tg : target) (junk stack : leader) : bytes :=
  print_leader (tg_ls tg) (fst (read_leader_ret dv tg junk stack)).
