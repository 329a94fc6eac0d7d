(* The arguments of the library calls that use a connection of their own: what the library puts
   into header and body and what the daemon takes out.
   Library: src/client.c:73-93 (send_header), 170-212 (cmd_lockspace and its callers), 285-312
   (get_hosts), 373-397 (set_config), 420-436 (align), 444-466 (read_lockspace), 505-536
   (read_resource), 569-592 (write_lockspace), 599-630 (write_resource), 637-669
   (read_resource_owners), 795-826 (reg_event), 851-894 (end_event), 921-952 (set_event),
   1373-1404 (request), 1410-1443 (examine), 1449-1478 (set_lvb), 1485-1510 (get_lvb), 1553-1835
   (the six index calls).
   Daemon: src/cmd.c:984-1078 (request), 1093-1132 (examine), 1142-1176 (set_lvb), 1194-1211
   (get_lvb), 1302-1340 (add_lockspace), 1353-1383, 1436-1475, 1485-1520 (align), 1528-1590
   (read_lockspace), 1610-1695 (read_resource), 1710-1795 (owners), 1818-1866 (write_lockspace),
   1873-1966 (write_resource), 2030-2052 (set_event), 2060-2165 (index), 2889-2913 (get_hosts),
   2945-3020 (events, set_config).
   Structures: src/sanlock.h:54-59, 98-109, 119-132, 156-161, 171-176, as the compiler lays them
   out on x86-64; client and daemon run on one machine.
   Not here: the way of the header (Framing.v, Dispatch.v), the reply (ClientCalls.v), a client
   that breaks off, allocation failure.  An int argument is its 32 bits. *)
From Coq Require Import List NArith Lia Bool Arith.
From Verif Require Import Bytes.
Import ListNotations.
Open Scope nat_scope.

Definition NAME_LEN := 48. Definition PATH_LEN := 1024.
Definition DSIZE := 1040. Definition LSIZE := 1104. Definition RSIZE := 128.
Definition XSIZE := 1104. Definition ESIZE := 64. Definition VSIZE := 32. Definition HSIZE := 32.

Record disk := mkDisk { d_path : bytes; d_offset : N; d_pad1 : N; d_pad2 : N }.
Record lspace := mkLs { l_name : bytes; l_host : N; l_flags : N; l_hole : bytes (* 4 bytes between *); l_disk : disk }.
Record resrc := mkRes { r_ls : bytes; r_name : bytes; r_lver : N; r_data64 : N; r_data32 : N; r_unused : N; r_flags : N; r_num : N }.
Record rindex := mkRx { x_flags : N; x_max : N; x_unused : N; x_ls : bytes; x_disk : disk }.
Record rentry := mkRe { e_name : bytes; e_offset : N; e_flags : N; e_unused : N }.
Record event := mkEv { v_host : N; v_gen : N; v_event : N; v_data : N }.

Definition enc_disk d := d_path d ++ le_enc 8 (d_offset d) ++ le_enc 4 (d_pad1 d) ++ le_enc 4 (d_pad2 d).
Definition enc_ls l := l_name l ++ le_enc 8 (l_host l) ++ le_enc 4 (l_flags l) ++ l_hole l ++ enc_disk (l_disk l).
Definition enc_res r := r_ls r ++ r_name r ++ le_enc 8 (r_lver r) ++ le_enc 8 (r_data64 r) ++ le_enc 4 (r_data32 r) ++
  le_enc 4 (r_unused r) ++ le_enc 4 (r_flags r) ++ le_enc 4 (r_num r).
Definition enc_rx x := le_enc 4 (x_flags x) ++ le_enc 4 (x_max x) ++ le_enc 8 (x_unused x) ++ x_ls x ++ enc_disk (x_disk x).
Definition enc_re e := e_name e ++ le_enc 8 (e_offset e) ++ le_enc 4 (e_flags e) ++ le_enc 4 (e_unused e).
Definition enc_ev v := le_enc 8 (v_host v) ++ le_enc 8 (v_gen v) ++ le_enc 8 (v_event v) ++ le_enc 8 (v_data v).

(* reading a structure member by member *)
Definition tk (n : nat) (b : bytes) : bytes * bytes := (firstn n b, skipn n b).
Definition num (n : nat) (b : bytes) : N * bytes := (le_dec (firstn n b), skipn n b).
Definition dec_disk (b : bytes) : disk * bytes :=
  let (p, b) := tk PATH_LEN b in let (o, b) := num 8 b in let (p1, b) := num 4 b in let (p2, b) := num 4 b in (mkDisk p o p1 p2, b).
Definition dec_ls (b : bytes) : lspace * bytes :=
  let (n, b) := tk NAME_LEN b in let (h, b) := num 8 b in let (f, b) := num 4 b in let (o, b) := tk 4 b in
  let (d, b) := dec_disk b in (mkLs n h f o d, b).
Definition dec_res (b : bytes) : resrc * bytes :=
  let (l, b) := tk NAME_LEN b in let (n, b) := tk NAME_LEN b in let (v, b) := num 8 b in let (d, b) := num 8 b in
  let (e, b) := num 4 b in let (u, b) := num 4 b in let (f, b) := num 4 b in let (k, b) := num 4 b in (mkRes l n v d e u f k, b).
Definition dec_rx (b : bytes) : rindex * bytes :=
  let (f, b) := num 4 b in let (m, b) := num 4 b in let (u, b) := num 8 b in let (l, b) := tk NAME_LEN b in
  let (d, b) := dec_disk b in (mkRx f m u l d, b).
Definition dec_re (b : bytes) : rentry * bytes :=
  let (n, b) := tk NAME_LEN b in let (o, b) := num 8 b in let (f, b) := num 4 b in let (u, b) := num 4 b in (mkRe n o f u, b).
Definition dec_ev (b : bytes) : event * bytes :=
  let (h, b) := num 8 b in let (g, b) := num 8 b in let (e, b) := num 8 b in let (d, b) := num 8 b in (mkEv h g e d, b).

Record hdr := mkHdr { h_cmd : N; h_flags : N; h_length : N; h_data : N; h_data2 : N }.

(* ---------------- library ---------------- *)
Inductive call :=
| CAdd (l : lspace) (flags io_timeout : N) | CInq (l : lspace) (flags : N) | CRem (l : lspace) (flags : N)
| CGetHosts (name : bytes) (host flags : N) | CSetConfig (name : bytes) (flags cmd : N)
| CAlign (d : disk)
| CReadLs (l : lspace) (flags : N) | CWriteLs (l : lspace) (max_hosts flags io_timeout : N)
| CReadRes (r : resrc) (ds : list disk) (flags : N) | COwners (r : resrc) (ds : list disk) (flags : N)
| CWriteRes (r : resrc) (ds : list disk) (max_hosts num_hosts flags : N)
| CRequest (flags force_mode : N) (r : resrc) (ds : list disk)
| CExamine (flags : N) (l : option lspace) (r : option resrc)
| CSetLvb (flags : N) (r : resrc) (lvb : bytes) | CGetLvb (flags : N) (r : resrc) (len : N)
| CReg (name : bytes) (v : option event) (flags : N) | CEnd (name : bytes) (flags : N) | CSetEvent (name : bytes) (v : event) (flags : N)
| CFormat (x : rindex) (flags : N) | CRebuild (x : rindex) (flags : N)
| CUpdate (x : rindex) (flags : N) (e : rentry) | CLookup (x : rindex) (flags : N) (e : rentry)
| CCreate (x : rindex) (flags : N) (e : rentry) (max_hosts num_hosts : N) | CDelete (x : rindex) (flags : N) (e : rentry).

(* strncpy into a zeroed field; the name is given without its terminating 0 *)
Definition zeros (n : nat) : bytes := repeat 0%N n.
Definition strncpy (n : nat) (s : bytes) : bytes := firstn n (s ++ zeros n).
Definition zero_disk := mkDisk (zeros PATH_LEN) 0 0 0.
Definition named (s : bytes) (host : N) : lspace := mkLs (strncpy NAME_LEN s) host 0 (zeros 4) zero_disk.
Definition empty (s : bytes) : bool := match s with [] => true | c :: _ => N.eqb c 0 end.
Definition sz (n : nat) : N := N.of_nat n.
Definition bad_res (r : resrc) (ds : list disk) : bool :=
  N.eqb (r_num r) 0 || (4 <? r_num r)%N || match ds with [] => true | d :: _ => empty (d_path d) end.
Definition bad_rx (x : rindex) : bool := empty (x_ls x) || empty (d_path (x_disk x)).

(* LErr: an error before anything is sent; LFault: the header is sent, then send(2) fails on a
   NULL pointer; LSend: header and body are sent *)
Inductive lres := LErr | LFault (h : hdr) | LSend (h : hdr) (b : bytes).
Definition snd_ (cmd flags len data data2 : N) (b : bytes) : lres := LSend (mkHdr cmd flags (sz HSIZE + len) data data2) b.
Definition lib (c : call) : lres :=
  match c with
  | CAdd l f t => snd_ 2 f (sz LSIZE) t 0 (enc_ls l)
  | CInq l f => snd_ 16 f (sz LSIZE) 0 0 (enc_ls l)
  | CRem l f => snd_ 3 f (sz LSIZE) 0 0 (enc_ls l)
  | CGetHosts n h f => snd_ 23 f (sz LSIZE) 0 0 (enc_ls (named n h))
  | CSetConfig n f k => snd_ 33 f (sz LSIZE) k 0 (enc_ls (named n 0))
  | CAlign d => snd_ 12 0 (sz DSIZE) 0 0 (enc_disk d)
  | CReadLs l f => if empty (d_path (l_disk l)) then LErr else snd_ 20 f (sz LSIZE) 0 0 (enc_ls l)
  | CWriteLs l m f t => if empty (d_path (l_disk l)) then LErr else snd_ 18 f (sz LSIZE) m t (enc_ls l)
  | CReadRes r ds f => if bad_res r ds then LErr
      else snd_ 21 f (sz RSIZE + sz DSIZE * r_num r) 0 0 (enc_res r ++ concat (map enc_disk ds))
  | COwners r ds f => if bad_res r ds then LErr
      else snd_ 24 f (sz RSIZE + sz DSIZE * r_num r) 0 0 (enc_res r ++ concat (map enc_disk ds))
  | CWriteRes r ds m n f => if bad_res r ds then LErr
      else snd_ 19 f (sz RSIZE + sz DSIZE * r_num r) m n (enc_res r ++ concat (map enc_disk ds))
  | CRequest f m r ds => snd_ 11 f (sz RSIZE + sz DSIZE * r_num r) m 0 (enc_res r ++ concat (map enc_disk ds))
  | CExamine f l r =>
      match l, r with
      | None, None => LErr
      | Some l, _ =>
          if empty (d_path (l_disk l)) then
            match r with
            | Some r => snd_ 14 f (sz RSIZE) 0 0 (enc_res r)
            | None => LFault (mkHdr 14 f (sz HSIZE + sz RSIZE) 0 0)
            end
          else snd_ 13 f (sz LSIZE) 0 0 (enc_ls l)
      | None, Some r => snd_ 14 f (sz RSIZE) 0 0 (enc_res r)
      end
  | CSetLvb f r v => match v with [] => LErr | _ => snd_ 25 f (sz RSIZE + sz (length v)) 0 0 (enc_res r ++ v) end
  | CGetLvb f r n => if N.eqb n 0 then LErr else snd_ 26 f (sz RSIZE) 0 0 (enc_res r)
  | CReg n v f => snd_ 30 f (sz LSIZE + sz VSIZE) 0 0 (enc_ls (named n 0) ++ enc_ev (match v with Some v => v | None => mkEv 0 0 0 0 end))
  | CEnd n f => snd_ 31 f (sz LSIZE) 0 0 (enc_ls (named n 0))
  | CSetEvent n v f => snd_ 32 f (sz LSIZE + sz VSIZE) 0 0 (enc_ls (named n 0) ++ enc_ev v)
  | CFormat x f => if bad_rx x then LErr else snd_ 35 f (sz XSIZE) 0 0 (enc_rx x)
  | CRebuild x f => if bad_rx x then LErr else snd_ 40 f (sz XSIZE) 0 0 (enc_rx x)
  | CUpdate x f e => if bad_rx x then LErr else snd_ 36 f (sz XSIZE + sz ESIZE) 0 0 (enc_rx x ++ enc_re e)
  (* 1680-1683: the length is that of a sanlk_resource *)
  | CLookup x f e => if bad_rx x then LErr else snd_ 37 f (sz XSIZE + sz RSIZE) 0 0 (enc_rx x ++ enc_re e)
  | CCreate x f e m n => if bad_rx x then LErr else snd_ 38 f (sz XSIZE + sz ESIZE) m n (enc_rx x ++ enc_re e)
  | CDelete x f e => if bad_rx x then LErr else snd_ 39 f (sz XSIZE + sz ESIZE) 0 0 (enc_rx x ++ enc_re e)
  end.

(* ---------------- daemon ---------------- *)
(* a path as open(2) sees it: up to the first 0, which may lie behind the path field; None: there
   is none up to the end of the structure *)
Fixpoint cstr (b : bytes) : option bytes :=
  match b with [] => None | c :: b => if N.eqb c 0 then Some [] else match cstr b with Some s => Some (c :: s) | None => None end end.
(* sync_disk: pad1 is sector_size, pad2 is fd *)
Definition place := (option bytes * N)%type.
Definition at_ (d : disk) (sector_size fd : N) : place := (cstr (enc_disk (mkDisk (d_path d) (d_offset d) sector_size fd)), d_offset d).
Definition FD_NONE : N := 0xFFFFFFFF.
(* a disk of a token or of a lockspace that is added: sector_size is set to 0, fd to -1; one that
   is copied to the stack keeps sector_size; that of an index keeps both *)
Definition clean (d : disk) := at_ d 0 FD_NONE.
Definition copied (d : disk) := at_ d (d_pad1 d) FD_NONE.
Definition kept (d : disk) := at_ d (d_pad1 d) (d_pad2 d).
(* src/lockspace.c:141: a disk that is compared, with strncmp *)
Definition within (d : disk) : place := (cstr (d_path d ++ [0%N]), d_offset d).

(* what is carried out, with what *)
Inductive op :=
| DAdd (name : bytes) (host : N) (p : place) (io_timeout : N) (async : bool)
| DInq (name : bytes) (host : N) (p : place) (wait : bool) | DRem (name : bytes) (host : N) (p : place) (unused async : bool)
| DGetHosts (name : bytes) (host : N) | DSetConfig (name : bytes) (flags cmd : N) | DAlign (p : place)
| DReadLs (host : N) (p : place) (flags : N) | DWriteLs (name : bytes) (p : place) (flags io_timeout : N)
| DReadRes (ps : list place) (flags : N) | DOwners (ps : list place) (flags : N)
| DWriteRes (ls name : bytes) (ps : list place) (flags num_hosts : N) (clear : bool)
| DRequest (ls name : bytes) (ps : list place) (lver force_mode : N) (next_lver : bool)
| DExamRes (ls name : bytes) | DExamLs (ls : bytes)
| DSetLvb (ls name : bytes) (lvb : bytes) | DGetLvb (ls name : bytes) (len : N)
| DReg (name : bytes) (flags : N) | DEnd (name : bytes) | DSetEvent (name : bytes) (v : event) (flags : N)
| DFormat (ls : bytes) (p : place) (flags max : N) | DRebuild (ls : bytes) (p : place) (flags max cmd_flags : N)
| DUpdate (ls : bytes) (p : place) (flags max : N) (e : rentry) (cmd_flags : N)
| DLookup (ls : bytes) (p : place) (flags max : N) (e : rentry) (cmd_flags : N)
| DCreate (ls : bytes) (p : place) (flags max : N) (e : rentry) (max_hosts num_hosts : N)
| DDelete (ls : bytes) (p : place) (flags max : N) (e : rentry).

(* Run: carried out, with the bytes that are left; Refuse: answered with an error; Wait: a read
   waits for bytes that do not come *)
Inductive res := Run (o : op) (rest : bytes) | Refuse (e : N) (rest : bytes) | Wait.
Definition ENODEV : N := 19. Definition ERANGE : N := 34. Definition E2BIG : N := 7. Definition EINVAL : N := 22. Definition ENOMEM : N := 12.
Definition recv {A} (n : nat) (dec : bytes -> A * bytes) (b : bytes) (k : A -> bytes -> res) : res :=
  if length b <? n then Wait else k (fst (dec (firstn n b))) (skipn n b).
Fixpoint dec_disks (n : nat) (b : bytes) : list disk * bytes :=
  match n with O => ([], b) | S n => let (d, b) := dec_disk b in let (ds, b) := dec_disks n b in (d :: ds, b) end.
Definition with_disks (b : bytes) (k : resrc -> list disk -> op) : res :=
  recv RSIZE dec_res b (fun r b =>
    if N.eqb (r_num r) 0 || (4 <? r_num r)%N then Refuse ERANGE b
    else recv (N.to_nat (r_num r) * DSIZE) (dec_disks (N.to_nat (r_num r))) b (fun ds b => Run (k r ds) b)).
Definition with_entry (b : bytes) (k : rindex -> rentry -> op) : res :=
  recv XSIZE dec_rx b (fun x b => recv ESIZE dec_re b (fun e b => Run (k x e) b)).

Definition daemon (dflt : N) (h : hdr) (b : bytes) : res :=
  let f := h_flags h in
  match h_cmd h with
  | 2 => recv LSIZE dec_ls b (fun l b => Run (DAdd (l_name l) (l_host l) (clean (l_disk l)) (if N.eqb (h_data h) 0 then dflt else h_data h) (N.testbit f 0)) b)
  | 16 => recv LSIZE dec_ls b (fun l b => Run (DInq (l_name l) (l_host l) (within (l_disk l)) (N.testbit f 0)) b)
  | 3 => recv LSIZE dec_ls b (fun l b => Run (DRem (l_name l) (l_host l) (within (l_disk l)) (N.testbit f 1) (N.testbit f 0)) b)
  | 23 => recv LSIZE dec_ls b (fun l b => Run (DGetHosts (l_name l) (l_host l)) b)
  | 33 => recv LSIZE dec_ls b (fun l b => Run (DSetConfig (l_name l) f (h_data h)) b)
  | 12 => recv DSIZE dec_disk b (fun d b => if empty (d_path d) then Refuse ENODEV b else Run (DAlign (copied d)) b)
  | 20 => recv LSIZE dec_ls b (fun l b => if empty (d_path (l_disk l)) then Refuse ENODEV b
            else Run (DReadLs (if N.eqb (l_host l) 0 then 1 else l_host l) (copied (l_disk l)) (l_flags l)) b)
  | 18 => recv LSIZE dec_ls b (fun l b => if empty (d_path (l_disk l)) then Refuse ENODEV b
            else Run (DWriteLs (l_name l) (copied (l_disk l)) (l_flags l) (if N.eqb (h_data2 h) 0 then dflt else h_data2 h)) b)
  | 21 => with_disks b (fun r ds => DReadRes (map clean ds) (r_flags r))
  | 24 => with_disks b (fun r ds => DOwners (map clean ds) (r_flags r))
  | 19 => with_disks b (fun r ds => DWriteRes (r_ls r) (r_name r) (map clean ds) (r_flags r) (h_data h) (N.testbit f 0))
  | 11 => with_disks b (fun r ds => DRequest (r_ls r) (r_name r) (map clean ds) (r_lver r) (h_data h) (N.testbit f 0))
  | 14 => recv RSIZE dec_res b (fun r b => Run (DExamRes (r_ls r) (r_name r)) b)
  | 13 => recv LSIZE dec_ls b (fun l b => Run (DExamLs (l_name l)) b)
  | 25 => recv RSIZE dec_res b (fun r b =>
            (* the length is an int; a negative one is too much for malloc *)
            if (h_length h <? sz HSIZE + sz RSIZE)%N then Refuse ENOMEM b
            else let n := N.to_nat (h_length h - sz HSIZE - sz RSIZE) in
              if (4096 <? h_length h - sz HSIZE - sz RSIZE)%N then Refuse E2BIG b
              else recv n (fun v => (v, [])) b (fun v b => Run (DSetLvb (r_ls r) (r_name r) v) b))
  | 26 => recv RSIZE dec_res b (fun r b => Run (DGetLvb (r_ls r) (r_name r) (h_data2 h)) b)
  | 30 => recv LSIZE dec_ls b (fun l b => recv VSIZE dec_ev b (fun _ b => Run (DReg (l_name l) f) b))
  | 31 => recv LSIZE dec_ls b (fun l b => Run (DEnd (l_name l)) b)
  | 32 => recv LSIZE dec_ls b (fun l b => recv VSIZE dec_ev b (fun v b => Run (DSetEvent (l_name l) v f) b))
  | 35 => recv XSIZE dec_rx b (fun x b => Run (DFormat (x_ls x) (kept (x_disk x)) (x_flags x) (x_max x)) b)
  | 40 => recv XSIZE dec_rx b (fun x b => Run (DRebuild (x_ls x) (kept (x_disk x)) (x_flags x) (x_max x) f) b)
  | 36 => with_entry b (fun x e => DUpdate (x_ls x) (kept (x_disk x)) (x_flags x) (x_max x) e f)
  | 37 => with_entry b (fun x e => DLookup (x_ls x) (kept (x_disk x)) (x_flags x) (x_max x) e f)
  | 38 => with_entry b (fun x e => DCreate (x_ls x) (kept (x_disk x)) (x_flags x) (x_max x) e (h_data h) (h_data2 h))
  | 39 => with_entry b (fun x e => DDelete (x_ls x) (kept (x_disk x)) (x_flags x) (x_max x) e)
  | _ => Refuse EINVAL b
  end%N.
