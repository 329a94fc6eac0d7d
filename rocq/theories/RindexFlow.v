(* The resource index commands as sequences of calls: what is taken, what is given back, what is written.
   rindex.c: update_rindex 181-244, read_rindex 246-277, read_rindex_header 279-363, rindex_format 370-480,
   rindex_create 482-617, rindex_delete 624-754, rindex_lookup 756-877, rindex_update 879-966, rindex_rebuild 968-1146;
   paxos_lease.c: paxos_lease_init 2410-2526.
   The results of the system calls and of the functions called are inputs; the contents of the index are in Rindex.v.
   The result None: a null pointer is used. *)
From Coq Require Import List NArith ZArith Lia Bool.
Import ListNotations.
Open Scope Z_scope.

Definition ENOMEM : Z := 12.
Definition EINVAL : Z := 22.
(* sanlock_rv.h:16, 75, 76 *)
Definition SANLK_AIO_TIMEOUT : Z := -202.
Definition SANLK_RINDEX_OFFSET : Z := -277.
Definition SANLK_RINDEX_DIFF : Z := -278.

(* things taken: the disk, the mark of an index operation (lockspace.c), memory of the two tokens, the index
   lease, I/O buffers *)
Inductive res := RDisk | ROp | RTok (n : nat) | RLease | RBuf (n : nat).
(* things written: header and empty entries, index lease, a new lease, a cleared lease, an entry, an entry
   removed, all entries *)
Inductive what := WHeader | WIndexLease | WNewLease | WClearedLease | WEntry | WNoEntry | WAll.
(* Kept: a buffer left to an I/O that has timed out (freed when it is reaped, see Aio.v) *)
Inductive ev := Get (r : res) | Put (r : res) | Kept (r : res) | Wr (w : what).
Definition result := (option Z * list ev)%type.

(* free unless timed out *)
Definition free_buf (n : nat) (rv : Z) : list ev :=
  [if rv =? SANLK_AIO_TIMEOUT then Kept (RBuf n) else Put (RBuf n)].
Definition wrote (w : what) (rv : Z) : list ev := if rv <? 0 then [] else [Wr w].

(* paxos_lease.c:2410-2526: results of sizes_from_flags, posix_memalign, the write of each disk; the tokens of the
   index have one disk (rindex.c:64, 107) *)
Record init_in := mkInit { n_sizes : Z; n_mem : Z; n_io : Z }.
Fixpoint init_writes (w : what) (l : list Z) : Z * list ev :=
  match l with
  | [] => (0, [Put (RBuf 9)])
  | rv :: l =>
      if rv <? 0 then (rv, if rv =? SANLK_AIO_TIMEOUT then [Kept (RBuf 9)] else [])
      else let '(z, t) := init_writes w l in (z, Wr w :: t)
  end.
Definition paxos_lease_init (w : what) (sizes mem : Z) (ios : list Z) : Z * list ev :=
  if negb (sizes =? 0) then (sizes, [])
  else if negb (mem =? 0) then (mem, [])
  else let '(z, t) := init_writes w ios in (z, Get (RBuf 9) :: t).
Definition lease_init (w : what) (i : init_in) : Z * list ev :=
  paxos_lease_init w (n_sizes i) (n_mem i) [n_io i].

(* rindex.c:181-244 *)
Record upd_in := mkUpd { u_mem : Z; u_io : Z }.
Definition update_rindex (w : what) (i : upd_in) : Z * list ev :=
  if negb (u_mem i =? 0) then (u_mem i, [])
  else (u_io i, Get (RBuf 8) :: wrote w (u_io i) ++ free_buf 8 (u_io i)).

(* rindex.c:246-277; the buffer it returns is number 7 *)
Record read_in := mkRead { r_mem : Z; r_io : Z }.
Definition read_rindex (i : read_in) : Z * list ev * bool (* *rindex_iobuf_ret set *) :=
  if negb (r_mem i =? 0) then (r_mem i, [], false)
  else if r_io i <? 0 then (r_io i, [Get (RBuf 7); Put (RBuf 7)], false)
  else (r_io i, [Get (RBuf 7)], true).

(* rindex.c:279-363: h_chk is 0 or the error of the checks of the header *)
Record hdr_in := mkHdr { h_mem : Z; h_io : Z; h_chk : Z }.
Definition read_header (i : hdr_in) : Z * list ev :=
  if negb (h_mem i =? 0) then (- ENOMEM, [])
  else let rv := if h_io i <? 0 then h_io i else if h_chk i <? 0 then h_chk i else h_io i in
       (rv, Get (RBuf 6) :: free_buf 6 rv).

(* what every command is given *)
Record cin := mkC {
  c_open : Z; c_begin : Z; c_hdr : hdr_in; c_tok0 : bool; c_tok1 : bool; c_acq : Z;
  c_read : read_in; c_search : Z; c_init : init_in; c_upd : upd_in;
  c_sizes : Z; c_mem : Z; c_io : Z; c_aligned : bool; c_badcmd : bool; c_diff : bool; c_needs_search : bool }.

(* rindex_format 370-480 *)
Definition rindex_format (i : cin) : result :=
  if c_open i <? 0 then (Some (c_open i), [])
  else if negb (c_sizes i =? 0) then (Some (c_sizes i), [Get RDisk])
  else if negb (c_mem i =? 0) then (Some (c_mem i), [Get RDisk; Put RDisk])
  else
    let t := [Get RDisk; Get (RBuf 5)] ++ wrote WHeader (c_io i) in
    if c_io i <? 0 then (Some (c_io i), t ++ free_buf 5 (c_io i) ++ [Put RDisk])
    else if negb (c_tok0 i) then (Some (- ENOMEM), t ++ free_buf 5 (- ENOMEM) ++ [Put RDisk])
    else
      let '(z, ti) := lease_init WIndexLease (c_init i) in
      let rv := if z <? 0 then z else 0 in
      (Some rv, t ++ [Get (RTok 0)] ++ ti ++ [Put (RTok 0)] ++ free_buf 5 rv ++ [Put RDisk]).

(* the part that create, delete and rebuild share: lines 500-560, 642-700, 992-1057.  lk: not nolock. *)
Definition with_index (lk : bool) (chk_align : bool) (i : cin) (body : option Z * list ev) : result :=
  if c_open i <? 0 then (Some (c_open i), [])
  else if lk && (c_begin i <? 0) then (Some (c_begin i), [Get RDisk; Put RDisk])
  else
    let op := if lk then [Get ROp] else [] in
    let clear := if lk then [Put ROp] else [] in
    let '(hz, ht) := read_header (c_hdr i) in
    let t := Get RDisk :: op ++ ht in
    if hz <? 0 then (Some hz, t ++ clear ++ [Put RDisk])
    else if chk_align && negb (c_aligned i) then (Some SANLK_RINDEX_OFFSET, t ++ clear ++ [Put RDisk])
    else if negb (c_tok0 i) then (Some (- ENOMEM), t ++ clear ++ [Put RDisk])
    else if negb (c_tok1 i) then (Some (- ENOMEM), t ++ [Get (RTok 0); Put (RTok 0)] ++ clear ++ [Put RDisk])
    else
      let t := t ++ [Get (RTok 0); Get (RTok 1)] in
      let fin := [Put (RTok 0); Put (RTok 1)] ++ clear ++ [Put RDisk] in
      if lk && (c_acq i <? 0) then (Some (c_acq i), t ++ fin)
      else
        let t := t ++ (if lk then [Get RLease] else []) in
        let rel := if lk then [Put RLease] else [] in
        let '(rz, rt, got) := read_rindex (c_read i) in
        if rz <? 0 then (Some rz, t ++ rt ++ rel ++ fin)
        else if negb got then (None, t ++ rt)
        else let '(z, bt) := body in
             match z with
             | None => (None, t ++ rt ++ bt)
             | Some _ => (z, t ++ rt ++ bt ++ rel ++ fin)
             end.

(* rindex_create 562-606 *)
Definition create_body (i : cin) : option Z * list ev :=
  if c_search i <? 0 then (Some (c_search i), [Put (RBuf 7)])
  else
    let '(z1, t1) := lease_init WNewLease (c_init i) in
    if z1 <? 0 then (Some z1, t1 ++ [Put (RBuf 7)])
    else
      let '(z2, t2) := update_rindex WEntry (c_upd i) in
      (Some (if z2 <? 0 then z2 else 0), t1 ++ t2 ++ [Put (RBuf 7)]).
Definition rindex_create (i : cin) : result := with_index true false i (create_body i).

(* rindex_delete 708-744 *)
Definition delete_body (i : cin) : option Z * list ev :=
  if c_search i <? 0 then (Some (c_search i), [Put (RBuf 7)])
  else
    let '(z1, t1) := update_rindex WNoEntry (c_upd i) in
    if z1 <? 0 then (Some z1, t1 ++ [Put (RBuf 7)])
    else
      let '(z2, t2) := lease_init WClearedLease (c_init i) in
      (Some (if z2 <? 0 then z2 else 0), t1 ++ t2 ++ [Put (RBuf 7)]).
Definition rindex_delete (i : cin) : result := with_index true true i (delete_body i).

(* rindex_rebuild 1059-1135; what the reads of the leases return only changes the contents *)
Definition rebuild_body (i : cin) : option Z * list ev :=
  if c_io i <? 0 then (Some (c_io i), free_buf 7 (c_io i))
  else (Some 0, [Wr WAll; Put (RBuf 7)]).
Definition rindex_rebuild (nolock : bool) (i : cin) : result := with_index (negb nolock) false i (rebuild_body i).

(* the start of lookup and update, 774-805, 898-924 *)
Definition with_read (lk : bool) (i : cin) (body : option Z * list ev) : result :=
  if c_open i <? 0 then (Some (c_open i), [])
  else if lk && (c_begin i <? 0) then (Some (c_begin i), [Get RDisk; Put RDisk])
  else
    let op := if lk then [Get ROp] else [] in
    let clear := if lk then [Put ROp] else [] in
    let '(hz, ht) := read_header (c_hdr i) in
    let t := Get RDisk :: op ++ ht in
    if hz <? 0 then (Some hz, t ++ clear ++ [Put RDisk])
    else
      let '(rz, rt, got) := read_rindex (c_read i) in
      if rz <? 0 then (Some rz, t ++ rt ++ clear ++ [Put RDisk])
      else if negb (c_aligned i) then (Some SANLK_RINDEX_OFFSET, t ++ rt ++ clear ++ [Put RDisk])
      else if negb got then (None, t ++ rt)
      else let '(z, bt) := body in
           match z with
           | None => (None, t ++ rt ++ bt)
           | Some _ => (z, t ++ rt ++ bt ++ clear ++ [Put RDisk])
           end.

(* rindex_lookup 805-868 *)
Definition lookup_body (i : cin) : option Z * list ev :=
  let rv := if c_needs_search i then (if c_search i <? 0 then c_search i else 0)
            else if c_diff i then SANLK_RINDEX_DIFF else 0 in
  (Some rv, [Put (RBuf 7)]).
Definition rindex_lookup (nolock : bool) (i : cin) : result := with_read (negb nolock) i (lookup_body i).

(* rindex_update 926-960; remove: SANLK_RXUP_REM *)
Definition update_body (remove : bool) (i : cin) : option Z * list ev :=
  if c_badcmd i then (Some (- EINVAL), [Put (RBuf 7)])
  else
    let '(z, t) := update_rindex (if remove then WNoEntry else WEntry) (c_upd i) in
    (Some (if z <? 0 then z else 0), t ++ [Put (RBuf 7)]).
Definition rindex_update (nolock remove : bool) (i : cin) : result := with_read (negb nolock) i (update_body remove i).
