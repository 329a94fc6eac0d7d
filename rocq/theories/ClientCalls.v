(* The client library (src/client.c): what every call asks of the system, in
   the order of the source, as a function of the answers it gets.

   Simplified: the contents of the structures which are sent and received are
   left out except for the fields of the header of a reply; a piece of data
   is its length.  After a failed send or recv the source takes the result
   from errno, which nothing has changed since; it is the answer here. *)
Require Import List ZArith Lia Bool.
Import ListNotations.
Open Scope Z_scope.

(* Sizes of the structures (sanlock_sock.h:67-76, 99-104, sanlock.h:98-176,
   sanlock_rv.h aside), and the limits of sanlock.h:18-30 *)
Definition S_HDR : Z := 32.
Definition S_RES : Z := 128.
Definition S_DISK : Z := 1040.
Definition S_LS : Z := 1104.
Definition S_OPT : Z := 56.
Definition S_HOST : Z := 32.
Definition S_EVENT : Z := 32.
Definition S_EVENTCB : Z := 80.
Definition S_RINDEX : Z := 1104.
Definition S_RENTRY : Z := 64.
Definition S_PATH : Z := 128.
Definition S_ARGS : Z := 128.
Definition MAX_RES : Z := 8.
Definition MAX_DISKS : Z := 4.

Definition EINVAL : Z := 22.
Definition ENOMEM : Z := 12.
Definition ENOSPC : Z := 28.
Definition EALREADY : Z := 114.

Definition u32 (x : Z) : Z := x mod 2 ^ 32.
Definition i32 (x : Z) : Z :=
  let y := x mod 2 ^ 32 in if y <? 2 ^ 31 then y else y - 2 ^ 32.

(* sanlock_sock.h:67-76, the fields of a reply which are used *)
Record hdr := Hdr { h_version : Z; h_length : Z; h_data : Z; h_data2 : Z }.

(* what recv gives: errno, or the number of bytes *)
Inductive got := RErr (e : Z) | RGot (n : Z).

(* what a call stores for the caller *)
Inductive out :=
| OCount (n : Z)      (* *lss_count, *hss_count, *res_count *)
| OBuf (b : Z)        (* *lss, *hss, *res_state *)
| OStruct             (* *ls, *res, *re, *he, the bytes of lvb *)
| OTimeout (v : Z)    (* *io_timeout *)
| OVersion (v : Z)    (* *version *)
| OProto (v : Z).     (* *proto *)

Inductive prog :=
| Ret (rv : Z)
| Connect (k : Z -> prog)
| SendHdr (fd datalen : Z) (k : Z -> prog)
| Send (fd len : Z) (k : Z -> prog)
| RecvHdr (fd : Z) (k : got -> hdr -> prog)
| Recv (fd len : Z) (k : got -> prog)
| Malloc (k : option Z -> prog)
| Free (b : Z) (k : prog)
| Close (fd : Z) (k : prog)
| Out (o : out) (k : prog).

Notation "'ASK' x <- a ; k" := (a (fun x => k))
  (at level 200, x name, a at level 100, k at level 200, right associativity, only parsing).

(* client.c:152-168  recv_result *)
Definition recv_result (fd : Z) (k : Z -> prog) : prog :=
  RecvHdr fd (fun g h =>
    match g with
    | RErr e => k (- e)
    | RGot n => if n =? S_HDR then k (i32 (h_data h)) else k (-1)
    end).

(* the part of client.c which is repeated in most calls: memset, recv_data of
   a header, the two tests (for instance lines 233-243) *)
Definition recv_header (fd : Z) (fail : Z -> prog) (k : hdr -> prog) : prog :=
  RecvHdr fd (fun g h =>
    match g with
    | RErr e => fail (- e)
    | RGot n => if n =? S_HDR then k h else fail (-1)
    end).

(* recv_data of one structure and the two tests (for instance 488-497) *)
Definition recv_struct (fd len : Z) (fail : Z -> prog) (k : prog) : prog :=
  Recv fd len (fun g =>
    match g with
    | RErr e => fail (- e)
    | RGot n => if n =? len then k else fail (-1)
    end).

(* send_data of one structure and the test *)
Definition send_struct (fd len : Z) (fail : Z -> prog) (k : prog) : prog :=
  ASK rv <- Send fd len; if rv <? 0 then fail rv else k.

Definition closing (fd rv : Z) : prog := Close fd (Ret rv).

(* connect_socket (43-71) and send_header (73-102), for a call which goes to
   its out label when the header cannot be sent *)
Definition open_call (datalen : Z) (k : Z -> prog) : prog :=
  ASK fd <- Connect;
  if fd <? 0 then Ret fd
  else ASK rv <- SendHdr fd datalen; if rv <? 0 then closing fd rv else k fd.

(* client.c:135-150  send_command, 1014-1029  sanlock_register *)
Definition send_command : prog := open_call 0 (fun fd => Ret fd).

(* client.c:170-192  cmd_lockspace (add, inq and rem_lockspace), 420-442
   sanlock_align, 569-597 sanlock_write_lockspace, 1553-1579
   sanlock_format_rindex and 1581-1607 sanlock_rebuild_rindex after their
   tests of the arguments: one structure is sent, a result comes back *)
Definition simple_call (len : Z) : prog :=
  open_call len (fun fd =>
    send_struct fd len (closing fd)
      (recv_result fd (closing fd))).

Definition checked (ok : bool) (p : prog) : prog := if ok then p else Ret (- EINVAL).

(* the loop over the structures of a list (for instance 260-276) *)
Fixpoint recv_items (n : nat) (fd len : Z) (fail : Z -> prog) (k : prog) : prog :=
  match n with
  | O => k
  | S n => recv_struct fd len fail (recv_items n fd len fail k)
  end.

(* *count is stored; the list is received if it is asked for (for instance
   251-282, 647-735) *)
Definition recv_list (fd len rv : Z) (want : bool) (h : hdr) : prog :=
  Out (OCount (i32 (h_data2 h)))
    (if negb want then closing fd rv
     else Malloc (fun b =>
       match b with
       | None => closing fd rv
       | Some b =>
           recv_items (Z.to_nat (i32 (h_data2 h))) fd len
             (fun rv => Free b (closing fd rv))
             (Out (OBuf b) (closing fd rv))
       end)).

(* client.c:214-283  sanlock_get_lockspaces *)
Definition get_lockspaces (want : bool) : prog :=
  open_call 0 (fun fd =>
    recv_header fd (closing fd) (fun h =>
      let rv := i32 (h_data h) in
      if (rv <? 0) && negb (rv =? - ENOSPC) then closing fd rv
      else recv_list fd S_LS rv want h)).

(* client.c:285-371  sanlock_get_hosts *)
Definition get_hosts (name want : bool) : prog :=
  checked name
    (open_call S_LS (fun fd =>
      send_struct fd S_LS (closing fd)
        (recv_header fd (closing fd) (fun h =>
          let rv := i32 (h_data h) in
          if (rv <? 0) && negb (rv =? - ENOSPC) then closing fd rv
          else recv_list fd S_HOST rv want h)))).

(* client.c:373-418  sanlock_set_config *)
Definition set_config (name : bool) : prog :=
  checked name
    (open_call S_LS (fun fd =>
      send_struct fd S_LS (closing fd)
        (recv_header fd (closing fd) (fun h => closing fd (i32 (h_data h)))))).

(* client.c:444-503  sanlock_read_lockspace *)
Definition read_lockspace (ok : bool) : prog :=
  checked ok
    (open_call S_LS (fun fd =>
      send_struct fd S_LS (closing fd)
        (recv_header fd (closing fd) (fun h =>
          if i32 (h_data h) <? 0 then closing fd (i32 (h_data h))
          else recv_struct fd S_LS (closing fd)
                 (Out OStruct (Out (OTimeout (h_data2 h)) (closing fd (i32 (h_data h))))))))).

(* A resource argument: NULL, or the number of its disks and whether the path
   of the first one is set; the test of 511-513, 603-605, 643-645 *)
Definition res_ok (r : option (Z * bool)) : bool :=
  match r with
  | None => false
  | Some (nd, path) => negb (nd =? 0) && negb (MAX_DISKS <? nd) && path
  end.
Definition disks_of (r : option (Z * bool)) : Z :=
  match r with None => 0 | Some (nd, _) => nd end.

(* client.c:505-567  sanlock_read_resource: the structure is received
   whatever the result *)
Definition read_resource (r : option (Z * bool)) : prog :=
  checked (res_ok r)
    (open_call (S_RES + S_DISK * disks_of r) (fun fd =>
      send_struct fd S_RES (closing fd)
        (send_struct fd (S_DISK * disks_of r) (closing fd)
          (recv_header fd (closing fd) (fun h =>
            recv_struct fd S_RES (closing fd)
              (Out OStruct (closing fd (i32 (h_data h))))))))).

(* client.c:599-635  sanlock_write_resource *)
Definition write_resource (r : option (Z * bool)) : prog :=
  checked (res_ok r)
    (open_call (S_RES + S_DISK * disks_of r) (fun fd =>
      send_struct fd S_RES (closing fd)
        (send_struct fd (S_DISK * disks_of r) (closing fd)
          (recv_result fd (closing fd))))).

(* client.c:637-736  sanlock_read_resource_owners *)
Definition read_owners (r : option (Z * bool)) (want : bool) : prog :=
  checked (res_ok r)
    (open_call (S_RES + S_DISK * disks_of r) (fun fd =>
      send_struct fd S_RES (closing fd)
        (send_struct fd (S_DISK * disks_of r) (closing fd)
          (recv_header fd (closing fd) (fun h =>
            if i32 (h_data h) <? 0 then closing fd (i32 (h_data h))
            else recv_struct fd S_RES (closing fd)
                   (Out OStruct (recv_list fd S_HOST 0 want h))))))).

(* client.c:795-849  sanlock_reg_event *)
Definition reg_event (name : bool) : prog :=
  checked name
    (open_call (S_LS + S_EVENT) (fun fd =>
      send_struct fd S_LS (closing fd)
        (send_struct fd S_EVENT (closing fd)
          (recv_header fd (closing fd) (fun h =>
            if i32 (h_data h) <? 0 then closing fd (i32 (h_data h)) else Ret fd))))).

(* client.c:851-919  sanlock_end_event *)
Definition end_event (reg_fd : Z) (name : bool) : prog :=
  checked name
    (ASK rv <- Send reg_fd 4;
     if rv <? 0 then Close reg_fd (Ret (- EALREADY))
     else Close reg_fd
       (open_call S_LS (fun fd =>
         send_struct fd S_LS (closing fd)
           (recv_header fd (closing fd) (fun h =>
             if i32 (h_data h) <? 0 then closing fd (i32 (h_data h)) else closing fd 0))))).

(* client.c:921-972  sanlock_set_event *)
Definition set_event (ok : bool) : prog :=
  checked ok
    (open_call (S_LS + S_EVENT) (fun fd =>
      send_struct fd S_LS (closing fd)
        (send_struct fd S_EVENT (closing fd)
          (recv_header fd (closing fd) (fun h => closing fd (i32 (h_data h))))))).

(* client.c:974-1001  sanlock_get_event *)
Definition get_event (reg_fd : Z) : prog :=
  recv_struct reg_fd S_EVENTCB Ret (Out OStruct (Ret 0)).

(* client.c:1031-1041  sanlock_restrict *)
Definition restrict (sock : Z) : prog :=
  ASK rv <- SendHdr sock 0; if rv <? 0 then Ret rv else recv_result sock Ret.

(* client.c:1043-1081  sanlock_version *)
Definition version (want_proto : bool) : prog :=
  open_call 0 (fun fd =>
    recv_header fd (closing fd) (fun h =>
      let rest :=
        if i32 (h_data h) <? 0 then closing fd (i32 (h_data h))
        else Out (OVersion (h_data2 h)) (closing fd 0) in
      if want_proto then Out (OProto (h_version h)) rest else rest)).

(* client.c:1083-1116  sanlock_killpath *)
Definition killpath (sock : Z) : prog :=
  ASK rv <- SendHdr sock (S_PATH + S_ARGS);
  if rv <? 0 then Ret rv
  else send_struct sock S_PATH Ret
         (send_struct sock S_ARGS Ret
           (recv_result sock Ret)).

(* the end of a call which works on its own connection or on the caller's
   (for instance 1202-1205) *)
Definition finish (sock fd rv : Z) : prog :=
  if sock =? -1 then closing fd rv else Ret rv.

(* client.c:1118-1206  sanlock_acquire.  A resource is the number of its
   disks.  When the header cannot be sent the call returns at once (1165). *)
Fixpoint send_resources (rs : list Z) (fd : Z) (fail : Z -> prog) (k : prog) : prog :=
  match rs with
  | [] => k
  | nd :: rs =>
      send_struct fd S_RES (fun _ => fail (-1))
        (send_struct fd (S_DISK * nd) (fun _ => fail (-1))
          (send_resources rs fd fail k))
  end.
Definition resources_len (rs : list Z) : Z :=
  fold_right (fun nd n => S_RES + nd * S_DISK + n) 0 rs.
Definition with_conn (sock : Z) (k : Z -> prog) : prog :=
  if sock =? -1 then ASK fd <- Connect; (if fd <? 0 then Ret fd else k fd) else k sock.
Definition acquire (sock : Z) (rs : list Z) : prog :=
  checked (negb (MAX_RES <? Z.of_nat (length rs))
           && forallb (fun nd => negb (MAX_DISKS <? nd)) rs)
    (with_conn sock (fun fd =>
      ASK rv <- SendHdr fd (resources_len rs + S_OPT);
      if rv <? 0 then Ret rv
      else send_resources rs fd (finish sock fd)
             (send_struct fd S_OPT (fun _ => finish sock fd (-1))
               (recv_result fd (finish sock fd))))).

(* client.c:1208-1281  sanlock_inquire.  *res_count and *res_state are
   cleared first; the header returns at once (1237). *)
Definition inquire (sock : Z) (want : bool) : prog :=
  Out (OCount 0)
    (with_conn sock (fun fd =>
      ASK rv <- SendHdr fd 0;
      if rv <? 0 then Ret rv
      else recv_header fd (fun _ => finish sock fd (-1)) (fun h =>
             let len := i32 (h_length h - S_HDR) in
             if len =? 0 then finish sock fd (i32 (h_data h))
             else Malloc (fun b =>
               match b with
               | None => finish sock fd (- ENOMEM)
               | Some b =>
                   recv_struct fd len (fun _ => Free b (finish sock fd (-1)))
                     ((fun rest => if want then Out (OBuf b) rest else Free b rest)
                       (Out (OCount (i32 (h_data2 h))) (finish sock fd (i32 (h_data h)))))
               end)))).

(* client.c:1283-1324  sanlock_convert *)
Definition convert (sock : Z) (res : bool) : prog :=
  checked res
    (with_conn sock (fun fd =>
      ASK rv <- SendHdr fd S_RES;
      if rv <? 0 then finish sock fd rv
      else send_struct fd S_RES (finish sock fd)
             (recv_result fd (finish sock fd)))).

(* client.c:1330-1371  sanlock_release of n resources *)
Fixpoint send_items (n : nat) (fd len : Z) (fail : Z -> prog) (k : prog) : prog :=
  match n with
  | O => k
  | S n => send_struct fd len fail (send_items n fd len fail k)
  end.
Definition release (sock : Z) (n : nat) : prog :=
  with_conn sock (fun fd =>
    ASK rv <- SendHdr fd (Z.of_nat n * S_RES);
    if rv <? 0 then finish sock fd rv
    else send_items n fd S_RES (fun _ => finish sock fd (-1))
           (recv_result fd (finish sock fd))).

(* client.c:1373-1408  sanlock_request: None is a NULL resource, otherwise
   the number of its disks, which is not tested *)
Definition request (r : option Z) : prog :=
  match r with
  | None => Ret (- EINVAL)
  | Some nd =>
      open_call (S_RES + S_DISK * nd) (fun fd =>
        send_struct fd S_RES (closing fd)
          (send_struct fd (S_DISK * nd) (closing fd)
            (recv_result fd (closing fd))))
  end.

(* client.c:1410-1447  sanlock_examine: ls is NULL or says whether its path is
   set; res says whether it is not NULL *)
Definition examine (ls : option bool) (res : bool) : prog :=
  match ls, res with
  | None, false => Ret (- EINVAL)
  | Some true, _ => simple_call S_LS
  | _, _ => simple_call S_RES
  end.

(* client.c:1449-1483  sanlock_set_lvb *)
Definition set_lvb (ok : bool) (lvblen : Z) : prog :=
  checked (ok && negb (lvblen =? 0))
    (ASK fd <- Connect;
     if fd <? 0 then Ret fd
     else ASK rv <- SendHdr fd (S_RES + lvblen);
          if rv <? 0 then Ret rv
          else send_struct fd S_RES (closing fd)
                 (send_struct fd lvblen (fun _ => closing fd (-1))
                   (recv_result fd (closing fd)))).

(* client.c:1485-1551  sanlock_get_lvb *)
Definition get_lvb (ok : bool) (lvblen : Z) : prog :=
  checked (ok && negb (lvblen =? 0))
    (ASK fd <- Connect;
     if fd <? 0 then Ret fd
     else ASK rv <- SendHdr fd S_RES;
          if rv <? 0 then Ret rv
          else send_struct fd S_RES (fun _ => closing fd (-1))
                 (recv_header fd (fun _ => closing fd (-1)) (fun h =>
                   let len := i32 (h_length h - S_HDR) in
                   if len =? 0 then closing fd (i32 (h_data h))
                   else Malloc (fun b =>
                     match b with
                     | None => closing fd (- ENOMEM)
                     | Some b =>
                         recv_struct fd len (fun _ => Free b (closing fd (-1)))
                           (Out OStruct (Free b (closing fd (i32 (h_data h)))))
                     end)))).

(* client.c:1609-1663 sanlock_update_rindex, 1721-1776 sanlock_create_resource,
   1778-1832 sanlock_delete_resource with datalen the size of both structures;
   1665-1719 sanlock_lookup_rindex announces an entry but a resource *)
Definition rindex_call (ok : bool) (datalen : Z) : prog :=
  checked ok
    (open_call datalen (fun fd =>
      send_struct fd S_RINDEX (closing fd)
        (send_struct fd S_RENTRY (fun _ => closing fd (-1))
          (recv_result fd (fun rv =>
            if rv <? 0 then closing fd rv
            else recv_struct fd S_RENTRY (closing fd)
                   (Out OStruct (closing fd 0))))))).

(* The calls of the library.  Arguments: the descriptors and numbers which
   are passed, whether a pointer is set or a test of the arguments succeeds,
   and whether an optional result is asked for. *)
Inductive call :=
| CSendCommand | CRegister
| CLockspace | CAlign
| CWriteLockspace (ok : bool) | CFormatRindex (ok : bool) | CRebuildRindex (ok : bool)
| CGetLockspaces (want : bool)
| CGetHosts (name want : bool)
| CSetConfig (name : bool)
| CReadLockspace (ok : bool)
| CReadResource (r : option (Z * bool))
| CWriteResource (r : option (Z * bool))
| CReadOwners (r : option (Z * bool)) (want : bool)
| CRegEvent (name : bool)
| CEndEvent (reg_fd : Z) (name : bool)
| CSetEvent (ok : bool)
| CGetEvent (reg_fd : Z)
| CRestrict (sock : Z)
| CVersion (want_proto : bool)
| CKillpath (sock : Z)
| CAcquire (sock : Z) (rs : list Z)
| CInquire (sock : Z) (want : bool)
| CConvert (sock : Z) (res : bool)
| CRelease (sock : Z) (n : nat)
| CRequest (r : option Z)
| CExamine (ls : option bool) (res : bool)
| CSetLvb (ok : bool) (lvblen : Z)
| CGetLvb (ok : bool) (lvblen : Z)
| CUpdateRindex (ok : bool) | CLookupRindex (ok : bool)
| CCreateResource (ok : bool) | CDeleteResource (ok : bool).

Definition lib (c : call) : prog :=
  match c with
  | CSendCommand | CRegister => send_command
  | CLockspace => simple_call S_LS
  | CAlign => simple_call S_DISK
  | CWriteLockspace ok => checked ok (simple_call S_LS)
  | CFormatRindex ok => checked ok (simple_call S_RINDEX)
  | CRebuildRindex ok => checked ok (simple_call S_RINDEX)
  | CGetLockspaces want => get_lockspaces want
  | CGetHosts name want => get_hosts name want
  | CSetConfig name => set_config name
  | CReadLockspace ok => read_lockspace ok
  | CReadResource r => read_resource r
  | CWriteResource r => write_resource r
  | CReadOwners r want => read_owners r want
  | CRegEvent name => reg_event name
  | CEndEvent fd name => end_event fd name
  | CSetEvent ok => set_event ok
  | CGetEvent fd => get_event fd
  | CRestrict sock => restrict sock
  | CVersion p => version p
  | CKillpath sock => killpath sock
  | CAcquire sock rs => acquire sock rs
  | CInquire sock want => inquire sock want
  | CConvert sock res => convert sock res
  | CRelease sock n => release sock n
  | CRequest r => request r
  | CExamine ls res => examine ls res
  | CSetLvb ok n => set_lvb ok n
  | CGetLvb ok n => get_lvb ok n
  | CUpdateRindex ok => rindex_call ok (S_RINDEX + S_RENTRY)
  | CLookupRindex ok => rindex_call ok (S_RINDEX + S_RES)
  | CCreateResource ok => rindex_call ok (S_RINDEX + S_RENTRY)
  | CDeleteResource ok => rindex_call ok (S_RINDEX + S_RENTRY)
  end.

(* What happens, question and answer. *)
Inductive event :=
| EConnect (r : Z)                    (* a descriptor, or a negative error *)
| ESendHdr (fd length r : Z)          (* the length field which is announced *)
| ESend (fd len r : Z)
| ERecvHdr (fd : Z) (g : got) (h : hdr)
| ERecv (fd len : Z) (g : got)
| EMalloc (b : option Z)
| EFree (b : Z)
| EClose (fd : Z)
| EOut (o : out).

(* send_header and send_data give 0 or a negative number *)
Definition send_answer (r : Z) : Prop := r <= 0.
(* recv gives an error or at most what was asked for *)
Definition recv_answer (len : Z) (g : got) : Prop :=
  match g with RErr e => 0 < e | RGot n => 0 <= n <= Z.max 0 len end.

Inductive exec : prog -> list event -> Z -> Prop :=
| xRet rv : exec (Ret rv) [] rv
| xConnect k r t rv : exec (k r) t rv -> exec (Connect k) (EConnect r :: t) rv
| xSendHdr fd n k r t rv : send_answer r -> exec (k r) t rv ->
    exec (SendHdr fd n k) (ESendHdr fd (u32 (S_HDR + n)) r :: t) rv
| xSend fd n k r t rv : send_answer r -> exec (k r) t rv ->
    exec (Send fd n k) (ESend fd n r :: t) rv
| xRecvHdr fd k g h t rv : recv_answer S_HDR g -> exec (k g h) t rv ->
    exec (RecvHdr fd k) (ERecvHdr fd g h :: t) rv
| xRecv fd n k g t rv : recv_answer n g -> exec (k g) t rv ->
    exec (Recv fd n k) (ERecv fd n g :: t) rv
| xMalloc k b t rv : exec (k b) t rv -> exec (Malloc k) (EMalloc b :: t) rv
| xFree b k t rv : exec k t rv -> exec (Free b k) (EFree b :: t) rv
| xClose fd k t rv : exec k t rv -> exec (Close fd k) (EClose fd :: t) rv
| xOut o k t rv : exec k t rv -> exec (Out o k) (EOut o :: t) rv.

(* client.c:104-121  send_data: one piece at a time; an answer of send is the
   number of bytes taken, or None for EINTR, or an error.  The result is the
   value returned and the bytes which were taken; fuel bounds the number of
   answers. *)
Inductive sans := STaken (n : nat) | SIntr | SFail (e : Z).
Fixpoint send_loop (answers : list sans) (buf : list Z) : option (Z * list Z) :=
  match answers with
  | [] => None
  | SIntr :: more => send_loop more buf
  | SFail e :: _ => Some (- e, [])
  | STaken n :: more =>
      if Nat.ltb n (length buf) then
        match send_loop more (skipn n buf) with
        | Some (rv, sent) => Some (rv, firstn n buf ++ sent)
        | None => None
        end
      else Some (0, buf)
  end.
