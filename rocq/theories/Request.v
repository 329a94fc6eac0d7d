(* The request record of a resource lease: how it is written by requesting
   hosts and how the owner acts on it.
   Models src/resource.c:1991-2184, 2377-2409, src/paxos_lease.c:76-110 and the
   choice of arguments in src/cmd.c:984-1091. *)
From Coq Require Import List NArith ZArith Lia Bool Arith ZifyBool ZifyN.
From Verif Require Import Bytes Codec Leader LeaderReadNum Acquire.
Import ListNotations.
Open Scope N_scope.

(* src/sanlock_rv.h *)
Definition SANLK_REQUEST_MAGIC : Z := (-270).
Definition SANLK_REQUEST_VERSION : Z := (-271).
Definition SANLK_REQUEST_OLD : Z := (-272).
Definition SANLK_REQUEST_LVER : Z := (-273).

(* src/leader.h:94-96 *)
Definition REQ_DISK_MAGIC : N := 0x08292011.
Definition REQ_DISK_VERSION_MAJOR : N := 0x00010000.
Definition REQ_DISK_VERSION_MINOR : N := 0x00000001.

(* src/sanlock_resource.h SANLK_REQ_* *)
Definition SANLK_REQ_FORCE : N := 1.
Definition SANLK_REQ_GRACEFUL : N := 2.

(* ---------------- the disk sector ---------------- *)
(* src/paxos_lease.c:76-93: only disks[0], second sector *)
Definition paxos_lease_request_read (sector : bytes) : request :=
  request_record_in (get 0 REQUEST_SIZE sector).

(* src/paxos_lease.c:95-110 with src/diskio.c:827-862 (the buffer is zeroed and
   the record copied to its start).  [junk] is the uninitialised rr_end, of which
   request_record_out leaves the 4 padding bytes alone. *)
Definition request_sector (junk : bytes) (rr : request) (ssize : nat) : bytes :=
  request_record_out rr junk ++ repeat 0 (ssize - REQUEST_SIZE).

(* ---------------- request_token, src/resource.c:1991-2089 ---------------- *)
(* arguments of one request: token->acquire_lver, force_mode, and the flag
   SANLK_REQUEST_NEXT_LVER (src/cmd.c:1038-1053) *)
Record reqargs := mkReqargs { q_lver : N; q_force : N; q_next : bool }.

(* lines 2006 and 2069: neither a version nor a mode *)
Definition is_clear (q : reqargs) : bool := (q_lver q =? 0) && (q_force q =? 0).

(* lines 2009-2053: the part up to the label req_read.
   [lead] is the result of paxos_lease_leader_read: a negative error or a record.
   Returns either the final rv and owner id, or the version to request.
   The adjustment of sector and align size (lines 2020-2031) selects which sector
   is read and is not visible here. *)
Inductive reqgo := ReqStop (rv : Z) (owner : N) | ReqGo (lver owner : N).

Definition request_start (q : reqargs) (lead : Z * leader) : reqgo :=
  if is_clear q then ReqGo (q_lver q) 0
  else if (fst lead <? 0)%Z then ReqStop (fst lead) 0
  else
    let l := snd lead in
    if l_timestamp l =? LEASE_FREE then ReqStop SANLK_OK 0
    else
      let acquire_lver :=
        if (q_lver q =? 0) && q_next q then (l_lver l + 1) mod 2 ^ 64 else q_lver q in
      if acquire_lver <=? l_lver l then ReqStop SANLK_REQUEST_OLD (l_owner_id l)
      else ReqGo acquire_lver (l_owner_id l).

(* lines 2055-2084: from the label req_read, given the result of reading the
   record; returns rv and the record to write, if any *)
Definition request_decide (q : reqargs) (acquire_lver : N) (rd : Z * request) : Z + request :=
  if (fst rd <? 0)%Z then inl (fst rd)
  else
    let req := snd rd in
    if negb (rr_magic req =? REQ_DISK_MAGIC) then inl SANLK_REQUEST_MAGIC
    else if negb (N.land (rr_version req) 0xFFFF0000 =? REQ_DISK_VERSION_MAJOR) then inl SANLK_REQUEST_VERSION
    else if negb ((acquire_lver =? 0) && (q_force q =? 0)) && (acquire_lver <? rr_lver req)
    then inl SANLK_REQUEST_LVER
    else inr {| rr_magic := rr_magic req;
                rr_version := N.lor REQ_DISK_VERSION_MAJOR REQ_DISK_VERSION_MINOR;
                rr_lver := acquire_lver; rr_force_mode := q_force q |}.

(* outcome of the write: it may fail, and a failed write may or may not have
   reached the disk *)
Record wout := mkWout { wo_rv : Z; wo_landed : bool }.
Definition wout_ok (w : wout) : Prop := (0 <= wo_rv w)%Z -> wo_landed w = true.

(* one whole request that is not interleaved with another:
   rv, owner id reported, and the sector afterwards *)
Definition request_token (q : reqargs) (lead : Z * leader) (rd_rv : Z) (sector junk : bytes) (w : wout)
  : Z * N * bytes :=
  match request_start q lead with
  | ReqStop rv owner => (rv, owner, sector)
  | ReqGo lver owner =>
    match request_decide q lver (rd_rv, paxos_lease_request_read sector) with
    | inl rv => (rv, owner, sector)
    | inr rec =>
      (if (wo_rv w <? 0)%Z then wo_rv w else SANLK_OK, owner,
       if wo_landed w then request_sector junk rec (length sector) else sector)
    end
  end.

(* ---------------- the owner: examine and do_request ---------------- *)
(* src/resource.c:2377-2409 with 2091-2119: the force mode to act on *)
Definition resource_thread_examine (rd : Z * request) (lver : N) : option N :=
  if (fst rd <? 0)%Z then None
  else
    let req := snd rd in
    if negb (rr_magic req =? REQ_DISK_MAGIC) then None
    else if negb (N.land (rr_version req) 0xFFFF0000 =? REQ_DISK_VERSION_MAJOR) then None
    else if (rr_force_mode req =? 0) || (rr_lver req =? 0) then None
    else if rr_lver req <=? lver then None
    else Some (rr_force_mode req).

(* a held resource as do_request sees it: pid, restrict flags, killpath set;
   lver is the version on disk which the daemon holds *)
Record held := mkHeld { h_pid : Z; h_lver : N; h_norestrict_kill : bool; h_norestrict_term : bool; h_path : bool }.

Inductive kill_action := SendKill (pid : Z) | SendTerm (pid : Z) | RunPath.

(* src/resource.c:2121-2184; [now_held] is the lookup by name done when the
   action is taken, after the record was read *)
Definition do_request (now_held : option held) (pid : Z) (force_mode : N) : option kill_action :=
  match now_held with
  | None => None
  | Some h =>
    if negb (h_pid h =? pid)%Z then None
    else if force_mode =? SANLK_REQ_FORCE then
      Some (if h_norestrict_kill h then SendKill pid else SendTerm pid)
    else if force_mode =? SANLK_REQ_GRACEFUL then
      Some (if h_path h then RunPath
            else if h_norestrict_term h then SendTerm pid else SendKill pid)
    else None
  end.

(* src/resource.c:2512-2540: the thread copies pid and version of the resource it
   found under the mutex, reads the request without the mutex, then acts *)
Definition examine (found : held) (rd : Z * request) (now_held : option held) : option kill_action :=
  match resource_thread_examine rd (h_lver found) with
  | None => None
  | Some fm => do_request now_held (h_pid found) fm
  end.

(* ---------------- several hosts requesting at once ---------------- *)
(* Hosts run request_token on one lease.  The lease version is changed by
   owners (never backwards: C12).  Steps: a host starts a request and reads the
   leader; reads the record; writes it. *)
Inductive rpc := RqIdle | RqLead (q : reqargs) (lver : N) | RqWrite (r : request).
Record rsys := mkRsys { y_lead : leader; y_req : request; y_pc : nat -> rpc }.
Definition yupd (f : nat -> rpc) (h : nat) (p : rpc) : nat -> rpc := fun x => if Nat.eqb x h then p else f x.

Inductive yev :=
| YStart (h : nat) (q : reqargs)
| YRead (h : nat)
| YWrite (h : nat) (landed : bool)
| YLease (l : leader).

Definition ystep (s : rsys) (e : yev) : option rsys :=
  match e with
  | YStart h q =>
    match y_pc s h with
    | RqIdle =>
      match request_start q (1%Z, y_lead s) with
      | ReqStop _ _ => Some s
      | ReqGo lv _ => Some (mkRsys (y_lead s) (y_req s) (yupd (y_pc s) h (RqLead q lv)))
      end
    | _ => None
    end
  | YRead h =>
    match y_pc s h with
    | RqLead q lv =>
      match request_decide q lv (1%Z, y_req s) with
      | inl _ => Some (mkRsys (y_lead s) (y_req s) (yupd (y_pc s) h RqIdle))
      | inr r => Some (mkRsys (y_lead s) (y_req s) (yupd (y_pc s) h (RqWrite r)))
      end
    | _ => None
    end
  | YWrite h landed =>
    match y_pc s h with
    | RqWrite r => Some (mkRsys (y_lead s) (if landed then r else y_req s) (yupd (y_pc s) h RqIdle))
    | _ => None
    end
  | YLease l => if l_lver (y_lead s) <=? l_lver l then Some (mkRsys l (y_req s) (y_pc s)) else None
  end.

Fixpoint yrun (s : rsys) (es : list yev) : option rsys :=
  match es with
  | [] => Some s
  | e :: es' => match ystep s e with Some s' => yrun s' es' | None => None end
  end.

(* ---------------- lemmas ---------------- *)
Lemma request_sector_read junk rr n :
  request_wf rr -> length junk = REQUEST_SIZE ->
  paxos_lease_request_read (request_sector junk rr n) = rr.
Proof.
  intros W L. unfold paxos_lease_request_read, request_sector, get.
  cbn [skipn]. rewrite firstn_app.
  rewrite (request_record_out_length rr junk L). rewrite Nat.sub_diag. cbn [firstn].
  rewrite app_nil_r.
  rewrite <- (request_record_out_length rr junk L), firstn_all.
  apply request_roundtrip; assumption.
Qed.
