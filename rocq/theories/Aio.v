(* Buffers and asynchronous I/O of one task (thread).
   Code: src/diskio.c:550-599 (find_callback_slot), 623-802 (do_linux_aio), 827-862
   (_write_sectors), 932-974 (read_sectors), 980-1065 (read_iobuf_reap);
   src/delta_lease.c:563-675, 756-760 (delta_lease_renew: task->iobuf, wbuf);
   src/task.c:66-143 (close_task_aio); src/rindex.c:247-277 (read_rindex);
   src/resource.c:470-512 (write_host_block), 660-732, 1085-1116, 1960-1980, 72-75
   (the value block buffer).

   Buffers are numbers; a fresh number is a fresh allocation (allocations succeed).
   EINTR retries change nothing and are left out.  The kernel's side of a slot is
   [a_fly]: the buffer of an I/O that was submitted, has not been cancelled, and whose
   completion event has not been collected. *)
From Coq Require Import List Arith Lia Bool.
Import ListNotations.

Record aslot := mkA {
  a_used : bool;           (* aicb->used *)
  a_buf : option nat;      (* aicb->buf *)
  a_fly : option nat }.    (* kernel: I/O in progress into/from this buffer *)
Inductive viol := VDouble (* free of a freed buffer *) | VInFlight (* free during I/O *)
  | VReuse (* buffer used during I/O *) | VFreed (* freed buffer used *) | VSlot (* iocb used during I/O *).
Record ast := mkS {
  slots : nat -> aslot;    (* task->callbacks *)
  freed : list nat;        (* buffers given to free() *)
  next : nat;              (* next fresh buffer *)
  tio : option nat;        (* task->iobuf *)
  tsl : option nat;        (* task->read_iobuf_timeout_aicb *)
  prev : bool;             (* the last renewal returned SANLK_AIO_TIMEOUT *)
  lvb : option nat;        (* r->lvb of a resource *)
  bad : option viol }.     (* the first violation *)

Definition ainit : ast := mkS (fun _ => mkA false None None) [] 0 None None false None None.

Definition set_slot (s : ast) (i : nat) (a : aslot) : ast :=
  mkS (fun j => if Nat.eqb j i then a else slots s j) (freed s) (next s) (tio s) (tsl s) (prev s) (lvb s) (bad s).
Definition set_bad (s : ast) (v : viol) : ast :=
  mkS (slots s) (freed s) (next s) (tio s) (tsl s) (prev s) (lvb s) (match bad s with Some x => Some x | None => Some v end).
Definition set_tio (s : ast) (x : option nat) : ast := mkS (slots s) (freed s) (next s) x (tsl s) (prev s) (lvb s) (bad s).
Definition set_tsl (s : ast) (x : option nat) : ast := mkS (slots s) (freed s) (next s) (tio s) x (prev s) (lvb s) (bad s).
Definition set_prev (s : ast) (x : bool) : ast := mkS (slots s) (freed s) (next s) (tio s) (tsl s) x (lvb s) (bad s).
Definition set_lvb (s : ast) (x : option nat) : ast := mkS (slots s) (freed s) (next s) (tio s) (tsl s) (prev s) x (bad s).
Definition alloc (s : ast) : nat * ast :=
  (next s, mkS (slots s) (freed s) (S (next s)) (tio s) (tsl s) (prev s) (lvb s) (bad s)).

Definition opt_is (o : option nat) (b : nat) : bool := match o with Some x => Nat.eqb x b | None => false end.
(* [n]: task->cb_size *)
Definition flying (n : nat) (s : ast) (b : nat) : bool := existsb (fun i => opt_is (a_fly (slots s i)) b) (seq 0 n).
Definition is_freed (s : ast) (b : nat) : bool := existsb (Nat.eqb b) (freed s).

(* free(b) *)
Definition free_buf (n : nat) (s : ast) (b : nat) : ast :=
  let s1 := if is_freed s b then set_bad s VDouble else if flying n s b then set_bad s VInFlight else s in
  mkS (slots s1) (b :: freed s1) (next s1) (tio s1) (tsl s1) (prev s1) (lvb s1) (bad s1).

(* the event of another slot is collected: its buffer is freed here *)
Definition collect (n : nat) (s : ast) (j : nat) : ast :=
  let a := slots s j in
  let s1 := set_slot s j (mkA false None None) in
  match a_buf a with Some b => free_buf n s1 b | None => s1 end.

(* answers of io_getevents: an error, no event in time, the event of a slot (with a
   good or bad result) *)
Inductive gev := GErr | GTimeout | GEv (j : nat) (ok : bool).
Definition can_event (n : nat) (s : ast) (j : nat) : bool :=
  Nat.ltb j n && match a_fly (slots s j) with Some _ => true | None => false end.

(* find_callback_slot 550-599 *)
Definition free_slot (n : nat) (s : ast) : option nat := find (fun i => negb (a_used (slots s i))) (seq 0 n).
Definition find_slot (n : nat) (s : ast) (g : gev) : option nat * ast :=
  match free_slot n s with
  | Some i => (Some i, s)
  | None =>
    match g with
    | GEv j _ => if can_event n s j then let s1 := collect n s j in (free_slot n s1, s1) else (None, s)
    | _ => (None, s)
    end
  end.

Inductive rv := RvOk | RvErr | RvTimeout.
Definition is_timeout (r : rv) : bool := match r with RvTimeout => true | _ => false end.

(* io_cancel, 786-799 *)
Definition cancel (s : ast) (i : nat) (read ok : bool) : rv * ast :=
  if ok then (RvErr, set_slot s i (mkA false (a_buf (slots s i)) None))
  else (RvTimeout, if read then set_tsl s (Some i) else s).

(* the wait loop 692-766 *)
Fixpoint wait (n : nat) (s : ast) (i : nat) (read cok : bool) (g : list gev) : rv * ast :=
  match g with
  | [] | GTimeout :: _ => cancel s i read cok
  | GErr :: _ => (RvErr, s)
  | GEv j ok :: r =>
    if can_event n s j
    then if Nat.eqb j i
         then (if ok then RvOk else RvErr, set_slot s i (mkA false (a_buf (slots s i)) None))
         else wait n (collect n s j) i read cok r
    else wait n s i read cok r
  end.

(* one I/O as the outside world treats it *)
Record io := mkIo { io_find : gev; io_submit : bool; io_wait : list gev; io_cancel : bool }.

(* do_linux_aio 623-802 *)
Definition do_aio (n : nat) (s : ast) (read : bool) (b : nat) (x : io) : rv * ast :=
  match find_slot n s (io_find x) with
  | (None, s1) => (RvErr, s1)
  | (Some i, s1) =>
    if negb (io_submit x) then (RvErr, s1)
    else
      let s2 := if is_freed s1 b then set_bad s1 VFreed
                else if flying n s1 b then set_bad s1 VReuse
                else match a_fly (slots s1 i) with Some _ => set_bad s1 VSlot | None => s1 end in
      wait n (set_slot s2 i (mkA true (Some b) (Some b))) i read (io_cancel x) (io_wait x)
  end.

(* ---------------- the callers ---------------- *)
(* one buffer for one or more I/Os after each other, up to the first that fails; then
   freed unless the last timed out: _write_sectors, read_sectors, write_host_block,
   read_mode_block, delta_lease_init, ... *)
Fixpoint io_list (n : nat) (s : ast) (read : bool) (b : nat) (l : list io) : rv * ast :=
  match l with
  | [] => (RvOk, s)
  | x :: r => match do_aio n s read b x with
              | (RvOk, s1) => io_list n s1 read b r
              | (e, s1) => (e, s1)
              end
  end.
Definition op_io (n : nat) (s : ast) (read : bool) (l : list io) : ast :=
  let '(b, s1) := alloc s in
  let '(r, s2) := io_list n s1 read b l in
  if is_timeout r then s2 else free_buf n s2 b.

(* read_rindex and its callers: freed on every error; after success used and freed *)
Definition op_rindex (n : nat) (s : ast) (x : io) : ast :=
  let '(b, s1) := alloc s in
  let '(r, s2) := do_aio n s1 true b x in
  free_buf n s2 b.

(* the value block: r->lvb itself is the I/O buffer *)
Definition op_lvb_open (n : nat) (s : ast) (x : io) : ast :=     (* acquire_token 1960-1980 *)
  let '(b, s1) := alloc s in snd (do_aio n (set_lvb s1 (Some b)) true b x).
Definition op_lvb_set (n : nat) (s : ast) : ast :=               (* res_set_lvb 724 *)
  match lvb s with
  | Some b => if is_freed s b then set_bad s VFreed else if flying n s b then set_bad s VReuse else s
  | None => s
  end.
Definition op_lvb_write (n : nat) (s : ast) (x : io) : ast :=    (* write_lvb_block *)
  match lvb s with Some b => snd (do_aio n s false b x) | None => s end.
Definition op_lvb_close (n : nat) (s : ast) : ast :=             (* free_resource 72-75 *)
  match lvb s with Some b => set_lvb (free_buf n s b) None | None => s end.

(* read_iobuf_reap 980-1065 *)
Fixpoint reap_wait (n : nat) (s : ast) (i : nat) (g : list gev) : rv * ast :=
  match g with
  | [] | GTimeout :: _ => (RvTimeout, s)
  | GErr :: _ => (RvErr, s)
  | GEv j ok :: r =>
    if can_event n s j
    then if Nat.eqb j i
         then (if ok then RvOk else RvErr, set_slot s i (mkA false (a_buf (slots s i)) None))
         else reap_wait n (collect n s j) i r
    else reap_wait n s i r
  end.
Definition reap (n : nat) (s : ast) (b : nat) (g : list gev) : rv * ast :=
  match tsl s with
  | Some i => if a_used (slots s i) && opt_is (a_buf (slots s i)) b then reap_wait n s i g else (RvErr, s)
  | None => (RvErr, s)
  end.

(* delta_lease_renew: the reading part up to read_done; true: task->iobuf was read *)
Definition renew_read (n : nat) (s : ast) (g : list gev) (x : io) : rv * ast :=
  let fresh (s0 : ast) :=
    let s1 := match tsl s0 with Some _ => set_tio (set_tsl s0 None) None | None => s0 end in
    match tio s1 with
    | Some b => do_aio n s1 true b x
    | None => let '(b, s2) := alloc s1 in do_aio n (set_tio s2 (Some b)) true b x
    end in
  if prev s
  then
    match tsl s, tio s with
    | Some i, Some b =>
      match reap n s b g with
      | (RvOk, s1) => (RvOk, set_tsl s1 None)
      | (_, s1) => fresh (set_tio (set_tsl s1 None) None)
      end
    | _, _ => fresh (set_tio (set_tsl s None) None)
    end
  else fresh s.
(* wok: between read and write nothing fails *)
Definition op_renew (n : nat) (s : ast) (g : list gev) (x : io) (wok : bool) (w : io) : ast :=
  match renew_read n s g x with
  | (RvOk, s1) =>
    if negb wok then set_prev s1 false
    else
      let '(b, s2) := alloc s1 in
      let '(r, s3) := do_aio n s2 false b w in
      let s4 := if is_timeout r then s3 else free_buf n s3 b in
      set_prev s4 (is_timeout r)
  | (r, s1) => set_prev s1 (is_timeout r)
  end.

(* close_task_aio: collect events until none is left, an error, or it gives up;
   io_destroy ends all I/O *)
Fixpoint close_loop (n : nat) (s : ast) (g : list gev) : ast :=
  match g with
  | [] | GErr :: _ => s
  | GTimeout :: r => close_loop n s r
  | GEv j _ :: r =>
    if can_event n s j
    then let s0 := match a_buf (slots s j), tio s with
                   | Some b, Some t => if Nat.eqb b t then set_tio s None else s
                   | _, _ => s
                   end in
         close_loop n (collect n s0 j) r
    else close_loop n s r
  end.
Definition destroy (s : ast) : ast :=
  mkS (fun i => mkA (a_used (slots s i)) (a_buf (slots s i)) None) (freed s) (next s) (tio s) (tsl s) (prev s) (lvb s) (bad s).
Definition op_close (n : nat) (s : ast) (g : list gev) : ast :=
  let s1 := destroy (close_loop n s g) in
  match tio s1 with Some b => set_tio (free_buf n s1 b) None | None => s1 end.

Inductive aop :=
| OIo (read : bool) (l : list io) | ORindex (x : io)
| OLvbOpen (x : io) | OLvbSet | OLvbWrite (x : io) | OLvbClose
| ORenew (g : list gev) (x : io) (wok : bool) (w : io).
(* lockspace_thread does other I/O (delta_lease_release) only after a renewal that did
   not time out (lockspace.c:1006-1009) *)
Definition astep (n : nat) (s : ast) (o : aop) : option ast :=
  match o with
  | ORenew g x wok w => Some (op_renew n s g x wok w)
  | _ => if prev s then None else
    match o with
    | OIo read l => Some (op_io n s read l)
    | ORindex x => Some (op_rindex n s x)
    | OLvbOpen x => match lvb s with None => Some (op_lvb_open n s x) | Some _ => None end
    | OLvbSet => Some (op_lvb_set n s)
    | OLvbWrite x => Some (op_lvb_write n s x)
    | OLvbClose => Some (op_lvb_close n s)
    | ORenew _ _ _ _ => None
    end
  end.
Fixpoint asteps (n : nat) (s : ast) (os : list aop) : option ast :=
  match os with [] => Some s | o :: r => match astep n s o with Some s' => asteps n s' r | None => None end end.
