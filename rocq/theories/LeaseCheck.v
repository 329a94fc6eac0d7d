(* How the daemon notices that a host id lease is lost or stale.
   Code: src/lockspace.c:536-585 (check_our_lease), 592-606 (corrupt_result), 945-985 (lockspace_thread: a
   renewal and the publishing of its result), 895-906 (the result of the join); src/main.c:758-763 (time_diff),
   781-841, 869-906, 921-926 (main_loop: when a lockspace is checked, the shared check_buf).

   Everything published or checked is done under sp->mutex: one event each.  renewal_read_count is a natural
   number (an int in the code).  Left out: the warning at 6 * io_timeout, statistics, logging. *)
From Coq Require Import List NArith ZArith Lia Bool Arith ZifyBool ZifyN.
From Verif Require Import Bytes Crc Codec Leader LeaderReadNum Acquire DeltaRenew Timeouts.
Import ListNotations.

Definition int32 (z : Z) : Z := let d := (z mod 2 ^ 32)%Z in if (2 ^ 31 <=? d)%Z then (d - 2 ^ 32)%Z else d.

(* corrupt_result 592-606 *)
Definition corrupt_result (r : Z) : Z :=
  if (r =? SANLK_RENEW_OWNER)%Z then r else if (r =? SANLK_RENEW_DIFF)%Z then r
  else if (r =? SANLK_LEADER_MAGIC)%Z then r else if (r =? SANLK_LEADER_VERSION)%Z then r
  else if (r =? SANLK_LEADER_SECTORSIZE)%Z then r else if (r =? SANLK_LEADER_LOCKSPACE)%Z then r
  else if (r =? SANLK_LEADER_CHECKSUM)%Z then r else 0%Z.

Record lst := mkL {
  s_last : N;            (* lease_status.renewal_last_success *)
  s_corrupt : Z;         (* lease_status.corrupt_result *)
  s_count : nat;         (* renewal_read_count *)
  s_check : nat;         (* renewal_read_check *)
  s_buf : bytes;         (* renewal_read_buf *)
  s_killed : bool;       (* sp->killing_pids after a failed check *)
  s_handed : list bytes  (* what check_other_leases was given, in order *) }.

(* the state after a join with timestamp ts (895-906) *)
Definition linit (ts : N) : lst := mkL ts 0 0 0 [] false [].

Inductive lev :=
| Pub (result : Z) (ts : N) (rd : option bytes)   (* a renewal ends; rd: task->iobuf if read_result is SANLK_OK *)
| Chk (now : N).                                  (* main_loop checks this lockspace *)

(* lockspace.c:964-978 *)
Definition publish (s : lst) (result : Z) (ts : N) (rd : option bytes) : lst :=
  let last := if (result =? SANLK_OK)%Z then ts else s_last s in
  let cor := if negb (result =? SANLK_OK)%Z && (s_corrupt s =? 0)%Z then corrupt_result result else s_corrupt s in
  match rd with
  | Some b => mkL last cor (S (s_count s)) (s_check s) b (s_killed s) (s_handed s)
  | None => mkL last cor (s_count s) (s_check s) (s_buf s) (s_killed s) (s_handed s)
  end.

(* check_our_lease 543-572, and main.c:858-906: no check any more once the processes are being killed *)
Definition check (io : Z) (s : lst) (now : N) : lst :=
  if s_killed s then s
  else
    let new := (s_check s <? s_count s)%nat in
    let chk := if new then s_count s else s_check s in
    let fail := negb (s_corrupt s =? 0)%Z ||
                (calc_id_renewal_fail_seconds io <=? int32 (Z.of_N now - Z.of_N (s_last s)))%Z in
    if fail then mkL (s_last s) (s_corrupt s) (s_count s) chk (s_buf s) true (s_handed s)
    else mkL (s_last s) (s_corrupt s) (s_count s) chk (s_buf s) false
             (if new then s_handed s ++ [s_buf s] else s_handed s).

Definition lstep (io : Z) (s : lst) (e : lev) : lst :=
  match e with Pub r ts rd => publish s r ts rd | Chk now => check io s now end.
Definition lrun (io : Z) (s : lst) (evs : list lev) : lst := fold_left (lstep io) evs s.

(* ---- the renewals of the lockspace thread (937-957) ---- *)
Record rin := mkRin {
  r_rv : Z; r_area : bytes;             (* result of the read, and what it read *)
  r_ts : N; r_wrv : Z;                  (* the time, result of the write *)
  r_bm : bytes; r_extra : option (N * N * N) }.

(* delta_lease_renew is given its own last record and its own last result; r_io: sp->io_timeout, in 0..255 *)
Fixpoint chain (space : bytes) (io ss align : N) (last : leader) (prev : Z) (ins : list rin) : list lev :=
  match ins with
  | [] => []
  | x :: r =>
    match delta_lease_renew space io ss align (r_bm x) (r_extra x) prev last (r_rv x, r_area x) (r_ts x) (r_wrv x) with
    | RnUb => []
    | Rn res _ ret =>
      Pub res (r_ts x) (if (r_rv x =? 0)%Z then Some (r_area x) else None)
      :: chain space io ss align (match ret with Some l => l | None => last end) res r
    end
  end.

(* ---- main_loop: when the checks are done ---- *)
(* a wall clock reading of gettimeofday in microseconds; time_diff, main.c:758-763, timersub and the conversion of
   the long result to unsigned int *)
Definition time_diff (b e : Z) : Z := (((e - b) / 1000000 * 1000 + (e - b) mod 1000000 / 1000) mod 2 ^ 32)%Z.

Record mst := mkM { m_last : Z; m_poll : Z; m_int : Z }.    (* last_check, poll_timeout, check_interval *)
Definition STANDARD_CHECK_INTERVAL : Z := 1000.
Definition RECOVERY_CHECK_INTERVAL : Z := 200.

(* one pass of the loop, 789-926.  eintr: poll was interrupted by a signal; now: the time after the events; killing:
   some lockspace is being killed after the checks; fin: the time at the end.  The result says if it checked. *)
Definition pass (m : mst) (eintr : bool) (now : Z) (killing : bool) (fin : Z) : bool * mst :=
  if eintr then (false, m)
  else
    let ms := time_diff (m_last m) now in
    if (ms <? m_int m)%Z then (false, mkM (m_last m) (m_int m - ms) (m_int m))
    else
      let int := if killing then RECOVERY_CHECK_INTERVAL else STANDARD_CHECK_INTERVAL in
      let ms' := time_diff now fin in
      (true, mkM now (if (ms' <? int)%Z then int - ms' else 1)%Z int).

(* check_buf over the lockspaces of the checks, main.c:873-906: each entry is the align size of a lockspace, the answer of malloc
   and if there is a new read (check_all).  None: check_other_leases is given a null pointer (it reads it) *)
Fixpoint bufs (len : N) (have : bool) (l : list (N * bool * bool)) : option (N * bool) :=
  match l with
  | [] => Some (len, have)
  | (a, ok, all) :: r =>
    let '(len', have') := if (len <? a)%N then (a, ok) else (len, have) in
    if all && negb have' then None else bufs len' have' r
  end.
