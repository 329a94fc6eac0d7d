(* The helper process and the two pipes between it and the daemon.
   src/helper.c:110-284 (read_hm, send_status, run_helper), src/helper.h;
   src/main.c:93-186 close_helper, send_helper_kill; 785-831 main_loop as far as the
   helper's slot is concerned; 1605-1725 setup_helper, process_helper, helper_dead;
   1576-1593 setup_signals; src/resource.c:2121-2182 do_request (the write);
   src/lockspace.c:51-112 helper_set_max_sectors_kb (the write).

   One event is one call of a function above, one turn of the loop of run_helper, one
   dispatch of the main loop, or something that happens to a process.
   Simplified: a message is what the helper acts on, tagged with the client it is about;
   pipes keep messages whole (512 and 4 bytes, both at most PIPE_BUF) and hold 64 kB;
   EINTR is retried; the only failures of a write are a full pipe and one without reader;
   a resource thread's write is one step (it does not overlap with close_helper). *)
From Coq Require Import List NArith ZArith Lia Bool Arith.
Import ListNotations.
Open Scope Z_scope.

Definition SIGKILL : Z := 9.
Definition SIGTERM : Z := 15.
Definition HELPER_STATUS_INTERVAL : Z := 30.     (* src/helper.h:39 *)
Definition RECOVERY_INTERVAL : Z := 1.           (* src/helper.c:149 *)
Definition MSG_CAP : N := 128.                   (* 65536 / 512 *)
Definition STATUS_CAP : N := 16384.              (* 65536 / 4 *)

(* struct helper_msg *)
Inductive hmsg :=
| HRun (path args : N) (pid : Z)     (* HELPER_MSG_RUNPATH; pid 0: no argument *)
| HKill (pid sig : Z)                (* HELPER_MSG_KILLPID *)
| HSysfs (path val : N).             (* HELPER_MSG_WRITE_SYSFS *)

(* struct client, the members used by send_helper_kill *)
Record hclient := mkHclient { hc_id : N; hc_pid : Z; hc_path : N; hc_args : N; hc_wantpid : bool }.

Record hst := mkHst {
  (* daemon *)
  d_alive : bool;
  d_kill : bool;            (* helper_kill_fd != -1 *)
  d_ci : Z;                 (* helper_ci *)
  d_polled : bool;          (* pollfd[slot].fd != -1 *)
  d_pid : bool;             (* helper_pid != -1 *)
  d_bad : bool;             (* pollfd written outside of the array *)
  d_last : Z;               (* helper_last_status *)
  d_full : N;               (* helper_full_count *)
  d_ran : N -> bool;        (* CL_RUNPATH_SENT of a client *)
  (* pipes *)
  q : list (N * hmsg);      (* requests *)
  st : N;                   (* status messages *)
  (* helper *)
  h_alive : bool;
  h_iter : Z;               (* time of the last turn *)
  h_send : Z; h_good : Z;   (* last_send, last_good *)
  h_kids : nat;             (* children not yet waited for *)
  h_fast : bool;            (* timeout == RECOVERY_TIMEOUT_MS *)
  (* the world: what the helper took from the pipe, what it did *)
  taken : list (N * hmsg);
  done : list (N * hmsg);
  acc : list (N * hmsg) }.  (* accepted by the pipe *)

(* [c_ign]: SIGPIPE was ignored when the daemon was started; setup_signals does not
   change that (1579) *)
Record hcfg := mkHcfg { c_ign : bool; c_ci : Z }.

(* close_helper, 93-104; pollfd[helper_ci] with helper_ci -1 is outside of the array *)
Definition close_helper (s : hst) : hst :=
  mkHst (d_alive s) false (-1) (if 0 <=? d_ci s then false else d_polled s) (d_pid s)
    (d_bad s || negb (0 <=? d_ci s)) (d_last s) (d_full s) (d_ran s)
    (q s) (st s) (h_alive s) (h_iter s) (h_send s) (h_good s) (h_kids s) (h_fast s) (taken s) (done s) (acc s).

Definition daemon_dies (s : hst) : hst :=
  mkHst false (d_kill s) (d_ci s) (d_polled s) (d_pid s) (d_bad s) (d_last s) (d_full s) (d_ran s)
    (q s) (st s) (h_alive s) (h_iter s) (h_send s) (h_good s) (h_kids s) (h_fast s) (taken s) (done s) (acc s).
Definition helper_dies (s : hst) : hst :=
  mkHst (d_alive s) (d_kill s) (d_ci s) (d_polled s) (d_pid s) (d_bad s) (d_last s) (d_full s) (d_ran s)
    (q s) (st s) false (h_iter s) (h_send s) (h_good s) (h_kids s) (h_fast s) (taken s) (done s) (acc s).
Definition accept (m : N * hmsg) (s : hst) : hst :=
  mkHst (d_alive s) (d_kill s) (d_ci s) (d_polled s) (d_pid s) (d_bad s) (d_last s) (d_full s) (d_ran s)
    (q s ++ [m]) (st s) (h_alive s) (h_iter s) (h_send s) (h_good s) (h_kids s) (h_fast s) (taken s) (done s) (acc s ++ [m]).
Definition count_full (s : hst) : hst :=
  mkHst (d_alive s) (d_kill s) (d_ci s) (d_polled s) (d_pid s) (d_bad s) (d_last s) (d_full s + 1)%N (d_ran s)
    (q s) (st s) (h_alive s) (h_iter s) (h_send s) (h_good s) (h_kids s) (h_fast s) (taken s) (done s) (acc s).
Definition set_ran (c : N) (s : hst) : hst :=
  mkHst (d_alive s) (d_kill s) (d_ci s) (d_polled s) (d_pid s) (d_bad s) (d_last s) (d_full s)
    (fun j => if (j =? c)%N then true else d_ran s j)
    (q s) (st s) (h_alive s) (h_iter s) (h_send s) (h_good s) (h_kids s) (h_fast s) (taken s) (done s) (acc s).

(* write(helper_kill_fd, &hm, sizeof(hm)) *)
Inductive wres := WOk | WAgain | WPipe | WDead.
Definition write_msg (g : hcfg) (s : hst) : wres :=
  if negb (h_alive s) then (if c_ign g then WPipe else WDead)
  else if (N.of_nat (length (q s)) <? MSG_CAP)%N then WOk else WAgain.

(* send_helper_kill, 118-186; [sig] None is SIGRUNPATH *)
Definition kill_msg (c : hclient) (sig : option Z) : hmsg :=
  match sig with
  | None => HRun (hc_path c) (hc_args c) (if hc_wantpid c then hc_pid c else 0)
  | Some x => HKill (hc_pid c) x
  end.
Definition send_helper_kill (g : hcfg) (c : hclient) (sig : option Z) (s : hst) : hst :=
  if match sig with None => d_ran s (hc_id c) | Some _ => false end then s
  else if negb (d_kill s) then s                               (* "no fd" *)
  else match write_msg g s with
       | WAgain => count_full s
       | WPipe => close_helper s
       | WDead => daemon_dies s
       | WOk =>
         let s1 := accept (hc_id c, kill_msg c sig) s in
         match sig with None => set_ran (hc_id c) s1 | Some _ => s1 end
       end.

(* do_request 2149-2182 and helper_set_max_sectors_kb 80-107: errors are logged *)
Definition send_plain (g : hcfg) (m : N * hmsg) (s : hst) : hst :=
  if negb (d_kill s) then s
  else match write_msg g s with
       | WAgain => s | WPipe => s
       | WDead => daemon_dies s
       | WOk => accept m s
       end.
(* do_request 2156-2169: the message; a kill path gets no pid *)
Definition request_msg (force : bool) (pid : Z) (rk rt : bool) (path args : N) : hmsg :=
  if force then HKill pid (if rk then SIGTERM else SIGKILL)
  else if negb (path =? 0)%N then HRun path args 0
  else HKill pid (if rt then SIGKILL else SIGTERM).

(* process_helper, 1658-1685: a status message is read, or the read fails *)
Definition process_helper (fails : bool) (now : Z) (s : hst) : hst :=
  if fails then close_helper s
  else mkHst (d_alive s) (d_kill s) (d_ci s) (d_polled s) (d_pid s) (d_bad s) now (d_full s) (d_ran s)
    (q s) (st s - 1)%N (h_alive s) (h_iter s) (h_send s) (h_good s) (h_kids s) (h_fast s) (taken s) (done s) (acc s).
(* helper_dead, 1686-1717 *)
Definition helper_dead (s : hst) : hst :=
  let s1 := close_helper s in
  mkHst (d_alive s1) (d_kill s1) (d_ci s1) (d_polled s1) false (d_bad s1) (d_last s1) (d_full s1) (d_ran s1)
    (q s1) (st s1) (h_alive s1) (h_iter s1) (h_send s1) (h_good s1) (h_kids s1) (h_fast s1) (taken s1) (done s1) (acc s1).
(* main_loop 791-831 for the helper's slot: what poll reported is looked at again after
   the first function; client[].fd of the slot is never reset *)
Definition poll_helper (fails : bool) (now : Z) (s : hst) : hst :=
  if negb (d_polled s) then s
  else
    let pollin := (0 <? st s)%N in
    let pollhup := negb (h_alive s) in
    let s1 := if pollin then process_helper fails now s else s in
    if pollhup then helper_dead s1 else s1.

(* run_helper: send_status 122-135, with the daemon's end of the pipe open or not *)
Definition status_open (s : hst) : bool := d_alive s && d_kill s.
Definition send_status (g : hcfg) (now : Z) (s : hst) : hst :=
  if negb (status_open s) then
    if c_ign g then
      mkHst (d_alive s) (d_kill s) (d_ci s) (d_polled s) (d_pid s) (d_bad s) (d_last s) (d_full s) (d_ran s)
        (q s) (st s) (h_alive s) (h_iter s) now (h_good s) (h_kids s) (h_fast s) (taken s) (done s) (acc s)
    else helper_dies s
  else if (st s <? STATUS_CAP)%N then
      mkHst (d_alive s) (d_kill s) (d_ci s) (d_polled s) (d_pid s) (d_bad s) (d_last s) (d_full s) (d_ran s)
        (q s) (st s + 1)%N (h_alive s) (h_iter s) now now (h_kids s) (h_fast s) (taken s) (done s) (acc s)
  else
      mkHst (d_alive s) (d_kill s) (d_ci s) (d_polled s) (d_pid s) (d_bad s) (d_last s) (d_full s) (d_ran s)
        (q s) (st s) (h_alive s) (h_iter s) now (h_good s) (h_kids s) (h_fast s) (taken s) (done s) (acc s).

(* 197-223: one message; [forks] : fork succeeds *)
Definition perform (forks : bool) (s : hst) : hst :=
  match q s with
  | [] => s
  | m :: r =>
    let did := match snd m with HRun _ _ _ => forks | _ => true end in
    let kid := match snd m with HRun _ _ _ => forks | _ => false end in
    mkHst (d_alive s) (d_kill s) (d_ci s) (d_polled s) (d_pid s) (d_bad s) (d_last s) (d_full s) (d_ran s)
      r (st s) (h_alive s) (h_iter s) (h_send s) (h_good s) (if kid then S (h_kids s) else h_kids s) (h_fast s)
      (taken s ++ [m]) (if did then done s ++ [m] else done s) (acc s)
  end.
(* the daemon's end of the request pipe *)
Definition writer_open (s : hst) : bool := d_alive s && d_kill s.
(* 228-256: [rest] children remain after those that exited were waited for *)
Definition reap (rest : nat) (s : hst) : hst :=
  let k := Nat.min rest (h_kids s) in
  mkHst (d_alive s) (d_kill s) (d_ci s) (d_polled s) (d_pid s) (d_bad s) (d_last s) (d_full s) (d_ran s)
    (q s) (st s) (h_alive s) (h_iter s) (h_send s) (h_good s) k (negb (Nat.eqb k 0)) (taken s) (done s) (acc s).
Definition set_iter (now : Z) (s : hst) : hst :=
  mkHst (d_alive s) (d_kill s) (d_ci s) (d_polled s) (d_pid s) (d_bad s) (d_last s) (d_full s) (d_ran s)
    (q s) (st s) (h_alive s) now (h_send s) (h_good s) (h_kids s) (h_fast s) (taken s) (done s) (acc s).
(* one turn of the loop, 176-257, poll having returned at time [now] *)
Definition helper_turn (g : hcfg) (forks : bool) (rest : nat) (now : Z) (s : hst) : hst :=
  if negb (h_alive s) then s
  else
    let hup := negb (writer_open s) in
    let s0 := set_iter now s in
    let s1 := if (HELPER_STATUS_INTERVAL <=? now - h_good s0) && (2 <=? now - h_send s0)
              then send_status g now s0 else s0 in
    if negb (h_alive s1) then s1
    else
      let s2 := perform forks s1 in
      if hup then helper_dies s2 else reap rest s2.

Inductive hev :=
| EKill (c : hclient) (sig : option Z)                              (* kill_pids *)
| ERequest (force : bool) (pid : Z) (rk rt : bool) (path args : N)  (* do_request *)
| ESysfs (path val : N)
| EPoll (fails : bool) (now : Z)
| ETurn (forks : bool) (rest : nat) (now : Z)
| EHelperDies
| EDaemonDies
| EClientFreed (c : N).                                             (* cl->flags = 0 *)

Definition clear_ran (c : N) (s : hst) : hst :=
  mkHst (d_alive s) (d_kill s) (d_ci s) (d_polled s) (d_pid s) (d_bad s) (d_last s) (d_full s)
    (fun j => if (j =? c)%N then false else d_ran s j)
    (q s) (st s) (h_alive s) (h_iter s) (h_send s) (h_good s) (h_kids s) (h_fast s) (taken s) (done s) (acc s).

Definition NOCLIENT : N := 0.
Definition hstep (g : hcfg) (s : hst) (e : hev) : hst :=
  match e with
  | ETurn forks rest now => helper_turn g forks rest now s
  | EHelperDies => helper_dies s
  | _ =>
    if negb (d_alive s) then s
    else match e with
         | EKill c sig => send_helper_kill g c sig s
         | ERequest force pid rk rt path args => send_plain g (NOCLIENT, request_msg force pid rk rt path args) s
         | ESysfs path val => send_plain g (NOCLIENT, HSysfs path val) s
         | EPoll fails now => poll_helper fails now s
         | EDaemonDies => daemon_dies s
         | EClientFreed c => clear_ran c s
         | _ => s
         end
  end.

(* setup_helper succeeded at time t0; the first status was sent (168-172) *)
Definition hinit (g : hcfg) (t0 : Z) : hst :=
  mkHst true true (c_ci g) true true false 0 0 (fun _ => false) [] 1 true t0 t0 t0 0 false [] [] [].
Definition hrun (g : hcfg) (s : hst) (l : list hev) : hst := fold_left (hstep g) l s.
