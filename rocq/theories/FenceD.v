(* fence_sanlockd: the daemon that lets the watchdog reset a host that is being fenced.
   fence_sanlock/fence_sanlockd.c: process_signals 241-269, check_fence_agent 414-503, main loop 730-929.
   One step is one pass of the main loop; at most one signal is read in a pass (read of one signalfd_siginfo).
   What check_fence_agent finds is an input: the host id that the first running agent is fencing, or an error.
   Seconds are integers; wdmd_test_live is taken to succeed (its errors are only logged). *)
From Coq Require Import List ZArith Lia Bool.
Import ListNotations.
Open Scope Z_scope.

(* lines 37-38 *)
Definition LIVE_INTERVAL : Z := 5.
Definition EXPIRE_INTERVAL : Z := 20.

(* process_signals: SIGHUP, SIGTERM, SIGUSR1, SIGUSR2 *)
Inductive sig := SHup | STerm | SUsr1 | SUsr2.

(* what the daemon does to its wdmd connection, newest first *)
Inductive fev := ELive (now expire : Z) | EClear (now : Z).

Record fst_ := mkF {
  f_shutdown : bool; f_recovery : bool; f_victim : bool; f_fencing : bool;
  f_live : Z;           (* live_time *)
  f_ended : bool;       (* left the loop *)
  f_log : list fev }.

(* lines 717-725: the first test_live *)
Definition fstart (now : Z) : fst_ := mkF false false false false now false [ELive now (now + EXPIRE_INTERVAL)].

(* one pass: the signal read, the time, the results of the two possible calls of check_fence_agent *)
Record pass := mkP { p_sig : option sig; p_now : Z; p_agent : option Z; p_agent2 : option Z }.

(* process_signals 252-268 *)
Definition take_sig (f : fst_) (s : option sig) : fst_ :=
  match s with
  | None => f
  | Some SHup => mkF true (f_recovery f) (f_victim f) (f_fencing f) (f_live f) (f_ended f) (f_log f)
  | Some STerm => mkF (f_shutdown f) true (f_victim f) (f_fencing f) (f_live f) (f_ended f) (f_log f)
  | Some SUsr1 => mkF (f_shutdown f) (f_recovery f) true (f_fencing f) (f_live f) (f_ended f) (f_log f)
  | Some SUsr2 => mkF (f_shutdown f) (f_recovery f) (f_victim f) true (f_live f) (f_ended f) (f_log f)
  end.

(* 800-840: victim and fencing at once; the new values of we_are_victim, we_are_fencing *)
Definition duel (our : Z) (agent : option Z) (victim fencing : bool) : bool * bool :=
  if victim && fencing
  then match agent with
       | Some v => if our <? v then (false, false) else (true, false)
       | None => (true, false)
       end
  else (victim, fencing).
(* 842-862 *)
Definition fence_over (agent : option Z) (victim fencing : bool) : bool :=
  if negb victim && fencing then match agent with Some _ => true | None => false end else fencing.

Definition fpass (our : Z) (f0 : fst_) (p : pass) : fst_ :=
  if f_ended f0 then f0 else
  let f := take_sig f0 (p_sig p) in
  let now := p_now p in
  (* 755-788 *)
  if f_shutdown f
  then mkF true (f_recovery f) (f_victim f) (f_fencing f) (f_live f) true (EClear now :: f_log f)
  else
    let '(victim, fencing) := duel our (p_agent p) (f_victim f) (f_fencing f) in
    let fencing := fence_over (p_agent2 p) victim fencing in
    (* 888-920 *)
    if negb victim && negb (f_recovery f) && (LIVE_INTERVAL <=? now - f_live f)
    then mkF false (f_recovery f) victim fencing now false (ELive now (now + EXPIRE_INTERVAL) :: f_log f)
    else mkF false (f_recovery f) victim fencing (f_live f) false (f_log f).

Definition fpasses (our : Z) (f : fst_) (ps : list pass) : fst_ := fold_left (fpass our) ps f.

(* 922-928: seconds until the next pass at the latest (500 ms counted as 1) *)
Definition ftimeout (f : fst_) (now : Z) : Z :=
  if f_victim f || f_recovery f || f_fencing f then 10
  else let s := f_live f + LIVE_INTERVAL - now in if 0 <? s then s else 1.
