(* What the daemon does with the header of a command: src/main.c:221-289 _client_free, 294-301
   client_free, 305-387 client_suspend and client_resume, 389-416 client_add, 487-554
   client_pid_dead, 1056-1238 process_cmd_thread_unregistered and
   process_cmd_thread_registered, 1240-1352 process_connection; src/cmd.c:2172-2260
   call_cmd_thread, 2920-2929 cmd_restrict, 3037-3152 call_cmd_daemon.

   All client slots and all commands handed to the thread pool.  One step is one action of the
   main thread or the end of one command; the worker's clearing of cmd_active, its
   client_free and its client_resume are one step here (ClientSlot.v has them apart, for one
   slot).  Bytes of the connections: Framing.v.  What the commands do: the other models. *)
From Coq Require Import List ZArith NArith Lia Bool.
Import ListNotations.

(* src/sanlock_sock.h:15-16 and 23-63 *)
Definition SM_MAGIC : N := 0x04282010.
Definition SM_PROTO : N := 1.
Definition REGISTER : N := 1. Definition ACQUIRE : N := 7. Definition RELEASE : N := 8.
Definition INQUIRE : N := 9. Definition RESTRICT : N := 10. Definition KILLPATH : N := 17.
Definition CONVERT : N := 27. Definition VERSION : N := 28.
Definition RESTRICT_ALL : N := 1.
Definition mem (c : N) (l : list N) : bool := existsb (N.eqb c) l.

(* main.c:1287-1301: register, restrict, version, shutdown, status, host_status, renewal,
   log_dump, get_lockspaces, get_hosts, reg_event, end_event, set_config *)
Definition daemon_cmds : list N := [1; 10; 28; 4; 5; 15; 34; 6; 22; 23; 30; 31; 33]%N.
(* 1302-1328: add, inq and rem lockspace, request, examine resource and lockspace, align,
   write lockspace and resource, read lockspace, resource and owners, set and get lvb,
   shutdown_wait, set_event, format, rebuild, update, lookup rindex, create, delete resource *)
Definition unreg_cmds : list N := [2; 16; 3; 11; 14; 13; 12; 18; 19; 20; 21; 24; 25; 26; 29; 32; 35; 40; 36; 37; 38; 39]%N.
(* 1329-1340 *)
Definition lease_cmds : list N := [ACQUIRE; RELEASE; INQUIRE; CONVERT; KILLPATH].
(* cmd.c:2176-2259: the cases of call_cmd_thread *)
Definition thread_cases : list N := [7; 8; 9; 27; 11; 2; 16; 3; 12; 18; 19; 20; 21; 24; 13; 14; 17; 25; 26; 29; 32; 35; 40; 36; 37; 38; 39]%N.

Record hdr := mkH { h_magic : N; h_version : N; h_cmd : N; h_flags : N; h_data2 : N }.
Record slot := mkSlot { used : bool; pid : Z; regd : bool (* deadfn is client_pid_dead *);
  dead : bool; nfree : bool; kills : nat; active : N; susp : bool; restr : N }.
(* main.c:207-212, and what _client_free leaves *)
Definition empty_slot : slot := mkSlot false (-1) false false false 0 0 false 0.
Record job := mkJob { j_cmd : N; j_in : nat; j_tgt : option nat }.
Record state := mkD { size : nat; slots : nat -> slot; jobs : list job }.
Definition init (n : nat) : state := mkD n (fun _ => empty_slot) [].

Definition upd (s : state) (i : nat) (c : slot) : state :=
  mkD (size s) (fun k => if Nat.eqb k i then c else slots s k) (jobs s).
Definition add_job (s : state) (j : job) : state := mkD (size s) (slots s) (jobs s ++ [j]).
Definition set_susp (c : slot) (b : bool) := mkSlot (used c) (pid c) (regd c) (dead c) (nfree c) (kills c) (active c) b (restr c).
Definition set_active (c : slot) (a : N) := mkSlot (used c) (pid c) (regd c) (dead c) (nfree c) (kills c) a (susp c) (restr c).
Definition set_nfree (c : slot) := mkSlot (used c) (pid c) (regd c) (dead c) true (kills c) (active c) (susp c) (restr c).

(* 221-289 on one slot *)
Definition free_slot (c : slot) : slot :=
  if negb (used c) then c else if negb (Z.eqb (pid c) (-1)) then c
  else if susp c then set_nfree c else empty_slot.
Definition resume_slot (c : slot) : slot :=
  if negb (used c) then c else if negb (susp c) then c
  else if nfree c then free_slot (set_susp c false) else set_susp c false.
Definition free (s : state) (i : nat) := upd s i (free_slot (slots s i)).
Definition resume (s : state) (i : nat) := upd s i (resume_slot (slots s i)).

(* what comes back to the client now: nothing, or the result sent by send_result *)
Definition reply := option Z.
Definition EBUSY : Z := 16. Definition ESRCH : Z := 3. Definition ENOMEM : Z := 12.

(* 1113-1124: the slot whose pid is data2; int and uint32_t are compared as uint32_t *)
Definition u32 (z : Z) : N := Z.to_N (z mod 2 ^ 32).
Definition find_target (s : state) (d2 : N) : option nat :=
  find (fun i => N.eqb (u32 (pid (slots s i))) d2) (seq 0 (size s)).

(* 1098-1238; mem_ok: malloc of ca, pool_ok: thread_pool_add_work.  The connection has been
   suspended by the caller. *)
Definition refuse (s : state) (ci : nat) (e : Z) : state * reply := (resume s ci, Some (- e)%Z).
Definition lease_cmd (s : state) (ci : nat) (h : hdr) (mem_ok pool_ok : bool) : state * reply :=
  if negb mem_ok then refuse s ci ENOMEM
  else
    match (if N.eqb (h_data2 h) 0xFFFFFFFF then Some ci else find_target s (h_data2 h)) with
    | None => refuse s ci ESRCH
    | Some t =>
        let c := slots s t in
        if negb (used c) then refuse s ci EBUSY
        else if (pid c <=? 0)%Z then refuse s ci EBUSY
        else if dead c then refuse s ci EBUSY
        else if nfree c then refuse s ci EBUSY
        else if negb (Nat.eqb (kills c) 0) && N.eqb (h_cmd h) ACQUIRE then refuse s ci EBUSY
        else if negb (N.eqb (active c) 0) then refuse s ci EBUSY
        else if negb pool_ok then refuse s ci 1
        else (add_job (upd s t (set_active c (h_cmd h))) (mkJob (h_cmd h) ci (Some t)), None)
    end.

(* 1056-1089 *)
Definition unreg_cmd (s : state) (ci : nat) (h : hdr) (mem_ok pool_ok : bool) : state * reply :=
  if negb mem_ok then refuse s ci ENOMEM
  else if negb pool_ok then refuse s ci 1
  else (add_job s (mkJob (h_cmd h) ci None), None).

(* cmd.c:3037-3152; peer: getsockopt, tok_ok: malloc of tokens.  The text of the answers is not
   here. *)
Definition daemon_cmd (s : state) (ci : nat) (h : hdr) (peer : option N) (tok_ok : bool) : state :=
  let c := slots s ci in
  if N.eqb (h_cmd h) REGISTER then
    match peer with
    | None => free s ci
    | Some p =>
        let s1 := upd s ci (mkSlot (used c) (Z.of_N p) true (dead c) (nfree c) (kills c) (active c) (susp c) (restr c)) in
        if tok_ok then s1 else free s1 ci
    end
  else if N.eqb (h_cmd h) RESTRICT then
    upd s ci (mkSlot (used c) (pid c) (regd c) (dead c) (nfree c) (kills c) (active c) (susp c) (h_flags h))
  else if N.eqb (h_cmd h) VERSION then s
  else free s ci.

Record outcome := mkO { mem_ok : bool; pool_ok : bool; peer : option N; tok_ok : bool }.
(* 1247-1352 after a whole header was read *)
Definition header (s : state) (ci : nat) (h : hdr) (o : outcome) : state * reply :=
  if negb (N.eqb (h_magic h) SM_MAGIC) then (s, None)
  else if N.testbit (restr (slots s ci)) 0 then (s, None)
  else if negb (N.eqb (h_version h) 0) && negb (N.eqb (h_cmd h) VERSION) &&
          (N.shiftr SM_PROTO 16 <? N.shiftr (h_version h) 16)%N then (s, None)
  else if mem (h_cmd h) daemon_cmds then (daemon_cmd s ci h (peer o) (tok_ok o), None)
  else if mem (h_cmd h) unreg_cmds || mem (h_cmd h) lease_cmds then
    (* 305-344: the slot is used and watched; suspended twice is refused *)
    if susp (slots s ci) then (s, None)
    else
      let s1 := upd s ci (set_susp (slots s ci) true) in
      if mem (h_cmd h) unreg_cmds then unreg_cmd s1 ci h (mem_ok o) (pool_ok o)
      else lease_cmd s1 ci h (mem_ok o) (pool_ok o)
  else (s, None).

(* 487-554 *)
Definition gone (s : state) (ci : nat) : state :=
  let c := slots s ci in
  if negb (used c) then s
  else if negb (regd c) then free s ci
  else if Z.eqb (pid c) (-1) then s
  else
    let c1 := mkSlot (used c) (-1) (regd c) true (nfree c) (kills c) (active c) (susp c) (restr c) in
    if N.eqb (active c) 0 then free (upd s ci c1) ci else upd s ci c1.

Inductive op :=
| OAccept                                   (* process_listener *)
| OHeader (ci : nat) (h : hdr) (o : outcome)(* POLLIN on a connection that is watched *)
| ODead (ci : nat)                          (* end of file or POLLHUP *)
| OKill (ci : nat)                          (* kill_pids *)
| ODone (k : nat) (clear back : bool).      (* the k-th command ends; clear: it sets cmd_active to 0
                                               (cmd_convert may not), back: it calls client_resume
                                               (cmd_killpath may not) *)

Fixpoint del (k : nat) (l : list job) : list job :=
  match l, k with [], _ => [] | _ :: l, O => l | x :: l, S k => x :: del k l end.

(* cmd.c:502-571 and the like *)
Definition done (s : state) (k : nat) (clear back : bool) : state :=
  match nth_error (jobs s) k with
  | None => s
  | Some j =>
      let s0 := mkD (size s) (slots s) (del k (jobs s)) in
      let s1 := match j_tgt j with
                | Some t => if clear then
                              let s1 := upd s0 t (set_active (slots s0 t) 0) in
                              if dead (slots s1 t) then free s1 t else s1
                            else s0
                | None => s0
                end in
      if back then resume s1 (j_in j) else s1
  end.

Definition step (s : state) (x : op) : state :=
  match x with
  | OAccept =>
      match find (fun i => negb (used (slots s i))) (seq 0 (size s)) with
      | Some i => let c := slots s i in
          upd s i (mkSlot true (pid c) false (dead c) (nfree c) (kills c) (active c) (susp c) (restr c))
      | None => s
      end
  | OHeader ci h o => if used (slots s ci) && negb (susp (slots s ci)) then fst (header s ci h o) else s
  | ODead ci => gone s ci
  | OKill ci => let c := slots s ci in
      if (0 <? pid c)%Z then upd s ci (mkSlot (used c) (pid c) (regd c) (dead c) (nfree c) (S (kills c)) (active c) (susp c) (restr c)) else s
  | ODone k clear back => done s k clear back
  end.
Definition run (s : state) (l : list op) : state := fold_left step l s.
