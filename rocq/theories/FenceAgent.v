(* The fence agent fence_sanlock/fence_sanlock.in: action_off 230-349, action_on 184-228, action_status 351-365,
   read_leader 160-182; with the lease of the victim on the storage and the hosts that take it.

   One step is one command of the script; the other hosts act between any two of them.  The answers of the commands
   are chosen by the environment within what sanlock grants: the lease of the victim is given to another host only
   when it is free or its owner has been reset (C11, C13, C20), a host id comes back only with a higher generation
   (C18).  A command may fail although the daemon has done its work (OLost).

   Simplified: the other fencing hosts are one number each and their membership is not followed: one that holds the
   lease may lose it to anybody (it may have died); the text of the commands (grep, awk) is taken to select the
   values printed by print_leader (src/main.c:3591-3617); the numbers of the shell are unbounded; getopt and the
   reading of stdin are left out. *)
From Coq Require Import List ZArith Lia Bool.
Import ListNotations.
Open Scope Z_scope.

(* print_leader: owner_id, owner_generation, lver, timestamp *)
Record rec := mkR { r_owner : Z; r_gen : Z; r_lver : Z; r_ts : Z }.

(* the lease of the victim, the generation with which the victim holds it and runs, the highest generation it ever
   had, our fence_sanlockd (pidof) *)
Record world := mkW { w_rec : rec; w_inc : option Z; w_max : Z; w_pid : option Z }.

Inductive wact :=
| WReset                          (* the watchdog resets the victim *)
| WLeave                          (* the victim releases the lease and goes *)
| WJoin (g ts : Z)                (* the victim is back and has acquired its lease *)
| WFence (j g ts : Z)             (* another host acquires the lease *)
| WFree                           (* another host releases it *)
| WPid (p : option Z).            (* our fence_sanlockd ends, or is started again *)

(* may host j <> victim acquire the lease *)
Definition takeable (victim : Z) (w : world) : bool :=
  (r_ts (w_rec w) =? 0) || negb (r_owner (w_rec w) =? victim) ||
  match w_inc w with None => true | Some _ => false end.
Definition taken (w : world) (j g ts : Z) : world :=
  mkW (mkR j g (r_lver (w_rec w) + 1) ts) (w_inc w) (w_max w) (w_pid w).
(* release: the timestamp is cleared (paxos_lease.c:2204-2408) *)
Definition freed (w : world) : world :=
  mkW (mkR (r_owner (w_rec w)) (r_gen (w_rec w)) (r_lver (w_rec w)) 0) (w_inc w) (w_max w) (w_pid w).

Definition wstep (victim : Z) (w : world) (a : wact) : option world :=
  match a with
  | WReset => match w_inc w with Some _ => Some (mkW (w_rec w) None (w_max w) (w_pid w)) | None => None end
  | WLeave =>
      match w_inc w with
      | Some _ => Some (let f := freed w in mkW (w_rec f) None (w_max f) (w_pid f))
      | None => None
      end
  | WJoin g ts =>
      match w_inc w with
      | None => if (w_max w <? g) && negb (ts =? 0)
                then Some (mkW (mkR victim g (r_lver (w_rec w) + 1) ts) (Some g) g (w_pid w)) else None
      | Some _ => None
      end
  | WFence j g ts =>
      if negb (j =? victim) && takeable victim w && negb (ts =? 0) then Some (taken w j g ts) else None
  | WFree => if (r_owner (w_rec w) =? victim) || (r_ts (w_rec w) =? 0) then None else Some (freed w)
  | WPid p => Some (mkW (w_rec w) (w_inc w) (w_max w) p)
  end.

(* ---- action_off ---- *)
Inductive pc :=
| PRead1                          (* 231 *)
| PPid1 (r : rec)                 (* 249 *)
| PLoopPid (r : rec) (pid : Z) (loop : nat)    (* 272 *)
| PAcq (r : rec) (pid : Z) (loop : nat)        (* 279 *)
| PRel (r : rec) (pid : Z)        (* 282 *)
| PUsr2 (r : rec) (pid : Z)       (* 310, loop = 1 *)
| PReq (r : rec) (pid : Z)        (* 312 *)
| PRead2 (r : rec) (pid : Z) (loop : nat)      (* 318-324 *)
| PEnd (rc : Z).

Inductive aev :=
| EWrite (host gen ver ts : Z)    (* the pid file, 261 *)
| EUnlink
| EUsr2 (pid : Z)
| ERequest (ver : Z)
| EExit (rc : Z).

(* how the acquire command ends: success, failure, failure reported although the daemon has the lease *)
Inductive acq := OGot (ts : Z) | ONot | OLost (ts : Z).
Inductive ract := ROk | RFail | RLostOk.   (* release: done, failed, failure reported although done *)

Inductive aact :=
| ARead (ok : bool)               (* read_leader: ok or a storage error *)
| APid                            (* pidof fence_sanlockd *)
| AAcq (a : acq)
| ARel (a : ract)
| AUsr2
| AReq (ok : bool).

Record ctx := mkX { x_us : Z; x_gen : Z; x_victim : Z }.
Record state := mkS { s_w : world; s_pc : pc; s_tr : list aev }.

Definition aend (s : state) (w : world) (ev : list aev) (rc : Z) : option state :=
  Some (mkS w (PEnd rc) (s_tr s ++ ev ++ [EExit rc])).
Definition goto (s : state) (w : world) (p : pc) (ev : list aev) : option state :=
  Some (mkS w p (s_tr s ++ ev)).

Definition astep (x : ctx) (s : state) (a : aact) : option state :=
  let w := s_w s in
  match s_pc s, a with
  | PRead1, ARead false => aend s w [] 1
  | PRead1, ARead true =>                              (* 233-247 *)
      let r := w_rec w in
      if r_ts r =? 0 then aend s w [] 0
      else if negb (r_owner r =? x_victim x) then aend s w [] 1
      else goto s w (PPid1 r) []
  | PPid1 r, APid =>                                   (* 249-265 *)
      match w_pid w with
      | None => aend s w [] 1
      | Some p => goto s w (PLoopPid r p 1) [EWrite (x_victim x) (r_gen r) (r_lver r) (r_ts r)]
      end
  | PLoopPid r p n, APid =>                            (* 270-277 *)
      match w_pid w with
      | None => aend s w [EUnlink] 1
      | Some _ => goto s w (PAcq r p n) []
      end
  | PAcq r p n, AAcq o =>                              (* 279-290 *)
      (* the daemon acquires for process p: it has to be there, the lease has to be free for us, and fence_sanlockd
         does not hold it already *)
      let may ts := match w_pid w with Some q => (q =? p) | None => false end && takeable (x_victim x) w &&
                    negb ((r_owner (w_rec w) =? x_us x) && negb (r_ts (w_rec w) =? 0)) && negb (ts =? 0) in
      match o with
      | OGot ts => if may ts then goto s (taken w (x_us x) (x_gen x) ts) (PRel r p) [] else None
      | ONot => goto s w (if (n =? 1)%nat then PUsr2 r p else PRead2 r p n) []
      | OLost ts => if may ts then goto s (taken w (x_us x) (x_gen x) ts) (if (n =? 1)%nat then PUsr2 r p else PRead2 r p n) []
                    else None
      end
  | PRel r p, ARel o =>                                (* 282-287 *)
      let mine := (r_owner (w_rec w) =? x_us x) && negb (r_ts (w_rec w) =? 0) in
      match o with
      | ROk | RLostOk => if mine then aend s (freed w) [EUnlink] 0 else None
      | RFail => aend s w [EUnlink] 0
      end
  | PUsr2 r p, AUsr2 => goto s w (PReq r p) [EUsr2 p]
  | PReq r p, AReq _ => goto s w (PRead2 r p 1) [ERequest (r_lver r + 1)]   (* 312-315; the error is only logged *)
  | PRead2 r p n, ARead false => aend s w [EUnlink] 1  (* 324-329 *)
  | PRead2 r p n, ARead true =>                        (* 331-344 *)
      let t := w_rec w in
      if (r_owner r =? r_owner t) && (r_gen r <? r_gen t) then aend s w [EUnlink] 0
      else if negb (r_owner r =? r_owner t) then aend s w [EUnlink] 1
      else goto s w (PLoopPid r p (S n)) []
  | _, _ => None
  end.

Inductive action := WA (a : wact) | AA (a : aact).
Definition step (x : ctx) (s : state) (a : action) : option state :=
  match a with
  | WA a => match wstep (x_victim x) (s_w s) a with Some w => Some (mkS w (s_pc s) (s_tr s)) | None => None end
  | AA a => astep x s a
  end.
Inductive run (x : ctx) (s0 : state) : list action -> state -> Prop :=
| run_init : run x s0 [] s0
| run_step h s a s' : run x s0 h s -> step x s a = Some s' -> run x s0 (h ++ [a]) s'.

Definition start (w : world) : state := mkS w PRead1 [].

(* ---- action_status ---- *)
Definition action_status (r : option rec) : Z :=
  match r with None => 1 | Some r => if r_ts r =? 0 then 2 else 0 end.

(* ---- action_on: the resource of this host in the daemon, as `sanlock client status` shows it: send_state_resources
   (src/resource.c:133-156) goes through the lists held, add, rem and orphan alike ---- *)
Inductive rlist := LNone | LAdd | LHeld | LRem.
Inductive lact := LStart | LDone (ok : bool) | LRelease | LGone.
Definition lstep (l : rlist) (a : lact) : option rlist :=
  match l, a with
  | LNone, LStart => Some LAdd                         (* src/resource.c:1795 *)
  | LAdd, LDone true => Some LHeld                     (* 1985 *)
  | LAdd, LDone false => Some LNone
  | LHeld, LRelease => Some LRem                       (* 1176 *)
  | LRem, LGone => Some LNone
  | _, _ => None
  end.
Definition shown (l : rlist) : bool := match l with LNone => false | _ => true end.

Inductive opc := OAlive | OGrep (st : bool) | OEnd (rc : Z).
Inductive oact := OL (a : lact) | OStatus (ok : bool) | OPidof (alive : bool).
Record ostate := mkO { o_list : rlist; o_pc : opc }.
(* the loop 204-227 *)
Definition ostep (s : ostate) (a : oact) : option ostate :=
  match o_pc s, a with
  | _, OL a => match lstep (o_list s) a with Some l => Some (mkO l (o_pc s)) | None => None end
  | OAlive, OStatus ok => Some (mkO (o_list s) (if ok then OGrep (shown (o_list s)) else OEnd 1))
  | OGrep st, OPidof alive =>
      Some (mkO (o_list s) (if negb alive then OEnd 1 else if st then OEnd 0 else OAlive))
  | _, _ => None
  end.
Inductive orun : list oact -> ostate -> Prop :=
| orun_init : orun [] (mkO LNone OAlive)
| orun_step h s a s' : orun h s -> ostep s a = Some s' -> orun (h ++ [a]) s'.
