(* The life of one registered connection: its commands, run by worker threads, and
   the death of its process, seen by the main thread.
   Code: src/main.c:221-387 (_client_free, client_suspend, client_resume), 487-554
   (client_pid_dead), 1098-1238 (process_cmd_thread_registered); src/cmd.c:92-118
   (release_cl_tokens, release_new_tokens) and the endings of cmd_acquire (502-571),
   cmd_release (736-766), cmd_inquire (866-897), cmd_convert (917-982), cmd_killpath
   (1972-2028); REGISTER 3043-3068.

   The unit of interleaving is the critical section (cl->mutex).  One slot is
   followed from registration to the end of its use; a later use of the slot is a
   new instance. *)
From Coq Require Import List Arith Lia Bool.
Import ListNotations.

Definition tok := nat.
Inductive cmdk := Acquire | Release | Inquire | Convert | Killpath.

Record cst := mkC {
  used : bool;
  reg : bool;               (* cl->pid != -1 *)
  pdead : bool;             (* cl->pid_dead *)
  active : bool;            (* cl->cmd_active != 0 *)
  susp : bool;              (* cl->suspend *)
  nfree : bool;             (* cl->need_free *)
  heldt : list tok;         (* cl->tokens *)
  (* the threads *)
  th : option (cmdk * bool);(* command running for the slot; true: it came on its own connection *)
  ttoks : list tok;         (* tokens in the hands of that thread *)
  pend : list tok;          (* tokens a finished command still has to release *)
  clean : bool;             (* the thread saw pid_dead and has to clean up *)
  pres : bool;              (* the thread still has to call client_resume for the slot *)
  unreg : bool;             (* an unregistered command of the connection is running *)
  mpend : bool;             (* the main thread is between the two halves of client_pid_dead *)
  (* history *)
  born : list tok;          (* leases acquired for the process *)
  released : list tok;      (* release_token or release_token_async called *)
  freed : nat;              (* times the slot was freed *)
  died : bool }.            (* client_pid_dead ran *)

(* after REGISTER *)
Definition cinit : cst :=
  mkC true true false false false false [] None [] [] false false false false [] [] 0 false.

(* main.c:221-289 *)
Definition client_free (s : cst) : cst :=
  if negb (used s) then s
  else if reg s then s
  else if susp s
  then mkC (used s) (reg s) (pdead s) (active s) (susp s) true (heldt s) (th s) (ttoks s) (pend s)
           (clean s) (pres s) (unreg s) (mpend s) (born s) (released s) (freed s) (died s)
  else mkC false false false false false false [] (th s) (ttoks s) (pend s)
           (clean s) (pres s) (unreg s) (mpend s) (born s) (released s) (S (freed s)) (died s).

(* main.c:346-387 *)
Definition client_resume (s : cst) : cst :=
  if negb (used s) then s
  else if negb (susp s) then s
  else
    let s' := mkC (used s) (reg s) (pdead s) (active s) false (nfree s) (heldt s) (th s) (ttoks s) (pend s)
           (clean s) (pres s) (unreg s) (mpend s) (born s) (released s) (freed s) (died s) in
    if nfree s then client_free s' else s'.

Inductive cev :=
| EStart (c : cmdk) (self : bool)   (* the main thread gives a command to a worker *)
| EUnregStart | EUnregDone          (* a command that does not involve the slot's leases *)
| EAcq (t : tok)                    (* acquire_token succeeded in the worker *)
| ETake (f : tok -> bool)           (* cmd_release takes tokens out of cl->tokens *)
| EDone (ok : bool)                 (* the end of a command; ok: it succeeded *)
| EShort                            (* cmd_convert: the message was cut short *)
| EKillDead                         (* the end of cmd_killpath for a dead process *)
| EPend                             (* release one token *)
| EClean                            (* release_cl_tokens and client_free by the worker *)
| EResume                           (* client_resume by the worker *)
| EDead1 | EDead2                   (* the two halves of client_pid_dead *)
| EReReg.                           (* REGISTER again on the same connection *)

Definition is_acq (c : cmdk) : bool := match c with Acquire => true | _ => false end.
Definition is_rel (c : cmdk) : bool := match c with Release => true | _ => false end.
Definition is_conv (c : cmdk) : bool := match c with Convert => true | _ => false end.
Definition is_kill (c : cmdk) : bool := match c with Killpath => true | _ => false end.

Definition cstep (s : cst) (e : cev) : option cst :=
  match e with
  | EStart c self =>
    (* refused unless live, and no command runs for it (1139-1190); a command on the
       own connection suspends it first (client_suspend fails when suspended), and
       only a watched connection gives commands *)
    if used s && reg s && negb (pdead s) && negb (nfree s) && negb (active s) && negb (mpend s) &&
       (if self then negb (susp s) else true)
    then Some (mkC (used s) (reg s) (pdead s) true (self || susp s) (nfree s) (heldt s) (Some (c, self)) [] (pend s)
           (clean s) (pres s) (unreg s) (mpend s) (born s) (released s) (freed s) (died s))
    else None
  | EUnregStart =>
    if used s && negb (pdead s) && negb (susp s) && negb (mpend s)
    then Some (mkC (used s) (reg s) (pdead s) (active s) true (nfree s) (heldt s) (th s) (ttoks s) (pend s)
           (clean s) (pres s) true (mpend s) (born s) (released s) (freed s) (died s))
    else None
  | EUnregDone =>
    if unreg s
    then Some (client_resume (mkC (used s) (reg s) (pdead s) (active s) (susp s) (nfree s) (heldt s) (th s) (ttoks s) (pend s)
           (clean s) (pres s) false (mpend s) (born s) (released s) (freed s) (died s)))
    else None
  | EAcq t =>
    match th s with
    | Some (c, _) =>
      if is_acq c && negb (existsb (Nat.eqb t) (born s))
      then Some (mkC (used s) (reg s) (pdead s) (active s) (susp s) (nfree s) (heldt s) (th s) (t :: ttoks s) (pend s)
           (clean s) (pres s) (unreg s) (mpend s) (t :: born s) (released s) (freed s) (died s))
      else None
    | None => None
    end
  | ETake f =>
    match th s with
    | Some (c, _) =>
      if is_rel c
      then Some (mkC (used s) (reg s) (pdead s) (active s) (susp s) (nfree s)
           (filter (fun t => negb (f t)) (heldt s)) (th s) (filter f (heldt s) ++ ttoks s) (pend s)
           (clean s) (pres s) (unreg s) (mpend s) (born s) (released s) (freed s) (died s))
      else None
    | None => None
    end
  | EDone ok =>
    match th s with
    | Some (c, self) =>
      if is_kill c && self && pdead s then None else
      let link := is_acq c && ok && negb (pdead s) in
      Some (mkC (used s) (reg s) (pdead s) false (susp s) (nfree s)
           (if link then heldt s ++ ttoks s else heldt s) None [] (if link then pend s else ttoks s ++ pend s)
           (pdead s) (pres s || self) (unreg s) (mpend s) (born s) (released s) (freed s) (died s))
    | None => None
    end
  | EShort =>
    (* cmd.c:934-940: goto reply: cmd_active stays, pid_dead is not looked at *)
    match th s with
    | Some (c, self) =>
      if is_conv c
      then Some (mkC (used s) (reg s) (pdead s) (active s) (susp s) (nfree s) (heldt s) None [] (pend s)
           (clean s) (pres s || self) (unreg s) (mpend s) (born s) (released s) (freed s) (died s))
      else None
    | None => None
    end
  | EKillDead =>
    (* cmd.c:2013-2018: release_cl_tokens, client_free, return without client_resume *)
    match th s with
    | Some (c, self) =>
      if is_kill c && self && pdead s
      then Some (client_free (mkC (used s) (reg s) (pdead s) false (susp s) (nfree s) [] None [] (pend s)
           (clean s) (pres s) (unreg s) (mpend s) (born s) (heldt s ++ released s) (freed s) (died s)))
      else None
    | None => None
    end
  | EPend =>
    match pend s with
    | t :: r => Some (mkC (used s) (reg s) (pdead s) (active s) (susp s) (nfree s) (heldt s) (th s) (ttoks s) r
           (clean s) (pres s) (unreg s) (mpend s) (born s) (t :: released s) (freed s) (died s))
    | [] => None
    end
  | EClean =>
    if clean s
    then Some (client_free (mkC (used s) (reg s) (pdead s) (active s) (susp s) (nfree s) [] (th s) (ttoks s) (pend s)
           false (pres s) (unreg s) (mpend s) (born s) (heldt s ++ released s) (freed s) (died s)))
    else None
  | EResume =>
    if pres s && negb (clean s)
    then Some (client_resume (mkC (used s) (reg s) (pdead s) (active s) (susp s) (nfree s) (heldt s) (th s) (ttoks s) (pend s)
           (clean s) false (unreg s) (mpend s) (born s) (released s) (freed s) (died s)))
    else None
  | EDead1 =>
    (* 493-520.  The main thread may call it while the connection is suspended: the
       events of the same poll() are still looked at after the command was handed
       over (main.c:814-822). *)
    if used s && reg s && negb (mpend s)
    then Some (mkC (used s) false true (active s) (susp s) (nfree s) (heldt s) (th s) (ttoks s) (pend s)
           (clean s) (pres s) (unreg s) (negb (active s)) (born s) (released s) (freed s) true)
    else None
  | EDead2 =>
    (* 536-552.  The code leaves the freed token pointers in cl->tokens of a suspended
       slot; nobody looks at them as pid is -1. *)
    if mpend s
    then Some (client_free (mkC (used s) (reg s) (pdead s) (active s) (susp s) (nfree s) [] (th s) (ttoks s) (pend s)
           (clean s) (pres s) (unreg s) false (born s) (heldt s ++ released s) (freed s) (died s)))
    else None
  | EReReg =>
    (* cmd.c:3052-3058: free(cl->tokens), a new empty array *)
    if used s && negb (susp s) && negb (pdead s) && negb (mpend s)
    then Some (mkC (used s) true (pdead s) (active s) (susp s) (nfree s) [] (th s) (ttoks s) (pend s)
           (clean s) (pres s) (unreg s) (mpend s) (born s) (released s) (freed s) (died s))
    else None
  end.

Fixpoint csteps (s : cst) (es : list cev) : option cst :=
  match es with [] => Some s | e :: r => match cstep s e with Some s' => csteps s' r | None => None end end.
