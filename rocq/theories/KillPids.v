(* Killing the processes that use a failed lockspace: src/main.c:596-693
   (kill_pids), 695-756 (all_pids_dead), 118-186 (send_helper_kill), and the part of
   main_loop that calls them (846-871). *)
From Coq Require Import List ZArith Lia Bool Arith.
From Verif Require Import Timeouts.
Import ListNotations.
Open Scope Z_scope.

Definition kill_count_max : nat := 100.           (* src/main.c:3904 *)

Inductive ksig := KTerm | KKill | KRunpath.
(* struct client, the members used; [k_using]: some token is in this lockspace
   (client_using_space, 575-594).  [k_rkill], [k_rterm]: SANLK_RESTRICT_SIGKILL and
   SANLK_RESTRICT_SIGTERM. *)
Record kcl := mkKcl {
  k_used : bool; k_pid : Z; k_count : nat; k_last : Z; k_killpath : bool;
  k_rkill : bool; k_rterm : bool; k_runsent : bool; k_using : bool }.

(* constants of a run: the lockspace's I/O timeout, com.kill_grace_seconds *)
Record kcfg := mkKcfg { c_io : Z; c_grace : Z }.
(* what a round of the main loop sees.  [e_helper i]: the helper takes the message
   about client i (otherwise the pipe is full or the helper gone). *)
Record kenv := mkKenv { e_now : Z; e_success : Z; e_remove : bool; e_shutdown : Z; e_helper : nat -> bool }.

(* 653-683 *)
Definition choose_sig (g : kcfg) (e : kenv) (cl : kcl) : ksig :=
  let in_grace := e_now e <? e_success e + calc_id_renewal_fail_seconds (c_io g) + c_grace g in
  let s := if e_remove e || (1 <? e_shutdown e) then KKill
           else if (0 <? c_grace g) && in_grace && k_killpath cl then KRunpath
           else if in_grace then KTerm else KKill in
  let s := match s with KKill => if k_rkill cl then KTerm else KKill | _ => s end in
  match s with KTerm => if k_rterm cl then KKill else KTerm | _ => s end.

(* send_helper_kill: what reaches the helper, and the client afterwards *)
Definition send_helper_kill (cl : kcl) (s : ksig) (ok : bool) : kcl * option ksig :=
  match s with
  | KRunpath =>
    if k_runsent cl then (cl, None)
    else if ok then (mkKcl (k_used cl) (k_pid cl) (k_count cl) (k_last cl) (k_killpath cl) (k_rkill cl) (k_rterm cl) true (k_using cl), Some KRunpath)
    else (cl, None)
  | _ => (cl, if ok then Some s else None)
  end.

(* one client of the loop 625-692 *)
Definition kill_one (g : kcfg) (e : kenv) (ok : bool) (cl : kcl) : kcl * option ksig :=
  if negb (k_used cl) then (cl, None)
  else if k_pid cl <=? 0 then (cl, None)
  else if Nat.leb kill_count_max (k_count cl) then (cl, None)
  else if negb (Nat.eqb (k_count cl) 0) && (e_now e - k_last cl <? 1) then (cl, None)
  else if negb (k_using cl) then (cl, None)
  else
    let cl' := mkKcl (k_used cl) (k_pid cl) (S (k_count cl)) (e_now e) (k_killpath cl) (k_rkill cl) (k_rterm cl) (k_runsent cl) (k_using cl) in
    send_helper_kill cl' (choose_sig g e cl') ok.

Fixpoint kill_all (g : kcfg) (e : kenv) (i : nat) (cls : list kcl) : list (kcl * option ksig) :=
  match cls with [] => [] | cl :: r => kill_one g e (e_helper e i) cl :: kill_all g e (S i) r end.
Definition kill_pids (g : kcfg) (e : kenv) (killing : nat) (cls : list kcl) : list (kcl * option ksig) :=
  if Nat.ltb 1 killing then map (fun c => (c, None)) cls else kill_all g e 0 cls.

(* 700-722: clients that use the lockspace, given up on or not *)
Definition k_live (cl : kcl) : bool := k_used cl && (0 <? k_pid cl) && k_using cl.
Definition k_stuck (cl : kcl) : bool := k_live cl && Nat.leb kill_count_max (k_count cl).
Definition k_check (cl : kcl) : bool := k_live cl && negb (Nat.leb kill_count_max (k_count cl)).
(* killing_pids after all_pids_dead, and its answer; the external and orphan uses
   of 736-752 (which only delay the answer) are the argument [blocked] *)
Definition all_pids_dead (blocked : bool) (killing : nat) (cls : list kcl) : nat * bool :=
  let killing' := if existsb k_stuck cls && negb (existsb k_check cls) && Nat.ltb killing 2 then 2%nat else killing in
  (killing', negb (existsb k_stuck cls) && negb (existsb k_check cls) && negb blocked).

(* ---------------- runs ---------------- *)
(* kw_left: thread_stop was set and the watchdog deactivated (853-858) *)
Record ksys := mkKsys { kw_cls : list kcl; kw_killing : nat; kw_left : bool }.
Inductive kev :=
| KRound (e : kenv) (blocked : bool)   (* a check by the main loop, killing_pids being set *)
| KGone (i : nat)                      (* process i exits: client_pid_dead clears the slot *)
| KDrop (i : nat)                      (* process i releases its leases in the lockspace *)
| KOther (i : nat) (t : Z).            (* another failed lockspace counts an attempt *)

Definition upd (l : list kcl) (i : nat) (f : kcl -> kcl) : list kcl :=
  match nth_error l i with Some x => firstn i l ++ f x :: skipn (S i) l | None => l end.
Definition gone (c : kcl) : kcl := mkKcl false (-1) 0 0 false false false false false.
Definition drop (c : kcl) : kcl :=
  mkKcl (k_used c) (k_pid c) (k_count c) (k_last c) (k_killpath c) (k_rkill c) (k_rterm c) (k_runsent c) false.
Definition other (t : Z) (c : kcl) : kcl :=
  mkKcl (k_used c) (k_pid c) (S (k_count c)) t (k_killpath c) (k_rkill c) (k_rterm c) (k_runsent c) (k_using c).

(* the state after an event and what the helper was told, by client *)
Definition kstep (g : kcfg) (s : ksys) (ev : kev) : ksys * list (option ksig) :=
  match ev with
  | KRound e blocked =>
    if kw_left s then (s, [])
    else
      let '(killing, dead) := all_pids_dead blocked (kw_killing s) (kw_cls s) in
      if dead then (mkKsys (kw_cls s) killing true, [])
      else let r := kill_pids g e killing (kw_cls s) in (mkKsys (map fst r) killing false, map snd r)
  | KGone i => (mkKsys (upd (kw_cls s) i gone) (kw_killing s) (kw_left s), [])
  | KDrop i => (mkKsys (upd (kw_cls s) i drop) (kw_killing s) (kw_left s), [])
  | KOther i t => (mkKsys (upd (kw_cls s) i (other t)) (kw_killing s) (kw_left s), [])
  end.
(* signals passed on for client i along a run *)
Definition sent_to (i : nat) (l : list (option ksig)) : list ksig :=
  match nth_error l i with Some (Some s) => [s] | _ => [] end.
Fixpoint krun (g : kcfg) (s : ksys) (evs : list kev) (i : nat) : ksys * list ksig :=
  match evs with
  | [] => (s, [])
  | ev :: r =>
    let '(s1, o) := kstep g s ev in
    let '(s2, sigs) := krun g s1 r i in (s2, sent_to i o ++ sigs)
  end.
