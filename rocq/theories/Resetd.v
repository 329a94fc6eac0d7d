(* sanlk-resetd: the daemon that resets its host when another host asks for it.
   reset/sanlk_resetd.c: watchdog_reset_self 151-170, set_event_out 229-255, get_events 309-424, main loop
   683-731; reset/sanlk_reset.h:12-15.
   One step is one event taken from a lockspace, one pass of the main loop, or a change of the set of
   watched lockspaces.  Results of the library calls are inputs.  Names are slot numbers; the two unregister
   calls that a lost connection causes (711-722) are one step; log messages are left out. *)
From Coq Require Import List NArith ZArith Lia Bool.
Import ListNotations.
Open Scope N_scope.

(* sanlk_reset.h: EVENT_RESET 1, EVENT_RESETTING 2, EVENT_REBOOT 4, EVENT_REBOOTING 8 *)
Definition b_reset (e : N) : bool := N.testbit e 0.
Definition b_reboot (e : N) : bool := N.testbit e 2.
Definition EV_RESETTING : N := 2.
Definition EV_REBOOT : N := 4.
Definition EV_REBOOTING : N := 8.

(* options, lines 49-52: -w, -b, -d, -R *)
Record rcfg := mkRC { use_watchdog : bool; use_sysrq : bool; sysrq_delay : Z; resource_mode : bool }.

(* what happened, newest first: an event was received, wdmd_test_live(now, now), sanlock_set_config(USED),
   sanlock_set_event, sysrq *)
Inductive eff :=
| EGot (i : nat) (ev : N) (now : Z)
| EWatchdog (now rv : Z)
| EUsed (i : nat) (rv : Z)
| EReply (i : nat) (out ev : N)
| ESysrq (now : Z).

Record rst := mkRS {
  r_resetting : bool; r_rebooting : bool; r_wdfail : bool; r_rebtime : Z;
  r_watched : nat -> bool;     (* pollfd[i].fd >= 0 *)
  r_log : list eff }.
Definition rinit : rst := mkRS false false false 0 (fun _ => false) [].

(* watchdog_reset_self 151-170: the log and whether it failed *)
Definition watchdog_reset_self (c : rcfg) (now rv : Z) (l : list eff) : list eff * bool :=
  if use_watchdog c then (EWatchdog now rv :: l, (rv <? 0)%Z) else (l, false).

Definition unwatch (w : nat -> bool) (i : nat) : nat -> bool := fun j => if Nat.eqb j i then false else w j.
Definition watch (w : nat -> bool) (i : nat) : nat -> bool := fun j => if Nat.eqb j i then true else w j.

(* get_events 328-423, one event *)
Definition handle (c : rcfg) (s : rst) (i : nat) (ev0 : N) (now rvc rvw : Z) : rst :=
  let l0 := EGot i ev0 now :: r_log s in
  (* 361-364 *)
  let ev := if b_reboot ev0 && negb (use_sysrq c) then N.ldiff ev0 EV_REBOOT else ev0 in
  (* 366-376 *)
  let needs := b_reset ev && negb (resource_mode c) in
  let l1 := if needs then EUsed i rvc :: l0 else l0 in
  let cfgfail := needs && (rvc <? 0)%Z in
  (* 378-382 *)
  let first := b_reset ev && negb (r_resetting s) in
  let '(l2, wdf) := if first then watchdog_reset_self c now rvw l1 else (l1, r_wdfail s) in
  let resetting := r_resetting s || first in
  (* 385-389 *)
  let firstb := b_reboot ev && negb (r_rebooting s) in
  let rebooting := r_rebooting s || firstb in
  let rebt := if firstb then now else r_rebtime s in
  (* 406-409 *)
  let out := N.lor (if resetting && negb wdf then EV_RESETTING else 0) (if rebooting then EV_REBOOTING else 0) in
  (* 411-418 *)
  if negb (out =? 0) && negb cfgfail
  then mkRS resetting rebooting wdf rebt (unwatch (r_watched s) i) (EReply i out ev0 :: l2)
  else mkRS resetting rebooting wdf rebt (r_watched s) l2.

Inductive ract :=
| REvent (i : nat) (ev : N) (now rvc rvw : Z)
| RLost (i : nat)                (* get_event error, POLLHUP: unregister_ls *)
| RReg (i : nat)                 (* register_ls succeeded *)
| RTick (now : Z).               (* main loop 705-707 *)

(* the comparison of a uint64_t with an int: a negative delay is a huge one *)
Definition delay_over (now rebt delay : Z) : bool := ((delay mod 2 ^ 64) <=? ((now - rebt) mod 2 ^ 64))%Z.

Definition rstep (c : rcfg) (s : rst) (a : ract) : option rst :=
  match a with
  | REvent i ev now rvc rvw => if r_watched s i then Some (handle c s i ev now rvc rvw) else None
  | RLost i => Some (mkRS (r_resetting s) (r_rebooting s) (r_wdfail s) (r_rebtime s) (unwatch (r_watched s) i) (r_log s))
  | RReg i => Some (mkRS (r_resetting s) (r_rebooting s) (r_wdfail s) (r_rebtime s) (watch (r_watched s) i) (r_log s))
  | RTick now =>
      if r_rebooting s && delay_over now (r_rebtime s) (sysrq_delay c)
      then Some (mkRS (r_resetting s) (r_rebooting s) (r_wdfail s) (r_rebtime s) (r_watched s) (ESysrq now :: r_log s))
      else Some s
  end.

Inductive rreach (c : rcfg) : rst -> Prop :=
| rr_init : rreach c rinit
| rr_step s a s' : rreach c s -> rstep c s a = Some s' -> rreach c s'.
