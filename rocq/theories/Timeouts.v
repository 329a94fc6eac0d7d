(* src/timeouts.c.  com.watchdog_fire_timeout and com.set_bitmap_seconds are
   parameters.  C int arithmetic is modelled in Z without overflow; the
   overflow limit is stated in C47. *)
From Coq Require Import ZArith Lia Bool ZifyBool.
Open Scope Z_scope.

Definition DEFAULT_WATCHDOG_FIRE_TIMEOUT : Z := 60. (* src/sanlock_internal.h *)
Definition DEFAULT_GRACE_SEC : Z := 40.

(* src/timeouts.c:70-74 *)
Definition calc_host_dead_seconds (fire io_timeout : Z) : Z := 8 * io_timeout + fire.
(* src/timeouts.c:76-79 *)
Definition calc_id_renewal_seconds (io_timeout : Z) : Z := 2 * io_timeout.
(* src/timeouts.c:81-84 *)
Definition calc_id_renewal_fail_seconds (io_timeout : Z) : Z := 8 * io_timeout.
(* src/timeouts.c:86-89 *)
Definition calc_id_renewal_warn_seconds (io_timeout : Z) : Z := 6 * io_timeout.
(* src/timeouts.c:91-97 *)
Definition calc_set_bitmap_seconds (conf io_timeout : Z) : Z :=
  if conf =? 0 then 6 * io_timeout else conf.

(* src/timeouts.c:30-63 setup_timeouts: the kill grace period used *)
Definition setup_kill_grace (kill_grace_set : bool) (fire grace : Z) : Z :=
  if negb kill_grace_set && (fire <? DEFAULT_WATCHDOG_FIRE_TIMEOUT) then
    if (fire <? 60) && (30 <=? fire) then 15
    else if fire <? 30 then 0
    else grace
  else grace.
