(* C47: timeouts are ordered safely. *)
From Coq Require Import ZArith Lia Bool ZifyBool.
From Verif Require Import Timeouts.
Open Scope Z_scope.

Theorem C47_timeouts_ordered :
  forall io fire, 0 < io -> 0 < fire ->
    calc_id_renewal_seconds io < calc_id_renewal_warn_seconds io /\
    calc_id_renewal_warn_seconds io < calc_id_renewal_fail_seconds io /\
    calc_id_renewal_fail_seconds io < calc_host_dead_seconds fire io /\
    calc_host_dead_seconds fire io - calc_id_renewal_fail_seconds io = fire.
Proof.
  intros. unfold calc_id_renewal_seconds, calc_id_renewal_warn_seconds,
    calc_id_renewal_fail_seconds, calc_host_dead_seconds. lia.
Qed.

(* at least three renewal attempts, each allowed a full I/O timeout, fit in
   before the failure time, and a request bit stays set for at least two
   renewal intervals *)
Theorem C47_attempts_before_fail :
  forall io, 0 < io ->
    3 * calc_id_renewal_seconds io + io < calc_id_renewal_fail_seconds io /\
    3 * calc_id_renewal_seconds io <= calc_set_bitmap_seconds 0 io.
Proof.
  intros. unfold calc_id_renewal_seconds, calc_id_renewal_fail_seconds, calc_set_bitmap_seconds.
  change (0 =? 0) with true. cbv iota. lia.
Qed.

(* the timeouts stored in a lease record are 16-bit values (io_timeout) read
   from disk: no int overflow for any of them and any watchdog timeout below
   2^30 *)
Theorem C47_no_int_overflow :
  forall io fire, 0 <= io < 2 ^ 16 -> 0 <= fire < 2 ^ 30 ->
    0 <= calc_host_dead_seconds fire io < 2 ^ 31 /\
    0 <= calc_id_renewal_fail_seconds io < 2 ^ 31.
Proof. intros. unfold calc_host_dead_seconds, calc_id_renewal_fail_seconds. lia. Qed.

(* the grace period before SIGKILL ends before the watchdog can fire when it
   is not set explicitly *)
Theorem C47_grace_before_fire :
  forall fire, 0 < fire ->
    setup_kill_grace false fire DEFAULT_GRACE_SEC + 10 <= fire \/
    setup_kill_grace false fire DEFAULT_GRACE_SEC = 0.
Proof.
  intros fire H. unfold setup_kill_grace, DEFAULT_WATCHDOG_FIRE_TIMEOUT, DEFAULT_GRACE_SEC.
  destruct (fire <? 60) eqn:E1; destruct (30 <=? fire) eqn:E2; destruct (fire <? 30) eqn:E3;
    cbn [negb andb]; lia.
Qed.

Example C47_defaults :
  calc_host_dead_seconds 60 10 = 140 /\ calc_id_renewal_fail_seconds 10 = 80 /\
  calc_id_renewal_seconds 10 = 20 /\ setup_kill_grace false 60 DEFAULT_GRACE_SEC = 40.
Proof. vm_compute. auto. Qed.

Print Assumptions C47_timeouts_ordered.
Print Assumptions C47_attempts_before_fail.
Print Assumptions C47_no_int_overflow.
Print Assumptions C47_grace_before_fire.
