(* C51: the owner's process is signalled only for a valid, newer request. *)
From Coq Require Import List NArith ZArith Lia Bool Arith ZifyBool ZifyN.
From Verif Require Import Bytes Codec Leader LeaderReadNum Acquire Request.
Import ListNotations.
Open Scope N_scope.

(* ---- specification ---- *)
(* a usable request: right magic and major version, a mode and a version given *)
Definition valid_request (r : request) : Prop :=
  rr_magic r = 0x08292011 /\ N.land (rr_version r) 0xFFFF0000 = 0x00010000 /\
  rr_force_mode r <> 0 /\ rr_lver r <> 0.

Definition target (a : kill_action) : option Z :=
  match a with SendKill p => Some p | SendTerm p => Some p | RunPath => None end.

(* Full claim: an action is taken only against the process which holds the lease
   when the action is taken, for a request newer than the version it holds then,
   and never with a signal it restricted *)
Definition C51_statement : Prop :=
  forall found rd now_held a,
    examine found rd now_held = Some a ->
    exists h, now_held = Some h /\ valid_request (snd rd) /\ h_lver h < rr_lver (snd rd) /\
      (a = SendKill (h_pid h) -> h_norestrict_kill h = true) /\
      (a = SendTerm (h_pid h) -> h_norestrict_term h = true).

(* What holds: the read succeeded, the request is valid, is newer than the version
   the examined holder had, the resource is now held by the same process, FORCE
   sends a signal to it and GRACEFUL runs its kill path or, without one, sends it
   a signal.  Missing: the version held at the time of the action, and both
   restrictions at once. *)
Theorem C51_examine_partial :
  forall found rd now_held a,
    examine found rd now_held = Some a ->
    (0 <= fst rd)%Z /\ valid_request (snd rd) /\ h_lver found < rr_lver (snd rd) /\
    (rr_force_mode (snd rd) = 1 \/ rr_force_mode (snd rd) = 2) /\
    (a = RunPath -> rr_force_mode (snd rd) = 2) /\
    exists h, now_held = Some h /\ h_pid h = h_pid found /\
      (forall p, target a = Some p -> p = h_pid h) /\ (a = RunPath -> h_path h = true) /\
      (h_norestrict_kill h = true \/ h_norestrict_term h = true ->
       (a = SendKill (h_pid h) -> h_norestrict_kill h = true) /\
       (a = SendTerm (h_pid h) -> rr_force_mode (snd rd) = 2 -> h_norestrict_term h = true)) /\
      (a = SendKill (h_pid h) -> rr_force_mode (snd rd) = 1 -> h_norestrict_kill h = true).
Proof.
  intros found [rv req] now_held a H. unfold examine, resource_thread_examine in H. cbn [fst snd] in *.
  destruct (rv <? 0)%Z eqn:E0; [discriminate H|].
  destruct (negb (rr_magic req =? REQ_DISK_MAGIC)) eqn:E1; [discriminate H|].
  destruct (negb (N.land (rr_version req) 0xFFFF0000 =? REQ_DISK_VERSION_MAJOR)) eqn:E2; [discriminate H|].
  destruct ((rr_force_mode req =? 0) || (rr_lver req =? 0)) eqn:E3; [discriminate H|].
  destruct (rr_lver req <=? h_lver found) eqn:E4; [discriminate H|].
  apply negb_false_iff, N.eqb_eq in E1. apply negb_false_iff, N.eqb_eq in E2.
  unfold do_request in H. destruct now_held as [h|]; [|discriminate H].
  destruct (negb (h_pid h =? h_pid found)%Z) eqn:E5; [discriminate H|].
  assert (P : h_pid h = h_pid found) by lia.
  split; [lia|]. split; [unfold valid_request; split; [exact E1|]; split; [exact E2|]; lia|]. split; [lia|].
  destruct (rr_force_mode req =? SANLK_REQ_FORCE) eqn:E6.
  - apply N.eqb_eq in E6. unfold SANLK_REQ_FORCE in E6. injection H as <-.
    split; [auto|]. split; [destruct (h_norestrict_kill h); discriminate|].
    exists h. split; [reflexivity|]. split; [exact P|].
    split; [destruct (h_norestrict_kill h); cbn; congruence|].
    split; [destruct (h_norestrict_kill h); discriminate|].
    split; [|destruct (h_norestrict_kill h); [auto|discriminate]].
    intros _. split; [destruct (h_norestrict_kill h); [auto|discriminate]|lia].
  - destruct (rr_force_mode req =? SANLK_REQ_GRACEFUL) eqn:E7; [|discriminate H].
    apply N.eqb_eq in E7. unfold SANLK_REQ_GRACEFUL in E7. injection H as <-.
    split; [auto|]. split; [auto|]. exists h. split; [reflexivity|]. split; [exact P|].
    split; [destruct (h_path h), (h_norestrict_term h); cbn; congruence|].
    split; [destruct (h_path h), (h_norestrict_term h); congruence|].
    split; [|lia].
    intros R. destruct (h_path h); [split; discriminate|].
    destruct (h_norestrict_term h) eqn:T; [split; [discriminate|auto]|].
    split; [intros _; destruct R; [assumption|discriminate]|discriminate].
Qed.

(* a valid newer request does lead to an action when the process still holds the
   resource: FORCE kills it, or terminates it when SIGKILL is restricted; GRACEFUL
   runs its kill path, or terminates it, or kills it when SIGTERM is restricted *)
Theorem C51_newer_request_acts :
  forall found req now_held,
    valid_request req -> h_lver found < rr_lver req -> h_pid now_held = h_pid found ->
    let p := h_pid found in
    (rr_force_mode req = 1 ->
       (h_norestrict_kill now_held = true -> examine found (1%Z, req) (Some now_held) = Some (SendKill p)) /\
       (h_norestrict_kill now_held = false -> examine found (1%Z, req) (Some now_held) = Some (SendTerm p))) /\
    (rr_force_mode req = 2 ->
       (h_path now_held = true -> examine found (1%Z, req) (Some now_held) = Some RunPath) /\
       (h_path now_held = false -> h_norestrict_term now_held = true ->
          examine found (1%Z, req) (Some now_held) = Some (SendTerm p))) /\
    (rr_force_mode req <> 1 -> rr_force_mode req <> 2 -> examine found (1%Z, req) (Some now_held) = None).
Proof.
  intros found req nh (M & V & F & L) N0 P. unfold examine, resource_thread_examine. cbn [fst snd].
  unfold REQ_DISK_MAGIC, REQ_DISK_VERSION_MAJOR. rewrite M, V, !N.eqb_refl. cbn [negb].
  change (1 <? 0)%Z with false. cbv iota.
  replace ((rr_force_mode req =? 0) || (rr_lver req =? 0)) with false by lia.
  replace (rr_lver req <=? h_lver found) with false by lia.
  unfold do_request, SANLK_REQ_FORCE, SANLK_REQ_GRACEFUL. rewrite P, Z.eqb_refl. cbn [negb].
  split; [|split].
  - intros ->. cbn. split; intros ->; reflexivity.
  - intros ->. cbn. split; intros ->; [reflexivity|]. intros ->. reflexivity.
  - intros A B. apply N.eqb_neq in A, B. rewrite A, B. reflexivity.
Qed.

Definition holder (lv : N) (k t p : bool) : held := mkHeld 42 lv k t p.
Definition req9 (f : N) : request :=
  {| rr_magic := 0x08292011; rr_version := 0x00010001; rr_lver := 9; rr_force_mode := f |}.

Example C51_nonvacuous :
  examine (holder 5 true true false) (1%Z, req9 1) (Some (holder 5 true true false)) = Some (SendKill 42) /\
  examine (holder 5 true true true) (1%Z, req9 2) (Some (holder 5 true true true)) = Some RunPath /\
  examine (holder 9 true true false) (1%Z, req9 1) (Some (holder 9 true true false)) = None /\
  valid_request (req9 1).
Proof. repeat split; vm_compute; congruence. Qed.

(* the process gave the lease up and took it again at a newer version after the
   examination began: it is killed for a request it has already honoured *)
Theorem C51_refuted : ~ C51_statement.
Proof.
  intros H.
  destruct (H (holder 5 true true false) (1%Z, req9 1) (Some (holder 11 true true false)) (SendKill 42) eq_refl)
    as (h & E & _ & L & _).
  injection E as <-. cbn in L. lia.
Qed.

(* a process with both restrictions is sent SIGKILL by a graceful request *)
Theorem C51_both_restrictions_kill :
  examine (holder 5 false false false) (1%Z, req9 2) (Some (holder 5 false false false)) = Some (SendKill 42).
Proof. reflexivity. Qed.

Print Assumptions C51_examine_partial.
Print Assumptions C51_newer_request_acts.
Print Assumptions C51_refuted.
Print Assumptions C51_both_restrictions_kill.
