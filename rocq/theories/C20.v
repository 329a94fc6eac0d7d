(* C20: if an observer saw no change in a host's lease timestamp for longer than
   eight I/O timeouts plus the watchdog timeout, then the machine's watchdog had
   expired, or its processes had given up all leases in that lockspace, before the
   observer's wait ended.

   The observer reads the timestamp h_disk at two moments.  Its clock runs at the same
   rate as the clock of the machine, so its wait is a difference of times of the
   machine's clock.  The watchdog has expired when it is armed and the last ping is
   more than its timeout ago. *)
From Coq Require Import List ZArith Lia Bool Arith ZifyBool.
From Verif Require Import Wdmd WdmdTime C22 WdHost.
Import ListNotations.
Open Scope Z_scope.

Definition watchdog_expired (s : hst) : Prop :=
  k_armed (h_w s) = true /\ k_last (h_w s) + w_fire (h_w s) < h_now s.

(* sl: how much later than a test interval after the previous test wdmd touches the
   device (WdmdTime.v); slack: what the observer waits in addition *)
Definition C20_statement (sl slack : Z) : Prop :=
  forall g s0 s1,
    2 <= g_io g < 2 ^ 32 ->
    hreach g sl hinit s0 -> hreach g sl s0 s1 ->
    h_disk s1 = h_disk s0 ->
    h_now s1 - h_now s0 > 8 * g_io g + g_fire g + slack ->
    h_pids s1 = O \/ watchdog_expired s1.

Theorem C20_dead_host_partial sl : 0 <= sl -> C20_statement sl sl.
Proof.
  intros SL g s0 s1 IO R0 R1 Same Wait.
  pose proof (hreach_inv _ _ _ _ SL IO (hinv_init g sl) R0) as I0.
  pose proof (hreach_inv _ _ _ _ SL IO I0 R1) as I1.
  destruct (h_pids s1) eqn:P; [auto|right].
  assert (A : h_act s1 = true) by (apply (H_pids _ _ _ I1); congruence).
  destruct (H_act _ _ _ I1 A) as (En & D & Fi & c & Hc & [U Rf] & Ec & Ic & Le).
  pose proof (TI_ping _ _ (H_w _ _ _ I1) c (nth_error_In _ _ Hc) (conj U Ec)) as K.
  pose proof (TI_armed _ _ (H_w _ _ _ I1) En D) as Ar.
  pose proof (H_disk _ _ _ I0). unfold expiry in Le.
  split; [exact Ar|]. rewrite Fi. lia.
Qed.

(* without scripts and with a prompt loop: exactly the waiting time of the code *)
Theorem C20_dead_host_prompt_partial : C20_statement 0 0.
Proof. exact (C20_dead_host_partial 0 (Z.le_refl 0)). Qed.

(* ----------------------------------------------------------- executions *)

Definition hokb (g : hcfg) (sl : Z) (s : hst) (t : Z) (e : hev) : bool :=
  match e with
  | HW (WLive _ _) => false
  | HW (WTail t0 tc tp bad re) =>
      (negb (w_open (h_w s)) || (tp <=? w_tc (h_w s) + w_std (h_w s) + sl)) &&
      (tp <=? tc + w_std (h_w s) + sl)
  | HAct =>
      match h_ok s with
      | Some x => w_enable (h_w s) && (t + 10 <? expiry g x)
      | None => true
      end
  | _ => true
  end.

Lemma hokb_ok g sl s t e : hokb g sl s t e = true -> hok g sl s t e.
Proof.
  destruct e as [x| | | | | | | |]; cbn; auto.
  - destruct x as [|i b|i e|f r|i| |t0 tc tp bad re]; cbn; intros H; try discriminate; auto.
    split; [auto|]. apply andb_true_iff in H as [H1 H2]. split; [|lia].
    intros Op. rewrite Op in H1. cbn in H1. lia.
  - destruct (h_ok s); auto. intros H. apply andb_true_iff in H as [H1 H2]. split; [auto|]. lia.
Qed.

Fixpoint hrun (g : hcfg) (sl : Z) (s : hst) (l : list (Z * hev)) : option hst :=
  match l with
  | [] => Some s
  | (t, e) :: r =>
      if hokb g sl s t e && (t <? 2 ^ 63) then
        match hstep g s t e with Some s1 => hrun g sl s1 r | None => None end
      else None
  end.

Lemma hrun_reach g sl l : forall s s', hrun g sl s l = Some s' -> hreach g sl s s'.
Proof.
  intros s s' H. assert (G : forall a, hreach g sl a s -> hreach g sl a s').
  { revert s H. induction l as [|[t e] r IH]; cbn [hrun]; intros s H a R.
    - injection H as <-. auto.
    - destruct (hokb g sl s t e && (t <? 2 ^ 63)) eqn:E; [|discriminate].
      apply andb_true_iff in E as [E1 E2].
      destruct (hstep g s t e) as [s1|] eqn:E3; [|discriminate].
      eapply IH; [exact H|]. eapply hr_step; eauto using hokb_ok. lia. }
  apply G. constructor.
Qed.

Definition cfg10 : hcfg := mkHcfg 10 60 2.

Definition tl (t : Z) : Z * hev := (t, HW (WTail t t t false true)).

(* joins with timestamp 20, a process acquires a lease; then no renewal lands *)
Definition joined_run : list (Z * hev) :=
  [(19, HW WConn); (19, HW (WOpen 60 OpOk)); tl 19; (20, HBegin); (20, HLand);
   tl 29; tl 39; (40, HAct); (45, HPid)].

(* the observer sees timestamp 20 from 45 on; it is now 186 *)
Definition silent_run : list (Z * hev) :=
  [tl 49; tl 59; tl 69; tl 79; tl 89; tl 99; tl 100; tl 101; (186, HTick)].

Definition hobs (o : option hst) : option (Z * Z * nat * bool * Z) :=
  match o with
  | Some s => Some (h_now s, h_disk s, h_pids s, k_armed (h_w s), k_last (h_w s))
  | None => None
  end.

Example C20_nonvacuous :
  hobs (hrun cfg10 0 hinit joined_run) = Some (45, 20, 1%nat, true, 39) /\
  hobs (hrun cfg10 0 hinit (joined_run ++ silent_run)) = Some (186, 20, 1%nat, true, 99).
Proof. split; vm_compute; reflexivity. Qed.

(* With a script that takes nine seconds at the wrong moment the last ping is at 108,
   while a process holds a lease; an observer that read timestamp 20 right after it was
   written, at 20, declares the host dead after 160; the watchdog fires at 168. *)
Definition late_run : list (Z * hev) :=
  [tl 29; tl 39; (40, HAct); (45, HPid);
   tl 49; tl 59; tl 69; tl 79; tl 89;
   (99, HW (WTail 99 108 108 false true)); (161, HTick)].

Theorem C20_refuted : ~ C20_statement 9 0.
Proof.
  intros H.
  pose (l0 := [(19, HW WConn); (19, HW (WOpen 60 OpOk)); tl 19; (20, HBegin); (20, HLand)]).
  destruct (hrun cfg10 9 hinit l0) as [s0|] eqn:E0; [|vm_compute in E0; discriminate].
  destruct (hrun cfg10 9 s0 late_run) as [s1|] eqn:E1.
  2:{ exfalso. revert E1. assert (Es : Some s0 = hrun cfg10 9 hinit l0) by (rewrite E0; reflexivity).
      vm_compute in Es. injection Es as ->. vm_compute. discriminate. }
  pose proof (hrun_reach _ _ _ _ _ E0) as R0. pose proof (hrun_reach _ _ _ _ _ E1) as R1.
  vm_compute in E0. injection E0 as <-. vm_compute in E1. injection E1 as <-.
  assert (IO : 2 <= g_io cfg10 < 2 ^ 32) by (cbn; lia).
  destruct (H cfg10 _ _ IO R0 R1 eq_refl) as [X|[_ X]].
  - cbn. lia.
  - discriminate.
  - cbn in X. lia.
Qed.

Print Assumptions C20_dead_host_partial.
Print Assumptions C20_dead_host_prompt_partial.
Print Assumptions C20_refuted.
