(* C64: a host answers that it is resetting only when its watchdog has been made to expire *)
From Coq Require Import List NArith ZArith Lia Bool ZifyBool ZifyN.
From Verif Require Import Resetd.
Import ListNotations.
Open Scope N_scope.

(* ---- specification: about what happened, newest first ---- *)
(* e happened, after everything in b *)
Definition after (l : list eff) (e : eff) (b : list eff) : Prop := exists a, l = a ++ e :: b.
Definition armed (b : list eff) : Prop := exists now rv, In (EWatchdog now rv) b /\ (0 <= rv)%Z.
Definition asked (b : list eff) (bit : N) : Prop := exists i ev now, In (EGot i ev now) b /\ N.testbit ev bit = true.
Definition used (b : list eff) (i : nat) : Prop := exists rv, In (EUsed i rv) b /\ (0 <= rv)%Z.

(* the answer RESETTING: the watchdog connection has expired, and the lockspace cannot exit without a reset *)
Definition C64_statement : Prop := forall c s i out ev b,
  use_watchdog c = true -> rreach c s -> after (r_log s) (EReply i out ev) b -> N.testbit out 1 = true ->
  armed b /\ asked b 0 /\ (resource_mode c = false -> used b i).

(* ---- proofs ---- *)
Lemma after_cons e l x b : after (e :: l) x b -> (x = e /\ b = l) \/ after l x b.
Proof.
  intros [a H]. destruct a as [|y a]; cbn in H; inversion H; subst; [left; auto|right; exists a; reflexivity].
Qed.
Lemma after_nil x b : ~ after [] x b.
Proof. intros [a H]. destruct a; discriminate. Qed.

Lemma armed_cons e b : armed b -> armed (e :: b).
Proof. intros (n & rv & I & H). exists n, rv. split; [right; exact I|exact H]. Qed.
Lemma asked_cons e b k : asked b k -> asked (e :: b) k.
Proof. intros (i & ev & n & I & H). exists i, ev, n. split; [right; exact I|exact H]. Qed.

Definition Good (c : rcfg) (s : rst) : Prop :=
  (r_resetting s = true -> asked (r_log s) 0) /\
  (r_resetting s = true -> r_wdfail s = false -> use_watchdog c = true -> armed (r_log s)) /\
  (r_rebooting s = true -> use_sysrq c = true /\
     exists i ev, In (EGot i ev (r_rebtime s)) (r_log s) /\ N.testbit ev 2 = true) /\
  (r_resetting s = false -> forall now rv, ~ In (EWatchdog now rv) (r_log s)) /\
  (forall now rv b, after (r_log s) (EWatchdog now rv) b -> asked b 0 /\ forall now' rv', ~ In (EWatchdog now' rv') b) /\
  (forall i out ev b, after (r_log s) (EReply i out ev) b ->
     (N.testbit out 1 = true -> asked b 0 /\ (use_watchdog c = true -> armed b) /\
        (N.testbit ev 0 = true -> resource_mode c = false -> used b i)) /\
     (N.testbit out 3 = true -> use_sysrq c = true /\ asked b 2)) /\
  (forall now b, after (r_log s) (ESysrq now) b -> use_sysrq c = true /\
     exists i ev t, In (EGot i ev t) b /\ N.testbit ev 2 = true /\ delay_over now t (sysrq_delay c) = true).

Lemma reset_kept (x : bool) ev : b_reset (if x then N.ldiff ev EV_REBOOT else ev) = b_reset ev.
Proof. destruct x; [|reflexivity]. unfold b_reset, EV_REBOOT. rewrite N.ldiff_spec. change (N.testbit 4 0) with false. apply andb_true_r. Qed.

Lemma reboot_kept sy ev : b_reboot (if b_reboot ev && negb sy then N.ldiff ev EV_REBOOT else ev) = b_reboot ev && sy.
Proof.
  unfold b_reboot, EV_REBOOT. destruct (N.testbit ev 2) eqn:E, sy; cbn [andb negb]; try exact E.
  rewrite N.ldiff_spec. change (N.testbit 4 2) with true. cbn. apply andb_false_r.
Qed.

Lemma out_bits (x y : bool) :
  let out := N.lor (if x then EV_RESETTING else 0) (if y then EV_REBOOTING else 0) in
  N.testbit out 1 = x /\ N.testbit out 3 = y /\ (out =? 0) = negb x && negb y.
Proof. destruct x, y; cbn; auto. Qed.

Lemma good_step c s a s' : Good c s -> rstep c s a = Some s' -> Good c s'.
Proof.
  intros (G1 & G2 & G3 & G4 & G5 & G6 & G7) H. destruct a as [i ev now rvc rvw|i|i|now]; cbn [rstep] in H.
  - destruct (r_watched s i); [|discriminate]. inversion H; subst; clear H. unfold handle.
    set (ev1 := if b_reboot ev && negb (use_sysrq c) then N.ldiff ev EV_REBOOT else ev).
    assert (R0 : b_reset ev1 = N.testbit ev 0) by (unfold ev1; apply reset_kept).
    assert (R2 : b_reboot ev1 = N.testbit ev 2 && use_sysrq c) by (unfold ev1; apply reboot_kept).
    rewrite R0, R2. clearbody ev1. clear R0 R2 ev1.
    set (l0 := EGot i ev now :: r_log s).
    assert (AS0 : N.testbit ev 0 = true -> asked l0 0) by (intros E; exists i, ev, now; split; [left; reflexivity|exact E]).
    assert (AS2 : N.testbit ev 2 = true -> asked l0 2) by (intros E; exists i, ev, now; split; [left; reflexivity|exact E]).
    set (needs := N.testbit ev 0 && negb (resource_mode c)).
    set (l1 := if needs then EUsed i rvc :: l0 else l0).
    assert (L1 : forall e, In e l0 -> In e l1) by (intros e I; unfold l1; destruct needs; [right|]; exact I).
    assert (L1w : forall n rv, In (EWatchdog n rv) l1 -> In (EWatchdog n rv) (r_log s)).
    { intros n rv I. unfold l1 in I. destruct needs; [destruct I as [I|I]; [discriminate|]|]; destruct I as [I|I]; try discriminate; exact I. }
    assert (US : needs = true -> (0 <= rvc)%Z -> used l1 i).
    { intros E P. unfold l1. rewrite E. exists rvc. split; [left; reflexivity|exact P]. }
    assert (A1 : forall x b, after l1 x b -> (forall j e t, x <> EGot j e t) -> (forall j r, x <> EUsed j r) -> after (r_log s) x b).
    { intros x b A N1 N2. unfold l1 in A. destruct needs.
      - apply after_cons in A. destruct A as [(-> & _)|A]; [exfalso; eapply N2; reflexivity|].
        apply after_cons in A. destruct A as [(-> & _)|A]; [exfalso; eapply N1; reflexivity|exact A].
      - apply after_cons in A. destruct A as [(-> & _)|A]; [exfalso; eapply N1; reflexivity|exact A]. }
    assert (ASK : forall k, asked l0 k -> asked l1 k).
    { intros k (j & e & t & I & T). exists j, e, t. split; [apply L1; exact I|exact T]. }
    assert (ASKs : forall k, asked (r_log s) k -> asked l1 k).
    { intros k (j & e & t & I & T). exists j, e, t. split; [apply L1; right; exact I|exact T]. }
    assert (ARM1 : armed (r_log s) -> armed l1).
    { intros (t & rv & I & P). exists t, rv. split; [apply L1; right; exact I|exact P]. }
    set (first := N.testbit ev 0 && negb (r_resetting s)).
    set (pr := if first then watchdog_reset_self c now rvw l1 else (l1, r_wdfail s)).
    destruct pr as [l2 wdf] eqn:EP.
    (* what the log l2 says *)
    assert (L2 : (forall e, In e l1 -> In e l2) /\
                 (l2 = l1 \/ (first = true /\ use_watchdog c = true /\ l2 = EWatchdog now rvw :: l1)) /\
                 (first = true -> use_watchdog c = true -> wdf = false -> armed l2) /\
                 (first = false -> l2 = l1 /\ wdf = r_wdfail s)).
    { unfold pr, watchdog_reset_self in EP. destruct first eqn:EF; [destruct (use_watchdog c) eqn:EU|]; inversion EP; subst.
      - split; [intros e I; right; exact I|]. split; [right; auto|]. split; [|discriminate].
        intros _ _ W. exists now, rvw. split; [left; reflexivity|apply Z.ltb_ge; exact W].
      - split; [auto|]. split; [left; reflexivity|]. split; [intros; discriminate|discriminate].
      - split; [auto|]. split; [left; reflexivity|]. split; [discriminate|auto]. }
    clear EP pr. destruct L2 as (L2 & L2c & L2a & L2f).
    set (resetting := r_resetting s || first). set (firstb := (N.testbit ev 2 && use_sysrq c) && negb (r_rebooting s)).
    set (rebooting := r_rebooting s || firstb). set (rebt := if firstb then now else r_rebtime s).
    pose proof (out_bits (resetting && negb wdf) rebooting) as OB.
    set (out := N.lor (if resetting && negb wdf then EV_RESETTING else 0) (if rebooting then EV_REBOOTING else 0)) in *.
    cbn zeta in OB. destruct OB as (O1 & O3 & O0). clearbody out.
    assert (K1 : resetting = true -> asked l2 0).
    { intros E. unfold resetting in E. apply orb_prop in E. destruct E as [E|E].
      - destruct (ASKs 0 (G1 E)) as (j & e & t & I & T). exists j, e, t. split; [apply L2; exact I|exact T].
      - unfold first in E. apply andb_prop in E. destruct (ASK 0 (AS0 (proj1 E))) as (j & e & t & I & T).
        exists j, e, t. split; [apply L2; exact I|exact T]. }
    assert (K2 : resetting = true -> wdf = false -> use_watchdog c = true -> armed l2).
    { intros E W U. destruct first eqn:EF; [apply L2a; auto|]. destruct (L2f eq_refl) as [E2 EW]. rewrite E2.
      unfold resetting in E. rewrite orb_false_r in E. apply ARM1. apply G2; congruence. }
    assert (K3 : rebooting = true -> use_sysrq c = true /\ exists j e, In (EGot j e rebt) l2 /\ N.testbit e 2 = true).
    { intros E. unfold rebooting in E. unfold rebt. destruct firstb eqn:EB.
      - unfold firstb in EB. apply andb_prop in EB. destruct EB as [EB _]. apply andb_prop in EB. destruct EB as [E2 ES].
        split; [exact ES|]. exists i, ev. split; [apply L2, L1; left; reflexivity|exact E2].
      - rewrite orb_false_r in E. destruct (G3 E) as (ES & j & e & I & T). split; [exact ES|].
        exists j, e. split; [apply L2, L1; right; exact I|exact T]. }
    assert (K4 : resetting = false -> forall n rv, ~ In (EWatchdog n rv) l2).
    { intros E n rv I. unfold resetting in E. apply orb_false_elim in E. destruct E as [E EF].
      destruct (L2f EF) as [-> _]. apply L1w in I. exact (G4 E n rv I). }
    assert (K5 : forall n rv b, after l2 (EWatchdog n rv) b -> asked b 0 /\ forall n' rv', ~ In (EWatchdog n' rv') b).
    { intros n rv b A. destruct L2c as [->|(EF & U & ->)].
      - apply (G5 n rv). apply A1; [exact A|discriminate|discriminate].
      - apply after_cons in A. destruct A as [(E & ->)|A].
        + unfold first in EF. apply andb_prop in EF. destruct EF as [E0 ER]. split; [apply ASK, AS0, E0|].
          intros n' rv' I. apply L1w in I. apply negb_true_iff in ER. exact (G4 ER n' rv' I).
        + apply (G5 n rv). apply A1; [exact A|discriminate|discriminate]. }
    assert (A2 : forall x b, after l2 x b -> (forall j e t, x <> EGot j e t) -> (forall j r, x <> EUsed j r) ->
                  (forall n rv, x <> EWatchdog n rv) -> after (r_log s) x b).
    { intros x b A N1 N2 N3. destruct L2c as [->|(_ & _ & ->)]; [apply A1; assumption|].
      apply after_cons in A. destruct A as [(-> & _)|A]; [exfalso; eapply N3; reflexivity|apply A1; assumption]. }
    assert (K6 : forall j o e b, after l2 (EReply j o e) b ->
       (N.testbit o 1 = true -> asked b 0 /\ (use_watchdog c = true -> armed b) /\
          (N.testbit e 0 = true -> resource_mode c = false -> used b j)) /\
       (N.testbit o 3 = true -> use_sysrq c = true /\ asked b 2)).
    { intros j o e b A. apply (G6 j o e). apply A2; [exact A|discriminate|discriminate|discriminate]. }
    assert (K7 : forall n b, after l2 (ESysrq n) b -> use_sysrq c = true /\
       exists j e t, In (EGot j e t) b /\ N.testbit e 2 = true /\ delay_over n t (sysrq_delay c) = true).
    { intros n b A. apply (G7 n). apply A2; [exact A|discriminate|discriminate|discriminate]. }
    destruct (negb (out =? 0) && negb (needs && (rvc <? 0)%Z)) eqn:EO.
    + unfold Good. cbn [r_resetting r_wdfail r_rebooting r_rebtime r_log].
      split; [intros E; apply asked_cons; auto|]. split; [intros; apply armed_cons; auto|].
      split. { intros E. destruct (K3 E) as (ES & j & e & I & T). split; [exact ES|]. exists j, e. split; [right; exact I|exact T]. }
      split. { intros E n rv [I|I]; [discriminate|]. exact (K4 E n rv I). }
      split. { intros n rv b A. apply after_cons in A. destruct A as [(A & _)|A]; [discriminate|]. eapply K5; exact A. }
      split; [|intros n b A; apply after_cons in A; destruct A as [(A & _)|A]; [discriminate|eapply K7; exact A]].
      intros j o e b A. apply after_cons in A. destruct A as [(A & ->)|A]; [|eapply K6; exact A].
      inversion A; subst j o e. split.
      * intros T. rewrite O1 in T. apply andb_prop in T. destruct T as [TR TW]. apply negb_true_iff in TW.
        split; [apply K1; exact TR|]. split; [intros U; apply K2; assumption|].
        intros E0 RM. apply andb_prop in EO. destruct EO as [_ EO].
        assert (EN : needs = true) by (unfold needs; rewrite E0, RM; reflexivity).
        rewrite EN in EO. cbn [andb] in EO. apply negb_true_iff, Z.ltb_ge in EO. destruct (US EN EO) as (rv & I & P).
        exists rv. split; [apply L2; exact I|exact P].
      * intros T. rewrite O3 in T. destruct (K3 T) as (ES & j & e & I & TE). split; [exact ES|].
        exists j, e, rebt. split; assumption.
    + unfold Good. cbn [r_resetting r_wdfail r_rebooting r_rebtime r_log]. auto 10.
  - inversion H; subst. unfold Good. cbn. auto 10.
  - inversion H; subst. unfold Good. cbn. auto 10.
  - destruct (r_rebooting s && delay_over now (r_rebtime s) (sysrq_delay c)) eqn:E; inversion H; subst; [|unfold Good; auto 10].
    apply andb_prop in E. destruct E as [EB ED]. unfold Good. cbn [r_resetting r_wdfail r_rebooting r_rebtime r_log].
    split; [intros; apply asked_cons; auto|]. split; [intros; apply armed_cons; auto|].
    split. { intros E. destruct (G3 E) as (ES & j & e & I & T). split; [exact ES|]. exists j, e. split; [right; exact I|exact T]. }
    split. { intros E n rv [I|I]; [discriminate|]. exact (G4 E n rv I). }
    split. { intros n rv b A. apply after_cons in A. destruct A as [(A & _)|A]; [discriminate|]. eapply G5; exact A. }
    split. { intros j o e b A. apply after_cons in A. destruct A as [(A & _)|A]; [discriminate|]. eapply G6; exact A. }
    intros n b A. apply after_cons in A. destruct A as [(A & ->)|A]; [|eapply G7; exact A]. inversion A; subst n.
    destruct (G3 EB) as (ES & j & e & I & T). split; [exact ES|]. exists j, e, (r_rebtime s). auto.
Qed.

Lemma good_reach c s : rreach c s -> Good c s.
Proof.
  induction 1 as [|s a s' R IH H]; [|eapply good_step; eassumption].
  unfold Good, rinit. cbn. repeat split; try discriminate; intros; try (intros []; fail);
    exfalso; eapply after_nil; eassumption.
Qed.

(* What is missing: the lockspace was made unable to exit only if this very event asked for a reset. *)
Theorem C64_reply_partial : forall c s i out ev b,
  use_watchdog c = true -> rreach c s -> after (r_log s) (EReply i out ev) b -> N.testbit out 1 = true ->
  armed b /\ asked b 0 /\ (N.testbit ev 0 = true -> resource_mode c = false -> used b i).
Proof.
  intros c s i out ev b U R A T. destruct (good_reach c s R) as (_ & _ & _ & _ & _ & G & _).
  destruct (G i out ev b A) as [G1 _]. destruct (G1 T) as (A1 & A2 & A3). auto.
Qed.

(* the watchdog is armed at most once, and only on request *)
Theorem C64_armed_once : forall c s now rv b, rreach c s -> after (r_log s) (EWatchdog now rv) b ->
  asked b 0 /\ forall now' rv', ~ In (EWatchdog now' rv') b.
Proof. intros c s now rv b R A. destruct (good_reach c s R) as (_ & _ & _ & _ & G & _). eapply G; exact A. Qed.

(* a reboot by sysrq only if it is enabled, was asked for, and the delay is over *)
Theorem C64_sysrq : forall c s now b, rreach c s -> after (r_log s) (ESysrq now) b ->
  use_sysrq c = true /\ exists i ev t, In (EGot i ev t) b /\ N.testbit ev 2 = true /\
    ((0 <= sysrq_delay c < 2 ^ 31 -> t <= now < t + 2 ^ 64 -> t + sysrq_delay c <= now)%Z).
Proof.
  intros c s now b R A. destruct (good_reach c s R) as (_ & _ & _ & _ & _ & _ & G).
  destruct (G now b A) as (S & i & ev & t & I & T & D). split; [exact S|]. exists i, ev, t. split; [exact I|]. split; [exact T|].
  intros P Q. unfold delay_over in D. rewrite !Z.mod_small in D by lia. lia.
Qed.
Theorem C64_reboot_reply : forall c s i out ev b, rreach c s -> after (r_log s) (EReply i out ev) b ->
  N.testbit out 3 = true -> use_sysrq c = true /\ asked b 2.
Proof. intros c s i out ev b R A T. destruct (good_reach c s R) as (_ & _ & _ & _ & _ & G & _). destruct (G i out ev b A) as [_ G2]. auto. Qed.

(* an event that asks for nothing, in a second lockspace: the answer is given there too, but that lockspace was
   not kept from exiting *)
Definition c0 : rcfg := mkRC true false 25 false.
Definition two_ls : option rst :=
  match rstep c0 rinit (RReg 0) with None => None | Some s => match rstep c0 s (RReg 1) with None => None | Some s =>
  match rstep c0 s (REvent 0 1 100 0 0) with None => None | Some s => rstep c0 s (REvent 1 2 101 0 0) end end end.
Theorem C64_refuted : ~ C64_statement.
Proof.
  intros H.
  assert (E : option_map r_log two_ls =
    Some [EReply 1 2 2; EGot 1 2 101; EReply 0 2 1; EWatchdog 100 0; EUsed 0 0; EGot 0 1 100]) by reflexivity.
  unfold two_ls in E.
  destruct (rstep c0 rinit (RReg 0)) as [s1|] eqn:E1; [|discriminate].
  destruct (rstep c0 s1 (RReg 1)) as [s2|] eqn:E2; [|discriminate].
  destruct (rstep c0 s2 (REvent 0 1 100 0 0)) as [s3|] eqn:E3; [|discriminate].
  destruct (rstep c0 s3 (REvent 1 2 101 0 0)) as [s4|] eqn:E4; [|discriminate].
  cbn [option_map] in E. inversion E as [EL].
  assert (R : rreach c0 s4) by (repeat (eapply rr_step; [|eassumption]); apply rr_init).
  destruct (H c0 s4 1%nat 2 2 [EGot 1 2 101; EReply 0 2 1; EWatchdog 100 0; EUsed 0 0; EGot 0 1 100]
    eq_refl R ltac:(rewrite EL; exists []; reflexivity) eq_refl) as (_ & _ & U).
  destruct (U eq_refl) as (rv & I & _). repeat (destruct I as [I|I]; [discriminate|]). destruct I.
Qed.

Example C64_nonvacuous : option_map r_log (match rstep c0 rinit (RReg 3) with None => None | Some s => rstep c0 s (REvent 3 1 100 0 0) end) =
  Some [EReply 3 2 1; EWatchdog 100 0; EUsed 3 0; EGot 3 1 100].
Proof. reflexivity. Qed.

Print Assumptions C64_reply_partial.
Print Assumptions C64_armed_once.
Print Assumptions C64_sysrq.
Print Assumptions C64_refuted.
