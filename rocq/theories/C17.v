(* C17: at most one host holds a host id. *)
From Coq Require Import List NArith ZArith Lia Bool Arith ZifyBool ZifyN.
From Verif Require Import Timeouts Delta DeltaProof.
Import ListNotations.
Open Scope N_scope.

(* ---- specification ---- *)
(* the lockspace thread of a host is past its join and has not given up *)
Definition has_joined (s : dst) (i : N) : Prop :=
  match h_k (d_h s i) with KOwn _ _ | KR _ _ | KRW _ _ => True | _ => False end.

(* every host's disk operations are over within its own I/O timeout; the lease was
   never used by one of these hosts; io_timeout fits the 8 bits stored on disk *)
Definition within_own_timeout (c : cfg) : Prop :=
  ~ In 0 (c_hosts c) /\
  forall i, In i (c_hosts c) -> 0 < c_d c i /\ c_d c i <= c_io c i /\ c_io c i < 256.

(* at most one host holds the id, not counting hosts that were silent for the dead time *)
Definition one_holder (c : cfg) (s : dst) : Prop :=
  forall i j, In i (c_hosts c) -> In j (c_hosts c) ->
    h_held (d_h s i) = true -> h_alive (d_h s i) = true ->
    h_held (d_h s j) = true -> h_alive (d_h s j) = true -> i = j.

(* the full claim *)
Definition C17_statement : Prop :=
  forall c r t s, within_own_timeout c -> n_name r = 0 ->
    dreach c r t s -> one_holder c s.

(* It holds when the bound on disk operations is common: no host's operation takes
   longer than any host's I/O timeout. *)
Theorem C17_one_holder_partial :
  forall c r t s, cfg_ok c -> rec_ok c r -> dreach c r t s -> one_holder c s.
Proof.
  intros c r t s O R H i j Ii Ij _ Ai _ Aj. pose proof (reach_inv c r t s O R H) as I.
  destruct (I_H1 _ _ I i Ii Ai) as (A & _). destruct (I_H1 _ _ I j Ij Aj) as (B & _). congruence.
Qed.

(* what being a holder means: the lease shows this host; nobody else has a write
   under way *)
Theorem C17_holder_on_disk_partial :
  forall c r t s i, cfg_ok c -> rec_ok c r -> dreach c r t s -> In i (c_hosts c) ->
    h_alive (d_h s i) = true ->
    n_name (d_disk s) = i /\ n_ts (d_disk s) <> 0 /\
    forall j o, In j (c_hosts c) -> j <> i -> h_op (d_h s j) = Some o -> i_eff o = None -> i_w o = None.
Proof.
  intros c r t s i O R H Ii A. pose proof (reach_inv c r t s O R H) as I.
  destruct (I_H1 _ _ I i Ii A) as (N0 & T0 & _). split; [auto|]. split; [auto|].
  intros j o Ij Nj Eo Ee. destruct (I_H2 _ _ I i j Ii Ij (not_eq_sym Nj) A) as (P & _).
  unfold pend in P. rewrite Eo in P. destruct o as [t0 [w|] re e]; auto. cbn in Ee. subst e. discriminate P.
Qed.

(* Concurrent joins: as long as nobody can have been silent for the dead time, at
   most one host is past its join, whatever the number of contenders, the times at
   which they start and the delays of their operations. *)
Theorem C17_concurrent_joins_partial :
  forall c r t s, cfg_ok c -> rec_ok c r -> dreach c r t s ->
    (forall i, In i (c_hosts c) -> d_now s < t + 8 * c_io c i + c_fire c) ->
    forall i j, In i (c_hosts c) -> In j (c_hosts c) -> has_joined s i -> has_joined s j -> i = j.
Proof.
  intros c r t s O R H Short i j Ii Ij Ji Jj.
  assert (X : forall k, In k (c_hosts c) -> has_joined s k -> h_held (d_h s k) = true /\ h_alive (d_h s k) = true).
  { intros k Ik Jk. destruct (reach_ginv c r t s H) as [_ G]. destruct (G k) as (G1 & _ & _ & G4 & _).
    unfold has_joined in Jk. unfold joined in G1.
    assert (Hh : h_held (d_h s k) = true) by (destruct (h_k (d_h s k)); try contradiction; eapply G1; reflexivity).
    split; [auto|]. destruct (G4 Hh) as [A|A]; auto. exfalso. specialize (Short k Ik). unfold DD in A.
    rewrite delay_eq in A. lia. }
  destruct (X i Ii Ji), (X j Ij Jj). eapply (C17_one_holder_partial c r t s); eauto.
Qed.

(* ---- refutation of the full claim ----
   Host 1 uses I/O timeout 10, host 2 I/O timeout 30.  The lease is free and was
   last used with 10.  Host 2 reads it, the read returns after 25 seconds (less than
   its 30).  Meanwhile host 1 joins: writes, waits 2 * 10 seconds, checks.  Then
   host 2 writes, waits 2 * 10 seconds (the value on disk when it read), checks, and
   joins as well. *)
Definition two (io1 io2 : N) : cfg :=
  mkCfg [1; 2] (fun i => if i =? 1 then io1 else io2) 60 (fun i => if i =? 1 then io1 else io2).
Definition ticks (n : nat) : list ev := repeat ETick n.
Definition op (i : N) : list ev := [EEff i; ERet i].
Definition race : list ev :=
  [EStart 2; EEff 2; EStart 1] ++ op 1 ++ op 1 ++ ticks 20 ++ [EWake 1] ++ op 1 ++
  ticks 5 ++ [ERet 2] ++ op 2 ++ ticks 20 ++ [EWake 2] ++ op 2.

(* evaluate an observation of the final state only *)
Lemma obs_run {A} (f : dst -> A) c s0 l v :
  option_map f (drun c s0 l) = Some v -> exists s, drun c s0 l = Some s /\ f s = v.
Proof. destruct (drun c s0 l) as [s|]; cbn; intros H; [|discriminate H]. injection H as <-. eauto. Qed.

Theorem C17_refuted : ~ C17_statement.
Proof.
  intros H.
  assert (W : within_own_timeout (two 10 30)).
  { split; [cbn; lia|]. intros i [<-|[<-|[]]]; cbn; lia. }
  assert (exists s, drun (two 10 30) (dinit (mkRc 0 4 0 10) 1000) race = Some s /\
          h_held (d_h s 1) = true /\ h_alive (d_h s 1) = true /\
          h_held (d_h s 2) = true /\ h_alive (d_h s 2) = true) as (s & E & A1 & A2 & A3 & A4).
  { pose (f := fun s => (h_held (d_h s 1), h_alive (d_h s 1), h_held (d_h s 2), h_alive (d_h s 2))).
    destruct (obs_run f (two 10 30) (dinit (mkRc 0 4 0 10) 1000) race (true, true, true, true)) as (s & E & F).
    - vm_compute. reflexivity.
    - exists s. unfold f in F. injection F as F1 F2 F3 F4. auto. }
  assert (R : dreach (two 10 30) (mkRc 0 4 0 10) 1000 s).
  { eapply drun_reach; [apply dreach_init|exact E]. }
  assert (1 = 2).
  { eapply (H _ (mkRc 0 4 0 10) _ _ W eq_refl R); cbn; auto. }
  discriminate.
Qed.

(* ---- the hypotheses of the partial theorems can be met ----
   Both hosts use 10.  The same interleaving is not possible (the slow read is over
   before host 1 has finished); with the slow read at 9 seconds host 1's check
   fails; host 2 joins, renews, crashes, and host 1 takes over after the dead time. *)
Definition race2 : list ev :=
  [EStart 2; EEff 2; EStart 1] ++ op 1 ++ op 1 ++ ticks 9 ++ [ERet 2] ++ op 2 ++ ticks 11 ++ [EWake 1] ++ op 1 ++
  ticks 9 ++ [EWake 2] ++ op 2 ++ ticks 20 ++ [ERenew 2] ++ op 2 ++ op 2.
Definition takeover : list ev :=
  [ECrash 2; EStart 1] ++ op 1 ++ ticks 140 ++ [EWake 1] ++ op 1 ++ op 1 ++ ticks 20 ++ [EWake 1] ++ op 1.

Example C17_nonvacuous :
  cfg_ok (two 10 10) /\ rec_ok (two 10 10) (mkRc 0 4 0 10) /\
  option_map d_now (drun (two 10 10) (dinit (mkRc 0 4 0 10) 1000) race) = None /\
  (exists s, drun (two 10 10) (dinit (mkRc 0 4 0 10) 1000) race2 = Some s /\
     h_k (d_h s 1) = KOff /\ has_joined s 2 /\ h_alive (d_h s 2) = true /\ d_now s = 1049 /\ d_succ s = [(2, 5)]) /\
  (exists s, drun (two 10 10) (dinit (mkRc 0 4 0 10) 1000) (race2 ++ takeover) = Some s /\
     has_joined s 1 /\ h_alive (d_h s 1) = true /\ h_held (d_h s 2) = true /\ h_alive (d_h s 2) = false /\
     d_succ s = [(1, 6); (2, 5)]).
Proof.
  split; [split; [reflexivity|cbn; lia|intros i [<-|[<-|[]]]; cbn; vm_compute; split; congruence]|].
  split; [split; [reflexivity|right; vm_compute; congruence]|]. split; [vm_compute; reflexivity|]. split.
  - pose (f := fun s => (h_k (d_h s 1), match h_k (d_h s 2) with KOwn _ _ => true | _ => false end,
                         h_alive (d_h s 2), d_now s, d_succ s)).
    destruct (obs_run f (two 10 10) (dinit (mkRc 0 4 0 10) 1000) race2 (KOff, true, true, 1049, [(2, 5)])) as (s & E & F).
    + vm_compute. reflexivity.
    + exists s. unfold f in F. injection F as F1 F2 F3 F4 F5. unfold has_joined.
      destruct (h_k (d_h s 2)); try discriminate F2. repeat (split; [assumption || exact Logic.I|]). assumption.
  - pose (f := fun s => (match h_k (d_h s 1) with KOwn _ _ => true | _ => false end,
                         h_alive (d_h s 1), h_held (d_h s 2), h_alive (d_h s 2), d_succ s)).
    destruct (obs_run f (two 10 10) (dinit (mkRc 0 4 0 10) 1000) (race2 ++ takeover)
               (true, true, true, false, [(1, 6); (2, 5)])) as (s & E & F).
    + vm_compute. reflexivity.
    + exists s. unfold f in F. injection F as F1 F2 F3 F4 F5. unfold has_joined.
      destruct (h_k (d_h s 1)); try discriminate F1. repeat (split; [assumption || exact Logic.I|]). assumption.
Qed.

Print Assumptions C17_one_holder_partial.
Print Assumptions C17_holder_on_disk_partial.
Print Assumptions C17_concurrent_joins_partial.
Print Assumptions C17_refuted.
