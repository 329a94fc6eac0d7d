(* C11: an exclusive lease has at most one live holder.

   One lease on one disk, any number of hosts (LeaseSys.v).  False for the code
   as it stands: three runs below end with two live hosts that each completed an
   exclusive acquire and have not released.  Proved when the discipline
   LeaseProof.bdisc is kept, i.e. in every run in which
   - a leader record is not replaced by one with a smaller version (a host that
     was delayed between deciding and writing, or between reading and freeing
     the record, does not write any more),
   - a decided owner record with this host's id has this host's generation,
   - a host that finds itself recorded as owner has completed phase 1 of a ballot
     for that version in the same acquire,
   - a ballot block is replaced by an older or empty one only when no host is
     competing for its version any more. *)
From Coq Require Import List NArith ZArith Lia Bool Arith.
From Verif Require Import Majority Mbal Ballot BallotProof LeaseSys LeaseProof LeaseProof2 LeaseProof3 LeaseRuns.
Import ListNotations.
Open Scope N_scope.

(* ---- specification ---- *)
(* joined, acquired exclusively, not released, no release or conversion begun *)
Definition has_exclusive (s : bst) (h : N) : Prop := exists lead, b_pc s h = Hold lead.
Definition one_holder (s : bst) : Prop := forall x y, has_exclusive s x -> has_exclusive s y -> x = y.

Definition C11_statement : Prop :=
  forall nh mh s, nh <= mh -> breach (cfg1 nh mh) any s -> one_holder s.

Lemma refute nh mh tr x y :
  nh <= mh -> x <> y ->
  match brun (cfg1 nh mh) binit tr with
  | Some s => holds_ex s x = true /\ holds_ex s y = true
  | None => False
  end -> ~ C11_statement.
Proof.
  intros HM N H ST. destruct (brun (cfg1 nh mh) binit tr) as [s|] eqn:E; [|contradiction].
  pose proof (brun_reach _ _ _ _ (breach_init _ any) E) as R. apply (ST nh mh s HM) in R.
  assert (X : forall h, holds_ex s h = true -> has_exclusive s h).
  { intros h X. unfold holds_ex in X. unfold has_exclusive. destruct (b_pc s h); try discriminate. eauto. }
  destruct H as (H1 & H2). apply N. apply R; auto.
Qed.

(* no crash and no I/O error: one delayed leader write *)
Theorem C11_refuted : ~ C11_statement.
Proof. apply (refute 4 4 tr_stale 3 4); vm_compute; [discriminate|discriminate|auto]. Qed.

(* no delayed write: missing generation comparison (paxos_lease.c:2157) *)
Theorem C11_generation_refuted : ~ C11_statement.
Proof. apply (refute 3 3 (tr_gen false) 1 3); vm_compute; [discriminate|discriminate|auto]. Qed.

(* neither: a failing shared acquire clears its block (resource.c:1831-1868) *)
Theorem C11_block_cleared_refuted : ~ C11_statement.
Proof. apply (refute 4 4 tr_failsh 1 3); vm_compute; [discriminate|discriminate|auto]. Qed.

(* missing: more than one disk; the discipline has to be assumed *)
Theorem C11_one_holder_partial : forall nh mh s, nh <= mh ->
  breach (cfg1 nh mh) bdisc s -> one_holder s.
Proof.
  intros nh mh s HM R x y (lx & X) (ly & Y).
  apply (binv_ex (cfg1 nh mh) s); [apply breach_binv; auto| |]; unfold holds_ex; [rewrite X|rewrite Y]; reflexivity.
Qed.

(* the lease record of a holder: it is the recorded owner of its version, and if
   it was also the last writer the record on disk is the one it got *)
Theorem C11_holder_is_recorded_partial : forall nh mh s h lead, nh <= mh ->
  breach (cfg1 nh mh) bdisc s -> b_pc s h = Hold lead ->
  l_owner lead = h /\ l_gen lead = b_gen s h /\ l_lver lead <= l_lver (b_ldr s) /\
  (l_writer (b_ldr s) = h -> b_ldr s = lead).
Proof.
  intros nh mh s h lead HM R E.
  pose proof (g_pc _ _ (breach_binv (cfg1 nh mh) s eq_refl HM R) h) as P. rewrite E in P. cbn [PI] in P.
  destruct P as (_ & (A1 & A2 & A3 & A4 & A5 & A6 & A7 & A8) & _). auto.
Qed.

(* a disciplined run: acquired by 1, released, shared by 2 and 3, refused to 4,
   then acquired by 4; after 4's crash acquired by 1 *)
Example C11_nonvacuous :
  (exists s, breach c4 bdisc s /\ has_exclusive s 4 /\ l_lver (b_ldr s) = 5) /\
  (exists s, breach c4 bdisc s /\ has_exclusive s 1 /\ l_lver (b_ldr s) = 6).
Proof.
  split.
  - destruct (brund c4 binit tr_good3) as [s|] eqn:E; [|vm_compute in E; discriminate].
    exists s. split; [eapply brund_reach; [apply breach_init|exact E]|].
    vm_compute in E. injection E as <-. split; [eexists|]; vm_compute; reflexivity.
  - destruct (brund c4 binit tr_good4) as [s|] eqn:E; [|vm_compute in E; discriminate].
    exists s. split; [eapply brund_reach; [apply breach_init|exact E]|].
    vm_compute in E. injection E as <-. split; [eexists|]; vm_compute; reflexivity.
Qed.

Print Assumptions C11_one_holder_partial.
Print Assumptions C11_holder_is_recorded_partial.
Print Assumptions C11_refuted.
Print Assumptions C11_generation_refuted.
Print Assumptions C11_block_cleared_refuted.
