(* C09: all hosts that record an owner for the same lease version record the
   same owner.

   The protocol is run_ballot of src/paxos_lease.c together with the code that
   decides when to call it and when to rewrite a host's ballot block
   (LeaseSys.v; Ballot.v for any number of disks).  As the code stands the claim
   is false; it holds when (Ballot.disciplined / LeaseProof.bdisc)
   - no host writes a leader record with a smaller version than the one on disk,
   - a host does not overwrite its ballot block by an older or empty one while
     others compete for the same version. *)
From Coq Require Import List NArith ZArith Lia Bool Arith.
From Verif Require Import Majority Mbal Ballot BallotProof LeaseSys LeaseProof LeaseProof2 LeaseProof3 LeaseRuns.
Import ListNotations.
Open Scope N_scope.

(* ---- specification ---- *)
Definition owner_of (r : rcd) : N * N := fst (r_val r).     (* host id, generation *)
Definition one_owner (l : list rcd) : Prop :=
  forall r1 r2, In r1 l -> In r2 l -> r_lver r1 = r_lver r2 -> owner_of r1 = owner_of r2.

(* full statement, whatever the hosts do *)
Definition C09_statement : Prop :=
  forall nh mh s, nh <= mh -> breach (cfg1 nh mh) any s -> one_owner (s_recs (b_a s)).

(* owners recorded for one version, in a state *)
Definition owners_at (V : N) (s : bst) : list (N * N) :=
  map owner_of (filter (fun r => r_lver r =? V) (s_recs (b_a s))).

Lemma refute nh mh tr V o1 o2 :
  nh <= mh ->
  match brun (cfg1 nh mh) binit tr with
  | Some s => exists l, owners_at V s = o1 :: l /\ In o2 l
  | None => False
  end -> o1 <> o2 -> ~ C09_statement.
Proof.
  intros HM H N ST. destruct (brun (cfg1 nh mh) binit tr) as [s|] eqn:E; [|contradiction].
  pose proof (brun_reach _ _ _ _ (breach_init _ any) E) as R. apply (ST nh mh s HM) in R.
  destruct H as (l & E1 & E2).
  assert (X : forall o, In o (owners_at V s) -> exists r, In r (s_recs (b_a s)) /\ r_lver r = V /\ owner_of r = o).
  { intros o Ho. unfold owners_at in Ho. apply in_map_iff in Ho. destruct Ho as (r & <- & Ho).
    apply filter_In in Ho. destruct Ho as (A1 & A2). apply N.eqb_eq in A2. eauto. }
  destruct (X o1) as (r1 & A1 & A2 & A3); [rewrite E1; left; auto|].
  destruct (X o2) as (r2 & B1 & B2 & B3); [rewrite E1; right; auto|].
  apply N. rewrite <- A3, <- B3. apply R; congruence.
Qed.

(* without any crash or I/O error: a delayed write of the leader record *)
Theorem C09_refuted : ~ C09_statement.
Proof.
  apply (refute 4 4 tr_stale 2 (4, 1) (3, 1)); [vm_compute; discriminate| |discriminate].
  vm_compute. eexists. split; [reflexivity|]. intuition.
Qed.

(* without a delayed leader write: a failing shared acquire clears its block *)
Theorem C09_block_cleared_refuted : ~ C09_statement.
Proof.
  apply (refute 4 4 tr_failsh 1 (3, 1) (1, 1)); [vm_compute; discriminate| |discriminate].
  vm_compute. eexists. split; [reflexivity|]. intuition.
Qed.

(* any number of disks and hosts; missing: the discipline has to be assumed *)
Theorem C09_one_owner_partial : forall c s,
  reach c disciplined s -> one_owner (s_recs s).
Proof.
  intros c s R r1 r2 H1 H2 E. unfold owner_of. f_equal. eapply agreement; eauto.
Qed.

(* the whole lease code on one disk: competing, retrying, taking over, sharing,
   converting, releasing, crashing; missing: more disks, and the discipline has
   to be assumed *)
Theorem C09_lease_partial : forall nh mh s, nh <= mh ->
  breach (cfg1 nh mh) bdisc s -> one_owner (s_recs (b_a s)).
Proof.
  intros nh mh s HM R r1 r2 H1 H2 E. unfold owner_of. f_equal.
  apply (agree_inv (cfg1 nh mh) (b_a s)); auto. apply (breach_binv (cfg1 nh mh) s); auto.
Qed.

(* ---- the hypotheses can be met ---- *)
(* three disks, two hosts: host 1 proposes on disks 0 and 1 and stops; host 2
   finds the proposal on disk 1 and records host 1 *)
Definition run3 : list act :=
  [AStart 1 1 1 7; AWrite 1 0 true 0; AWrite 1 1 true 0; AWdone 1;
   ARead 1 0 1; ARead 1 0 2; ARead 1 1 1; ARead 1 1 2; ARdone 1 5;
   AWrite 1 0 true 0; AWrite 1 1 true 0; AWdone 1;
   AStart 2 1 4 9; AWrite 2 1 true 0; AWrite 2 2 true 0; AWdone 2;
   ARead 2 1 1; ARead 2 1 2; ARead 2 2 1; ARead 2 2 2; ARdone 2 6;
   AWrite 2 1 true 0; AWrite 2 2 true 0; AWdone 2;
   ARead 2 1 1; ARead 2 1 2; ARead 2 2 1; ARead 2 2 2; ARdone 2 6; ARec 2].

Definition dcheck (s : st) (a : act) : bool :=
  match a with
  | AStart h lver mbal _ =>
      ((d_lver (s_last s h) <? lver) || ((d_lver (s_last s h) =? lver) && (d_mbal (s_last s h) <? mbal)))
      && forallb (fun r => negb (r_host r =? h) || (r_lver r <? lver)) (s_recs s) && (s_floor s <? lver)
  | ARelw _ _ _ _ | AZero _ _ => false
  | _ => true
  end.
Fixpoint run (c : cfg) (s : st) (l : list act) : option st :=
  match l with
  | [] => Some s
  | a :: r => if dcheck s a then match step c s a with Some s' => run c s' r | None => None end else None
  end.
Lemma run_reach c l : forall s s', reach c disciplined s -> run c s l = Some s' -> reach c disciplined s'.
Proof.
  induction l as [|a r IH]; cbn [run]; intros s s' R H.
  - injection H as <-. exact R.
  - destruct (dcheck s a) eqn:D; [|discriminate].
    destruct (step c s a) as [s1|] eqn:E; [|discriminate].
    apply (IH s1 s'); auto. eapply reach_step; eauto. clear - D.
    destruct a; cbn in *; auto; try discriminate.
    apply andb_prop in D. destruct D as [D D3]. apply andb_prop in D. destruct D as [D1 D2].
    split; [|split].
    + unfold lt2. cbn. lia.
    + intros r0 H1 H2. rewrite forallb_forall in D2. specialize (D2 r0 H1). lia.
    + lia.
Qed.

Example C09_nonvacuous :
  (exists s, reach (mkC 3 2 2) disciplined s /\
     map (fun r => (r_host r, r_lver r, owner_of r)) (s_recs s) = [(2, 1, (1, 7))]) /\
  (exists s, breach c4 bdisc s /\
     map (fun r => (r_host r, r_lver r, owner_of r)) (s_recs (b_a s))
     = [(1, 6, (1, 1)); (4, 5, (4, 1)); (4, 4, (4, 1)); (3, 3, (3, 1)); (2, 2, (2, 1)); (1, 1, (1, 1))]).
Proof.
  split.
  - destruct (run (mkC 3 2 2) init run3) as [s|] eqn:E.
    + exists s. split; [eapply run_reach; [apply reach_init|exact E]|].
      vm_compute in E. injection E as <-. vm_compute. reflexivity.
    + vm_compute in E. discriminate.
  - destruct (brund c4 binit tr_good4) as [s|] eqn:E.
    + exists s. split; [eapply brund_reach; [apply breach_init|exact E]|].
      vm_compute in E. injection E as <-. vm_compute. reflexivity.
    + vm_compute in E. discriminate.
Qed.

Print Assumptions C09_one_owner_partial.
Print Assumptions C09_lease_partial.
Print Assumptions C09_refuted.
Print Assumptions C09_block_cleared_refuted.
