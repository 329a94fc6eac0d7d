(* C29: shared and exclusive modes exclude each other across hosts.
   Model and discipline as for C11. *)
From Coq Require Import List NArith ZArith Lia Bool Arith.
From Verif Require Import Majority Mbal Ballot BallotProof LeaseSys LeaseProof LeaseProof2 LeaseProof3 LeaseRuns C11.
Import ListNotations.
Open Scope N_scope.

(* ---- specification ---- *)
(* joined, acquired in shared mode, not released; a host whose conversion to
   exclusive is in progress still has the shared lease *)
Definition has_shared (s : bst) (h : N) : Prop :=
  (exists v, b_pc s h = HoldSh v) \/
  (exists v, b_pc s h = Acq (MCv v)) \/
  (exists v cur mx, b_pc s h = Got (MCv v) cur mx) \/
  (exists v cur mb cp a, b_pc s h = Run (MCv v) cur mb cp a) \/
  (exists v cur mb a, b_pc s h = Bal (MCv v) cur mb a).

Definition sh_ex_excluded (s : bst) : Prop :=
  forall x y, has_exclusive s x -> has_shared s y -> False.

Definition C29_statement : Prop :=
  forall nh mh s, nh <= mh -> breach (cfg1 nh mh) any s -> sh_ex_excluded s.

(* host 1 has it exclusively (record with its old generation), host 3 shared *)
Theorem C29_refuted : ~ C29_statement.
Proof.
  intros ST.
  destruct (brun (cfg1 3 3) binit (tr_gen true ++ [BRelRead 3; BRelWrite 3 9])) as [s|] eqn:E; [|vm_compute in E; discriminate].
  pose proof (brun_reach _ _ _ _ (breach_init _ any) E) as R.
  apply (ST 3 3 s) in R; [|lia].
  apply (R 1 3).
  - vm_compute in E. injection E as <-. eexists. vm_compute. reflexivity.
  - vm_compute in E. injection E as <-. left. eexists. vm_compute. reflexivity.
Qed.

(* missing: more than one disk; the discipline has to be assumed *)
Theorem C29_sh_ex_excluded_partial : forall nh mh s, nh <= mh ->
  breach (cfg1 nh mh) bdisc s -> sh_ex_excluded s.
Proof.
  intros nh mh s HM R x y (lx & X) HY.
  apply (binv_sh (cfg1 nh mh) s x y); [apply breach_binv; auto| |].
  - unfold holds_ex. now rewrite X.
  - unfold holds_sh.
    destruct HY as [(v & ->)|[(v & ->)|[(v & a1 & a2 & ->)|[(v & a1 & a2 & a3 & a4 & ->)|(v & a1 & a2 & a3 & ->)]]]];
      reflexivity.
Qed.

(* two hosts share at the same time; a third is refused; when they have released
   it gets the lease *)
Example C29_nonvacuous :
  (exists s, breach c4 bdisc s /\ has_shared s 2 /\ has_shared s 3) /\
  (exists s, breach c4 bdisc s /\ has_exclusive s 4).
Proof.
  split.
  - destruct (brund c4 binit tr_good2) as [s|] eqn:E; [|vm_compute in E; discriminate].
    exists s. split; [eapply brund_reach; [apply breach_init|exact E]|].
    vm_compute in E. injection E as <-. split; left; eexists; vm_compute; reflexivity.
  - destruct (brund c4 binit tr_good3) as [s|] eqn:E; [|vm_compute in E; discriminate].
    exists s. split; [eapply brund_reach; [apply breach_init|exact E]|].
    vm_compute in E. injection E as <-. eexists; vm_compute; reflexivity.
Qed.

Print Assumptions C29_sh_ex_excluded_partial.
Print Assumptions C29_refuted.
