(* Executable runs of the lease system of LeaseSys.v: building blocks for
   witnesses, and a checked run that respects the discipline of LeaseProof.v. *)
From Coq Require Import List NArith ZArith Lia Bool ZifyBool ZifyN ZifyNat Arith.
From Verif Require Import Majority Mbal Ballot BallotProof LeaseSys LeaseProof.
Import ListNotations.
Open Scope N_scope.

(* the reads of one phase; a whole phase; a whole ballot; the start of an acquire *)
Definition rds (c : cfg) (h : N) : list bact := map (fun _ => BRead h) (hosts c).
Definition ph (c : cfg) (h : N) : list bact := rds c h ++ [BPhase h 1].
Definition ball (c : cfg) (h : N) : list bact := [BRetry h] ++ ph c h ++ ph c h.
Definition start (h : N) (sh : bool) : list bact := [BAcquire h sh; BReadLdr h; BDecide h].

Definition any (s : bst) (a : bact) : Prop := True.

Lemma brun_reach c l : forall s s', breach c any s -> brun c s l = Some s' -> breach c any s'.
Proof.
  induction l as [|a r IH]; cbn [brun]; intros s s' R H.
  - injection H as <-. exact R.
  - destruct (bstep c s a) as [s1|] eqn:E; [|discriminate].
    apply (IH s1 s'); auto. eapply breach_step; eauto. exact I.
Qed.

(* a sufficient computable test for the discipline *)
Definition bdiscb (s : bst) (a : bact) : bool :=
  match a with
  | BCommit h _ =>
      match s_loc (b_a s) h with
      | Dec x _ => (L s <=? d_lver x) && (negb (d_inp x =? h) || (d_inp2 x =? b_gen s h))
      | _ => true
      end
  | BComErr h _ _ =>
      match s_loc (b_a s) h with Dec x _ => L s <=? d_lver x | _ => true end
  | BRelWrite h _ => match b_pc s h with RelW _ l => L s <=? l_lver l | _ => true end
  | BRetry h =>
      match b_pc s h with
      | Run _ _ _ _ ADone => true
      | Run _ cur _ _ _ =>
          negb ((L s =? l_lver cur + 1) && (l_owner (b_ldr s) =? h) && (l_gen (b_ldr s) =? b_gen s h))
      | _ => true
      end
  | BRelease h =>
      match b_pc s h with HoldSh _ => same_blk (s_saved (b_a s) h) (s_last (b_a s) h) | _ => true end
  | BFailSh h | BErase h => same_blk (s_saved (b_a s) h) (s_last (b_a s) h)
  | BChk h => match b_pc s h with Chk _ _ _ _ (Some _) => false | _ => true end
  | _ => true
  end.

Lemma bdiscb_ok s a : bdiscb s a = true -> bdisc s a.
Proof.
  destruct a; cbn [bdiscb bdisc]; auto; intros H.
  - intros m cur mbal copy a E. rewrite E in H. intros NA E1 E2 E3.
    destruct a; try congruence; lia.
  - intros m cur x w E1 E2. rewrite E2 in H. lia.
  - intros m cur x w E1 E2. rewrite E2 in H. lia.
  - destruct (b_pc s h); auto. destruct er; [discriminate|exact I].
  - destruct (b_pc s h); auto. left; exact H.
  - intros k l E. rewrite E in H. lia.
  - left; exact H.
  - left; exact H.
Qed.

Fixpoint brund (c : cfg) (s : bst) (l : list bact) : option bst :=
  match l with
  | [] => Some s
  | a :: r =>
      if bdiscb s a then match bstep c s a with Some s' => brund c s' r | None => None end else None
  end.

Lemma brund_reach c l : forall s s', breach c bdisc s -> brund c s l = Some s' -> breach c bdisc s'.
Proof.
  induction l as [|a r IH]; cbn [brund]; intros s s' R H.
  - injection H as <-. exact R.
  - destruct (bdiscb s a) eqn:D; [|discriminate].
    destruct (bstep c s a) as [s1|] eqn:E; [|discriminate].
    apply (IH s1 s'); auto. eapply breach_step; eauto. apply bdiscb_ok. exact D.
Qed.

Definition c3 : cfg := cfg1 3 3.
Definition c4 : cfg := cfg1 4 4.

(* 1: no crash, no error.  Host 1 and host 2 compete for version 1; host 2
   decides and is then slow to write the leader record (owner: host 1).  Host 1
   finds itself owner, releases; hosts 3 and 4 compete for version 2, which goes
   to host 3.  Now host 2's leader write of version 1 arrives.  Host 4 reads
   version 1 owned by host 1 in an earlier acquire ... and gets version 2 again. *)
Definition tr_stale : list bact :=
  map BJoin [1;2;3;4]
  ++ start 1 false ++ [BRetry 1] ++ ph c4 1
  ++ start 2 false ++ [BRetry 2] ++ ph c4 2 ++ ph c4 2
  ++ ph c4 1 ++ [BRetry 1] ++ ph c4 1 ++ ball c4 1
  ++ [BCommit 1 1; BOwn 1; BRelease 1; BRelRead 1; BRelWrite 1 2]
  ++ start 3 false ++ [BRetry 3] ++ ph c4 3
  ++ start 4 false ++ [BRetry 4] ++ ph c4 4
  ++ ph c4 3 ++ [BRetry 3] ++ ph c4 4 ++ [BCommit 4 3] ++ ph c4 3 ++ [BRetry 3; BOwn 3]
  ++ [BCommit 2 4]
  ++ start 4 false ++ ball c4 4 ++ [BCommit 4 5; BOwn 4].

(* 2: host 1 proposes itself, crashes, joins again with a new generation and
   decides the old proposal: paxos_lease.c:2157 compares only the host id. *)
Definition tr_gen (sh3 : bool) : list bact :=
  [BJoin 1; BJoin 2; BJoin 3] ++ start 1 false ++ [BRetry 1] ++ ph c3 1
  ++ start 2 false ++ [BRetry 2] ++ ph c3 2 ++ [BCrash 1; BJoin 1]
  ++ start 1 false ++ ball c3 1 ++ [BCommit 1 5; BOwn 1]
  ++ start 3 sh3 ++ ball c3 3 ++ [BCommit 3 6; BOwn 3].

(* 3: a shared acquire that fails rewrites its block with zeroes although other
   hosts still compete for the same version. *)
Definition tr_failsh : list bact :=
  map BJoin [1;2;3;4]
  ++ start 4 false ++ start 1 false ++ start 2 true
  ++ [BRetry 1] ++ ph c4 1 ++ [BRetry 4]
  ++ [BRetry 2] ++ ph c4 2 ++ [BRetry 2] ++ ph c4 2
  ++ ph c4 1 ++ [BRetry 1]
  ++ start 3 false
  ++ ph c4 2 ++ rds c4 1 ++ [BCommit 2 1; BPhase 1 1; BRetry 1; BOwn 1; BFailSh 2]
  ++ ball c4 3 ++ [BCommit 3 1; BOwn 3].

(* disciplined: host 1 gets the lease exclusively and releases it; hosts 2 and 3
   get it shared; host 4 fails to get it exclusively; both shared holders
   release; host 4 gets it; takeover after a crash by host 1. *)
Definition rel (h : N) : list bact := [BRelease h; BRelRead h; BRelWrite h 2].
Definition acq_sh (h : N) : list bact :=
  start h true ++ ball c4 h ++ [BCommit h 1; BOwn h; BRelRead h; BRelWrite h 2].
Definition tr_good1 : list bact :=
  map BJoin [1;2;3;4] ++ start 1 false ++ ball c4 1 ++ [BCommit 1 1; BOwn 1].
Definition tr_good2 : list bact :=
  tr_good1 ++ rel 1 ++ acq_sh 2 ++ acq_sh 3.
Definition tr_good3 : list bact :=
  tr_good2 ++ start 4 false ++ ball c4 4 ++ [BCommit 4 1; BOwn 4; BChk 4; BChk 4; BChk 4; BRelRead 4; BRelWrite 4 2]
  ++ [BRelease 2; BRelease 3]
  ++ start 4 false ++ ball c4 4 ++ [BCommit 4 1; BOwn 4].
Definition tr_good4 : list bact :=
  tr_good3 ++ [BCrash 4] ++ start 1 false ++ ball c4 1 ++ [BCommit 1 1; BOwn 1].
