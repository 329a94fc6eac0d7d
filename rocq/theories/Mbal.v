(* Choice of ballot numbers.
   src/paxos_lease.c:1327-1438 (_lease_read_one), 1442-1537 (_lease_read_num),
   2003-2010 and 2106 (paxos_lease_acquire).
   uint64_t arithmetic is modelled without wrap-around: a ballot number grows
   by at most 2 * max_hosts per attempt. *)
From Coq Require Import List NArith ZArith Lia Bool ZifyBool ZifyN.
Import ListNotations.
Open Scope N_scope.

(* loop of _lease_read_one, lines 1379-1421: blocks in host order, each with
   the result of verify_dblock; None = error return *)
Fixpoint max_mbal_loop (tmp : N) (blocks : list (N * bool)) : option N :=
  match blocks with
  | [] => Some tmp
  | (mbal, ok) :: r =>
      if ok then
        max_mbal_loop (if (tmp =? 0) || (tmp <? mbal) then mbal else tmp) r
      else None
  end.
Definition max_mbal_one (blocks : list (N * bool)) : option N := max_mbal_loop 0 blocks.

(* _lease_read_num lines 1480-1495: max over the disks that could be read *)
Fixpoint max_mbal_num (tmp : N) (disks : list (list (N * bool))) : N :=
  match disks with
  | [] => tmp
  | d :: r =>
      match max_mbal_one d with
      | None => max_mbal_num tmp r
      | Some m => max_mbal_num (if (tmp =? 0) || (tmp <? m) then m else tmp) r
      end
  end.

(* paxos_lease_acquire lines 2005-2010 *)
Definition first_mbal (max_mbal max_hosts host_id : N) : N :=
  if max_mbal =? 0 then host_id
  else (max_mbal - max_mbal mod max_hosts) + max_hosts + host_id.

(* lines 2106-2107: our_mbal += cur_leader.max_hosts per retry *)
Definition nth_mbal (max_mbal max_hosts host_id : N) (retry : nat) : N :=
  first_mbal max_mbal max_hosts host_id + N.of_nat retry * max_hosts.

Lemma max_loop_ge tmp blocks m :
  max_mbal_loop tmp blocks = Some m ->
  tmp <= m /\ (forall b ok, In (b, ok) blocks -> b <= m /\ ok = true).
Proof.
  revert tmp. induction blocks as [|(b, ok) r IH]; cbn [max_mbal_loop]; intros tmp H.
  - injection H as ->. split; [lia|]. intros ? ? [].
  - destruct ok; [|discriminate].
    apply IH in H. destruct H as [H1 H2].
    destruct ((tmp =? 0) || (tmp <? b)) eqn:E.
    + split; [lia|]. intros b' ok' [X|X]; [injection X as <- <-; auto | apply H2; auto].
    + split; [lia|]. intros b' ok' [X|X]; [injection X as <- <-; split; auto; lia | apply H2; auto].
Qed.

Lemma max_num_ge tmp disks :
  tmp <= max_mbal_num tmp disks /\
  forall d m, In d disks -> max_mbal_one d = Some m -> m <= max_mbal_num tmp disks.
Proof.
  revert tmp. induction disks as [|d r IH]; cbn [max_mbal_num]; intros tmp.
  - split; [lia|]. intros ? ? [].
  - destruct (max_mbal_one d) eqn:E.
    + destruct (IH (if (tmp =? 0) || (tmp <? n) then n else tmp)) as [H1 H2].
      destruct ((tmp =? 0) || (tmp <? n)) eqn:F; (split; [lia|]);
        intros d' m [<-|X] Hm; try (apply H2 with d'; auto).
      * rewrite E in Hm. injection Hm as <-. auto.
      * rewrite E in Hm. injection Hm as <-. lia.
    + destruct (IH tmp) as [H1 H2]. split; auto.
      intros d' m [<-|X] Hm; [congruence | apply H2 with d'; auto].
Qed.

Lemma first_mbal_gt max mh h : 0 < h -> 0 < mh -> max < first_mbal max mh h.
Proof.
  intros Hh Hm. unfold first_mbal. destruct (max =? 0) eqn:E; [lia|].
  pose proof (N.mod_lt max mh ltac:(lia)).
  pose proof (N.mod_le max mh ltac:(lia)). lia.
Qed.

Lemma nth_mbal_mod max mh h k : 0 < mh -> nth_mbal max mh h k mod mh = h mod mh.
Proof.
  intros Hm. unfold nth_mbal, first_mbal.
  rewrite N.mod_add by lia.
  destruct (max =? 0); auto.
  pose proof (N.div_mod max mh ltac:(lia)) as D.
  assert (E : max - max mod mh + mh + h = h + (max / mh + 1) * mh).
  { set (q := max / mh) in *. set (r := max mod mh) in *. rewrite D at 1. lia. }
  rewrite E. apply N.mod_add. lia.
Qed.
