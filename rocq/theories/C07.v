(* C07: ballot numbers are unique per host and always increase. *)
From Coq Require Import List NArith ZArith Lia Bool ZifyBool ZifyN.
From Verif Require Import Mbal.
Import ListNotations.
Open Scope N_scope.

(* Two hosts with different ids (both at most the lease's max_hosts) never use
   the same ballot number, whatever each saw on disk and however often each
   retried. *)
Theorem C07_unique :
  forall mh h h' seen seen' k k',
    1 <= h <= mh -> 1 <= h' <= mh -> h <> h' ->
    nth_mbal seen mh h k <> nth_mbal seen' mh h' k'.
Proof.
  intros mh h h' seen seen' k k' H H' Hne E.
  apply (f_equal (fun x => x mod mh)) in E.
  rewrite !nth_mbal_mod in E by lia.
  destruct (N.eq_dec h mh), (N.eq_dec h' mh); subst.
  - contradiction.
  - rewrite N.mod_same, N.mod_small in E by lia. lia.
  - rewrite N.mod_same in E by lia. rewrite N.mod_small in E by lia. lia.
  - rewrite !N.mod_small in E by lia. contradiction.
Qed.

(* The first ballot number is larger than every ballot number read from any
   disk, of any lease version, including the caller's own earlier ones. *)
Theorem C07_larger_than_seen :
  forall mh h disks,
    1 <= h <= mh ->
    forall d b, In d disks -> max_mbal_one d <> None ->
      (exists ok, In (b, ok) d) ->
      b < first_mbal (max_mbal_num 0 disks) mh h.
Proof.
  intros mh h disks H d b Hd Hr (ok & Hb).
  destruct (max_mbal_one d) as [m|] eqn:E; [|congruence].
  destruct (max_loop_ge 0 d m E) as [_ G]. apply G in Hb. destruct Hb as [Hb _].
  destruct (max_num_ge 0 disks) as [_ G2]. specialize (G2 d m Hd E).
  pose proof (first_mbal_gt (max_mbal_num 0 disks) mh h ltac:(lia) ltac:(lia)). lia.
Qed.

(* single-disk case *)
Theorem C07_larger_than_seen_one :
  forall mh h blocks m,
    1 <= h <= mh -> max_mbal_one blocks = Some m ->
    forall b ok, In (b, ok) blocks -> b < first_mbal m mh h.
Proof.
  intros mh h blocks m H E b ok Hb.
  destruct (max_loop_ge 0 blocks m E) as [_ G]. apply G in Hb.
  pose proof (first_mbal_gt m mh h ltac:(lia) ltac:(lia)). lia.
Qed.

(* each retry uses a larger number than all previous ones *)
Theorem C07_retries_increase :
  forall mh h seen k k',
    1 <= h <= mh -> (k < k')%nat -> nth_mbal seen mh h k < nth_mbal seen mh h k'.
Proof.
  intros mh h seen k k' H Hk. unfold nth_mbal. nia.
Qed.

(* the ballot number is never zero, which would read as "no ballot" *)
Theorem C07_nonzero :
  forall mh h seen k, 1 <= h <= mh -> 0 < nth_mbal seen mh h k.
Proof.
  intros mh h seen k H. unfold nth_mbal.
  pose proof (first_mbal_gt seen mh h ltac:(lia) ltac:(lia)). lia.
Qed.

Example C07_nonvacuous :
  nth_mbal 14002 2000 1 0 = 16001 /\ nth_mbal 14002 2000 2000 3 = 24000 /\
  max_mbal_one [(0, true); (14002, true); (6001, true)] = Some 14002.
Proof. vm_compute. auto. Qed.

Print Assumptions C07_unique.
Print Assumptions C07_larger_than_seen.
Print Assumptions C07_larger_than_seen_one.
Print Assumptions C07_retries_increase.
Print Assumptions C07_nonzero.
