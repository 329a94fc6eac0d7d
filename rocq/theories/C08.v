(* C08: any two disk majorities intersect. *)
From Coq Require Import List ZArith Lia Bool Arith.
From Verif Require Import Majority.
Import ListNotations.
Open Scope Z_scope.

(* Disks are numbered 0..n-1 and a group of disks is a duplicate-free list. *)
Definition group (n : nat) (l : list nat) : Prop := NoDup l /\ forall d, In d l -> (d < n)%nat.

Lemma group_count n l :
  group n l -> count n (fun d => if in_dec Nat.eq_dec d l then true else false) = length l.
Proof.
  intros (ND & B). unfold count.
  apply Nat.le_antisymm.
  - apply NoDup_incl_length; [apply NoDup_filter, seq_NoDup|].
    intros d H. apply filter_In in H. destruct H as [_ H]. destruct in_dec; [auto|discriminate].
  - apply NoDup_incl_length; auto.
    intros d H. apply filter_In. split.
    + apply in_seq. specialize (B d H). lia.
    + destruct in_dec; auto.
Qed.

Theorem C08_majorities_intersect :
  forall (n : nat) (a b : list nat),
    group n a -> group n b ->
    majority_disks (Z.of_nat n) (Z.of_nat (length a)) = true ->
    majority_disks (Z.of_nat n) (Z.of_nat (length b)) = true ->
    exists d, In d a /\ In d b.
Proof.
  intros n a b Ga Gb Ha Hb.
  rewrite <- (group_count n a Ga) in Ha. rewrite <- (group_count n b Gb) in Hb.
  destruct (majorities_intersect n _ _ Ha Hb) as (d & _ & H1 & H2).
  exists d. destruct (in_dec Nat.eq_dec d a), (in_dec Nat.eq_dec d b); try discriminate; auto.
Qed.

(* a majority tolerates the failure of any minority, and is never empty *)
Theorem C08_majority_is_more_than_half :
  forall n k, 1 <= n -> 0 <= k -> (majority_disks n k = true <-> n < 2 * k).
Proof.
  intros n k Hn Hk. split; [apply majority_half; lia | apply majority_half_conv; auto].
Qed.

Example C08_nonvacuous :
  group 4 [0;1;2]%nat /\ group 4 [1;2;3]%nat /\
  majority_disks 4 3 = true /\ majority_disks 4 2 = false /\ majority_disks 1 1 = true.
Proof.
  repeat split; try reflexivity;
    try (repeat constructor; cbn; intuition discriminate);
    cbn; intuition lia.
Qed.

Print Assumptions C08_majorities_intersect.
Print Assumptions C08_majority_is_more_than_half.
