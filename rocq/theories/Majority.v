(* src/diskio.c:206-226 majority_disks *)
From Coq Require Import List ZArith Lia Bool Arith.
Import ListNotations.
Open Scope Z_scope.

(* nonzero return = true *)
Definition majority_disks (num_disks num : Z) : bool :=
  if (num_disks =? 1) && (num =? 0) then false
  else if negb (Z.rem num_disks 2 =? 0) then (Z.quot num_disks 2) + 1 <=? num
  else if (Z.quot num_disks 2) <? num then true
  else if num <? (Z.quot num_disks 2) then false
  else false.

(* number of disks 0..n-1 in a group *)
Definition count (n : nat) (g : nat -> bool) : nat := length (filter g (seq 0 n)).

Lemma majority_half n k :
  0 <= n -> majority_disks n k = true -> n < 2 * k.
Proof.
  intros Hn. unfold majority_disks.
  pose proof (Z.quot_rem' n 2) as Q.
  pose proof (Z.rem_bound_pos n 2 Hn ltac:(lia)) as R.
  destruct ((n =? 1) && (k =? 0)); [discriminate|].
  destruct (Z.rem n 2 =? 0) eqn:E; cbn [negb].
  - destruct (Z.quot n 2 <? k) eqn:F; [lia|]. destruct (k <? Z.quot n 2); discriminate.
  - intros H. lia.
Qed.

Lemma majority_half_conv n k :
  1 <= n -> n < 2 * k -> majority_disks n k = true.
Proof.
  intros Hn H. unfold majority_disks.
  pose proof (Z.quot_rem' n 2) as Q.
  pose proof (Z.rem_bound_pos n 2 ltac:(lia) ltac:(lia)) as R.
  destruct ((n =? 1) && (k =? 0)) eqn:E0; [lia|].
  destruct (Z.rem n 2 =? 0) eqn:E; cbn [negb].
  - destruct (Z.quot n 2 <? k) eqn:F; auto. lia.
  - lia.
Qed.

Lemma count_filter_overlap (l : list nat) (f g : nat -> bool) :
  (length l < length (filter f l) + length (filter g l))%nat ->
  exists d, In d l /\ f d = true /\ g d = true.
Proof.
  induction l as [|x l IH]; cbn [filter length]; [lia|].
  intros H. destruct (f x) eqn:Ef, (g x) eqn:Eg; cbn [length] in H.
  - exists x. cbn. auto.
  - destruct IH as (d & ? & ?); [lia|]. exists d. cbn. auto.
  - destruct IH as (d & ? & ?); [lia|]. exists d. cbn. auto.
  - destruct IH as (d & ? & ?); [lia|]. exists d. cbn. auto.
Qed.

Lemma majorities_intersect n f g :
  majority_disks (Z.of_nat n) (Z.of_nat (count n f)) = true ->
  majority_disks (Z.of_nat n) (Z.of_nat (count n g)) = true ->
  exists d, (d < n)%nat /\ f d = true /\ g d = true.
Proof.
  intros Hf Hg. apply majority_half in Hf; [|lia]. apply majority_half in Hg; [|lia].
  destruct (count_filter_overlap (seq 0 n) f g) as (d & Hd & ?).
  - rewrite seq_length. unfold count in *. lia.
  - apply in_seq in Hd. exists d. split; [lia|auto].
Qed.

Lemma majority_nonempty n f :
  majority_disks (Z.of_nat n) (Z.of_nat (count n f)) = true ->
  exists d, (d < n)%nat /\ f d = true.
Proof.
  intros H. destruct (majorities_intersect n f f H H) as (d & ? & ? & _). eauto.
Qed.
