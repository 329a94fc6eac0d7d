(* C40: releasing all of a process's leases is memory safe. *)
From Coq Require Import List Arith ZArith Lia Bool Permutation ZifyBool ZifyNat.
From Verif Require Import CmdTokens C41.
Import ListNotations.

(* ---------------- specification ---------------- *)
(* token arrays a process can have: eight empty slots at registration
   (src/cmd.c:3058), then acquires and releases of any kind *)
Inductive array_reach : slots -> Prop :=
| ar_register : array_reach (repeat None SANLK_MAX_RESOURCES)
| ar_acquire : forall s a, array_reach s -> ai_dead1 a = false -> array_reach (ao_slots (cmd_acquire a s))
| ar_release_all : forall s s' l, array_reach s -> release_all s = Some (s', l) -> array_reach s'
| ar_release : forall s reqs s' l, array_reach s -> rel_named s reqs [] = Some (s', l) -> array_reach s'.
(* releasing all stays inside rem_tokens, releases each held token once and leaves
   none *)
Definition C40_ok (s : slots) : Prop :=
  exists s' l, release_all s = Some (s', l) /\ l = held s /\ held s' = [].
Definition C40_statement : Prop := forall s, array_reach s -> C40_ok s.

(* ---------------- theorems ---------------- *)
Lemma rel_all_spec : forall s rem, length rem + length (held s) <= SANLK_MAX_RESOURCES ->
  exists s', rel_all s rem = Some (s', rem ++ held s) /\ held s' = [].
Proof.
  induction s as [|[t|] r IH]; intros rem L; cbn [rel_all held flat_map] in *.
  - exists []. rewrite app_nil_r. auto.
  - fold (held r) in *. cbn [app length] in L. assert (Nat.ltb (length rem) SANLK_MAX_RESOURCES = true) as -> by (apply Nat.ltb_lt; lia).
    destruct (IH (rem ++ [t])) as (s' & E & H). { rewrite app_length. cbn [length]. lia. }
    rewrite E. exists (None :: s'). rewrite <- app_assoc. auto.
  - fold (held r) in *. cbn [app] in *. destruct (IH rem L) as (s' & E & H). rewrite E. exists (None :: s'). auto.
Qed.
Lemma rel_all_over : forall s rem, length rem <= SANLK_MAX_RESOURCES -> SANLK_MAX_RESOURCES < length rem + length (held s) -> rel_all s rem = None.
Proof.
  induction s as [|[t|] r IH]; intros rem Lr L; cbn [rel_all held flat_map app length] in *.
  - lia.
  - fold (held r) in *. destruct (Nat.ltb (length rem) SANLK_MAX_RESOURCES) eqn:E; [|reflexivity]. apply Nat.ltb_lt in E.
    rewrite IH; [reflexivity| |]; rewrite app_length; cbn [length]; lia.
  - fold (held r) in *. rewrite IH; auto.
Qed.

(* Up to eight leases: safe, and complete. *)
Theorem C40_release_all_partial : forall s, length (held s) <= SANLK_MAX_RESOURCES -> C40_ok s.
Proof. intros s L. destruct (rel_all_spec s [] L) as (s' & E & H). exists s', (held s). auto. Qed.
(* More than eight: always a store behind the array. *)
Theorem C40_overflows_beyond : forall s, SANLK_MAX_RESOURCES < length (held s) -> release_all s = None.
Proof. intros s L. apply rel_all_over; cbn; lia. Qed.

Lemma take_first_spec : forall s same s' t, take_first s same = Some (s', t) ->
  Permutation (held s) (t :: held s') /\ same t = true.
Proof.
  induction s as [|[x|] r IH]; intros same s' t E; cbn [take_first] in E; [discriminate| |].
  - destruct (same x) eqn:S. { injection E as <- <-. cbn. auto. }
    destruct (take_first r same) as [[s1 y]|] eqn:T; [|discriminate]. injection E as <- <-.
    destruct (IH same s1 y T) as (P & Q). split; [|exact Q]. cbn. fold (held r) (held s1).
    rewrite P. apply perm_swap.
  - destruct (take_first r same) as [[s1 y]|] eqn:T; [|discriminate]. injection E as <- <-. exact (IH same s1 y T).
Qed.
(* Releasing at most eight named resources is safe, whatever is held, and what is
   taken out of the array is exactly what gets released. *)
Theorem C40_release_named : forall s reqs, length reqs <= SANLK_MAX_RESOURCES ->
  exists s' l, rel_named s reqs [] = Some (s', l) /\ Permutation (held s) (l ++ held s').
Proof.
  intros s reqs L.
  assert (G : forall reqs s rem, length rem + length reqs <= SANLK_MAX_RESOURCES ->
    exists s' l, rel_named s reqs rem = Some (s', rem ++ l) /\ Permutation (held s) (l ++ held s')).
  { clear. induction reqs as [|same r IH]; intros s rem L; cbn [rel_named length] in *.
    - exists s, []. rewrite app_nil_r. auto.
    - destruct (take_first s same) as [[s1 t]|] eqn:T.
      + assert (Nat.ltb (length rem) SANLK_MAX_RESOURCES = true) as -> by (apply Nat.ltb_lt; lia).
        destruct (IH s1 (rem ++ [t])) as (s' & l & E & P). { rewrite app_length; cbn [length]; lia. }
        exists s', (t :: l). rewrite E, <- app_assoc. split; [reflexivity|].
        destruct (take_first_spec _ _ _ _ T) as (Q & _). rewrite Q. cbn. apply perm_skip. exact P.
      + apply IH. lia. }
  destruct (G reqs s [] L) as (s' & l & E & P). exists s', l. auto.
Qed.

(* ---------------- the full statement fails ---------------- *)
(* eight leases, then one more, then SANLK_REL_ALL *)
Definition acq_n (base n : nat) : acq_in :=
  mkAcqIn n false true (map (fun k => RcvOk (base + k)) (seq 0 n)) true (fun _ => true) (fun _ => 0%Z) false (fun _ => true).
Definition nine : slots := ao_slots (cmd_acquire (acq_n 20 1) (ao_slots (cmd_acquire (acq_n 10 8) (repeat None SANLK_MAX_RESOURCES)))).
Theorem C40_refuted : ~ C40_statement.
Proof.
  intros H. destruct (H nine) as (s' & l & E & _).
  - unfold nine. apply ar_acquire; [|reflexivity]. apply ar_acquire; [|reflexivity]. constructor.
  - vm_compute in E. discriminate E.
Qed.
(* a release message naming more resources than eight has the same problem *)
Theorem C40_named_overflow : rel_named nine (map (fun t x => Nat.eqb x t) (held nine)) [] = None.
Proof. vm_compute. reflexivity. Qed.

(* ---------------- hypotheses can be met ---------------- *)
Example C40_nonvacuous :
  let s := ao_slots (cmd_acquire (acq_n 10 8) (repeat None SANLK_MAX_RESOURCES)) in
  array_reach s /\ length (held s) = 8 /\ release_all s = Some (repeat None 8, [10; 11; 12; 13; 14; 15; 16; 17]).
Proof. cbn zeta. split; [apply ar_acquire; [constructor|reflexivity]|]. vm_compute. auto. Qed.

Print Assumptions C40_release_all_partial.
Print Assumptions C40_overflows_beyond.
Print Assumptions C40_release_named.
Print Assumptions C40_refuted.
Print Assumptions C40_named_overflow.
