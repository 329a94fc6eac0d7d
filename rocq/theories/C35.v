(* C35: a resource converted to its string form and parsed back is the same. *)
From Coq Require Import List NArith ZArith Lia Bool Arith ZifyBool ZifyN ZifyNat.
From Verif Require Import Bytes Strings StringsProof StringsRound.
Import ListNotations.
Open Scope N_scope.

(* ---------------- specification ---------------- *)
(* A resource a caller may pass: terminated 48 byte names, one to four disks with
   terminated 1024 byte paths, 64 bit numbers. *)
Definition no_nul (s : bytes) : Prop := ~ In 0 s.
Definition C35_resource (r : sres) : Prop :=
  no_nul (sr_space r) /\ (1 <= length (sr_space r) <= 47)%nat /\
  no_nul (sr_name r) /\ (1 <= length (sr_name r) <= 47)%nat /\
  (1 <= length (sr_disks r) <= 4)%nat /\
  (forall d, In d (sr_disks r) -> no_nul (sd_path d) /\ (1 <= length (sd_path d) <= 1023)%nat /\ sd_offset d < 2 ^ 64) /\
  sr_lver r < 2 ^ 64.
(* the same names, disks, offsets, version and mode *)
Definition C35_same (a b : sres) : Prop :=
  sr_space a = sr_space b /\ sr_name a = sr_name b /\ sr_disks a = sr_disks b /\ sr_lver a = sr_lver b /\
  N.testbit (sr_flags a) 2 = N.testbit (sr_flags b) 2.
Definition C35_statement : Prop := forall r, C35_resource r ->
  exists s r', res_to_str r = Some s /\ str_to_res s = POk r' /\ C35_same r r'.

(* what has to hold for the code as it is: no colon or backslash in a name, no
   backslash in a path, paths of at most 1024 characters with spaces and colons
   counted twice, and no version together with shared mode *)
Definition C35_restricted (r : sres) : Prop :=
  ~ In 58 (sr_space r) /\ ~ In 92 (sr_space r) /\ ~ In 58 (sr_name r) /\ ~ In 92 (sr_name r) /\
  (forall d, In d (sr_disks r) -> ~ In 92 (sd_path d) /\
     (length (sd_path d) + length (filter (fun c => ((c =? 32) || (c =? 58))%N) (sd_path d)) <= 1024)%nat).

(* ---------------- theorems ---------------- *)
Lemma shared_bit : forall f, has_shared f = N.testbit f 2.
Proof.
  intros f. unfold has_shared, RES_SHARED. change 4 with (2 ^ 2).
  destruct (N.testbit f 2) eqn:E.
  - apply negb_true_iff, N.eqb_neq. intros H.
    assert (N.testbit (N.land f (2 ^ 2)) 2 = false) by (rewrite H; reflexivity).
    rewrite N.land_spec, E in H0. discriminate.
  - apply negb_false_iff, N.eqb_eq. apply N.bits_inj. intros i. rewrite N.land_spec, N.bits_0.
    destruct (N.eq_dec i 2) as [->|NE]; [rewrite E; reflexivity|].
    rewrite N.pow2_bits_false by congruence. apply andb_false_r.
Qed.

Lemma good_of : forall r, C35_resource r -> C35_restricted r -> res_good r.
Proof.
  intros r (N1 & L1 & N2 & L2 & LD & DD & LV) (A1 & A2 & A3 & A4 & DB).
  split; [|split; [|split; [|split; [exact LD|exact LV]]]].
  - split; [|lia]. intros c I. unfold BS, CO, no_nul in *. repeat split; intros ->; tauto.
  - split; [|lia]. intros c I. unfold BS, CO, no_nul in *. repeat split; intros ->; tauto.
  - apply Forall_forall. intros d I. destruct (DD d I) as (Nd & Ld & Od). destruct (DB d I) as (Bd & Ed).
    split; [|split; [exact Ld|split; [|exact Od]]].
    + intros c Ic. unfold BS, no_nul in *. split; intros ->; tauto.
    + rewrite esc_length. exact Ed.
Qed.

(* Everything but the version of a shared resource survives; the version of an
   exclusive one does too. *)
Theorem C35_round_trip_partial : forall r, C35_resource r -> C35_restricted r ->
  exists s r', res_to_str r = Some s /\ str_to_res s = POk r' /\
    sr_space r' = sr_space r /\ sr_name r' = sr_name r /\ sr_disks r' = sr_disks r /\
    N.testbit (sr_flags r') 2 = N.testbit (sr_flags r) 2 /\
    (N.testbit (sr_flags r) 2 = false -> sr_lver r' = sr_lver r).
Proof.
  intros r R Q. destruct (res_round_trip r (good_of r R Q)) as (s & S1 & S2).
  exists s, (res_kept r). do 2 (split; [assumption|]). unfold res_kept. rewrite shared_bit.
  destruct (N.testbit (sr_flags r) 2) eqn:E; cbn [sr_space sr_name sr_disks sr_flags sr_lver]; repeat split; auto; discriminate.
Qed.

Corollary C35_exclusive_partial : forall r, C35_resource r -> C35_restricted r ->
  (N.testbit (sr_flags r) 2 = false \/ sr_lver r = 0) ->
  exists s r', res_to_str r = Some s /\ str_to_res s = POk r' /\ C35_same r r'.
Proof.
  intros r R Q M. destruct (res_round_trip r (good_of r R Q)) as (s & S1 & S2).
  exists s, (res_kept r). do 2 (split; [assumption|]). unfold C35_same, res_kept. rewrite shared_bit.
  destruct (N.testbit (sr_flags r) 2) eqn:E; cbn [sr_space sr_name sr_disks sr_flags sr_lver]; repeat split; auto.
  destruct M; [discriminate|assumption].
Qed.

(* The string never exceeds the buffer of a client: 4400 characters are enough. *)
Theorem C35_always_fits : forall r, C35_resource r -> C35_restricted r -> res_to_str r <> None.
Proof. intros r R Q. destruct (res_round_trip r (good_of r R Q)) as (s & S1 & _). congruence. Qed.

(* ---------------- the full statement fails ---------------- *)
(* "a:b" as resource name: the colon is not escaped and becomes a separator *)
Definition bad_name : sres := mkSres [76] [97; 58; 98] 0 4 [mkSdisk [47; 100] 0].
Theorem C35_refuted : ~ C35_statement.
Proof.
  intros H. destruct (H bad_name) as (s & r' & S1 & S2 & _).
  - unfold C35_resource, no_nul; cbn. repeat split; try lia; try (intros ?; intuition lia).
    all: match goal with H : _ = ?d \/ False |- _ => destruct H as [<-|[]]; cbn; try lia end.
    all: try (intros ?; intuition lia).
  - vm_compute in S1. injection S1 as <-. vm_compute in S2. discriminate S2.
Qed.
(* a shared resource with a version loses the version *)
Theorem C35_shared_version_lost : forall r, C35_resource r -> C35_restricted r ->
  N.testbit (sr_flags r) 2 = true ->
  exists s r', res_to_str r = Some s /\ str_to_res s = POk r' /\ sr_lver r' = 0.
Proof.
  intros r R Q M. destruct (res_round_trip r (good_of r R Q)) as (s & S1 & S2).
  exists s, (res_kept r). do 2 (split; [assumption|]). unfold res_kept. rewrite shared_bit, M. reflexivity.
Qed.
(* a path with a backslash comes back without it *)
Definition bad_path : sres := mkSres [76] [82] 3 0 [mkSdisk [47; 92; 100] 0].
Theorem C35_backslash_lost : exists s r', res_to_str bad_path = Some s /\ str_to_res s = POk r' /\
  sr_disks r' = [mkSdisk [47; 100] 0].
Proof. eexists. eexists. split; [vm_compute; reflexivity|]. split; [vm_compute; reflexivity|]. reflexivity. Qed.

(* ---------------- hypotheses can be met ---------------- *)
(* two disks, one path with a space and a colon, version 2^64-1 *)
Definition good_example : sres :=
  mkSres [76; 83; 32; 49] [114; 49] 18446744073709551615 1
    [mkSdisk [47; 100; 58; 97; 32; 98] 1048576; mkSdisk [47; 101] 18446744073709551615].
Example C35_nonvacuous : C35_resource good_example /\ C35_restricted good_example /\
  (exists s, res_to_str good_example = Some s /\ length s = 69%nat /\
    str_to_res s = POk good_example).
Proof.
  split; [|split].
  - unfold C35_resource, no_nul; cbn. repeat split; try lia; try (intros ?; intuition lia).
    all: match goal with H : _ \/ _ |- _ => destruct H as [<-|[<-|[]]]; cbn; try lia end.
    all: try (intros ?; intuition lia).
  - unfold C35_restricted; cbn. do 4 (split; [intros ?; intuition lia|]).
    intros d [<-|[<-|[]]]; cbn; (split; [intros ?; intuition lia|lia]).
  - eexists. split; [vm_compute; reflexivity|]. split; vm_compute; reflexivity.
Qed.

Print Assumptions C35_round_trip_partial.
Print Assumptions C35_exclusive_partial.
Print Assumptions C35_always_fits.
Print Assumptions C35_refuted.
Print Assumptions C35_shared_version_lost.
Print Assumptions C35_backslash_lost.
