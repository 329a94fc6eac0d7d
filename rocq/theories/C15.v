(* C15: a release frees only the caller's own lease. *)
From Coq Require Import List NArith ZArith Lia Bool Arith ZifyBool ZifyN.
From Verif Require Import Bytes Codec Leader LeaderReadNum Acquire Release.
Import ListNotations.
Open Scope N_scope.

(* ---- specification ---- *)
(* the record shows this host as owner in this generation and as the last writer *)
Definition own_record (host gen : N) (l : leader) : Prop :=
  l_timestamp l <> 0 /\ l_owner_id l = host /\ l_owner_generation l = gen /\ l_write_id l = host.

(* the version or the owner on disk is not the one the caller acquired *)
Definition mismatch (host gen : N) (last l : leader) : Prop :=
  l_lver l <> l_lver last \/ l_timestamp l = 0 \/ l_owner_id l <> host \/ l_owner_generation l <> gen.

(* a write happens exactly when the record read is the caller's own, unchanged
   since the caller acquired it (or the caller knows no version); what is written
   is that record marked free *)
Theorem C15_frees_only_own :
  forall host gen rename last rv l now wrv nl,
    rr_write (paxos_lease_release host gen rename last (rv, l) now wrv) = Some nl ->
    (0 <= rv)%Z /\ own_record host gen l /\
    (forall x, last = Some x -> l = x) /\
    l_timestamp nl = 0 /\ l_lver nl = l_lver l /\ l_owner_id nl = host /\ l_owner_generation nl = gen /\
    l_write_id nl = host /\ l_write_generation nl = gen /\
    l_resource_name nl = (match rename with Some n => n | None => l_resource_name l end) /\
    l_space_name nl = l_space_name l /\ l_num_hosts nl = l_num_hosts l /\ l_max_hosts nl = l_max_hosts l /\
    N.testbit (l_flags nl) 0 = false /\ forall b, b <> 0 -> N.testbit (l_flags nl) b = N.testbit (l_flags l) b.
Proof.
  intros host gen rename last rv l now wrv nl H. unfold paxos_lease_release in H.
  destruct (rv <? 0)%Z eqn:E0; [discriminate H|].
  destruct (negb (l_write_id l =? host)) eqn:E1; [discriminate H|].
  destruct (negb (l_lver l =? _)) eqn:E2; [discriminate H|].
  destruct (l_timestamp l =? LEASE_FREE) eqn:E3; [discriminate H|].
  destruct (negb (l_owner_id l =? host) || negb (l_owner_generation l =? gen)) eqn:E4; [discriminate H|].
  destruct (negb (leader_eqb l _)) eqn:E5; [discriminate H|].
  assert (nl = freed host gen now rename l) as -> by (destruct (wrv <? 0)%Z; cbn in H; congruence).
  unfold LEASE_FREE in *. split; [lia|]. split; [unfold own_record; lia|]. split.
  { intros x ->. apply leader_eqb_eq. destruct (leader_eqb l x); [reflexivity|discriminate E5]. }
  cbn [freed l_timestamp l_lver l_owner_id l_owner_generation l_write_id l_write_generation
       l_resource_name l_space_name l_num_hosts l_max_hosts l_flags].
  repeat (split; [first [reflexivity | lia]|]).
  split; [rewrite N.ldiff_spec; apply andb_false_r|].
  intros b Hb. rewrite N.ldiff_spec. unfold LFL_SHORT_HOLD.
  destruct b; [congruence|]. cbn. apply andb_true_r.
Qed.

(* the other direction: the caller's own unchanged record is marked free *)
Theorem C15_own_is_freed :
  forall host gen rename rv l now wrv,
    (0 <= rv)%Z -> own_record host gen l ->
    exists nl, rr_write (paxos_lease_release host gen rename (Some l) (rv, l) now wrv) = Some nl /\
               rr_rv (paxos_lease_release host gen rename (Some l) (rv, l) now wrv) = wrv.
Proof.
  intros host gen rename rv l now wrv R (O1 & O2 & O3 & O4). unfold paxos_lease_release.
  destruct (rv <? 0)%Z eqn:E0; [lia|].
  rewrite O4, O2, O3, !N.eqb_refl. cbn [negb orb].
  destruct (l_timestamp l =? LEASE_FREE) eqn:E3; [unfold LEASE_FREE in *; lia|].
  assert (X : leader_eqb l l = true) by (apply leader_eqb_eq; auto). rewrite X. cbn [negb].
  destruct (wrv <? 0)%Z; cbn; eauto.
Qed.

(* full statement of the second half *)
Definition C15_error_statement : Prop :=
  forall host gen rename last rv l now wrv,
    (0 <= rv)%Z -> mismatch host gen last l ->
    rr_write (paxos_lease_release host gen rename (Some last) (rv, l) now wrv) = None /\
    (rr_rv (paxos_lease_release host gen rename (Some last) (rv, l) now wrv) < 0)%Z.

(* the record is left alone in every mismatch *)
Theorem C15_mismatch_untouched :
  forall host gen rename last rv l now wrv,
    mismatch host gen last l ->
    rr_write (paxos_lease_release host gen rename (Some last) (rv, l) now wrv) = None.
Proof.
  intros host gen rename last rv l now wrv M.
  destruct (rr_write _) as [nl|] eqn:E; auto. exfalso.
  destruct (C15_frees_only_own _ _ _ _ _ _ _ _ _ E) as (_ & (A & B & C & D) & X & _).
  specialize (X _ eq_refl). subst. unfold mismatch in M. intuition.
Qed.

(* missing: the case that another host wrote the record last, which returns 0 *)
Theorem C15_mismatch_error_partial :
  forall host gen rename last rv l now wrv,
    (0 <= rv)%Z -> mismatch host gen last l -> l_write_id l = host ->
    (rr_rv (paxos_lease_release host gen rename (Some last) (rv, l) now wrv) = -250 \/
     rr_rv (paxos_lease_release host gen rename (Some last) (rv, l) now wrv) = -251)%Z.
Proof.
  intros host gen rename last rv l now wrv R M W. unfold paxos_lease_release.
  destruct (rv <? 0)%Z eqn:E0; [lia|]. rewrite W, N.eqb_refl. cbn [negb].
  destruct (negb (l_lver l =? l_lver last)) eqn:E2; [left; reflexivity|].
  destruct (l_timestamp l =? LEASE_FREE) eqn:E3; [right; reflexivity|].
  destruct (negb (l_owner_id l =? host) || negb (l_owner_generation l =? gen)) eqn:E4; [right; reflexivity|].
  unfold mismatch, LEASE_FREE in *. lia.
Qed.

Definition mine : leader :=
  mkLeader PAXOS_DISK_MAGIC 0x00060004 0x110 512 2000 2000 1 1 7 [] [] 100 0 0 0 10 1 1 100.
(* taken over by host 2 as version 8 *)
Definition theirs : leader :=
  mkLeader PAXOS_DISK_MAGIC 0x00060004 0x110 512 2000 2000 2 1 8 [] [] 500 0 0 0 10 2 1 500.

Theorem C15_error_refuted : ~ C15_error_statement.
Proof.
  intros S. destruct (S 1 1 None mine 1%Z theirs 600 1%Z) as (_ & X).
  - lia.
  - left. vm_compute. discriminate.
  - vm_compute in X. discriminate X.
Qed.

(* and in that case the caller's copy of the record becomes uninitialised memory *)
Theorem C15_copy_uninitialised :
  release_disk 1 1 None mine (1%Z, theirs) 600 1 = (0%Z, None).
Proof. vm_compute. reflexivity. Qed.

Example C15_nonvacuous :
  own_record 1 1 mine /\ mismatch 1 1 mine theirs /\
  rr_rv (paxos_lease_release 1 1 None (Some mine) (1%Z, mine) 600 1) = 1%Z /\
  rr_rv (paxos_lease_release 1 2 None (Some mine) (1%Z, mine) 600 1) = (-251)%Z.
Proof.
  split; [unfold own_record; cbn; repeat split; discriminate|].
  split; [left; vm_compute; discriminate|]. split; vm_compute; reflexivity.
Qed.

Print Assumptions C15_frees_only_own.
Print Assumptions C15_own_is_freed.
Print Assumptions C15_mismatch_untouched.
Print Assumptions C15_mismatch_error_partial.
Print Assumptions C15_error_refuted.
Print Assumptions C15_copy_uninitialised.
