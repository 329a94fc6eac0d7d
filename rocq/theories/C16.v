(* C16: a multi-disk lease read returns a verified majority record.
   Refuted as stated: the record returned can be one that failed verification
   on every disk (it is only compared on its first 152 bytes, which exclude
   the timestamp that says whether the lease is free).  Proved: its compared
   members are those of verified records on a majority of the disks; and it is
   itself verified when no record failing verification matches them. *)
From Coq Require Import List NArith ZArith Lia Bool Arith.
From Verif Require Import Bytes Crc Codec Leader Majority LeaderReadNum C01.
Import ListNotations.
Open Scope N_scope.

(* specification: record [l] is the decoded, accepted content of a sector *)
Definition verified_on (space res : bytes) (host_id : N) (s : option bytes) (l : leader) : Prop :=
  exists sector, s = Some sector /\ l = leader_record_in (get 0 LEADER_SIZE sector) /\
    verify_leader space res host_id l (leader_checksum (get 0 LEADER_SIZE sector)) = SANLK_OK.

Definition same_identity (a b : leader) : Prop :=
  l_owner_id a = l_owner_id b /\ l_owner_generation a = l_owner_generation b /\
  l_lver a = l_lver b /\ l_num_hosts a = l_num_hosts b /\ l_max_hosts a = l_max_hosts b /\
  l_sector_size a = l_sector_size b /\ l_flags a = l_flags b /\
  l_space_name a = l_space_name b /\ l_resource_name a = l_resource_name b.

Lemma filter_index {A} (f : A -> bool) (l : list A) k :
  exists g : list nat,
    NoDup g /\ length g = length (filter f l) /\
    forall d, In d g -> exists x, (k <= d)%nat /\ nth_error l (d - k) = Some x /\ f x = true.
Proof.
  revert k. induction l as [|x l IH]; intros k; [exists []; repeat split; [constructor|intros ? []]|].
  destruct (IH (S k)) as (g & ND & L & G). cbn [filter].
  assert (G' : forall d, In d g -> exists y, (k <= d)%nat /\ nth_error (x :: l) (d - k) = Some y /\ f y = true).
  { intros d H. destruct (G d H) as (y & L1 & E & F). exists y. split; [lia|].
    replace (d - k)%nat with (S (d - S k)) by lia. auto. }
  destruct (f x) eqn:E.
  - exists (k :: g). split; [|split; [cbn; lia|]].
    + constructor; auto. intros H. destruct (G k H) as (? & ? & _). lia.
    + intros d [<-|H]; [|auto]. exists x. rewrite Nat.sub_diag. auto.
  - exists g. auto.
Qed.

(* For every number of disks and every content: a successful read returns a
   record whose identity members were verified on more than half of them
   (g: the numbers of those disks). *)
Theorem C16_majority_identity_partial :
  forall space res host_id disks l,
    leader_read_num space res host_id disks = (SANLK_OK, l) ->
    exists g : list nat,
      NoDup g /\ (length disks < 2 * length g)%nat /\
      (forall d, In d g ->
         exists s l', nth_error disks d = Some s /\
                      verified_on space res host_id s l' /\ same_identity l l').
Proof.
  intros space res host_id disks l H. unfold leader_read_num in H.
  apply choose_ok in H. destruct H as [H _]. rewrite map_length in H.
  destruct (filter_index (fun x => snd x && leaders_match (fst x) l)
              (map (read_disk space res host_id) disks) 0) as (g & ND & L & G).
  exists g. split; [auto|]. split.
  - unfold support in H. rewrite <- L in H. apply majority_half in H; lia.
  - intros d Hd. destruct (G d Hd) as (x & _ & E & F). rewrite Nat.sub_0_r in E.
    rewrite nth_error_map in E. destruct (nth_error disks d) as [s|] eqn:Es; [|discriminate].
    injection E as <-. apply andb_prop in F. destruct F as [E1 E2].
    unfold read_disk in E1, E2. destruct s as [sector|]; [|discriminate].
    unfold read_leader_sector in E1, E2. cbn [fst snd] in E1, E2.
    exists (Some sector), (leader_record_in (get 0 LEADER_SIZE sector)). split; [auto|]. split.
    + exists sector. split; auto. split; auto. apply Z.eqb_eq. exact E1.
    + apply leaders_match_spec in E2. unfold same_identity. intuition.
Qed.

(* The returned record itself is verified when every disk that was read but
   rejected differs from the verified majority in a compared member. *)
Theorem C16_verified_if_no_lookalike :
  forall space res host_id disks l,
    leader_read_num space res host_id disks = (SANLK_OK, l) ->
    (forall s l', In (Some s) disks -> l' = leader_record_in (get 0 LEADER_SIZE s) ->
       ~ verified_on space res host_id (Some s) l' -> leaders_match l' l = false) ->
    (In None disks -> leaders_match zero_leader l = false) ->
    exists s, In s disks /\ verified_on space res host_id s l.
Proof.
  intros space res host_id disks l H Hno Hno0. unfold leader_read_num in H.
  apply choose_ok in H. destruct H as [_ (ok & H)].
  apply in_map_iff in H. destruct H as (s & E & I).
  destruct s as [sector|].
  - unfold read_disk, read_leader_sector in E. injection E as E1 E2.
    exists (Some sector). split; auto.
    assert (V : verified_on space res host_id (Some sector) l \/ ~ verified_on space res host_id (Some sector) l).
    { unfold verified_on.
      destruct (Z.eq_dec (verify_leader space res host_id l (leader_checksum (get 0 LEADER_SIZE sector))) SANLK_OK) as [e|ne].
      - left. exists sector. auto.
      - right. intros (s2 & E & _ & V). injection E as <-. contradiction. }
    destruct V as [V|V]; auto.
    specialize (Hno sector l I (eq_sym E1) V). rewrite leaders_match_refl in Hno. discriminate.
  - cbn in E. injection E as E _. specialize (Hno0 I). rewrite E, leaders_match_refl in Hno0.
    discriminate.
Qed.

(* the full statement of the property *)
Definition C16_statement : Prop :=
  forall space res host_id disks l,
    leader_read_num space res host_id disks = (SANLK_OK, l) ->
    exists s, In s disks /\ verified_on space res host_id s l.

(* Witness: three disks hold the same owned lease (timestamp 77); on disk 0
   the eight timestamp bytes (152..159) are zeroed, so its checksum is wrong.
   The read succeeds and returns disk 0's record: a free lease. *)
Definition w_space : bytes := sample_name 1.
Definition w_res : bytes := sample_name 100.
Definition w_leader : leader :=
  mkLeader PAXOS_DISK_MAGIC 0x60004 0 512 2000 2000 5 3 9 w_space w_res 77 0 0 0 10 5 3 77.
Definition w_good : bytes := leader_bytes w_leader (zeros LEADER_SIZE).
Definition w_bad : bytes := put 152 (zeros 8) w_good.
Definition w_disks := [Some w_bad; Some w_good; Some w_good].

Theorem C16_refuted : ~ C16_statement.
Proof.
  intros H.
  assert (R : fst (leader_read_num w_space w_res 1 w_disks) = SANLK_OK) by (vm_compute; reflexivity).
  remember (leader_read_num w_space w_res 1 w_disks) as p eqn:Ep.
  destruct p as [rc l]. cbn [fst] in R. subst rc. symmetry in Ep.
  assert (T : l_timestamp l = 0).
  { replace l with (snd (leader_read_num w_space w_res 1 w_disks)) by (rewrite Ep; reflexivity).
    vm_compute. reflexivity. }
  destruct (H _ _ _ _ _ Ep) as (s & I & sector & -> & El & V).
  destruct I as [I|[I|[I|[]]]]; injection I as <-.
  - assert (X : verify_leader w_space w_res 1 (leader_record_in (get 0 LEADER_SIZE w_bad))
              (leader_checksum (get 0 LEADER_SIZE w_bad)) = SANLK_LEADER_CHECKSUM) by (vm_compute; reflexivity).
    rewrite <- El in X. rewrite V in X. discriminate.
  - assert (X : l_timestamp (leader_record_in (get 0 LEADER_SIZE w_good)) = 77) by (vm_compute; reflexivity).
    rewrite <- El, T in X. discriminate.
  - assert (X : l_timestamp (leader_record_in (get 0 LEADER_SIZE w_good)) = 77) by (vm_compute; reflexivity).
    rewrite <- El, T in X. discriminate.
Qed.

(* and what a caller makes of it: an owned lease is reported free *)
Theorem C16_owned_lease_read_as_free :
  exists l, leader_read_num w_space w_res 1 w_disks = (SANLK_OK, l) /\ l_timestamp l = 0 /\
    Forall (fun s => exists l', verified_on w_space w_res 1 s l' /\ l_timestamp l' = 77) (tl w_disks).
Proof.
  exists (snd (leader_read_num w_space w_res 1 w_disks)).
  split; [vm_compute; reflexivity|]. split; [vm_compute; reflexivity|].
  assert (G : exists l', verified_on w_space w_res 1 (Some w_good) l' /\ l_timestamp l' = 77).
  { exists (leader_record_in (get 0 LEADER_SIZE w_good)). split; [|vm_compute; reflexivity].
    exists w_good. split; [reflexivity|]. split; [reflexivity|]. vm_compute. reflexivity. }
  repeat constructor; auto.
Qed.

Example C16_nonvacuous :
  fst (leader_read_num w_space w_res 1 [Some w_good; None; Some w_good]) = SANLK_OK /\
  l_timestamp (snd (leader_read_num w_space w_res 1 [Some w_good; None; Some w_good])) = 77 /\
  fst (leader_read_num w_space w_res 1 [Some w_good; None; Some w_bad]) = SANLK_LEADER_READ /\
  leaders_match zero_leader w_leader = false.
Proof. vm_compute. auto. Qed.

Print Assumptions C16_majority_identity_partial.
Print Assumptions C16_verified_if_no_lookalike.
Print Assumptions C16_refuted.
Print Assumptions C16_owned_lease_read_as_free.
