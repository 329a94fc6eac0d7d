(* src/paxos_lease.c:1204-1300 _leader_read_num: reading the leader of a lease
   on several disks.  Each disk yields None (read_leader failed) or the
   content of its first sector.  malloc failures are not modelled. *)
From Coq Require Import List NArith ZArith Lia Bool Arith.
From Verif Require Import Bytes Crc Codec Leader Majority.
Import ListNotations.

(* memset(leaders, 0): the entry left for a disk that could not be read *)
Definition zero_leader : leader := leader_record_in (zeros LEADER_SIZE).

Definition bytes_eqb (a b : bytes) : bool :=
  if list_eq_dec N.eq_dec a b then true else false.

(* src/paxos_lease.c:1064-1069 leaders_match: memcmp of the first
   LEADER_COMPARE_LEN (152) bytes, i.e. all members before timestamp
   (src/leader.h:54-78) *)
Definition leaders_match (a b : leader) : bool :=
  N.eqb (l_magic a) (l_magic b) && N.eqb (l_version a) (l_version b) &&
  N.eqb (l_flags a) (l_flags b) && N.eqb (l_sector_size a) (l_sector_size b) &&
  N.eqb (l_num_hosts a) (l_num_hosts b) && N.eqb (l_max_hosts a) (l_max_hosts b) &&
  N.eqb (l_owner_id a) (l_owner_id b) &&
  N.eqb (l_owner_generation a) (l_owner_generation b) &&
  N.eqb (l_lver a) (l_lver b) &&
  bytes_eqb (l_space_name a) (l_space_name b) &&
  bytes_eqb (l_resource_name a) (l_resource_name b).

(* leaders[d] and whether the disk passed verify_leader (1243-1250) *)
Definition read_disk (space res : bytes) (host_id : N) (s : option bytes) : leader * bool :=
  match s with
  | None => (zero_leader, false)
  | Some sector =>
      let (lr, ck) := read_leader_sector sector in
      (lr, Z.eqb (verify_leader space res host_id lr ck) SANLK_OK)
  end.

(* 1258-1263: leader_reps[i]++ for the first earlier i that matches *)
Fixpoint bump (l : leader) (arr : list (leader * nat)) : list (leader * nat) :=
  match arr with
  | [] => []
  | (a, n) :: r => if leaders_match l a then (a, S n) :: r else (a, n) :: bump l r
  end.

(* one iteration of the loop 1242-1264 *)
Definition tally_step (arr : list (leader * nat)) (x : leader * bool) : list (leader * nat) :=
  let (l, ok) := x in
  if ok then bump l arr ++ [(l, 1%nat)] else arr ++ [(l, 0%nat)].

Definition tally (xs : list (leader * bool)) : list (leader * nat) :=
  fold_left tally_step xs [].

Definition num_reads (xs : list (leader * bool)) : nat := length (filter snd xs).

(* 1266-1293 *)
Definition choose (xs : list (leader * bool)) : Z * leader :=
  let n := Z.of_nat (length xs) in
  if negb (majority_disks n (Z.of_nat (num_reads xs))) then (SANLK_LEADER_READ, zero_leader)
  else match find (fun e => majority_disks n (Z.of_nat (snd e))) (tally xs) with
       | Some (l, _) => (SANLK_OK, l)
       | None => (SANLK_LEADER_DIFF, zero_leader)
       end.

Definition leader_read_num (space res : bytes) (host_id : N) (disks : list (option bytes))
  : Z * leader :=
  choose (map (read_disk space res host_id) disks).

(* ---- proofs ---- *)
Lemma bytes_eqb_eq a b : bytes_eqb a b = true <-> a = b.
Proof. unfold bytes_eqb. destruct list_eq_dec; intuition congruence. Qed.

Lemma leaders_match_spec a b :
  leaders_match a b = true <->
  (l_magic a = l_magic b /\ l_version a = l_version b /\ l_flags a = l_flags b /\
   l_sector_size a = l_sector_size b /\ l_num_hosts a = l_num_hosts b /\
   l_max_hosts a = l_max_hosts b /\ l_owner_id a = l_owner_id b /\
   l_owner_generation a = l_owner_generation b /\ l_lver a = l_lver b /\
   l_space_name a = l_space_name b /\ l_resource_name a = l_resource_name b).
Proof.
  unfold leaders_match. rewrite !andb_true_iff, !N.eqb_eq, !bytes_eqb_eq. tauto.
Qed.

Lemma leaders_match_refl a : leaders_match a a = true.
Proof. apply leaders_match_spec. repeat split. Qed.

Definition support (l : leader) (xs : list (leader * bool)) : nat :=
  length (filter (fun x => snd x && leaders_match (fst x) l) xs).

Lemma support_app l xs ys : support l (xs ++ ys) = (support l xs + support l ys)%nat.
Proof. unfold support. rewrite filter_app, app_length. reflexivity. Qed.

Lemma bump_in l arr a n :
  In (a, n) (bump l arr) ->
  (In (a, n) arr \/ exists m, n = S m /\ In (a, m) arr /\ leaders_match l a = true).
Proof.
  induction arr as [|(a0, n0) r IH]; cbn [bump]; [intros []|].
  destruct (leaders_match l a0) eqn:E; cbn [In].
  - intros [H|H]; [|auto]. injection H as -> <-. right. exists n0. auto.
  - intros [H|H]; [auto|]. destruct (IH H) as [|(m & ? & ? & ?)]; [auto|].
    right. exists m. auto.
Qed.

Lemma tally_support xs :
  forall a n, In (a, n) (tally xs) ->
    (n <= support a xs)%nat /\ exists ok, In (a, ok) xs.
Proof.
  unfold tally. induction xs as [|x xs IH] using rev_ind; intros a n; [intros []|].
  rewrite fold_left_app. cbn [fold_left]. destruct x as [l ok]. unfold tally_step at 1.
  rewrite support_app.
  assert (S1 : support a [(l, true)] = if leaders_match l a then 1%nat else 0%nat).
  { unfold support. cbn. destruct (leaders_match l a); reflexivity. }
  destruct ok.
  - intros H. apply in_app_or in H. destruct H as [H|[H|[]]].
    + apply bump_in in H. destruct H as [H|(m & -> & H & M)].
      * destruct (IH _ _ H) as (L & ok & I). split; [lia|]. exists ok. apply in_or_app. auto.
      * destruct (IH _ _ H) as (L & ok & I). rewrite S1, M. split; [lia|].
        exists ok. apply in_or_app. auto.
    + injection H as <- <-. rewrite S1, leaders_match_refl. split; [lia|].
      exists true. apply in_or_app. cbn. auto.
  - intros H. apply in_app_or in H. destruct H as [H|[H|[]]].
    + destruct (IH _ _ H) as (L & ok & I). split; [lia|]. exists ok. apply in_or_app. auto.
    + injection H as <- <-. split; [lia|]. exists false. apply in_or_app. cbn. auto.
Qed.

Lemma choose_ok xs l :
  choose xs = (SANLK_OK, l) ->
  majority_disks (Z.of_nat (length xs)) (Z.of_nat (support l xs)) = true /\
  exists ok, In (l, ok) xs.
Proof.
  unfold choose. destruct majority_disks eqn:E; cbn [negb]; [|discriminate].
  destruct find as [(a, n)|] eqn:F; [|discriminate].
  intros H. injection H as <-. apply find_some in F. destruct F as [F1 F2]. cbn [snd] in F2.
  destruct (tally_support _ _ _ F1) as (L & I). split; [|exact I].
  assert (0 < length xs)%nat.
  { destruct xs; [|cbn; lia]. destruct I as (? & []). }
  apply majority_half_conv; [lia|]. apply majority_half in F2; lia.
Qed.
