(* C48: initialising creates valid free leases, whatever was on the storage. *)
From Coq Require Import List NArith ZArith Lia Bool Arith ZifyBool ZifyN.
From Verif Require Import Bytes Crc Codec Leader Sizes Majority LeaderReadNum Init.
Import ListNotations.
Open Scope Z_scope.

(* ---------------- specification ---------------- *)
(* what host [h] finds on one disk of a resource: a valid free leader record naming the
   lockspace and resource, an empty request record, and for every host an empty ballot
   block and no shared lease *)
Definition res_free (space res : bytes) (h : N) (a : area) : Prop :=
  (let '(lr, ck) := read_leader_sector (a 0) in
   verify_leader space res h lr ck = SANLK_OK /\ l_timestamp lr = 0%N /\ l_lver lr = 0%N /\ l_owner_id lr = 0%N) /\
  request_record_in (get 0 REQUEST_SIZE (a 1)) = mkRequest 0x08292011 0x00010001 0 0.
Definition host_blank (a : area) (h : Z) : Prop :=
  let '(pd, ck) := host_sector_read_dblock (a (host_sector h)) in
  verify_dblock pd ck = true /\ pd = mkDblock 0 0 0 0 0 0 0 0 /\ host_sector_read_mblock (a (host_sector h)) = mkMblock 0 0.
Definition named (s : bytes) : Prop := all_bytes s.
(* the full claim also wants the hosts of the record to fit in the area *)
Definition C48_statement : Prop :=
  (forall flags dss nh clear now space res je jr olds news, clear = false ->
    length je = LEADER_SIZE -> length jr = REQUEST_SIZE -> named space -> named res -> (now < 2 ^ 64)%N -> - 2 ^ 31 <= nh < 2 ^ 31 ->
    paxos_init flags dss nh clear now space res je jr olds = Some news ->
    forall a, In a news -> exists n ss al mh, init_sizes flags dss = Some (ss, al, mh) /\ 1 <= n <= mh /\
      l_num_hosts (fst (read_leader_sector (a 0))) = Z.to_N n /\
      forall h, 1 <= h <= n -> res_free space res (Z.to_N h) a /\ host_blank a h) /\
  (forall flags dss io space je je' p old a, length je = LEADER_SIZE -> length je' = LEADER_SIZE -> named space ->
    delta_init flags dss io space je je' p old = Some a -> p <> DDone ->
    fst (read_sizes (a 0)) <> SANLK_OK).

(* ---------------- lemmas ---------------- *)
Lemma cstr_length : forall n s, (length (cstr n s) <= n)%nat.
Proof. induction n as [|n IH]; intros [|b s]; cbn; try lia. destruct (N.eqb b 0); cbn; [lia|]. specialize (IH s). lia. Qed.
Lemma cstr_all : forall n s, all_bytes s -> all_bytes (cstr n s).
Proof.
  intros n s H. revert n. induction H as [|b s Hb _ IH]; intros [|n]; cbn; try constructor. destruct (N.eqb b 0); constructor; auto. apply IH.
Qed.
Lemma cstr_pad : forall n s k, cstr n (cstr n s ++ repeat 0%N k) = cstr n s.
Proof.
  induction n as [|n IH]; intros s k; [reflexivity|]. destruct s as [|b s]; cbn.
  - destruct k; reflexivity.
  - destruct (N.eqb b 0) eqn:E; cbn; [destruct k; reflexivity|]. rewrite E. f_equal. apply IH.
Qed.
Lemma strncpy48_ok : forall s, length (strncpy48 s) = NAME_ID_SIZE /\ (all_bytes s -> all_bytes (strncpy48 s)) /\
  strncmp_eq NAME_ID_SIZE (strncpy48 s) s = true.
Proof.
  intros s. unfold strncpy48. assert (L := cstr_length NAME_ID_SIZE s). split; [rewrite app_length, repeat_length; lia|]. split.
  - intros A. apply Forall_app. split; [apply cstr_all; exact A|]. apply Forall_forall. intros x X. apply repeat_spec in X. subst x. reflexivity.
  - apply strncmp_eq_spec. apply cstr_pad.
Qed.
Lemma init_sizes_cases : forall flags dss ss al mh, init_sizes flags dss = Some (ss, al, mh) ->
  In (ss, al, mh) [(512, ALIGN_SIZE_1M, 2000); (4096, ALIGN_SIZE_1M, 250); (4096, ALIGN_SIZE_2M, 500); (4096, ALIGN_SIZE_4M, 1000); (4096, ALIGN_SIZE_8M, 2000)].
Proof.
  intros flags dss ss al mh H. unfold init_sizes in H. destruct (sizes_from_flags flags) as [[[s0 a0] m0]|] eqn:F; [|discriminate H].
  destruct (s0 =? 0) eqn:Z0.
  - unfold sector_size_to_align_size_old in H. destruct (dss =? 512) eqn:E1; [|destruct (dss =? 4096) eqn:E2; [|discriminate H]].
    + assert (dss = 512) by lia. subst dss. injection H as <- <- <-. cbn. auto.
    + assert (dss = 4096) by lia. subst dss. injection H as <- <- <-. cbn. auto 8.
  - injection H as <- <- <-. unfold sizes_from_flags in F.
    destruct (negb (Bool.eqb (sector_flag_to_size flags =? 0) (align_size_from_flag flags =? 0))); [discriminate F|].
    destruct (sector_flag_to_size flags =? 0); [injection F as <- <- <-; discriminate Z0|].
    unfold size_to_max_hosts in F. set (al := align_size_from_flag flags) in *. set (ss := sector_flag_to_size flags) in *.
    destruct ((al =? ALIGN_SIZE_1M) && (ss =? 512)) eqn:E1. { injection F as <- <- <-. left. repeat f_equal; lia. }
    destruct ((al =? ALIGN_SIZE_1M) && (ss =? 4096)) eqn:E2. { injection F as <- <- <-. right; left. repeat f_equal; lia. }
    destruct ((al =? ALIGN_SIZE_2M) && (ss =? 4096)) eqn:E3. { injection F as <- <- <-. right; right; left. repeat f_equal; lia. }
    destruct ((al =? ALIGN_SIZE_4M) && (ss =? 4096)) eqn:E4. { injection F as <- <- <-. do 3 right; left. repeat f_equal; lia. }
    destruct ((al =? ALIGN_SIZE_8M) && (ss =? 4096)) eqn:E5. { injection F as <- <- <-. do 4 right; left. repeat f_equal; lia. }
    discriminate F.
Qed.

Lemma sizes_facts : forall flags dss ss al mh, init_sizes flags dss = Some (ss, al, mh) ->
  (ss = 512 \/ ss = 4096) /\ mh + 2 <= al / ss /\ 250 <= mh <= 2000 /\
  align_size_from_flag (align_flag_from_size al) = al /\ (align_flag_from_size al < 2 ^ 32)%N /\ al <> 0 /\ size_to_max_hosts ss al = mh.
Proof.
  intros flags dss ss al mh H. apply init_sizes_cases in H. cbn [In] in H.
  destruct H as [H|[H|[H|[H|[H|[]]]]]]; injection H as <- <- <-;
    (split; [auto|]); (split; [vm_compute; discriminate|]); (split; [lia|]); (split; [reflexivity|]); (split; [reflexivity|]); (split; [discriminate|reflexivity]).
Qed.
Lemma num_hosts_ok : forall nh mh, 0 <= nh -> 1 <= mh <= 2000 -> exists n, 1 <= n <= mh /\ init_num_hosts nh mh = Z.to_N n /\ (nh <> 0 -> nh <= mh -> n = nh).
Proof.
  intros nh mh N M. unfold init_num_hosts. destruct ((nh =? 0) || (mh <? nh)) eqn:E.
  - exists mh. split; [lia|]. split; [rewrite Z.mod_small; [reflexivity|]; assert (2000 < 2 ^ 64) by reflexivity; lia|]. lia.
  - exists nh. split; [lia|]. split; [rewrite Z.mod_small; [reflexivity|]; assert (2000 < 2 ^ 64) by reflexivity; lia|]. lia.
Qed.
Lemma u32_lt : forall v, (v < 2 ^ 31)%N -> u32 v. Proof. intros v H. unfold u32. assert (2 ^ 31 < 2 ^ 32)%N by reflexivity. lia. Qed.
Lemma init_leader_wf : forall clear now ss al mh nh space res, (now < 2 ^ 64)%N -> (ss = 512 \/ ss = 4096) -> 250 <= mh <= 2000 ->
  (align_flag_from_size al < 2 ^ 32)%N -> (nh < 2 ^ 64)%N -> named space -> named res ->
  leader_wf (init_leader clear now ss al mh nh space res).
Proof.
  intros clear now ss al mh nh space res Hn Hs Hm Ha Hnh Sp Rs. unfold leader_wf, init_leader. cbn [l_magic l_version l_flags l_sector_size l_num_hosts l_max_hosts l_owner_id l_owner_generation l_lver l_space_name l_resource_name l_timestamp l_unused1 l_checksum l_unused2 l_io_timeout l_write_id l_write_generation l_write_timestamp].
  assert (Z64 : u64 0) by reflexivity. assert (Z32 : u32 0) by reflexivity. assert (Z16 : u16 0) by reflexivity.
  destruct (strncpy48_ok space) as (L1 & A1 & _). destruct (strncpy48_ok res) as (L2 & A2 & _).
  split; [destruct clear; reflexivity|]. split; [reflexivity|]. split; [exact Ha|].
  split; [destruct Hs as [-> | ->]; reflexivity|]. split; [exact Hnh|].
  split; [unfold u64; assert (2000 < 2 ^ 64)%N by reflexivity; lia|].
  do 3 (split; [exact Z64|]). split; [auto|]. split; [auto|]. do 2 (split; [exact Z64|]). split; [exact Z32|]. do 2 (split; [exact Z16|]).
  do 2 (split; [exact Z64|]). destruct clear; [exact Hn|exact Z64].
Qed.
Lemma version_ok : N.land (N.lor PAXOS_DISK_VERSION_MAJOR PAXOS_DISK_VERSION_MINOR) 0xFFFF0000 = PAXOS_DISK_VERSION_MAJOR /\
  N.land (N.lor DELTA_DISK_VERSION_MAJOR DELTA_DISK_VERSION_MINOR) 0xFFFF0000 = DELTA_DISK_VERSION_MAJOR.
Proof. split; reflexivity. Qed.

Lemma image_at : forall cnt img old i, 0 <= i < cnt -> write_area cnt all_land img old i = img i.
Proof. intros cnt img old i H. unfold write_area, all_land. assert ((0 <=? i) && (i <? cnt) && true = true) as -> by lia. reflexivity. Qed.
Lemma request_read : forall jr junk, length jr = REQUEST_SIZE -> request_record_in (get 0 REQUEST_SIZE (request_record_out init_request jr ++ junk)) = init_request.
Proof.
  intros jr junk L. unfold REQUEST_SIZE in L. do 24 (destruct jr as [|? jr]; [discriminate L|]). destruct jr; [|discriminate L].
  vm_compute. reflexivity.
Qed.
Lemma zeros_blank : forall ss, ss = 512 \/ ss = 4096 -> let z := zeros (Z.to_nat ss) in
  let '(pd, ck) := host_sector_read_dblock z in
  verify_dblock pd ck = true /\ pd = mkDblock 0 0 0 0 0 0 0 0 /\ host_sector_read_mblock z = mkMblock 0 0.
Proof. intros ss [-> | ->]; vm_compute; auto. Qed.

(* what a verified leader record of an initialised resource is *)
Lemma leader_init_read : forall clear now ss al mh nh space res je junk,
  leader_wf (init_leader clear now ss al mh nh space res) -> length je = LEADER_SIZE ->
  forall h, let '(lr, ck) := read_leader_sector (leader_bytes (init_leader clear now ss al mh nh space res) je ++ junk) in
  (lr = leader_set_checksum (init_leader clear now ss al mh nh space res) ck) /\
  verify_leader space res h lr ck = (if clear then SANLK_LEADER_MAGIC else if (nh <? h)%N then SANLK_LEADER_NUMHOSTS else SANLK_OK).
Proof.
  intros clear now ss al mh nh space res je junk W L h. rewrite (leader_sector_roundtrip _ je junk W L). split; [reflexivity|].
  unfold verify_leader. set (ck := leader_checksum _). unfold leader_set_checksum, init_leader.
  cbn [l_magic l_version l_space_name l_resource_name l_num_hosts l_checksum].
  destruct clear; [reflexivity|]. change (PAXOS_DISK_MAGIC =? PAXOS_DISK_CLEAR)%N with false. cbv iota.
  rewrite N.eqb_refl. cbn [negb]. rewrite (proj1 version_ok), N.eqb_refl. cbn [negb].
  rewrite (proj2 (proj2 (strncpy48_ok space))), (proj2 (proj2 (strncpy48_ok res))). cbn [negb]. rewrite N.eqb_refl. reflexivity.
Qed.

(* ---------------- resources ---------------- *)
(* For every previous content of every disk, every accepted size, every pair of names
   and every non-negative number of hosts, after paxos_lease_init each disk holds a
   valid free lease for each host it is made for, with the layout asked for. *)
Theorem C48_resource : forall flags dss nh now space res je jr olds news,
  length je = LEADER_SIZE -> length jr = REQUEST_SIZE -> named space -> named res -> (now < 2 ^ 64)%N -> 0 <= nh ->
  paxos_init flags dss nh false now space res je jr olds = Some news ->
  exists n ss al mh, init_sizes flags dss = Some (ss, al, mh) /\ 1 <= n <= mh /\ (nh <> 0 -> nh <= mh -> n = nh) /\ length news = length olds /\
  forall a, In a news ->
    let lr := fst (read_leader_sector (a 0)) in
    l_num_hosts lr = Z.to_N n /\ l_max_hosts lr = Z.to_N mh /\ l_sector_size lr = Z.to_N ss /\ align_size_from_flag (l_flags lr) = al /\
    (forall h, 1 <= h <= n -> res_free space res (Z.to_N h) a) /\ (forall h, 1 <= h <= mh -> host_blank a h).
Proof.
  intros flags dss nh now space res je jr olds news Lj Lr Sp Rs Hn Nh H. unfold paxos_init in H.
  destruct (init_sizes flags dss) as [[[ss al] mh]|] eqn:SZ; [|discriminate H]. injection H as <-.
  destruct (sizes_facts _ _ _ _ _ SZ) as (S1 & S2 & S3 & S4 & S5 & S6 & S7).
  destruct (num_hosts_ok nh mh Nh ltac:(lia)) as (n & N1 & N2 & N3). exists n, ss, al, mh.
  split; [reflexivity|]. split; [exact N1|]. split; [exact N3|]. split; [apply map_length|].
  intros a A. apply in_map_iff in A. destruct A as (old & <- & _).
  assert (W : leader_wf (init_leader false now ss al mh (init_num_hosts nh mh) space res)).
  { apply init_leader_wf; auto. rewrite N2. assert (2000 < 2 ^ 64)%N by reflexivity. lia. }
  assert (A0 : forall i, 0 <= i < mh + 2 -> write_area (al / ss) all_land (init_image ss (init_leader false now ss al mh (init_num_hosts nh mh) space res) je jr) old i =
    init_image ss (init_leader false now ss al mh (init_num_hosts nh mh) space res) je jr i) by (intros i Hi; apply image_at; lia).
  cbv zeta. unfold res_free.
  setoid_rewrite (A0 0 ltac:(lia)). setoid_rewrite (A0 1 ltac:(lia)).
  change (init_image ss (init_leader false now ss al mh (init_num_hosts nh mh) space res) je jr 0) with
    (leader_bytes (init_leader false now ss al mh (init_num_hosts nh mh) space res) je ++ zeros (Z.to_nat ss - LEADER_SIZE)).
  change (init_image ss (init_leader false now ss al mh (init_num_hosts nh mh) space res) je jr 1) with
    (request_record_out init_request jr ++ zeros (Z.to_nat ss - REQUEST_SIZE)).
  assert (R := leader_init_read false now ss al mh (init_num_hosts nh mh) space res je (zeros (Z.to_nat ss - LEADER_SIZE)) W Lj).
  destruct (read_leader_sector _) as [lr ck] eqn:RL. cbn [fst]. assert (R0 := R 0%N). destruct R0 as (E & _).
  split; [rewrite E; cbn; exact N2|]. split; [rewrite E; reflexivity|]. split; [rewrite E; reflexivity|]. split; [rewrite E; cbn; exact S4|].
  split.
  - intros h Hh. split; [|apply request_read; exact Lr]. destruct (R (Z.to_N h)) as (_ & V). rewrite V, N2.
    assert ((Z.to_N n <? Z.to_N h)%N = false) as -> by lia. rewrite E. cbn. auto.
  - intros h Hh. unfold host_blank, host_sector. rewrite A0 by lia. unfold init_image. assert (2 + h - 1 =? 0 = false) as -> by lia.
    assert (2 + h - 1 =? 1 = false) as -> by lia. apply zeros_blank. exact S1.
Qed.

(* reading it from the disks of the lease gives that record *)
Lemma tally_same : forall l n, leaders_match l l = true -> exists r, tally (repeat (l, true) (S n)) = (l, S n) :: r.
Proof.
  intros l n M. induction n as [|n IH]; [exists []; reflexivity|]. destruct IH as (r & IH).
  assert (E : repeat (l, true) (S (S n)) = repeat (l, true) (S n) ++ [(l, true)]) by (clear; induction (S n) as [|k IH]; [reflexivity|]; cbn [repeat app] in *; f_equal; exact IH).
  unfold tally in *. rewrite E, fold_left_app, IH. cbn [fold_left tally_step bump]. rewrite M. eexists. reflexivity.
Qed.
Lemma majority_all : forall n, 1 <= n -> majority_disks n n = true.
Proof. intros n H. apply majority_half_conv; lia. Qed.
Lemma filter_same : forall (l : leader) n, filter snd (repeat (l, true) n) = repeat (l, true) n.
Proof. intros l n. induction n as [|n IH]; [reflexivity|]. cbn. f_equal. exact IH. Qed.
Lemma choose_same : forall l n, choose (repeat (l, true) (S n)) = (SANLK_OK, l).
Proof.
  intros l n. unfold choose. destruct (tally_same l n (leaders_match_refl l)) as (r & ->).
  unfold num_reads. rewrite filter_same, repeat_length, majority_all by lia. cbn [negb find snd]. rewrite majority_all by lia. reflexivity.
Qed.
Theorem C48_read_all_disks : forall flags dss nh now space res je jr olds news h,
  length je = LEADER_SIZE -> length jr = REQUEST_SIZE -> named space -> named res -> (now < 2 ^ 64)%N -> 0 <= nh -> olds <> [] ->
  paxos_init flags dss nh false now space res je jr olds = Some news ->
  exists n, 1 <= n /\ (1 <= h <= n -> exists lr,
    leader_read_num space res (Z.to_N h) (map (fun a => Some (a 0)) news) = (SANLK_OK, lr) /\ l_timestamp lr = 0%N /\ l_num_hosts lr = Z.to_N n).
Proof.
  intros flags dss nh now space res je jr olds news h Lj Lr Sp Rs Hn Nh NE H.
  destruct (C48_resource _ _ _ _ _ _ _ _ _ _ Lj Lr Sp Rs Hn Nh H) as (n & ss & al & mh & SZ & N1 & _ & LEN & ALL).
  exists n. split; [lia|]. intros Hh.
  assert (SAME : exists lr, forall x, In x (map (read_disk space res (Z.to_N h)) (map (fun a : area => Some (a 0)) news)) -> x = (lr, true)).
  { unfold paxos_init in H. rewrite SZ in H. injection H as <-. set (img := init_image _ _ _ _) in *.
    exists (fst (read_leader_sector (img 0))). intros x X. rewrite map_map in X. apply in_map_iff in X. destruct X as (a & <- & A).
    assert (AA := A). apply in_map_iff in A. destruct A as (old & E & _). 
    destruct (sizes_facts _ _ _ _ _ SZ) as (_ & S2 & S3 & _).
    assert (A0 : a 0 = img 0) by (rewrite <- E; apply image_at; lia).
    destruct (ALL a AA) as (_ & _ & _ & _ & RF & _). destruct (RF h Hh) as (V & _).
    unfold read_disk. rewrite A0 in *. destruct (read_leader_sector (img 0)) as [lr ck]. destruct V as (V & _). rewrite V. reflexivity. }
  destruct SAME as (lr & SAME). exists lr. unfold leader_read_num. set (xs := map (read_disk space res (Z.to_N h)) (map (fun a : area => Some (a 0)) news)) in *.
  assert (XS : exists k, xs = repeat (lr, true) (S k)).
  { assert (R : xs = repeat (lr, true) (length xs)). { clear - SAME. induction xs as [|x xs IH]; [reflexivity|]. cbn. rewrite (SAME x (or_introl eq_refl)). f_equal. apply IH. intros y Y. apply SAME. right. exact Y. }
    assert (LX : length xs = length olds) by (unfold xs; rewrite !map_length; exact LEN). destruct olds as [|o os]; [congruence|]. exists (length os). rewrite R, LX. reflexivity. }
  destruct XS as (k & XS). split; [transitivity (choose xs); [reflexivity|rewrite XS; apply choose_same]|].
  assert (NN : exists a, In a news). { destruct news as [|a news]; [|exists a; left; reflexivity]. exfalso. unfold xs in XS. discriminate XS. }
  destruct NN as (a & A). destruct (ALL a A) as (E1 & _ & _ & _ & RF & _). destruct (RF h Hh) as (V & _).
  assert (X := SAME (read_disk space res (Z.to_N h) (Some (a 0)))).
  assert (XX : read_disk space res (Z.to_N h) (Some (a 0)) = (lr, true)). { apply X. unfold xs. rewrite map_map. apply in_map_iff. exists a. auto. }
  unfold read_disk in XX. destruct (read_leader_sector (a 0)) as [l2 ck]. cbn [fst] in E1. assert (l2 = lr) by congruence. subst l2. split; [apply V|exact E1].
Qed.

(* a cleared resource is not a lease for anybody *)
Theorem C48_cleared : forall flags dss nh now space res je jr olds news,
  length je = LEADER_SIZE -> named space -> named res -> (now < 2 ^ 64)%N ->
  paxos_init flags dss nh true now space res je jr olds = Some news ->
  forall a sp rs h, In a news -> let '(lr, ck) := read_leader_sector (a 0) in verify_leader sp rs h lr ck = SANLK_LEADER_MAGIC.
Proof.
  intros flags dss nh now space res je jr olds news Lj Sp Rs Hn H a sp rs h A. unfold paxos_init in H.
  destruct (init_sizes flags dss) as [[[ss al] mh]|] eqn:SZ; [|discriminate H]. injection H as <-.
  destruct (sizes_facts _ _ _ _ _ SZ) as (S1 & S2 & S3 & S4 & S5 & _). apply in_map_iff in A. destruct A as (old & <- & _).
  rewrite image_at by lia.
  change (init_image ss (init_leader true now ss al mh (init_num_hosts nh mh) space res) je jr 0) with
    (leader_bytes (init_leader true now ss al mh (init_num_hosts nh mh) space res) je ++ zeros (Z.to_nat ss - LEADER_SIZE)).
  rewrite leader_sector_roundtrip; [reflexivity| |exact Lj]. apply init_leader_wf; auto.
  unfold init_num_hosts. assert (B := Z.mod_pos_bound (if (nh =? 0) || (mh <? nh) then mh else nh) (2 ^ 64) eq_refl).
  assert (E : (2 ^ 64)%N = Z.to_N (2 ^ 64)) by reflexivity. rewrite E. lia.
Qed.

(* ---------------- lockspaces ---------------- *)
Lemma delta_leader_wf : forall magic ss al io space, (magic < 2 ^ 31)%N -> (ss = 512 \/ ss = 4096) -> (align_flag_from_size al < 2 ^ 32)%N -> named space ->
  leader_wf (delta_leader magic ss al io space).
Proof.
  intros magic ss al io space Hm Hs Ha Sp. unfold leader_wf, delta_leader. cbn [l_magic l_version l_flags l_sector_size l_num_hosts l_max_hosts l_owner_id l_owner_generation l_lver l_space_name l_resource_name l_timestamp l_unused1 l_checksum l_unused2 l_io_timeout l_write_id l_write_generation l_write_timestamp].
  assert (Z64 : u64 0) by reflexivity. assert (Z32 : u32 0) by reflexivity. assert (Z16 : u16 0) by reflexivity.
  destruct (strncpy48_ok space) as (L1 & A1 & _).
  split; [apply u32_lt; exact Hm|]. split; [reflexivity|]. split; [exact Ha|].
  split; [destruct Hs as [-> | ->]; reflexivity|]. split; [exact Z64|]. split; [reflexivity|].
  do 3 (split; [exact Z64|]). split; [auto|]. split; [split; [apply repeat_length|apply Forall_forall; intros x X; apply repeat_spec in X; subst x; reflexivity]|].
  do 2 (split; [exact Z64|]). split; [exact Z32|]. split; [exact Z16|].
  split; [|auto]. unfold u16. assert (B := Z.mod_pos_bound io (2 ^ 16) eq_refl). assert (E : (2 ^ 16)%N = Z.to_N (2 ^ 16)) by reflexivity. rewrite E. lia.
Qed.
Lemma delta_magic_lt : (DELTA_DISK_MAGIC < 2 ^ 31)%N. Proof. reflexivity. Qed.

(* After delta_lease_init, whatever was there before, every host of the lockspace reads a
   valid free lease with its name, and the sizes are recognised. *)
Theorem C48_lockspace : forall flags dss io space je je' old a, length je = LEADER_SIZE -> length je' = LEADER_SIZE -> named space ->
  delta_init flags dss io space je je' DDone old = Some a ->
  exists ss al mh, init_sizes flags dss = Some (ss, al, mh) /\ read_sizes (a 0) = (SANLK_OK, (ss, al)) /\ size_to_max_hosts ss al = mh /\
  forall h, 1 <= h <= mh -> let '(r, lr) := delta_read space h a in
    r = SANLK_OK /\ l_timestamp lr = 0%N /\ l_owner_id lr = 0%N /\ l_owner_generation lr = 0%N /\ l_io_timeout lr = Z.to_N (io mod 2 ^ 16) /\
    l_sector_size lr = Z.to_N ss.
Proof.
  intros flags dss io space je je' old a Lj Lj' Sp H. unfold delta_init in H.
  destruct (init_sizes flags dss) as [[[ss al] mh]|] eqn:SZ; [|discriminate H]. injection H as <-.
  destruct (sizes_facts _ _ _ _ _ SZ) as (S1 & S2 & S3 & S4 & S5 & S6 & S7). exists ss, al, mh. split; [reflexivity|].
  assert (W := delta_leader_wf DELTA_DISK_MAGIC ss al io space delta_magic_lt S1 S5 Sp).
  split; [|split; [exact S7|]].
  - change (0 =? 0) with true. cbv iota. unfold read_sizes, delta_commit. rewrite (leader_sector_roundtrip _ je' _ W Lj'). cbn [fst].
    unfold leader_set_checksum, delta_leader. cbn [l_magic l_version l_sector_size l_flags]. rewrite N.eqb_refl. cbn [negb].
    rewrite (proj2 version_ok), N.eqb_refl. cbn [negb]. rewrite S4. assert (al =? 0 = false) as -> by lia.
    rewrite Z2N.id by lia. reflexivity.
  - intros h Hh. unfold delta_read, delta_sector.
    assert (E : exists j k, (if h - 1 =? 0 then delta_commit ss al io space je' else write_area (al / ss) all_land (delta_image ss al mh io space je) old (h - 1)) =
      leader_bytes (delta_leader DELTA_DISK_MAGIC ss al io space) j ++ zeros k /\ length j = LEADER_SIZE).
    { destruct (h - 1 =? 0) eqn:E0; [exists je'; eexists; split; [reflexivity|exact Lj']|]. exists je. eexists. split; [|exact Lj].
      rewrite image_at by lia. unfold delta_image. assert ((0 <=? h - 1) && (h - 1 <? mh) = true) as -> by lia. rewrite E0. reflexivity. }
    destruct E as (j & k & E & L). cbv zeta. rewrite E, (leader_sector_roundtrip _ j _ W L).
    split; [|cbn; auto 6]. unfold delta_verify_leader, leader_set_checksum, delta_leader. cbn [l_magic l_version l_space_name l_checksum].
    rewrite N.eqb_refl. cbn [negb]. rewrite (proj2 version_ok), N.eqb_refl. cbn [negb]. rewrite (proj2 (proj2 (strncpy48_ok space))). cbn [negb].
    rewrite N.eqb_refl. reflexivity.
Qed.

(* A crash during the initialisation leaves something that is not recognised, provided
   the first sector was reached, or did not look like a lockspace before.
   Missing from the full statement: a crash before the first sector is written over an
   older lockspace (refuted below). *)
Theorem C48_crash_partial : forall flags dss io space je je' p old a, length je = LEADER_SIZE -> named space ->
  delta_init flags dss io space je je' p old = Some a -> p <> DDone ->
  (match p with DTorn land => land 0 = true | _ => True end \/ fst (read_sizes (old 0)) <> SANLK_OK) ->
  fst (read_sizes (a 0)) <> SANLK_OK.
Proof.
  intros flags dss io space je je' p old a Lj Sp H ND C. unfold delta_init in H.
  destruct (init_sizes flags dss) as [[[ss al] mh]|] eqn:SZ; [|discriminate H]. injection H as <-.
  destruct (sizes_facts _ _ _ _ _ SZ) as (S1 & S2 & S3 & S4 & S5 & S6 & S7).
  assert (NW : fst (read_sizes (delta_image ss al mh io space je 0)) <> SANLK_OK).
  { unfold delta_image. assert ((0 <=? 0) && (0 <? mh) = true) as -> by lia. change (0 =? 0) with true. cbv iota.
    unfold read_sizes. rewrite leader_sector_roundtrip; [|apply delta_leader_wf; auto; reflexivity|exact Lj].
    cbn [fst]. unfold leader_set_checksum, delta_leader. cbn [l_magic]. change (0 =? DELTA_DISK_MAGIC)%N with false. cbn. discriminate. }
  destruct p as [land| |]; [| |congruence].
  - unfold write_area. assert ((0 <=? 0) && (0 <? al / ss) = true) as -> by lia. cbn [andb].
    destruct (land 0) eqn:L0; [exact NW|]. destruct C as [C|C]; [congruence|exact C].
  - rewrite image_at by lia. exact NW.
Qed.

(* ---------------- refutations ---------------- *)
(* A re-initialisation torn before its first sector: the other hosts' leases are already
   reset, and the lockspace is still recognised - a host that held host id 2 finds its
   lease free. *)
Definition old_space : area := fun i =>
  if i =? 0 then delta_commit 512 ALIGN_SIZE_1M 10 [65%N] (zeros LEADER_SIZE)
  else leader_bytes (mkLeader DELTA_DISK_MAGIC 0x00030004 0x10 512 0 1 2 7 0 (strncpy48 [65%N]) (strncpy48 [66%N]) 99 0 0 0 10 0 0 0) (zeros LEADER_SIZE) ++ zeros 312.
Theorem C48_crash_refuted : exists a, delta_init 0 512 10 [65%N] (zeros LEADER_SIZE) (zeros LEADER_SIZE) (DTorn (fun i => 0 <? i)) old_space = Some a /\
  read_sizes (a 0) = (SANLK_OK, (512, ALIGN_SIZE_1M)) /\
  (fst (delta_read [65%N] 2 old_space), l_timestamp (snd (delta_read [65%N] 2 old_space))) = (SANLK_OK, 99%N) /\
  (fst (delta_read [65%N] 2 a), l_timestamp (snd (delta_read [65%N] 2 a))) = (SANLK_OK, 0%N).
Proof. eexists. split; [reflexivity|]. vm_compute. auto. Qed.
(* a negative number of hosts is stored as a number beyond every area *)
Theorem C48_num_hosts_refuted : forall space res je jr old, length je = LEADER_SIZE -> named space -> named res ->
  exists a, paxos_init 0 512 (-1) false 0 space res je jr [old] = Some [a] /\
  l_num_hosts (fst (read_leader_sector (a 0))) = (2 ^ 64 - 1)%N /\ l_max_hosts (fst (read_leader_sector (a 0))) = 2000%N.
Proof.
  intros space res je jr old Lj Sp Rs.
  set (lr := init_leader false 0 512 ALIGN_SIZE_1M DEFAULT_MAX_HOSTS (init_num_hosts (-1) DEFAULT_MAX_HOSTS) space res).
  exists (write_area (ALIGN_SIZE_1M / 512) all_land (init_image 512 lr je jr) old). split; [reflexivity|].
  rewrite image_at by (split; [discriminate|reflexivity]).
  change (init_image 512 lr je jr 0) with (leader_bytes lr je ++ zeros (Z.to_nat 512 - LEADER_SIZE)). unfold lr.
  rewrite leader_sector_roundtrip; [|apply init_leader_wf; auto; try reflexivity; unfold DEFAULT_MAX_HOSTS; lia|exact Lj].
  split; reflexivity.
Qed.
Theorem C48_refuted : ~ C48_statement.
Proof.
  intros (_ & H). destruct C48_crash_refuted as (a & E & R & _).
  refine (H 0%N 512 10 [65%N] (zeros LEADER_SIZE) (zeros LEADER_SIZE) _ old_space a _ _ _ E _ _); [reflexivity|reflexivity|repeat constructor|discriminate|rewrite R; reflexivity].
Qed.

(* non-vacuity: two disks with garbage, 4096 byte sectors in 2 MB areas, 5 hosts *)
Example C48_nonvacuous : exists news, paxos_init 0x220 512 5 false 0 [65%N] [66%N; 67%N] (zeros LEADER_SIZE) (repeat 255%N 24) [fun _ => [1%N]; fun _ => []] = Some news /\
  init_sizes 0x220 512 = Some (4096, ALIGN_SIZE_2M, 500) /\
  map (fun a : area => l_num_hosts (fst (read_leader_sector (a 0)))) news = [5%N; 5%N].
Proof. eexists. split; [reflexivity|]. split; [reflexivity|]. vm_compute. reflexivity. Qed.

Print Assumptions C48_resource.
Print Assumptions C48_read_all_disks.
Print Assumptions C48_cleared.
Print Assumptions C48_lockspace.
Print Assumptions C48_crash_partial.
Print Assumptions C48_crash_refuted.
Print Assumptions C48_num_hosts_refuted.
Print Assumptions C48_refuted.
