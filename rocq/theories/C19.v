(* C19: a host id renewal succeeds only on an untouched lease. *)
From Coq Require Import List NArith ZArith Lia Bool Arith ZifyBool ZifyN.
From Verif Require Import Bytes Crc Codec Leader LeaderReadNum Acquire DeltaRenew.
Import ListNotations.
Open Scope N_scope.

(* ---- specification ---- *)
(* what the lockspace area shows for a host id: the 200 bytes of its sector *)
Definition slot (area : bytes) (host_id ss : N) : bytes :=
  firstn 200 (skipn (N.to_nat ((host_id - 1) * ss)) area).

Definition same_owner (a b : leader) : Prop :=
  l_owner_id a = l_owner_id b /\ l_owner_generation a = l_owner_generation b /\
  l_resource_name a = l_resource_name b.

(* the host id lies in the lockspace area *)
Definition id_in_area (host_id ss align : N) : Prop :=
  1 <= host_id /\ 200 <= ss /\ host_id * ss <= align /\ align < 2 ^ 64.

Lemma id_fits h ss align : id_in_area h ss align -> id_offset h ss = (h - 1) * ss /\ (h - 1) * ss + 200 <= align.
Proof.
  intros (A & B & C & D). assert (X : (h - 1) * ss + ss = h * ss) by nia. split; [|lia].
  apply id_offset_small; try nia.
Qed.

(* A renewal writes only if the read succeeded and the record in the host's slot
   is valid, has the owner, generation and name that this host last wrote and,
   if the previous renewal succeeded, is the record that this host last wrote.
   It writes to that slot only, and changes only timestamp, io_timeout, the
   extra fields and the checksum.  It reports success only if it wrote. *)
Theorem C19_writes_only_untouched :
  forall space io ss align bitmap extra prev last rv area ts wrv res w ret,
    id_in_area (l_owner_id last) ss align ->
    delta_lease_renew space io ss align bitmap extra prev last (rv, area) ts wrv = Rn res (Some w) ret ->
    let e := slot area (l_owner_id last) ss in
    let l := leader_record_in e in
    rv = 0%Z /\ l_checksum l = leader_checksum e /\ same_owner l last /\
    (prev = SANLK_OK -> l = last) /\
    fst w = (l_owner_id last - 1) * ss /\
    exists nl, snd w = renew_sector (N.to_nat ss) nl e bitmap /\
      l_timestamp nl = ts /\ same_owner nl last /\
      l_magic nl = l_magic l /\ l_version nl = l_version l /\ l_space_name nl = l_space_name l /\
      l_flags nl = l_flags l /\ l_lver nl = l_lver l /\ l_num_hosts nl = l_num_hosts l /\
      l_max_hosts nl = l_max_hosts l /\ l_sector_size nl = l_sector_size l /\
      (extra = None -> l_write_id nl = l_write_id l /\ l_write_generation nl = l_write_generation l /\
                       l_write_timestamp nl = l_write_timestamp l) /\
      (res = SANLK_OK -> ret = Some (leader_set_checksum nl (leader_checksum (leader_bytes nl e)))) /\
      (res <> SANLK_OK -> res = wrv /\ ret = None).
Proof.
  intros space io ss align bitmap extra prev last rv area ts wrv res w ret A H e l.
  destruct (id_fits _ _ _ A) as [Eo Fo]. unfold delta_lease_renew in H. rewrite Eo in H.
  set (off := (l_owner_id last - 1) * ss) in *.
  destruct (align <? off) eqn:E0; [discriminate H|].
  destruct (negb (rv =? 0)%Z) eqn:E1; [discriminate H|].
  destruct (align <? off + N.of_nat LEADER_SIZE) eqn:E2; [discriminate H|].
  change (get (N.to_nat off) LEADER_SIZE area) with e in H. fold l in H.
  destruct (delta_verify_leader space l (leader_checksum e) <? 0)%Z eqn:E3; [discriminate H|].
  destruct (negb (l_owner_id l =? l_owner_id last) || _ || _) eqn:E4; [discriminate H|].
  destruct ((prev =? SANLK_OK)%Z && negb (leader_eqb l last)) eqn:E5; [discriminate H|].
  rewrite !orb_false_iff, !negb_false_iff in E4. destruct E4 as [[E4 E4'] E4''].
  rewrite bytes_eqb_eq in E4''.
  assert (Cs : l_checksum l = leader_checksum e).
  { unfold delta_verify_leader in E3.
    repeat match type of E3 with ((if ?b then _ else _) <? 0)%Z = false => destruct b eqn:?; [discriminate E3|] end. lia. }
  assert (Pl : prev = SANLK_OK -> l = last).
  { intros ->. rewrite Z.eqb_refl in E5. cbn in E5. apply leader_eqb_eq. destruct (leader_eqb l last); auto. }
  assert (So : same_owner l last) by (unfold same_owner; intuition lia).
  split; [lia|]. split; [auto|]. split; [auto|]. split; [auto|].
  destruct (wrv <? 0)%Z eqn:E6; injection H as <- <- <-; cbn [fst snd]; (split; [auto|]);
    exists (renew_record io ts extra l); (split; [reflexivity|]); (split; [reflexivity|]);
    (split; [destruct So as (S1 & S2 & S3); split; [exact S1|split; [exact S2|exact S3]]|]).
  - repeat (split; [reflexivity|]). split; [intros ->; auto|]. split; [|auto].
    intros ->. unfold SANLK_OK in E6. lia.
  - repeat (split; [reflexivity|]). split; [intros ->; auto|]. split; [auto|]. congruence.
Qed.

(* success is reported only together with such a write *)
Theorem C19_success_wrote :
  forall space io ss align bitmap extra prev last rv area ts wrv w ret,
    rv <> SANLK_OK ->
    delta_lease_renew space io ss align bitmap extra prev last (rv, area) ts wrv = Rn SANLK_OK w ret ->
    w <> None /\ ret <> None /\ (0 <= wrv)%Z.
Proof.
  intros space io ss align bitmap extra prev last rv area ts wrv w ret Hr H. unfold delta_lease_renew in H.
  set (off := id_offset _ _) in *.
  destruct (align <? off); [discriminate H|].
  destruct (negb (rv =? 0)%Z) eqn:E1; [congruence|].
  destruct (align <? off + N.of_nat LEADER_SIZE); [discriminate H|].
  destruct (delta_verify_leader _ _ _ <? 0)%Z eqn:E3; [injection H; unfold SANLK_OK; lia|].
  match type of H with (if ?b then _ else _) = _ => destruct b end; [discriminate H|].
  match type of H with (if ?b then _ else _) = _ => destruct b end; [discriminate H|].
  destruct (wrv <? 0)%Z eqn:E6; [injection H as -> _ _; unfold SANLK_OK in *; lia|].
  injection H as <- <-. split; [discriminate|]. split; [discriminate|]. lia.
Qed.

(* The other cases: when the slot shows another owner, generation or name, or
   (after a success) any other record, nothing is written and the error says so. *)
Theorem C19_changed_fails :
  forall space io ss align bitmap extra prev last area ts wrv,
    id_in_area (l_owner_id last) ss align ->
    let e := slot area (l_owner_id last) ss in
    let l := leader_record_in e in
    delta_verify_leader space l (leader_checksum e) = SANLK_OK ->
    (~ same_owner l last ->
       delta_lease_renew space io ss align bitmap extra prev last (0%Z, area) ts wrv = Rn SANLK_RENEW_OWNER None None) /\
    (same_owner l last -> prev = SANLK_OK -> l <> last ->
       delta_lease_renew space io ss align bitmap extra prev last (0%Z, area) ts wrv = Rn SANLK_RENEW_DIFF None None).
Proof.
  intros space io ss align bitmap extra prev last area ts wrv A e l V.
  destruct (id_fits _ _ _ A) as [Eo Fo].
  unfold delta_lease_renew. rewrite Eo. set (off := (l_owner_id last - 1) * ss) in *.
  destruct (align <? off) eqn:E0; [lia|]. cbn [Z.eqb negb].
  change (N.of_nat LEADER_SIZE) with 200. destruct (align <? off + 200) eqn:E2; [lia|].
  change (get (N.to_nat off) LEADER_SIZE area) with e. fold l. rewrite V. cbn [Z.ltb Z.compare SANLK_OK].
  unfold same_owner. split.
  - intros N0. match goal with |- (if ?b then _ else _) = _ => destruct b eqn:E end; [reflexivity|].
    exfalso. apply N0. rewrite !orb_false_iff, !negb_false_iff, bytes_eqb_eq in E. intuition lia.
  - intros (S1 & S2 & S3) P N0.
    match goal with |- (if ?b then _ else _) = _ => destruct b eqn:E end.
    + exfalso. rewrite S1, S2, S3, !N.eqb_refl in E.
      assert (X : bytes_eqb (l_resource_name last) (l_resource_name last) = true) by (apply bytes_eqb_eq; auto).
      rewrite X in E. discriminate E.
    + subst prev. rewrite Z.eqb_refl. destruct (leader_eqb l last) eqn:E'; [|reflexivity].
      exfalso. apply N0. apply leader_eqb_eq. auto.
Qed.

(* The comparison does not get in the way of a host nobody interferes with: after
   a successful renewal with the sector still in place the next one writes. *)
Lemma slot_put area sec h ss :
  (N.to_nat ((h - 1) * ss) + length sec <= length area)%nat -> (200 <= length sec)%nat ->
  slot (put (N.to_nat ((h - 1) * ss)) sec area) h ss = firstn 200 sec.
Proof.
  intros L1 L2. unfold slot. set (o := N.to_nat _) in *.
  change (firstn 200 (skipn o (put o sec area))) with (get o 200 (put o sec area)).
  change (firstn 200 sec) with (get 0 200 sec).
  apply nth_error_ext. intros i. rewrite !nth_error_get. destruct (i <? 200)%nat eqn:E; auto.
  rewrite nth_error_put by lia.
  destruct (o <=? o + i)%nat eqn:F; [|lia]. destruct (o + i <? o + length sec)%nat eqn:G; [|lia].
  cbn [andb]. f_equal. lia.
Qed.

Lemma firstn_sector ss nl e bitmap :
  (512 <= ss)%nat -> length bitmap = HOSTID_BITMAP_SIZE -> leader_wf nl -> length e = LEADER_SIZE ->
  firstn 200 (renew_sector ss nl e bitmap) = leader_bytes nl e.
Proof.
  intros Hs Hb W He. unfold renew_sector.
  assert (G0 : forall x, firstn 200 x = get 0 200 x) by reflexivity. rewrite G0.
  pose proof (leader_bytes_length nl e W He) as L. unfold LEADER_SIZE in L. unfold HOSTID_BITMAP_SIZE in Hb.
  assert (Z : length (zeros ss) = ss) by (unfold zeros; apply repeat_length).
  assert (L2 : length (put 0 (leader_bytes nl e) (zeros ss)) = ss) by (eapply pl; [exact L|exact Z|lia]).
  unfold LEADER_RECORD_MAX. rewrite (gp_other 256 bitmap _ 0 200 256) by (auto; lia).
  rewrite (gp_same 0 200) by (auto; lia). reflexivity.
Qed.

Lemma leader_in_wf e : length e = LEADER_SIZE -> all_bytes e -> leader_wf (leader_record_in e).
Proof.
  intros L A.
  assert (G : forall o n, (o + n <= 200)%nat -> le_dec (get o n e) < 256 ^ N.of_nat n).
  { intros o n H. rewrite <- (get_length o n e) at 2 by (unfold LEADER_SIZE in L; lia).
    apply le_dec_bound. apply all_bytes_get; auto. }
  unfold leader_wf, leader_record_in, u16, u32, u64.
  cbn [l_magic l_version l_flags l_sector_size l_num_hosts l_max_hosts l_owner_id l_owner_generation l_lver
       l_space_name l_resource_name l_timestamp l_unused1 l_checksum l_unused2 l_io_timeout l_write_id
       l_write_generation l_write_timestamp].
  repeat split; try (apply G; lia); try (apply all_bytes_get; auto);
    (apply get_length; unfold LEADER_SIZE in L; unfold NAME_ID_SIZE; lia).
Qed.

Local Opaque leader_checksum leader_bytes leader_record_in crc32c strncmp_eq.

Theorem C19_untouched_renews :
  forall space io ss align bitmap extra prev last area ts wrv w last',
    id_in_area (l_owner_id last) ss align -> 512 <= ss -> length bitmap = HOSTID_BITMAP_SIZE ->
    length area = N.to_nat align -> all_bytes area -> u16 io -> u64 ts ->
    (forall a b c, extra = Some (a, b, c) -> u64 a /\ u64 b /\ u64 c) ->
    delta_lease_renew space io ss align bitmap extra prev last (0%Z, area) ts wrv = Rn SANLK_OK (Some w) (Some last') ->
    forall area' bitmap' extra' io' ts' wrv',
      slot area' (l_owner_id last') ss = firstn 200 (snd w) -> (0 <= wrv')%Z ->
      exists w' last'', delta_lease_renew space io' ss align bitmap' extra' SANLK_OK last' (0%Z, area') ts' wrv'
                          = Rn SANLK_OK (Some w') (Some last'').
Proof.
  intros space io ss align bitmap extra prev last area ts wrv w last' A Hs Hb La Ba Uio Uts Uex H
         area' bitmap' extra' io' ts' wrv' Sl Wr.
  pose proof (C19_writes_only_untouched _ _ _ _ _ _ _ _ _ _ _ _ _ _ _ A H) as X. cbv zeta in X.
  destruct X as (_ & _ & So & _ & _ & _).
  destruct (id_fits _ _ _ A) as [Eo Fo]. unfold delta_lease_renew in H. rewrite Eo in H.
  set (off := (l_owner_id last - 1) * ss) in *. set (e := slot area (l_owner_id last) ss) in *.
  destruct (align <? off) eqn:E0; [discriminate H|]. cbn [Z.eqb negb] in H.
  destruct (align <? off + N.of_nat LEADER_SIZE) eqn:E2; [discriminate H|].
  change (get (N.to_nat off) LEADER_SIZE area) with e in H.
  set (l := leader_record_in e) in *.
  destruct (delta_verify_leader space l (leader_checksum e) <? 0)%Z eqn:E3; [discriminate H|].
  match type of H with (if ?b then _ else _) = _ => destruct b end; [discriminate H|].
  match type of H with (if ?b then _ else _) = _ => destruct b end; [discriminate H|].
  destruct (wrv <? 0)%Z; [discriminate H|]. injection H as <- <-.
  set (nl := renew_record io ts extra l) in *. cbn [fst snd] in Sl.
  assert (Le : length e = LEADER_SIZE).
  { unfold e, slot. apply (get_length _ 200). unfold off in *. lia. }
  assert (Be : all_bytes e) by (apply (all_bytes_get _ 200); auto).
  pose proof (leader_in_wf e Le Be) as Wl. fold l in Wl.
  assert (Wn : leader_wf nl).
  { unfold leader_wf in Wl |- *. destruct Wl as (W1&W2&W3&W4&W5&W6&W7&W8&W9&Wa&Wb&W10&W11&W12&W13&W14&W15&W16&W17).
    unfold nl, renew_record.
    cbn [l_magic l_version l_flags l_sector_size l_num_hosts l_max_hosts l_owner_id l_owner_generation l_lver
       l_space_name l_resource_name l_timestamp l_unused1 l_checksum l_unused2 l_io_timeout l_write_id
       l_write_generation l_write_timestamp].
    repeat (split; [assumption|]). split; [reflexivity|]. split; [assumption|]. split.
    - destruct (l_io_timeout l =? io); [assumption|]. change 0xFF with (N.ones 8). rewrite N.land_ones. unfold u16 in *.
      apply N.lt_trans with (2 ^ 8); [apply N.mod_lt; lia|reflexivity].
    - destruct extra as [[[a b] c]|]; [|auto]. destruct (Uex _ _ _ eq_refl) as (U1 & U2 & U3). auto. }
  rewrite firstn_sector in Sl by (auto; lia).
  set (ck := leader_checksum (leader_bytes nl e)) in *.
  assert (Oid : l_owner_id (leader_set_checksum nl ck) = l_owner_id last) by (destruct So as (S1 & _); exact S1).
  assert (R1 : leader_record_in (leader_bytes nl e) = leader_set_checksum nl ck)
    by (apply leader_roundtrip_bytes; auto).
  unfold delta_lease_renew. rewrite Oid, Eo. fold off. rewrite E0. cbn [Z.eqb negb]. rewrite E2.
  assert (Es : get (N.to_nat off) LEADER_SIZE area' = leader_bytes nl e).
  { rewrite <- Sl. rewrite Oid. reflexivity. }
  rewrite Es. fold ck. rewrite R1. cbv zeta.
  assert (V : delta_verify_leader space (leader_set_checksum nl ck) ck = SANLK_OK).
  { unfold delta_verify_leader in *.
    change (l_magic (leader_set_checksum nl ck)) with (l_magic l).
    change (l_version (leader_set_checksum nl ck)) with (l_version l).
    change (l_space_name (leader_set_checksum nl ck)) with (l_space_name l).
    change (l_checksum (leader_set_checksum nl ck)) with ck. rewrite N.eqb_refl. cbn [negb].
    repeat match type of E3 with ((if ?b then _ else _) <? 0)%Z = false => destruct b; [discriminate E3|] end.
    reflexivity. }
  rewrite V. cbn [Z.ltb Z.compare SANLK_OK Z.eqb Pos.eqb andb]. rewrite Oid, !N.eqb_refl.
  assert (X1 : bytes_eqb (l_resource_name (leader_set_checksum nl ck)) (l_resource_name (leader_set_checksum nl ck)) = true)
    by (apply bytes_eqb_eq; auto).
  rewrite X1. cbn [negb orb].
  assert (X2 : leader_eqb (leader_set_checksum nl ck) (leader_set_checksum nl ck) = true) by (apply leader_eqb_eq; auto).
  rewrite X2. cbn [negb]. destruct (wrv' <? 0)%Z eqn:E7; [lia|]. eauto.
Qed.

(* The offset check is one byte too lax: with a host id one past the end of the
   area the record is copied from behind the buffer. *)
Theorem C19_offset_check :
  (forall space io ss align bitmap extra prev last read ts wrv,
     id_in_area (l_owner_id last) ss align ->
     delta_lease_renew space io ss align bitmap extra prev last read ts wrv <> RnUb) /\
  (forall space io ss align bitmap extra prev last area ts wrv,
     align = (l_owner_id last - 1) * ss -> 1 <= l_owner_id last -> l_owner_id last < 2 ^ 64 -> align < 2 ^ 64 ->
     delta_lease_renew space io ss align bitmap extra prev last (0%Z, area) ts wrv = RnUb).
Proof.
  split.
  - intros space io ss align bitmap extra prev last [rv area] ts wrv A. destruct (id_fits _ _ _ A) as [Eo Fo].
    unfold delta_lease_renew. rewrite Eo. change (N.of_nat LEADER_SIZE) with 200.
    destruct (align <? (l_owner_id last - 1) * ss + 200) eqn:E; [lia|].
    repeat match goal with |- (if ?b then _ else _) <> _ => destruct b; [discriminate|] end. discriminate.
  - intros space io ss align bitmap extra prev last area ts wrv E H1 H2 H3.
    unfold delta_lease_renew. rewrite id_offset_small by lia. rewrite <- E. rewrite N.ltb_irrefl. cbn [Z.eqb negb].
    destruct (align <? align + N.of_nat LEADER_SIZE) eqn:F; [reflexivity|]. unfold LEADER_SIZE in F. lia.
Qed.

(* concrete case: host 2 in an area of two 512 byte sectors; after a join with
   generation 3 the renewal at time 100 succeeds, and the next one at 120 as well;
   after a takeover (generation 4) it fails with "not owner", after a foreign
   timestamp with "diff" *)
Definition ex_space : bytes := repeat 65 48.
Definition ex_l (gen ts : N) : leader :=
  mkLeader DELTA_DISK_MAGIC DELTA_DISK_VERSION_MAJOR 0 512 1 1 2 gen 0 ex_space (repeat 66 48) ts 0 0 0 10 0 0 0.
Definition ex_sec (gen ts : N) : bytes := write_leader_sector 512 (ex_l gen ts) (zeros 200).
Definition ex_area (gen ts : N) : bytes := zeros 512 ++ ex_sec gen ts.
Definition ex_last (gen ts : N) : leader := fst (read_leader_sector (ex_sec gen ts)).
Definition ex_bm : bytes := repeat 1 256.
Definition rn_rv (r : rnres) : option Z := match r with Rn rv _ _ => Some rv | RnUb => None end.
Definition rn_next (r : rnres) (area : bytes) : bytes :=
  match r with Rn _ (Some (o, s)) _ => put (N.to_nat o) s area | _ => area end.
Definition rn_ret (r : rnres) : leader := match r with Rn _ _ (Some l) => l | _ => ex_l 0 0 end.

Example C19_nonvacuous :
  let r1 := delta_lease_renew ex_space 10 512 1024 ex_bm (Some (7, 8, 9)) SANLK_OK (ex_last 3 80) (0%Z, ex_area 3 80) 100 0 in
  let r2 := delta_lease_renew ex_space 10 512 1024 ex_bm None SANLK_OK (rn_ret r1) (0%Z, rn_next r1 (ex_area 3 80)) 120 0 in
  id_in_area (l_owner_id (ex_last 3 80)) 512 1024 /\
  rn_rv r1 = Some SANLK_OK /\ rn_rv r2 = Some SANLK_OK /\
  l_timestamp (rn_ret r2) = 120 /\ l_write_timestamp (rn_ret r2) = 9 /\
  rn_rv (delta_lease_renew ex_space 10 512 1024 ex_bm None SANLK_OK (rn_ret r2) (0%Z, ex_area 4 130) 140 0)
    = Some SANLK_RENEW_OWNER /\
  rn_rv (delta_lease_renew ex_space 10 512 1024 ex_bm None SANLK_OK (rn_ret r2) (0%Z, ex_area 3 119) 140 0)
    = Some SANLK_RENEW_DIFF.
Proof. vm_compute. repeat split; congruence. Qed.

Print Assumptions C19_writes_only_untouched.
Print Assumptions C19_success_wrote.
Print Assumptions C19_changed_fails.
Print Assumptions C19_untouched_renews.
Print Assumptions C19_offset_check.
