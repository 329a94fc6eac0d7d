(* C31: resource index slots map to distinct lease areas. *)
From Coq Require Import List NArith ZArith Lia Bool Arith ZifyBool ZifyN ZifyNat.
From Verif Require Import Bytes Codec Leader Sizes Rindex RindexProof.
Import ListNotations.
Open Scope Z_scope.

(* ---- specification ---- *)
(* two byte ranges of one lease area each do not meet *)
Definition disjoint_areas (align a b : Z) : Prop := a + align <= b \/ b + align <= a.
(* the area lies behind the index area and the index lease area *)
Definition after_index (g : geom) (a : Z) : Prop := g_off g + 2 * g_align g <= a.

(* Full claim: every entry an index can have gets an offset, behind the index,
   and any two entries get disjoint areas *)
Definition C31_statement : Prop :=
  forall g i j, geom_ok g -> Z.of_nat i < max_of g -> Z.of_nat j < max_of g ->
    exists ri rj, res_offset_of g i = Some ri /\ res_offset_of g j = Some rj /\
      after_index g ri /\ (i <> j -> disjoint_areas (g_align g) ri rj).

(* What holds: whenever the search is defined at all the offsets it returns for
   different entries are disjoint areas behind the index.  Missing: entries from
   2048 on (1M areas; 1024, 512, 256 for 2M, 4M, 8M), where the multiplication
   of two ints overflows. *)
Theorem C31_found_areas_partial :
  forall g a a' f f' i j e e' r r',
    geom_ok g ->
    search_entries g a f = SFound i e r -> search_entries g a' f' = SFound j e' r' ->
    after_index g r /\ r mod g_align g = (g_off g) mod g_align g /\
    (i <> j -> disjoint_areas (g_align g) r r') /\ (i = j -> r = r').
Proof.
  intros g a a' f f' i j e e' r r' G H H'.
  destruct (geom_facts g G) as (M1 & S1 & S2 & S3 & A1 & _).
  destruct (search_spec g a f G) as (A & _ & _). destruct (A _ _ _ H) as (I1 & _ & I3 & _).
  destruct (search_spec g a' f' G) as (A' & _ & _). destruct (A' _ _ _ H') as (J1 & _ & J3 & _).
  destruct (res_offset_some g i r G I1 I3) as (-> & R1 & _).
  destruct (res_offset_some g j r' G J1 J3) as (-> & R2 & _).
  unfold after_index, disjoint_areas, slot_off. split; [nia|]. split.
  { replace (g_off g + 2 * g_align g + Z.of_nat i * g_align g) with (g_off g + (2 + Z.of_nat i) * g_align g) by ring.
    apply Z.mod_add. lia. }
  split; [|intros ->; reflexivity]. intros N. assert (Z.of_nat i < Z.of_nat j \/ Z.of_nat j < Z.of_nat i) by lia. nia.
Qed.

(* exactly the entries below the limit get an offset, and it is the N'th area of
   the layout *)
Theorem C31_small_entries_partial :
  forall g i, geom_ok g -> Z.of_nat i < max_of g ->
    (Z.of_nat i * g_align g < 2 ^ 31 -> res_offset_of g i = Some (g_off g + (2 + Z.of_nat i) * g_align g)) /\
    (2 ^ 31 <= Z.of_nat i * g_align g -> res_offset_of g i = None).
Proof.
  intros g i G Hi. destruct (geom_facts g G) as (M1 & S1 & S2 & S3 & A1 & _).
  destruct G as (_ & O & _). unfold res_offset_of, int_mul. split; intros H.
  - replace ((- 2 ^ 31 <=? Z.of_nat i * g_align g) && (Z.of_nat i * g_align g <? 2 ^ 31)) with true by lia.
    f_equal. rewrite Z.mod_small; lia.
  - replace ((- 2 ^ 31 <=? Z.of_nat i * g_align g) && (Z.of_nat i * g_align g <? 2 ^ 31)) with false by lia.
    reflexivity.
Qed.

(* the entries themselves: inside the index, behind the header sector, disjoint *)
Theorem C31_entries_distinct :
  forall g i j, geom_ok g -> Z.of_nat i < max_of g -> Z.of_nat j < max_of g ->
    g_ss g <= ent_offset_of g i /\ ent_offset_of g i + 64 <= g_align g /\
    (i <> j -> ent_offset_of g i + 64 <= ent_offset_of g j \/ ent_offset_of g j + 64 <= ent_offset_of g i).
Proof.
  intros g i j G Hi Hj. destruct (geom_facts g G) as (M1 & S1 & S2 & S3 & A1 & S4 & EP & S5).
  split; [unfold ent_offset_of; lia|]. split; [exact (EP i Hi)|]. unfold ent_offset_of. lia.
Qed.

(* whatever number of resources is asked for, the header which rindex_format writes
   describes such an index *)
Theorem C31_format_ok :
  forall ss align off asked, sizes_ok ss align -> 0 <= off < 2 ^ 63 -> 0 <= asked ->
    let g := mkGeom ss align off (format_max asked ss align) in
    geom_ok g /\ (0 < asked -> max_of g <= asked) /\
    forall i, Z.of_nat i < max_of g -> ent_offset_of g i + 64 <= align.
Proof.
  intros ss align off asked S O A g.
  assert (L : 0 < size_to_max_resources ss align).
  { unfold size_to_max_resources. repeat match goal with |- context [if ?b then _ else _] => destruct b end; lia. }
  assert (G : geom_ok g).
  { unfold geom_ok, g. cbn [g_ss g_align g_off g_max]. split; [exact S|]. split; [exact O|]. unfold format_max. cbv zeta.
    destruct (asked =? 0) eqn:E; (destruct (size_to_max_resources ss align <? _) eqn:F; split; lia). }
  split; [exact G|]. split.
  - intros P. assert (B : 0 < format_max asked ss align <= asked).
    { unfold format_max. cbv zeta. destruct (asked =? 0) eqn:E; [lia|].
      destruct (size_to_max_resources ss align <? asked) eqn:F; lia. }
    unfold max_of, g. cbn [g_max]. replace (format_max asked ss align =? 0) with false by lia. lia.
  - intros i Hi. apply (geom_facts g G). exact Hi.
Qed.

(* the default index of 1M areas: rindex_format without max_resources *)
Definition g1m : geom := mkGeom 512 1048576 1048576 (format_max 0 512 1048576).
Definition g8m : geom := mkGeom 4096 8388608 8388608 (format_max 0 4096 8388608).

Lemma g1m_ok : geom_ok g1m.
Proof. unfold geom_ok, sizes_ok, g1m; cbn. lia. Qed.
Lemma g8m_ok : geom_ok g8m.
Proof. unfold geom_ok, sizes_ok, g8m; cbn. lia. Qed.

Example C31_nonvacuous :
  geom_ok g1m /\ max_of g1m = 4096 /\
  res_offset_of g1m 0 = Some (3 * 1048576) /\ res_offset_of g1m 7 = Some (10 * 1048576) /\
  exists i, Z.of_nat i = 2047 /\ res_offset_of g1m i = Some (2050 * 1048576).
Proof.
  split; [exact g1m_ok|]. do 3 (split; [vm_compute; reflexivity|]).
  exists (Z.to_nat 2047). split; vm_compute; reflexivity.
Qed.

(* entry 2048 of a default index: the int product is 2^31 *)
Theorem C31_refuted : ~ C31_statement.
Proof.
  intros H. destruct (H g1m (Z.to_nat 2048) 0%nat g1m_ok) as (ri & rj & A & _); [vm_compute; reflexivity|vm_compute; reflexivity|].
  revert A. vm_compute. discriminate.
Qed.

(* what a two's complement multiplication does there: entry 2048 gets an offset
   2 GB before its place (and before the index unless that is beyond 2 GB), and
   with 8M areas entry 512, inside a default index, gets the area of entry 0 *)
Theorem C31_wrapped_offsets :
  (forall g, geom_ok g -> g_align g = 1048576 -> 2 ^ 31 <= g_off g + 2097152 ->
     exists i, Z.of_nat i = 2048 /\ res_offset_wrap g i = g_off g + 2 * 1048576 - 2 ^ 31) /\
  (exists i, Z.of_nat i = 512 /\ Z.of_nat i < max_of g8m /\ res_offset_wrap g8m i = res_offset_wrap g8m 0 /\ res_offset_of g8m 0 = Some (res_offset_wrap g8m 0)).
Proof.
  split.
  - intros g (S & O & M) E1 E2. exists (Z.to_nat 2048). split; [vm_compute; reflexivity|].
    unfold res_offset_wrap, int_mul_wrap. rewrite E1.
    replace (wrap32 (Z.of_nat (Z.to_nat 2048) * 1048576)) with (- 2 ^ 31) by (vm_compute; reflexivity).
    rewrite Z.mod_small; lia.
  - exists (Z.to_nat 512). do 3 (split; [vm_compute; reflexivity|]). vm_compute; reflexivity.
Qed.

Print Assumptions C31_found_areas_partial.
Print Assumptions C31_small_entries_partial.
Print Assumptions C31_entries_distinct.
Print Assumptions C31_refuted.
Print Assumptions C31_wrapped_offsets.
Print Assumptions C31_format_ok.
