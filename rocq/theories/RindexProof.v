(* Lemmas about the resource index model. *)
From Coq Require Import List NArith ZArith Lia Bool Arith ZifyBool ZifyN ZifyNat.
From Verif Require Import Bytes Codec Leader Sizes Rindex.
Import ListNotations.
Open Scope Z_scope.
Local Opaque strncmp_eq cstr.

(* a sector size and align size that a lease can have (src/sizeflags.c:31-46) *)
Definition sizes_ok (ss align : Z) : Prop :=
  (ss = 512 /\ align = 1048576) \/ (ss = 4096 /\ (align = 1048576 \/ align = 2097152 \/ align = 4194304 \/ align = 8388608)).

(* a header as rindex_format writes it, the index placed anywhere below 2^63 *)
Definition geom_ok (g : geom) : Prop :=
  sizes_ok (g_ss g) (g_align g) /\ 0 <= g_off g < 2 ^ 63 /\
  0 <= g_max g <= size_to_max_resources (g_ss g) (g_align g).

Lemma geom_facts g :
  geom_ok g ->
  0 < max_of g <= 128000 /\ 0 < g_ss g /\ g_ss g mod 64 = 0 /\ g_align g mod g_ss g = 0 /\
  0 < g_align g <= 8388608 /\ g_ss g <= 4096 /\
  (forall i, Z.of_nat i < max_of g -> ent_offset_of g i + 64 <= g_align g) /\ 512 <= g_ss g.
Proof.
  intros (S & O & M). unfold max_of, ent_offset_of.
  destruct S as [[E1 E2]|[E1 [E2|[E2|[E2|E2]]]]]; rewrite E1, E2 in *;
    match type of M with context [size_to_max_resources ?a ?b] =>
      let v := eval vm_compute in (size_to_max_resources a b) in
      change (size_to_max_resources a b) with v in * end;
    (destruct (g_max g =? 0) eqn:E0;
     (split; [lia|]; split; [lia|]; split; [reflexivity|]; split; [reflexivity|];
      split; [lia|]; split; [lia|]; split; [intros i Hi; lia|lia])).
Qed.

Lemma entry_bytes_length re : length (re_name re) = 48%nat -> length (entry_bytes re) = 64%nat.
Proof.
  intros L. unfold entry_bytes, rindex_entry_out. apply puts_length; [apply repeat_length|].
  unfold shape_of, rindex_entry_writes. cbn [map fst snd]. rewrite L, !le_enc_length. reflexivity.
Qed.

Lemma entry_bytes_in re : rentry_wf re -> rindex_entry_in (entry_bytes re) = re.
Proof. intros W. unfold entry_bytes. apply rentry_roundtrip; [exact W|apply repeat_length]. Qed.

Lemma get_get a b c n l :
  (b + n <= c)%nat -> get b n (get a c l) = get (a + b) n l.
Proof.
  intros H. apply nth_error_ext. intros k. rewrite !nth_error_get.
  destruct (Nat.ltb_spec k n); [|reflexivity]. rewrite (proj2 (Nat.ltb_lt (b + k) c)) by lia.
  f_equal. lia.
Qed.

(* writing back a sector in which one part was replaced is replacing that part *)
Lemma put_put_get so eo n sec area :
  (so + n <= length area)%nat -> (eo + length sec <= n)%nat ->
  put so (put eo sec (get so n area)) area = put (so + eo) sec area.
Proof.
  intros H1 H2.
  assert (L : length (get so n area) = n) by (apply get_length; lia).
  assert (L2 : length (put eo sec (get so n area)) = n) by (rewrite put_length; lia).
  apply nth_error_ext. intros k.
  rewrite (nth_error_put so) by lia. rewrite (nth_error_put (so + eo)) by lia. rewrite L2.
  destruct ((so <=? k)%nat && (k <? so + n)%nat) eqn:E.
  - rewrite nth_error_put by lia. rewrite nth_error_get.
    destruct ((eo <=? k - so)%nat && (k - so <? eo + length sec)%nat) eqn:E2.
    + replace ((so + eo <=? k)%nat && (k <? so + eo + length sec)%nat) with true by lia.
      f_equal. lia.
    + replace ((so + eo <=? k)%nat && (k <? so + eo + length sec)%nat) with false by lia.
      replace (k - so <? n)%nat with true by lia. f_equal. lia.
  - replace ((so + eo <=? k)%nat && (k <? so + eo + length sec)%nat) with false by lia. reflexivity.
Qed.

Definition entry_pos (g : geom) (i : nat) : nat := Z.to_nat (ent_offset_of g i).

(* update of entry i with the right offset: the sector that is written makes the
   area differ in that entry only *)
Lemma update_rindex_entry g area re i :
  geom_ok g -> Z.of_nat i < max_of g -> length area = Z.to_nat (g_align g) -> length (re_name re) = 48%nat ->
  exists so sec, update_rindex g area re (ent_offset_of g i) = Some (so, sec) /\
    0 <= so /\ so mod g_ss g = 0 /\ so + g_ss g <= g_align g /\ g_ss g <= so /\
    length sec = Z.to_nat (g_ss g) /\
    put (Z.to_nat so) sec area = put (entry_pos g i) (entry_bytes re) area.
Proof.
  intros G Hi L Ln. destruct (geom_facts g G) as (M1 & S1 & S2 & S3 & A1 & S4 & EP & S5).
  specialize (EP i Hi). unfold update_rindex.
  set (e := ent_offset_of g i) in *. set (s := g_ss g) in *.
  assert (E0 : s <= e) by (unfold e, ent_offset_of; fold s; lia).
  assert (Ee : e mod 64 = 0).
  { unfold e, ent_offset_of; fold s. rewrite Z.mod_add by lia. exact S2. }
  pose proof (Z.div_mod e s ltac:(lia)) as DM. pose proof (Z.mod_pos_bound e s ltac:(lia)) as MB.
  assert (Dq : s <= s * (e / s)).
  { assert (1 <= e / s) by (apply Z.div_le_lower_bound; lia). nia. }
  assert (SO : (e / s * s) mod 2 ^ 32 = s * (e / s)).
  { rewrite Z.mod_small; lia. }
  assert (EO : (e mod s) mod 2 ^ 32 = e mod s) by (apply Z.mod_small; lia).
  rewrite SO, EO.
  assert (Em : (e mod s) mod 64 = 0).
  { apply Z.mod_divide in S2; [|lia]. destruct S2 as [q Hq].
    replace (e mod s) with (e - q * (e / s) * 64) by (rewrite Z.mod_eq by lia; rewrite Hq; ring).
    rewrite <- Z.add_opp_r, <- Z.mul_opp_l, Z.mod_add by lia. exact Ee. }
  assert (E64 : e mod s + 64 <= s).
  { apply Z.mod_divide in S2; [|lia]. apply Z.mod_divide in Em; [|lia].
    destruct S2 as [q Hq]. destruct Em as [r Hr]. rewrite Hr, Hq in *. nia. }
  assert (SA : s * (e / s) + s <= g_align g).
  { apply Z.mod_divide in S3; [|lia]. destruct S3 as [q Hq]. fold s in Hq.
    assert (s * (e / s) < s * q) by lia.
    assert (e / s < q) by nia. rewrite Hq. nia. }
  replace ((s * (e / s) + s <=? g_align g) && (e mod s + 64 <=? s)) with true by lia.
  eexists. eexists. split; [reflexivity|].
  split; [lia|]. split; [rewrite Z.mul_comm; apply Z.mod_mul; lia|]. split; [lia|]. split; [lia|].
  pose proof (entry_bytes_length re Ln) as EL.
  assert (GL : length (get (Z.to_nat (s * (e / s))) (Z.to_nat s) area) = Z.to_nat s).
  { apply get_length. lia. }
  split. { rewrite put_length; lia. }
  rewrite put_put_get by lia. f_equal. unfold entry_pos. fold e. lia.
Qed.

Lemma entry_at_eq g area i :
  geom_ok g -> Z.of_nat i < max_of g ->
  entry_at g area i = Some (rindex_entry_in (get (entry_pos g i) 64 area)).
Proof.
  intros G Hi. destruct (geom_facts g G) as (M1 & S1 & S2 & S3 & A1 & S4 & EP & S5).
  specialize (EP i Hi). unfold entry_at, entry_at_off.
  replace ((0 <=? ent_offset_of g i) && (ent_offset_of g i + 64 <=? g_align g)) with true;
    [reflexivity|unfold ent_offset_of in *; lia].
Qed.

Lemma entry_at_put g area re i j :
  geom_ok g -> Z.of_nat i < max_of g -> Z.of_nat j < max_of g -> length area = Z.to_nat (g_align g) ->
  rentry_wf re ->
  entry_at g (put (entry_pos g i) (entry_bytes re) area) j = if Nat.eqb j i then Some re else entry_at g area j.
Proof.
  intros G Hi Hj L W. rewrite !entry_at_eq by assumption.
  destruct (geom_facts g G) as (M1 & S1 & S2 & S3 & A1 & S4 & EP & S5).
  pose proof (EP i Hi). pose proof (EP j Hj).
  assert (EL : length (entry_bytes re) = 64%nat) by (apply entry_bytes_length; apply W).
  assert (Pi : entry_pos g i = (Z.to_nat (g_ss g) + 64 * i)%nat) by (unfold entry_pos, ent_offset_of; lia).
  assert (Pj : entry_pos g j = (Z.to_nat (g_ss g) + 64 * j)%nat) by (unfold entry_pos, ent_offset_of; lia).
  assert (In : (entry_pos g i + 64 <= length area)%nat) by (unfold entry_pos; lia).
  destruct (Nat.eqb_spec j i) as [->|Ne].
  - rewrite <- EL at 1. rewrite get_put_same by lia. rewrite entry_bytes_in by exact W. reflexivity.
  - f_equal. f_equal. rewrite get_put_other; [reflexivity|lia|]. lia.
Qed.

(* ---- searching ---- *)
Lemma search_from_spec g area f :
  geom_ok g ->
  forall n i, Z.of_nat (i + n) <= max_of g ->
    (forall k ent r, search_from g area f n i = SFound k ent r ->
       (i <= k < i + n)%nat /\ ent = ent_offset_of g k /\ res_offset_of g k = Some r /\
       exists re, entry_at g area k = Some re /\ hits f re = true /\
         forall j re', (i <= j < k)%nat -> entry_at g area j = Some re' -> hits f re' = false) /\
    (search_from g area f n i = SNone ->
       forall j re', (i <= j < i + n)%nat -> entry_at g area j = Some re' -> hits f re' = false) /\
    (search_from g area f n i = SUb ->
       exists k re, (i <= k < i + n)%nat /\ entry_at g area k = Some re /\ hits f re = true /\ res_offset_of g k = None /\
         forall j re', (i <= j < k)%nat -> entry_at g area j = Some re' -> hits f re' = false).
Proof.
  intros G. induction n as [|n IH]; intros i Hn; cbn [search_from].
  { split; [discriminate|]. split; [intros _ j re' Hj; lia|discriminate]. }
  rewrite (entry_at_eq g area i) by (auto; lia).
  set (re := rindex_entry_in _).
  assert (Ei : entry_at g area i = Some re) by (apply entry_at_eq; auto; lia).
  destruct (hits f re) eqn:Eh.
  - destruct (res_offset_of g i) as [r0|] eqn:Er.
    + split; [|split; discriminate]. intros k ent r H. injection H as <- <- <-.
      split; [lia|]. split; [reflexivity|]. split; [exact Er|]. exists re. split; [exact Ei|]. split; [exact Eh|].
      intros j re' Hj. lia.
    + split; [discriminate|]. split; [discriminate|]. intros _. exists i, re. split; [lia|].
      do 3 (split; [assumption|]). intros j re' Hj. lia.
  - destruct (IH (S i) ltac:(lia)) as (I1 & I2 & I3). split; [|split].
    + intros k ent r H. destruct (I1 k ent r H) as (A & B & C & re1 & D & E & F).
      split; [lia|]. split; [exact B|]. split; [exact C|]. exists re1. split; [exact D|]. split; [exact E|].
      intros j re' Hj Ej. destruct (Nat.eq_dec j i) as [->|Nj]; [congruence|]. apply (F j); [lia|exact Ej].
    + intros H j re' Hj Ej. destruct (Nat.eq_dec j i) as [->|Nj]; [congruence|]. apply (I2 H j); [lia|exact Ej].
    + intros H. destruct (I3 H) as (k & re1 & A & B & C & D & F). exists k, re1. split; [lia|].
      do 3 (split; [assumption|]). intros j re' Hj Ej.
      destruct (Nat.eq_dec j i) as [->|Nj]; [congruence|]. apply (F j); [lia|exact Ej].
Qed.

Lemma search_spec g area f :
  geom_ok g ->
  (forall k ent r, search_entries g area f = SFound k ent r ->
     Z.of_nat k < max_of g /\ ent = ent_offset_of g k /\ res_offset_of g k = Some r /\
     exists re, entry_at g area k = Some re /\ hits f re = true /\
       forall j re', (j < k)%nat -> entry_at g area j = Some re' -> hits f re' = false) /\
  (search_entries g area f = SNone ->
     forall j re', Z.of_nat j < max_of g -> entry_at g area j = Some re' -> hits f re' = false) /\
  (search_entries g area f = SUb ->
     exists k re, Z.of_nat k < max_of g /\ entry_at g area k = Some re /\ hits f re = true /\ res_offset_of g k = None /\
       forall j re', (j < k)%nat -> entry_at g area j = Some re' -> hits f re' = false).
Proof.
  intros G. destruct (geom_facts g G) as (M1 & _).
  destruct (search_from_spec g area f G (Z.to_nat (max_of g)) 0 ltac:(lia)) as (A & B & C).
  unfold search_entries. split; [|split].
  - intros k ent r H. destruct (A k ent r H) as (A1 & A2 & A3 & re & A4 & A5 & A6).
    split; [lia|]. split; [exact A2|]. split; [exact A3|]. exists re. split; [exact A4|]. split; [exact A5|].
    intros j re' Hj. apply A6. lia.
  - intros H j re' Hj. apply (B H). lia.
  - intros H. destruct (C H) as (k & re & C1 & C2 & C3 & C4 & C5). exists k, re. split; [lia|].
    do 3 (split; [assumption|]). intros j re' Hj. apply C5. lia.
Qed.

(* the search returns the first hit when there is one at a slot whose offset is defined *)
Lemma search_from_first g area f k r re :
  geom_ok g -> Z.of_nat k < max_of g -> entry_at g area k = Some re -> hits f re = true ->
  res_offset_of g k = Some r ->
  (forall j re', (j < k)%nat -> entry_at g area j = Some re' -> hits f re' = false) ->
  search_entries g area f = SFound k (ent_offset_of g k) r.
Proof.
  intros G Hk E H R F.
  destruct (search_spec g area f G) as (A & B & C).
  destruct (search_entries g area f) as [k' ent' r'| |] eqn:Es.
  - destruct (A _ _ _ eq_refl) as (A1 & A2 & A3 & re1 & A4 & A5 & A6).
    destruct (Nat.lt_trichotomy k k') as [L|[->|L]].
    + pose proof (A6 _ _ L E). congruence.
    + subst. congruence.
    + pose proof (F _ _ L A4). congruence.
  - pose proof (B eq_refl _ _ Hk E). congruence.
  - destruct (C eq_refl) as (k' & re1 & C1 & C2 & C3 & C4 & C5).
    destruct (Nat.lt_trichotomy k k') as [L|[->|L]].
    + pose proof (C5 _ _ L E). congruence.
    + congruence.
    + pose proof (F _ _ L C2). congruence.
Qed.

(* ---- offsets ---- *)
Lemma res_offset_some g i r :
  geom_ok g -> Z.of_nat i < max_of g -> res_offset_of g i = Some r ->
  r = slot_off g i /\ 0 < r < 2 ^ 64 /\ r mod 2 ^ 64 = r.
Proof.
  intros G Hi H. destruct (geom_facts g G) as (M1 & S1 & S2 & S3 & A1 & S4 & EP & S5).
  destruct G as (_ & O & _). unfold res_offset_of, int_mul in H.
  destruct ((- 2 ^ 31 <=? Z.of_nat i * g_align g) && (Z.of_nat i * g_align g <? 2 ^ 31)) eqn:E; [|discriminate H].
  assert (Hr : r = (g_off g + 2 * g_align g + Z.of_nat i * g_align g) mod 2 ^ 64) by congruence.
  clear H. subst r. unfold slot_off.
  assert (B : 0 < g_off g + 2 * g_align g + Z.of_nat i * g_align g < 2 ^ 64) by lia.
  set (x := g_off g + 2 * g_align g + Z.of_nat i * g_align g) in *.
  assert (X : x mod 2 ^ 64 = x) by (apply Z.mod_small; lia). rewrite X. auto.
Qed.

Lemma slot_off_inj g i j : geom_ok g -> slot_off g i = slot_off g j -> i = j.
Proof.
  intros G H. destruct (geom_facts g G) as (M1 & S1 & S2 & S3 & A1 & _). unfold slot_off in H. nia.
Qed.

Lemma slot_off_range g i : geom_ok g -> Z.of_nat i < max_of g -> 0 < slot_off g i < 2 ^ 64.
Proof.
  intros G H. destruct (geom_facts g G) as (M1 & S1 & S2 & S3 & A1 & _). destruct G as (_ & O & _).
  unfold slot_off. nia.
Qed.
