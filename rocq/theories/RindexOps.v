(* Effects of the index operations, in terms of entries. *)
From Coq Require Import List NArith ZArith Lia Bool Arith ZifyBool ZifyN ZifyNat.
From Verif Require Import Bytes Codec Leader Sizes Rindex RindexProof.
Import ListNotations.
Open Scope Z_scope.
Local Opaque strncmp_eq cstr.

Definition name_ok (name : bytes) : Prop := length name = 48%nat /\ all_bytes name.
Definition disk_ok (g : geom) (d : rdisk) : Prop := length (d_area d) = Z.to_nat (g_align g).

Lemma new_entry_wf g i r name :
  geom_ok g -> Z.of_nat i < max_of g -> res_offset_of g i = Some r -> name_ok name -> rentry_wf (new_entry name r).
Proof.
  intros G Hi R (N1 & N2). destruct (res_offset_some g i r G Hi R) as (_ & B & _).
  unfold rentry_wf, new_entry, u64, u32, NAME_ID_SIZE; cbn [re_res_offset re_flags re_unused re_name].
  split; [lia|]. split; [reflexivity|]. split; [reflexivity|]. auto.
Qed.

Lemma no_entry_wf : rentry_wf no_entry.
Proof.
  unfold rentry_wf, no_entry, u64, u32, NAME_ID_SIZE; cbn [re_res_offset re_flags re_unused re_name].
  do 3 (split; [reflexivity|]). split; [apply repeat_length|].
  apply Forall_forall. intros x Hx. apply repeat_spec in Hx. subst. reflexivity.
Qed.

(* the effect of a sector write by update_rindex on entries *)
Lemma update_entries g d re i :
  geom_ok g -> disk_ok g d -> Z.of_nat i < max_of g -> rentry_wf re ->
  exists so sec, update_rindex g (d_area d) re (ent_offset_of g i) = Some (so, sec) /\
    disk_ok g (set_sector d so sec) /\ d_lease (set_sector d so sec) = d_lease d /\
    forall j, Z.of_nat j < max_of g ->
      entry_at g (d_area (set_sector d so sec)) j = if Nat.eqb j i then Some re else entry_at g (d_area d) j.
Proof.
  intros G D Hi W.
  destruct (update_rindex_entry g (d_area d) re i G Hi D) as (so & sec & U & U1 & U2 & U3 & U4 & U5 & U6); [apply W|].
  destruct (geom_facts g G) as (M1 & S1 & S2 & S3 & A1 & S4 & EP & S5). specialize (EP i Hi).
  exists so, sec. split; [exact U|]. unfold disk_ok, set_sector in *. cbn [d_area d_lease]. rewrite U6.
  assert (EL : length (entry_bytes re) = 64%nat) by (apply entry_bytes_length; apply W).
  split; [rewrite put_length; [exact D|unfold entry_pos; lia]|]. split; [reflexivity|].
  intros j Hj. apply entry_at_put; auto.
Qed.

(* a search only depends on which entries are hits *)
Lemma search_ext g a b f f' :
  geom_ok g ->
  (forall j x y, Z.of_nat j < max_of g -> entry_at g a j = Some x -> entry_at g b j = Some y -> hits f x = hits f' y) ->
  search_entries g a f = search_entries g b f'.
Proof.
  intros G H. unfold search_entries. destruct (geom_facts g G) as (M1 & _).
  assert (X : forall n i, Z.of_nat (i + n) <= max_of g -> search_from g a f n i = search_from g b f' n i).
  { induction n as [|n IH]; intros i Hn; [reflexivity|]. cbn [search_from].
    rewrite (entry_at_eq g a i), (entry_at_eq g b i) by (auto; lia).
    rewrite (H i _ _ ltac:(lia) (entry_at_eq g a i G ltac:(lia)) (entry_at_eq g b i G ltac:(lia))).
    destruct (hits f' _); [reflexivity|]. apply IH. lia. }
  apply X. lia.
Qed.

(* create: either nothing to report on the index, or the first free entry i was
   used as described *)
Lemma create_cases g d name init upd :
  geom_ok g -> disk_ok g d -> name_ok name ->
  match rindex_create g d name init upd with
  | OUb => exists i re, Z.of_nat i < max_of g /\ entry_at g (d_area d) i = Some re /\ is_free re = true /\ res_offset_of g i = None
  | ORet rv off d' =>
    (rv = - ENOENT /\ d' = d /\ forall j re, Z.of_nat j < max_of g -> entry_at g (d_area d) j = Some re -> is_free re = false) \/
    exists i re, Z.of_nat i < max_of g /\ entry_at g (d_area d) i = Some re /\ is_free re = true /\
      (forall j re', (j < i)%nat -> entry_at g (d_area d) j = Some re' -> is_free re' = false) /\
      res_offset_of g i = Some (slot_off g i) /\
      disk_ok g d' /\
      (d_lease d' = d_lease (if io_landed init then set_lease d (slot_off g i) (Some (name48 name)) else d)) /\
      (forall j, Z.of_nat j < max_of g -> entry_at g (d_area d') j =
         if Nat.eqb j i && (negb (io_rv init <? 0) && io_landed upd) then Some (new_entry name (slot_off g i)) else entry_at g (d_area d) j) /\
      ((io_rv init < 0 /\ rv = io_rv init) \/
       (0 <= io_rv init /\ io_rv upd < 0 /\ rv = io_rv upd) \/
       (0 <= io_rv init /\ 0 <= io_rv upd /\ rv = 0 /\ off = slot_off g i))
  end.
Proof.
  intros G D N0. unfold rindex_create. destruct (search_spec g (d_area d) FindFree G) as (A & B & C).
  destruct (search_entries g (d_area d) FindFree) as [i ent res| |].
  - destruct (A _ _ _ eq_refl) as (A1 & -> & A3 & re & A4 & A5 & A6).
    destruct (res_offset_some g i res G A1 A3) as (-> & _).
    set (d1 := if io_landed init then set_lease d (slot_off g i) (Some (name48 name)) else d).
    assert (Da : d_area d1 = d_area d) by (unfold d1; destruct (io_landed init); reflexivity).
    assert (D1 : disk_ok g d1) by (unfold disk_ok; rewrite Da; exact D).
    destruct (io_rv init <? 0) eqn:E1.
    + right. exists i, re. do 5 (split; [assumption|]). split; [exact D1|]. split; [reflexivity|].
      split; [intros j Hj; rewrite Da; cbn; rewrite andb_false_r; reflexivity|]. left. lia.
    + destruct (update_entries g d1 (new_entry name (slot_off g i)) i G D1 A1 (new_entry_wf g i _ name G A1 A3 N0))
        as (so & sec & U & U1 & U2 & U3).
      rewrite Da in U. rewrite U.
      destruct (io_rv upd <? 0) eqn:E2; right; exists i, re; do 5 (split; [assumption|]);
        (destruct (io_landed upd);
         [split; [exact U1|]; split; [exact U2|]; split;
          [intros j Hj; rewrite (U3 j Hj), Da; cbn; rewrite andb_true_r; reflexivity|lia]
         |split; [exact D1|]; split; [reflexivity|]; split;
          [intros j Hj; rewrite Da; cbn; rewrite andb_false_r; reflexivity|lia]]).
  - left. split; [reflexivity|]. split; [reflexivity|]. intros j re. exact (B eq_refl j re).
  - destruct (C eq_refl) as (k & re & C1 & C2 & C3 & C4 & _). exists k, re. auto.
Qed.

Lemma delete_cases g d name ro upd init :
  geom_ok g -> disk_ok g d -> name_ok name ->
  match rindex_delete g d name ro upd init with
  | OUb => exists i re, Z.of_nat i < max_of g /\ entry_at g (d_area d) i = Some re /\ hits (FindName name) re = true /\ res_offset_of g i = None
  | ORet rv off d' =>
    (rv = SANLK_RINDEX_OFFSET /\ d' = d) \/
    (rv = - ENOENT /\ d' = d /\ forall j re, Z.of_nat j < max_of g -> entry_at g (d_area d) j = Some re -> hits (FindName name) re = false) \/
    exists i re, Z.of_nat i < max_of g /\ entry_at g (d_area d) i = Some re /\ hits (FindName name) re = true /\
      (forall j re', (j < i)%nat -> entry_at g (d_area d) j = Some re' -> hits (FindName name) re' = false) /\
      disk_ok g d' /\
      (d_lease d' = d_lease (if negb (io_rv upd <? 0) && io_landed init then set_lease d (slot_off g i) None else d)) /\
      (forall j, Z.of_nat j < max_of g -> entry_at g (d_area d') j =
         if Nat.eqb j i && io_landed upd then Some no_entry else entry_at g (d_area d) j) /\
      ((io_rv upd < 0 /\ rv = io_rv upd) \/
       (0 <= io_rv upd /\ io_rv init < 0 /\ rv = io_rv init) \/
       (0 <= io_rv upd /\ 0 <= io_rv init /\ rv = 0))
  end.
Proof.
  intros G D N0. unfold rindex_delete.
  destruct (negb (ro =? 0) && negb (ro mod g_align g =? 0)); [left; auto|].
  destruct (search_spec g (d_area d) (FindName name) G) as (A & B & C).
  destruct (search_entries g (d_area d) (FindName name)) as [i ent res| |].
  - destruct (A _ _ _ eq_refl) as (A1 & -> & A3 & re & A4 & A5 & A6).
    destruct (res_offset_some g i res G A1 A3) as (-> & _).
    destruct (update_entries g d no_entry i G D A1 no_entry_wf) as (so & sec & U & U1 & U2 & U3).
    rewrite U.
    set (d1 := if io_landed upd then set_sector d so sec else d).
    assert (L1 : d_lease d1 = d_lease d) by (unfold d1; destruct (io_landed upd); [exact U2|reflexivity]).
    assert (D1 : disk_ok g d1) by (unfold d1; destruct (io_landed upd); assumption).
    assert (E1 : forall j, Z.of_nat j < max_of g -> entry_at g (d_area d1) j =
         if Nat.eqb j i && io_landed upd then Some no_entry else entry_at g (d_area d) j).
    { intros j Hj. unfold d1. destruct (io_landed upd).
      - rewrite (U3 j Hj), andb_true_r. reflexivity.
      - rewrite andb_false_r. reflexivity. }
    destruct (io_rv upd <? 0) eqn:Eu.
    + right. right. exists i, re. do 4 (split; [assumption|]). split; [exact D1|]. split; [exact L1|].
      split; [exact E1|]. left. lia.
    + cbn [negb andb].
      assert (L2 : d_lease (if io_landed init then set_lease d1 (slot_off g i) None else d1) =
                   d_lease (if io_landed init then set_lease d (slot_off g i) None else d)).
      { destruct (io_landed init); [unfold set_lease; cbn; rewrite L1; reflexivity|exact L1]. }
      assert (A2 : d_area (if io_landed init then set_lease d1 (slot_off g i) None else d1) = d_area d1)
        by (destruct (io_landed init); reflexivity).
      destruct (io_rv init <? 0) eqn:Ei; right; right; exists i, re; do 4 (split; [assumption|]);
        (split; [unfold disk_ok; rewrite A2; exact D1|]); (split; [exact L2|]);
        (split; [rewrite A2; exact E1|]); lia.
  - right. left. split; [reflexivity|]. split; [reflexivity|]. intros j re. exact (B eq_refl j re).
  - destruct (C eq_refl) as (k & re & C1 & C2 & C3 & C4 & _). exists k, re. auto.
Qed.
