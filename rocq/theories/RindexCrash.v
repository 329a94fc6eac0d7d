(* Histories of index operations with crashes, and the index invariant. *)
From Coq Require Import List NArith ZArith Lia Bool Arith ZifyBool ZifyN ZifyNat.
From Verif Require Import Bytes Codec Leader Sizes Rindex RindexProof RindexOps.
Import ListNotations.
Open Scope Z_scope.
Local Opaque strncmp_eq.

Inductive rop :=
| OpCreate (name : bytes) (init upd : iout)
| OpDelete (name : bytes) (ro : Z) (upd init : iout)
| OpUpdate (name : bytes) (off : Z) (rem add : bool) (upd : iout)
| OpRebuild (rd : nat -> rdout) (rv : Z) (torn : nat -> bool).

Definition apply_op (g : geom) (d : rdisk) (o : rop) : ores :=
  match o with
  | OpCreate n i u => rindex_create g d n i u
  | OpDelete n ro u i => rindex_delete g d n ro u i
  | OpUpdate n off r a u => rindex_update g d n off r a u
  | OpRebuild rd rv t => rindex_rebuild g d rd rv t
  end.

(* states after any number of operations, each complete or cut short *)
Inductive rhist (g : geom) (ok : rdisk -> rop -> Prop) (d0 : rdisk) : rdisk -> Prop :=
| rh_init : rhist g ok d0 d0
| rh_step d o rv off d' : rhist g ok d0 d -> ok d o -> apply_op g d o = ORet rv off d' -> rhist g ok d0 d'.

Definition nstr (name : bytes) : bytes := cstr 48 name.

(* every name in the index refers to a lease area with a lease of that name *)
Definition index_good (g : geom) (d : rdisk) : Prop :=
  forall i re, Z.of_nat i < max_of g -> entry_at g (d_area d) i = Some re -> nstr (re_name re) <> [] ->
    exists nm, d_lease d (slot_off g i) = Some nm /\ nstr nm = nstr (re_name re).

Definition leases_ok (d : rdisk) : Prop := forall o nm, d_lease d o = Some nm -> name_ok nm.

Definition jinv (g : geom) (d : rdisk) : Prop := disk_ok g d /\ leases_ok d /\ index_good g d.

Lemma cstr_length n l : (length (cstr n l) <= n)%nat.
Proof. revert l; induction n as [|n IH]; intros [|x l]; cbn; try lia. destruct (x =? 0)%N; cbn; [lia|]. specialize (IH l). lia. Qed.

Lemma cstr_nonzero n l x : In x (cstr n l) -> x <> 0%N.
Proof.
  revert l; induction n as [|n IH]; intros [|y l]; cbn; try tauto.
  destruct (N.eqb_spec y 0); [cbn; tauto|]. cbn. intros [<-|H]; [assumption|]. eauto.
Qed.

Lemma cstr_in n l x : In x (cstr n l) -> In x l.
Proof.
  revert l; induction n as [|n IH]; intros [|y l]; cbn; try tauto.
  destruct (y =? 0)%N; cbn; [tauto|]. intros [<-|H]; auto.
Qed.

Lemma cstr_app_zeros n l m : (forall x, In x l -> x <> 0%N) -> (length l <= n)%nat -> cstr n (l ++ repeat 0%N m) = l.
Proof.
  revert n; induction l as [|y l IH]; intros n Hn L.
  - destruct n; [reflexivity|]. destruct m; reflexivity.
  - destruct n; [cbn in L; lia|]. cbn. destruct (N.eqb_spec y 0) as [E|E].
    + exfalso. apply (Hn y); [left; reflexivity|exact E].
    + f_equal. apply IH; [intros x Hx; apply Hn; right; exact Hx|cbn in L; lia].
Qed.

Lemma name48_ok name : name_ok name -> name_ok (name48 name) /\ nstr (name48 name) = nstr name.
Proof.
  intros (L & B). unfold name48, NAME_ID_SIZE, nstr. pose proof (cstr_length 48 name). split.
  - split; [rewrite app_length, repeat_length; lia|].
    apply Forall_app. split.
    + apply Forall_forall. intros x Hx. apply cstr_in in Hx. eapply Forall_forall in B; eauto.
    + apply Forall_forall. intros x Hx. apply repeat_spec in Hx. subst. reflexivity.
  - apply cstr_app_zeros; [apply cstr_nonzero|assumption].
Qed.

Lemma hits_nstr name re : hits (FindName name) re = true -> nstr (re_name re) = nstr name.
Proof. cbn [hits]. rewrite andb_true_iff, strncmp_eq_spec. tauto. Qed.

Lemma free_nstr re : is_free re = true -> nstr (re_name re) = [].
Proof.
  unfold is_free. rewrite andb_true_iff. intros [_ H]. unfold nstr. destruct (re_name re) as [|x l]; [reflexivity|].
  cbn in H. cbn. rewrite H. reflexivity.
Qed.

(* ---- rebuild ---- *)
Lemma rebuild_spec g lease rd :
  geom_ok g -> (forall o nm, lease o = Some nm -> name_ok nm) ->
  forall n i area, Z.of_nat (i + n) <= max_of g -> length area = Z.to_nat (g_align g) ->
  exists a, rebuild_from g lease rd area n i = Some a /\ length a = Z.to_nat (g_align g) /\
    (forall j, Z.of_nat j < max_of g ->
       entry_at g a j = entry_at g area j \/
       (i <= j)%nat /\ exists nm, lease (slot_off g j) = Some nm /\ entry_at g a j = Some (new_entry nm (slot_off g j))) /\
    (forall j nm, (i <= j < i + n)%nat -> (forall k, (k <= j)%nat -> rd k <> RdEnd) -> rd j = RdOk ->
       lease (slot_off g j) = Some nm -> entry_at g a j = Some (new_entry nm (slot_off g j))) /\
    get 0 (Z.to_nat (g_ss g)) a = get 0 (Z.to_nat (g_ss g)) area.
Proof.
  intros G Ln. induction n as [|n IH]; intros i area Hn L; cbn [rebuild_from].
  { exists area. split; [reflexivity|]. split; [exact L|]. split; [auto|]. split; [intros; lia|reflexivity]. }
  destruct (geom_facts g G) as (M1 & S1 & S2 & S3 & A1 & S4 & EP & S5).
  assert (Hi : Z.of_nat i < max_of g) by lia.
  pose proof (EP i Hi) as EPi. pose proof (slot_off_range g i G Hi) as SR.
  rewrite (Z.mod_small (slot_off g i)) by lia.
  assert (Skip : rd i <> RdEnd -> (lease (slot_off g i) = None \/ rd i <> RdOk) ->
     exists a, rebuild_from g lease rd area n (S i) = Some a /\ length a = Z.to_nat (g_align g) /\
    (forall j, Z.of_nat j < max_of g ->
       entry_at g a j = entry_at g area j \/
       (i <= j)%nat /\ exists nm, lease (slot_off g j) = Some nm /\ entry_at g a j = Some (new_entry nm (slot_off g j))) /\
    (forall j nm, (i <= j < i + S n)%nat -> (forall k, (k <= j)%nat -> rd k <> RdEnd) -> rd j = RdOk ->
       lease (slot_off g j) = Some nm -> entry_at g a j = Some (new_entry nm (slot_off g j))) /\
    get 0 (Z.to_nat (g_ss g)) a = get 0 (Z.to_nat (g_ss g)) area).
  { intros Ne Nl. destruct (IH (S i) area ltac:(lia) L) as (a & R & La & B & C & D).
    exists a. split; [exact R|]. split; [exact La|]. split; [|split; [|exact D]].
    - intros j Hj. destruct (B j Hj) as [X|(X1 & X2)]; [auto|right; split; [lia|exact X2]].
    - intros j nm Hj K E F. destruct (Nat.eq_dec j i) as [->|Nj]; [destruct Nl; congruence|].
      apply C; auto; lia. }
  destruct (rd i) eqn:Er.
  - apply Skip; [congruence|right; congruence].
  - exists area. split; [reflexivity|]. split; [exact L|]. split; [auto|]. split; [|reflexivity].
    intros j nm Hj K. exfalso. apply (K i); [lia|exact Er].
  - destruct (lease (slot_off g i)) as [nm0|] eqn:El; [|apply Skip; [congruence|auto]].
    replace (ent_offset_of g i + 64 <=? g_align g) with true by lia.
    assert (W : rentry_wf (new_entry nm0 (slot_off g i))).
    { destruct (Ln _ _ El) as (N1 & N2). unfold rentry_wf, new_entry, u64, u32, NAME_ID_SIZE; cbn [re_res_offset re_flags re_unused re_name].
      split; [lia|]. split; [reflexivity|]. split; [reflexivity|]. auto. }
    assert (EL : length (entry_bytes (new_entry nm0 (slot_off g i))) = 64%nat) by (apply entry_bytes_length; apply W).
    fold (entry_pos g i).
    assert (L' : length (put (entry_pos g i) (entry_bytes (new_entry nm0 (slot_off g i))) area) = Z.to_nat (g_align g)).
    { rewrite put_length; [exact L|unfold entry_pos; lia]. }
    destruct (IH (S i) _ ltac:(lia) L') as (a & R & La & B & C & D).
    exists a. split; [exact R|]. split; [exact La|]. split; [|split].
    + intros j Hj. destruct (B j Hj) as [X|(X1 & X2)]; [|right; split; [lia|exact X2]].
      rewrite X, entry_at_put by assumption. destruct (Nat.eqb_spec j i) as [->|Nj]; [|auto].
      right. split; [lia|]. exists nm0. auto.
    + intros j nm Hj K E F. destruct (Nat.eq_dec j i) as [->|Nj]; [|apply C; auto; lia].
      assert (nm = nm0) as -> by congruence.
      destruct (B i Hi) as [X|(X1 & _)]; [|lia]. rewrite X, entry_at_put by assumption. rewrite Nat.eqb_refl. reflexivity.
    + rewrite D. apply get_put_other; [unfold entry_pos; lia|]. left. unfold entry_pos, ent_offset_of in *. lia.
Qed.

Lemma blank_area_entry g area j :
  geom_ok g -> length area = Z.to_nat (g_align g) -> Z.of_nat j < max_of g ->
  entry_at g (blank_area g area) j = Some no_entry.
Proof.
  intros G L Hj. destruct (geom_facts g G) as (M1 & S1 & S2 & S3 & A1 & S4 & EP & S5). specialize (EP j Hj).
  rewrite entry_at_eq by assumption.
  assert (X : get (entry_pos g j) 64 (blank_area g area) = repeat 0%N 64); [|rewrite X; reflexivity].
  assert (Gl : length (get 0 (Z.to_nat (g_ss g)) area) = Z.to_nat (g_ss g)) by (apply get_length; unfold ent_offset_of in EP; lia).
  apply nth_error_ext. intros k. rewrite nth_error_get. unfold blank_area.
  destruct (Nat.ltb_spec k 64).
  - unfold entry_pos, ent_offset_of in *. rewrite nth_error_app2 by lia. rewrite Gl. rewrite !nth_error_repeat by lia. reflexivity.
  - symmetry. apply nth_error_None. rewrite repeat_length. lia.
Qed.

Lemma blank_area_length g area :
  geom_ok g -> length area = Z.to_nat (g_align g) -> length (blank_area g area) = Z.to_nat (g_align g).
Proof.
  intros G L. destruct (geom_facts g G) as (M1 & S1 & S2 & S3 & A1 & S4 & EP & S5).
  assert (g_ss g <= g_align g) by (specialize (EP 0%nat ltac:(lia)); unfold ent_offset_of in EP; lia).
  unfold blank_area. rewrite app_length, repeat_length, get_length by lia. lia.
Qed.

Lemma nth_error_seq_map {A} (f : nat -> A) n k : nth_error (map f (seq 0 n)) k = if (k <? n)%nat then Some (f k) else None.
Proof.
  destruct (Nat.ltb_spec k n).
  - rewrite (map_nth_error f k (seq 0 n) (d := k)); [reflexivity|].
    rewrite (nth_error_nth' (seq 0 n) 0%nat) by (rewrite seq_length; lia). rewrite seq_nth by lia. reflexivity.
  - apply nth_error_None. rewrite map_length, seq_length. lia.
Qed.

(* an entry lies in one sector, so after a torn write it is the old or the new one *)
Lemma torn_entry g torn new old j :
  geom_ok g -> length new = Z.to_nat (g_align g) -> length old = Z.to_nat (g_align g) -> Z.of_nat j < max_of g ->
  entry_at g (torn_area g torn new old) j = entry_at g new j \/ entry_at g (torn_area g torn new old) j = entry_at g old j.
Proof.
  intros G Ln Lo Hj. destruct (geom_facts g G) as (M1 & S1 & S2 & S3 & A1 & S4 & EP & S5). specialize (EP j Hj).
  rewrite !entry_at_eq by assumption.
  set (p := entry_pos g j). set (s := Z.to_nat (g_ss g)).
  assert (Sec : forall k, (k < 64)%nat -> ((p + k) / s = p / s)%nat).
  { intros k Hk.
    assert (P64 : exists q, p = (64 * q)%nat).
    { apply Z.mod_divide in S2; [|lia]. destruct S2 as [q Hq]. unfold p, entry_pos, ent_offset_of.
      exists (Z.to_nat (q + Z.of_nat j)). lia. }
    assert (Q64 : exists q, s = (64 * q)%nat /\ (0 < q)%nat).
    { apply Z.mod_divide in S2; [|lia]. destruct S2 as [q Hq]. unfold s. exists (Z.to_nat q). lia. }
    destruct P64 as [a Ha]. destruct Q64 as (b & Hb & Hb0).
    rewrite Ha, Hb. rewrite <- !Nat.div_div by lia.
    replace ((64 * a + k) / 64)%nat with a; [replace ((64 * a) / 64)%nat with a; [reflexivity|]|].
    - rewrite Nat.mul_comm, Nat.div_mul by lia. reflexivity.
    - rewrite Nat.mul_comm, Nat.div_add_l by lia. rewrite Nat.div_small by lia. lia. }
  assert (In : (p + 64 <= length old)%nat) by (unfold p, entry_pos; lia).
  destruct (torn (p / s)%nat) eqn:Et; [left|right]; f_equal; f_equal; apply nth_error_ext; intros k; rewrite !nth_error_get;
    (destruct (Nat.ltb_spec k 64); [|reflexivity]);
    unfold torn_area; fold s; rewrite nth_error_seq_map; replace (p + k <? length old)%nat with true by lia;
    rewrite Sec, Et by assumption; symmetry; apply nth_error_nth'; lia.
Qed.

Lemma torn_length g torn new old : length (torn_area g torn new old) = length old.
Proof. unfold torn_area. rewrite map_length, seq_length. reflexivity. Qed.
